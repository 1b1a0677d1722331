(** The command line tool: words, numbers and output formats. *)
From Coq Require Import List String Ascii Bool NArith ZArith Arith Lia.
From Verif Require Import SMap SMap_Proofs Dbl Config_Spec Lexer_Spec Lexer_Model Glps_Model Glps_Spec Machine_Model Machine_Spec Util_Model Util_Spec Cli_Model Cli_Spec.
From Verif Require Import Lexer_Proofs Cli_Proofs.
Import ListNotations.
Open Scope string_scope.
Open Scope list_scope.

(** ** Words between commas *)
Fixpoint joined (ps : list string) (l : string) : list ascii :=
  match ps with [] => txt l | p :: r => txt p ++ ","%char :: joined r l end.
Lemma txt_concat ps l : txt (String.concat "," (ps ++ [l])) = joined ps l.
Proof.
  induction ps as [|p ps IH]; [reflexivity|]. cbn [joined]. rewrite <- IH. cbn [app].
  assert (E : exists x r, ps ++ [l] = x :: r) by (destruct ps; cbn; eauto). destruct E as (x & r & ->).
  change (String.concat "," (p :: x :: r)) with (p ++ "," ++ String.concat "," (x :: r))%string. rewrite !txt_app. reflexivity.
Qed.
Lemma joined_length ps l : List.length ps <= List.length (joined ps l).
Proof. induction ps as [|p ps IH]; cbn [joined List.length]; [lia|]. rewrite app_length. cbn [List.length]. lia. Qed.
Definition worded (ps : list string) (l : string) : list string := filter (fun p => negb (String.eqb p "")) ps ++ [l].
Lemma tokens_ok fuel : forall ps l pre, List.length ps < fuel -> Forall (without ",") (ps ++ [l]) ->
  option_map (map string_of_list_ascii) (tokens fuel (pre ++ joined ps l) (List.length pre)) = Some (worded ps l).
Proof.
  induction fuel as [|k IH]; intros ps l pre L F; [lia|]. cbn [tokens]. rewrite find_past. destruct ps as [|p ps].
  - cbn [joined]. inversion F as [|? ? W _]; subst. rewrite (proj1 (find_none "," (txt l)) W). cbn [option_map].
    rewrite skipn_app, skipn_all, Nat.sub_diag. cbn [app skipn map]. rewrite of_txt. reflexivity.
  - cbn [joined]. inversion F as [|? ? W F']; subst. rewrite find_here by exact W. cbn [option_map].
    specialize (IH ps l (pre ++ txt p ++ [","%char])). rewrite !app_length in IH. cbn [List.length] in IH.
    replace (List.length pre + (List.length (txt p) + 1)) with (S (List.length pre + List.length (txt p))) in IH by lia.
    rewrite <- !app_assoc in IH. cbn [app] in IH. specialize (IH ltac:(cbn [List.length] in L; lia) F').
    destruct (tokens k _ _) as [r|]; [|discriminate]. cbn [option_map] in *. injection IH as IH. f_equal. unfold worded. cbn [filter].
    destruct (Nat.eqb_spec (List.length pre + List.length (txt p)) (List.length pre)) as [E|E].
    + cbn [negb]. assert (Z0 : txt p = []) by (apply length_zero_iff_nil; lia). assert (E' : p = "") by (apply txt_inj; exact Z0). rewrite E'. exact IH.
    + cbn [negb map]. rewrite IH. replace (String.eqb p "") with false by (symmetry; apply String.eqb_neq; intros ->; apply E; cbn; lia).
      cbn [negb app]. unfold worded. f_equal. unfold substr. rewrite skipn_app, skipn_all, Nat.sub_diag. cbn [skipn app].
      replace (List.length pre + List.length (txt p) - List.length pre) with (List.length (txt p)) by lia.
      rewrite firstn_app, Nat.sub_diag, firstn_all. cbn [firstn]. rewrite app_nil_r. apply of_txt.
Qed.
Lemma split_at_commas t : exists ps l, t = joined ps l /\ Forall (without ",") (ps ++ [l]).
Proof.
  induction t as [|c t (ps & l & E & F)].
  - exists [], "". split; [reflexivity|]. constructor; [intros []|constructor].
  - destruct (ascii_dec c ",") as [->|N].
    + exists ("" :: ps), l. cbn. rewrite <- E. split; [reflexivity|]. constructor; [intros []|exact F].
    + destruct ps as [|p ps].
      * exists [], (String c l). cbn in *. split; [f_equal; exact E|]. inversion F as [|? ? W _]; subst. constructor; [|constructor]. intros [H|H]; [congruence|contradiction].
      * exists (String c p :: ps), l. cbn in *. split; [f_equal; exact E|]. inversion F as [|? ? W F']; subst. constructor; [|exact F']. intros [H|H]; [congruence|contradiction].
Qed.
Lemma tokenize_joined ps l s : txt s = joined ps l -> Forall (without ",") (ps ++ [l]) -> tokenize s = Some (worded ps l).
Proof.
  intros E F. unfold tokenize. fold (txt s). rewrite E. apply (tokens_ok _ ps l []); [|exact F]. pose proof (joined_length ps l). cbn. lia.
Qed.
Lemma tokenize_correct s ws : tokenize s = Some ws <-> comma_words s ws.
Proof.
  split.
  - intros H. destruct (split_at_commas (txt s)) as (ps & l & E & F). exists ps, l. rewrite (tokenize_joined ps l s E F) in H. injection H as <-.
    split; [|split; [exact F|reflexivity]]. apply txt_inj. rewrite txt_concat. exact E.
  - intros (ps & l & -> & F & ->). rewrite (tokenize_joined ps l _ (txt_concat ps l) F). reflexivity.
Qed.

(** ** Integers *)
Lemma digits_dec l : forall acc, digits_value l acc = if forallb c_digit l then Some (dec acc l) else None.
Proof.
  induction l as [|c l IH]; intros acc; [reflexivity|]. cbn [digits_value forallb dec]. replace (c_digit c) with (is_digit c) by (symmetry; apply digit_digit). destruct (is_digit c) eqn:D; [|reflexivity].
  rewrite IH. cbn [andb]. destruct (forallb c_digit l); [|reflexivity]. do 2 f_equal. unfold is_digit, in_range in D. apply andb_true_iff in D as [D _]. apply N.leb_le in D. lia.
Qed.
Lemma sign_cases l : (exists r, l = "-"%char :: r) \/ (exists r, l = "+"%char :: r) \/
  (forall A (a b : list ascii -> A) (c : A), match l with "-"%char :: r => a r | "+"%char :: r => b r | _ => c end = c) /\ hd "0"%char l <> "-"%char /\ hd "0"%char l <> "+"%char.
Proof.
  destruct l as [|c l]; [right; right; repeat split; discriminate|]. destruct (ascii_dec c "-") as [->|N1]; [eauto|]. destruct (ascii_dec c "+") as [->|N2]; [eauto|].
  right; right. split; [|split; assumption]. intros A a b d. destruct c as [[|] [|] [|] [|] [|] [|] [|] [|]]; try reflexivity; exfalso; auto.
Qed.
Definition word_value (neg : bool) (l : list ascii) : option Z :=
  match l with
  | [] => None
  | _ => if forallb c_digit l then let v := if neg then (- dec 0 l)%Z else dec 0 l in
           if (Z.leb INT_MIN v && Z.leb v INT_MAX)%bool then Some v else None
         else None
  end.
Lemma word_value_ok neg l z : word_value neg l = Some z <->
  l <> [] /\ forallb c_digit l = true /\ z = (if neg then (- dec 0 l)%Z else dec 0 l) /\ (INT_MIN <= z <= INT_MAX)%Z.
Proof.
  unfold word_value. destruct l as [|c l]; [split; [discriminate|intros [H _]; congruence]|]. destruct (forallb c_digit (c :: l)); [|split; [discriminate|intros (_ & H & _); discriminate]].
  destruct ((INT_MIN <=? _)%Z && _)%bool eqn:E.
  - apply andb_true_iff in E as [E1 E2]. apply Z.leb_le in E1, E2. split; [intros [= <-]|intros (_ & _ & -> & _)]; auto. repeat split; auto. discriminate.
  - split; [discriminate|]. intros (_ & _ & -> & E1 & E2). apply Z.leb_le in E1, E2. rewrite E1, E2 in E. discriminate.
Qed.
Lemma lex_int_cases s : (exists r, txt s = "-"%char :: r /\ lex_int s = word_value true r) \/ (exists r, txt s = "+"%char :: r /\ lex_int s = word_value false r) \/
  (hd "0"%char (txt s) <> "-"%char /\ hd "0"%char (txt s) <> "+"%char /\ lex_int s = word_value false (txt s)).
Proof.
  assert (V : forall (neg : bool) (l : list ascii), match l with [] => None | _ => match digits_value l 0 with Some v => let v := if neg then (- v)%Z else v in
                if (Z.leb INT_MIN v && Z.leb v INT_MAX)%bool then Some v else None | None => None end end = word_value neg l).
  { intros neg l. unfold word_value. destruct l as [|c l]; [reflexivity|]. rewrite digits_dec. destruct (forallb c_digit (c :: l)); reflexivity. }
  unfold lex_int. fold (txt s). destruct (sign_cases (txt s)) as [(r & E)|[(r & E)|(E & N1 & N2)]].
  - left. exists r. rewrite E. split; [reflexivity|]. exact (V true r).
  - right; left. exists r. rewrite E. split; [reflexivity|]. exact (V false r).
  - right; right. split; [exact N1|]. split; [exact N2|]. rewrite E. exact (V false (txt s)).
Qed.
Lemma lex_int_correct s z : lex_int s = Some z <-> int_word s z.
Proof.
  assert (D1 : c_digit "-" = false) by reflexivity. assert (D2 : c_digit "+" = false) by reflexivity.
  destruct (lex_int_cases s) as [(r & E & ->)|[(r & E & ->)|(N1 & N2 & ->)]]; rewrite word_value_ok; split.
  - intros (A & B & -> & C). exists ["-"%char], r. repeat split; auto; apply C.
  - intros (sg & ds & E' & A & B & C & R). rewrite E in E'. destruct C as [[[-> | ->] ->]|[-> ->]]; cbn in E'.
    + subst ds. cbn [forallb] in B. rewrite D1 in B. discriminate.
    + discriminate.
    + injection E' as ->. repeat split; auto; apply R.
  - intros (A & B & -> & C). exists ["+"%char], r. repeat split; auto; apply C.
  - intros (sg & ds & E' & A & B & C & R). rewrite E in E'. destruct C as [[[-> | ->] ->]|[-> ->]]; cbn in E'.
    + subst ds. cbn [forallb] in B. rewrite D2 in B. discriminate.
    + injection E' as ->. repeat split; auto; apply R.
    + discriminate.
  - intros (A & B & -> & C). exists [], (txt s). repeat split; auto; apply C.
  - intros (sg & ds & E' & A & B & C & R). destruct C as [[[-> | ->] ->]|[-> ->]]; cbn in E'.
    + rewrite E'. repeat split; auto; apply R.
    + exfalso. apply N2. rewrite E'. reflexivity.
    + exfalso. apply N1. rewrite E'. reflexivity.
Qed.

(** ** Options of formats *)
Lemma append_nil s : (s ++ "")%string = s.
Proof. induction s as [|c s IH]; [reflexivity|]. cbn. f_equal. exact IH. Qed.
Lemma substring_all s : String.substring 0 (String.length s) s = s.
Proof. induction s as [|c s IH]; [reflexivity|]. cbn. f_equal. exact IH. Qed.
Lemma after_app p x : after p (p ++ x) = Some x.
Proof.
  unfold after. assert (E1 : String.substring 0 (String.length p) (p ++ x) = p). { induction p as [|c p IH]; cbn; [destruct x; reflexivity|]. f_equal. exact IH. }
  rewrite E1, String.eqb_refl. f_equal. clear E1. induction p as [|c p IH]; cbn [String.length append String.substring].
  - cbn. rewrite Nat.sub_0_r. apply substring_all.
  - exact IH.
Qed.
Lemma after_some p s x : after p s = Some x <-> s = (p ++ x)%string.
Proof.
  split; [|intros ->; apply after_app]. unfold after. destruct (String.eqb_spec (String.substring 0 (String.length p) s) p) as [E|]; [|discriminate]. intros [= <-].
  revert s E. induction p as [|c p IH]; intros s E; cbn [String.length append].
  - rewrite Nat.sub_0_r, substring_all. reflexivity.
  - destruct s as [|d s]; [discriminate|]. cbn [String.length String.substring] in E. injection E as -> E. f_equal. cbn. apply IH, E.
Qed.
Lemma last_unique {A} (P : A -> Prop) a x b a' x' b' : a ++ x :: b = a' ++ x' :: b' -> P x -> P x' -> (forall y, In y b -> ~ P y) -> (forall y, In y b' -> ~ P y) -> x = x'.
Proof.
  intros E Px Px' N N'. revert a' E. induction a as [|y a IH]; intros [|z a'] E; cbn in E.
  - congruence.
  - injection E as <- E. exfalso. apply (N x'); [|exact Px']. rewrite E. apply in_or_app. right. left. reflexivity.
  - injection E as -> E. exfalso. apply (N' x); [|exact Px]. rewrite <- E. apply in_or_app. right. left. reflexivity.
  - injection E as _ E. eapply IH, E.
Qed.
Lemma last_file_one ws o o' : last_file ws o -> last_file ws o' -> o = o'.
Proof.
  intros [[N ->]|(a & x & b & E & N & ->)] [[N' ->]|(a' & x' & b' & E' & N' & ->)]; auto.
  - exfalso. apply (N ("file=" ++ x')%string); [rewrite E'; apply in_or_app; right; left; reflexivity|eexists; reflexivity].
  - exfalso. apply (N' ("file=" ++ x)%string); [rewrite E; apply in_or_app; right; left; reflexivity|eexists; reflexivity].
  - rewrite E in E'. pose proof (last_unique names_file _ _ _ _ _ _ E' ltac:(eexists; reflexivity) ltac:(eexists; reflexivity) N N') as H. cbn in H. congruence.
Qed.
Lemma int_word_one s z z' : int_word s z -> int_word s z' -> z = z'.
Proof. intros H H'. apply lex_int_correct in H, H'. congruence. Qed.
Lemma gives_about w z : gives_level w z -> about_level w.
Proof. intros [[-> _]|(x & -> & _)]; [left|right]; eauto. Qed.
Lemma gives_one w z z' : gives_level w z -> gives_level w z' -> z = z'.
Proof.
  intros [[-> ->]|(x & -> & H)] [[E ->]|(x' & E & H')]; auto; try discriminate. cbn in E. injection E as <-. eapply int_word_one; eauto.
Qed.
Lemma last_level_one ws z z' : last_level ws z -> last_level ws z' -> z = z'.
Proof.
  intros [_ [[N ->]|(a & x & b & E & N & G)]] [_ [[N' ->]|(a' & x' & b' & E' & N' & G')]]; auto.
  - exfalso. apply (N x'); [rewrite E'; apply in_or_app; right; left; reflexivity|eapply gives_about, G'].
  - exfalso. apply (N' x); [rewrite E; apply in_or_app; right; left; reflexivity|eapply gives_about, G].
  - rewrite E in E'. assert (x = x') as <- by (eapply (last_unique about_level _ _ _ _ _ _ E'); eauto using gives_about). eapply gives_one; eauto.
Qed.
Lemma last_file_keep ws o c : last_file ws o -> ~ names_file c -> last_file (ws ++ [c]) o.
Proof.
  intros [[N ->]|(a & x & b & -> & N & ->)] Nc; [left|right].
  - split; [|reflexivity]. intros w Hw. apply in_app_or in Hw as [Hw|[<-|[]]]; auto.
  - exists a, x, (b ++ [c]). rewrite <- app_assoc. repeat split. intros w Hw. apply in_app_or in Hw as [Hw|[<-|[]]]; auto.
Qed.
Lemma last_file_new ws x : last_file (ws ++ [("file=" ++ x)%string]) (Some x).
Proof. right. exists ws, x, []. repeat split. intros w []. Qed.
Lemma last_level_keep ws z c : last_level ws z -> ~ about_level c -> last_level (ws ++ [c]) z.
Proof.
  intros [T H] Nc. split.
  - intros w Hw A. apply in_app_or in Hw as [Hw|[<-|[]]]; [auto|contradiction].
  - destruct H as [[N ->]|(a & x & b & -> & N & G)]; [left|right].
    + split; [|reflexivity]. intros w Hw. apply in_app_or in Hw as [Hw|[<-|[]]]; auto.
    + exists a, x, (b ++ [c]). rewrite <- app_assoc. repeat split; auto. intros w Hw. apply in_app_or in Hw as [Hw|[<-|[]]]; auto.
Qed.
Lemma last_level_new ws z0 z c : last_level ws z0 -> gives_level c z -> last_level (ws ++ [c]) z.
Proof.
  intros [T _] G. split; [|right; exists ws, c, []; repeat split; auto; intros v []].
  intros w Hw A. apply in_app_or in Hw as [Hw|[<-|[]]]; eauto.
Qed.
Lemma file_not_level w : names_file w -> ~ about_level w.
Proof. intros (x & ->) [E|(y & E)]; discriminate. Qed.
Lemma not_file w : after "file=" w = None -> ~ names_file w.
Proof. intros H (x & ->). rewrite after_app in H. discriminate. Qed.
Lemma text_option_ok ws o z c o' z' : last_file ws o -> last_level ws z -> text_option (o, z) c = Some (o', z') -> last_file (ws ++ [c]) o' /\ last_level (ws ++ [c]) z'.
Proof.
  intros F L. unfold text_option. cbn [fst snd]. destruct (after "file=" c) as [x|] eqn:A.
  - intros [= <- <-]. apply after_some in A. subst c. split; [apply last_file_new|]. apply last_level_keep; [exact L|]. apply file_not_level. eexists; reflexivity.
  - apply not_file in A. destruct (String.eqb_spec c "verbose") as [->|NV].
    + intros [= <- <-]. split; [apply last_file_keep; auto|]. apply (last_level_new ws z); [exact L|]. left; auto.
    + destruct (after "verbose=" c) as [x|] eqn:V.
      * destruct (lex_int x) as [y|] eqn:I; [|discriminate]. intros [= <- <-]. split; [apply last_file_keep; auto|]. apply (last_level_new ws z); [exact L|].
        right. exists x. split; [apply after_some, V|apply lex_int_correct, I].
      * intros [= <- <-]. split; [apply last_file_keep; auto|]. apply last_level_keep; [exact L|]. intros [->|(x & ->)]; [congruence|]. rewrite after_app in V. discriminate.
Qed.
Lemma text_option_total f c : (about_level c -> exists y, gives_level c y) -> exists f', text_option f c = Some f'.
Proof.
  intros H. unfold text_option. destruct (after "file=" c) as [x|] eqn:A; [eauto|]. destruct (String.eqb_spec c "verbose") as [->|NV]; [eauto|].
  destruct (after "verbose=" c) as [x|] eqn:V; [|eauto]. apply after_some in V. subst c. destruct H as (y & [[E _]|(x' & E & I)]); [right; eauto|discriminate|].
  cbn in E. injection E as <-. apply lex_int_correct in I. rewrite I. cbn. eauto.
Qed.
Lemma text_options_ok cs : forall ws o z o' z', last_file ws o -> last_level ws z -> text_options (o, z) cs = Some (o', z') -> last_file (ws ++ cs) o' /\ last_level (ws ++ cs) z'.
Proof.
  induction cs as [|c cs IH]; intros ws o z o' z' F L H; cbn [text_options] in H; [injection H as <- <-; rewrite app_nil_r; auto|].
  destruct (text_option (o, z) c) as [[o1 z1]|] eqn:E; [|discriminate]. destruct (text_option_ok _ _ _ _ _ _ F L E) as [F1 L1].
  specialize (IH _ _ _ _ _ F1 L1 H). rewrite <- app_assoc in IH. exact IH.
Qed.
Lemma text_options_total cs : (forall c, In c cs -> about_level c -> exists y, gives_level c y) -> forall f, exists f', text_options f cs = Some f'.
Proof.
  induction cs as [|c cs IH]; intros H f; [eexists; reflexivity|]. cbn [text_options]. destruct (text_option_total f c) as (f1 & ->); [apply H; left; reflexivity|].
  apply IH. intros d Hd. apply H. right. exact Hd.
Qed.
Lemma text_options_correct ws o z : text_options (None, 1%Z) ws = Some (o, z) <-> last_file ws o /\ last_level ws z.
Proof.
  assert (B : last_file [] None) by (left; split; [intros w []|reflexivity]).
  assert (B' : last_level [] 1) by (split; [intros w []|left; split; [intros w []|reflexivity]]).
  split; [apply (text_options_ok ws [] None 1 o z B B')|]. intros [F L]. destruct (text_options_total ws (proj1 L) (None, 1%Z)) as ([o' z'] & E). rewrite E.
  destruct (text_options_ok ws [] _ _ _ _ B B' E) as [F' L']. rewrite (last_file_one _ _ _ F F'), (last_level_one _ _ _ L L'). reflexivity.
Qed.
Lemma h5_options_ok cs : forall ws o, last_file ws o -> last_file (ws ++ cs) (fold_left h5_option cs o).
Proof.
  induction cs as [|c cs IH]; intros ws o F; [rewrite app_nil_r; exact F|]. cbn [fold_left]. replace (ws ++ c :: cs) with ((ws ++ [c]) ++ cs) by (rewrite <- app_assoc; reflexivity).
  apply IH. unfold h5_option. destruct (after "file=" c) as [x|] eqn:A; [apply after_some in A; subst c; apply last_file_new|]. apply last_file_keep; [exact F|]. apply not_file, A.
Qed.
Lemma has_char_spec c s : has_char c s = false <-> without c s.
Proof.
  unfold has_char, without. fold (txt s). rewrite find_none. destruct (find_from c (txt s) 0); split; congruence.
Qed.
Lemma picked_filter ws ns : picked ws ns <-> ns = filter (fun c => negb (has_char "=" c)) ws.
Proof.
  split.
  - induction 1 as [|n ws ns H _ ->|n ws ns H _ ->]; [reflexivity| |]; cbn [filter].
    + apply has_char_spec in H. rewrite H. reflexivity.
    + destruct (has_char "=" n) eqn:E; [reflexivity|]. apply has_char_spec in E. contradiction.
  - intros ->. induction ws as [|n ws IH]; cbn [filter]; [constructor|]. destruct (has_char "=" n) eqn:E; cbn [negb].
    + apply pk_skip; [|exact IH]. intros H. apply has_char_spec in H. congruence.
    + apply pk_take; [apply has_char_spec, E|exact IH].
Qed.
Lemma make_factory_correct h5 s f : make_factory h5 s = Some f <-> format_as h5 s f.
Proof.
  unfold make_factory. split.
  - destruct (tokenize s) as [[|k ws]|] eqn:T; try discriminate. apply tokenize_correct in T. intros H. exists k, ws. split; [exact T|].
    destruct (String.eqb_spec k "txt") as [->|N1].
    + left. split; [reflexivity|]. destruct (text_options (None, 1%Z) ws) as [[o z]|] eqn:E; [|discriminate]. injection H as <-. apply text_options_correct in E as [E1 E2]. exists o, z. auto.
    + right. destruct h5; cbn [andb] in H.
      * destruct (String.eqb_spec k "hdf5") as [->|N2].
        -- left. injection H as <-. repeat split. exists (fold_left h5_option ws None). split; [|reflexivity]. apply (h5_options_ok ws [] None). left; split; [intros w []|reflexivity].
        -- right. destruct (String.eqb_spec k "utest") as [->|]; [|discriminate]. injection H as <-. split; [reflexivity|]. eexists. split; [reflexivity|]. apply picked_filter. reflexivity.
      * right. destruct (String.eqb_spec k "utest") as [->|]; [|discriminate]. injection H as <-. split; [reflexivity|]. eexists. split; [reflexivity|]. apply picked_filter. reflexivity.
  - intros (k & ws & T & H). apply tokenize_correct in T. rewrite T. destruct H as [(-> & o & z & F & L & ->)|[(-> & -> & o & F & ->)|(-> & ns & -> & P)]]; cbn [String.eqb Ascii.eqb Bool.eqb andb].
    + rewrite (proj2 (text_options_correct ws o z) (conj F L)). reflexivity.
    + assert (F' : last_file ws (fold_left h5_option ws None)) by (apply (h5_options_ok ws [] None); left; split; [intros w []|reflexivity]).
      rewrite (last_file_one _ _ _ F F'). reflexivity.
    + apply picked_filter in P. subst ns. rewrite andb_false_r. reflexivity.
Qed.
