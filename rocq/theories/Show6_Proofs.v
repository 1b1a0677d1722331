(** Machines made from lattice files: their names are words, so their text can be
    read back. *)
From Coq Require Import List String Ascii Bool NArith ZArith Lia DecimalString.
From Verif Require Import SMap Dbl Config_Spec Lexer_Model Lexer_Spec Glps_Model Glps_Spec Glps6_Proofs
  Machine_Model Machine_Spec Machine_Proofs Print_Model Log_Model
  Show_Model Show_Spec Show_Proofs Show2_Proofs Show3_Proofs Show5_Proofs.
Import ListNotations.
Open Scope string_scope.
Open Scope list_scope.

(** ** Keywords *)
Definition wordchar (c : ascii) : bool := por c_word (one ":") c.
Definition word (s : string) : Prop := forallb wordchar (chars s) = true.
Lemma star_all p t : matches (RStar (RChr p)) t -> forallb p t = true.
Proof.
  intros H. remember (RStar (RChr p)) as r eqn:E. induction H; try discriminate; injection E as ->; [reflexivity|].
  inversion H; subst. cbn [List.app forallb]. rewrite H2. apply IHmatches2. reflexivity.
Qed.
Lemma alpha_word c : c_alpha c = true -> wordchar c = true.
Proof. unfold wordchar, c_word, por. intros ->. reflexivity. Qed.
Lemma cword_word c : c_word c = true -> wordchar c = true.
Proof. unfold wordchar, por. intros ->. reflexivity. Qed.
Lemma seq_inv a b p : matches (RSeq a b) p -> exists s t, p = s ++ t /\ matches a s /\ matches b t.
Proof. intros H. inversion H; subst. eauto. Qed.
Lemma chr_inv q p : matches (RChr q) p -> exists c, p = [c] /\ q c = true.
Proof. intros H. inversion H; subst. eauto. Qed.
Lemma opt_inv a p : matches (ROpt a) p -> p = [] \/ matches a p.
Proof. intros H. inversion H; subst; auto. Qed.
Lemma keyword_word p : matches (rule_re LKeyword) p -> forallb wordchar p = true.
Proof.
  cbn [rule_re]. intros H. apply seq_inv in H as (a & b & -> & A & H). apply chr_inv in A as (c & -> & A).
  cbn [List.app forallb]. rewrite alpha_word by exact A. cbn [andb]. apply opt_inv in H as [->|H]; [reflexivity|].
  apply seq_inv in H as (u & v & -> & U & H). apply chr_inv in H as (e & -> & E).
  rewrite forallb_app. pose proof (star_all _ _ U) as U'. change (por c_word (one ":")) with wordchar in U'. rewrite U'.
  cbn [forallb andb]. rewrite cword_word by exact E. reflexivity.
Qed.
Lemma tokens_words s ts : tokenises s ts -> forall n, In (KKw n) ts -> word n.
Proof.
  induction 1 as [|r p rest ts L V T IH|r p rest t ts L V T IH]; intros n I; [destruct I|auto|]. destruct I as [->|I]; [|auto].
  inversion V; subst. destruct L as [L _]. unfold word, chars. rewrite list_ascii_of_string_of_list_ascii. apply keyword_word. exact L.
Qed.
Lemma file_words p ts : wr_file p ts -> forall n t l, In (SElem n t l) p -> In (KKw n) ts /\ In (KKw t) ts.
Proof.
  induction 1 as [|s p ts us S F IH]; intros n t l I; [destruct I|]. destruct I as [->|I].
  - inversion S; subst. split; apply in_or_app; left; [left; reflexivity|right; right; left; reflexivity].
  - destruct (IH n t l I). split; apply in_or_app; right; assumption.
Qed.
Lemma spelt_words s p n t l : spells s p -> In (SElem n t l) p -> word n /\ word t.
Proof. intros (ts & T & W) I. destruct (file_words p ts W n t l I). split; eapply tokens_words; eassumption. Qed.
Lemma wordchar_not c x : wordchar c = true -> wordchar x = false -> c <> x.
Proof. intros H N ->. rewrite H in N. discriminate. Qed.
Lemma word_free s x : word s -> wordchar x = false -> ~ In x (chars s).
Proof. intros W N I. unfold word in W. rewrite forallb_forall in W. apply W in I. rewrite I in N. discriminate. Qed.
Lemma word_line s : word s -> one_line s.
Proof. intros W. apply word_free; [exact W|reflexivity]. Qed.
Lemma word_calm s : word s -> ~ In "000"%char (chars s).
Proof. intros W. apply word_free; [exact W|reflexivity]. Qed.

(** ** Reading lines back *)
Lemma split_at (x : ascii) : forall a b c d, ~ In x a -> ~ In x c -> a ++ x :: b = c ++ x :: d -> a = c /\ b = d.
Proof.
  induction a as [|y a IH]; intros b [|z c] d Ha Hc H; cbn [List.app] in H.
  - injection H as ->. auto.
  - injection H as -> _. exfalso. apply Hc. left. reflexivity.
  - injection H as -> _. exfalso. apply Ha. left. reflexivity.
  - injection H as -> H. destruct (IH b c d) as [-> ->]; auto; intros I; [apply Ha|apply Hc]; right; exact I.
Qed.
Lemma reads_digits d n : reads d n -> ~ In ":"%char d.
Proof.
  unfold reads. revert n. induction d as [|c d IH]; intros n H I; [exact I|].
  cbn [string_of_list_ascii NilEmpty.uint_of_string] in H.
  destruct (NilEmpty.uint_of_string (string_of_list_ascii d)) as [u|] eqn:E; [|discriminate].
  destruct I as [->|I]; [discriminate|]. apply (IH (N.of_uint u)); [reflexivity|exact I].
Qed.
Lemma element_line_reads l i n t i' n' t' : word n -> word n' ->
  element_line l i n t -> element_line l i' n' t' -> i = i' /\ n = n' /\ t = t'.
Proof.
  intros W W' (d & R & E) (d' & R' & E'). rewrite E in E'. apply app_inv_head in E'. cbn [chars list_ascii_of_string List.app] in E'.
  destruct (split_at ":"%char d _ d' _ (reads_digits d i R) (reads_digits d' i' R') E') as [-> E2].
  injection E2 as E2. destruct (split_at " "%char (chars n) _ (chars n') _ (word_free n " "%char W eq_refl) (word_free n' " "%char W' eq_refl) E2) as [E3 E4].
  injection E4 as E4. apply app_inj_tail in E4 as [E4 _]. unfold chars in E3, E4.
  split; [unfold reads in *; congruence|]. split.
  - rewrite <- (string_of_list_ascii_of_string n), E3. apply string_of_list_ascii_of_string.
  - rewrite <- (string_of_list_ascii_of_string t), E4. apply string_of_list_ascii_of_string.
Qed.

Section S.
Context {D B : Type}.
Variable own : elem D B -> extra.

Lemma parsed_elements (r : registry D B) t m : new_machine r t = Ok m -> get_cfgs t "elements" = Ok (elements_of t).
Proof.
  intros H. destruct (new_machine_ok r t m H) as (x & i & es & _ & _ & H3 & _). unfold elements_of, get_cfgs.
  change (tlookup "elements" t) with (tfind "elements" t). rewrite H3. reflexivity.
Qed.
(** An element's Config and the statement that made it *)
Lemma parsed_names w vars s t p : ssorted vars -> parse_text w vars true s = Parsed t -> spells s p ->
  forall g, In g (elements_of t) -> exists n ty l, In (SElem n ty l) p /\ Machine_Model.get_str g "name" = Ok n /\ Machine_Model.get_str g "type" = Ok ty.
Proof.
  intros V P S g I. destruct (elements_defined w vars s t g V P I) as (p1 & n & ty & l & p2 & env & ps & S' & _ & _ & F).
  rewrite (spells_unique s p _ S S'). exists n, ty, l. split; [apply in_or_app; right; left; reflexivity|].
  unfold Machine_Model.get_str, tfind. rewrite !F. split; reflexivity.
Qed.

Lemma lattice_text (r : registry D B) w vars s t m f : ssorted vars -> parse_text w vars true s = Parsed t -> new_machine r t = Ok m ->
  (forall k, sfind k r <> None -> one_line k) ->
  exists p1 n ty ms p2 nss,
    spells s (p1 ++ SLine n ty ms :: p2) /\ tlookup "name" t = Some (TStr n) /\ flats w vars p1 ms nss /\
    Forall2 (fun l q => exists et ps, In (SElem (snd q) et ps) (p1 ++ SLine n ty ms :: p2) /\ element_line l (N.of_nat (fst q)) (snd q) et)
      (lines_with "Element " (fst (show_machine own m f))) (combine (seq 0 (List.length (List.concat nss))) (List.concat nss)).
Proof.
  intros V P H R. destruct (expansion w vars s t V P) as (p1 & n & ty & ms & p2 & nss & S & N & Fl & E).
  exists p1, n, ty, ms, p2, nss. split; [exact S|]. split; [exact N|]. split; [exact Fl|].
  pose proof (parsed_elements r t m H) as He. pose proof (parsed_names w vars s t _ V P S) as Hn.
  destruct (new_text own r t m (elements_of t) f H He) as [_ F].
  - intros k Hk. apply R. destruct (new_machine_ok r t m H) as (x & i & es & H1 & H2 & _). unfold Machine_Model.get_str in Hk. rewrite H1 in Hk.
    injection Hk as <-. rewrite H2. discriminate.
  - intros g x I Hx. destruct (Hn g I) as (n' & t' & l & I' & G1 & G2). destruct (spelt_words s _ n' t' l S I') as [W1 W2].
    rewrite G1, G2 in Hx. destruct Hx as [Hx|Hx]; injection Hx as <-; apply word_line; assumption.
  - revert F E Hn. generalize (lines_with "Element " (fst (show_machine own m f))) as ls. generalize (List.concat nss) as ns. generalize (elements_of t) as gs.
    generalize 0 as k. intros k gs. revert k. induction gs as [|g gs IH]; intros k ns ls F E Hn.
    + destruct ns; [|discriminate]. inversion F. constructor.
    + destruct ns as [|x ns]; [discriminate|]. cbn [map] in E. injection E as E1 E. cbn [List.length seq combine] in F |- *.
      inversion F as [|l ? ls' ? Hl F']; subst. constructor.
      * destruct Hl as (n' & t' & G1 & G2 & L). cbn [fst snd] in *. destruct (Hn g (or_introl eq_refl)) as (n2 & t2 & l2 & I & G3 & G4).
        rewrite G1 in G3. rewrite G2 in G4. injection G3 as <-. injection G4 as <-.
        unfold Machine_Model.get_str in G1. change (tfind "name" g) with (tlookup "name" g) in G1. rewrite E1 in G1. injection G1 as <-.
        exists t', l2. auto.
      * apply (IH _ ns ls' F' E). intros g' I. apply Hn. right. exact I.
Qed.
Lemma lattice_words (r : registry D B) w vars s t m : ssorted vars -> parse_text w vars true s = Parsed t -> new_machine r t = Ok m ->
  Forall (fun e => word (el_name e) /\ word (el_tname e)) (m_elems m).
Proof.
  intros V P H. destruct (expansion w vars s t V P) as (p1 & n & ty & ms & p2 & nss & S & _).
  pose proof (parsed_elements r t m H) as He. pose proof (parsed_names w vars s t _ V P S) as Hn.
  destruct (new_machine_ok r t m H) as (x & i & es & H1 & H2 & H3 & H4 & H5 & H6 & H7 & H8 & H9 & H10).
  unfold get_cfgs in He. rewrite H3 in He. injection He as He. subst es. apply Forall_forall. intros e I. apply In_nth_error in I as (j & Ej).
  destruct (nth_error (elements_of t) j) as [ec|] eqn:Ec.
  2: { apply nth_error_None in Ec. assert (j < List.length (m_elems m))%nat by (apply nth_error_Some; rewrite Ej; discriminate). lia. }
  destruct (H10 j ec e Ec Ej) as (k & nm & d & Ht & _ & Hm & _ & ->). apply nth_error_In in Ec.
  destruct (Hn ec Ec) as (n' & t' & l & I' & G1 & G2). unfold Machine_Model.get_str in G1, G2. rewrite Hm in G1. rewrite Ht in G2.
  injection G1 as <-. injection G2 as <-. exact (spelt_words s _ _ _ l S I').
Qed.
Lemma lattice_plain (r : registry D B) w vars s t m : ssorted vars -> parse_text w vars true s = Parsed t -> new_machine r t = Ok m ->
  Forall plain (m_elems m).
Proof.
  intros V P H. eapply Forall_impl; [|exact (lattice_words r w vars s t m V P H)]. intros e [A C]. split; apply word_line; assumption.
Qed.

(** ** No NUL *)
Lemma c_str_all t : ~ In "000"%char t -> c_str t = t.
Proof.
  induction t as [|c t IH]; intros N; [reflexivity|]. cbn [c_str]. destruct (Ascii.eqb_spec c "000"%char) as [->|].
  - exfalso. apply N. left. reflexivity.
  - f_equal. apply IH. intros I. apply N. right. exact I.
Qed.
Lemma quiet_nul p t : quietb p t = true -> ~ In "000"%char t.
Proof.
  revert p. induction t as [|c t IH]; intros p H I; [exact I|]. cbn [quietb] in H. apply andb_prop in H as [H H2]. apply andb_prop in H as [_ H].
  destruct I as [->|I]; [discriminate|]. exact (IH _ H2 I).
Qed.
Lemma app_nul a b : ~ In "000"%char a -> ~ In "000"%char b -> ~ In "000"%char (a ++ b).
Proof. intros A C I. apply in_app_or in I as [I|I]; auto. Qed.
Lemma cons_nul a b : a <> "000"%char -> ~ In "000"%char b -> ~ In "000"%char (a :: b).
Proof. intros A C [I|I]; auto. Qed.
Lemma head_nul (e : elem D B) : word (el_name e) /\ word (el_tname e) -> ~ In "000"%char (elem_head e).
Proof.
  intros [N T]. unfold elem_head. repeat apply app_nul; try (apply word_calm; assumption); try (apply (quiet_nul false); reflexivity).
  apply (quiet_nul true). apply calm_quiet, calm_size.
Qed.
Lemma elems_nul els f : Forall (fun e => word (el_name e) /\ word (el_tname e)) els -> ~ In "000"%char (fst (all (show_element own) els f)).
Proof.
  revert f. induction els as [|e els IH]; intros f F; [intros I; exact I|]. inversion F as [|? ? P F']; subst.
  change (all (show_element own) (e :: els)) with (show_element own e ;; all (show_element own) els). rewrite then_eq. cbn [fst].
  destruct (elem_text own e f) as [-> ->]. apply app_nul; [|apply IH; exact F']. apply app_nul; [apply head_nul; exact P|].
  apply cons_nul; [discriminate|]. destruct (extra_text (own e) f) as [->|(y & -> & Q)]; [intros I; exact I|].
  apply app_nul; [exact (quiet_nul true y Q)|]. intros [I|I]; [discriminate|exact I].
Qed.
Lemma lattice_python (r : registry D B) w vars s t m : ssorted vars -> parse_text w vars true s = Parsed t -> new_machine r t = Ok m ->
  (forall k, sfind k r <> None -> ~ In "000"%char (chars k)) -> py_machine_str own m = fst (show_machine own m Default).
Proof.
  intros V P H R. unfold py_machine_str. apply c_str_all. rewrite machine_text.
  destruct (new_machine_ok r t m H) as (x & i & es & H1 & H2 & H3 & H4 & _).
  apply app_nul.
  - unfold head1. apply app_nul; [apply (quiet_nul false); reflexivity|]. rewrite H4. apply R. rewrite H2. discriminate.
  - apply cons_nul; [discriminate|]. apply app_nul.
    + unfold head2. apply app_nul; [apply (quiet_nul false); reflexivity|]. apply (quiet_nul true). apply calm_quiet, calm_size.
    + apply cons_nul; [discriminate|]. apply elems_nul. exact (lattice_words r w vars s t m V P H).
Qed.
End S.

(** ** The text determines the machine's elements *)
Lemma heads_equal {D B D' B'} (els : list (elem D B)) (els' : list (elem D' B')) ls :
  Forall2 (fun l e => element_line l (el_index e) (el_name e) (el_tname e)) ls els ->
  Forall2 (fun l e => element_line l (el_index e) (el_name e) (el_tname e)) ls els' ->
  Forall (fun e => word (el_name e) /\ word (el_tname e)) els -> Forall (fun e => word (el_name e) /\ word (el_tname e)) els' ->
  map (fun e => (el_name e, el_tname e)) els = map (fun e => (el_name e, el_tname e)) els'.
Proof.
  intros F. revert els'. induction F as [|l e ls els H F IH]; intros els' F' W W'; inversion F' as [|? e' ? els2 H' F2]; subst; [reflexivity|].
  inversion W as [|? ? [N T] W1]; subst. inversion W' as [|? ? [N' T'] W2]; subst.
  destruct (element_line_reads l _ _ _ _ _ _ N N' H H') as (_ & E1 & E2). cbn [map]. rewrite E1, E2. f_equal. apply IH; assumption.
Qed.
Lemma lattice_faithful {D B D' B'} own own' (r : registry D B) (r' : registry D' B') w w' vars vars' s s' t t' m m' f f' :
  ssorted vars -> parse_text w vars true s = Parsed t -> new_machine r t = Ok m -> (forall k, sfind k r <> None -> one_line k) ->
  ssorted vars' -> parse_text w' vars' true s' = Parsed t' -> new_machine r' t' = Ok m' -> (forall k, sfind k r' <> None -> one_line k) ->
  fst (show_machine own m f) = fst (show_machine own' m' f') ->
  m_simtype m = m_simtype m' /\ map (fun e => (el_name e, el_tname e)) (m_elems m) = map (fun e => (el_name e, el_tname e)) (m_elems m').
Proof.
  intros V P H R V' P' H' R' E.
  assert (S : one_line (m_simtype m)).
  { destruct (new_machine_ok r t m H) as (x & i & es & H1 & H2 & H3 & H4 & _). rewrite H4. apply R. rewrite H2. discriminate. }
  assert (S' : one_line (m_simtype m')).
  { destruct (new_machine_ok r' t' m' H') as (x & i & es & H1 & H2 & H3 & H4 & _). rewrite H4. apply R'. rewrite H2. discriminate. }
  split.
  - destruct (machine_lines own m f S) as (d & ls & L & _). destruct (machine_lines own' m' f' S') as (d' & ls' & L' & _).
    rewrite E, L' in L. injection L as L _ _. unfold chars in L.
    rewrite <- (string_of_list_ascii_of_string (m_simtype m)), <- L. apply string_of_list_ascii_of_string.
  - pose proof (machine_elements own m f S (lattice_plain r w vars s t m V P H)) as F.
    pose proof (machine_elements own' m' f' S' (lattice_plain r' w' vars' s' t' m' V' P' H')) as F'. rewrite <- E in F'.
    eapply heads_equal; [exact F|exact F'|exact (lattice_words r w vars s t m V P H)|exact (lattice_words r' w' vars' s' t' m' V' P' H')].
Qed.
