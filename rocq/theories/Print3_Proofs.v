(** The lexemes of the text GLPSPrint writes. *)
From Coq Require Import Reals List String Ascii Bool ZArith Lia Lra.
From Coq Require Import Floats.SpecFloat.
From Verif Require Import SMap Dbl Config_Spec Lexer_Model Lexer_Spec Lexer_Proofs Number_Spec Number_Proofs Glps_Spec.
From Verif Require Import Print_Model Print_Spec Print_Proofs Print2_Proofs.
Import ListNotations.
Open Scope list_scope.

Lemma app_prefix_len {A} (p : list A) c rest p' rest' : p ++ c :: rest = p' ++ rest' ->
  (List.length p < List.length p')%nat -> exists z, p' = p ++ c :: z /\ rest = z ++ rest'.
Proof.
  revert p'. induction p as [|x p IH]; intros p' E L; destruct p' as [|y p']; simpl in *; try lia.
  - injection E as <- ->. exists p'. auto.
  - injection E as <- E. destruct (IH p' E ltac:(lia)) as (z & -> & ->). exists z. auto.
Qed.
Lemma stop_longest r P p c rest : matches (rule_re r) p -> (forall q, matches (rule_re r) q -> forallb P q = true) ->
  P c = false -> longest r p (c :: rest).
Proof.
  intros M A N. apply longest_by_rule; [exact M|]. intros p' rest' E M'.
  destruct (Nat.le_gt_cases (List.length p') (List.length p)) as [L|L]; [exact L|]. exfalso.
  destruct (app_prefix_len _ _ _ _ _ E L) as (z & -> & _). specialize (A _ M'). rewrite forallb_app in A. simpl in A. rewrite N in A.
  rewrite andb_false_r in A. discriminate.
Qed.

(** ** Single lexemes *)
Lemma letter_kwchar c : is_letter c = true -> is_kwchar c = true.
Proof. unfold is_kwchar. intros ->. reflexivity. Qed.
Lemma kw_chars q : matches (rule_re LKeyword) q -> forallb is_kwchar q = true.
Proof.
  intros H. apply kw_matches in H as (c & b & -> & Hc & Hb & _). simpl. rewrite (letter_kwchar _ Hc), Hb. reflexivity.
Qed.
Definition num_char (c : ascii) : bool := (is_digit c || Ascii.eqb c "." || is_exp c || is_sign c)%bool.
Lemma digit_num_chars l : forallb is_digit l = true -> forallb num_char l = true.
Proof. intros H. induction l as [|c l IH]; [reflexivity|]. simpl in *. apply andb_prop in H as [H1 H2]. unfold num_char at 1. rewrite H1, (IH H2). reflexivity. Qed.
Lemma num_chars q : matches (rule_re LNumber) q -> forallb num_char q = true.
Proof.
  intros H. apply num_matches in H as (d & f & fd & x & -> & _ & Hd & Hf & Hx).
  rewrite !forallb_app, (digit_num_chars _ Hd). simpl. apply andb_true_intro. split.
  - destruct Hf as [|fd Hf]; [reflexivity|]. simpl. apply digit_num_chars. exact Hf.
  - destruct Hx as [|c d' Hc _ Hd'|c s d' Hc Hs _ Hd']; [reflexivity| |]; simpl; rewrite (digit_num_chars _ Hd').
    + unfold num_char. rewrite Hc. rewrite !orb_true_r. reflexivity.
    + unfold num_char. rewrite Hc, Hs. rewrite !orb_true_r. reflexivity.
Qed.

Definition ends (P : ascii -> bool) (r : list ascii) : Prop := exists c r', r = c :: r' /\ P c = false.
Lemma t_kw n r ts : word n -> ends is_kwchar r -> tokenises r ts -> tokenises (txt n ++ r) (KKw n :: ts).
Proof.
  intros W (c & r' & -> & N) T. rewrite <- (string_of_list_ascii_of_string n) at 2.
  apply (tk_tok LKeyword); [|constructor|exact T]. apply (stop_longest _ is_kwchar); auto. apply kw_chars.
Qed.
(** a name and the colon of a definition *)
Lemma t_def n r ts : word n -> ends is_kwchar r -> tokenises r ts -> tokenises (txt n ++ ":"%char :: r) (KKw n :: KColon :: ts).
Proof.
  intros W (c & r' & -> & N) T. rewrite <- (string_of_list_ascii_of_string n) at 2.
  assert (T' : tokenises (":"%char :: c :: r') (KColon :: ts)).
  { change (":"%char :: c :: r') with ([":"%char] ++ c :: r'). apply (tk_tok LPunct); [|constructor|exact T].
    apply longest_single; [intros q; apply chr_len|constructor; reflexivity]. }
  apply (tk_tok LKeyword); [|constructor|exact T']. apply longest_by_rule; [exact W|].
  intros p' rest' E M. destruct (Nat.le_gt_cases (List.length p') (List.length (txt n))) as [L|L]; [exact L|]. exfalso.
  destruct (app_prefix_len _ _ _ _ _ E L) as (z & -> & Ez). destruct z as [|y z].
  - apply kw_matches in M as (x & b & Eb & Hx & _ & [Hb|(b' & d & Hb & Hd)]).
    + subst b. destruct (txt n) as [|? [|]]; try discriminate. injection Eb as <-. discriminate.
    + subst b. change (x :: b' ++ [d]) with ((x :: b') ++ [d]) in Eb. apply app_inj_tail in Eb as [_ <-]. discriminate.
  - simpl in Ez. injection Ez as <- _. apply kw_chars in M. rewrite forallb_app in M. simpl in M. rewrite N in M.
    rewrite !andb_false_r in M. discriminate.
Qed.
Lemma t_blank r ts : tokenises r ts -> tokenises (" "%char :: r) ts.
Proof.
  intros T. change (" "%char :: r) with ([" "%char] ++ r). apply (tk_skip LBlank); [|constructor|exact T].
  apply longest_single; [intros q; apply chr_len|constructor; reflexivity].
Qed.
Lemma t_nl r ts : tokenises r ts -> tokenises (nl :: r) ts.
Proof.
  intros T. change (nl :: r) with ([nl] ++ r). apply (tk_skip LNewline); [|constructor|exact T].
  apply longest_single; [intros q; apply chr_len|constructor; reflexivity].
Qed.
Lemma t_punct c t r ts : punct c = Some t -> tokenises r ts -> tokenises (c :: r) (t :: ts).
Proof.
  intros P T. change (c :: r) with ([c] ++ r).
  assert (S : scan [c] = STok t [c] []).
  { revert P. clear. destruct c as [[] [] [] [] [] [] [] []]; intros P; try discriminate P; injection P as <-; reflexivity. }
  destruct (scan_tok _ _ _ _ S) as (_ & _ & k & L & V). apply (tk_tok k); [|exact V|exact T].
  destruct (matches_first k [c] (proj1 L)) as (c' & q & E & R). injection E as <- <-.
  assert (k = LPunct) as ->. { revert P R. clear. destruct c as [[] [] [] [] [] [] [] []]; intros P R; try discriminate P; injection R as <-; reflexivity. }
  apply longest_single; [intros q; apply chr_len|exact (proj1 L)].
Qed.
Lemma t_str s r ts : quotable s -> tokenises r ts -> tokenises (quoted s ++ r) (KStr s :: ts).
Proof.
  intros Q T. rewrite <- (string_of_list_ascii_of_string s) at 2. apply (tk_tok LString); [|apply v_str|exact T].
  apply longest_string. apply forallb_forall. intros c Hc. destruct (Q c Hc) as (A & B & C).
  unfold is_quoted. rewrite negb_true_iff, !orb_false_iff. repeat split; apply Ascii.eqb_neq; assumption.
Qed.

(** ** Numbers *)
Lemma short_cases x : short x -> is_finite x = true /\
  ((exists s, x = S754_zero s) \/
   exists s m e k d, x = S754_finite s m e /\ well_formed x /\ (0 < k < 1000000)%Z /\ S754_finite false m e = strtod_val k d /\
     (powerRZ 2 (-1022) <= dval (S754_finite false m e))%R).
Proof.
  intros [[s ->]|(k & d & K & E & F & N)]; [split; [reflexivity|eauto]|].
  split; [exact F|]. destruct x as [s|s| |s m e]; try discriminate; [left; eauto|]. right.
  exists s, m, e, k, d. simpl dabs in *. split; [reflexivity|]. split; [|auto].
  destruct k as [|k|k]; try lia. destruct (strtod_correct k d) as [W _]. rewrite <- E in W. exact W.
Qed.
(** The double read from the text of [x]. *)
Definition snap (x : double) : double :=
  let '(k, d, _, _) := scan_num (show_num (dabs x)) in
  if negative x then dopp (strtod_val k d) else strtod_val k d.
Lemma strtod_positive k d : (0 < k)%Z -> representable k (strtod_val k d) -> is_finite (strtod_val k d) = true ->
  exists m e, strtod_val k d = S754_finite false m e.
Proof.
  intros K R F. destruct k as [|k|k]; try lia. destruct (strtod_correct k d) as [_ C].
  destruct (Flocq.Core.Raux.Rlt_bool _ _); [|rewrite C in F; discriminate]. destruct C as [C _].
  assert (P : (0 <= rnd (decval (Z.pos k) d))%R).
  { apply Flocq.Core.Generic_fmt.round_ge_generic; try typeclasses eauto; [apply Flocq.Core.Generic_fmt.generic_format_0|].
    left. apply decval_pos. }
  rewrite <- C in P. destruct R as [_ R]. destruct (strtod_val (Z.pos k) d) as [s|s| |s m e] eqn:E; try discriminate.
  - exfalso. specialize (R s eq_refl). discriminate R.
  - destruct s; [|eauto]. exfalso. rewrite <- dval_SF2R in P. simpl in P.
    assert (0 < IZR (Z.pos m))%R by (apply IZR_lt; reflexivity). assert (0 < powerRZ 2 e)%R by (apply powerRZ_lt; lra). nra.
Qed.
Lemma zero_decimal : decimal ["0"%char] 0 0.
Proof. apply (dec_intro ["0"%char] [] [] [] 0); [discriminate|reflexivity|constructor|constructor]. Qed.
Lemma snap_zero s : snap (S754_zero s) = S754_zero s.
Proof. destruct s; reflexivity. Qed.
(** The text of a number other than zero. *)
Lemma snap_finite s m e : well_formed (S754_finite s m e) ->
  exists p k d m' e', show_num (S754_finite s m e) = sign_text s ++ p /\ decimal p k d /\ representable k (strtod_val k d) /\
    strtod_val k d = S754_finite false m' e' /\ snap (S754_finite s m e) = S754_finite s m' e' /\
    (Rabs (dval (S754_finite false m' e') - dval (S754_finite false m e)) <= dval (S754_finite false m e) / 100000 + powerRZ 2 (-1074))%R.
Proof.
  intros W. destruct (show_reads false m e W) as (p & k & d & S & D & R & F & B). change (sign_text false ++ p) with p in S.
  assert (K : (0 < k)%Z).
  { destruct (show_finite false m e W) as (p' & k' & d' & S' & D' & K & _). change (sign_text false ++ p') with p' in S'. rewrite S in S'. subst p'.
    destruct (decimal_fun _ _ _ _ _ D D') as [-> _]. lia. }
  destruct (strtod_positive k d K R F) as (m' & e' & E). exists p, k, d, m', e'. split.
  - revert S. unfold show_num. destruct (frac_of m e) as [n q]. destruct (six_digits n q) as [[q0 x0]|]; simpl.
    + intros ->. reflexivity.
    + intros S. subst p. exfalso. inversion D as [d0 f fd x y D1 D2 D3 D4 D5]. apply app_eq_nil in D5 as [-> D5]. apply D1. symmetry. exact D5.
  - split; [exact D|]. split; [exact R|]. split; [exact E|]. split; [|rewrite <- E; exact B].
    unfold snap. simpl dabs. rewrite S, (decimal_scan _ _ _ D), E. simpl. destruct s; reflexivity.
Qed.
Lemma snap_short x : short x -> snap x = x.
Proof.
  intros S. destruct (short_cases x S) as [_ [[s ->]|(s & m & e & k & d & -> & W & K & E & B)]]; [apply snap_zero|].
  destruct (snap_finite s m e W) as (p & k1 & d1 & m' & e' & S1 & D1 & _ & E1 & -> & _).
  destruct (show_short s m e k d W K E B) as (p2 & k2 & d2 & S2 & D2 & E2). rewrite S1 in S2. apply app_inv_head in S2. subst p2.
  destruct (decimal_fun _ _ _ _ _ D1 D2) as [-> ->]. rewrite E2 in E1. injection E1 as -> ->. reflexivity.
Qed.
Lemma dval_sign s m e : dval (S754_finite s m e) = ((if s then -1 else 1) * dval (S754_finite false m e))%R.
Proof. simpl. ring. Qed.
Lemma snap_nearly x : writable_num x -> nearly_num x (snap x).
Proof.
  intros [F W]. split; [|split; [|split]]; [| | |apply snap_short]; destruct x as [s|s| |s m e]; try discriminate; rewrite ?snap_zero; try reflexivity.
  - destruct (snap_finite s m e W) as (p & k1 & d1 & m' & e' & _ & _ & _ & _ & -> & _). reflexivity.
  - destruct (snap_finite s m e W) as (p & k1 & d1 & m' & e' & _ & _ & _ & _ & -> & _). reflexivity.
  - simpl dval. rewrite Rminus_0_r, Rabs_R0. assert (0 < powerRZ 2 (-1074))%R by (apply powerRZ_lt; lra). lra.
  - destruct (snap_finite s m e W) as (p & k1 & d1 & m' & e' & _ & _ & _ & _ & -> & B). rewrite !(dval_sign s).
    rewrite <- Rmult_minus_distr_l, !Rabs_mult. replace (Rabs (if s then -1 else 1)) with 1%R.
    + rewrite !Rmult_1_l. rewrite (Rabs_pos_eq (dval (S754_finite false m e))); [exact B|]. simpl. rewrite Rmult_1_l.
      apply Rmult_le_pos; [apply IZR_le; lia|]. left. apply powerRZ_lt. lra.
    + destruct s; [rewrite Rabs_left; lra|rewrite Rabs_R1; reflexivity].
Qed.
Lemma snap_writable x : writable_num x -> writable_num (snap x).
Proof.
  intros [F W]. destruct x as [s|s| |s m e]; try discriminate; [rewrite snap_zero; split; assumption|].
  destruct (snap_finite s m e W) as (p & k & d & m' & e' & _ & D & R & E & -> & _). split; [reflexivity|].
  pose proof (decimal_nonneg _ _ _ D). destruct k as [|k|k]; [discriminate| |lia].
  destruct (strtod_correct k d) as [V _]. rewrite E in V. exact V.
Qed.
Lemma t_num x r ts : writable_num x -> ends num_char r -> tokenises r ts -> tokenises (show_num x ++ r) (num_tokens (snap x) ++ ts).
Proof.
  intros [F W] (c & r' & -> & N) T. destruct x as [s|s| |s m e]; try discriminate.
  - assert (T' : tokenises ("0"%char :: c :: r') (KNum (S754_zero false) :: ts)).
    { change ("0"%char :: c :: r') with (["0"%char] ++ c :: r'). change (S754_zero false) with (strtod_val 0 0).
      pose proof zero_decimal as D.
      apply (tk_tok LNumber); [|constructor; [exact D|]|exact T].
      - apply (stop_longest _ num_char); auto; [apply (decimal_matches _ _ _ D)|apply num_chars].
      - split; [discriminate|reflexivity]. }
    rewrite snap_zero. destruct s; [|exact T']. simpl. apply (t_punct "-"%char KMinus); [reflexivity|exact T'].
  - destruct (snap_finite s m e W) as (p & k' & d' & m' & e' & -> & D & R & E & -> & _).
    assert (T' : tokenises (p ++ c :: r') (KNum (S754_finite false m' e') :: ts)).
    { rewrite <- E. apply (tk_tok LNumber); [|constructor; [exact D|exact R]|exact T].
      apply (stop_longest _ num_char); auto; [apply (decimal_matches _ _ _ D)|apply num_chars]. }
    destruct s; [|exact T']. simpl. apply (t_punct "-"%char KMinus); [reflexivity|exact T'].
Qed.

Lemma t_read x c r ts : writable_num x -> In c [","; ";"; "]"]%char -> tokenises (c :: r) ts ->
  exists y, tokenises (show_num x ++ c :: r) (num_tokens y ++ ts) /\ nearly_num x y.
Proof.
  intros W C T. exists (snap x). split; [|apply snap_nearly; exact W]. apply t_num; auto. exists c, r. split; [reflexivity|].
  repeat destruct C as [<-|C]; try reflexivity. destruct C.
Qed.

(** ** Values *)
Fixpoint vtoks (l : list double) : list token :=
  match l with
  | [] => []
  | [x] => num_tokens x
  | x :: r => num_tokens x ++ KComma :: vtoks r
  end.
Definition wtoks (v : tval) : list token :=
  match v with
  | TNum x => num_tokens x
  | TVec l => KLBrk :: vtoks l ++ [KRBrk]
  | TStr s => [KStr s]
  | TCfgs _ => []
  end.
Definition snapv (v : tval) : tval :=
  match v with TNum x => TNum (snap x) | TVec l => TVec (map snap l) | TStr s => TStr s | TCfgs l => TCfgs l end.
Lemma snapv_nearly v : writable v -> nearly v (snapv v).
Proof.
  destruct v as [x|l|s|l]; simpl; intros W; [apply snap_nearly; exact W| |reflexivity|contradiction].
  induction W as [|x l Wx W IH]; constructor; [apply snap_nearly; exact Wx|exact IH].
Qed.
Lemma snapv_writable v : writable v -> writable (snapv v).
Proof.
  destruct v as [x|l|s|l]; simpl; intros W; [apply snap_writable; exact W| |exact W|contradiction].
  induction W as [|x l Wx W IH]; constructor; [apply snap_writable; exact Wx|exact IH].
Qed.
Lemma nearly_short v v' : nearly v v' -> short_val v -> v' = v.
Proof.
  destruct v as [x|l|s|l], v' as [y|l'|s'|l']; simpl; intros N S; try contradiction; [|f_equal|subst; reflexivity].
  - destruct N as (_ & _ & _ & N). rewrite (N S). reflexivity.
  - induction N as [|x y l l' (_ & _ & _ & N) F IH]; [reflexivity|]. inversion S; subst. rewrite N by assumption. f_equal. auto.
Qed.
Lemma t_vec l r ts : Forall writable_num l -> tokenises r ts ->
  tokenises (separated (map show_num l) ++ "]"%char :: r) (vtoks (map snap l) ++ KRBrk :: ts).
Proof.
  intros F T. assert (T' : tokenises ("]"%char :: r) (KRBrk :: ts)) by (apply t_punct; [reflexivity|exact T]).
  induction F as [|x l S F IH]; [exact T'|]. destruct l as [|y l].
  - apply t_num; auto. exists "]"%char, r. auto.
  - cbn [map separated vtoks] in *. rewrite <- !app_assoc. apply t_num; [exact S|exists ","%char; eexists; split; reflexivity|].
    apply (t_punct ","%char KComma); [reflexivity|]. apply t_blank. exact IH.
Qed.
Definition show_value (v : tval) : list ascii :=
  match v with TNum x => show_num x | TVec l => show_vec l | TStr s => quoted s | TCfgs _ => [] end.
Lemma t_value v r ts : writable v -> ends num_char r -> tokenises r ts -> tokenises (show_value v ++ r) (wtoks (snapv v) ++ ts).
Proof.
  intros W E T. destruct v as [x|l|s|l]; simpl in W; [| | |contradiction].
  - apply t_num; auto.
  - simpl. apply t_punct; [reflexivity|]. rewrite <- !app_assoc. apply t_vec; auto.
  - apply t_str; auto.
Qed.
(** name = value *)
Lemma t_assign n v r ts : word n -> writable v -> ends num_char r -> tokenises r ts ->
  tokenises (txt n ++ txt " = " ++ show_value v ++ r) (KKw n :: KEq :: wtoks (snapv v) ++ ts).
Proof.
  intros N W E T. apply t_kw; [exact N|exists " "%char; eexists; split; reflexivity|]. simpl txt. cbn [app].
  apply t_blank, t_punct; [reflexivity|]. apply t_blank. apply t_value; auto.
Qed.
Lemma t_var n v r ts : word n -> writable v -> tokenises r ts ->
  tokenises (show_var n v ++ r) (KKw n :: KEq :: wtoks (snapv v) ++ KSemi :: ts).
Proof.
  intros N W T. replace (show_var n v ++ r) with (txt n ++ txt " = " ++ show_value v ++ ";"%char :: nl :: r).
  - apply t_assign; auto; [exists ";"%char; eexists; split; reflexivity|]. apply t_punct; [reflexivity|]. apply t_nl. exact T.
  - destruct v; simpl in W; [| | |contradiction]; unfold show_var; rewrite <- !app_assoc; reflexivity.
Qed.
Lemma t_prop n v r ts : word n -> writable v -> ends num_char r -> tokenises r ts ->
  tokenises (show_prop n v ++ r) (KComma :: KKw n :: KEq :: wtoks (snapv v) ++ ts).
Proof.
  intros N W E T. replace (show_prop n v ++ r) with (","%char :: " "%char :: txt n ++ txt " = " ++ show_value v ++ r).
  - apply t_punct; [reflexivity|]. apply t_blank. apply t_assign; auto.
  - destruct v; simpl in W; [| | |contradiction]; unfold show_prop; rewrite <- !app_assoc; reflexivity.
Qed.
