(** Lines of text; pieces of text in which no line begins like a heading. *)
From Coq Require Import List String Ascii Bool NArith ZArith Lia DecimalString DecimalN.
From Verif Require Import SMap Dbl Config_Spec Lexer_Model Machine_Model Print_Model Log_Model Show_Model Show_Spec.
Import ListNotations.
Open Scope string_scope.
Open Scope list_scope.

(** ** Lines *)
Lemma lines_ne t : lines t <> [].
Proof. destruct t as [|c t]; simpl; [discriminate|]. destruct (Ascii.eqb c newline); [discriminate|]. destruct (lines t); discriminate. Qed.
Lemma lines_nl a b : lines (a ++ newline :: b) = lines a ++ lines b.
Proof.
  induction a as [|c a IH].
  - reflexivity.
  - cbn [app lines]. rewrite IH. destruct (Ascii.eqb c newline); [reflexivity|].
    pose proof (lines_ne a). destruct (lines a); [contradiction|]. reflexivity.
Qed.
Lemma lines_pre h t : ~ In newline h -> exists l ls, lines t = l :: ls /\ lines (h ++ t) = (h ++ l) :: ls.
Proof.
  intros H. pose proof (lines_ne t). destruct (lines t) as [|l ls] eqn:E; [contradiction|]. exists l, ls. split; [reflexivity|].
  induction h as [|c h IH]; [exact E|]. cbn [app lines]. destruct (Ascii.eqb_spec c newline) as [->|N].
  - exfalso. apply H. left. reflexivity.
  - rewrite IH; [reflexivity|]. intros I. apply H. right. exact I.
Qed.

(** ** Quiet text: neither its first line nor any other begins with A or E, and
    there is no NUL *)
Definition loud (c : ascii) : bool := (Ascii.eqb c "A" || Ascii.eqb c "E")%bool.
Definition nul (c : ascii) : bool := Ascii.eqb c "000".
Fixpoint quietb (p : bool) (t : list ascii) : bool :=
  match t with
  | [] => true
  | c :: r => (negb (p && loud c) && negb (nul c) && quietb (Ascii.eqb c newline) r)%bool
  end.
Definition quiet (t : list ascii) : Prop := quietb true t = true.
Lemma quietb_weak p t : quietb true t = true -> quietb p t = true.
Proof.
  destruct t as [|c t]; simpl; auto. intros H. apply andb_prop in H as [H ->]. apply andb_prop in H as [H ->].
  destruct p; cbn [andb]; [rewrite H; reflexivity|]. reflexivity.
Qed.
Lemma quietb_app p a b : quietb p a = true -> quiet b -> quietb p (a ++ b) = true.
Proof.
  revert p. induction a as [|c a IH]; intros p Ha Hb; [apply quietb_weak; exact Hb|].
  cbn [app quietb] in *. apply andb_prop in Ha as [H Ha]. rewrite H. simpl. apply IH; assumption.
Qed.
Lemma quiet_app a b : quiet a -> quiet b -> quiet (a ++ b).
Proof. apply quietb_app. Qed.
Lemma quiet_nil : quiet []. Proof. reflexivity. Qed.
Lemma quiet_lines p q t : quietb q t = true -> loud (match p with c :: _ => c | [] => zero end) = true ->
  filter (starts p) (tl (lines t)) = [] /\ (q = true -> filter (starts p) (lines t) = []).
Proof.
  intros Q L. destruct p as [|a p]; [discriminate|]. revert q Q. induction t as [|c t IH]; intros q Q.
  - split; reflexivity.
  - cbn [lines]. cbn [quietb] in Q. apply andb_prop in Q as [Q1 Q]. apply andb_prop in Q1 as [Q1 _]. destruct (IH _ Q) as [I1 I2].
    destruct (Ascii.eqb_spec c newline) as [->|N].
    + cbn [tl]. rewrite I2 by reflexivity. split; [reflexivity|]. intros _. cbn [filter starts]. apply I2. reflexivity.
    + pose proof (lines_ne t). destruct (lines t) as [|l ls]; [contradiction|]. cbn [tl] in I1 |- *. split; [exact I1|].
      intros ->. cbn [filter starts]. destruct (Ascii.eqb_spec a c) as [->|]; [|exact I1].
      rewrite L in Q1. discriminate.
Qed.

(** Letters of numbers *)
Definition calm (c : ascii) : bool := (negb (loud c) && negb (nul c) && negb (Ascii.eqb c newline))%bool.
Lemma calm_quiet t : forallb calm t = true -> quiet t.
Proof.
  unfold quiet. induction t as [|c t IH]; intros H; [reflexivity|]. cbn [forallb] in H. apply andb_prop in H as [H1 H2].
  cbn [quietb]. unfold calm in H1. apply andb_prop in H1 as [H1 H3]. apply andb_prop in H1 as [H0 H1]. rewrite H1.
  apply negb_true_iff in H3. rewrite H3. apply negb_true_iff in H0. rewrite H0. cbn [andb negb]. apply quietb_weak. apply IH. exact H2.
Qed.
Lemma calm_line t : forallb calm t = true -> ~ In newline t.
Proof.
  intros H I. rewrite forallb_forall in H. apply H in I. unfold calm in I. rewrite Ascii.eqb_refl, andb_false_r in I. discriminate.
Qed.
Lemma calm_mod z : calm (digit_char (z mod 10)) = true.
Proof.
  pose proof (Z.mod_pos_bound z 10 ltac:(lia)) as B. set (y := (z mod 10)%Z) in *.
  assert (y = 0 \/ y = 1 \/ y = 2 \/ y = 3 \/ y = 4 \/ y = 5 \/ y = 6 \/ y = 7 \/ y = 8 \/ y = 9)%Z as C by lia.
  clearbody y. repeat destruct C as [-> | C]; try reflexivity. subst. reflexivity.
Qed.
Lemma calm_app a b : forallb calm (a ++ b) = (forallb calm a && forallb calm b)%bool.
Proof. apply forallb_app. Qed.
Lemma calm_digits k n : forallb calm (digit_list k n) = true.
Proof. revert n. induction k as [|k IH]; intros n; [reflexivity|]. cbn [digit_list]. rewrite calm_app, IH. simpl. rewrite calm_mod. reflexivity. Qed.
Lemma calm_part k (l : list ascii) : forallb calm l = true -> forallb calm (firstn k l) = true /\ forallb calm (skipn k l) = true.
Proof. intros H. rewrite <- (firstn_skipn k l), calm_app in H. apply andb_prop in H. exact H. Qed.
Lemma calm_first k l : forallb calm l = true -> forallb calm (firstn k l) = true.
Proof. intros H. apply (calm_part k l H). Qed.
Lemma calm_skip k l : forallb calm l = true -> forallb calm (skipn k l) = true.
Proof. intros H. apply (calm_part k l H). Qed.
Lemma calm_repeat c k : calm c = true -> forallb calm (repeat c k) = true.
Proof. intros H. induction k; simpl; [reflexivity|]. rewrite H. exact IHk. Qed.
Lemma calm_drop l : forallb calm l = true -> forallb calm (drop_zeros l) = true.
Proof.
  induction l as [|c l IH]; intros H; [reflexivity|]. simpl in H. apply andb_prop in H as [H1 H2]. specialize (IH H2). simpl.
  destruct (drop_zeros l) as [|d t]; [|simpl; rewrite H1; exact IH]. destruct (Ascii.eqb c "0"); [reflexivity|]. simpl. rewrite H1. reflexivity.
Qed.
Lemma calm_fraction l : forallb calm l = true -> forallb calm (fraction_text l) = true.
Proof. intros H. unfold fraction_text. apply calm_drop in H. destruct (drop_zeros l); [reflexivity|]. exact H. Qed.
Lemma calm_exp x : forallb calm (exp_digits x) = true.
Proof. unfold exp_digits. cbn [forallb]. rewrite calm_digits. destruct (x <? 0)%Z; reflexivity. Qed.
Lemma calm_sign s : forallb calm (sign_text s) = true.
Proof. destruct s; reflexivity. Qed.
Lemma calm_gen q x : forallb calm (digits_text q x) = true.
Proof.
  unfold digits_text. cbv zeta. pose proof (calm_digits 6 q) as D. set (ds := digit_list 6 q) in *.
  destruct (_ || _)%bool; [|destruct (x <? 0)%Z].
  - rewrite !calm_app, calm_first, calm_fraction, calm_exp by (try apply calm_skip; exact D). reflexivity.
  - cbn [forallb]. rewrite calm_fraction; [reflexivity|]. rewrite calm_app, calm_repeat by reflexivity. exact D.
  - rewrite calm_app, calm_first, calm_fraction by (try apply calm_skip; exact D). reflexivity.
Qed.
Lemma calm_sci p q x : forallb calm (sci_text p q x) = true.
Proof.
  unfold sci_text. cbv zeta. rewrite !calm_app. rewrite calm_first, calm_skip, calm_exp by apply calm_digits. destruct p; reflexivity.
Qed.
Lemma calm_num f v : forallb calm (num_text f v) = true.
Proof.
  destruct f as [|p]; destruct v as [s|s| |s m e]; cbn [num_text show_num show_sci]; rewrite ?calm_app, ?calm_sign, ?calm_sci; try reflexivity.
  - destruct (frac_of m e) as [n d]. destruct (six_digits n d) as [[q x]|]; [|reflexivity]. rewrite calm_app, calm_sign, calm_gen. reflexivity.
  - destruct (frac_of m e) as [n d]. destruct (sci_digits p n d) as [[q x]|]; [|reflexivity]. rewrite calm_app, calm_sign, calm_sci. reflexivity.
Qed.
Lemma calm_uint u : forallb calm (list_ascii_of_string (NilEmpty.string_of_uint u)) = true.
Proof. induction u; simpl; auto. Qed.
Lemma calm_size n : forallb calm (size_text n) = true.
Proof. apply calm_uint. Qed.
Lemma calm_pad w t : forallb calm t = true -> forallb calm (pad w t) = true.
Proof. intros H. unfold pad. rewrite calm_app, H, calm_repeat; reflexivity. Qed.
Lemma size_reads n : reads (size_text n) n.
Proof.
  unfold reads, size_text. rewrite string_of_list_ascii_of_string, NilEmpty.usu. simpl. f_equal. apply DecimalN.Unsigned.of_to.
Qed.
Lemma calm_commas l : forallb (forallb calm) l = true -> forallb calm (commas l) = true.
Proof.
  induction l as [|x l IH]; [reflexivity|]. cbn [forallb]. intros H. apply andb_prop in H as [H1 H2]. specialize (IH H2).
  cbn [commas]. destruct l; [exact H1|]. rewrite !calm_app, H1, IH. reflexivity.
Qed.
Lemma calm_vec f v : forallb calm (vec_text f v) = true.
Proof.
  unfold vec_text. rewrite !calm_app, calm_commas; [reflexivity|]. apply forallb_forall. intros t H. apply in_map_iff in H as (x & <- & _). apply calm_num.
Qed.

(** ** Writers of quiet text *)
Definition silent (w : writer) : Prop := forall f, quiet (fst (w f)).
Lemma silent_then a b : silent a -> silent b -> silent (a ;; b).
Proof.
  intros A C f. unfold andthen. specialize (A f). destruct (a f) as [t f1]. specialize (C f1). destruct (b f1) as [u f2]. apply quiet_app; assumption.
Qed.
Lemma silent_put t : quiet t -> silent (put t). Proof. intros H f. exact H. Qed.
Lemma silent_sci p : silent (sci p). Proof. intros f. reflexivity. Qed.
Lemma silent_skip : silent skip. Proof. intros f. reflexivity. Qed.
Lemma silent_nl : silent putnl. Proof. intros f. reflexivity. Qed.
Lemma silent_putd x : silent (putd x). Proof. intros f. apply calm_quiet, calm_num. Qed.
Lemma silent_putw w x : silent (putw w x). Proof. intros f. apply calm_quiet, calm_pad, calm_num. Qed.
Lemma silent_size n : silent (put (size_text n)). Proof. intros f. apply calm_quiet, calm_size. Qed.
Lemma silent_all {A} (g : A -> writer) l : (forall a, silent (g a)) -> silent (all g l).
Proof. intros H. induction l as [|a l IH]; [apply silent_skip|]. apply silent_then; [apply H|exact IH]. Qed.
Lemma calm_putvec v f : forallb calm (fst (putvec v f)) = true.
Proof. cbn [putvec fst]. rewrite !calm_app, calm_size, calm_vec. reflexivity. Qed.
Lemma calm_putmat m f : forallb calm (fst (putmat m f)) = true.
Proof.
  cbn [putmat fst]. rewrite !calm_app, !calm_size, calm_commas; [reflexivity|].
  apply forallb_forall. intros t H. apply in_map_iff in H as (x & <- & _). apply calm_vec.
Qed.
Lemma silent_vec v : silent (putvec v). Proof. intros f. apply calm_quiet, calm_putvec. Qed.
Lemma silent_mat m : silent (putmat m). Proof. intros f. apply calm_quiet, calm_putmat. Qed.
Ltac silence := repeat first
  [apply silent_then | apply silent_sci | apply silent_skip | apply silent_nl | apply silent_putd | apply silent_putw
  | apply silent_size | apply silent_vec | apply silent_mat | (apply silent_put; reflexivity)].
Lemma silent_part p : silent (putpart p).
Proof. unfold putpart. silence. Qed.
Lemma silent_col x : silent (putcol x).
Proof. unfold putcol. silence. Qed.
Lemma silent_rows m : silent (putrows m).
Proof.
  induction m as [|r m IH]; [apply silent_skip|]. cbn [putrows]. destruct m; silence; try (apply silent_all; apply silent_col). exact IH.
Qed.
Lemma silent_level1 c s : silent (put_level1 c s).
Proof. unfold put_level1. silence; try (apply silent_all; apply silent_col). apply silent_rows. Qed.
Lemma silent_states lv l : forall k, silent (put_states lv k l).
Proof.
  induction l as [|c l IH]; intros k; [apply silent_skip|]. cbn [put_states]. silence; try apply silent_part; [|apply IH].
  destruct (3 <=? lv)%Z; silence.
Qed.
Lemma silent_moment s lv : silent (show_moment s lv).
Proof.
  unfold show_moment. destruct (mv_states s) as [|c l]; [silence|].
  apply silent_then; [destruct (lv <=? 0)%Z; silence|]. apply silent_then; [destruct (1 <=? lv)%Z; [apply silent_level1|silence]|].
  pose proof (silent_states lv (c :: l) 0) as S. set (w := put_states lv 0 (c :: l)) in *. clearbody w.
  destruct (2 <=? lv)%Z; silence; exact S.
Qed.
Lemma silent_body b lv : silent (show_body b lv).
Proof. destruct b; cbn [show_body]; [apply silent_skip|silence|apply silent_moment]. Qed.
Lemma silent_extra x : silent (put_extra x).
Proof. destruct x; cbn [put_extra]; silence. Qed.
