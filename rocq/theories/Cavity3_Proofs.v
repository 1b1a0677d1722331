(** Proofs about the RF cavity: the matrices. *)
From Coq Require Import Reals List String Bool NArith ZArith Lia Lra Psatz.
From Verif Require Import SMap Dbl Config_Spec Mat Mat_Proofs Machine_Model Machine_Spec Machine_Proofs Moment_Model
  Moment_Spec Moment_Proofs Moment5_Proofs Motion_Proofs Cavity_Model Cavity_Spec Cavity_Proofs Cavity2_Proofs.
Import ListNotations.
Open Scope R_scope.
Open Scope string_scope.
Open Scope list_scope.

Lemma unc_id : uncoupled mid.
Proof. split; [|reflexivity]. intros i j _ _ H _. unfold mid. destruct (Nat.eqb_spec i j); [subst; congruence|reflexivity]. Qed.
Lemma unc_affine M : uncoupled M -> affine M.
Proof.
  intros [H1 H2] j Hj. destruct (Nat.eqb_spec j 6) as [->|N]; [exact H2|]. apply H1; try lia.
  idx7 j Hj; simpl; congruence.
Qed.
Lemma unc_zero M i j : uncoupled M -> (i < 7)%nat -> (j < 7)%nat -> plane i <> plane j -> ~ (plane i = 1%nat /\ j = 6%nat) -> M i j = 0.
Proof. intros [H _]. apply H. Qed.
Lemma unc_mul A B : uncoupled A -> uncoupled B -> uncoupled (mmul msize A B).
Proof.
  intros HA HB. split.
  - intros i j Hi Hj N1 N2. change (sumn 7 (fun k => A i k * B k j) = 0). rewrite (sumn_ext 7 _ (fun _ => 0)); [simpl; ring|].
    intros k Hk. destruct (Nat.eq_dec (plane i) (plane k)) as [E|E].
    + rewrite (unc_zero B k j); auto; [ring|congruence|]. rewrite <- E. auto.
    + destruct (Nat.eq_dec (plane i) 1) as [E1|E1]; [destruct (Nat.eq_dec k 6) as [->|K]|].
      * rewrite (unc_zero B 6 j); auto; [ring| |].
        -- intros P. apply N2. split; auto. clear -P Hj. idx7 j Hj; simpl in P; congruence.
        -- intros [X _]. discriminate X.
      * rewrite (unc_zero A i k); auto; [ring|]. intros [_ X]. auto.
      * rewrite (unc_zero A i k); auto; [ring|]. intros [X _]. auto.
  - unfold mmul, msize. rewrite (affine_row A (fun k => B k 6%nat)) by (apply unc_affine; auto). apply HB.
Qed.
(** The block of a product is the product of the blocks. *)
Definition starts (i : nat) : Prop := i = 0%nat \/ i = 2%nat \/ i = 4%nat.
Lemma unc_block A B i a b : uncoupled A -> uncoupled B -> starts i -> plane a = plane i -> plane b = plane i -> (a < 7)%nat -> (b < 7)%nat ->
  mmul msize A B a b = A a i * B i b + A a (S i) * B (S i) b.
Proof.
  intros HA HB Hs Ha Hb La Lb. change (mmul msize A B a b) with (sumn 7 (fun k => A a k * B k b)).
  assert (Z : forall k, (k < 7)%nat -> k <> i -> k <> S i -> A a k * B k b = 0).
  { intros k Hk N1 N2. rewrite (unc_zero B k b); auto; [ring| |].
    - rewrite Hb. destruct Hs as [-> | [-> | ->]]; clear -Hk N1 N2; idx7 k Hk; simpl; congruence.
    - intros [_ ->]. destruct Hs as [-> | [-> | ->]]; discriminate Hb. }
  destruct Hs as [-> | [-> | ->]]; cbn [sumn].
  - rewrite (Z 2%nat), (Z 3%nat), (Z 4%nat), (Z 5%nat), (Z 6%nat) by lia. ring.
  - rewrite (Z 0%nat), (Z 1%nat), (Z 4%nat), (Z 5%nat), (Z 6%nat) by lia. ring.
  - rewrite (Z 0%nat), (Z 1%nat), (Z 2%nat), (Z 3%nat), (Z 6%nat) by lia. ring.
Qed.
Lemma det_mul A B i : uncoupled A -> uncoupled B -> starts i -> det_at (mmul msize A B) i = det_at A i * det_at B i.
Proof.
  intros HA HB Hs. unfold det_at.
  assert (P1 : plane (S i) = plane i) by (destruct Hs as [-> | [-> | ->]]; reflexivity).
  assert (P2 : (S i < 7)%nat) by (destruct Hs as [-> | [-> | ->]]; lia).
  rewrite !(unc_block A B i) by (auto; lia). ring.
Qed.
Lemma unc_set M i j x : uncoupled M -> (i < 7)%nat -> (plane i = plane j \/ plane i = 1%nat /\ j = 6%nat) -> i <> 6%nat ->
  uncoupled (mset M i j x).
Proof.
  intros [H1 H2] Hi P N. split.
  - intros a b Ha Hb Q1 Q2. unfold mset. destruct (Nat.eqb_spec a i) as [->|]; simpl; auto.
    destruct (Nat.eqb_spec b j) as [->|]; simpl; auto. destruct P as [P|P]; contradiction.
  - unfold mset. destruct (Nat.eqb_spec 6 i); [congruence|]. exact H2.
Qed.
Ltac unc := repeat (apply unc_set; [|lia|cbn; auto|lia]); try apply unc_id.
Lemma unc_two i j x k l y : (i < 6)%nat -> (k < 6)%nat ->
  (plane i = plane j \/ plane i = 1%nat /\ j = 6%nat) -> (plane k = plane l \/ plane k = 1%nat /\ l = 6%nat) ->
  uncoupled (two_at i j x k l y).
Proof. intros. unfold two_at. apply unc_set; auto; try lia. apply unc_set; auto; try lia. apply unc_id. Qed.
Lemma unc_one i j x : (i < 6)%nat -> (plane i = plane j \/ plane i = 1%nat /\ j = 6%nat) -> uncoupled (one_at i j x).
Proof. intros. unfold one_at. apply unc_set; auto; try lia. apply unc_id. Qed.
Lemma unc_join A B : uncoupled A -> uncoupled (join A B).
Proof. intros H. unfold join. cbv zeta. unc. exact H. Qed.
Lemma det_join_x A B : det_at (join A B) 0 = det_at A 0 /\ det_at (join A B) 2 = det_at A 2 /\ det_at (join A B) 4 = det_at B 4.
Proof. repeat split; reflexivity. Qed.

(** ** What the pieces multiply by *)
(** A factor of the transverse matrix: uncoupled, the same determinant in both
    planes. *)
Definition fair (x : R) (M : mat) : Prop := uncoupled M /\ det_at M 0 = x /\ det_at M 2 = x.
Lemma fair_mul x y A B : fair x A -> fair y B -> fair (x * y) (mmul msize A B).
Proof.
  intros (A1 & A2 & A3) (B1 & B2 & B3). split; [apply unc_mul; auto|].
  rewrite !det_mul by (auto; unfold starts; auto). rewrite A2, A3, B2, B3. auto.
Qed.
Lemma fair_id : fair 1 mid.
Proof. split; [apply unc_id|]. unfold det_at, mid. simpl. lra. Qed.
Ltac det := unfold det_at, two_at, one_at, mset, mid; simpl; try ring.
Lemma fair_drift L : fair 1 (two_at 0 1 L 2 3 L).
Proof. split; [apply unc_two; cbn; auto; lia|]; split; det. Qed.
Lemma fair_kick k k' : fair 1 (two_at 1 0 k 3 2 k').
Proof. split; [apply unc_two; cbn; auto; lia|]; split; det. Qed.
Lemma fair_dipole k : fair 1 (one_at 3 6 k).
Proof. split; [apply unc_one; cbn; auto; lia|]; split; det. Qed.
Lemma fair_gap a : fair a (two_at 1 1 a 3 3 a).
Proof. split; [apply unc_two; cbn; auto; lia|]; split; det. Qed.
(** A factor of the longitudinal matrix. *)
Definition lfair (M : mat) : Prop := uncoupled M /\ det_at M 4 = 1.
Lemma lfair_mul A B : lfair A -> lfair B -> lfair (mmul msize A B).
Proof. intros (A1 & A2) (B1 & B2). split; [apply unc_mul; auto|]. rewrite det_mul by (auto; unfold starts; auto). rewrite A2, B2. ring. Qed.
Lemma lfair_id : lfair mid.
Proof. split; [apply unc_id|]. unfold det_at, mid. simpl. ring. Qed.
Lemma lfair_drift x : lfair (one_at 4 5 x).
Proof. split; [apply unc_one; cbn; auto; lia|]. det. Qed.
Lemma lfair_kick x : lfair (one_at 5 4 x).
Proof. split; [apply unc_one; cbn; auto; lia|]. det. Qed.

Lemma beta_of_ok g b : beta_of g = Ok b -> 1 < sqr g /\ b = sqrt (1 - 1 / sqr g) /\ 0 < b.
Proof.
  unfold beta_of. destruct (Rlt_dec 1 (sqr g)) as [L|]; [|discriminate]. intros [= <-]. split; auto. split; auto.
  apply sqrt_lt_R0. assert (1 / sqr g < 1); [|lra]. apply Rmult_lt_reg_r with (sqr g); [lra|]. unfold Rdiv. rewrite Rmult_assoc, Rinv_l; lra.
Qed.
Lemma bg_nonzero g b : beta_of g = Ok b -> b * g <> 0.
Proof. intros H. apply beta_of_ok in H as (H1 & _ & H2). unfold sqr in H1. assert (g <> 0) by nra. intros E. apply Rmult_integral in E as [E|E]; lra. Qed.

(** ** Generic cavities *)
Definition gen_ok (g0 : R) (g : gen) : Prop :=
  g_beta g * g_gamma g <> 0 /\ fair (g0 / (g_beta g * g_gamma g)) (g_Mt g) /\ lfair (g_Ml g).
Lemma on_trans_ok x g P : gen_ok x g -> fair 1 P -> gen_ok x (on_trans g P).
Proof.
  intros (H1 & H2 & H3) F. split; [exact H1|]. split; [|exact H3]. simpl.
  replace (x / (g_beta g * g_gamma g)) with (1 * (x / (g_beta g * g_gamma g))) by ring. apply fair_mul; auto.
Qed.
Lemma gen_step_ok x cv p scl P g g' : gen_ok x g -> gen_step cv p scl P g = Ok g' -> gen_ok x g'.
Proof.
  intros G. unfold gen_step. cbv zeta.
  destruct (String.eqb _ "drift").
  { intros [= <-]. destruct G as (H1 & H2 & H3). split; [exact H1|]. simpl. split.
    - replace (x / (g_beta g * g_gamma g)) with (1 * (x / (g_beta g * g_gamma g))) by ring. apply fair_mul; auto. apply fair_drift.
    - apply lfair_mul; auto. apply lfair_drift. }
  assert (FO : forall lvl (kick : R -> R -> R) sy, (if N.ltb (cv_mp cv) lvl then Ok g
    else rbind (rbind (fit_pow (g_k g) (r_T P)) (fun T => rbind (fit_pow (g_k g) (r_S P)) (fun S => Ok (T, S)))) (fun '(T, Sf) =>
         rbind (fdiv (kick T Sf) (cv_Rm cv)) (fun k => Ok (on_trans g (two_at 1 0 k 3 2 (sy * k)))))) = Ok g' -> gen_ok x g').
  { intros lvl kick sy. destruct (N.ltb _ _); [intros [= <-]; exact G|]. intros H. apply rbind_ok in H as ([T Sf] & _ & H).
    apply rbind_ok in H as (k & _ & H). injection H as <-. apply on_trans_ok; auto. apply fair_kick. }
  assert (DI : forall kick : R -> R -> R, (if N.ltb (cv_mp cv) 1 then Ok g
    else rbind (rbind (fit_pow (g_k g) (r_T P)) (fun T => rbind (fit_pow (g_k g) (r_S P)) (fun S => Ok (T, S)))) (fun '(T, Sf) => Ok (on_trans g (one_at 3 6 (kick T Sf))))) = Ok g' -> gen_ok x g').
  { intros kick. destruct (N.ltb _ _); [intros [= <-]; exact G|]. intros H. apply rbind_ok in H as ([T Sf] & _ & H).
    injection H as <-. apply on_trans_ok; auto. apply fair_dipole. }
  destruct (String.eqb _ "EFocus"); [apply FO|]. destruct (String.eqb _ "EDipole"); [apply DI|]. destruct (String.eqb _ "EQuad"); [apply FO|].
  destruct (String.eqb _ "HMono"); [apply FO|]. destruct (String.eqb _ "HDipole"); [apply DI|]. destruct (String.eqb _ "HQuad"); [apply FO|].
  destruct (String.eqb _ "AccGap"); [|discriminate].
  intros H. apply rbind_ok in H as ([T Sf] & _ & H). apply rbind_ok in H as (beta & Hb & H). injection H as <-.
  apply bg_nonzero in Hb. destruct G as (H1 & H2 & H3). split; [exact Hb|]. simpl. split.
  - match goal with |- fair ?y _ => replace y with (g_beta g * g_gamma g / (beta * ((g_W g + p_Z p * (r_E0 P * scl) * MeVtoeV * T * cos (g_Fy g) - p_Z p * (r_E0 P * scl) * MeVtoeV * Sf * sin (g_Fy g)) / p_Es p)) * (x / (g_beta g * g_gamma g))) end.
    + apply fair_mul; auto. apply fair_gap.
    + unfold Rdiv at 1 3 4. rewrite <- (Rmult_1_r x) at 2. rewrite <- (Rinv_l (g_beta g * g_gamma g)) by exact H1. ring.
  - apply lfair_mul; auto. apply lfair_kick.
Qed.
Lemma gen_loop_ok x cv p scl : forall l g g', gen_ok x g -> gen_loop cv p scl l g = Ok g' -> gen_ok x g'.
Proof.
  induction l as [|P l IH]; intros g g' G; simpl; [intros [= <-]; auto|]. intros H. apply rbind_ok in H as (g1 & H1 & H).
  eapply IH; [|exact H]. eapply gen_step_ok; eauto.
Qed.

(** ** Cavities with two gaps *)
Definition two_ok (x : two) : Prop := exists r, r <> 0 /\ fair r (h_Mt x).
Lemma two_mul P x M : r_type P = r_type P -> two_ok x -> (exists r, r <> 0 /\ fair r M) ->
  exists r, r <> 0 /\ fair r (mmul msize M (h_Mt x)).
Proof. intros _ (r & R1 & R2) (q & Q1 & Q2). exists (q * r). split; [apply Rmult_integral_contrapositive_currified; auto|apply fair_mul; auto]. Qed.
Lemma two_one M : fair 1 M -> exists r, r <> 0 /\ fair r M.
Proof. intros H. exists 1. split; [lra|exact H]. Qed.
Definition gap_line (P : rawp) (t : tlm) : Prop := r_type P = "AccGap" -> l_Accel t <> 0.
Lemma two_step_ok cv p scl Rm b g s P t x x' : gap_line P t -> two_ok x -> two_step cv p scl Rm b g s P t x = Ok x' -> two_ok x'.
Proof.
  intros GL G. unfold two_step. cbv zeta.
  destruct (String.eqb _ "drift").
  { intros [= <-]. apply (two_mul P); auto. apply two_one. apply fair_drift. }
  assert (FO : forall lvl kick sy, (if N.ltb (cv_mp cv) lvl then Ok x else Ok (on_two x (two_at 1 0 (kick / Rm) 3 2 (sy * (kick / Rm))))) = Ok x' -> two_ok x').
  { intros lvl kick sy. destruct (N.ltb _ _); intros [= <-]; [exact G|]. apply (two_mul P); auto. apply two_one. apply fair_kick. }
  assert (DI : forall kick, (if N.ltb (cv_mp cv) 1 then Ok x else Ok (on_two x (one_at 3 6 kick))) = Ok x' -> two_ok x').
  { intros kick. destruct (N.ltb _ _); intros [= <-]; [exact G|]. apply (two_mul P); auto. apply two_one. apply fair_dipole. }
  destruct (String.eqb _ "EFocus1"); [apply FO|]. destruct (String.eqb _ "EFocus2"); [apply FO|].
  destruct (String.eqb _ "EDipole"); [apply DI|]. destruct (String.eqb _ "EQuad"); [apply FO|].
  destruct (String.eqb _ "HMono"); [apply FO|]. destruct (String.eqb _ "HDipole"); [apply DI|]. destruct (String.eqb _ "HQuad").
  { destruct (N.ltb (cv_mp cv) 2). { intros [= <-]; exact G. } match goal with |- context [Req_EM_T ?a ?b] => destruct (Req_EM_T a b) end; [discriminate|]. intros [= <-]. apply (two_mul P); auto. apply two_one. apply fair_kick. }
  destruct (String.eqb_spec (r_type P) "AccGap") as [E|]; [|discriminate].
  destruct (Nat.ltb _ _); [discriminate|]. intros [= <-]. apply (two_mul P); auto. exists (l_Accel t). split; [auto|apply fair_gap].
Qed.
Lemma two_loop_ok cv p scl Rm b g : forall l s x x', (forall P t, In (P, t) l -> gap_line P t) -> two_ok x ->
  two_loop cv p scl Rm b g s l x = Ok x' -> two_ok x'.
Proof.
  induction l as [|[P t] l IH]; intros s x x' GL G; simpl; [intros [= <-]; auto|]. intros H. apply rbind_ok in H as (x1 & H1 & H).
  eapply IH; [|eapply two_step_ok; [| |exact H1]|exact H]; auto; intros; apply GL; simpl; auto.
Qed.
Lemma params_step_gap cv b g k s P t : b 0%nat * g 0%nat <> 0 -> b 1%nat * g 1%nat <> 0 -> b 2%nat * g 2%nat <> 0 ->
  params_step cv b g k s P = Ok t -> gap_line P t.
Proof.
  intros N0 N1 N2 H E. unfold params_step in H. rewrite E in H. cbv zeta in H. cbn [String.eqb Ascii.eqb Bool.eqb] in H.
  injection H as <-. simpl. destruct (if Rlt_dec s 0 then true else false); apply Rmult_integral_contrapositive_currified; auto; apply Rinv_neq_0_compat; auto.
Qed.
Lemma params_loop_gap cv b g k : b 0%nat * g 0%nat <> 0 -> b 1%nat * g 1%nat <> 0 -> b 2%nat * g 2%nat <> 0 -> forall l s ts,
  params_loop cv b g k s l = Ok ts -> forall P t, In (P, t) (combine l ts) -> gap_line P t.
Proof.
  intros N0 N1 N2. induction l as [|P l IH]; intros s ts; simpl; [intros [= <-] P t []|].
  intros H. apply rbind_ok in H as (t & H1 & H). apply rbind_ok in H as (r & H2 & H). injection H as <-.
  intros P' t' [[= <- <-]|Hin]; [eapply params_step_gap; eauto|eauto].
Qed.

(** ** The matrix of a cavity *)
Section Shape.
Variable w : world.
Lemma gen_shape cv p scl Fy Ek M : gen_matrix w cv p scl Fy Ek = Ok M -> cav_shape M.
Proof.
  intros H. unfold gen_matrix in H. cbv zeta in H. apply rbind_ok in H as (b & Hb & H). destruct (_ && _)%bool; [discriminate|].
  apply rbind_ok in H as (g & H1 & H). injection H as <-. apply bg_nonzero in Hb.
  apply (gen_loop_ok (b * ((Ek + p_Es p) / p_Es p))) in H1 as (B1 & (B2 & B3 & B4) & B5 & B6).
  - split; [apply unc_join; auto|]. destruct (det_join_x (g_Mt g) (g_Ml g)) as (-> & -> & ->). rewrite B3, B4. repeat split; auto.
    apply Rmult_integral_contrapositive_currified; auto. apply Rinv_neq_0_compat; auto.
  - split; [exact Hb|]. simpl. split; [|apply lfair_id]. unfold Rdiv at 1. rewrite Rinv_r by exact Hb. apply fair_id.
Qed.
Lemma two_shape cv label Rm p scl Fy Ek M : cav_matrix w cv label Rm p scl Fy Ek = Ok M -> cav_shape M.
Proof.
  unfold cav_matrix. cbv zeta. destruct (Nat.eqb _ 0); [discriminate|]. intros H.
  apply rbind_ok in H as (b0 & B0 & H). apply rbind_ok in H as (t0 & _ & H). apply rbind_ok in H as ([W1 F1] & _ & H).
  apply rbind_ok in H as (b1 & B1 & H). apply rbind_ok in H as (t1 & _ & H). apply rbind_ok in H as ([W2 F2] & _ & H).
  apply rbind_ok in H as (b2 & B2 & H). apply rbind_ok in H as (ls & L & H).
  apply bg_nonzero in B0. apply bg_nonzero in B1. apply bg_nonzero in B2.
  unfold two_gap_matrix in H. cbv zeta in H. unfold cav_params in L. destruct (cv_data cv) as [|[z0 e0] rows]; [discriminate|].
  apply rbind_ok in H as (x & H1 & H). injection H as <-.
  apply two_loop_ok in H1 as (r & R1 & R2 & R3 & R4).
  - split; [apply unc_join; auto|].
    match goal with |- context [join ?A ?B] => destruct (det_join_x A B) as (-> & -> & ->); assert (LB : lfair B) end.
    { repeat apply lfair_mul; try apply lfair_drift; apply lfair_kick. }
    rewrite R3, R4. repeat split; auto. apply LB.
  - destruct (cv_lat cv) as [|P l] eqn:EL; [discriminate|]. rewrite <- EL in L |- *. clear EL. eapply params_loop_gap; [| | |exact L]; simpl; auto.
  - exists 1. split; [lra|]. apply fair_id.
Qed.
Definition jump_one (m : R) (M : mat) (a : nat) : mat :=
  let M := mset M a 4 (M a 4%nat * m) in mset M 4 a (M 4%nat a / m).
Lemma jump_one_entry m M a i j : m <> 0 ->
  jump_one m M a i j = M i j * (if (Nat.eqb i a && Nat.eqb j 4)%bool then m else 1) / (if (Nat.eqb i 4 && Nat.eqb j a)%bool then m else 1).
Proof.
  intros Hm. unfold jump_one, mset.
  destruct (Nat.eqb_spec i a), (Nat.eqb_spec j 4), (Nat.eqb_spec i 4), (Nat.eqb_spec j a); subst; try lia; cbn [andb];
  repeat match goal with |- context [Nat.eqb ?x ?y] => destruct (Nat.eqb_spec x y); subst; try lia; cbn [andb] end; field; exact Hm.
Qed.
Lemma jump_entry m M i j : (i < 7)%nat -> (j < 7)%nat -> m <> 0 ->
  freq_jump m M i j = M i j * (if Nat.eqb j 4 then m else 1) / (if Nat.eqb i 4 then m else 1).
Proof.
  intros Hi Hj Hm. unfold freq_jump. destruct (Req_EM_T m 1) as [->|N].
  - destruct (Nat.eqb j 4), (Nat.eqb i 4); field.
  - change (fold_left (jump_one m) (seq 0 7) M i j = M i j * (if Nat.eqb j 4 then m else 1) / (if Nat.eqb i 4 then m else 1)).
    cbn [seq fold_left]. rewrite !jump_one_entry by exact Hm.
    idx7 i Hi; idx7 j Hj; cbn [Nat.eqb andb]; field; exact Hm.
Qed.
Lemma jump_shape m M : m <> 0 -> cav_shape M -> cav_shape (freq_jump m M).
Proof.
  intros Hm ((U1 & U2) & D1 & D2 & D3). split; [split|].
  - intros i j Hi Hj N1 N2. rewrite jump_entry by auto. rewrite U1 by auto. unfold Rdiv. ring.
  - rewrite jump_entry by (auto; lia). rewrite U2. simpl. field.
  - unfold det_at in *. rewrite !jump_entry by (auto; lia). cbn [Nat.eqb]. repeat split.
    + transitivity (M 0%nat 0%nat * M 1%nat 1%nat - M 0%nat 1%nat * M 1%nat 0%nat); [field|]. rewrite D1. field.
    + intros E. apply D2. rewrite <- E. field.
    + etransitivity; [|exact D3]. field. exact Hm.
Qed.
Lemma init_shape cv c phi p M0 p' : snd (init_cav w cv c phi p M0) = Ok p' -> cav_shape (fst (init_cav w cv c phi p M0)).
Proof.
  intros H. apply init_inv in H as (label & Rm & W & Fy & Fy' & scl & M & H1 & H2 & H3 & H4 & H5 & H6 & H7 & ->).
  assert (Fq : cv_f cv <> 0).
  { unfold boost in H5. destruct (_ && _)%bool; [discriminate|]. destruct (Nat.eqb _ 0); [discriminate|].
    destruct (Rle_dec _ _); [discriminate|]. destruct (Req_EM_T (cv_f cv) 0); [discriminate|auto]. }
  apply jump_shape; [apply Rmult_integral_contrapositive_currified; auto; apply Rinv_neq_0_compat; auto|].
  destruct (Nat.ltb _ _); [eapply two_shape; eauto|eapply gen_shape; eauto].
Qed.
Variable files : cavfiles.
Lemma with_affine : cavities_affine (with_cavities w files).
Proof.
  intros c phi p T A. simpl. destruct (load_cavity w files c) as [cv|e]; [|exact A].
  destruct (snd (init_cav w cv c phi p T)) as [p'|e] eqn:E.
  - apply unc_affine. eapply init_shape. exact E.
  - rewrite (init_fails w cv c phi p T e E). exact A.
Qed.
Lemma with_shape c phi p T p' : let w' := with_cavities w files in
  snd (w_cav_one w' c phi p T) = Ok p' -> cav_shape (fst (w_cav_one w' c phi p T)).
Proof. simpl. destruct (load_cavity w files c) as [cv|e]; [|discriminate]. apply init_shape. Qed.
End Shape.
