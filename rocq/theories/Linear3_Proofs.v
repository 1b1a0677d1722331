(** The matrices of the linear elements as flows of the equations of motion. *)
From Coq Require Import Reals List String Bool NArith ZArith Arith Lia Lra.
From Verif Require Import SMap SMap_Proofs Dbl Config_Spec Mat Mat_Proofs Machine_Model Machine_Spec Machine_Proofs
  Linear_Model Linear_Spec Linear_Proofs Linear2_Proofs.
Import ListNotations.
Open Scope R_scope.
Open Scope string_scope.
Open Scope list_scope.

(** ** Derivatives *)
Lemma dlim_eq f x l l' : derivable_pt_lim f x l -> l = l' -> derivable_pt_lim f x l'.
Proof. intros H <-. exact H. Qed.
Lemma dlim_ext f g x l : (forall y, f y = g y) -> derivable_pt_lim f x l -> derivable_pt_lim g x l.
Proof. intros E H eps He. destruct (H eps He) as [d Hd]. exists d. intros h Hh Hl. rewrite <- !E. auto. Qed.
Lemma dlim_sumn n (f : nat -> R -> R) x l : (forall k, (k < n)%nat -> derivable_pt_lim (f k) x (l k)) ->
  derivable_pt_lim (fun s => sumn n (fun k => f k s)) x (sumn n l).
Proof.
  induction n as [|n IH]; intros H; simpl.
  - apply (derivable_pt_lim_const 0).
  - apply (derivable_pt_lim_plus (fun s => sumn n (fun k => f k s)) (f n)); auto.
Qed.
Lemma dlim_scal_r f x l a : derivable_pt_lim f x l -> derivable_pt_lim (fun s => f s * a) x (l * a).
Proof.
  intros H. apply (dlim_ext (fun s => a * f s)); [intros; ring|]. rewrite Rmult_comm. apply (derivable_pt_lim_scal f); auto.
Qed.
Lemma dlim_arg (f f' : R -> R) k s : (forall y, derivable_pt_lim f y (f' y)) -> derivable_pt_lim (fun s => f (k * s)) s (k * f' (k * s)).
Proof.
  intros H. apply (dlim_eq _ _ (f' (k * s) * (k * 1))); [|ring].
  apply (derivable_pt_lim_comp (fun x => k * x) f); [|apply H]. apply derivable_pt_lim_scal, derivable_pt_lim_id.
Qed.

(** A flow moves every point along a trajectory. *)
Definition flow (A : mat) (F : R -> mat) : Prop :=
  forall s i k, (i < 6)%nat -> (k < 6)%nat -> derivable_pt_lim (fun s => F s i k) s (mmul 6 A (F s) i k).
Lemma flow_trajectory A F v : flow A F -> trajectory A (fun s => mapp 6 (F s) v).
Proof.
  intros H s i Hi. unfold mapp at 1.
  apply (dlim_eq _ _ (sumn 6 (fun k => mmul 6 A (F s) i k * v k))).
  - apply (dlim_sumn 6 (fun k s => F s i k * v k)). intros k Hk. apply dlim_scal_r. apply H; auto.
  - change (mapp 6 (mmul 6 A (F s)) v i = mapp 6 A (mapp 6 (F s) v) i). apply mapp_mmul. exact Hi.
Qed.

(** ** The transverse planes *)
Lemma cs_deriv K s : derivable_pt_lim (fun L => plane_cs L K) s (plane_sp s K).
Proof.
  unfold plane_cs, plane_sp. destruct (Rlt_dec 0 K) as [H|H].
  - destruct (Req_EM_T (sqrt K) 0) as [E|_]; [exfalso; eapply sqrt_pos_neq; eauto|].
    eapply dlim_eq; [apply (dlim_arg cos (fun y => - sin y)); intros; apply derivable_pt_lim_cos|ring].
  - eapply dlim_eq; [apply (dlim_arg cosh sinh); intros; apply derivable_pt_lim_cosh|].
    destruct (Req_EM_T (sqrt (- K)) 0) as [->|_]; ring.
Qed.
Lemma sn_deriv K s : derivable_pt_lim (fun L => plane_sn L K) s (plane_cs s K).
Proof.
  unfold plane_cs, plane_sn. destruct (Rlt_dec 0 K) as [H|H].
  - destruct (Req_EM_T (sqrt K) 0) as [E|N]; [exfalso; eapply sqrt_pos_neq; eauto|].
    eapply dlim_eq; [apply dlim_scal_r; apply (dlim_arg sin cos); intros; apply derivable_pt_lim_sin|]. field. exact N.
  - destruct (Req_EM_T (sqrt (- K)) 0) as [->|N].
    + eapply dlim_eq; [apply derivable_pt_lim_id|]. rewrite Rmult_0_l, cosh_0'. reflexivity.
    + eapply dlim_eq; [apply dlim_scal_r; apply (dlim_arg sinh cosh); intros; apply derivable_pt_lim_sinh|]. field. exact N.
Qed.
Lemma sp_sn K s : plane_sp s K = - K * plane_sn s K.
Proof.
  unfold plane_sn, plane_sp. destruct (Rlt_dec 0 K) as [H|H].
  - destruct (Req_EM_T (sqrt K) 0) as [E|N]; [exfalso; eapply sqrt_pos_neq; eauto|].
    pose proof (sqrt_sq K ltac:(lra)) as S. rewrite <- S at 3. field. exact N.
  - pose proof (sqrt_sq (- K) ltac:(lra)) as S. destruct (Req_EM_T (sqrt (- K)) 0) as [E|N].
    + rewrite E in S. assert (K = 0) by lra. subst. ring.
    + rewrite <- S at 3. field. exact N.
Qed.
Lemma sp_deriv K s : derivable_pt_lim (fun L => plane_sp L K) s (- K * plane_cs s K).
Proof.
  apply (dlim_ext (fun L => - K * plane_sn L K)); [intros; symmetry; apply sp_sn|].
  apply (derivable_pt_lim_scal (fun L => plane_sn L K)). apply sn_deriv.
Qed.
Lemma plane_zero K : plane_cs 0 K = 1 /\ plane_sn 0 K = 0 /\ plane_sp 0 K = 0.
Proof.
  assert (S : plane_sn 0 K = 0).
  { unfold plane_sn. destruct (Rlt_dec 0 K).
    - destruct (Req_EM_T (sqrt K) 0); auto. rewrite Rmult_0_r, sin_0. unfold Rdiv. ring.
    - destruct (Req_EM_T (sqrt (- K)) 0); auto. rewrite Rmult_0_r. unfold sinh. rewrite Ropp_0. unfold Rdiv. ring. }
  split; [|split; [exact S|rewrite sp_sn, S; ring]].
  unfold plane_cs. destruct (Rlt_dec 0 K); rewrite Rmult_0_r; [apply cos_0|apply cosh_0'].
Qed.

Definition planes (kx ky : R) (s : R) : mat :=
  blocks (plane_cs s kx) (plane_sn s kx) (plane_sp s kx) (plane_cs s kx)
         (plane_cs s ky) (plane_sn s ky) (plane_sp s ky) (plane_cs s ky).
Ltac idx6 i H := destruct i as [|[|[|[|[|[|i]]]]]]; [..|exfalso; lia]; clear H.
Lemma planes_flow kx ky : flow (focusing kx ky) (planes kx ky).
Proof.
  intros s i k Hi Hk. unfold planes.
  idx6 i Hi; idx6 k Hk; cbn [blocks];
    first [ eapply dlim_eq; [apply cs_deriv|cbv [mmul sumn focusing blocks]; rewrite ?sp_sn; ring]
          | eapply dlim_eq; [apply sn_deriv|cbv [mmul sumn focusing blocks]; rewrite ?sp_sn; ring]
          | eapply dlim_eq; [apply sp_deriv|cbv [mmul sumn focusing blocks]; rewrite ?sp_sn; ring]
          | eapply dlim_eq; [apply (derivable_pt_lim_const 0)|cbv [mmul sumn focusing blocks]; ring]
          | eapply dlim_eq; [apply (derivable_pt_lim_const 1)|cbv [mmul sumn focusing blocks]; ring] ].
Qed.
Lemma planes_start kx ky : meq 6 (planes kx ky 0) mid.
Proof.
  intros i j Hi Hj. destruct (plane_zero kx) as (A1 & A2 & A3). destruct (plane_zero ky) as (B1 & B2 & B3).
  unfold planes. idx6 i Hi; idx6 j Hj; cbn [blocks]; unfold mid; cbn [Nat.eqb]; auto.
Qed.

(** ** The solenoid *)
Definition turn (k s : R) : mat := sol (isz k) k s (cos (k * s)) (sin (k * s)).
Lemma cos_sin_deriv k s : derivable_pt_lim (fun x => cos (k * x)) s (- k * sin (k * s)) /\
  derivable_pt_lim (fun x => sin (k * x)) s (k * cos (k * s)).
Proof.
  split; (eapply dlim_eq; [first [apply (dlim_arg cos (fun y => - sin y)); intros; apply derivable_pt_lim_cos
                                 |apply (dlim_arg sin cos); intros; apply derivable_pt_lim_sin]|ring]).
Qed.
Lemma cc_deriv k s : derivable_pt_lim (fun x => cos (k * x) * cos (k * x)) s (- 2 * k * sin (k * s) * cos (k * s)).
Proof. destruct (cos_sin_deriv k s) as [A B]. eapply dlim_eq; [apply (derivable_pt_lim_mult _ _ _ _ _ A A)|ring]. Qed.
Lemma ss_deriv k s : derivable_pt_lim (fun x => sin (k * x) * sin (k * x)) s (2 * k * sin (k * s) * cos (k * s)).
Proof. destruct (cos_sin_deriv k s) as [A B]. eapply dlim_eq; [apply (derivable_pt_lim_mult _ _ _ _ _ B B)|ring]. Qed.
Lemma sc_deriv k s : derivable_pt_lim (fun x => sin (k * x) * cos (k * x)) s (k * (cos (k * s) * cos (k * s) - sin (k * s) * sin (k * s))).
Proof. destruct (cos_sin_deriv k s) as [A B]. eapply dlim_eq; [apply (derivable_pt_lim_mult _ _ _ _ _ B A)|ring]. Qed.
Lemma dlim_lin f g x l a : (forall y, g y = a * f y) -> derivable_pt_lim f x l -> derivable_pt_lim g x (a * l).
Proof. intros E H. apply (dlim_ext (fun y => a * f y)); [intros; symmetry; apply E|]. apply derivable_pt_lim_scal; auto. Qed.
Lemma turn_flow k : flow (larmor k) (turn k).
Proof.
  intros s i j Hi Hj. unfold turn, isz. destruct (Req_EM_T k 0) as [->|N].
  - assert (C : forall x, cos (0 * x) = 1) by (intros; rewrite Rmult_0_l; apply cos_0).
    assert (S : forall x, sin (0 * x) = 0) by (intros; rewrite Rmult_0_l; apply sin_0).
    idx6 i Hi; idx6 j Hj; cbn [sol];
    first [ eapply dlim_eq; [apply (dlim_ext (fun _ => 0)); [intros; rewrite ?S, ?C; ring|apply (derivable_pt_lim_const 0)]|cbv [mmul sumn larmor sol]; rewrite ?C, ?S; ring]
          | eapply dlim_eq; [apply (dlim_ext (fun _ => 1)); [intros; rewrite ?S, ?C; ring|apply (derivable_pt_lim_const 1)]|cbv [mmul sumn larmor sol]; rewrite ?C, ?S; ring]
          | eapply dlim_eq; [apply derivable_pt_lim_id|cbv [mmul sumn larmor sol]; rewrite ?C, ?S; ring] ].
  - pose proof (fun x => sin2_cos2 x) as SC.
    idx6 i Hi; idx6 j Hj; cbn [sol];
    first [ eapply dlim_eq; [apply (derivable_pt_lim_const 0)|cbv [mmul sumn larmor sol]; solve [field; exact N]]
          | eapply dlim_eq; [apply (derivable_pt_lim_const 1)|cbv [mmul sumn larmor sol]; solve [field; exact N]]
          | eapply dlim_eq; [apply cc_deriv|cbv [mmul sumn larmor sol]; solve [field; exact N]]
          | eapply dlim_eq; [apply sc_deriv|cbv [mmul sumn larmor sol]; solve [field; exact N]]
          | eapply dlim_eq; [eapply (dlim_lin (fun x => sin (k * x) * cos (k * x)) _ s _ (/ k)); [intros; cbv beta; unfold Rdiv; ring|apply sc_deriv]|cbv [mmul sumn larmor sol]; solve [field; exact N]]
          | eapply dlim_eq; [eapply (dlim_lin (fun x => sin (k * x) * sin (k * x)) _ s _ (/ k)); [intros; cbv beta; unfold Rdiv; ring|apply ss_deriv]|cbv [mmul sumn larmor sol]; solve [field; exact N]]
          | eapply dlim_eq; [eapply (dlim_lin (fun x => sin (k * x) * sin (k * x)) _ s _ (- / k)); [intros; cbv beta; unfold Rdiv; ring|apply ss_deriv]|cbv [mmul sumn larmor sol]; solve [field; exact N]]
          | eapply dlim_eq; [eapply (dlim_lin (fun x => sin (k * x) * cos (k * x)) _ s _ (- k)); [intros; cbv beta; unfold Rdiv; ring|apply sc_deriv]|cbv [mmul sumn larmor sol]; solve [field; exact N]]
          | eapply dlim_eq; [eapply (dlim_lin (fun x => sin (k * x) * sin (k * x)) _ s _ (- k)); [intros; cbv beta; unfold Rdiv; ring|apply ss_deriv]|cbv [mmul sumn larmor sol]; solve [field; exact N]]
          | eapply dlim_eq; [eapply (dlim_lin (fun x => sin (k * x) * sin (k * x)) _ s _ k); [intros; cbv beta; unfold Rdiv; ring|apply ss_deriv]|cbv [mmul sumn larmor sol]; solve [field; exact N]]
          | eapply dlim_eq; [eapply (dlim_lin (fun x => sin (k * x) * cos (k * x)) _ s _ (-1)); [intros; cbv beta; unfold Rdiv; ring|apply sc_deriv]|cbv [mmul sumn larmor sol]; solve [field; exact N]] ].
Qed.
Lemma turn_start k : meq 6 (turn k 0) mid.
Proof.
  intros i j Hi Hj. unfold turn, isz. rewrite Rmult_0_r, cos_0, sin_0.
  idx6 i Hi; idx6 j Hj; cbn [sol]; unfold mid; cbn [Nat.eqb]; destruct (Req_EM_T k 0); try (field; auto); auto; ring.
Qed.

(** ** Uniqueness *)
Lemma dlim_minus f g x a b : derivable_pt_lim f x a -> derivable_pt_lim g x b -> derivable_pt_lim (fun s => f s - g s) x (a - b).
Proof. apply derivable_pt_lim_minus. Qed.
Lemma sq_le_sum n (d : nat -> R) i : (i < n)%nat -> d i * d i <= sumn n (fun k => d k * d k).
Proof.
  induction n as [|n IH]; intros H; [lia|]. simpl.
  assert (P : 0 <= sumn n (fun k => d k * d k)) by (apply sumn_nonneg; intros; apply Rle_0_sqr).
  assert (Q : 0 <= d n * d n) by apply Rle_0_sqr.
  destruct (Nat.eq_dec i n) as [->|]; [lra|]. specialize (IH ltac:(lia)). lra.
Qed.
Lemma sumn_le n f g : (forall k, (k < n)%nat -> f k <= g k) -> sumn n f <= sumn n g.
Proof. induction n as [|n IH]; simpl; intros H; [lra|]. apply Rplus_le_compat; auto. Qed.
Lemma energy_bound n A d : let E := sumn n (fun k => d k * d k) in
  let a := sumn n (fun i => sumn n (fun j => Rabs (A i j))) in
  Rabs (sumn n (fun i => d i * mapp n A d i)) <= a * E.
Proof.
  intros E a. assert (T : forall m f, Rabs (sumn m f) <= sumn m (fun k => Rabs (f k))).
  { induction m as [|m IH]; intros f; simpl; [rewrite Rabs_R0; lra|]. eapply Rle_trans; [apply Rabs_triang|]. specialize (IH f). lra. }
  eapply Rle_trans; [apply T|]. unfold a. rewrite <- sumn_scal_r. apply sumn_le. intros i Hi.
  rewrite Rabs_mult. unfold mapp. eapply Rle_trans; [apply Rmult_le_compat_l; [apply Rabs_pos|apply T]|].
  rewrite <- sumn_scal. rewrite <- sumn_scal_r. apply sumn_le. intros j Hj. rewrite Rabs_mult.
  replace (Rabs (d i) * (Rabs (A i j) * Rabs (d j))) with (Rabs (A i j) * (Rabs (d i) * Rabs (d j))) by ring.
  apply Rmult_le_compat_l; [apply Rabs_pos|].
  pose proof (sq_le_sum n d i Hi) as X. pose proof (sq_le_sum n d j Hj) as Y. fold E in X, Y.
  assert (Z : 0 <= (Rabs (d i) - Rabs (d j)) * (Rabs (d i) - Rabs (d j))) by apply Rle_0_sqr.
  assert (X' : Rabs (d i) * Rabs (d i) = d i * d i) by (rewrite <- Rabs_mult; apply Rabs_right; apply Rle_ge, Rle_0_sqr).
  assert (Y' : Rabs (d j) * Rabs (d j) = d j * d j) by (rewrite <- Rabs_mult; apply Rabs_right; apply Rle_ge, Rle_0_sqr).
  nra.
Qed.
Lemma motion_unique n A x y : (forall s i, (i < n)%nat -> derivable_pt_lim (fun s => x s i) s (mapp n A (x s) i)) ->
  (forall s i, (i < n)%nat -> derivable_pt_lim (fun s => y s i) s (mapp n A (y s) i)) -> veq n (x 0) (y 0) -> forall s, veq n (x s) (y s).
Proof.
  intros Hx Hy H0.
  set (d := fun s i => x s i - y s i). set (E := fun s => sumn n (fun k => d s k * d s k)).
  set (a := sumn n (fun i => sumn n (fun j => Rabs (A i j)))).
  set (E' := fun s => 2 * sumn n (fun i => d s i * mapp n A (d s) i)).
  assert (Dd : forall s i, (i < n)%nat -> derivable_pt_lim (fun s => d s i) s (mapp n A (d s) i)).
  { intros s i Hi. apply (dlim_eq _ _ (mapp n A (x s) i - mapp n A (y s) i)); [apply dlim_minus; auto|].
    unfold mapp. replace (sumn n (fun k => A i k * x s k) - sumn n (fun k => A i k * y s k))
      with (sumn n (fun k => A i k * x s k) + (-1) * sumn n (fun k => A i k * y s k)) by ring.
    rewrite <- sumn_scal, <- sumn_plus. apply sumn_ext. intros. unfold d. ring. }
  assert (DE : forall s, derivable_pt_lim E s (E' s)).
  { intros s. unfold E, E'. rewrite <- sumn_scal. apply (dlim_sumn n (fun k s => d s k * d s k)). intros k Hk.
    eapply dlim_eq; [apply (derivable_pt_lim_mult (fun s => d s k) (fun s => d s k)); apply Dd; auto|]. ring. }
  assert (B : forall s, Rabs (E' s) <= 2 * a * E s).
  { intros s. unfold E'. rewrite Rabs_mult, (Rabs_right 2) by lra. pose proof (energy_bound n A (d s)) as X. cbv zeta in X. unfold a, E. lra. }
  assert (E0 : E 0 = 0).
  { unfold E. rewrite (sumn_ext _ _ (fun _ => 0)); [apply sumn_0|]. intros k Hk. unfold d. rewrite H0 by auto. ring. }
  assert (P : forall s, 0 <= E s) by (intros; apply sumn_nonneg; intros; apply Rle_0_sqr).
  assert (G : forall c s, derivable_pt_lim (fun s => E s * exp (c * s)) s ((E' s + c * E s) * exp (c * s))).
  { intros c s. eapply dlim_eq; [apply (derivable_pt_lim_mult E (fun s => exp (c * s))); [apply DE|apply (dlim_arg exp exp); intros; apply derivable_pt_lim_exp]|]. ring. }
  assert (Z : forall s, E s = 0).
  { intros s. destruct (Rtotal_order s 0) as [L|[->|L]]; [|exact E0|].
    - destruct (MVT_cor2 (fun s => E s * exp (2 * a * s)) (fun s => (E' s + 2 * a * E s) * exp (2 * a * s)) s 0 L (fun c _ => G (2 * a) c)) as (c & Hc & _).
      cbv beta in Hc. rewrite E0 in Hc.
      assert (0 <= (E' c + 2 * a * E c) * exp (2 * a * c)).
      { apply Rmult_le_pos; [|left; apply exp_pos]. specialize (B c). pose proof (Rle_abs (E' c)); pose proof (Rle_abs (- E' c)) as Q; rewrite Rabs_Ropp in Q; lra. }
      assert (0 < exp (2 * a * s)) by apply exp_pos. specialize (P s).
      assert (0 <= (E' c + 2 * a * E c) * exp (2 * a * c) * (0 - s)) by (apply Rmult_le_pos; lra).
      assert (E s * exp (2 * a * s) <= 0) by lra. nra.
    - destruct (MVT_cor2 (fun s => E s * exp (- (2 * a) * s)) (fun s => (E' s + - (2 * a) * E s) * exp (- (2 * a) * s)) 0 s L (fun c _ => G (- (2 * a)) c)) as (c & Hc & _).
      cbv beta in Hc. rewrite E0 in Hc.
      assert (0 <= - (E' c + - (2 * a) * E c) * exp (- (2 * a) * c)).
      { apply Rmult_le_pos; [|left; apply exp_pos]. specialize (B c). pose proof (Rle_abs (E' c)); pose proof (Rle_abs (- E' c)) as Q; rewrite Rabs_Ropp in Q; lra. }
      assert (0 < exp (- (2 * a) * s)) by apply exp_pos. specialize (P s).
      assert (0 <= - (E' c + - (2 * a) * E c) * exp (- (2 * a) * c) * (s - 0)) by (apply Rmult_le_pos; lra).
      assert (E s * exp (- (2 * a) * s) <= 0) by lra. nra. }
  intros s i Hi. pose proof (sq_le_sum n (d s) i Hi) as X. fold (E s) in X. rewrite (Z s) in X.
  assert (d s i = 0) by nra. unfold d in *. lra.
Qed.
Lemma trajectory_unique A x y : trajectory A x -> trajectory A y -> veq 6 (x 0) (y 0) -> forall s, veq 6 (x s) (y s).
Proof. apply motion_unique. Qed.

(** ** Elements *)
Lemma mid_app6 (v : vec) : veq 6 (mapp 6 mid v) v.
Proof.
  intros i Hi. unfold mapp, mid. rewrite (sumn_single 6 i); auto; [rewrite Nat.eqb_refl; ring|].
  intros k _ Hn. destruct (Nat.eqb_spec i k); [congruence|ring].
Qed.
Lemma mapp_meq n A B v : meq n A B -> veq n (mapp n A v) (mapp n B v).
Proof. intros E i Hi. unfold mapp. apply sumn_ext. intros k Hk. rewrite E by auto. reflexivity. Qed.
Lemma visits_one n i : (i < n)%nat -> visits n (N.of_nat i) 1 = [i].
Proof.
  intros H. unfold visits. rewrite (proj2 (N.ltb_lt _ _)) by lia. cbn [Z.leb]. rewrite Nat2N.id.
  change (Z.abs_nat 1) with 1%nat. change (Z.to_nat 1) with 1%nat. destruct (n - i)%nat eqn:E; [lia|]. simpl. rewrite Nat.min_0_r. reflexivity.
Qed.
Lemma along A F L T (v : vec) : flow A F -> meq 6 (F 0) mid -> meq 6 T (F L) ->
  exists x, trajectory A x /\ veq 6 (x 0) v /\ veq 6 (x L) (mapp 6 T v).
Proof.
  intros H1 H2 H3. exists (fun s => mapp 6 (F s) v). split; [apply flow_trajectory; auto|]. split.
  - intros i Hi. rewrite (mapp_meq 6 _ _ v H2 i Hi). apply mid_app6; auto.
  - intros i Hi. symmetry. apply (mapp_meq 6 _ _ v H3 i Hi).
Qed.
Lemma still_flow : flow (fun _ _ => 0) (fun _ => mid).
Proof.
  intros s i k Hi Hk. eapply dlim_eq; [apply (derivable_pt_lim_const (mid i k))|].
  unfold mmul. rewrite (sumn_ext _ _ (fun _ => 0)) by (intros; ring). symmetry. apply sumn_0.
Qed.
Lemma plane0 L : plane_cs L 0 = 1 /\ plane_sn L 0 = L /\ plane_sp L 0 = 0.
Proof.
  unfold plane_cs, plane_sn, plane_sp. destruct (Rlt_dec 0 0); [lra|]. rewrite Ropp_0, sqrt_0.
  destruct (Req_EM_T 0 0); [|congruence]. rewrite Rmult_0_l, cosh_0'. auto.
Qed.

Section Elem.
Variable num : double -> R.
Lemma optical_flow q c T v : tfind "type" c = Some (TStr (kind_name q)) -> optical (kind_name q) -> proper_bend num c ->
  transfer_of num q c = Ok T ->
  exists x, trajectory (motion num c) x /\ veq 6 (x 0) v /\ veq 6 (x (length_of num c * 1000)) (mapp 6 T v).
Proof.
  intros HT Ho HB H.
  assert (EL : num (get_num_def c "L" dzero) = length_of num c) by (unfold length_of, get_num_def; destruct (tfind "L" c) as [[]|]; auto).
  assert (EK : num (get_num_def c "K" dzero) = strength_of num c) by (unfold strength_of, get_num_def; destruct (tfind "K" c) as [[]|]; auto).
  unfold motion. rewrite HT. unfold transfer_of in H. rewrite EL, EK in H.
  destruct q; cbn [kind_name] in *; cbn [String.eqb Ascii.eqb Bool.eqb].
  - unfold optical in Ho. simpl in Ho. decompose [or] Ho; try discriminate; tauto.
  - injection H as <-. apply (along _ (fun _ => mid)); [apply still_flow| |]; intros i j _ _; reflexivity.
  - injection H as <-. apply (along _ (planes 0 0)); [apply planes_flow|apply planes_start|].
    intros i j Hi Hj. rewrite (drift_blocks _ i j Hi Hj). unfold planes, MtoMM.
    destruct (plane0 (length_of num c * 1000)) as (-> & -> & ->). reflexivity.
  - unfold get_num in H. destruct (tfind "phi" c) as [[p| | |]|] eqn:EP; try discriminate. cbn [rbind] in H. injection H as <-.
    destruct (HB HT) as [L0 P0]. specialize (P0 p EP).
    apply (along _ (planes (strength_of num c / 1000 / 1000 + num p / (length_of num c * 1000) * (num p / (length_of num c * 1000)))
                           (- (strength_of num c / 1000 / 1000)))); [apply planes_flow|apply planes_start|].
    unfold sbend_matrix. intros i j Hi Hj. rewrite (get2by2_blocks _ _ _ i j Hi Hj). unfold planes.
    assert (E1 : strength_of num c / sqr MtoMM = strength_of num c / 1000 / 1000) by (unfold sqr, MtoMM; field).
    assert (E2 : 1 / sqr (length_of num c * MtoMM / num p) = num p / (length_of num c * 1000) * (num p / (length_of num c * 1000))).
    { unfold sqr, MtoMM. field. auto. }
    rewrite E1, E2. reflexivity.
  - injection H as <-.
    apply (along _ (planes (strength_of num c / 1000 / 1000) (- (strength_of num c / 1000 / 1000)))); [apply planes_flow|apply planes_start|].
    unfold quad_matrix. intros i j Hi Hj. rewrite (get2by2_blocks _ _ _ i j Hi Hj). unfold planes.
    assert (E1 : strength_of num c / sqr MtoMM = strength_of num c / 1000 / 1000) by (unfold sqr, MtoMM; field).
    rewrite E1. reflexivity.
  - injection H as <-. apply (along _ (turn (strength_of num c / 1000))); [apply turn_flow|apply turn_start|].
    intros i j Hi Hj. rewrite (solenoid_sol _ _ i j Hi Hj). reflexivity.
  - unfold optical in Ho. simpl in Ho. decompose [or] Ho; try discriminate; tauto.
Qed.

Lemma element_motion c m es i ec t st : new_machine (vector_reg num) c = Ok m -> tfind "elements" c = Some (TCfgs es) ->
  (N.of_nat (List.length es) <= SIZE_MAX)%N ->
  nth_error es i = Some ec -> tfind "type" ec = Some (TStr t) -> optical t -> proper_bend num ec ->
  exists p f x, propagate m st (N.of_nat i) 1 = Some p /\ pr_end p = Ok f /\
    ls_pos (st_body f) = ls_pos (st_body st) + length_of num ec /\
    trajectory (motion num ec) x /\ veq 6 (x 0) (ls_val (st_body st)) /\
    veq 6 (x (length_of num ec * 1000)) (ls_val (st_body f)).
Proof.
  intros Hm He Hn Hi Ht Ho Hb. apply lin_machine in Hm as (es' & A1 & _ & A2 & A3 & A4).
  assert (es' = es) as -> by congruence.
  destruct (lin_propagate _ _ _ _ m st (N.of_nat i) 1 A4) as (e1 & f & P & Q); [rewrite A2; exact Hn|unfold INT_MIN, INT_MAX; lia|].
  assert (LT : (i < List.length es)%nat) by (apply nth_error_Some; congruence).
  destruct (nth_error (m_elems m) i) as [e|] eqn:E; [|apply nth_error_None in E; lia].
  destruct (lin_describes _ _ _ _ _ _ _ (A3 _ _ _ Hi E)) as (q & T & C1 & C2 & C3 & C4 & C5 & C6 & C7).
  assert (t = kind_name q) as -> by congruence.
  assert (Hq : q <> KSource).
  { intros ->. unfold optical in Ho. simpl in Ho. decompose [or] Ho; try discriminate; tauto. }
  assert (V : visits (List.length (m_elems m)) (N.of_nat i) 1 = [i]).
  { rewrite A2. apply visits_one; auto. }
  rewrite V in Q. unfold passes in Q. cbn [fold_left] in Q. rewrite E in Q. unfold step in Q. rewrite (C6 Hq), C5 in Q.
  destruct (optical_flow q ec T (ls_val (st_body st)) C2 Ho Hb C4) as (x & X1 & X2 & X3).
  eexists _, f, x. split; [exact P|]. split; [reflexivity|]. rewrite Q. cbn [ls_pos ls_val].
  split; [rewrite C3; unfold length_of, get_num_def; destruct (tfind "L" ec) as [[]|]; auto|]. auto.
Qed.
End Elem.
