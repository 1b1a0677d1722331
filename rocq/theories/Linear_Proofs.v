From Coq Require Import Reals List String Bool NArith ZArith Arith Lia Lra.
From Verif Require Import SMap SMap_Proofs Dbl Config_Spec Mat Mat_Proofs Machine_Model Machine_Spec
  Machine_Proofs Machine2_Proofs Linear_Model Linear_Spec.
Import ListNotations.
Open Scope R_scope.

(** ** One plane *)
Lemma sqrt_pos_neq K : 0 < K -> sqrt K <> 0.
Proof. intros H E. pose proof (sqrt_lt_R0 K H). lra. Qed.
Lemma sqrt_sq K : 0 <= K -> sqrt K * sqrt K = K.
Proof. apply sqrt_sqrt. Qed.

Lemma plane_det L K : plane_cs L K * plane_cs L K - plane_sn L K * plane_sp L K = 1.
Proof.
  unfold plane_cs, plane_sn, plane_sp. destruct (Rlt_dec 0 K) as [H|H].
  - destruct (Req_EM_T (sqrt K) 0) as [E|E].
    + exfalso. eapply sqrt_pos_neq; eauto.
    + rewrite <- (cos2_sin2 (sqrt K * L)). field. auto.
  - destruct (Req_EM_T (sqrt (- K)) 0) as [E|E].
    + rewrite E, Rmult_0_l, cosh_0'. lra.
    + rewrite <- (cosh_sinh_1 (sqrt (- K) * L)). field. auto.
Qed.

(** Composition of two stretches with the same strength. *)
Lemma plane_add_cs L1 L2 K :
  plane_cs (L1 + L2) K = plane_cs L2 K * plane_cs L1 K + plane_sn L2 K * plane_sp L1 K.
Proof.
  unfold plane_cs, plane_sn, plane_sp. rewrite !Rmult_plus_distr_l.
  destruct (Rlt_dec 0 K) as [H|H].
  - destruct (Req_EM_T (sqrt K) 0) as [E|E].
    + exfalso. eapply sqrt_pos_neq; eauto.
    + rewrite cos_plus. field. auto.
  - destruct (Req_EM_T (sqrt (- K)) 0) as [E|E].
    + rewrite E, !Rmult_0_l, Rplus_0_l, cosh_0'. lra.
    + rewrite cosh_plus. field. auto.
Qed.
Lemma plane_add_sn L1 L2 K :
  plane_sn (L1 + L2) K = plane_cs L2 K * plane_sn L1 K + plane_sn L2 K * plane_cs L1 K.
Proof.
  unfold plane_cs, plane_sn, plane_sp. rewrite !Rmult_plus_distr_l.
  destruct (Rlt_dec 0 K) as [H|H].
  - destruct (Req_EM_T (sqrt K) 0) as [E|E].
    + exfalso. eapply sqrt_pos_neq; eauto.
    + rewrite sin_plus. field. auto.
  - destruct (Req_EM_T (sqrt (- K)) 0) as [E|E].
    + rewrite E, !Rmult_0_l, cosh_0'. lra.
    + rewrite sinh_plus. field. auto.
Qed.
Lemma plane_add_sp L1 L2 K :
  plane_sp (L1 + L2) K = plane_sp L2 K * plane_cs L1 K + plane_cs L2 K * plane_sp L1 K.
Proof.
  unfold plane_cs, plane_sn, plane_sp. rewrite !Rmult_plus_distr_l.
  destruct (Rlt_dec 0 K) as [H|H].
  - destruct (Req_EM_T (sqrt K) 0) as [E|E].
    + exfalso. eapply sqrt_pos_neq; eauto.
    + rewrite sin_plus. field.
  - destruct (Req_EM_T (sqrt (- K)) 0) as [E|E].
    + lra.
    + rewrite sinh_plus. field.
Qed.
Lemma plane_add_cs' L1 L2 K :
  plane_cs (L1 + L2) K = plane_sp L2 K * plane_sn L1 K + plane_cs L2 K * plane_cs L1 K.
Proof.
  unfold plane_cs, plane_sn, plane_sp. rewrite !Rmult_plus_distr_l.
  destruct (Rlt_dec 0 K) as [H|H].
  - destruct (Req_EM_T (sqrt K) 0) as [E|E].
    + exfalso. eapply sqrt_pos_neq; eauto.
    + rewrite cos_plus. field. auto.
  - destruct (Req_EM_T (sqrt (- K)) 0) as [E|E].
    + rewrite E, !Rmult_0_l, Rplus_0_l, cosh_0'. lra.
    + rewrite cosh_plus. field. auto.
Qed.

(** ** Block matrices *)
(** Two transverse planes and an identity longitudinal plane. *)
Definition blocks (a b c d e f g h : R) : mat := fun i j =>
  match i, j with
  | 0, 0 => (a)%R | 0, 1 => (b)%R | 1, 0 => (c)%R | 1, 1 => (d)%R
  | 2, 2 => (e)%R | 2, 3 => (f)%R | 3, 2 => (g)%R | 3, 3 => (h)%R
  | 4, 4 => (1)%R | 5, 5 => (1)%R
  | _, _ => (0)%R
  end%nat.

Ltac entries6 := intros i j Hi Hj; unfold lsize in Hi, Hj;
  destruct i as [|[|[|[|[|[|i]]]]]]; try (exfalso; lia);
  destruct j as [|[|[|[|[|[|j]]]]]]; try (exfalso; lia); clear Hi Hj.

Lemma get2by2_blocks L Kx Ky :
  meq lsize (get2by2 L Ky PS_Y (get2by2 L Kx PS_X mid))
    (blocks (plane_cs L Kx) (plane_sn L Kx) (plane_sp L Kx) (plane_cs L Kx)
            (plane_cs L Ky) (plane_sn L Ky) (plane_sp L Ky) (plane_cs L Ky)).
Proof. entries6; reflexivity. Qed.

Lemma drift_blocks l :
  meq lsize (drift_matrix l) (blocks 1 (l * MtoMM) 0 1 1 (l * MtoMM) 0 1).
Proof. entries6; reflexivity. Qed.

Lemma blocks_symplectic a b c d e f g h :
  a * d - b * c = 1 -> e * h - f * g = 1 -> symplectic lsize (blocks a b c d e f g h).
Proof.
  intros H1 H2. entries6; cbv [lsize mmul mtr sumn J blocks]; lra.
Qed.

Lemma symplectic_meq n A B : meq n A B -> symplectic n A -> symplectic n B.
Proof. unfold symplectic. intros H S. rewrite <- H. exact S. Qed.

Lemma symplectic_mmul n A B : symplectic n A -> symplectic n B -> symplectic n (mmul n A B).
Proof.
  unfold symplectic. intros HA HB.
  transitivity (mmul n (mtr B) (mmul n (mmul n (mtr A) (mmul n J A)) B)).
  - rewrite mtr_mmul. rewrite !mmul_assoc. reflexivity.
  - rewrite HA. exact HB.
Qed.
Lemma symplectic_mid : symplectic lsize mid.
Proof. entries6; cbv [lsize mmul mtr sumn J mid Nat.eqb]; lra. Qed.

Lemma drift_symplectic l : symplectic lsize (drift_matrix l).
Proof. eapply symplectic_meq; [symmetry; apply drift_blocks|]. apply blocks_symplectic; lra. Qed.
Lemma planes_symplectic L Kx Ky :
  symplectic lsize (get2by2 L Ky PS_Y (get2by2 L Kx PS_X mid)).
Proof.
  eapply symplectic_meq; [symmetry; apply get2by2_blocks|].
  apply blocks_symplectic; apply plane_det.
Qed.
Lemma quad_symplectic l k : symplectic lsize (quad_matrix l k).
Proof. apply planes_symplectic. Qed.
Lemma sbend_symplectic l phi k : symplectic lsize (sbend_matrix l phi k).
Proof. apply planes_symplectic. Qed.

(** The solenoid: a matrix in K, L, C, S. *)
Definition sol (z : bool) (K L C S : R) : mat := fun i j =>
  match i, j with
  | 0, 0 => (C * C)%R | 0, 1 => (if z then L else S * C / K)%R | 0, 2 => (S * C)%R | 0, 3 => (if z then 0 else S * S / K)%R
  | 1, 0 => (- K * S * C)%R | 1, 1 => (C * C)%R | 1, 2 => (- K * (S * S))%R | 1, 3 => (S * C)%R
  | 2, 0 => (- S * C)%R | 2, 1 => (if z then 0 else - (S * S) / K)%R | 2, 2 => (C * C)%R | 2, 3 => (if z then L else S * C / K)%R
  | 3, 0 => (K * (S * S))%R | 3, 1 => (- S * C)%R | 3, 2 => (- K * S * C)%R | 3, 3 => (C * C)%R
  | 4, 4 => (1)%R | 5, 5 => (1)%R
  | _, _ => (0)%R
  end%nat.
Definition isz (x : R) : bool := if Req_EM_T x 0 then true else false.
Lemma solenoid_sol l k :
  meq lsize (solenoid_matrix l k)
    (sol (isz (k / MtoMM)) (k / MtoMM) (l * MtoMM)
         (cos (k / MtoMM * (l * MtoMM))) (sin (k / MtoMM * (l * MtoMM)))).
Proof.
  entries6; unfold solenoid_matrix, sol, isz; destruct (Req_EM_T (k / MtoMM) 0); reflexivity.
Qed.

Lemma sol_symplectic K L : symplectic lsize (sol (isz K) K L (cos (K * L)) (sin (K * L))).
Proof.
  pose proof (cos2_sin2 (K * L)) as H. unfold isz. destruct (Req_EM_T K 0) as [->|HK].
  - rewrite Rmult_0_l, cos_0, sin_0. entries6; cbv [lsize mmul mtr sumn J sol]; lra.
  - revert H. generalize (cos (K * L)) as C, (sin (K * L)) as S. intros C S H.
    assert (H2 : (C * C + S * S) * (C * C + S * S) = 1) by (rewrite H; lra).
    entries6; cbv [lsize mmul mtr sumn J sol];
      first [ field; assumption
            | transitivity ((C * C + S * S) * (C * C + S * S)); [field; assumption | lra]
            | transitivity (- ((C * C + S * S) * (C * C + S * S))); [field; assumption | lra] ].
Qed.
Lemma solenoid_symplectic l k : symplectic lsize (solenoid_matrix l k).
Proof. eapply symplectic_meq; [symmetry; apply solenoid_sol|]. apply sol_symplectic. Qed.

(** ** Splitting *)
Lemma blocks_mul a b c d e f g h a' b' c' d' e' f' g' h' :
  meq lsize (mmul lsize (blocks a b c d e f g h) (blocks a' b' c' d' e' f' g' h'))
    (blocks (a * a' + b * c') (a * b' + b * d') (c * a' + d * c') (c * b' + d * d')
            (e * e' + f * g') (e * f' + f * h') (g * e' + h * g') (g * f' + h * h')).
Proof. entries6; cbv [lsize mmul sumn blocks]; lra. Qed.

Lemma planes_split L1 L2 Kx Ky :
  meq lsize (get2by2 (L1 + L2) Ky PS_Y (get2by2 (L1 + L2) Kx PS_X mid))
    (mmul lsize (get2by2 L2 Ky PS_Y (get2by2 L2 Kx PS_X mid)) (get2by2 L1 Ky PS_Y (get2by2 L1 Kx PS_X mid))).
Proof.
  rewrite !get2by2_blocks, blocks_mul.
  entries6; cbv [blocks]; try reflexivity;
    first [apply plane_add_cs | apply plane_add_sn | apply plane_add_sp | apply plane_add_cs'].
Qed.
Lemma drift_split l1 l2 :
  meq lsize (drift_matrix (l1 + l2)) (mmul lsize (drift_matrix l2) (drift_matrix l1)).
Proof. rewrite !drift_blocks, blocks_mul. entries6; cbv [blocks]; lra. Qed.
Lemma quad_split l1 l2 k :
  meq lsize (quad_matrix (l1 + l2) k) (mmul lsize (quad_matrix l2 k) (quad_matrix l1 k)).
Proof. unfold quad_matrix. rewrite Rmult_plus_distr_r. apply planes_split. Qed.
Lemma sbend_split l1 l2 phi1 phi2 k :
  phi1 <> 0 -> phi2 <> 0 -> phi1 + phi2 <> 0 -> l1 * phi2 = l2 * phi1 ->
  meq lsize (sbend_matrix (l1 + l2) (phi1 + phi2) k)
    (mmul lsize (sbend_matrix l2 phi2 k) (sbend_matrix l1 phi1 k)).
Proof.
  intros H1 H2 H3 H.
  assert (E1 : exists r, l1 = r * phi1 /\ l2 = r * phi2).
  { exists (l1 / phi1). split; [field; auto|].
    apply (Rmult_eq_reg_r phi1); auto. rewrite <- H. field. auto. }
  destruct E1 as [r [-> ->]]. unfold sbend_matrix.
  replace ((r * phi1 + r * phi2) * MtoMM / (phi1 + phi2)) with (r * MtoMM) by (field; auto).
  replace (r * phi1 * MtoMM / phi1) with (r * MtoMM) by (field; auto).
  replace (r * phi2 * MtoMM / phi2) with (r * MtoMM) by (field; auto).
  rewrite Rmult_plus_distr_r. apply planes_split.
Qed.

Lemma sol_split K L1 L2 :
  meq lsize (sol (isz K) K (L1 + L2) (cos (K * (L1 + L2))) (sin (K * (L1 + L2))))
    (mmul lsize (sol (isz K) K L2 (cos (K * L2)) (sin (K * L2)))
                (sol (isz K) K L1 (cos (K * L1)) (sin (K * L1)))).
Proof.
  pose proof (cos2_sin2 (K * L1)) as H1. pose proof (cos2_sin2 (K * L2)) as H2.
  unfold isz. destruct (Req_EM_T K 0) as [->|HK].
  - rewrite !Rmult_0_l, cos_0, sin_0. entries6; cbv [lsize mmul sumn sol]; lra.
  - rewrite !Rmult_plus_distr_l, cos_plus, sin_plus.
    revert H1 H2. generalize (cos (K * L1)) as c, (sin (K * L1)) as s, (cos (K * L2)) as C, (sin (K * L2)) as S.
    intros c s C S H1 H2. entries6; cbv [lsize mmul sumn sol]; field; auto.
Qed.
Lemma solenoid_split l1 l2 k :
  meq lsize (solenoid_matrix (l1 + l2) k) (mmul lsize (solenoid_matrix l2 k) (solenoid_matrix l1 k)).
Proof. rewrite !solenoid_sol. rewrite Rmult_plus_distr_r. apply sol_split. Qed.
