(** The mean over a spread of phases. *)
From Coq Require Import Reals List String Bool NArith ZArith Lia Lra Psatz.
From Coquelicot Require Import Coquelicot.
From Verif Require Import Mat Machine_Model Moment_Model Cavity_Model Cavity_Spec Growth_Spec.
Import ListNotations.
Open Scope R_scope.

Definition fform (d : R) : R := 15 / sqr d * (3 / sqr d * (sin d / d - cos d) - sin d / d).
Lemma density_pos u : 0 <= density u.
Proof. unfold density. apply Rmult_le_pos; [lra|]. apply pow2_ge_0. Qed.
Lemma dens_cos D : D <> 0 -> is_RInt (fun u => density u * cos (D * u)) (-1) 1 (fform D).
Proof.
  intros HD.
  set (F := fun u => 15 / 16 * ((1 - u ^ 2) ^ 2 * sin (D * u) / D + (4 * u ^ 3 - 4 * u) * cos (D * u) / D ^ 2 - (12 * u ^ 2 - 4) * sin (D * u) / D ^ 3
     - 24 * u * cos (D * u) / D ^ 4 + 24 * sin (D * u) / D ^ 5)).
  replace (fform D) with (minus (F 1) (F (-1))).
  - apply (is_RInt_derive F).
    + intros x _. unfold F, density. auto_derive; [repeat split; assumption|]. field. exact HD.
    + intros x _. apply (ex_derive_continuous (fun u => density u * cos (D * u))). unfold density. auto_derive. exact I.
  - unfold minus, plus, opp, F, fform, sqr. cbn. rewrite !Rmult_1_r. replace (D * -1) with (- D) by ring. rewrite sin_neg, cos_neg. field. exact HD.
Qed.
Lemma dens_sin D : D <> 0 -> is_RInt (fun u => density u * sin (D * u)) (-1) 1 0.
Proof.
  intros HD.
  set (F := fun u => 15 / 16 * (- (1 - u ^ 2) ^ 2 * cos (D * u) / D + (4 * u ^ 3 - 4 * u) * sin (D * u) / D ^ 2 + (12 * u ^ 2 - 4) * cos (D * u) / D ^ 3
     - 24 * u * sin (D * u) / D ^ 4 - 24 * cos (D * u) / D ^ 5)).
  replace 0 with (minus (F 1) (F (-1))).
  - apply (is_RInt_derive F).
    + intros x _. unfold F, density. auto_derive; [repeat split; assumption|]. field. exact HD.
    + intros x _. apply (ex_derive_continuous (fun u => density u * sin (D * u))). unfold density. auto_derive. exact I.
  - unfold minus, plus, opp, F. cbn. rewrite !Rmult_1_r. replace (D * -1) with (- D) by ring. rewrite sin_neg, cos_neg. field. exact HD.
Qed.
Lemma dens_one : is_RInt density (-1) 1 1.
Proof.
  set (F := fun u => 15 / 16 * (u - 2 * u ^ 3 / 3 + u ^ 5 / 5)).
  replace 1 with (minus (F 1) (F (-1))) at 2.
  - apply (is_RInt_derive F).
    + intros x _. unfold F, density. auto_derive; [repeat split|]. field.
    + intros x _. apply (ex_derive_continuous density). unfold density. auto_derive. exact I.
  - unfold minus, plus, opp, F. cbn. field.
Qed.
Lemma dens_id D : is_RInt (fun u => density u * (D * u)) (-1) 1 0.
Proof.
  set (F := fun u => D * (15 / 16 * (u ^ 2 / 2 - 2 * u ^ 4 / 4 + u ^ 6 / 6))).
  replace 0 with (minus (F 1) (F (-1))).
  - apply (is_RInt_derive F).
    + intros x _. unfold F, density. auto_derive; [repeat split|]. field.
    + intros x _. apply (ex_derive_continuous (fun u => density u * (D * u))). unfold density. auto_derive. exact I.
  - unfold minus, plus, opp, F. cbn. field.
Qed.
Lemma dens_sq D : is_RInt (fun u => density u * (D * u) ^ 2) (-1) 1 (D ^ 2 / 7).
Proof.
  set (F := fun u => D ^ 2 * (15 / 16 * (u ^ 3 / 3 - 2 * u ^ 5 / 5 + u ^ 7 / 7))).
  replace (D ^ 2 / 7) with (minus (F 1) (F (-1))).
  - apply (is_RInt_derive F).
    + intros x _. unfold F, density. auto_derive; [repeat split|]. field.
    + intros x _. apply (ex_derive_continuous (fun u => density u * (D * u) ^ 2)). unfold density. auto_derive. exact I.
  - unfold minus, plus, opp, F. cbn. field.
Qed.
Lemma mean_sin p D : D <> 0 -> mean D (fun d => sin (p + d)) = sin p * fform D.
Proof.
  intros HD. unfold mean. apply is_RInt_unique.
  apply (is_RInt_ext (fun u => plus (scal (sin p) (density u * cos (D * u))) (scal (cos p) (density u * sin (D * u))))).
  { intros x _. unfold plus, scal. cbn. unfold mult. cbn. rewrite sin_plus. ring. }
  replace (sin p * fform D) with (plus (scal (sin p) (fform D)) (scal (cos p) 0)) by (unfold plus, scal; cbn; unfold mult; cbn; ring).
  apply (is_RInt_plus (V := R_NormedModule)); apply (is_RInt_scal (V := R_NormedModule)); [apply dens_cos|apply dens_sin]; exact HD.
Qed.
Lemma var_sin p D : D <> 0 -> variance D (fun d => sin (p + d)) = 0.5 * (1 + (sqr (sin p) - sqr (cos p)) * fform (2 * D)) - sqr (sin p * fform D).
Proof.
  intros HD. unfold variance. rewrite mean_sin by exact HD. set (m := sin p * fform D). unfold mean. apply is_RInt_unique.
  assert (H2 : 2 * D <> 0) by lra.
  set (c2 := sqr (sin p) - sqr (cos p)). set (s2 := sin p * cos p).
  apply (is_RInt_ext (fun u => plus (plus (scal (1 / 2 + m ^ 2) (density u)) (plus (scal (c2 / 2) (density u * cos (2 * D * u))) (scal s2 (density u * sin (2 * D * u)))))
     (plus (scal (- 2 * m * sin p) (density u * cos (D * u))) (scal (- 2 * m * cos p) (density u * sin (D * u)))))).
  { intros x _. unfold plus, scal. cbn. unfold mult. cbn. rewrite sin_plus. replace (2 * D * x) with (2 * (D * x)) by ring. rewrite cos_2a, sin_2a.
    unfold c2, s2, sqr. pose proof (sin2_cos2 (D * x)) as H. pose proof (sin2_cos2 p) as H'. unfold Rsqr in H, H'.
    clearbody m. clear H2 c2 s2. generalize dependent (sin (D * x)). generalize dependent (cos (D * x)). generalize dependent (sin p). generalize dependent (cos p). intros cp sp H' c s H.
    replace (1 / 2) with ((sp * sp + cp * cp) * (s * s + c * c) / 2) by (rewrite H, H'; lra). field. }
  replace (0.5 * (1 + c2 * fform (2 * D)) - sqr m) with (plus (plus (scal (1 / 2 + m ^ 2) 1) (plus (scal (c2 / 2) (fform (2 * D))) (scal s2 0)))
     (plus (scal (- 2 * m * sin p) (fform D)) (scal (- 2 * m * cos p) 0))).
  2:{ unfold plus, scal. cbn. unfold mult. cbn. unfold sqr. unfold m. lra. }
  assert (SC : forall k g v, is_RInt g (-1) 1 v -> is_RInt (fun u => scal k (g u)) (-1) 1 (scal k v)) by (intros; apply (is_RInt_scal (V := R_NormedModule)); assumption).
  assert (PL : forall g h v w, is_RInt g (-1) 1 v -> is_RInt h (-1) 1 w -> is_RInt (fun u => plus (g u) (h u)) (-1) 1 (plus v w)) by (intros; apply (is_RInt_plus (V := R_NormedModule)); assumption).
  apply PL; [apply PL; [apply SC, dens_one|apply PL; apply SC; [apply dens_cos|apply dens_sin]; exact H2]|apply PL; apply SC; [apply dens_cos|apply dens_sin]; exact HD].
Qed.
Lemma var_pos p D : 0 <= variance D (fun d => sin (p + d)).
Proof.
  unfold variance. set (m := mean D (fun d => sin (p + d))). unfold mean. apply RInt_ge_0; [lra| |].
  - apply (ex_RInt_continuous (V := R_CompleteNormedModule)). intros x _. apply (ex_derive_continuous (fun u => density u * (sin (p + D * u) - m) ^ 2)). unfold density. auto_derive. exact I.
  - intros x _. apply Rmult_le_pos; [apply density_pos|apply pow2_ge_0].
Qed.

(** ** How far the phases are spread *)
Lemma spread_id D : variance D (fun d => d) = D ^ 2 / 7.
Proof.
  assert (M : mean D (fun d => d) = 0) by (unfold mean; apply is_RInt_unique, dens_id).
  unfold variance. rewrite M. unfold mean. apply is_RInt_unique.
  apply (is_RInt_ext (fun u => density u * (D * u) ^ 2)); [intros u _; f_equal; ring|]. apply dens_sq.
Qed.
Lemma spread_small D : D <> 0 -> variance D (fun d => sin (0 + d)) <= D ^ 2 / 7.
Proof.
  intros HD. unfold variance. rewrite mean_sin by exact HD. rewrite sin_0, Rmult_0_l. unfold mean. rewrite <- (is_RInt_unique _ _ _ _ (dens_sq D)).
  apply RInt_le; [lra| | |].
  - apply (ex_RInt_continuous (V := R_CompleteNormedModule)). intros x _. apply (ex_derive_continuous (fun u => density u * (sin (0 + D * u) - 0) ^ 2)). unfold density. auto_derive. exact I.
  - exists (D ^ 2 / 7). apply dens_sq.
  - intros x _. apply Rmult_le_compat_l; [apply density_pos|]. rewrite Rplus_0_l, Rminus_0_r. generalize (D * x). clear. intros y.
    assert (P : forall z, 0 <= z -> sin z <= z).
    { intros z [Hz|<-]; [left; apply sin_lt_x; exact Hz|rewrite sin_0; lra]. }
    assert (Q : forall z, 0 <= z -> - z <= sin z).
    { intros z Hz. destruct (Rle_dec z PI) as [L|L]; [pose proof (sin_ge_0 z Hz L); lra|]. pose proof (SIN_bound z). pose proof PI2_3_2. lra. }
    destruct (Rle_dec 0 y) as [H|H].
    + specialize (P y H). specialize (Q y H). nra.
    + specialize (P (- y) ltac:(lra)). specialize (Q (- y) ltac:(lra)). rewrite sin_neg in *. nra.
Qed.
Lemma spread_pi : 1 / 2 < variance PI (fun d => sin (0 + d)).
Proof.
  rewrite var_sin by apply PI_neq0. rewrite sin_0, cos_0. unfold fform, sqr. rewrite sin_2PI, cos_2PI. pose proof PI_RGT_0.
  assert (X : 15 / (2 * PI * (2 * PI)) * (3 / (2 * PI * (2 * PI)) * (0 / (2 * PI) - 1) - 0 / (2 * PI)) = - (45 / 16 * (/ PI) ^ 4)) by (field; lra).
  rewrite X. assert (0 < (/ PI) ^ 4) by (apply pow_lt, Rinv_0_lt_compat; assumption). lra.
Qed.
