(** Generic cavities: motion and matrix. *)
From Coq Require Import Reals List String Bool NArith ZArith Lia Lra.
From Coquelicot Require Import Coquelicot.
From Verif Require Import SMap Dbl Config_Spec Mat Mat_Proofs Machine_Model Moment_Model Moment_Spec Moment_Proofs
  Cavity_Model Cavity_Spec Cavity_Proofs Cavity2_Proofs Cavity3_Proofs Cavity3_Spec.
Import ListNotations.
Open Scope R_scope.
Ltac idx7 i H := destruct i as [|[|[|[|[|[|[|i]]]]]]]; [..|exfalso; lia]; clear H.

Lemma inv_beta Es W : W <> 0 -> 0 < 1 - (Es / W) ^ 2 ->
  is_derive (fun E => / sqrt (1 - (Es / (1000000 * E)) ^ 2)) (W / 1000000)
    (- (1000000 * Es ^ 2 / (sqrt (1 - (Es / W) ^ 2) ^ 3 * W ^ 3))).
Proof.
  intros W0 Q. assert (E1 : 1000000 * (W / 1000000) = W) by field.
  assert (S0 : 0 < sqrt (1 - (Es / W) ^ 2)) by (apply sqrt_lt_R0; exact Q).
  auto_derive; rewrite ?E1.
  - repeat split. exact W0. + replace (1 + - (Es * / W * (Es * / W * 1))) with (1 - (Es / W) ^ 2) by (field; exact W0). exact Q.
    + replace (1 + - (Es * / W * (Es * / W * 1))) with (1 - (Es / W) ^ 2) by (field; exact W0). lra.
  - replace (1 + - (Es * / W * (Es * / W * 1))) with (1 - (Es / W) ^ 2) by (field; exact W0). set (s := sqrt _) in *.
    field. split; lra.
Qed.

Lemma derivable_pt_lim_ext_all f g x l : (forall z, f z = g z) -> derivable_pt_lim f x l -> derivable_pt_lim g x l.
Proof. intros H D eps He. destruct (D eps He) as (d & Hd). exists d. intros h h0 hd. rewrite <- !H. apply Hd; assumption. Qed.
Lemma Rinv_mult_distr_all a b : / (a * b) = / a * / b.
Proof. apply Rinv_mult. Qed.

Section Cavity.
Variables (cv : cavity) (p : particle) (scl : R).
Notation after := (after cv p scl).
Notation through := (through cv p scl).
Hypothesis Es0 : 0 < p_Es p.

Lemma beta_model W b : beta_of (W / p_Es p) = Ok b -> b = beta_at p W /\ W <> 0 /\ 0 < b.
Proof.
  intros H. apply beta_of_ok in H as (H1 & H2 & H3). unfold sqr in *.
  assert (W0 : W <> 0). { intros ->. unfold Rdiv in H1. rewrite Rmult_0_l in H1. lra. }
  split; [|split; assumption]. rewrite H2. unfold beta_at. f_equal. field. split; [exact W0|lra].
Qed.

(** What is carried along: energy and phase are those of the particle, the other
    values follow. *)
Definition at_ (WF : R * R) (g : gen) : Prop :=
  g_W g = fst WF /\ g_Fy g = snd WF /\ beta_of (fst WF / p_Es p) = Ok (g_beta g) /\
  g_gamma g = fst WF / p_Es p /\ g_k g = wave_at cv p (fst WF).
Lemma lambda_eq : cav_lambda cv = 299792458 * 1000 / cv_f cv.
Proof. unfold cav_lambda, C0, MtoMM. unfold Rdiv. ring. Qed.
Lemma k_model W b : beta_of (W / p_Es p) = Ok b -> 2 * PI / (b * cav_lambda cv) = wave_at cv p W.
Proof. intros H. apply beta_model in H as (-> & _). unfold wave_at. rewrite lambda_eq. reflexivity. Qed.
Lemma fits_model P k : (Z.of_nat (List.length (r_T P)) <= 2147483647)%Z -> (Z.of_nat (List.length (r_S P)) <= 2147483647)%Z ->
  rbind (fit_pow k (r_T P)) (fun T => rbind (fit_pow k (r_S P)) (fun S => Ok (T, S))) =
  Ok (poly k (rev (r_T P)), poly k (rev (r_S P))).
Proof. intros H1 H2. unfold fit_pow. rewrite !fit_poly by assumption. reflexivity. Qed.

(** ** One piece *)
Lemma e_kick_eq W F P b : beta_of (W / p_Es p) = Ok b ->
  e_kick (p_Z p) (r_E0 P * scl) b (W / p_Es p) (Tf cv p P W) (Sf cv p P W) F = electric cv p scl P W F.
Proof.
  intros H. destruct (beta_model _ _ H) as (-> & W0 & B0). unfold e_kick, electric, momentum_at, gamma_at, qV, AU, MeVtoeV, sqr.
  field. repeat split; lra.
Qed.
Lemma h_kick_eq W F P b : beta_of (W / p_Es p) = Ok b ->
  h_kick (p_Z p) (r_E0 P * scl) b (W / p_Es p) (Tf cv p P W) (Sf cv p P W) F = magnetic cv p scl P W F.
Proof.
  intros H. destruct (beta_model _ _ H) as (-> & W0 & B0). unfold h_kick, magnetic, momentum_at, gamma_at, qV, AU, MeVtoeV, MU0, C0.
  rewrite cos_plus, sin_plus, cos_PI2, sin_PI2. field. repeat split; lra.
Qed.

(** The ray after the transverse matrix [M], for the ray [r0] before. *)
Definition ray_of (M : mat) (v : vec) (r : ray) : Prop :=
  mapp msize M v 0%nat = x r /\ mapp msize M v 1%nat = x' r /\ mapp msize M v 2%nat = y r /\
  mapp msize M v 3%nat = y' r /\ mapp msize M v 6%nat = 1.
Lemma ray_mul A M v r r' : ray_of M v r ->
  (forall u, u 0%nat = x r -> u 1%nat = x' r -> u 2%nat = y r -> u 3%nat = y' r -> u 6%nat = 1 -> ray_of A u r') ->
  ray_of (mmul msize A M) v r'.
Proof.
  intros (H0 & H1 & H2 & H3 & H6) H. specialize (H (mapp msize M v) H0 H1 H2 H3 H6).
  unfold ray_of in *. pose proof (mapp_mmul msize A M v) as E. unfold msize in *.
  rewrite (E 0%nat), (E 1%nat), (E 2%nat), (E 3%nat), (E 6%nat) by lia. exact H.
Qed.

Ltac entries := unfold mapp, msize, sumn, two_at, one_at, mset, mid; cbn [Nat.eqb andb].
Lemma ray_drift L u r : u 0%nat = x r -> u 1%nat = x' r -> u 2%nat = y r -> u 3%nat = y' r -> u 6%nat = 1 ->
  ray_of (two_at 0 1 L 2 3 L) u (drifted_by L r).
Proof. intros H0 H1 H2 H3 H6. unfold ray_of, drifted_by. cbn [x x' y y']. entries. rewrite H0, H1, H2, H3, H6. repeat split; ring. Qed.
Lemma ray_lens a b u r : u 0%nat = x r -> u 1%nat = x' r -> u 2%nat = y r -> u 3%nat = y' r -> u 6%nat = 1 ->
  ray_of (two_at 1 0 a 3 2 b) u (lens_by a b r).
Proof. intros H0 H1 H2 H3 H6. unfold ray_of, lens_by. cbn [x x' y y']. entries. rewrite H0, H1, H2, H3, H6. repeat split; ring. Qed.
Lemma ray_kick a u r : u 0%nat = x r -> u 1%nat = x' r -> u 2%nat = y r -> u 3%nat = y' r -> u 6%nat = 1 ->
  ray_of (one_at 3 6 a) u (kick_by a r).
Proof. intros H0 H1 H2 H3 H6. unfold ray_of, kick_by. cbn [x x' y y']. entries. rewrite H0, H1, H2, H3, H6. repeat split; ring. Qed.
Lemma ray_damp a u r : u 0%nat = x r -> u 1%nat = x' r -> u 2%nat = y r -> u 3%nat = y' r -> u 6%nat = 1 ->
  ray_of (two_at 1 1 a 3 3 a) u (damp_by a r).
Proof. intros H0 H1 H2 H3 H6. unfold ray_of, damp_by. cbn [x x' y y']. entries. rewrite H0, H1, H2, H3, H6. repeat split; ring. Qed.

(** The longitudinal plane: a curve through the point of the particle. *)
Definition curve_at (WF : R * R) (Ml : mat) (t a b : R) (c : R -> R * R) : Prop :=
  c t = (snd WF, fst WF / 1000000) /\
  velocity c t (Ml 4%nat 4%nat * a + Ml 4%nat 5%nat * b) (Ml 5%nat 4%nat * a + Ml 5%nat 5%nat * b).

Lemma wave_derive L W : W <> 0 -> 0 < beta_at p W -> cv_f cv <> 0 ->
  derivable_pt_lim (fun E => wave_at cv p (1000000 * E) * L) (W / 1000000)
    (- 2 * PI / cav_lambda cv * (1 / cube (beta_at p W * (W / p_Es p)) * MeVtoeV / p_Es p * L)).
Proof.
  intros W0 B0 f0.
  assert (Q : 0 < 1 - (p_Es p / W) ^ 2).
  { unfold beta_at in B0. destruct (Rlt_le_dec 0 (1 - (p_Es p / W) ^ 2)) as [L0|L0]; [exact L0|]. rewrite sqrt_neg_0 in B0 by exact L0. lra. }
  pose proof (inv_beta (p_Es p) W W0 Q) as D. apply is_derive_Reals in D.
  set (K := 2 * PI / (299792458 * 1000 / cv_f cv) * L).
  apply (derivable_pt_lim_scal _ K) in D. unfold beta_at in *. set (s := sqrt (1 - (p_Es p / W) ^ 2)) in *.
  replace (- 2 * PI / cav_lambda cv * (1 / cube (s * (W / p_Es p)) * MeVtoeV / p_Es p * L))
    with (K * - (1000000 * p_Es p ^ 2 / (s ^ 3 * W ^ 3))).
  - revert D. apply derivable_pt_lim_ext_all. intros E. unfold mult_real_fct, wave_at, beta_at, K. unfold Rdiv. rewrite !Rinv_mult_distr_all. ring.
  - unfold K, cube, MeVtoeV. rewrite lambda_eq. field. repeat split; lra.
Qed.

Definition good (v : vec) (t a b : R) (WF : R * R) (g : gen) (r : ray) (c : R -> R * R) : Prop :=
  at_ WF g /\ ray_of (g_Mt g) v r /\ curve_at WF (g_Ml g) t a b c.
Hypothesis f0 : cv_f cv <> 0.

Lemma row_drift z M : mmul msize (one_at 4 5 z) M 4%nat 4%nat = M 4%nat 4%nat + z * M 5%nat 4%nat /\
  mmul msize (one_at 4 5 z) M 4%nat 5%nat = M 4%nat 5%nat + z * M 5%nat 5%nat /\
  mmul msize (one_at 4 5 z) M 5%nat 4%nat = M 5%nat 4%nat /\ mmul msize (one_at 4 5 z) M 5%nat 5%nat = M 5%nat 5%nat.
Proof. unfold mmul. entries. repeat split; ring. Qed.
Lemma row_gap z M : mmul msize (one_at 5 4 z) M 4%nat 4%nat = M 4%nat 4%nat /\
  mmul msize (one_at 5 4 z) M 4%nat 5%nat = M 4%nat 5%nat /\
  mmul msize (one_at 5 4 z) M 5%nat 4%nat = M 5%nat 4%nat + z * M 4%nat 4%nat /\
  mmul msize (one_at 5 4 z) M 5%nat 5%nat = M 5%nat 5%nat + z * M 4%nat 5%nat.
Proof. unfold mmul. entries. repeat split; ring. Qed.

Lemma curve_drift WF Ml t a b c L bt : curve_at WF Ml t a b c -> beta_of (fst WF / p_Es p) = Ok bt ->
  curve_at (fst WF, snd WF + wave_at cv p (fst WF) * L)
    (mmul msize (one_at 4 5 (- 2 * PI / cav_lambda cv * (1 / cube (bt * (fst WF / p_Es p)) * MeVtoeV / p_Es p * L))) Ml) t a b
    (fun s => moves cv p (SDrift L) (c s)).
Proof.
  intros [C0 [V1 V2]] Hb. destruct (beta_model _ _ Hb) as (-> & W0 & B0). destruct WF as [W F]. cbn [fst snd] in *. unfold curve_at, velocity.
  destruct (row_drift (- 2 * PI / cav_lambda cv * (1 / cube (beta_at p W * (W / p_Es p)) * MeVtoeV / p_Es p * L)) Ml) as (-> & -> & -> & ->).
  set (z := - 2 * PI / cav_lambda cv * _). split.
  - rewrite C0. cbn [moves fst snd]. replace (1000000 * (W / 1000000)) with W by field. reflexivity.
  - split.
    + pose proof (wave_derive L W W0 B0 f0) as D. fold z in D.
      assert (E : snd (c t) = W / 1000000) by (rewrite C0; reflexivity).
      rewrite <- E in D. pose proof (derivable_pt_lim_comp (fun s => snd (c s)) _ _ _ _ V2 D) as D2.
      pose proof (derivable_pt_lim_plus _ _ _ _ _ V1 D2) as D3.
      replace ((Ml 4%nat 4%nat + z * Ml 5%nat 4%nat) * a + (Ml 4%nat 5%nat + z * Ml 5%nat 5%nat) * b)
        with (Ml 4%nat 4%nat * a + Ml 4%nat 5%nat * b + z * (Ml 5%nat 4%nat * a + Ml 5%nat 5%nat * b)) by ring.
      revert D3. apply derivable_pt_lim_ext_all. intros s. unfold plus_fct, comp. destruct (c s) as [F1 E1]. reflexivity.
    + revert V2. apply derivable_pt_lim_ext_all. intros s. destruct (c s) as [F1 E1]. reflexivity.
Qed.
Lemma curve_gap WF Ml t a b c q s1 s2 : curve_at WF Ml t a b c ->
  curve_at (fst WF + 1000000 * (q * (s1 * cos (snd WF) - s2 * sin (snd WF))), snd WF)
    (mmul msize (one_at 5 4 (- (q * s1) * sin (snd WF) - q * s2 * cos (snd WF))) Ml) t a b
    (fun s => moves cv p (SGap (q * s1) (q * s2)) (c s)).
Proof.
  intros [C0 [V1 V2]]. destruct WF as [W F]. cbn [fst snd] in *. unfold curve_at, velocity.
  destruct (row_gap (- (q * s1) * sin F - q * s2 * cos F) Ml) as (-> & -> & -> & ->). set (z := - (q * s1) * sin F - q * s2 * cos F). split.
  - rewrite C0. cbn [moves fst snd]. f_equal. field.
  - split.
    + revert V1. apply derivable_pt_lim_ext_all. intros s. destruct (c s) as [F1 E1]. reflexivity.
    + assert (E : fst (c t) = F) by (rewrite C0; reflexivity).
      assert (D : derivable_pt_lim (fun F => q * s1 * cos F - q * s2 * sin F) (fst (c t)) z).
      { rewrite E. apply is_derive_Reals. auto_derive; [exact I|]. unfold z. ring. }
      pose proof (derivable_pt_lim_comp (fun s => fst (c s)) _ _ _ _ V1 D) as D2.
      pose proof (derivable_pt_lim_plus _ _ _ _ _ V2 D2) as D3.
      replace ((Ml 5%nat 4%nat + z * Ml 4%nat 4%nat) * a + (Ml 5%nat 5%nat + z * Ml 4%nat 5%nat) * b)
        with (Ml 5%nat 4%nat * a + Ml 5%nat 5%nat * b + z * (Ml 4%nat 4%nat * a + Ml 4%nat 5%nat * b)) by ring.
      revert D3. apply derivable_pt_lim_ext_all. intros s. unfold plus_fct, comp. destruct (c s) as [F1 E1]. reflexivity.
Qed.
Lemma curve_none WF Ml t a b c : curve_at WF Ml t a b c -> curve_at WF Ml t a b (fun s => moves cv p SNothing (c s)).
Proof.
  intros [C0 [V1 V2]]. split; [rewrite C0; reflexivity|].
  split; [revert V1|revert V2]; apply derivable_pt_lim_ext_all; intros s; destruct (c s); reflexivity.
Qed.

Lemma step_good v t a b P WF g g' r c :
  (Z.of_nat (List.length (r_T P)) <= 2147483647)%Z -> (Z.of_nat (List.length (r_S P)) <= 2147483647)%Z ->
  good v t a b WF g r c -> gen_step cv p scl P g = Ok g' ->
  good v t a b (after P WF) g' (through P (fst WF) (snd WF) r) (fun s => moves cv p (stage_of cv p scl P (fst WF)) (c s)).
Proof.
  intros LT LS (A & Rr & Cc) H. pose proof A as (A1 & A2 & A3 & A4 & A5).
  unfold gen_step in H. cbv zeta in H. rewrite (fits_model P _ LT LS) in H. cbn [rbind] in H.
  unfold Cavity3_Spec.through, Cavity3_Spec.after, stage_of. cbv zeta. destruct WF as [W F] eqn:EWF. cbn [fst snd] in *.
  rewrite A5 in H. fold (Tf cv p P W) in H. fold (Sf cv p P W) in H. rewrite A4, A2 in H.
  rewrite (e_kick_eq W F P _ A3), (h_kick_eq W F P _ A3) in H.
  destruct (String.eqb (r_type P) "drift") eqn:T0.
  { injection H as <-. split; [|split].
    - unfold at_. cbn [fst snd g_W g_Fy g_beta g_gamma g_k]. repeat split; assumption.
    - cbn [g_Mt]. apply (ray_mul _ _ _ r); [exact Rr|]. intros. apply ray_drift; assumption.
    - cbn [g_Ml]. exact (curve_drift (W, F) _ _ _ _ _ _ _ Cc A3). }
  assert (KEEP : forall P' r', (forall u, u 0%nat = x r -> u 1%nat = x' r -> u 2%nat = y r -> u 3%nat = y' r -> u 6%nat = 1 -> ray_of P' u r') ->
    good v t a b (W, F) (on_trans g P') r' (fun s => moves cv p SNothing (c s))).
  { intros P' r' HP. split; [exact A|]. split; [apply (ray_mul _ _ _ r); assumption|]. apply curve_none. exact Cc. }
  assert (SAME : good v t a b (W, F) g r (fun s => moves cv p SNothing (c s))) by (split; [exact A|split; [exact Rr|apply curve_none; exact Cc]]).
  assert (FO : forall lvl k sy, (if N.ltb (cv_mp cv) lvl then Ok g
     else rbind (fdiv k (cv_Rm cv)) (fun k => Ok (on_trans g (two_at 1 0 k 3 2 (sy * k))))) = Ok g' ->
     good v t a b (W, F) g' (if N.leb lvl (cv_mp cv) then lens_by (k / cv_Rm cv) (sy * (k / cv_Rm cv)) r else r) (fun s => moves cv p SNothing (c s))).
  { intros lvl k sy. rewrite N.ltb_antisym. destruct (N.leb lvl (cv_mp cv)); cbn [negb]; [|intros [= <-]; exact SAME].
    unfold fdiv. destruct (Req_EM_T (cv_Rm cv) 0); [discriminate|]. intros [= <-]. apply KEEP. intros. apply ray_lens; assumption. }
  assert (DI : forall k, (if N.ltb (cv_mp cv) 1 then Ok g else Ok (on_trans g (one_at 3 6 k))) = Ok g' ->
     good v t a b (W, F) g' (if N.leb 1 (cv_mp cv) then kick_by k r else r) (fun s => moves cv p SNothing (c s))).
  { intros k. rewrite N.ltb_antisym. destruct (N.leb 1 (cv_mp cv)); cbn [negb]; [|intros [= <-]; exact SAME].
    intros [= <-]. apply KEEP. intros. apply ray_kick; assumption. }
  assert (M1 : forall k, -1 * k = - k) by (intros; ring). assert (P1 : forall k, 1 * k = k) by (intros; ring).
  assert (GAP : forall s, String.eqb (r_type P) s = true -> String.eqb s "AccGap" = false -> String.eqb (r_type P) "AccGap" = false).
  { intros s E1 E2. apply String.eqb_eq in E1. rewrite E1. exact E2. }
  destruct (String.eqb (r_type P) "EFocus") eqn:T1.
  { rewrite (GAP _ T1 eq_refl). apply FO in H. cbn [N.leb N.compare] in H. rewrite P1 in H. destruct (cv_mp cv); exact H. }
  destruct (String.eqb (r_type P) "EDipole") eqn:T2. { rewrite (GAP _ T2 eq_refl). apply DI in H. exact H. }
  destruct (String.eqb (r_type P) "EQuad") eqn:T3. { rewrite (GAP _ T3 eq_refl). apply FO in H. rewrite M1 in H. exact H. }
  destruct (String.eqb (r_type P) "HMono") eqn:T4. { rewrite (GAP _ T4 eq_refl). apply FO in H. rewrite P1 in H. exact H. }
  destruct (String.eqb (r_type P) "HDipole") eqn:T5. { rewrite (GAP _ T5 eq_refl). apply DI in H. exact H. }
  destruct (String.eqb (r_type P) "HQuad") eqn:T6. { rewrite (GAP _ T6 eq_refl). apply FO in H. rewrite M1 in H. exact H. }
  destruct (String.eqb (r_type P) "AccGap") eqn:T7; [|discriminate].
  set (T := Tf cv p P W) in *. set (S0 := Sf cv p P W) in *.
  assert (EW : g_W g + p_Z p * (r_E0 P * scl) * MeVtoeV * T * cos F - p_Z p * (r_E0 P * scl) * MeVtoeV * S0 * sin F
    = W + 1000000 * (qV p scl P * (T * cos F - S0 * sin F))) by (rewrite A1; unfold qV, MeVtoeV; ring).
  rewrite EW in H. apply rbind_ok in H as (b' & Hb & H). injection H as <-.
  set (W' := W + 1000000 * (qV p scl P * (T * cos F - S0 * sin F))) in *.
  destruct (beta_model _ _ Hb) as (Eb & _). destruct (beta_model _ _ A3) as (Eb0 & _).
  split; [|split].
  - unfold at_. cbn [fst snd g_W g_Fy g_beta g_gamma g_k]. repeat split; try assumption. apply k_model. exact Hb.
  - cbn [g_Mt fst]. apply (ray_mul _ _ _ r); [exact Rr|]. intros. unfold momentum_at, gamma_at. rewrite <- Eb, <- Eb0. apply ray_damp; assumption.
  - cbn [g_Ml].
    replace (- p_Z p * (r_E0 P * scl) * T * sin F - p_Z p * (r_E0 P * scl) * S0 * cos F)
      with (- (qV p scl P * T) * sin F - qV p scl P * S0 * cos F) by (unfold qV; ring).
    exact (curve_gap (W, F) _ _ _ _ _ (qV p scl P) T S0 Cc).
Qed.
Lemma loop_good v t a b : forall l WF g g' r c, int_tables l ->
  good v t a b WF g r c -> gen_loop cv p scl l g = Ok g' ->
  good v t a b (after_all cv p scl l WF) g' (through_all cv p scl l WF r) (fun s => moves_all cv p (stages cv p scl l WF) (c s)).
Proof.
  induction l as [|P l IH]; intros WF g g' r c Hl G H; cbn [gen_loop] in H.
  - injection H as <-. exact G.
  - apply rbind_ok in H as (g1 & H1 & H). inversion Hl as [|? ? [L1 L2] Hl']; subst.
    assert (L1' : (Z.of_nat (List.length (r_T P)) <= 2147483647)%Z) by lia.
    assert (L2' : (Z.of_nat (List.length (r_S P)) <= 2147483647)%Z) by lia.
    pose proof (step_good v t a b P WF g g1 r c L1' L2' G H1) as G1.
    exact (IH _ _ _ _ _ Hl' G1 H).
Qed.
End Cavity.

(** ** The matrix *)
Lemma gen_good w cv p scl Fy0 Ek0 M : gen_matrix w cv p scl Fy0 Ek0 = Ok M -> 0 < p_Es p -> cv_f cv <> 0 -> int_tables (cv_lat cv) ->
  exists g b0, beta_of ((Ek0 + p_Es p) / p_Es p) = Ok b0 /\
    gen_loop cv p scl (cv_lat cv) (mkGen (Ek0 + p_Es p) ((Ek0 + p_Es p) / p_Es p) b0 Fy0 (2 * PI / (b0 * cav_lambda cv)) mid mid) = Ok g /\
    M = join (g_Mt g) (g_Ml g) /\
    forall r u1 u2 t a b c, c t = (Fy0, (Ek0 + p_Es p) / 1000000) -> velocity c t a b ->
      good cv p (ray_vec r u1 u2) t a b (after_all cv p scl (cv_lat cv) (Ek0 + p_Es p, Fy0)) g
        (through_all cv p scl (cv_lat cv) (Ek0 + p_Es p, Fy0) r)
        (fun s => moves_all cv p (stages cv p scl (cv_lat cv) (Ek0 + p_Es p, Fy0)) (c s)).
Proof.
  intros H Es0 f0 Hl. unfold gen_matrix in H. cbv zeta in H. apply rbind_ok in H as (b0 & Hb & H).
  destruct (andb _ _); [discriminate|]. apply rbind_ok in H as (g & Hg & H). injection H as <-.
  exists g, b0. split; [exact Hb|]. split; [exact Hg|]. split; [reflexivity|]. intros r u1 u2 t a b c Hc [V1 V2].
  refine (loop_good cv p scl Es0 f0 (ray_vec r u1 u2) t a b _ _ _ _ r c Hl _ Hg).
  split; [|split].
  - unfold at_. cbn [fst snd g_W g_Fy g_beta g_gamma g_k]. repeat split; [exact Hb|]. apply k_model; assumption.
  - cbn [g_Mt]. unfold ray_of. pose proof (mid_app msize (ray_vec r u1 u2)) as E. unfold msize in *.
    rewrite (E 0%nat), (E 1%nat), (E 2%nat), (E 3%nat), (E 6%nat) by lia. repeat split.
  - split; [exact Hc|]. cbn [g_Ml]. unfold mid. cbn [Nat.eqb].
    replace (1 * a + 0 * b) with a by ring. replace (0 * a + 1 * b) with b by ring. split; assumption.
Qed.
Theorem generic_rays w cv p scl Fy0 Ek0 M : gen_matrix w cv p scl Fy0 Ek0 = Ok M -> 0 < p_Es p -> cv_f cv <> 0 -> int_tables (cv_lat cv) ->
  forall r u1 u2, let r' := through_all cv p scl (cv_lat cv) (Ek0 + p_Es p, Fy0) r in
    mapp msize M (ray_vec r u1 u2) 0%nat = x r' /\ mapp msize M (ray_vec r u1 u2) 1%nat = x' r' /\
    mapp msize M (ray_vec r u1 u2) 2%nat = y r' /\ mapp msize M (ray_vec r u1 u2) 3%nat = y' r'.
Proof.
  intros H Es0 f0 Hl r u1 u2 r'. destruct (gen_good _ _ _ _ _ _ _ H Es0 f0 Hl) as (g & b0 & _ & _ & -> & G).
  destruct (G r u1 u2 0 0 0 (fun _ => (Fy0, (Ek0 + p_Es p) / 1000000)) eq_refl) as (_ & (R0 & R1 & R2 & R3 & _) & _).
  { split; apply derivable_pt_lim_const. }
  repeat split; assumption.
Qed.
Theorem generic_longitudinal w cv p scl Fy0 Ek0 M : gen_matrix w cv p scl Fy0 Ek0 = Ok M -> 0 < p_Es p -> cv_f cv <> 0 -> int_tables (cv_lat cv) ->
  let st := stages cv p scl (cv_lat cv) (Ek0 + p_Es p, Fy0) in
  let WF := after_all cv p scl (cv_lat cv) (Ek0 + p_Es p, Fy0) in
  moves_all cv p st (Fy0, (Ek0 + p_Es p) / 1000000) = (snd WF, fst WF / 1000000) /\
  forall c t a b, c t = (Fy0, (Ek0 + p_Es p) / 1000000) -> velocity c t a b ->
    velocity (fun s => moves_all cv p st (c s)) t (M 4%nat 4%nat * a + M 4%nat 5%nat * b) (M 5%nat 4%nat * a + M 5%nat 5%nat * b).
Proof.
  intros H Es0 f0 Hl st WF. destruct (gen_good _ _ _ _ _ _ _ H Es0 f0 Hl) as (g & b0 & _ & _ & -> & G).
  split.
  - destruct (G (mkRay 0 0 0 0) 0 0 0 0 0 (fun _ => (Fy0, (Ek0 + p_Es p) / 1000000)) eq_refl) as (_ & _ & [C _]); [split; apply derivable_pt_lim_const|exact C].
  - intros c t a b Hc V. destruct (G (mkRay 0 0 0 0) 0 0 t a b c Hc V) as (_ & _ & [_ V']). exact V'.
Qed.
Theorem generic_damping w cv p scl Fy0 Ek0 M : gen_matrix w cv p scl Fy0 Ek0 = Ok M -> 0 < p_Es p -> cv_f cv <> 0 -> int_tables (cv_lat cv) ->
  let W' := fst (after_all cv p scl (cv_lat cv) (Ek0 + p_Es p, Fy0)) in
  det_at M 0 = momentum_at p (Ek0 + p_Es p) / momentum_at p W' /\ det_at M 2 = momentum_at p (Ek0 + p_Es p) / momentum_at p W'.
Proof.
  intros H Es0 f0 Hl W'. destruct (gen_good _ _ _ _ _ _ _ H Es0 f0 Hl) as (g & b0 & Hb & Hg & -> & G).
  destruct (G (mkRay 0 0 0 0) 0 0 0 0 0 (fun _ => (Fy0, (Ek0 + p_Es p) / 1000000)) eq_refl) as ((A1 & A2 & A3 & A4 & A5) & _); [split; apply derivable_pt_lim_const|].
  assert (K : gen_ok (b0 * ((Ek0 + p_Es p) / p_Es p)) g).
  { eapply gen_loop_ok; [|exact Hg]. split; [cbn [g_beta g_gamma]; apply bg_nonzero; exact Hb|]. cbn [g_beta g_gamma g_Mt g_Ml].
    split; [|apply lfair_id]. replace (_ / _) with 1 by (field; apply bg_nonzero in Hb; split; [lra|]; split; intros E; apply Hb; rewrite E; unfold Rdiv; ring). apply fair_id. }
  destruct K as (K1 & K2 & _).
  destruct (beta_model p Es0 _ _ Hb) as (Eb & _). destruct (beta_model p Es0 _ _ A3) as (Eb' & _).
  unfold momentum_at, gamma_at. rewrite <- Eb. fold W' in A3, A4, Eb'. rewrite <- Eb', <- A4.
  destruct K2 as (_ & K2). exact K2.
Qed.

(** ** The matrix of the element *)
Open Scope string_scope.
Open Scope list_scope.
Section Element.
Variables (w : world) (files : cavfiles) (c : tcfg) (phi : R) (p : particle) (T : mat) (p' : particle) (cv : cavity) (scl : R).
Hypothesis H : snd (w_cav_one (with_cavities w files) c phi p T) = Ok p'.
Hypothesis Hcv : load_cavity w files c = Ok cv.
Hypothesis Hgen : cv_cavi cv = 0%nat.
Hypothesis Hscl : num_of w c "scl_fac" = Ok scl.
Hypothesis Es0 : 0 < p_Es p.
Hypothesis f0 : cv_f cv <> 0.
Hypothesis Hl : int_tables (cv_lat cv).
Let n := cv_f cv / p_freq p.
Let WF := (p_Ek p + p_Es p, n * p_phis p + phi).
Lemma element_matrix : exists M q, gen_matrix w cv q scl (n * p_phis p + phi) (p_Ek p) = Ok M /\ p_Es q = p_Es p /\ p_Z q = p_Z p /\
  p_freq p <> 0 /\ fst (w_cav_one (with_cavities w files) c phi p T) = freq_jump n M.
Proof.
  revert H. cbn [w_cav_one with_cavities]. rewrite Hcv. unfold init_cav. rewrite Hgen. cbn [label_of rbind Nat.ltb Nat.leb].
  destruct (Req_EM_T (p_freq p) 0) as [|F0]; [discriminate|]. rewrite Hscl. cbn [rbind].
  destruct (boost _ _ _ _ _ _) as [[[W' Fo]|]|e]; cbn [rbind]; try discriminate.
  set (q := boosted p W' _ _). fold n.
  destruct (gen_matrix w cv q scl (n * p_phis p + phi) (p_Ek p)) as [M|e] eqn:G; cbn [rbind snd fst]; [|discriminate]. intros _.
  exists M, q. repeat split; auto.
Qed.
Lemma same_motion q l : p_Es q = p_Es p -> p_Z q = p_Z p ->
  (forall x r, through_all cv q scl l x r = through_all cv p scl l x r) /\
  (forall x, after_all cv q scl l x = after_all cv p scl l x) /\
  (forall x y, moves_all cv q (stages cv q scl l x) y = moves_all cv p (stages cv p scl l x) y).
Proof.
  intros E1 E2.
  assert (B : forall W, wave_at cv q W = wave_at cv p W) by (intros; unfold wave_at, beta_at; rewrite E1; reflexivity).
  assert (A : forall P x, after cv q scl P x = after cv p scl P x).
  { intros P [W F]. unfold after, Tf, Sf, qV. rewrite !B, E2. reflexivity. }
  assert (M : forall W, momentum_at q W = momentum_at p W) by (intros; unfold momentum_at, gamma_at, beta_at; rewrite E1; reflexivity).
  assert (Th : forall P W F r, through cv q scl P W F r = through cv p scl P W F r).
  { intros P W F r. unfold through, electric, magnetic. rewrite !A, !M. unfold Tf, Sf, qV, beta_at. rewrite !B, E2, E1. reflexivity. }
  assert (Sg : forall P W, stage_of cv q scl P W = stage_of cv p scl P W).
  { intros. unfold stage_of, qV, Tf, Sf. rewrite !B, E2. reflexivity. }
  assert (Mv : forall st y, moves cv q st y = moves cv p st y).
  { intros st [F E]. destruct st; cbn [moves]; rewrite ?B; reflexivity. }
  split; [|split].
  - induction l as [|P l IH]; intros x r; cbn [through_all]; [reflexivity|]. rewrite A, Th. apply IH.
  - unfold after_all. induction l as [|P l IH]; intros x; cbn [fold_left]; [reflexivity|]. rewrite A. apply IH.
  - unfold moves_all. induction l as [|P l IH]; intros x y; cbn [stages fold_left]; [reflexivity|]. rewrite A, Sg, Mv. apply IH.
Qed.
Theorem element_rays : let M := fst (w_cav_one (with_cavities w files) c phi p T) in
  forall r u1 u2, let r' := through_all cv p scl (cv_lat cv) WF r in
    mapp msize M (ray_vec r u1 u2) 0%nat = x r' /\ mapp msize M (ray_vec r u1 u2) 1%nat = x' r' /\
    mapp msize M (ray_vec r u1 u2) 2%nat = y r' /\ mapp msize M (ray_vec r u1 u2) 3%nat = y' r'.
Proof.
  intros M r u1 u2 r'. destruct element_matrix as (M0 & q & G & E1 & E2 & F0 & EM).
  assert (N0 : n <> 0). { unfold n, Rdiv. apply Rmult_integral_contrapositive. split; [exact f0|apply Rinv_neq_0_compat; exact F0]. }
  assert (Es1 : 0 < p_Es q) by (rewrite E1; exact Es0).
  destruct (generic_rays _ _ _ _ _ _ _ G Es1 f0 Hl r (n * u1) u2) as (A & B & C & D).
  rewrite E1 in A, B, C, D. destruct (same_motion q (cv_lat cv) E1 E2) as (X & _). rewrite X in A, B, C, D. fold WF r' in A, B, C, D.
  assert (J : forall i, (i < 4)%nat -> mapp msize M (ray_vec r u1 u2) i = mapp msize M0 (ray_vec r (n * u1) u2) i).
  { intros i Hi. unfold M. rewrite EM. unfold mapp. apply sumn_ext. intros j Hj. unfold msize in Hj. rewrite jump_entry by (auto; lia).
    destruct (Nat.eqb_spec i 4); [lia|]. idx7 j Hj; cbn [Nat.eqb]; unfold ray_vec; cbn [nth]; field. }
  rewrite !J by lia. repeat split; assumption.
Qed.
Theorem element_longitudinal : let M := fst (w_cav_one (with_cavities w files) c phi p T) in
  let st := stages cv p scl (cv_lat cv) WF in
  let WF' := after_all cv p scl (cv_lat cv) WF in
  moves_all cv p st (n * p_phis p + phi, (p_Ek p + p_Es p) / 1000000) = (snd WF', fst WF' / 1000000) /\
  forall cu t a b, cu t = (p_phis p, (p_Ek p + p_Es p) / 1000000) -> velocity cu t a b ->
    velocity (fun s => beam_moves cv p n phi st (cu s)) t (M 4%nat 4%nat * a + M 4%nat 5%nat * b) (M 5%nat 4%nat * a + M 5%nat 5%nat * b).
Proof.
  intros M st WF'. destruct element_matrix as (M0 & q & G & E1 & E2 & F0 & EM).
  assert (N0 : n <> 0). { unfold n, Rdiv. apply Rmult_integral_contrapositive. split; [exact f0|apply Rinv_neq_0_compat; exact F0]. }
  assert (Es1 : 0 < p_Es q) by (rewrite E1; exact Es0).
  destruct (generic_longitudinal _ _ _ _ _ _ _ G Es1 f0 Hl) as [A B]. rewrite E1 in A, B.
  destruct (same_motion q (cv_lat cv) E1 E2) as (_ & X & Y). rewrite Y, X in A. split; [exact A|].
  intros cu t a b Hc [V1 V2].
  assert (V : velocity (fun s => (n * fst (cu s) + phi, snd (cu s))) t (n * a) b).
  { split; cbn [fst snd]; [|exact V2].
    replace (n * a) with (n * a + 0) by ring.
    pose proof (derivable_pt_lim_plus _ _ _ _ _ (derivable_pt_lim_scal (fun s => fst (cu s)) n t a V1) (derivable_pt_lim_const phi t)) as D.
    revert D. apply derivable_pt_lim_ext_all. intros s. reflexivity. }
  destruct (B (fun s => (n * fst (cu s) + phi, snd (cu s))) t (n * a) b) as [D1 D2]; [rewrite Hc; reflexivity|exact V|].
  unfold M. rewrite EM. rewrite !jump_entry by (auto; lia). cbn [Nat.eqb]. split.
  - replace (M0 4%nat 4%nat * n / n * a + M0 4%nat 5%nat * 1 / n * b) with (/ n * (M0 4%nat 4%nat * (n * a) + M0 4%nat 5%nat * b - 0)) by (field; exact N0).
    pose proof (derivable_pt_lim_scal _ (/ n) t _ (derivable_pt_lim_minus _ _ _ _ _ D1 (derivable_pt_lim_const phi t))) as D.
    revert D. apply derivable_pt_lim_ext_all. intros s. unfold mult_real_fct, minus_fct, fct_cte, beam_moves. cbn [fst]. rewrite Y. unfold st, WF, Rdiv. ring.
  - replace (M0 5%nat 4%nat * n / 1 * a + M0 5%nat 5%nat * 1 / 1 * b) with (M0 5%nat 4%nat * (n * a) + M0 5%nat 5%nat * b) by field.
    revert D2. apply derivable_pt_lim_ext_all. intros s. unfold beam_moves. cbn [snd]. rewrite Y. reflexivity.
Qed.
Theorem element_damping : let M := fst (w_cav_one (with_cavities w files) c phi p T) in
  let W' := fst (after_all cv p scl (cv_lat cv) WF) in
  det_at M 0 = momentum_at p (p_Ek p + p_Es p) / momentum_at p W' /\ det_at M 2 = momentum_at p (p_Ek p + p_Es p) / momentum_at p W'.
Proof.
  intros M W'. destruct element_matrix as (M0 & q & G & E1 & E2 & F0 & EM).
  assert (N0 : n <> 0). { unfold n, Rdiv. apply Rmult_integral_contrapositive. split; [exact f0|apply Rinv_neq_0_compat; exact F0]. }
  assert (Es1 : 0 < p_Es q) by (rewrite E1; exact Es0).
  pose proof (generic_damping _ _ _ _ _ _ _ G Es1 f0 Hl) as A. cbv zeta in A. rewrite E1 in A.
  destruct (same_motion q (cv_lat cv) E1 E2) as (_ & X & _). rewrite X in A. fold WF in A. fold W' in A.
  assert (Mo : forall W, momentum_at q W = momentum_at p W) by (intros; unfold momentum_at, gamma_at, beta_at; rewrite E1; reflexivity).
  rewrite !Mo in A. rewrite <- (proj1 A) at 1. rewrite <- (proj2 A) at 1. unfold M. rewrite EM.
  unfold det_at. rewrite !jump_entry by (auto; lia). cbn [Nat.eqb Nat.add]. split; field.
Qed.
End Element.

