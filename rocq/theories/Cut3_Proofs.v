(** A deflector of two halves, and a charge state that is not the reference particle's. *)
From Coq Require Import Reals List String Bool NArith ZArith Arith Lia Lra.
From Verif Require Import SMap SMap_Proofs Dbl Config_Spec Mat Mat_Proofs Minv Minv_Proofs Machine_Model Machine_Spec Machine_Proofs
  Machine2_Proofs Linear_Model Linear_Spec Linear_Proofs Linear2_Proofs Linear3_Proofs.
From Verif Require Import Moment_Model Moment_Spec Motion_Spec Moment_Proofs Moment2_Proofs Moment3_Proofs Moment4_Proofs
  Moment5_Proofs Moment6_Proofs Motion_Proofs Motion2_Proofs Motion3_Proofs Motion4_Proofs Motion5_Proofs
  Frame_Spec Frame_Proofs Area_Spec Area_Proofs Area2_Proofs Flag_Proofs Cut_Proofs Line_Proofs Line2_Proofs
  Deflect_Spec Deflect_Proofs Deflect2_Proofs Deflect3_Proofs Cut_Spec Cut2_Proofs.
Import ListNotations.
Open Scope R_scope.
Open Scope string_scope.
Open Scope list_scope.

(** Cylinders, whole and cut: 1 m and one degree, or half a metre and half a degree. *)
Definition piece (size ver : double) : tcfg :=
  TCfg [("L", TNum size); ("name", TStr "e"); ("phi", TNum size); ("spher", TNum dzero); ("type", TStr "edipole"); ("ver", TNum ver)] [].
Notation ion := (ms_ref (state0 2)).
(** The same ion with twice the charge. *)
Definition ion2 : particle := recalc (mkP 1 1 931000000 0 0 0 0 80500000 0 0 0 1000000).
Definition mixed : mstate := mkMS 0 ion [ion; ion2] (repeat (fun i => if Nat.eqb i 6 then 1 else 0) 2) (repeat mid 2) (repeat mid 2)
       (fun _ => 0) (fun _ => 0) mid 0.
Lemma mixed_ok : aligned mixed /\ moving (ms_ref mixed) /\ Forall moving (ms_real mixed).
Proof.
  destruct state2 as (A & B & C). split; [repeat split; discriminate|]. split; [exact B|]. constructor; [exact B|]. constructor; [|constructor].
  unfold moving, ion2. cbn. lra.
Qed.
Definition one_of (d : double) : Prop := d = done \/ d = dhalf.
Lemma piece_proper a d ver : one_of d -> proper_deflector (world0 nums a) (piece d ver) ion.
Proof.
  intros H. unfold proper_deflector. cbn [w_num world0]. change (real_at nums (piece d ver) "spher" 0) with 0.
  assert (X : real_at nums (piece d ver) "L" 0 <> 0 /\ real_at nums (piece d ver) "phi" 0 <> 0).
  { destruct H as [-> | ->].
    - change (real_at nums (piece done ver) "L" 0) with 1. change (real_at nums (piece done ver) "phi" 0) with 1. lra.
    - change (real_at nums (piece dhalf ver) "L" 0) with (/ 2). change (real_at nums (piece dhalf ver) "phi" 0) with (/ 2). lra. }
  split; [apply X|]. split; [apply X|]. split.
  - intros fit F E. unfold flagged in F. cbn in F. congruence.
  - assert (Q := gg). lra.
Qed.
Lemma piece_pass a d ver s : aligned s -> moving (ms_ref s) -> Forall moving (ms_real s) -> exists f, goes_through (world0 nums a) (piece d ver) s f.
Proof.
  intros A B C. eapply (edipole_passes (world0 nums a) (piece d ver) s (mconf [piece d ver])); auto; try reflexivity; try apply world0_sane.
  - unfold strips_to_some. discriminate.
  - repeat (apply Forall_cons; [discriminate|]). apply Forall_nil.
Qed.
Lemma pieces a ver : deflector_halves (world0 nums a) (piece done ver) (piece dhalf ver) (piece dhalf ver).
Proof.
  split; [reflexivity|]. split.
  { intros n Hn. cbn [In] in Hn. unfold piece, tfind, town. cbn [sfind].
    repeat (match goal with |- context [String.eqb n ?k] => destruct (String.eqb_spec n k) as [->|?] end; [tauto || auto|]); auto. }
  cbn [w_num world0]. change (real_at nums (piece done ver) "L" 0) with 1. change (real_at nums (piece dhalf ver) "L" 0) with (/ 2).
  change (real_at nums (piece done ver) "phi" 0) with 1. change (real_at nums (piece dhalf ver) "phi" 0) with (/ 2).
  split; [lra|]. split; [split; reflexivity|]. split; [reflexivity|]. split; [reflexivity|]. lra.
Qed.
Lemma pieces_pass a ver : exists f f1 f2, goes_through (world0 nums a) (piece done ver) mixed f /\
  goes_through (world0 nums a) (piece dhalf ver) mixed f1 /\ goes_through (world0 nums a) (piece dhalf ver) f1 f2.
Proof.
  destruct mixed_ok as (A & B & C). destruct (piece_pass a done ver mixed A B C) as [f G]. destruct (piece_pass a dhalf ver mixed A B C) as [f1 G1].
  destruct (electric_pass _ _ _ _ (world0_sane nums a) G1 eq_refl B C (piece_proper a dhalf ver (or_intror eq_refl)) eq_refl) as (A1 & N1 & _ & R1 & Q1).
  destruct (piece_pass a dhalf ver f1) as [f2 G2].
  - exact A1.
  - exact (later_moving _ _ _ R1 B).
  - apply Forall_forall. intros q1 H1. apply In_nth_error in H1 as [j H1]. assert (Hj := nth_lt _ _ _ H1). rewrite N1 in Hj.
    assert (X : exists q v S, nth_error (ms_real mixed) j = Some q /\ nth_error (ms_m0 mixed) j = Some v /\ nth_error (ms_m1 mixed) j = Some S).
    { destruct j as [|[|j]]; [eexists _, _, _; repeat split; reflexivity..|cbn in Hj; lia]. }
    destruct X as (q & v & S & Hq & Hv & Hs). destruct (Q1 j q v S Hq Hv Hs) as (q' & T & v' & S' & X1 & _ & _ & _ & _ & X2 & _).
    rewrite X1 in H1. apply some_eq in H1. subst q'. eapply later_moving; [exact X2|]. rewrite Forall_forall in C. apply C. exact (nth_error_In _ _ Hq).
  - exists f, f1, f2. auto.
Qed.

(** ** The matrix of a bare deflector *)
Section Bare.
Variables (w : world) (c : tcfg) (ref q : particle).
Notation num := (w_num w).
Hypotheses (HR : moving ref) (HQ : moving q) (HP : proper_deflector w c ref) (SY : symmetric num c) (HF : facing num c)
  (H1 : real_at num c "roll" 0 = 0) (H2 : real_at num c "dx" 0 = 0) (H3 : real_at num c "dy" 0 = 0)
  (HV : vertical c = false) (HX : real_at num c "fringe_x" 0 = 0) (HY : real_at num c "fringe_y" 0 = 0).
Lemma bare d g T : mom_ctor w KEDipole c = Ok d -> setup_edipole w d c (recalc ref) = Ok g -> g (recalc q) mid = (T, None) ->
  forall u, unit_last u -> veq 7 (mapp 7 T u) (mapp 7 (core_of w c ref q) u).
Proof.
  intros HC S1 T2 u Hu. destruct (ctor_data w _ _ _ HC) as (C1 & C2 & C3).
  assert (X := edipole_setup w c ref q d HR HQ HP g mid T S1 T2).
  assert (P := inside_ok w c (real_at num c "L" 0) ref q d [thru (body_of w c ref q)] (body_of w c ref q) T HQ (proj1 HR) C2 C3 X
    (affine_body w c ref q) (does_thru _) u Hu).
  apply (peel w c ref q HQ (proj1 HR) HF H1 H2 H3) in P as (u1 & u2 & E1 & (v & V & E) & E2).
  cbn [passes] in E. unfold thru in V. rewrite <- E2, <- E, V, E1. clear V E E1 E2 u1 u2 v X. unfold body_of. rewrite HV. cbv zeta.
  assert (I : forall x, veq 7 (mapp 7 (edge_of w c) x) x).
  { intros x. apply (no_fringe w c HX HY). apply fringe_ok; [exact SY|exact SY]. }
  rewrite !mapp_mmul. rewrite (I u). apply I.
Qed.
End Bare.
Lemma core_same w c ref p ref' p' x y : later ref ref' x -> later p p' y -> core_of w c ref' p' = core_of w c ref p.
Proof.
  destruct ref, ref', p, p'. intros ((A1 & A2 & A3 & A4) & A5 & _) ((B1 & B2 & B3 & B4) & B5 & _). cbn in A1, A2, A3, A4, A5, B1, B2, B3, B4, B5. subst. reflexivity.
Qed.
Definition dxx (L phi Kx : R) : R := (1 - cos (sqrt Kx * L)) / (L / phi * Kx).
Definition sxx (L Kx : R) : R := sin (sqrt Kx * L) / sqrt Kx.
Lemma core_kick L phi Kx Ky Es g e dK dKZ iK (D := (sqr (1 + 2 * e) + 1) / (2 * (1 + e) * (1 + 2 * e)) * dK + (1 + 2 * e - 1) / (2 * (1 + e) * (1 + 2 * e)) * dKZ)
  (N := (1 + 1 / sqr (1 + 2 * e)) * (- g / (1 + g))) : 0 < Kx ->
  let M := ebend_core L phi Kx Ky Es g e 1 dK dKZ iK in
  veq 7 (mapp 7 M (fun i => if Nat.eqb i 6 then 1 else 0)) (fun i => match i with 0%nat => dxx L phi Kx * D | 1%nat => sxx L Kx / (L / phi) * D | 6%nat => 1 | _ => 0 end) /\
  forall u, u 5%nat = 0 -> mapp 7 M u 4%nat = - (sxx L Kx / (L / phi) * N * iK) * u 0%nat - dxx L phi Kx * N * iK * u 1%nat + u 4%nat.
Proof.
  intros K M. unfold M, ebend_core. cbv zeta. rewrite !quad_plane_eq.
  destruct (Req_EM_T Kx 0) as [Z|_]; [lra|]. destruct (Rlt_dec 0 Kx) as [_|Z]; [|contradiction].
  fold (dxx L phi Kx). fold (sxx L Kx). unfold D, N. clear D N M.
  generalize (dxx L phi Kx) (sxx L Kx). intros dx sx.
  match goal with |- context [mset _ PS_S PS_PS ?x] => generalize x end. intros x3.
  split.
  - intros i Hi. unfold mapp. cbn [sumn]. idx7 i Hi; look; ring.
  - intros u U. unfold mapp. cbn [sumn]. look. rewrite U. ring.
Qed.

(** ** The doubly charged ion *)
Section Late.
Notation w := (world0 nums false).
Notation g := (gamma_of ion).
Lemma ion2_core d x : one_of d -> x = real_at nums (piece d dzero) "L" 0 ->
  exists Ky, core_of w (piece d dzero) ion ion2 = ebend_core (x * 500) (x * ang) ((1 + g * g) / sqr (500 / ang)) Ky (p_Es ion) g ((g - 1) / 2) 1 (- 1 / 2) (- 1 / 2) (wavenumber ion2).
Proof.
  intros O X. unfold core_of. cbv zeta. cbn [w_num world0]. rewrite <- X. unfold angle_of. cbn [w_num world0].
  assert (XP : real_at nums (piece d dzero) "phi" 0 = x) by (rewrite X; destruct O as [-> | ->]; reflexivity). rewrite XP.
  assert (X0 : x <> 0) by (rewrite X; apply (piece_proper false d dzero O)).
  change (real_at nums (piece d dzero) "spher" 0) with 0. change (beta_of ion2) with (beta_of ion). change (gamma_of ion2) with (gamma_of ion).
  change (p_Z ion2) with 1. change (p_Z ion) with (1 / 2). change (p_Ek ion2) with (p_Ek ion).
  destruct state2 as (_ & B & _). destruct (moving_facts ion B) as (_ & BP & _). assert (E0 : p_Ek ion <> 0) by (apply Rgt_not_eq; apply (proj1 (proj2 B))).
  replace (sqr (beta_of ion) / 1 / (sqr (beta_of ion) / (1 / 2))) with (1 / 2) by (unfold sqr; field; lra).
  replace (1 / 2 * (x * 1000)) with (x * 500) by field.
  replace (1 / 2 - 1 - (p_Ek ion - p_Ek ion) / p_Ek ion) with (- 1 / 2) by (field; auto).
  replace (1 / 2 / 1 - 1) with (- 1 / 2) by field.
  replace (x * PI / 180) with (x * ang) by (unfold ang; field).
  assert (A := proj1 ang_pos).
  replace (x * 500 / (x * ang)) with (500 / ang) by (field; lra).
  eexists. unfold sqr. rewrite Rminus_0_r. reflexivity.
Qed.
Lemma core_kicks d x v : one_of d -> x = real_at nums (piece d dzero) "L" 0 ->
  veq 7 v (mapp 7 (core_of w (piece d dzero) ion ion2) (fun i => if Nat.eqb i 6 then 1 else 0)) ->
  exists D S K, v 0%nat = - D / 2 /\ v 1%nat = - S / 2 /\ v 4%nat = 0 /\ v 5%nat = 0 /\ v 6%nat = 1 /\ 0 < D /\ 0 < S /\ 0 < K /\
  forall u, u 5%nat = 0 -> mapp 7 (core_of w (piece d dzero) ion ion2) u 4%nat = K * (S * u 0%nat + D * u 1%nat) + u 4%nat.
Proof.
  intros O X V. destruct (ion2_core d x O X) as [Ky E]. rewrite E in *. clear E.
  assert (Q := gg). assert (A := ang_pos). assert (GI := ion_gamma).
  assert (P : 0 < 500 / ang) by (apply Rdiv_lt_0_compat; lra).
  set (Kx := (1 + g * g) / sqr (500 / ang)) in *.
  assert (KP : 0 < Kx) by (unfold Kx, sqr; apply Rdiv_lt_0_compat; [lra|apply Rmult_lt_0_compat; exact P]).
  assert (X1 : x = 1 \/ x = / 2) by (rewrite X; destruct O as [-> | ->]; [left|right]; reflexivity).
  destruct (core_kick (x * 500) (x * ang) Kx Ky (p_Es ion) g ((g - 1) / 2) (- 1 / 2) (- 1 / 2) (wavenumber ion2) KP) as [C1 C2]. cbv zeta in C1, C2.
  rewrite C1 in V. clear C1.
  assert (R : x * 500 / (x * ang) = 500 / ang) by (field; lra). rewrite R in *.
  assert (SQ : sqrt Kx * (x * 500) = x * (sqrt (1 + g * g) * ang)).
  { unfold Kx, sqr. rewrite sqrt_div_alt by (apply Rmult_lt_0_compat; exact P). rewrite sqrt_square by lra. field. lra. }
  destruct (small (1 + g * g) ltac:(lra)) as [S1 S2].
  assert (T : 0 < sqrt Kx * (x * 500) < PI) by (rewrite SQ; assert (PP := PI_RGT_0); destruct X1 as [-> | ->]; lra).
  assert (SI := sin_gt_0 _ (proj1 T) (proj2 T)).
  assert (CO : cos (sqrt Kx * (x * 500)) < 1).
  { rewrite <- cos_0. apply cos_decreasing_1; try lra. }
  assert (SK := sqrt_lt_R0 Kx KP).
  assert (DP : 0 < dxx (x * 500) (x * ang) Kx) by (unfold dxx; rewrite R; apply Rdiv_lt_0_compat; [lra|apply Rmult_lt_0_compat; assumption]).
  assert (SP : 0 < sxx (x * 500) Kx / (500 / ang)) by (unfold sxx; apply Rdiv_lt_0_compat; [apply Rdiv_lt_0_compat; assumption|exact P]).
  set (dx := dxx (x * 500) (x * ang) Kx) in *. set (sx := sxx (x * 500) Kx / (500 / ang)) in *.
  assert (ED : (sqr (1 + 2 * ((g - 1) / 2)) + 1) / (2 * (1 + (g - 1) / 2) * (1 + 2 * ((g - 1) / 2))) * (- 1 / 2) +
     (1 + 2 * ((g - 1) / 2) - 1) / (2 * (1 + (g - 1) / 2) * (1 + 2 * ((g - 1) / 2))) * (- 1 / 2) = - 1 / 2).
  { unfold sqr. replace (1 + 2 * ((g - 1) / 2)) with g by field. replace (2 * (1 + (g - 1) / 2)) with (1 + g) by field. rewrite GI. field. }
  rewrite ED in V. 
  set (N := (1 + 1 / sqr (1 + 2 * ((g - 1) / 2))) * (- g / (1 + g))) in *.
  assert (W : 0 < wavenumber ion2).
  { destruct mixed_ok as (_ & _ & C). inversion C as [|? ? _ C']. inversion C' as [|? ? M _]. apply (k_pos ion2 M). }
  assert (NP : 0 < - N).
  { unfold N, sqr. replace (1 + 2 * ((g - 1) / 2)) with g by field. replace (- ((1 + 1 / (g * g)) * (- g / (1 + g)))) with ((1 + 1 / (g * g)) * (g / (1 + g))) by (field; rewrite GI; lra).
    assert (0 < 1 / (g * g)) by (apply Rdiv_lt_0_compat; lra). apply Rmult_lt_0_compat; [lra|]. rewrite GI. lra. }
  exists dx, sx, (- N * wavenumber ion2). rewrite !V by lia.
  split; [field|]. split; [field|]. split; [reflexivity|]. split; [reflexivity|]. split; [reflexivity|]. split; [exact DP|]. split; [exact SP|]. split; [nra|].
  intros u U. rewrite (C2 u U). ring.
Qed.
Lemma late f f1 f2 : goes_through w (piece done dzero) mixed f -> goes_through w (piece dhalf dzero) mixed f1 -> goes_through w (piece dhalf dzero) f1 f2 ->
  ~ same_at 1 f f2.
Proof.
  intros Gc Ga Gb H. assert (W := world0_sane nums false). destruct mixed_ok as (A & B & C).
  assert (M2 : moving ion2) by (inversion C as [|? ? _ C']; inversion C' as [|? ? M _]; exact M).
  set (e6 := (fun i => if Nat.eqb i 6 then 1 else 0) : vec).
  assert (U6 : unit_last e6) by reflexivity.
  assert (STEP : forall d s f ref q v x y, one_of d -> goes_through w (piece d dzero) s f -> later ion (ms_ref s) x -> later ion2 q y -> Forall moving (ms_real s) ->
    nth_error (ms_real s) 1 = Some q -> nth_error (ms_m0 s) 1 = Some v -> unit_last v -> ref = ms_ref s ->
    exists q' v' z z', nth_error (ms_real f) 1 = Some q' /\ nth_error (ms_m0 f) 1 = Some v' /\ later ref (ms_ref f) z /\ later q q' z' /\ unit_last v' /\
      aligned f /\ veq 7 v' (mapp 7 (core_of w (piece d dzero) ion ion2) v)).
  { intros d s f0 ref q v x y O G R1 R2 HRs Hq Hv Uv ->.
    assert (HR : moving (ms_ref s)) by exact (later_moving _ _ _ R1 B). assert (HQ : moving q) by exact (later_moving _ _ _ R2 M2).
    assert (PD : proper_deflector w (piece d dzero) (ms_ref s)) by exact (later_proper _ _ _ _ _ R1 (piece_proper false d dzero O)).
    destruct (electric_pass _ _ _ _ W G eq_refl HR HRs PD eq_refl) as (A1 & N1 & _ & R' & Q1).
    destruct (edipole_step w _ s f0 W G eq_refl) as (dd & gg' & HC & As & S1 & S2).
    destruct As as (_ & L1 & L2 & _). destruct (nth_ex (ms_m1 s) 1 _ L2 (nth_lt _ _ _ Hq)) as [S Hs].
    destruct (Q1 1%nat q v S Hq Hv Hs) as (q' & T & v' & S' & X1 & X2 & X3 & X4 & X5 & X6 & X7 & _).
    destruct (S2 1%nat q Hq) as (T' & T1 & T2). rewrite X2 in T1. apply some_eq in T1. subst T'.
    assert (K := bare w (piece d dzero) (ms_ref s) q HR HQ PD eq_refl (conj eq_refl eq_refl) eq_refl eq_refl eq_refl eq_refl eq_refl eq_refl dd gg' T HC S1 T2 v Uv).
    rewrite (core_same _ _ _ _ _ _ _ _ R1 R2) in K. apply carried in X5 as [X5 _].
    exists q', v'. eexists _, _. split; [exact X1|]. split; [exact X3|]. split; [exact R'|]. split; [exact X6|].
    split; [unfold unit_last; rewrite (X5 6%nat) by lia; apply (unit_app _ _ X7 Uv)|]. split; [exact A1|]. rewrite X5. exact K. }
  assert (L0 : forall p, later (recalc p) (recalc p) 0).
  { intros p. unfold later. split; [repeat split|]. split; [reflexivity|]. split; [ring|apply kinematic_recalc]. }
  destruct (STEP done mixed f ion ion2 e6 0 0 (or_introl eq_refl) Gc (L0 _) (L0 _) C eq_refl eq_refl U6 eq_refl) as (q3 & v3 & z1 & z2 & _ & F2 & _ & _ & _ & _ & F7).
  destruct (STEP dhalf mixed f1 ion ion2 e6 0 0 (or_intror eq_refl) Ga (L0 _) (L0 _) C eq_refl eq_refl U6 eq_refl) as (q1 & v1 & z3 & z4 & E1 & E2 & E3 & E4 & E5 & E6 & E7).
  assert (C1 : Forall moving (ms_real f1)).
  { destruct (electric_pass _ _ _ _ W Ga eq_refl B C (piece_proper false dhalf dzero (or_intror eq_refl)) eq_refl) as (_ & N1 & _ & _ & Q1).
    apply Forall_forall. intros qq H1. apply In_nth_error in H1 as [j H1]. assert (Hj := nth_lt _ _ _ H1). rewrite N1 in Hj.
    assert (X : exists q v S, nth_error (ms_real mixed) j = Some q /\ nth_error (ms_m0 mixed) j = Some v /\ nth_error (ms_m1 mixed) j = Some S).
    { destruct j as [|[|j]]; [eexists _, _, _; repeat split; reflexivity..|cbn in Hj; lia]. }
    destruct X as (q & v & S & Hq & Hv & Hs). destruct (Q1 j q v S Hq Hv Hs) as (q' & T & v' & S' & X1 & _ & _ & _ & _ & X2 & _).
    rewrite X1 in H1. apply some_eq in H1. subst q'. eapply later_moving; [exact X2|]. rewrite Forall_forall in C. apply C. exact (nth_error_In _ _ Hq). }
  destruct (STEP dhalf f1 f2 _ q1 v1 _ _ (or_intror eq_refl) Gb E3 E4 C1 E1 E2 E5 eq_refl) as (q2 & v2 & z5 & z6 & _ & G2 & _ & _ & _ & _ & G7).
  destruct (core_kicks done 1 v3 (or_introl eq_refl) eq_refl F7) as (_ & _ & _ & _ & _ & K4 & _).
  destruct (core_kicks dhalf (/ 2) v1 (or_intror eq_refl) eq_refl E7) as (D & S & K & J0 & J1 & J4 & J5 & J6 & PD & PS & PK & J).
  assert (Z := J v1 J5). rewrite <- (G7 4%nat) in Z by lia. rewrite J0, J1, J4 in Z.
  destruct H as (a & b & _ & _ & H1 & H2 & H3 & _). rewrite F2 in H1. rewrite G2 in H2. apply some_eq in H1, H2. subst a b.
  specialize (H3 4%nat ltac:(lia)). rewrite K4, Z in H3. assert (0 < K * (S * D)) by (apply Rmult_lt_0_compat; [|apply Rmult_lt_0_compat]; assumption). lra.
Qed.
End Late.
Lemma electric_halves_example a : exists f f1 f2, let w := world0 nums a in let ec := piece done done in let ea := piece dhalf done in
  sane w /\ deflector_halves w ec ea ea /\ proper_deflector w ec (ms_ref mixed) /\ symmetric nums ec /\ moving (ms_ref mixed) /\ Forall moving (ms_real mixed) /\
  goes_through w ec mixed f /\ goes_through w ea mixed f1 /\ goes_through w ea f1 f2 /\ vertical ec = true /\
  nth_error (ms_real mixed) 0 = Some (ms_ref mixed) /\ alike (ms_ref mixed) (ms_ref mixed).
Proof.
  destruct (pieces_pass a done) as (f & f1 & f2 & X). destruct mixed_ok as (A & B & C). exists f, f1, f2. cbv zeta.
  split; [apply world0_sane|]. split; [apply pieces|]. split; [apply piece_proper; left; reflexivity|]. split; [reflexivity|]. split; [exact B|]. split; [exact C|].
  split; [apply X|]. split; [apply X|]. split; [apply X|]. split; [reflexivity|]. split; [reflexivity|]. repeat split.
Qed.
Lemma C29_electric_dipole_refuted_w : exists w ec ea eb s f f1 f2 q, sane w /\ deflector_halves w ec ea eb /\ proper_deflector w ec (ms_ref s) /\
  symmetric (w_num w) ec /\ moving (ms_ref s) /\ Forall moving (ms_real s) /\
  goes_through w ec s f /\ goes_through w ea s f1 /\ goes_through w eb f1 f2 /\ nth_error (ms_real s) 1 = Some q /\ ~ same_at 1 f f2.
Proof.
  destruct (pieces_pass false dzero) as (f & f1 & f2 & X1 & X2 & X3). destruct mixed_ok as (A & B & C).
  exists (world0 nums false), (piece done dzero), (piece dhalf dzero), (piece dhalf dzero), mixed, f, f1, f2, ion2.
  split; [apply world0_sane|]. split; [apply pieces|]. split; [apply piece_proper; left; reflexivity|]. split; [reflexivity|]. split; [exact B|]. split; [exact C|].
  split; [exact X1|]. split; [exact X2|]. split; [exact X3|]. split; [reflexivity|]. exact (late f f1 f2 X1 X2 X3).
Qed.
