(** The matrix of an electrostatic dipole. *)
From Coq Require Import Reals List String Bool NArith ZArith Arith Lia Lra.
From Verif Require Import SMap SMap_Proofs Dbl Config_Spec Mat Mat_Proofs Minv Minv_Proofs Machine_Model Machine_Spec Machine_Proofs
  Machine2_Proofs Linear_Model Linear_Spec Linear_Proofs Linear2_Proofs Linear3_Proofs.
From Verif Require Import Moment_Model Moment_Spec Motion_Spec Moment_Proofs Moment2_Proofs Moment3_Proofs Moment4_Proofs
  Moment5_Proofs Moment6_Proofs Motion_Proofs Motion2_Proofs Motion3_Proofs Motion4_Proofs Motion5_Proofs
  Frame_Spec Frame_Proofs Area_Spec Area_Proofs Deflect_Spec.
Import ListNotations.
Open Scope R_scope.
Open Scope string_scope.
Open Scope list_scope.

(** ** The matrix between the edges *)
Definition ebend_core (L phi Kx Ky Es real_gamma eta0 h delta_K delta_KZ ionK : R) : mat :=
  let rho := L / phi in
  let scl := (real_gamma - 1) * Es / MeVtoeV in
  let M := quad_plane L Kx PS_X mid in
  let M := quad_plane L Ky PS_Y M in
  let dx := if Req_EM_T Kx 0 then 0
            else if Rlt_dec 0 Kx then (1 - cos (sqrt Kx * L)) / (rho * Kx)
            else (1 - cosh (sqrt (- Kx) * L)) / (rho * Kx) in
  let sx := if Req_EM_T Kx 0 then 0 else sin (sqrt Kx * L) / sqrt Kx in
  let Nk := (sqr (1 + 2 * eta0) + h) / (2 * (1 + eta0) * (1 + 2 * eta0)) in
  let Nt := 1 + h / sqr (1 + 2 * eta0) in
  let CorT := - real_gamma / (1 + real_gamma) in
  let tx := sx / rho * Nt * CorT in
  let txp := dx * Nt * CorT in
  let tzp := (- L / (2 * (1 + eta0) * (1 + 2 * eta0)) + ((L - sx) / Kx / sqr rho) * Nk * Nt) * CorT in
  let M := mset M PS_X PS_PS (dx * Nk / scl) in
  let M := mset M PS_PX PS_PS (sx / rho * Nk / scl) in
  let M := mset M PS_S PS_X (- tx * ionK) in
  let M := mset M PS_S PS_PX (- txp * ionK) in
  let M := mset M PS_S PS_PS (- tzp * ionK / scl) in
  let Nkz := (1 + 2 * eta0 - h) / (2 * (1 + eta0) * (1 + 2 * eta0)) in
  let M := mset M PS_X 6 (dx * (Nk * delta_K + Nkz * delta_KZ)) in
  mset M PS_PX 6 (sx / rho * (Nk * delta_K + Nkz * delta_KZ)).
Lemma ebend_eq L phi fx fy k Kx Ky Es g e h dK dKZ iK :
  ebend_matrix L phi fx fy k Kx Ky Es g e h dK dKZ iK mid =
  mmul 7 (eedge_matrix fx fy k) (mmul 7 (ebend_core L phi Kx Ky Es g e h dK dKZ iK) (eedge_matrix fx fy k)).
Proof. reflexivity. Qed.
(** For a particle like the reference particle: a flow, at a pace of [g / (1 + g)]. *)
Lemma core_flow L phi Kx Ky Es g iK : L <> 0 -> phi <> 0 -> 0 < Kx -> 1 < g -> Es <> 0 ->
  let b := (1 - 1 / (g * g)) * g * (Es / MeVtoeV) in
  meq 7 (ebend_core L phi Kx Ky Es g ((g - 1) / 2) 1 0 0 iK)
        (bend_map Kx Ky (phi / L * (1 + 1 / (g * g))) b 0 0 (g / (1 + g) * iK) g L).
Proof.
  intros HL HP HK HG HE b. unfold ebend_core. cbv zeta.
  destruct (Req_EM_T Kx 0) as [Z|N]; [lra|]. destruct (Rlt_dec 0 Kx) as [P|P]; [|lra].
  rewrite !quad_plane_eq.
  assert (C : plane_cs L Kx = cos (sqrt Kx * L)) by (unfold plane_cs; destruct (Rlt_dec 0 Kx); [reflexivity|lra]).
  assert (SQ : sqrt Kx <> 0) by (apply sqrt_pos_neq; auto).
  assert (SN : plane_sn L Kx = sin (sqrt Kx * L) / sqrt Kx).
  { unfold plane_sn. destruct (Rlt_dec 0 Kx); [|lra]. destruct (Req_EM_T _ 0) as [Q|]; [|reflexivity]. contradiction. }
  rewrite <- C, <- SN.
  assert (E1 : 1 + 2 * ((g - 1) / 2) = g) by field. rewrite E1.
  assert (E2 : 2 * (1 + (g - 1) / 2) = 1 + g) by field. rewrite E2.
  assert (ME : MeVtoeV <> 0) by (unfold MeVtoeV; lra). assert (G2 : g * g - 1 <> 0) by nra.
  intros i j Hi Hj. unfold bend_map, planes, b, sqr.
  generalize (plane_cs L Kx) (plane_sn L Kx) (plane_sp L Kx) (plane_cs L Ky) (plane_sn L Ky) (plane_sp L Ky) MeVtoeV ME. intros cs sn sp cy sy py me ME'.
  clear - HL HP HG HE N ME' G2 Hi Hj.
  idx7 i Hi; idx7 j Hj; look; cbn [blocks]; try reflexivity; try ring; field; repeat split; try assumption; lra.
Qed.
Lemma deflect_flow kx ky h b kphi g : kx <> 0 -> b <> 0 -> g <> 0 ->
  flow7 (deflecting kx ky h b kphi g) (bend_map kx ky (h * (1 + 1 / (g * g))) b 0 0 kphi g).
Proof.
  intros K B G. assert (X := bend_flow kx ky (h * (1 + 1 / (g * g))) b 0 0 kphi g K B G).
  destruct X as [X1 X2]. split; [|exact X2]. intros s i j Hi Hj. eapply dlim_eq; [apply X1; auto|].
  unfold mmul. apply sumn_ext. intros k Hk. f_equal. unfold bending, deflecting. cbv zeta.
  idx7 i Hi; idx7 k Hk; cbv [focusing]; unfold Rdiv; ring.
Qed.

Lemma ver_back u : rolled (PI / 2) u (mapp 7 (mtr ver_rot) u).
Proof. unfold rolled. rewrite cos_PI2, sin_PI2. intros i Hi. unfold mapp, ver_rot, mtr. cbv zeta. cbn [sumn]. idx7 i Hi; look; ring. Qed.
Lemma ver_ahead u : rolled (- (PI / 2)) u (mapp 7 ver_rot u).
Proof.
  unfold rolled. rewrite cos_neg, sin_neg, cos_PI2, sin_PI2. intros i Hi. unfold mapp, ver_rot. cbv zeta. cbn [sumn]. idx7 i Hi; look; ring.
Qed.
Lemma affine_ver' : affine ver_rot /\ affine (mtr ver_rot).
Proof. split; intros j Hj; unfold ver_rot, mtr; cbv zeta; idx7 j Hj; look; reflexivity. Qed.
Lemma affine_eedge fx fy k : affine (eedge_matrix fx fy k).
Proof. intros j Hj. unfold eedge_matrix. cbv zeta. idx7 j Hj; look; reflexivity. Qed.
Lemma affine_core L phi Kx Ky Es g e h dK dKZ iK : affine (ebend_core L phi Kx Ky Es g e h dK dKZ iK).
Proof. intros j Hj. unfold ebend_core. cbv zeta. rewrite !quad_plane_eq. idx7 j Hj; look; reflexivity. Qed.

Section W.
Variable w : world.
Notation num := (w_num w).
Section Element.
Variables (c : tcfg) (ref p : particle) (d : mdata).
Hypotheses (HR : moving ref) (HP : moving p) (HS : md_sh d = sh_at w c) (HD : md_len d = real_at num c "L" 0).
Hypotheses (HM : proper_deflector w c ref).
Lemma fringe_ok k u : symmetric num c -> k = 0 -> fringe num c u (mapp 7 (eedge_matrix (num_def w c "fringe_x" 0 / MtoMM) (num_def w c "fringe_y" 0 / MtoMM) k) u).
Proof.
  intros _ ->. rewrite !real_num. unfold fringe, MtoMM. generalize (real_at num c "fringe_x" 0 / 1000) (real_at num c "fringe_y" 0 / 1000). intros a b.
  intros i Hi. unfold mapp, eedge_matrix. cbv zeta. replace (1 + 0) with 1 by ring. rewrite sqrt_1. cbn [sumn]. idx7 i Hi; look; ring.
Qed.
Lemma sqrt_back : sqrt (1 - sqr (beta_of ref)) = 1 / gamma_of ref.
Proof.
  destruct (moving_facts ref HR) as (G & B & _). unfold beta_of, sqr in *.
  assert (Q : 0 <= 1 - 1 / (gamma_of ref * gamma_of ref)).
  { destruct (Rle_dec 0 (1 - 1 / (gamma_of ref * gamma_of ref))); [assumption|]. rewrite sqrt_neg_0 in B; lra. }
  rewrite sqrt_sqrt by exact Q. replace (1 - (1 - 1 / (gamma_of ref * gamma_of ref))) with ((1 / gamma_of ref) * (1 / gamma_of ref)) by (field; lra).
  apply sqrt_square. apply Rlt_le, Rdiv_lt_0_compat; lra.
Qed.
Lemma beta_back q : moving q -> beta_of q * beta_of q = 1 - 1 / (gamma_of q * gamma_of q).
Proof.
  intros M. destruct (moving_facts q M) as (G & B & _). unfold beta_of in *. apply sqrt_sqrt.
  destruct (Rle_dec 0 (1 - 1 / (gamma_of q * gamma_of q))); [assumption|]. rewrite sqrt_neg_0 in B; lra.
Qed.
(** What the setup computes. *)
Definition core_of (q : particle) : mat :=
  let L := real_at num c "L" 0 * 1000 in let phi := angle_of w c "phi" in
  let Erho := sqr (beta_of q) / p_Z q in let Erho0 := sqr (beta_of ref) / p_Z ref in
  let eL := Erho / Erho0 * L in let rho := eL / phi in
  ebend_core eL phi ((1 - real_at num c "spher" 0 + sqr (gamma_of ref)) / sqr rho) (real_at num c "spher" 0 / sqr rho)
    (p_Es ref) (gamma_of q) ((gamma_of ref - 1) / 2) 1 ((Erho / Erho0 - 1) - (p_Ek q - p_Ek ref) / p_Ek q) (p_Z ref / p_Z q - 1)
    (wavenumber q).
Definition edge_of : mat := eedge_matrix (num_def w c "fringe_x" 0 / MtoMM) (num_def w c "fringe_y" 0 / MtoMM) (real_at num c "asym_fac" 0).
Definition body_of (q : particle) : mat :=
  let B := mmul 7 edge_of (mmul 7 (core_of q) edge_of) in
  if vertical c then mmul 7 (mmul 7 ver_rot B) (mtr ver_rot) else B.
Lemma edipole_setup f T0 T : setup_edipole w d c (recalc ref) = Ok f -> f (recalc p) T0 = (T, None) ->
  misaligned d (recalc ref) (recalc p) (body_of p) = (T, None).
Proof.
  destruct HM as (M1 & M2 & M3 & _). intros H HT. unfold setup_edipole in H.
  destruct (get_num c "ver") as [vd|] eqn:EV; [|discriminate]. cbn [rbind] in H.
  destruct (num_of w c "L") as [l|] eqn:EL; [|discriminate]. cbn [rbind] in H.
  destruct (num_of w c "phi") as [phi|] eqn:Ep; [|discriminate]. cbn [rbind] in H.
  destruct (num_of w c "spher") as [sp|] eqn:Es; [|discriminate]. cbn [rbind] in H.
  destruct (get_flag w c "HdipoleFitMode" 1) as [fit|] eqn:EF; [|discriminate]. cbn [rbind] in H.
  destruct (negb _); [discriminate|]. cbv zeta in H.
  apply (f_equal (fun r => match r with Ok f => f | Throw _ => fun _ M => (M, None) end)) in H. rewrite <- H in HT. cbv beta zeta in HT. clear H.
  apply num_of_at in EL as [EL _]. apply num_of_at in Ep as [Ep _]. apply num_of_at in Es as [Es _].
  assert (EB : (if N.eqb fit 0 then num_def w c "beta" (p_beta (recalc ref)) else p_beta (recalc ref)) = beta_of ref).
  { rewrite real_num, (recalc_beta ref HR). destruct (N.eqb_spec fit 0) as [E|E]; [|reflexivity].
    apply (M3 fit); [apply get_flag_ok; [reflexivity|exact EF]|exact E]. }
  rewrite EB in HT. clear EB.
  rewrite sqrt_back in HT. rewrite <- EL, <- Ep, <- Es in HT.
  destruct (Req_EM_T (real_at num c "L" 0 * MtoMM) 0) as [Z|_]; [exfalso; unfold MtoMM in Z; lra|].
  rewrite (recalc_beta p HP), (recalc_gamma p HP), recalc_lambda, !real_num in HT. cbn [recalc p_Z p_Ek p_Es] in HT.
  assert (V : vertical c = deq vd done).
  { unfold vertical, num_at. unfold get_num in EV. destruct (tfind "ver" c) as [[]|]; try discriminate. injection EV as ->. reflexivity. }
  assert (G : 1 / (1 / gamma_of ref) = gamma_of ref) by (destruct (moving_facts ref HR) as (G & _); field; lra). rewrite G in HT. clear G.
  replace (1 + 2 * ((gamma_of ref - 1) / 2)) with (gamma_of ref) in HT by field.
  rewrite <- HT. unfold body_of, core_of, edge_of. rewrite V, !real_num. cbv zeta. unfold MtoMM, wavenumber. rewrite ebend_eq. reflexivity.
Qed.
Lemma affine_body q : affine (body_of q).
Proof.
  unfold body_of. cbv zeta. assert (X : affine (mmul 7 edge_of (mmul 7 (core_of q) edge_of))).
  { apply affine_mul; [apply affine_eedge|]. apply affine_mul; [apply affine_core|apply affine_eedge]. }
  destruct (vertical c); [|exact X]. destruct affine_ver'. apply affine_mul; [apply affine_mul|]; auto.
Qed.
Lemma angle_nz : angle_of w c "phi" <> 0.
Proof. destruct HM as (_ & M2 & _). unfold angle_of. assert (P := PI_RGT_0). intros Z. apply M2. apply (Rmult_eq_reg_r (PI / 180)); lra. Qed.
Lemma alike_facts : alike ref p -> gamma_of p = gamma_of ref /\ beta_of p = beta_of ref.
Proof. intros (A1 & A2 & _). assert (E : gamma_of p = gamma_of ref) by (unfold gamma_of; congruence). split; [exact E|]. unfold beta_of. rewrite E. reflexivity. Qed.
Lemma core_alike : alike ref p ->
  let L := real_at num c "L" 0 * 1000 in let h := angle_of w c "phi" / L in let g := gamma_of p in
  meq 7 (core_of p) (bend_map ((1 - real_at num c "spher" 0 + g * g) * (h * h)) (real_at num c "spher" 0 * (h * h)) (h * (1 + 1 / (g * g)))
     (beta_of p * beta_of p * g * (p_Es ref / 1000000)) 0 0 (g / (1 + g) * wavenumber p) g L).
Proof.
  intros A. destruct (alike_facts A) as [E1 E2]. destruct A as (A1 & A2 & A3 & A4). assert (PN := angle_nz). destruct HM as (M1 & _ & _ & M4).
  intros L h g. unfold core_of. cbv zeta. fold L. rewrite E2, A2, A3.
  destruct (moving_facts ref HR) as (G & B & _). assert (Z : p_Z ref <> 0) by apply HR. assert (E0 := proj1 HR). assert (K0 := proj1 (proj2 HR)).
  assert (L0 : L <> 0) by (unfold L; lra).
  replace (sqr (beta_of ref) / p_Z ref / (sqr (beta_of ref) / p_Z ref)) with 1 by (unfold sqr; field; split; lra).
  replace (1 * L) with L by ring. replace (1 - 1 - (p_Ek ref - p_Ek ref) / p_Ek ref) with 0 by (field; lra).
  replace (p_Z ref / p_Z ref - 1) with 0 by (field; auto).
  set (phi := angle_of w c "phi") in *.
  replace ((1 - real_at num c "spher" 0 + sqr (gamma_of ref)) / sqr (L / phi)) with ((1 - real_at num c "spher" 0 + g * g) * (h * h))
    by (unfold sqr, g, h; rewrite E1; field; auto).
  replace (real_at num c "spher" 0 / sqr (L / phi)) with (real_at num c "spher" 0 * (h * h)) by (unfold sqr, h; field; auto).
  assert (HN : h <> 0) by (unfold h; apply Rmult_integral_contrapositive_currified; [exact PN|apply Rinv_neq_0_compat; auto]).
  assert (X := core_flow L phi ((1 - real_at num c "spher" 0 + g * g) * (h * h)) (real_at num c "spher" 0 * (h * h)) (p_Es ref) (gamma_of ref) (wavenumber p)).
  rewrite <- E1 at 1. fold g. unfold g in *. rewrite E1 in *. cbv zeta in X.
  replace (beta_of ref * beta_of ref) with (1 - 1 / (gamma_of ref * gamma_of ref)) by (symmetry; apply (beta_back ref HR)).
  apply X; auto; try lra. apply Rmult_lt_0_compat; [exact M4|]. assert (Q := Rsqr_pos_lt h HN). exact Q.
Qed.
Lemma tip_do a l B M : does l B -> (vertical c = true -> forall u, rolled a u (mapp 7 M u)) ->
  does (l ++ tip a c) (if vertical c then mmul 7 M B else B).
Proof.
  intros H HV. unfold tip. destruct (vertical c); [|rewrite app_nil_r; exact H]. apply does_app; [exact H|]. apply does_via. auto.
Qed.
Lemma edipole_goes f T0 T : alike ref p -> symmetric num c -> setup_edipole w d c (recalc ref) = Ok f -> f (recalc p) T0 = (T, None) ->
  let g := gamma_of p in
  forall u, unit_last u -> passes (deflector w c ref p (1 - real_at num c "spher" 0 + g * g) (g / (1 + g))) u (mapp 7 T u).
Proof.
  intros A SY H HT g. assert (X := edipole_setup f T0 T H HT). intros u Hu. unfold deflector. cbv zeta.
  assert (C := core_alike A). cbv zeta in C. fold g in C.
  assert (PN := angle_nz). destruct HM as (M1 & _ & _ & M4). destruct (alike_facts A) as [E1 E2].
  set (L := real_at num c "L" 0 * 1000) in *. set (h := angle_of w c "phi" / L) in *. assert (L0 : L <> 0) by (unfold L; lra).
  assert (HN : h <> 0) by (unfold h; apply Rmult_integral_contrapositive_currified; [exact PN|apply Rinv_neq_0_compat; auto]).
  destruct (moving_facts p HP) as (G & B & _).
  assert (D : does [Via (fringe num c);
     Along (deflecting ((1 - real_at num c "spher" 0 + g * g) * (h * h)) (real_at num c "spher" 0 * (h * h)) h
       (beta_of p * beta_of p * gamma_of p * (p_Es ref / 1000000)) (g / (1 + g) * wavenumber p) (gamma_of p)) L;
     Via (fringe num c)] (mmul 7 edge_of (mmul 7 (core_of p) edge_of))).
  { assert (FR : does [Via (fringe num c)] edge_of) by (apply does_via; intros v; apply fringe_ok; auto).
    match goal with |- does [?a; ?b; ?e] _ => change [a; b; e] with (([a] ++ [b]) ++ [e]) end.
    apply does_app; [|exact FR]. apply does_app; [exact FR|].
    eapply does_flow; [apply deflect_flow|exact C].
    - unfold g. rewrite E1. apply Rmult_integral_contrapositive_currified; [lra|]. apply Rmult_integral_contrapositive_currified; auto.
    - assert (E0 := proj1 HR). apply Rmult_integral_contrapositive_currified; [|lra]. nra.
    - lra. }
  assert (D2 : does (tip (PI / 2) c ++ [Via (fringe num c);
     Along (deflecting ((1 - real_at num c "spher" 0 + g * g) * (h * h)) (real_at num c "spher" 0 * (h * h)) h
       (beta_of p * beta_of p * gamma_of p * (p_Es ref / 1000000)) (g / (1 + g) * wavenumber p) (gamma_of p)) L;
     Via (fringe num c)] ++ tip (- (PI / 2)) c) (body_of p)).
  { unfold body_of, tip. cbv zeta. destruct (vertical c).
    - apply does_app; [apply does_via; apply ver_back|].
      apply does_app; [exact D|]. apply does_via. apply ver_ahead.
    - rewrite app_nil_r. exact D. }
  exact (inside_ok w c (real_at num c "L" 0) ref p d _ (body_of p) T HP (proj1 HR) HS HD X (affine_body p) D2 u Hu).
Qed.
End Element.
End W.
