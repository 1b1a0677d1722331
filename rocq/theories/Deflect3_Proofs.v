(** Electrostatic dipoles: examples, and what is wrong. *)
From Coq Require Import Reals List String Bool NArith ZArith Arith Lia Lra.
From Verif Require Import SMap SMap_Proofs Dbl Config_Spec Mat Mat_Proofs Minv Minv_Proofs Machine_Model Machine_Spec Machine_Proofs
  Machine2_Proofs Linear_Model Linear_Spec Linear_Proofs Linear2_Proofs Linear3_Proofs.
From Verif Require Import Moment_Model Moment_Spec Motion_Spec Moment_Proofs Moment2_Proofs Moment3_Proofs Moment4_Proofs
  Moment5_Proofs Moment6_Proofs Motion_Proofs Motion2_Proofs Motion3_Proofs Motion4_Proofs Motion5_Proofs
  Frame_Spec Frame_Proofs Area_Spec Area_Proofs Line_Proofs Line2_Proofs Deflect_Spec Deflect_Proofs Deflect2_Proofs.
Import ListNotations.
Open Scope R_scope.
Open Scope string_scope.
Open Scope list_scope.

(** Cylinders of 1 m, bending by one degree. *)
Definition plates (k ver : double) : tcfg :=
  TCfg [("L", TNum done); ("asym_fac", TNum k); ("name", TStr "e"); ("phi", TNum done); ("spher", TNum dzero); ("type", TStr "edipole"); ("ver", TNum ver)] [].
Notation ion := (ms_ref (state0 2)).
Lemma ion_gamma : gamma_of ion = 1 + 1 / 931. Proof. unfold gamma_of. cbn. field. Qed.
Lemma plates_proper a k ver : proper_deflector (world0 nums a) (plates k ver) ion.
Proof.
  unfold proper_deflector. cbn [w_num world0]. change (real_at nums (plates k ver) "L" 0) with 1. change (real_at nums (plates k ver) "phi" 0) with 1.
  change (real_at nums (plates k ver) "spher" 0) with 0. split; [lra|]. split; [lra|]. split.
  - intros fit F E. unfold flagged in F. cbn in F. congruence.
  - rewrite ion_gamma. lra.
Qed.
Lemma plates_pass a k ver : exists f, goes_through (world0 nums a) (plates k ver) (state0 2) f.
Proof.
  destruct state2 as (A & B & C). eapply (edipole_passes (world0 nums a) (plates k ver) (state0 2) (mconf [plates k ver])); auto; try reflexivity; try apply world0_sane.
  - unfold strips_to_some. discriminate.
  - repeat (apply Forall_cons; [discriminate|]). apply Forall_nil.
Qed.
Lemma ion_there : nth_error (ms_real (state0 2)) 1 = Some ion. Proof. reflexivity. Qed.
Lemma ion_alike : alike ion ion. Proof. repeat split. Qed.
Lemma plates_facing k ver : facing nums (plates k ver). Proof. split; reflexivity. Qed.
Lemma plates_symmetric ver : symmetric nums (plates dzero ver). Proof. reflexivity. Qed.

(** ** Without misalignment and fringe fields *)
Section Peel.
Variables (w : world) (c : tcfg) (ref p : particle).
Notation num := (w_num w).
Hypotheses (HP : moving p) (HE : 0 < p_Es ref) (HF : facing num c) (HR : real_at num c "roll" 0 = 0) (HX : real_at num c "dx" 0 = 0)
  (HY : real_at num c "dy" 0 = 0).
Lemma peel_frame z u v : framed num c z ref p u v -> veq 7 v u.
Proof.
  intros H. apply facing_framed in H; auto. cbv zeta in H. rewrite HR, HX, HY, cos_0, sin_0 in H.
  destruct H as (E0 & E2 & E1 & E3 & E4 & E5 & E6). intros i Hi. idx7 i Hi; lra.
Qed.
Lemma peel l u u' : passes (Via (framed num c (- (real_at num c "L" 0 * 1000) / 2) ref p) :: l ++ [Via (fun u v => framed num c (real_at num c "L" 0 * 1000 / 2) ref p v u)]) u u' ->
  exists u1 u2, veq 7 u1 u /\ passes l u1 u2 /\ veq 7 u2 u'.
Proof.
  intros (u1 & F1 & P). apply peel_frame in F1. exists u1.
  assert (X : forall l u1, passes (l ++ [Via (fun u v => framed num c (real_at num c "L" 0 * 1000 / 2) ref p v u)]) u1 u' ->
    exists u2, passes l u1 u2 /\ veq 7 u2 u').
  { clear P F1 u1 l. intros l. induction l as [|[A len|r] l IH]; intros v P.
    - cbn [app passes] in P. destruct P as (u2 & F2 & P). exists v. split; [cbn [passes]; reflexivity|]. apply peel_frame in F2. rewrite F2. exact P.
    - cbn [app passes] in P. destruct P as (x & v1 & M1 & S1 & E1 & P). destruct (IH _ P) as (u2 & Q & E). exists u2. split; [|exact E].
      cbn [passes]. exists x, v1. auto.
    - cbn [app passes] in P. destruct P as (v1 & R1 & P). destruct (IH _ P) as (u2 & Q & E). exists u2. split; [|exact E].
      cbn [passes]. exists v1. auto. }
  destruct (X l u1 P) as (u2 & Q & E). exists u2. auto.
Qed.
Hypotheses (HV : vertical c = false) (HFX : real_at num c "fringe_x" 0 = 0) (HFY : real_at num c "fringe_y" 0 = 0).
Lemma no_fringe u u' : fringe num c u u' -> veq 7 u' u.
Proof. unfold fringe. rewrite HFX, HFY. intros H i Hi. rewrite (H i Hi). idx7 i Hi; lra. Qed.
Lemma peel_deflector kx pace u u' : kx <> 0 -> real_at num c "L" 0 <> 0 -> real_at num c "phi" 0 <> 0 -> passes (deflector w c ref p kx pace) u u' ->
  let L := real_at num c "L" 0 * 1000 in let h := angle_of w c "phi" / L in let g := gamma_of p in
  veq 7 u' (mapp 7 (bend_map (kx * (h * h)) (real_at num c "spher" 0 * (h * h)) (h * (1 + 1 / (g * g)))
     (beta_of p * beta_of p * g * (p_Es ref / 1000000)) 0 0 (pace * wavenumber p) g L) u).
Proof.
  intros HK HL HPh H L h g. unfold deflector in H. cbv zeta in H. apply peel in H as (u1 & u2 & E1 & H & E2).
  unfold tip in H. rewrite HV in H. cbn [app] in H. destruct H as (v1 & F1 & H). apply no_fringe in F1.
  destruct H as (x & v2 & M & S & X & H). destruct H as (v3 & F2 & H). cbn [passes] in H. apply no_fringe in F2.
  destruct (moving_facts p HP) as (G & B & _).
  assert (L0 : L <> 0) by (unfold L; lra).
  assert (HN : h <> 0).
  { unfold h, angle_of. pose proof PI_RGT_0. apply Rmult_integral_contrapositive_currified; [|apply Rinv_neq_0_compat; auto].
    intros Z. apply HPh. apply (Rmult_eq_reg_r (PI / 180)); lra. }
  destruct (flow_moves _ _ v1 (deflect_flow (kx * (h * h)) (real_at num c "spher" 0 * (h * h)) h (beta_of p * beta_of p * g * (p_Es ref / 1000000)) (pace * wavenumber p) g
    ltac:(apply Rmult_integral_contrapositive_currified; [auto|]; apply Rmult_integral_contrapositive_currified; auto)
    ltac:(apply Rmult_integral_contrapositive_currified; [|lra]; unfold g; nra) ltac:(unfold g; lra))) as [M' S'].
  assert (U := motion_unique 7 _ _ _ M M' ltac:(rewrite S, S'; reflexivity) L).
  rewrite <- E2, <- H, F2, <- X. unfold L in *. rewrite U. rewrite F1, E1. reflexivity.
Qed.
End Peel.

(** ** The example *)
Definition bv (i : nat) : vec := fun j => if Nat.eqb j 6 then 1 else if Nat.eqb j i then 1 else 0.
Lemma bv_last i : unit_last (bv i). Proof. reflexivity. Qed.
Definition ang : R := PI / 180.
Lemma ang_pos : 0 < ang < 1.
Proof. unfold ang. pose proof PI_RGT_0. pose proof PI_4. lra. Qed.
Notation hh := (ang / 1000).
Lemma sqrt_kx k : 0 <= k -> sqrt (k * (hh * hh)) * 1000 = sqrt k * ang.
Proof.
  intros H. destruct ang_pos as [A _]. rewrite sqrt_mult, sqrt_square; [field|lra|exact H|]. assert (0 < hh) by lra. nra.
Qed.
Lemma gg : 1 < gamma_of ion * gamma_of ion < 2. Proof. rewrite ion_gamma. split; lra. Qed.
Lemma small k : 0 < k < 4 -> 0 < sqrt k * ang < PI.
Proof.
  intros [H1 H2]. destruct ang_pos as [A _]. assert (S := sqrt_lt_R0 k H1). assert (S2 : sqrt k < 2).
  { rewrite <- (sqrt_square 2) by lra. apply sqrt_lt_1; lra. }
  assert (P := PI_RGT_0). unfold ang in *. nra.
Qed.
Lemma cs_small k : 0 < k < 4 -> plane_cs 1000 (k * (hh * hh)) = cos (sqrt k * ang).
Proof.
  intros H. destruct ang_pos as [A _]. assert (0 < hh) by lra. unfold plane_cs. destruct (Rlt_dec _ _) as [_|N]; [|exfalso; apply N; apply Rmult_lt_0_compat; nra].
  rewrite sqrt_kx by lra. reflexivity.
Qed.
Lemma sn_small k : 0 < k < 4 -> plane_sn 1000 (k * (hh * hh)) <> 0.
Proof.
  intros H. destruct ang_pos as [A _]. assert (0 < hh) by lra. assert (K : 0 < k * (hh * hh)) by (apply Rmult_lt_0_compat; nra).
  unfold plane_sn. destruct (Rlt_dec _ _) as [_|N]; [|contradiction]. destruct (Req_EM_T _ _) as [Z|NZ]; [exfalso; eapply sqrt_pos_neq; eauto|].
  rewrite sqrt_kx by lra. destruct (small k H) as [S1 S2]. assert (S := sin_gt_0 _ S1 S2).
  apply Rmult_integral_contrapositive_currified; [lra|apply Rinv_neq_0_compat; exact NZ].
Qed.
Section Wrong.
Variable a : bool.
Notation w := (world0 nums a).
Notation ec := (plates dzero dzero).
Variable f : mstate.
Hypothesis G : goes_through w ec (state0 2) f.
Notation g := (gamma_of ion).
Notation bb := (beta_of ion * beta_of ion * g * (p_Es ion / 1000000)).
Definition way (kx pace : R) : mat := bend_map (kx * (hh * hh)) (0 * (hh * hh)) (hh * (1 + 1 / (g * g))) bb 0 0 (pace * wavenumber ion) g 1000.
Lemma way_of T kx pace : kx <> 0 -> (forall u, unit_last u -> passes (deflector w ec ion ion kx pace) u (mapp 7 T u)) ->
  forall u, unit_last u -> veq 7 (mapp 7 T u) (mapp 7 (way kx pace) u).
Proof.
  intros HK H u Hu. destruct state2 as (_ & B & _).
  assert (X := peel_deflector w ec ion ion B (proj1 B) (plates_facing dzero dzero) eq_refl eq_refl eq_refl eq_refl eq_refl eq_refl kx pace u _ HK
    R1_neq_R0 R1_neq_R0 (H u Hu)).
  cbv zeta in X. unfold angle_of in X. cbn [w_num world0] in X. change (real_at nums ec "L" 0) with 1 in X. change (real_at nums ec "phi" 0) with 1 in X.
  change (real_at nums ec "spher" 0) with 0 in X. rewrite X. unfold way. rewrite !Rmult_1_l. reflexivity.
Qed.
Lemma the_way : exists T, nth_error (ms_tm f) 1 = Some T /\ forall u, unit_last u -> veq 7 (mapp 7 T u) (mapp 7 (way (1 + g * g) (g / (1 + g))) u).
Proof.
  destruct state2 as (_ & B & C).
  destruct (electric_motion w ec (state0 2) f (world0_sane nums a) G eq_refl B C (plates_proper a dzero dzero) eq_refl 1 ion eq_refl ion_alike) as (T & T1 & T2).
  exists T. split; [exact T1|]. cbv zeta in T2. cbn [w_num world0] in T2. change (real_at nums ec "spher" 0) with 0 in T2. rewrite Rminus_0_r in T2.
  apply way_of; [|exact T2]. assert (Q := gg). lra.
Qed.
Lemma column T M i j : (i < 7)%nat -> (j < 6)%nat -> (forall u, unit_last u -> veq 7 (mapp 7 T u) (mapp 7 M u)) -> T i j = M i j.
Proof.
  intros Hi Hj H. assert (A := H (bv j) (bv_last j) i Hi). assert (B := H (bv 7) (bv_last 7) i Hi).
  unfold mapp, bv in A, B. cbn [sumn Nat.eqb] in A, B. destruct j as [|[|[|[|[|[|j]]]]]]; try lia; cbn [Nat.eqb] in A; lra.
Qed.
Lemma bb_pos : 0 < bb.
Proof. destruct state2 as (_ & B & _). apply (b_pos ion ion B (proj1 B)). Qed.
Lemma pace_wrong : g / (1 + g) <> 1.
Proof. rewrite ion_gamma. intros H. apply (Rmult_eq_compat_r (1 + (1 + 1 / 931))) in H. unfold Rdiv in H at 1. rewrite Rmult_assoc, Rinv_l in H; lra. Qed.
Lemma HH_pos : 0 < hh * (1 + 1 / (g * g)).
Proof.
  destruct ang_pos as [A _]. assert (Q := gg). apply Rmult_lt_0_compat; [lra|]. assert (0 < 1 / (g * g)); [|lra]. apply Rdiv_lt_0_compat; lra.
Qed.
Lemma ion_wave : 0 < wavenumber ion. Proof. destruct state2 as (_ & B & _). apply (k_pos ion B). Qed.
Lemma pace_refuted T : nth_error (ms_tm f) 1 = Some T ->
  forall kx, 0 < kx -> ~ (forall u, unit_last u -> passes (deflector w ec ion ion kx 1) u (mapp 7 T u)).
Proof.
  intros HT kx HK H. destruct the_way as (T' & T1 & T2). assert (T' = T) by congruence. subst T'.
  assert (T3 := way_of T kx 1 ltac:(lra) H).
  assert (A := column T _ 1 5 ltac:(lia) ltac:(lia) T2). assert (A' := column T _ 1 5 ltac:(lia) ltac:(lia) T3).
  assert (C := column T _ 4 0 ltac:(lia) ltac:(lia) T2). assert (C' := column T _ 4 0 ltac:(lia) ltac:(lia) T3).
  unfold way, bend_map in A, A', C, C'. assert (HB := bb_pos). assert (PW := pace_wrong). assert (HP := HH_pos). assert (W := ion_wave).
  assert (Q := gg). assert (S := sn_small (1 + g * g) ltac:(lra)).
  set (s1 := plane_sn 1000 ((1 + g * g) * (hh * hh))) in *. set (s2 := plane_sn 1000 (kx * (hh * hh))) in *.
  set (H0 := hh * (1 + 1 / (g * g))) in *. set (b := bb) in *. set (k := wavenumber ion) in *. set (r := g / (1 + g)) in *.
  assert (E : s1 = s2).
  { assert (X : H0 * s1 / b = H0 * s2 / b) by congruence. apply (Rmult_eq_compat_r (b / H0)) in X.
    replace (H0 * s1 / b * (b / H0)) with s1 in X by (field; split; lra). replace (H0 * s2 / b * (b / H0)) with s2 in X by (field; split; lra). exact X. }
  rewrite E in *. apply PW. assert (X : r * k * H0 * s2 = 1 * k * H0 * s2) by congruence.
  apply (Rmult_eq_reg_r (k * H0 * s2)); [lra|]. apply Rmult_integral_contrapositive_currified; [|exact S]. apply Rmult_integral_contrapositive_currified; lra.
Qed.
Lemma focus_refuted T : nth_error (ms_tm f) 1 = Some T ->
  forall pace, ~ (forall u, unit_last u -> passes (deflector w ec ion ion (field_focus nums ec ion) pace) u (mapp 7 T u)).
Proof.
  intros HT pace H. destruct the_way as (T' & T1 & T2). assert (T' = T) by congruence. subst T'.
  assert (EF : field_focus nums ec ion = 1 + 1 / (g * g)) by (unfold field_focus; change (real_at nums ec "spher" 0) with 0; ring).
  rewrite EF in H. assert (Q := gg). assert (I1 : 0 < 1 / (g * g)) by (apply Rdiv_lt_0_compat; lra).
  assert (I2 : 1 / (g * g) < 1).
  { apply (Rmult_lt_reg_r (g * g)); [lra|]. unfold Rdiv. rewrite Rmult_assoc, Rinv_l by lra. lra. }
  assert (T3 := way_of T (1 + 1 / (g * g)) pace ltac:(lra) H).
  assert (A := column T _ 0 0 ltac:(lia) ltac:(lia) T2). assert (A' := column T _ 0 0 ltac:(lia) ltac:(lia) T3).
  unfold way, bend_map, planes in A, A'. cbn [blocks] in A, A'. rewrite cs_small in A, A' by lra.
  destruct (small (1 + g * g) ltac:(lra)) as [X1 X2]. destruct (small (1 + 1 / (g * g)) ltac:(lra)) as [Y1 Y2].
  destruct ang_pos as [AP _].
  assert (L : sqrt (1 + 1 / (g * g)) * ang < sqrt (1 + g * g) * ang) by (apply Rmult_lt_compat_r; [exact AP|apply sqrt_lt_1; lra]).
  assert (Z := cos_decreasing_1 _ _ (Rlt_le _ _ Y1) (Rlt_le _ _ Y2) (Rlt_le _ _ X1) (Rlt_le _ _ X2) L). lra.
Qed.
Lemma phase_refuted T : nth_error (ms_tm f) 1 = Some T -> ~ keeps_areas (canonical ion ion) T.
Proof.
  intros HT H. destruct the_way as (T' & T1 & T2). assert (T' = T) by congruence. subst T'.
  specialize (H (bv 7) (bv 0) (bv 5) (bv_last 7) (bv_last 0) (bv_last 5)).
  assert (E : area (canonical ion ion) (mapp 7 T (bv 7)) (mapp 7 T (bv 0)) (mapp 7 T (bv 5)) =
              area (canonical ion ion) (mapp 7 (way (1 + g * g) (g / (1 + g))) (bv 7)) (mapp 7 (way (1 + g * g) (g / (1 + g))) (bv 0)) (mapp 7 (way (1 + g * g) (g / (1 + g))) (bv 5))).
  { rewrite !area_form. apply form_ext; apply minus_veq; apply T2; apply bv_last. }
  rewrite E in H. clear E T2.
  assert (HB := bb_pos). assert (PW := pace_wrong). assert (HP := HH_pos). assert (W := ion_wave).
  assert (Q := gg). assert (S := sn_small (1 + g * g) ltac:(lra)).
  assert (KX : (1 + g * g) * (hh * hh) <> 0). { destruct ang_pos as [AP _]. assert (0 < hh) by lra. apply Rmult_integral_contrapositive_currified; nra. }
  unfold area, canonical, momentum_unit, way, bend_map, planes, mapp, bv in H. cbn [sumn Nat.eqb blocks] in H. rewrite sp_sn in H.
  set (s1 := plane_sn 1000 ((1 + g * g) * (hh * hh))) in *. set (c1 := plane_cs 1000 ((1 + g * g) * (hh * hh))) in *.
  set (kx := (1 + g * g) * (hh * hh)) in *.
  set (H0 := hh * (1 + 1 / (g * g))) in *. set (b := bb) in *. set (k := wavenumber ion) in *. set (r := g / (1 + g)) in *.
  assert (X : H0 * s1 / b * (1 - r) = 0).
  { etransitivity; [|etransitivity; [exact H|]]; field; repeat split; try assumption; try lra; rewrite ion_gamma; lra. }
  apply Rmult_integral in X as [X|X]; [|lra]. assert (Y : H0 * s1 / b <> 0); [|contradiction].
  apply Rmult_integral_contrapositive_currified; [|apply Rinv_neq_0_compat; lra]. apply Rmult_integral_contrapositive_currified; lra.
Qed.
End Wrong.

(** ** Asymmetric electrodes *)
Section Asym.
Variable a : bool.
Notation w := (world0 nums a).
Notation ec := (plates done dzero).
Variable f : mstate.
Hypothesis G : goes_through w ec (state0 2) f.
Lemma core_plain L phi Kx Ky Es g e h dK dKZ iK u : u 2%nat = 0 -> u 3%nat = 0 -> u 5%nat = 0 -> u 6%nat = 0 ->
  let v := mapp 7 (ebend_core L phi Kx Ky Es g e h dK dKZ iK) u in
  v 0%nat = plane_cs L Kx * u 0%nat + plane_sn L Kx * u 1%nat /\ v 1%nat = plane_sp L Kx * u 0%nat + plane_cs L Kx * u 1%nat /\
  v 2%nat = 0 /\ v 3%nat = 0 /\ v 5%nat = 0 /\ v 6%nat = 0.
Proof.
  intros U2 U3 U5 U6. unfold ebend_core. cbv zeta. rewrite !quad_plane_eq.
    match goal with |- context [mset ?M PS_PX 6 ?x] => generalize x end. intros x1.
    match goal with |- context [mset ?M PS_X 6 ?x] => generalize x end. intros x2.
    match goal with |- context [mset ?M PS_S PS_PS ?x] => generalize x end. intros x3.
    match goal with |- context [mset ?M PS_S PS_PX ?x] => generalize x end. intros x4.
    match goal with |- context [mset ?M PS_S PS_X ?x] => generalize x end. intros x5.
    match goal with |- context [mset ?M PS_PX PS_PS ?x] => generalize x end. intros x6.
    match goal with |- context [mset ?M PS_X PS_PS ?x] => generalize x end. intros x7.
  unfold mapp. cbn [sumn]. cbv [mset mid PS_X PS_PX PS_Y PS_PY PS_S PS_PS Nat.eqb andb Nat.add]. rewrite U2, U3, U5, U6. repeat split; ring.
Qed.
Lemma edge_plain u : u 2%nat = 0 -> u 3%nat = 0 -> u 5%nat = 0 -> u 6%nat = 0 ->
  let v := mapp 7 (edge_of w ec) u in
  v 0%nat = u 0%nat /\ v 1%nat = sqrt 2 * u 1%nat /\ v 2%nat = 0 /\ v 3%nat = 0 /\ v 5%nat = 0 /\ v 6%nat = 0.
Proof.
  intros U2 U3 U5 U6. unfold edge_of. change (real_at (w_num w) ec "asym_fac" 0) with 1. change (num_def w ec "fringe_x" 0) with 0.
  change (num_def w ec "fringe_y" 0) with 0. unfold eedge_matrix. cbv zeta. replace (1 + 1) with 2 by ring.
  unfold mapp. cbn [sumn]. cbv [mset mid PS_X PS_PX PS_Y PS_PY PS_S PS_PS Nat.eqb andb Nat.add]. rewrite U2, U3, U5, U6. unfold Rdiv. repeat split; ring.
Qed.
Lemma asym_refuted T : nth_error (ms_tm f) 1 = Some T -> ~ keeps_transverse_areas T.
Proof.
  intros HT H. destruct state2 as (_ & HR & HRs).
  destruct (edipole_step w ec (state0 2) f (world0_sane nums a) G eq_refl) as (d & g & HC & A & S1 & S2).
  destruct (S2 1%nat ion eq_refl) as (T' & T1 & T2). assert (T' = T) by congruence. subst T'.
  destruct (ctor_data w _ _ _ HC) as (C1 & C2 & C3).
  assert (X := edipole_setup w ec ion ion d HR HR (plates_proper a done dzero) g mid T S1 T2).
  assert (P := inside_ok w ec (real_at nums ec "L" 0) ion ion d [thru (body_of w ec ion ion)] (body_of w ec ion ion) T HR (proj1 HR) C2 C3 X
    (affine_body w ec ion ion) (does_thru _)).
  assert (Q : forall u, unit_last u -> veq 7 (mapp 7 T u) (mapp 7 (body_of w ec ion ion) u)).
  { intros u Hu. specialize (P u Hu).
    apply (peel w ec ion ion HR (proj1 HR) (plates_facing done dzero) eq_refl eq_refl eq_refl) in P as (u1 & u2 & E1 & (v & V & E) & E2).
    cbn [passes] in E. unfold thru in V. rewrite <- E2, <- E, V, E1. reflexivity. }
  specialize (H (bv 7) (bv 0) (bv 1) (bv_last 7) (bv_last 0) (bv_last 1) eq_refl eq_refl). rewrite !area_form in H.
  set (B := body_of w ec ion ion) in *.
  assert (D : forall i, veq 7 (vminus (mapp 7 T (bv i)) (mapp 7 T (bv 7))) (mapp 7 B (vminus (bv i) (bv 7)))).
  { intros i j Hj. rewrite mapp_minus. unfold vminus. rewrite !Q by (auto; apply bv_last). reflexivity. }
  rewrite (form_ext _ _ _ _ _ (D 0%nat) (D 1%nat)) in H. clear D P Q X S1 S2 T1 T2 HT HC C1 C2 C3.
  unfold B, body_of in H. change (vertical ec) with false in H. cbv zeta iota in H. clear B.
  set (E := edge_of w ec) in *. set (C := core_of w ec ion ion) in *.
  set (a0 := vminus (bv 0) (bv 7)) in *. set (a1 := vminus (bv 1) (bv 7)) in *.
  assert (Z : forall u v, veq 7 u v -> forall i, (i < 7)%nat -> u i = v i) by auto.
  assert (HC2 : exists cs sn sp, cs * cs - sn * sp = 1 /\ forall u, u 2%nat = 0 -> u 3%nat = 0 -> u 5%nat = 0 -> u 6%nat = 0 ->
     let v := mapp 7 C u in v 0%nat = cs * u 0%nat + sn * u 1%nat /\ v 1%nat = sp * u 0%nat + cs * u 1%nat /\ v 2%nat = 0 /\ v 3%nat = 0 /\ v 5%nat = 0 /\ v 6%nat = 0).
  { unfold C, core_of. cbv zeta. eexists _, _, _. split; [|intros u U2 U3 U5 U6; apply core_plain; auto]. apply plane_det. }
  destruct HC2 as (cs & sn & sp & DET & HC).
  assert (F : forall u, u 2%nat = 0 -> u 3%nat = 0 -> u 5%nat = 0 -> u 6%nat = 0 -> let v := mapp 7 (mmul 7 E (mmul 7 C E)) u in
    v 0%nat = cs * u 0%nat + sn * (sqrt 2 * u 1%nat) /\ v 1%nat = sqrt 2 * (sp * u 0%nat + cs * (sqrt 2 * u 1%nat)) /\ v 2%nat = 0 /\ v 3%nat = 0).
  { intros u U2 U3 U5 U6 v. assert (V : veq 7 v (mapp 7 E (mapp 7 C (mapp 7 E u)))) by (unfold v; rewrite !mapp_mmul; reflexivity).
    rewrite !(Z _ _ V) by lia. destruct (edge_plain u U2 U3 U5 U6) as (X0 & X1 & X2 & X3 & X5 & X6).
    destruct (HC _ X2 X3 X5 X6) as (Y0 & Y1 & Y2 & Y3 & Y5 & Y6). destruct (edge_plain _ Y2 Y3 Y5 Y6) as (W0 & W1 & W2 & W3 & _).
    fold E in W0, W1, W2, W3, X0, X1, Y0, Y1. rewrite W0, W1, W2, W3, Y0, Y1, X0, X1. auto. }
  destruct (F a0) as (P0 & P1 & P2 & P3); try (unfold a0, vminus, bv; cbn [Nat.eqb]; ring).
  destruct (F a1) as (Q0 & Q1 & Q2 & Q3); try (unfold a1, vminus, bv; cbn [Nat.eqb]; ring).
  unfold form in H. rewrite P0, P1, P2, P3, Q0, Q1, Q2, Q3 in H. unfold a0, a1, vminus, bv in H. cbn [Nat.eqb] in H.
  assert (S := sqrt_sqrt 2 ltac:(lra)). assert (2 * (cs * cs - sn * sp) = 1); [|lra].
  rewrite <- S. etransitivity; [|etransitivity; [exact H|]]; ring.
Qed.
End Asym.
