(** A sector magnet that defocuses in its plane. *)
From Coq Require Import Reals List String Bool NArith ZArith Arith Lia Lra.
From Verif Require Import SMap SMap_Proofs Dbl Config_Spec Mat Mat_Proofs Minv Minv_Proofs Machine_Model Machine_Spec Machine_Proofs
  Machine2_Proofs Linear_Model Linear_Spec Linear_Proofs Linear2_Proofs Linear3_Proofs.
From Verif Require Import Moment_Model Moment_Spec Motion_Spec Moment_Proofs Moment2_Proofs Moment3_Proofs Moment4_Proofs
  Moment5_Proofs Moment6_Proofs Motion_Proofs Motion2_Proofs Motion3_Proofs Motion4_Proofs Motion5_Proofs
  Frame_Spec Frame_Proofs Area_Spec Area_Proofs Line_Proofs Line2_Proofs Deflect_Spec Deflect_Proofs Deflect2_Proofs Deflect3_Proofs.
Import ListNotations.
Open Scope R_scope.
Open Scope string_scope.
Open Scope list_scope.

Definition dminus : double := d_of_Z (-1).
Definition nums2 (d : double) : R := if deq d done then 1 else if deq d dminus then -1 else 0.
Definition loose : tcfg :=
  TCfg [("K", TNum dminus); ("L", TNum done); ("name", TStr "b"); ("phi", TNum done); ("phi1", TNum dzero); ("phi2", TNum dzero); ("type", TStr "sbend")] [].
Section Loose.
Variable a : bool.
Notation w := (world0 nums2 a).
Notation ec := loose.
Lemma loose_passes : exists f, goes_through w ec (state0 2) f.
Proof.
  destruct state2 as (A & HR & HRs).
  assert (X : exists m, new_machine (moment_reg w) (mconf [ec]) = Ok m /\ Forall strips_to_some [ec] /\ described ec /\ equipped w ec).
  { eexists. split; [reflexivity|]. split; [repeat constructor; unfold strips_to_some; discriminate|].
    split; [apply Exists_exists; exists "sbend"; split; [cbn; tauto|reflexivity]|].
    split; [discriminate|]. split; [discriminate|]. split; [discriminate|]. split; [|discriminate]. intros _. split; [repeat constructor; discriminate|].
    intros fit F E. unfold flagged in F. cbn in F. congruence. }
  destruct X as (m & X1 & X3 & X4 & X5).
  destruct (moment_completes w false (mconf [ec]) m [ec] [] 0 ec (mkSt 0 false (state0 2))
    (world0_sane nums2 a) X1 eq_refl X3 I eq_refl X4 X5 ltac:(discriminate) A HR HRs) as (p & f & P1 & P2).
  exists (st_body f), (mconf [ec]), m, [ec], [], 0%nat, (mkSt 0 false (state0 2)), p, f.
  split; [exact X1|]. split; [reflexivity|]. split; [exact X3|]. split; [exact I|]. split; [reflexivity|]. split; [reflexivity|]. split; [exact A|].
  split; [exact P1|]. split; [exact P2|reflexivity].
Qed.
Lemma loose_step f : goes_through w ec (state0 2) f ->
  exists d g, mom_ctor w KSBend ec = Ok d /\ setup_sbend w d ec (recalc ion) = Ok g /\
  exists T, nth_error (ms_tm f) 1 = Some T /\ g (recalc ion) mid = (T, None).
Proof.
  intros (c & m & es & us & i & st & p & st' & G1 & G3 & G4 & G5 & G6 & G7 & A & HP & HF & G11). subst f.
  rewrite <- G7 in A.
  destruct (one_step w false c m es us i ec st p 1 (world0_sane nums2 a) G1 G3 G4 G5 G6 A eq_refl HP) as (k & d0 & Hk' & HC & HE).
  assert (K : k = KSBend).
  { assert (E := is_a_inj _ _ _ Hk' (eq_refl : is_a "sbend" ec)). destruct k; cbn [mkind_name] in E; try discriminate. reflexivity. }
  subst k. rewrite HF in HE. symmetry in HE. apply rbind_ok in HE as (s' & HA & HE). injection HE as <-. cbn [st_body].
  destruct (ctor_data w _ _ _ HC) as (C1 & C2 & C3). assert (F := ctor_fresh w _ _ _ HC).
  destruct (advance_of w KSBend ec d0 false (st_body st)) as [d' r] eqn:EA. cbn [snd] in HA. subst r. cbn [advance_of] in EA.
  rewrite G7 in *.
  destruct (sbend_does w ec d0 false (state0 2) d' s' F C1 A EA) as (g & S1 & _ & _ & _ & S2).
  exists d0, g. split; [exact HC|]. split; [exact S1|].
  destruct A as (A1 & A2 & A3 & A4). assert (Hj := nth_lt _ _ _ ion_there).
  destruct (nth_ex (ms_m0 (state0 2)) 1 _ A2 Hj) as [v Hv]. destruct (nth_ex (ms_m1 (state0 2)) 1 _ A3 Hj) as [S Hs].
  destruct (S2 1%nat ion v S ion_there Hv Hs) as (T & X & T1 & T2 & T3 & T4 & T5). unfold applied in T2. subst X. exists T. auto.
Qed.
Definition lk : R := - 1 / 1000000 + hh * hh.
Lemma lk_neg : lk < 0.
Proof. unfold lk. destruct ang_pos as [A B]. nra. Qed.
Lemma sinh_above x : 0 < x -> x < sinh x.
Proof.
  intros H. destruct (MVT_cor2 sinh cosh 0 x H) as (c & E & C1 & C2); [intros; apply derivable_pt_lim_sinh|].
  rewrite sinh_0' in E. assert (P : 0 < cosh c) by (unfold cosh; pose proof (exp_pos c); pose proof (exp_pos (- c)); lra).
  assert (Q := cosh_sinh_1 c). assert (N : 0 < sinh c).
  { unfold sinh. assert (exp (- c) < exp c) by (apply exp_increasing; lra). lra. }
  assert (1 < cosh c) by nra. nra.
Qed.
(** The matrix without its edges. *)
Definition loose_body (K Es g qm be gd d kd : R) : mat := sbend_matrix 1000 ang 0 0 K Es g qm be gd d kd mid.
Lemma affine_loose K Es g qm be gd d kd : affine (loose_body K Es g qm be gd d kd).
Proof.
  unfold loose_body, sbend_matrix. cbv zeta. apply affine_mul; [apply affine_edge|]. apply affine_mul; [|apply affine_edge].
  intros j Hj. rewrite !quad_plane_eq. idx7 j Hj; look; reflexivity.
Qed.
Lemma plain_edges (M : mat) rho i j : (i < 7)%nat -> (j < 7)%nat -> mmul 7 (edge_matrix rho 0) (mmul 7 M (edge_matrix rho 0)) i j = M i j.
Proof.
  intros Hi Hj. unfold edge_matrix. rewrite tan_0. unfold Rdiv. rewrite Ropp_0, Rmult_0_l. unfold mmul. cbn [sumn].
  idx7 i Hi; idx7 j Hj; look; ring.
Qed.
Lemma loose_entry Es g qm be gd d kd : loose_body (- 1 / 1000000) Es g qm be gd d kd 1%nat 5%nat =
  sin (sqrt (- lk) * 1000) / (1000 / ang * sqrt (- lk)) / (be * be * gd * Es / 1000000).
Proof.
  unfold loose_body, sbend_matrix. cbv zeta. change msize with 7%nat. rewrite plain_edges by lia. unfold mset at 1 2 3 4 5 6.
  change (Nat.eqb 1 PS_PX) with true. change (Nat.eqb 1 PS_S) with false. change (Nat.eqb 1 PS_X) with false. change (Nat.eqb 5 6) with false. change (Nat.eqb 5 PS_PS) with true. cbn [andb].
  destruct ang_pos as [A _].
  assert (E : - 1 / 1000000 + 1 / sqr (1000 / ang) = lk) by (unfold lk, sqr; field; lra). rewrite E. assert (N := lk_neg).
  destruct (Req_EM_T lk 0); [lra|]. destruct (Rlt_dec 0 lk); [lra|]. unfold sqr, MeVtoeV. reflexivity.
Qed.
Lemma defocus_refuted f T legs : goes_through w ec (state0 2) f -> nth_error (ms_tm f) 1 = Some T -> course w ec ion ion legs ->
  ~ (forall u, unit_last u -> passes legs u (mapp 7 T u)).
Proof.
  intros G HT HC P. destruct state2 as (_ & HR & _). destruct (loose_step f G) as (d & g & HCt & S1 & T' & T1 & T2).
  assert (T' = T) by congruence. subst T'. clear HT T1.
  destruct (ctor_data w _ _ _ HCt) as (C1 & C2 & C3). assert (HF := ctor_fit w _ _ HCt).
  assert (FC : facing nums2 ec) by (split; reflexivity).
  (* the code *)
  assert (EB : exists qm d0 kd, misaligned d (recalc ion) (recalc ion)
     (loose_body (- 1 / 1000000) (p_Es ion) (p_gamma (recalc ion)) qm (p_beta (recalc ion)) (p_gamma (recalc ion)) d0 kd) = (T, None)).
  { unfold setup_sbend in S1.
    destruct (num_of w ec "L") as [l|] eqn:EL; [|discriminate]. cbn [rbind] in S1.
    destruct (num_of w ec "phi") as [phi|] eqn:Ep; [|discriminate]. cbn [rbind] in S1.
    destruct (num_of w ec "phi1") as [phi1|] eqn:Ep1; [|discriminate]. cbn [rbind] in S1.
    destruct (num_of w ec "phi2") as [phi2|] eqn:Ep2; [|discriminate]. cbn [rbind] in S1.
    apply (f_equal (fun r => match r with Ok f => f | Throw _ => fun _ M => (M, None) end)) in S1. rewrite <- S1 in T2. cbv beta zeta in T2. clear S1.
    apply num_of_at in EL as [EL _]. apply num_of_at in Ep as [Ep _]. apply num_of_at in Ep1 as [Ep1 _]. apply num_of_at in Ep2 as [Ep2 _].
    rewrite real_num in T2. rewrite <- EL, <- Ep, <- Ep1, <- Ep2 in T2. cbn [w_num world0] in T2.
    change (real_at nums2 ec "L" 0) with 1 in T2. change (real_at nums2 ec "phi" 0) with 1 in T2. change (real_at nums2 ec "phi1" 0) with 0 in T2.
    change (real_at nums2 ec "phi2" 0) with 0 in T2. change (real_at nums2 ec "K" 0) with (-1) in T2.
    replace (1 * MtoMM) with 1000 in T2 by (unfold MtoMM; ring). destruct (Req_EM_T 1000 0) as [Z|_]; [lra|].
    replace (sqr MtoMM) with 1000000 in T2 by (unfold sqr, MtoMM; ring).
    replace (1 * PI / 180) with ang in T2 by (unfold ang; lra). replace (0 * PI / 180) with 0 in T2 by lra.
    destruct (N.eqb (md_fit d) 0) eqn:EF.
    { apply N.eqb_eq in EF. rewrite EF in HF. unfold flagged in HF. cbn in HF. congruence. }
    eexists _, _, _. exact T2. }
  destruct EB as (qm & d0 & kd & EB). clear S1 T2 g.
  set (B := loose_body _ _ _ _ _ _ _ _) in EB.
  assert (PB := inside_ok w ec (real_at nums2 ec "L" 0) ion ion d [thru B] B T HR (proj1 HR) C2 C3 EB (affine_loose _ _ _ _ _ _ _ _) (does_thru _)).
  assert (Q : forall u, unit_last u -> veq 7 (mapp 7 T u) (mapp 7 B u)).
  { intros u Hu. specialize (PB u Hu).
    apply (peel w ec ion ion HR (proj1 HR) FC eq_refl eq_refl eq_refl) in PB as (u1 & u2 & E1 & (v & V & E) & E2).
    cbn [passes] in E. unfold thru in V. rewrite <- E2, <- E, V, E1. reflexivity. }
  (* the motion *)
  destruct HC as [K|K|l K F|l K F|l K F|K|fit K F|l M K F G']; try (destruct K as [K|K]); try (discriminate K).
  assert (EF : N.eqb fit 0 = false). { destruct (N.eqb fit 0) eqn:Z; auto. apply N.eqb_eq in Z. subst fit. unfold flagged in F. cbn in F. congruence. }
  rewrite EF in P. cbn [w_num world0] in P. change (real_at nums2 ec "L" 0) with 1 in P. destruct (Req_EM_T (1 * 1000) 0) as [Z|_]; [lra|].
  assert (W : exists d1 d2 k, forall u, unit_last u -> veq 7 (mapp 7 T u) (mapp 7 (bend_map lk (1 / 1000000) hh
     (beta_of ion * beta_of ion * gamma_of ion * (p_Es ion / 1000000)) d1 d2 k (gamma_of ion) 1000) u)).
  { destruct (moving_facts ion HR) as (GF & BF & _). eexists _, _, _. intros u Hu. specialize (P u Hu).
    change 1 with (real_at (w_num w) ec "L" 0) in P at 1 2.
    apply (peel w ec ion ion HR (proj1 HR) FC eq_refl eq_refl eq_refl) in P as (u1 & u2 & E1 & P & E2).
    unfold sector in P. destruct P as (v1 & F1 & P). destruct P as (x & v2 & M & S & X & P). destruct P as (v3 & F3 & P). cbn [passes] in P.
    assert (N1 : veq 7 v1 u1).
    { intros i Hi. rewrite (F1 i Hi). unfold angle_of. change (real_at (w_num w) ec "phi1" 0) with 0. replace (0 * PI / 180) with 0 by lra. rewrite tan_0. idx7 i Hi; lra. }
    assert (N3 : veq 7 v3 v2).
    { intros i Hi. rewrite (F3 i Hi). unfold angle_of. change (real_at (w_num w) ec "phi2" 0) with 0. replace (0 * PI / 180) with 0 by lra. rewrite tan_0. idx7 i Hi; lra. }
    assert (EH : angle_of w ec "phi" / (real_at (w_num w) ec "L" 0 * 1000) = hh).
    { unfold angle_of. change (real_at (w_num w) ec "L" 0) with 1. change (real_at (w_num w) ec "phi" 0) with 1. unfold ang. field. }
    rewrite EH in M. change (real_at (w_num w) ec "K" 0) with (-1) in M. change (real_at (w_num w) ec "L" 0) with 1 in X.
    assert (EK : -1 / 1000000 + hh * hh = lk) by (unfold lk; lra). rewrite EK in M.
    assert (EK2 : - (-1 / 1000000) = 1 / 1000000) by lra. rewrite EK2 in M.
    replace (sqrt (1 - 1 / (gamma_of ion * gamma_of ion))) with (beta_of ion) in M by reflexivity.
    assert (N := lk_neg).
    match type of M with moves (bending _ _ _ _ ?d1 ?d2 ?k _) _ => 
      destruct (flow_moves _ _ v1 (bend_flow lk (1 / 1000000) hh (beta_of ion * beta_of ion * gamma_of ion * (p_Es ion / 1000000)) d1 d2 k (gamma_of ion)
        ltac:(lra) ltac:(apply Rgt_not_eq; apply bb_pos) ltac:(lra))) as [M' S'] end.
    assert (U := motion_unique 7 _ _ _ M M' ltac:(rewrite S, S'; reflexivity) 1000).
    rewrite <- E2, <- P, N3, <- X, Rmult_1_l, U, N1, E1. reflexivity. }
  destruct W as (d1 & d2 & k & W). assert (X := column T _ 1 5 ltac:(lia) ltac:(lia) Q). assert (Y := column T _ 1 5 ltac:(lia) ltac:(lia) W).
  unfold B in X. rewrite loose_entry in X. unfold bend_map in Y. rewrite X in Y. clear X P Q W PB EB B T.
  rewrite (recalc_gamma ion HR), (recalc_beta ion HR) in Y. assert (HB := bb_pos).
  replace (beta_of ion * beta_of ion * gamma_of ion * p_Es ion / 1000000) with (beta_of ion * beta_of ion * gamma_of ion * (p_Es ion / 1000000)) in Y by (unfold Rdiv; ring).
  set (b := beta_of ion * beta_of ion * gamma_of ion * (p_Es ion / 1000000)) in *.
  assert (N := lk_neg). unfold plane_sn in Y. destruct (Rlt_dec 0 lk); [lra|]. destruct (Rlt_dec lk 0) as [_|]; [|lra].
  assert (R := sqrt_lt_R0 (- lk) ltac:(lra)). destruct (Req_EM_T (sqrt (- lk)) 0); [lra|].
  set (r := sqrt (- lk)) in *. destruct ang_pos as [A1 A2].
  assert (Z : sin (r * 1000) = sinh (r * 1000)).
  { apply (Rmult_eq_compat_r (b * (1000 / ang) * r)) in Y.
    etransitivity; [|etransitivity; [exact Y|]]; field; repeat split; lra. }
  assert (Z1 := sinh_above (r * 1000) ltac:(lra)). assert (Z2 := sin_lt_x (r * 1000) ltac:(lra)). lra.
Qed.
End Loose.

(** ** Examples and witnesses *)
Lemma tm_there a k ver f : goes_through (world0 nums a) (plates k ver) (state0 2) f -> exists T, nth_error (ms_tm f) 1 = Some T.
Proof.
  intros G. destruct (edipole_step (world0 nums a) _ _ _ (world0_sane nums a) G eq_refl) as (d & g & _ & _ & _ & S2).
  destruct (S2 1%nat ion ion_there) as (T & T1 & _). eauto.
Qed.
Lemma electric_example a : exists f,
  let ec := plates dzero done in
  sane (world0 nums a) /\ goes_through (world0 nums a) ec (state0 2) f /\ is_a "edipole" ec /\
  moving (ms_ref (state0 2)) /\ Forall moving (ms_real (state0 2)) /\ proper_deflector (world0 nums a) ec (ms_ref (state0 2)) /\ symmetric nums ec /\
  vertical ec = true /\ nth_error (ms_real (state0 2)) 1 = Some (ms_ref (state0 2)) /\ alike (ms_ref (state0 2)) (ms_ref (state0 2)).
Proof.
  destruct (plates_pass a dzero done) as [f G]. destruct state2 as (_ & HR & HRs). exists f. cbv zeta.
  split; [apply world0_sane|]. split; [exact G|]. split; [reflexivity|]. split; [exact HR|]. split; [exact HRs|]. split; [apply plates_proper|].
  split; [reflexivity|]. split; [reflexivity|]. split; [reflexivity|apply ion_alike].
Qed.
Lemma electric_areas_example a : exists f,
  let ec := plates dzero done in
  sane (world0 nums a) /\ goes_through (world0 nums a) ec (state0 2) f /\ is_a "edipole" ec /\
  moving (ms_ref (state0 2)) /\ Forall moving (ms_real (state0 2)) /\ proper_deflector (world0 nums a) ec (ms_ref (state0 2)) /\ symmetric nums ec /\
  facing nums ec /\ exists q, nth_error (ms_real (state0 2)) 1 = Some q.
Proof.
  destruct (plates_pass a dzero done) as [f G]. destruct state2 as (_ & HR & HRs). exists f. cbv zeta.
  split; [apply world0_sane|]. split; [exact G|]. split; [reflexivity|]. split; [exact HR|]. split; [exact HRs|]. split; [apply plates_proper|].
  split; [reflexivity|]. split; [apply plates_facing|]. eexists. apply ion_there.
Qed.
Lemma C49_electric_dipole_phase_refuted_w : exists w ec s f q T, sane w /\ goes_through w ec s f /\ is_a "edipole" ec /\
  moving (ms_ref s) /\ Forall moving (ms_real s) /\ proper_deflector w ec (ms_ref s) /\ symmetric (w_num w) ec /\
  nth_error (ms_real s) 1 = Some q /\ alike (ms_ref s) q /\ nth_error (ms_tm f) 1 = Some T /\
  forall kx, 0 < kx -> ~ (forall u, unit_last u -> passes (deflector w ec (ms_ref s) q kx 1) u (mapp 7 T u)).
Proof.
  destruct (plates_pass false dzero dzero) as [f G]. destruct state2 as (_ & HR & HRs). destruct (tm_there _ _ _ _ G) as [T HT].
  exists (world0 nums false), (plates dzero dzero), (state0 2), f, ion, T.
  split; [apply world0_sane|]. split; [exact G|]. split; [reflexivity|]. split; [exact HR|]. split; [exact HRs|]. split; [apply plates_proper|].
  split; [reflexivity|]. split; [reflexivity|]. split; [apply ion_alike|]. split; [exact HT|]. apply (pace_refuted false f G T HT).
Qed.
Lemma C49_electric_dipole_focusing_refuted_w : exists w ec s f q T, sane w /\ goes_through w ec s f /\ is_a "edipole" ec /\
  moving (ms_ref s) /\ Forall moving (ms_real s) /\ proper_deflector w ec (ms_ref s) /\ symmetric (w_num w) ec /\
  nth_error (ms_real s) 1 = Some q /\ alike (ms_ref s) q /\ nth_error (ms_tm f) 1 = Some T /\
  forall pace, ~ (forall u, unit_last u -> passes (deflector w ec (ms_ref s) q (field_focus (w_num w) ec q) pace) u (mapp 7 T u)).
Proof.
  destruct (plates_pass false dzero dzero) as [f G]. destruct state2 as (_ & HR & HRs). destruct (tm_there _ _ _ _ G) as [T HT].
  exists (world0 nums false), (plates dzero dzero), (state0 2), f, ion, T.
  split; [apply world0_sane|]. split; [exact G|]. split; [reflexivity|]. split; [exact HR|]. split; [exact HRs|]. split; [apply plates_proper|].
  split; [reflexivity|]. split; [reflexivity|]. split; [apply ion_alike|]. split; [exact HT|]. apply (focus_refuted false f G T HT).
Qed.
Lemma C49_defocusing_bend_refuted_w : exists w ec s f q T legs, sane w /\ goes_through w ec s f /\ is_a "sbend" ec /\
  real_at (w_num w) ec "L" 0 <> 0 /\ real_at (w_num w) ec "phi" 0 <> 0 /\
  moving (ms_ref s) /\ Forall moving (ms_real s) /\
  nth_error (ms_real s) 1 = Some q /\ nth_error (ms_tm f) 1 = Some T /\ course w ec (ms_ref s) q legs /\
  ~ (forall u, unit_last u -> passes legs u (mapp 7 T u)).
Proof.
  destruct (loose_passes false) as [f G]. destruct state2 as (_ & HR & HRs). destruct (loose_step false f G) as (d & g & HC & _ & T & HT & _).
  assert (C := c_bend (world0 nums2 false) loose ion ion (md_fit d) eq_refl (ctor_fit _ _ _ HC)).
  exists (world0 nums2 false), loose, (state0 2), f, ion, T. eexists.
  split; [apply world0_sane|]. split; [exact G|]. split; [reflexivity|]. split; [exact R1_neq_R0|]. split; [exact R1_neq_R0|].
  split; [exact HR|]. split; [exact HRs|]. split; [reflexivity|]. split; [exact HT|]. split; [exact C|].
  exact (defocus_refuted false f T _ G HT C).
Qed.
Lemma C28_electric_dipole_refuted_w : exists w ec s f q T, sane w /\ goes_through w ec s f /\ is_a "edipole" ec /\
  moving (ms_ref s) /\ Forall moving (ms_real s) /\ proper_deflector w ec (ms_ref s) /\ facing (w_num w) ec /\
  nth_error (ms_real s) 1 = Some q /\ alike (ms_ref s) q /\ nth_error (ms_tm f) 1 = Some T /\ ~ keeps_transverse_areas T.
Proof.
  destruct (plates_pass false done dzero) as [f G]. destruct state2 as (_ & HR & HRs). destruct (tm_there _ _ _ _ G) as [T HT].
  exists (world0 nums false), (plates done dzero), (state0 2), f, ion, T.
  split; [apply world0_sane|]. split; [exact G|]. split; [reflexivity|]. split; [exact HR|]. split; [exact HRs|]. split; [apply plates_proper|].
  split; [apply plates_facing|]. split; [reflexivity|]. split; [apply ion_alike|]. split; [exact HT|]. apply (asym_refuted false f G T HT).
Qed.
Lemma C28_electric_dipole_phase_refuted_w : exists w ec s f q T, sane w /\ goes_through w ec s f /\ is_a "edipole" ec /\
  moving (ms_ref s) /\ Forall moving (ms_real s) /\ proper_deflector w ec (ms_ref s) /\ symmetric (w_num w) ec /\ facing (w_num w) ec /\
  nth_error (ms_real s) 1 = Some q /\ alike (ms_ref s) q /\ nth_error (ms_tm f) 1 = Some T /\ ~ keeps_areas (canonical (ms_ref s) q) T.
Proof.
  destruct (plates_pass false dzero dzero) as [f G]. destruct state2 as (_ & HR & HRs). destruct (tm_there _ _ _ _ G) as [T HT].
  exists (world0 nums false), (plates dzero dzero), (state0 2), f, ion, T.
  split; [apply world0_sane|]. split; [exact G|]. split; [reflexivity|]. split; [exact HR|]. split; [exact HRs|]. split; [apply plates_proper|].
  split; [reflexivity|]. split; [apply plates_facing|]. split; [reflexivity|]. split; [apply ion_alike|]. split; [exact HT|]. apply (phase_refuted false f G T HT).
Qed.
