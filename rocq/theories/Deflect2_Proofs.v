(** Electrostatic dipoles in a machine: motion, areas, and what is wrong. *)
From Coq Require Import Reals List String Bool NArith ZArith Arith Lia Lra.
From Verif Require Import SMap SMap_Proofs Dbl Config_Spec Mat Mat_Proofs Minv Minv_Proofs Machine_Model Machine_Spec Machine_Proofs
  Machine2_Proofs Linear_Model Linear_Spec Linear_Proofs Linear2_Proofs Linear3_Proofs.
From Verif Require Import Moment_Model Moment_Spec Motion_Spec Moment_Proofs Moment2_Proofs Moment3_Proofs Moment4_Proofs
  Moment5_Proofs Moment6_Proofs Motion_Proofs Motion2_Proofs Motion3_Proofs Motion4_Proofs Motion5_Proofs
  Frame_Spec Frame_Proofs Area_Spec Area_Proofs Line_Proofs Deflect_Spec Deflect_Proofs.
Import ListNotations.
Open Scope R_scope.
Open Scope string_scope.
Open Scope list_scope.

Section W.
Variable w : world.
Notation num := (w_num w).
Lemma edipole_step ec s f : sane w -> goes_through w ec s f -> is_a "edipole" ec ->
  exists d g, mom_ctor w KEDipole ec = Ok d /\ aligned s /\ setup_edipole w d ec (recalc (ms_ref s)) = Ok g /\
  forall j q, nth_error (ms_real s) j = Some q -> exists T, nth_error (ms_tm f) j = Some T /\ g (recalc q) mid = (T, None).
Proof.
  intros W (c & m & es & us & i & st & p & st' & G1 & G3 & G4 & G5 & G6 & G7 & A & HP & HF & G11) Hk. subst s f.
  destruct (one_step w false c m es us i ec st p 1 W G1 G3 G4 G5 G6 A eq_refl HP) as (k & d0 & Hk' & HC & HE).
  assert (K : k = KEDipole).
  { assert (E := is_a_inj _ _ _ Hk' Hk). destruct k; cbn [mkind_name] in E; try discriminate. reflexivity. }
  subst k. rewrite HF in HE. symmetry in HE. apply rbind_ok in HE as (s' & HA & HE). injection HE as <-. cbn [st_body].
  destruct (ctor_data w _ _ _ HC) as (C1 & C2 & C3). assert (F := ctor_fresh w _ _ _ HC).
  destruct (advance_of w KEDipole ec d0 false (st_body st)) as [d' r] eqn:EA. cbn [snd] in HA. subst r. cbn [advance_of] in EA.
  destruct (base_does w KEDipole ec d0 false (st_body st) d' s' F C1 A EA) as (g & S1 & _ & _ & _ & S2).
  exists d0, g. split; [exact HC|]. split; [exact A|]. split; [exact S1|]. intros j q Hq.
  destruct A as (A1 & A2 & A3 & A4). assert (Hj := nth_lt _ _ _ Hq).
  destruct (nth_ex (ms_m0 (st_body st)) j _ A2 Hj) as [v Hv]. destruct (nth_ex (ms_m1 (st_body st)) j _ A3 Hj) as [S Hs].
  destruct (S2 j q v S Hq Hv Hs) as (T & X & T1 & T2 & T3 & T4 & T5). unfold applied in T2. subst X. exists T. auto.
Qed.
Theorem electric_motion ec s f : sane w -> goes_through w ec s f -> is_a "edipole" ec ->
  moving (ms_ref s) -> Forall moving (ms_real s) -> proper_deflector w ec (ms_ref s) -> symmetric num ec ->
  forall j q, nth_error (ms_real s) j = Some q -> alike (ms_ref s) q ->
  exists T, nth_error (ms_tm f) j = Some T /\
  let g := gamma_of q in
  forall u, unit_last u -> passes (deflector w ec (ms_ref s) q (1 - real_at num ec "spher" 0 + g * g) (g / (1 + g))) u (mapp 7 T u).
Proof.
  intros W G Hk HR HRs HPD SY j q Hq AL. destruct (edipole_step ec s f W G Hk) as (d & g & HC & A & S1 & S2).
  destruct (S2 j q Hq) as (T & T1 & T2). exists T. split; [exact T1|].
  destruct (ctor_data w _ _ _ HC) as (C1 & C2 & C3).
  assert (MQ : moving q) by (rewrite Forall_forall in HRs; apply HRs; apply nth_error_In in Hq; exact Hq).
  exact (edipole_goes w ec (ms_ref s) q d HR MQ C2 C3 HPD g mid T AL SY S1 T2).
Qed.

(** ** Areas *)
Definition thru (B : mat) : leg := Via (fun u u' => veq 7 u' (mapp 7 B u)).
Lemma thru_mul c fl A B : keeps c fl (thru A) -> keeps c fl (thru B) -> keeps c fl (thru (mmul 7 A B)).
Proof.
  intros KA KB e u0 u1 u2 v0 v1 v2 R0 R1 R2 HI.
  assert (X : forall u, veq 7 (mapp 7 A (mapp 7 B u)) (mapp 7 (mmul 7 A B) u)) by (intros u; symmetry; apply (mapp_mmul 7)).
  refine (Inv_veq _ _ _ _ _ _ _ _ _ (veq_sym 7 _ _ R0) (veq_sym 7 _ _ R1) (veq_sym 7 _ _ R2) _).
  refine (Inv_veq _ _ _ _ _ _ _ _ _ (X u0) (X u1) (X u2) _).
  refine (KA e (mapp 7 B u0) (mapp 7 B u1) (mapp 7 B u2) _ _ _ _ _ _ _); try reflexivity.
  refine (KB e u0 u1 u2 _ _ _ _ _ _ HI); reflexivity.
Qed.
(** A matrix whose differences act on the transverse planes only keeps their areas. *)
Lemma thru_keeps B : affine B -> (forall j, (j < 5)%nat -> B 5%nat j = 0) ->
  (forall a b : vec, a 5%nat = 0 -> a 6%nat = 0 -> b 5%nat = 0 -> b 6%nat = 0 -> form 0 (mapp 7 B a) (mapp 7 B b) = form 0 a b) ->
  keeps 0 true (thru B).
Proof.
  intros AB B5 HB e u0 u1 u2 v0 v1 v2 R0 R1 R2 HI.
  refine (Inv_veq _ _ _ _ _ _ _ _ _ (veq_sym 7 _ _ R0) (veq_sym 7 _ _ R1) (veq_sym 7 _ _ R2) _).
  destruct HI as (U0 & U1 & U2 & F & E). unfold unit_last in *. destruct (F eq_refl) as [F1 F2].
  assert (L : forall u, mapp 7 B u 6%nat = u 6%nat) by (intros; apply last_one; auto).
  assert (M5 : forall u, mapp 7 B u 5%nat = B 5%nat 5%nat * u 5%nat + B 5%nat 6%nat * u 6%nat).
  { intros u. unfold mapp. cbn [sumn]. rewrite !B5 by lia. ring. }
  repeat split; unfold unit_last; rewrite ?L; auto.
  - rewrite !M5, F1, U1, U0. reflexivity.
  - rewrite !M5, F2, U2, U0. reflexivity.
  - rewrite <- E, !area_form. rewrite <- (HB (vminus u1 u0) (vminus u2 u0)) by (unfold vminus; lra).
    apply form_ext; intros i Hi; rewrite mapp_minus; reflexivity.
Qed.
Lemma keeps_edge fx fy k : k = 0 -> keeps 0 true (thru (eedge_matrix fx fy k)).
Proof.
  intros ->. apply thru_keeps; [apply affine_eedge|intros j Hj; unfold eedge_matrix; cbv zeta; destruct j as [|[|[|[|[|j]]]]]; [reflexivity..|lia]|].
  intros a b A5 A6 B5 B6. unfold form, mapp, eedge_matrix. cbv zeta. replace (1 + 0) with 1 by ring. rewrite sqrt_1. cbn [sumn].
  cbv [mset mid PS_X PS_PX PS_Y PS_PY PS_S PS_PS Nat.eqb andb]. ring.
Qed.
Lemma keeps_ver : keeps 0 true (thru ver_rot) /\ keeps 0 true (thru (mtr ver_rot)).
Proof.
  destruct affine_ver' as [V1 V2].
  split; (apply thru_keeps; [assumption|intros j Hj; unfold ver_rot, mtr; cbv zeta; destruct j as [|[|[|[|[|j]]]]]; [reflexivity..|lia]|]);
  intros a b A5 A6 B5 B6; unfold form, mapp, ver_rot, mtr; cbv zeta; cbn [sumn];
  cbv [mset mid PS_X PS_PX PS_Y PS_PY PS_S PS_PS Nat.eqb andb]; ring.
Qed.
Lemma keeps_core L phi Kx Ky Es g e h dK dKZ iK : keeps 0 true (thru (ebend_core L phi Kx Ky Es g e h dK dKZ iK)).
Proof.
  apply thru_keeps; [apply affine_core| |].
  - intros j Hj. unfold ebend_core. cbv zeta. rewrite !quad_plane_eq. destruct j as [|[|[|[|[|j]]]]]; [reflexivity..|lia].
  - intros a b A5 A6 B5 B6. unfold ebend_core. cbv zeta. rewrite !quad_plane_eq.
    match goal with |- context [mset ?M PS_PX 6 ?x] => generalize x end. intros x1.
    match goal with |- context [mset ?M PS_X 6 ?x] => generalize x end. intros x2.
    match goal with |- context [mset ?M PS_S PS_PS ?x] => generalize x end. intros x3.
    match goal with |- context [mset ?M PS_S PS_PX ?x] => generalize x end. intros x4.
    match goal with |- context [mset ?M PS_S PS_X ?x] => generalize x end. intros x5.
    match goal with |- context [mset ?M PS_PX PS_PS ?x] => generalize x end. intros x6.
    match goal with |- context [mset ?M PS_X PS_PS ?x] => generalize x end. intros x7.
    assert (DX := plane_det L Kx). assert (DY := plane_det L Ky).
    revert DX DY. generalize (plane_cs L Kx) (plane_sn L Kx) (plane_sp L Kx) (plane_cs L Ky) (plane_sn L Ky) (plane_sp L Ky). intros cs sn sp cy sy py DX DY.
    unfold form, mapp. cbn [sumn]. cbv [mset mid PS_X PS_PX PS_Y PS_PY PS_S PS_PS Nat.eqb andb Nat.add]. rewrite A5, A6, B5, B6.
    transitivity ((cs * cs - sn * sp) * (a 0%nat * b 1%nat - a 1%nat * b 0%nat) + (cy * cy - sy * py) * (a 2%nat * b 3%nat - a 3%nat * b 2%nat)); [ring|rewrite DX, DY; ring].
Qed.
Lemma does_thru B : does [thru B] B.
Proof. apply does_via. intros u. reflexivity. Qed.
Theorem electric_areas ec s f : sane w -> goes_through w ec s f -> is_a "edipole" ec ->
  moving (ms_ref s) -> Forall moving (ms_real s) -> proper_deflector w ec (ms_ref s) -> symmetric num ec -> facing num ec ->
  forall j q, nth_error (ms_real s) j = Some q -> exists T, nth_error (ms_tm f) j = Some T /\ keeps_transverse_areas T.
Proof.
  intros W G Hk HR HRs HPD SY FC j q Hq. destruct (edipole_step ec s f W G Hk) as (d & g & HC & A & S1 & S2).
  destruct (S2 j q Hq) as (T & T1 & T2). exists T. split; [exact T1|].
  destruct (ctor_data w _ _ _ HC) as (C1 & C2 & C3).
  assert (MQ : moving q) by (rewrite Forall_forall in HRs; apply HRs; apply nth_error_In in Hq; exact Hq).
  assert (X := edipole_setup w ec (ms_ref s) q d HR MQ HPD g mid T S1 T2).
  assert (P := inside_ok w ec (real_at num ec "L" 0) (ms_ref s) q d [thru (body_of w ec (ms_ref s) q)] (body_of w ec (ms_ref s) q) T MQ (proj1 HR) C2 C3 X
    (affine_body w ec (ms_ref s) q) (does_thru _)).
  refine (legs_transverse _ T _ P). constructor; [apply facing_keeps; auto; apply HR|]. apply Forall_app. split.
  - constructor; [|constructor]. unfold body_of. cbv zeta.
    assert (E : keeps 0 true (thru (mmul 7 (edge_of w ec) (mmul 7 (core_of w ec (ms_ref s) q) (edge_of w ec))))).
    { apply thru_mul; [apply keeps_edge; exact SY|]. apply thru_mul; [apply keeps_core|apply keeps_edge; exact SY]. }
    destruct (vertical ec); [|exact E]. destruct keeps_ver. apply thru_mul; [apply thru_mul|]; auto.
  - constructor; [|constructor]. apply unfacing_keeps; auto. apply HR.
Qed.
(** The dipole lets every beam pass. *)
Lemma edipole_passes ec s c m : sane w -> new_machine (moment_reg w) c = Ok m -> tfind "elements" c = Some (TCfgs [ec]) -> strips_to_some ec ->
  is_a "edipole" ec -> Forall (fun n => num_at ec n <> None) ["ver"; "L"; "phi"; "spher"] -> tfind "HdipoleFitMode" ec = None ->
  aligned s -> moving (ms_ref s) -> Forall moving (ms_real s) -> exists f, goes_through w ec s f.
Proof.
  intros W Hm He Hss Hk HA HF A HR HRs.
  set (st := mkSt 0 false s).
  destruct (propagates (uses m []) st 0 1%Z) as [p HP]; [discriminate|].
  assert (Hi : nth_error (entries m [ec] []) 0 = Some ec) by reflexivity.
  assert (HQ : Forall strips_to_some [ec]) by (constructor; [exact Hss|constructor]).
  destruct (one_step w false c m [ec] [] 0 ec st p 1 W Hm He HQ I Hi A eq_refl HP) as (k & d0 & Hk' & HC & EE).
  assert (K : k = KEDipole).
  { assert (E := is_a_inj _ _ _ Hk' Hk). destruct k; cbn [mkind_name] in E; try discriminate. reflexivity. }
  subst k.
  assert (X : exists g, setup w KEDipole d0 ec (recalc (ms_ref s)) = Ok g /\ forall q T, moving q -> exists T', g (recalc q) T = (T', None)).
  { cbn [setup]. unfold setup_edipole. assert (N1 := Forall_inv HA). apply Forall_inv_tail in HA. assert (N2 := Forall_inv HA). apply Forall_inv_tail in HA.
    assert (N3 := Forall_inv HA). apply Forall_inv_tail in HA. assert (N4 := Forall_inv HA). cbv beta in N1, N2, N3, N4.
    assert (V : exists x, get_num ec "ver" = Ok x). { unfold num_at in N1. unfold get_num. destruct (tfind "ver" ec) as [[]|]; try congruence. eauto. }
    destruct V as [x ->]. cbn [rbind]. destruct (num_runs w _ _ N2) as [l ->]. cbn [rbind]. destruct (num_runs w _ _ N3) as [a ->]. cbn [rbind].
    destruct (num_runs w _ _ N4) as [b ->]. cbn [rbind]. unfold get_flag, get_num, get_str. rewrite HF. cbn -[mmul ebend_matrix sqrt Rdiv].
    eexists. split; [reflexivity|]. intros q T Hq. cbv zeta. destruct (Req_EM_T _ 0); [eauto|]. apply misaligned_runs; auto. apply HR. }
  destruct X as (g & S1 & S2).
  destruct (advance_runs w false KEDipole ec d0 s g HC) as [s' ES]; auto; [cbn; tauto|discriminate|].
  exists s', c, m, [ec], [], 0%nat, st, p. eexists. split; [exact Hm|]. split; [exact He|]. split; [exact HQ|]. split; [exact I|]. split; [exact Hi|].
  split; [reflexivity|]. split; [exact A|]. split; [exact HP|]. split; [|].
  - rewrite EE. cbn [st_body st]. rewrite ES. cbn [rbind]. reflexivity.
  - reflexivity.
Qed.
End W.
