(** The growth factors, and what a cavity with them does to a beam. *)
From Coq Require Import Reals List String Bool NArith ZArith Arith Lia Lra Psatz.
From Coquelicot Require Import Coquelicot.
From Verif Require Import SMap SMap_Proofs Dbl Config_Spec Mat Mat_Proofs Minv Minv_Proofs Machine_Model Machine_Spec Machine_Proofs
  Machine2_Proofs Machine4_Proofs Linear_Model Linear_Spec Linear_Proofs Linear2_Proofs Linear3_Proofs.
From Verif Require Import Moment_Model Moment_Spec Motion_Spec Round_Spec Moment_Proofs Moment2_Proofs Moment3_Proofs Moment4_Proofs
  Moment5_Proofs Moment6_Proofs Motion_Proofs Motion2_Proofs Motion3_Proofs Motion4_Proofs Motion5_Proofs Round_Proofs Round2_Proofs Round3_Proofs
  Round4_Proofs Round5_Proofs Round6_Proofs Frame_Spec Frame_Proofs.
From Verif Require Import Cavity_Model Cavity_Spec Cavity2_Spec Cavity_Proofs Cavity2_Proofs Cavity3_Proofs Cavity4_Proofs Cavity5_Proofs Cavity6_Proofs.
From Verif Require Import Growth_Spec Growth_Proofs.
Import ListNotations.
Open Scope R_scope.
Open Scope string_scope.
Open Scope list_scope.

Lemma voltage_eq cv ref a b : voltage cv ref a b =
  (if Rlt_dec (- 0.0001) (cos (cv_phi cv)) then if Rlt_dec (cos (cv_phi cv)) 0.0001 then 0 else (p_W b - p_W a) / cos (cv_phi cv) / p_Z ref
   else (p_W b - p_W a) / cos (cv_phi cv) / p_Z ref).
Proof.
  unfold voltage. set (c := cos (cv_phi cv)).
  assert (E : (p_W b - p_W a) / (p_Z ref * c) = (p_W b - p_W a) / c / p_Z ref) by (unfold Rdiv; rewrite Rinv_mult; ring).
  destruct (Rlt_dec (-1 / 10000) c), (Rlt_dec (- 0.0001) c); try (exfalso; lra); [|exact E].
  destruct (Rlt_dec c (1 / 10000)), (Rlt_dec c 0.0001); try (exfalso; lra); [reflexivity|exact E].
Qed.
Lemma wave_eq cv : wave_length cv = cav_lambda cv.
Proof. unfold wave_length, cav_lambda, C0, MtoMM. unfold Rdiv. ring. Qed.
Lemma grow_root m d g : 0 < m -> 0 <= d -> g = (if Rlt_dec 0 (d + m) then sqrt ((d + m) / m) else 1) -> 1 <= g /\ g ^ 2 * m = m + d.
Proof.
  intros M Dp ->. destruct (Rlt_dec 0 (d + m)) as [L|L]; [|exfalso; lra].
  assert (X : 1 <= (d + m) / m). { unfold Rdiv. rewrite Rmult_plus_distr_r, Rinv_r by lra. pose proof (Rinv_0_lt_compat _ M). nra. }
  split; [rewrite <- sqrt_1; apply sqrt_le_1_alt; exact X|]. replace (sqrt ((d + m) / m) ^ 2) with ((d + m) / m); [field; lra|].
  cbn [pow]. rewrite Rmult_1_r, sqrt_sqrt by lra. reflexivity.
Qed.
Lemma growth_ok cv ref a b m x2 xc y2 yc gx gy gz :
  growth_factors cv ref a b m (x2, xc, y2, yc) = (gx, gy, gz) ->
  let D := sqrt (m 4%nat 4%nat) in 0 < m 4%nat 4%nat ->
  (0 < m 1%nat 1%nat -> 0 <= x2 -> 1 <= gx /\ gx ^ 2 * m 1%nat 1%nat = m 1%nat 1%nat + added cv ref a b D (x2 + xc ^ 2)) /\
  (0 < m 3%nat 3%nat -> 0 <= y2 -> 1 <= gy /\ gy ^ 2 * m 3%nat 3%nat = m 3%nat 3%nat + added cv ref a b D (y2 + yc ^ 2)) /\
  (0 < m 5%nat 5%nat -> mid_gamma a b <> 1 -> p_Es ref <> 0 -> let e := m 5%nat 5%nat + added_energy cv ref a b D in
     (0 < e -> 0 < gz /\ gz ^ 2 * m 5%nat 5%nat = e) /\ (e <= 0 -> gz = 1)).
Proof.
  intros G D HD. assert (D0 : D <> 0) by (pose proof (sqrt_lt_R0 _ HD); unfold D; lra).
  unfold growth_factors in G. rewrite <- voltage_eq in G. fold D in G. set (V := voltage cv ref a b) in *.
  set (kp := - PI * Rabs (p_Z ref) * V / p_Es ref / sqr ((p_beta b + p_beta a) / 2 * ((p_gamma b + p_gamma a) / 2)) / p_beta b / p_gamma b / cav_lambda cv) in *.
  assert (KF : kp = - focusing cv ref a b).
  { unfold focusing, kp. fold V. rewrite wave_eq. unfold mid_beta, mid_gamma, sqr. replace (p_beta b + p_beta a) with (p_beta a + p_beta b) by ring.
    replace (p_gamma b + p_gamma a) with (p_gamma a + p_gamma b) by ring.
    set (q := (p_beta a + p_beta b) / 2 * ((p_gamma a + p_gamma b) / 2)). unfold Rdiv. rewrite !Rinv_mult. cbn [pow]. rewrite !Rinv_mult, Rinv_1. ring. }
  fold (fform D) in G. fold (fform (2 * D)) in G. rewrite <- (var_sin (cv_phi cv) D D0) in G.
  set (va := variance D (fun d => sin (cv_phi cv + d))) in *. assert (VP : 0 <= va) by apply var_pos.
  injection G as Gx Gy Gz. unfold sqr in Gx, Gy, Gz.
  assert (AD : forall r2, added cv ref a b D r2 = focusing cv ref a b ^ 2 * va * r2) by reflexivity.
  assert (AP : forall r2 c, 0 <= r2 -> 0 <= focusing cv ref a b ^ 2 * va * (r2 + c ^ 2)).
  { intros r2 c Hr. apply Rmult_le_pos; [apply Rmult_le_pos; [apply pow2_ge_0|exact VP]|]. pose proof (pow2_ge_0 c). lra. }
  split; [|split].
  - intros M1 P. rewrite AD. apply grow_root; [exact M1|apply AP; exact P|]. rewrite <- Gx, KF.
    replace (focusing cv ref a b ^ 2 * va * (x2 + xc ^ 2)) with (- focusing cv ref a b * - focusing cv ref a b * va * (x2 + xc * xc)) by ring. reflexivity.
  - intros M1 P. rewrite AD. apply grow_root; [exact M1|apply AP; exact P|]. rewrite <- Gy, KF.
    replace (focusing cv ref a b ^ 2 * va * (y2 + yc ^ 2)) with (- focusing cv ref a b * - focusing cv ref a b * va * (y2 + yc * yc)) by ring. reflexivity.
  - intros M1 G1 E1 e. clear Gx Gy. rewrite KF in Gz.
    replace ((p_gamma b + p_gamma a) / 2) with (mid_gamma a b) in Gz by (unfold mid_gamma; lra).
    replace ((p_beta b + p_beta a) / 2) with (mid_beta a b) in Gz by (unfold mid_beta; lra).
    rewrite <- wave_eq in Gz.
    set (lt := 1 / (mid_gamma a b - 1) / p_Es ref * MeVtoeV) in *.
    assert (L0 : lt <> 0).
    { unfold lt, MeVtoeV, Rdiv. repeat apply Rmult_integral_contrapositive_currified; try lra; try (apply Rinv_neq_0_compat; lra); auto. }
    match type of Gz with (if Rlt_dec 0 (?d + _) then _ else _) = _ => set (dz' := d) in * end.
    assert (DZ : dz' = added_energy cv ref a b D * (lt * lt)).
    { unfold dz', added_energy. replace (1000000 / ((mid_gamma a b - 1) * p_Es ref)) with lt by (unfold lt, MeVtoeV; unfold Rdiv; rewrite Rinv_mult; ring).
      set (k := 2 * PI / (mid_beta a b * wave_length cv)). unfold Rdiv. rewrite Rinv_mult. cbn [pow].
      transitivity (- 2 * - focusing cv ref a b * (mid_gamma a b * mid_gamma a b) * D * (- 2 * - focusing cv ref a b * (mid_gamma a b * mid_gamma a b) * D) *
        (D * D * (/ k * / k)) * (cos (cv_phi cv) * cos (cv_phi cv) * / 8 + D * sin (cv_phi cv) * / 576) * ((/ lt * lt) * (/ lt * lt))).
      - rewrite Rinv_l by exact L0. ring.
      - ring. }
    rewrite DZ in Gz.
    assert (EE : added_energy cv ref a b D * (lt * lt) + m 5%nat 5%nat * (lt * lt) = e * (lt * lt)) by (unfold e; ring). rewrite EE in Gz.
    assert (L2 : 0 < lt * lt) by (apply Rsqr_pos_lt in L0; exact L0).
    split; intros He.
    + destruct (Rlt_dec 0 (e * (lt * lt))) as [P|P]; [|exfalso; nra]. rewrite <- Gz.
      replace (e * (lt * lt) / (m 5%nat 5%nat * (lt * lt))) with (e / m 5%nat 5%nat) by (field; lra).
      assert (0 < e / m 5%nat 5%nat) by (apply Rdiv_lt_0_compat; assumption). split; [apply sqrt_lt_R0; assumption|].
      cbn [pow]. rewrite Rmult_1_r, sqrt_sqrt by lra. field. lra.
    + destruct (Rlt_dec 0 (e * (lt * lt))) as [P|P]; [exfalso; nra|]. auto.
Qed.

(** ** The beam *)
Lemma carried_sandwich T S i k : (i < 7)%nat -> (k < 7)%nat -> sandwich T S i k = carried_by T S i k.
Proof.
  intros Hi Hk. assert (E : meq 7 (sandwich T S) (mmul 7 T (mmul 7 S (mtr T)))) by (unfold sandwich, msize; rewrite mmul_assoc; reflexivity).
  rewrite (E i k Hi Hk). unfold mmul, carried_by, mtr. reflexivity.
Qed.
Lemma forward_growth w c ref p_in p M IM T v m : meq 7 M mid -> meq 7 IM mid ->
  let out := cav_forward w c ref p_in p M IM T v m in
  let Tm := snd (fst out) in
  exists u U, u 0%nat = v 0%nat /\ u 2%nat = v 2%nat /\ meq 7 U (sandwich Tm m) /\
    meq 7 (snd (fst (fst out))) (scale_rows (w_cav_growth w c ref p_in p U (m 0%nat 0%nat, u 0%nat, m 2%nat 2%nat, u 2%nat)) U).
Proof.
  intros WM WI out Tm. unfold Tm, out, cav_forward. cbv zeta. cbn [fst snd]. change msize with 7%nat. change PS_S with 4%nat. change PS_PS with 5%nat.
  set (u := mapp 7 M v). assert (EV : veq 7 u v) by (unfold u; rewrite WM; apply mid_app).
  set (T0 := mset (mset T 4 6 0) 5 6 0). set (x := mapp 7 T0 u). set (s0 := p_phis p - p_phis ref). set (s1 := (p_Ek p - p_Ek ref) / MeVtoeV).
  set (T1 := mset (mset T0 4 6 _) 5 6 _). set (U := sandwich T1 (sandwich M m)).
  exists u, U. split; [apply (EV 0%nat); lia|]. split; [apply (EV 2%nat); lia|]. split.
  - unfold U. rewrite (sandwich_meq T1 T1 _ (sandwich mid m)); [|reflexivity|apply sandwich_meq; [exact WM|reflexivity]].
    rewrite (sandwich_meq (mmul 7 IM (mmul 7 T1 M)) T1 m m); [|rewrite WM, WI, mid_l, mid_r; reflexivity|reflexivity].
    apply sandwich_meq; [reflexivity|]. unfold sandwich, msize. assert (TT : meq 7 (mtr mid) mid). { intros i j _ _. unfold mtr, mid. rewrite Nat.eqb_sym. reflexivity. }
    rewrite TT, mid_l, mid_r. reflexivity.
  - change PS_X with 0%nat. change PS_Y with 2%nat. set (W := scale_rows _ _). rewrite (sandwich_meq IM mid W W WI ltac:(reflexivity)). unfold sandwich, msize.
    assert (TT : meq 7 (mtr mid) mid). { intros i j _ _. unfold mtr, mid. rewrite Nat.eqb_sym. reflexivity. }
    rewrite TT, mid_l, mid_r. reflexivity.
Qed.
Lemma cavity_grows w files ec s f cv : let w' := with_cavities w files in
  sane w' -> goes_through w' ec s f -> is_a "rfcavity" ec -> load_cavity w files ec = Ok cv -> cv_eg cv <> 0%N -> placed_well (w_num w) ec ->
  forall j q v S, nth_error (ms_real s) j = Some q -> nth_error (ms_m0 s) j = Some v -> nth_error (ms_m1 s) j = Some S ->
  exists q' Tm S' gx gy gz, nth_error (ms_real f) j = Some q' /\ nth_error (ms_tm f) j = Some Tm /\ nth_error (ms_m1 f) j = Some S' /\
    let U := carried_by Tm S in
    (forall i k, (i < 7)%nat -> (k < 7)%nat -> S' i k = stretch gx gy gz i * stretch gx gy gz k * U i k) /\
    (0 < U 4%nat 4%nat ->
      let D := sqrt (U 4%nat 4%nat) in
      let ref := ms_ref f in
      let p := recalc q in
      (0 < U 1%nat 1%nat -> 0 <= S 0%nat 0%nat -> 1 <= gx /\ gx ^ 2 * U 1%nat 1%nat = U 1%nat 1%nat + added cv ref p q' D (S 0%nat 0%nat + v 0%nat ^ 2)) /\
      (0 < U 3%nat 3%nat -> 0 <= S 2%nat 2%nat -> 1 <= gy /\ gy ^ 2 * U 3%nat 3%nat = U 3%nat 3%nat + added cv ref p q' D (S 2%nat 2%nat + v 2%nat ^ 2)) /\
      (0 < U 5%nat 5%nat -> mid_gamma p q' <> 1 -> p_Es ref <> 0 -> let e := U 5%nat 5%nat + added_energy cv ref p q' D in
         (0 < e -> 0 < gz /\ gz ^ 2 * U 5%nat 5%nat = e) /\ (e <= 0 -> gz = 1))).
Proof.
  intros w' W G HK HL HE HP j q v S Hq Hv HS. set (L := real_at (w_num w') ec "L" 0).
  destruct (through_step w' _ _ _ W G) as (A & k & d & a & Hk & HC & EA).
  assert (k = KRFCavity) as -> by (eapply kind_one; [exact Hk|exact HK]). cbn [advance_of] in EA.
  destruct (ctor_data _ _ _ _ HC) as (_ & C2 & C3).
  destruct (cav_does w' _ _ _ _ _ (ctor_fresh w' _ _ _ HC) A EA) as (ref & phi & reals & Y1 & Y2 & _ & _ & _ & _ & _ & Y8 & Y9 & Y10 & Y11).
  rewrite C3 in *. destruct (Y11 j q v S Hq Hv HS) as (p' & T & M & IM & Q1 & Q2 & Q3 & Q4 & Q5 & _ & Q7). rewrite C2 in Q3.
  destruct (well_frames w' ec _ _ _ _ _ HP Q3) as [WM WI].
  destruct (forward_growth w' ec (recalc ref) (recalc q) (recalc p') M IM T v S WM WI) as (u & U & U0 & U2 & EU & ES).
  set (out := cav_forward w' ec (recalc ref) (recalc q) (recalc p') M IM T v S) in *.
  assert (GF : w_cav_growth w' ec (recalc ref) (recalc q) (recalc p') U (S 0%nat 0%nat, u 0%nat, S 2%nat 2%nat, u 2%nat) =
    growth_factors cv (recalc ref) (recalc q) (recalc p') U (S 0%nat 0%nat, u 0%nat, S 2%nat 2%nat, u 2%nat)).
  { unfold w'. cbn [w_cav_growth with_cavities]. rewrite HL. destruct (N.eqb_spec (cv_eg cv) 0); [contradiction|reflexivity]. }
  rewrite GF in ES. destruct (growth_factors _ _ _ _ _ _) as [[gx gy] gz] eqn:GG.
  assert (EC : forall i k, (i < 7)%nat -> (k < 7)%nat -> U i k = carried_by (snd (fst out)) S i k).
  { intros i k Hi Hk2. rewrite (EU i k Hi Hk2). apply carried_sandwich; assumption. }
  exists (recalc p'), (snd (fst out)), (snd (fst (fst out))), gx, gy, gz.
  split; [rewrite Y9; apply (map_nth_error recalc); exact Q2|]. split; [exact Q7|]. split; [exact Q5|]. cbv zeta. split.
  - intros i k Hi Hk2. rewrite (ES i k Hi Hk2), <- (scale_rows_diag gx gy gz U i k Hi Hk2), <- (EC i k Hi Hk2). unfold stretch, dvec.
    idx7 i Hi; idx7 k Hk2; ring.
  - intros P4. rewrite <- !EC in * by lia. rewrite Y8, <- U0, <- U2. exact (growth_ok _ _ _ _ _ _ _ _ _ _ _ _ GG P4).
Qed.
