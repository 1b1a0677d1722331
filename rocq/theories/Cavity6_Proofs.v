(** What a cavity does to a beam: proofs. *)
From Coq Require Import Reals List String Bool NArith ZArith Arith Lia Lra.
From Verif Require Import SMap SMap_Proofs Dbl Config_Spec Mat Mat_Proofs Minv Minv_Proofs Machine_Model Machine_Spec Machine_Proofs
  Machine2_Proofs Machine4_Proofs Linear_Model Linear_Spec Linear_Proofs Linear2_Proofs Linear3_Proofs.
From Verif Require Import Moment_Model Moment_Spec Motion_Spec Round_Spec Moment_Proofs Moment2_Proofs Moment3_Proofs Moment4_Proofs
  Moment5_Proofs Moment6_Proofs Motion_Proofs Motion2_Proofs Motion3_Proofs Motion4_Proofs Motion5_Proofs Round_Proofs Round2_Proofs Round3_Proofs
  Round4_Proofs Round5_Proofs Round6_Proofs Frame_Spec Frame_Proofs.
From Verif Require Import Cavity_Model Cavity_Spec Cavity2_Spec Cavity_Proofs Cavity2_Proofs Cavity3_Proofs Cavity4_Proofs Cavity5_Proofs.
Import ListNotations.
Open Scope R_scope.
Open Scope string_scope.
Open Scope list_scope.

Lemma scale_none M : meq 7 (scale_rows (1, 1, 1) M) M.
Proof.
  rewrite <- scale_rows_diag. intros i j Hi Hj. unfold dvec. idx7 i Hi; idx7 j Hj; ring.
Qed.
Lemma affine_six M v : affine M -> mapp 7 M v 6%nat = v 6%nat.
Proof. apply last_one. Qed.

(** The matrix applied to one charge state. *)
Definition applied_mat (T : mat) (a b : R) : mat := mset (mset T 4 6 a) 5 6 b.
Lemma forward_parts w c ref p_in p M IM T v m : affine M ->
  let out := cav_forward w c ref p_in p M IM T v m in
  exists a b, let Tm := applied_mat T a b in
  snd (fst out) = mmul 7 IM (mmul 7 Tm M) /\
  (unit_last v -> veq 7 (fst (fst (fst out))) (mapp 7 (mmul 7 IM (mmul 7 Tm M)) v) /\
    mapp 7 Tm (mapp 7 M v) 4%nat = p_phis p - p_phis ref /\ mapp 7 Tm (mapp 7 M v) 5%nat = (p_Ek p - p_Ek ref) / 1000000) /\
  (no_growth w c -> meq 7 (snd (fst (fst out))) (sandwich (mmul 7 IM (mmul 7 Tm M)) m)).
Proof.
  intros AM out. unfold out, cav_forward. cbv zeta. cbn [fst snd]. change msize with 7%nat. change PS_S with 4%nat. change PS_PS with 5%nat.
  set (u := mapp 7 M v).
  set (T0 := mset (mset T 4 6 0) 5 6 0). set (x := mapp 7 T0 u). set (s0 := p_phis p - p_phis ref). set (s1 := (p_Ek p - p_Ek ref) / MeVtoeV).
  assert (ET : mset (mset T0 4 6 (- x 4%nat + s0)) 5 6 (- x 5%nat + s1) = applied_mat T (- x 4%nat + s0) (- x 5%nat + s1)).
  { unfold applied_mat, T0. apply Logic.FunctionalExtensionality.functional_extensionality. intros i.
    apply Logic.FunctionalExtensionality.functional_extensionality. intros j. unfold mset.
    destruct (Nat.eqb i 5), (Nat.eqb j 6), (Nat.eqb i 4); reflexivity. }
  exists (- x 4%nat + s0), (- x 5%nat + s1). rewrite ET. set (Tm := applied_mat T _ _).
  assert (EV : unit_last v -> veq 7 (vset (vset x 4 s0) 5 s1) (mapp 7 Tm u)).
  { intros UV i Hi. assert (U6 : u 6%nat = 1) by (unfold u; rewrite affine_six by auto; exact UV). unfold Tm, applied_mat, x, T0, vset, mapp, mset. cbn [sumn].
    idx7 i Hi; cbn [Nat.eqb andb]; rewrite ?U6; unfold x, T0, mapp, mset; cbn [sumn Nat.eqb andb]; rewrite ?U6; ring. }
  split; [reflexivity|]. split.
  - intros UV. specialize (EV UV). split; [|split].
    + rewrite EV, !mapp_mmul. reflexivity.
    + rewrite <- (EV 4%nat ltac:(lia)). reflexivity.
    + rewrite <- (EV 5%nat ltac:(lia)). unfold vset. cbn [Nat.eqb]. unfold s1, MeVtoeV. f_equal.
  - intros HG. rewrite HG. rewrite (sandwich_meq IM IM _ (sandwich Tm (sandwich M m))); [|reflexivity|apply scale_none].
    rewrite (sandwich_meq IM IM _ _ ltac:(reflexivity) (sandwich_twice Tm M m)). apply sandwich_twice.
Qed.
Lemma well_frames w c len ref p M IM : placed_well (w_num w) c -> get_misalign (sh_at w c) len ref p = Ok (M, IM) -> meq 7 M mid /\ meq 7 IM mid.
Proof.
  intros HW H. unfold placed_well, placing in HW. inversion HW as [|? ? E1 W1]; subst. inversion W1 as [|? ? E2 W2]; subst.
  inversion W2 as [|? ? E3 W3]; subst. inversion W3 as [|? ? E4 W4]; subst. inversion W4 as [|? ? E5 _]; subst.
  destruct (level_misalign (sh_at w c) _ _ _ _ _ E3 E4 H) as (RI & R1 & R2 & R3).
  assert (ER : meq 7 (rot_mat (sh_dx (sh_at w c)) (sh_dy (sh_at w c)) 0 0 (sh_roll (sh_at w c))) mid).
  { unfold sh_at. cbn [sh_dx sh_dy sh_roll]. rewrite E1, E2, E5. rewrite Rmult_0_l. unfold rot_mat.
    assert (MX : forall a b, meq 7 a mid -> meq 7 b mid -> meq 7 (mmul 7 a b) mid) by (intros a b -> ->; apply mid_l).
    cbv zeta. change msize with 7%nat. rewrite ?Ropp_0, cos_0, sin_0.
    apply MX; (intros i j Hi Hj; unfold mset, mid; idx7 i Hi; idx7 j Hj; cbn [Nat.eqb andb]; ring). }
  split; [rewrite R2; exact ER|]. rewrite R3. apply inverse_ok in R1 as [R1 _]. rewrite ER, mid_r in R1. exact R1.
Qed.
Lemma start_ok L : mset (mset mid PS_X PS_PX L) PS_Y PS_PY L = start_matrix L.
Proof.
  apply Logic.FunctionalExtensionality.functional_extensionality. intros i.
  apply Logic.FunctionalExtensionality.functional_extensionality. intros j. unfold mset, mid, start_matrix, PS_X, PS_PX, PS_Y, PS_PY.
  do 4 (destruct i as [|i]; [do 4 (destruct j as [|j]; [reflexivity|]); reflexivity|]). reflexivity.
Qed.
Lemma recalc_set_K q k : recalc (set_K q k) = recalc q.
Proof. reflexivity. Qed.

Lemma cavity_does w ec s f : sane w -> goes_through w ec s f -> is_a "rfcavity" ec ->
  let L := real_at (w_num w) ec "L" 0 in
  ms_pos f = ms_pos s + L /\ List.length (ms_real f) = List.length (ms_real s) /\
  exists ref phi, w_cav_ref w ec (recalc (ms_ref s)) = Ok (ref, phi) /\ ms_ref f = recalc ref /\
  forall j q v S, nth_error (ms_real s) j = Some q -> nth_error (ms_m0 s) j = Some v -> nth_error (ms_m1 s) j = Some S ->
  exists T q' Tm v' S', w_cav_one w ec phi (recalc q) (start_matrix L) = (T, Ok q') /\
    nth_error (ms_real f) j = Some (recalc q') /\ nth_error (ms_tm f) j = Some Tm /\ nth_error (ms_m0 f) j = Some v' /\ nth_error (ms_m1 f) j = Some S' /\
    (unit_last v -> veq 7 v' (mapp 7 Tm v)) /\
    (no_growth w ec -> unit_last v -> transported Tm v S v' S') /\
    (placed_well (w_num w) ec ->
       (unit_last v -> v' 4%nat = p_phis q' - p_phis ref /\ v' 5%nat = (p_Ek q' - p_Ek ref) / 1000000) /\
       forall i k, (i < 7)%nat -> (k < 7)%nat -> ~ shift_entry i k -> Tm i k = T i k).
Proof.
  intros W G HK L. destruct (through_step w _ _ _ W G) as (A & k & d & a & Hk & HC & EA).
  assert (k = KRFCavity) as -> by (eapply kind_one; [exact Hk|exact HK]). cbn [advance_of] in EA.
  destruct (ctor_data _ _ _ _ HC) as (_ & C2 & C3).
  destruct (cav_does w _ _ _ _ _ (ctor_fresh w _ _ _ HC) A EA) as (ref & phi & reals & Y1 & Y2 & _ & _ & _ & _ & _ & Y8 & Y9 & Y10 & Y11).
  rewrite C3 in *. split; [exact Y10|]. split; [rewrite Y9, map_length; exact Y2|].
  exists ref, phi. split; [exact Y1|]. split; [exact Y8|]. intros j q v S Hq Hv HS.
  destruct (Y11 j q v S Hq Hv HS) as (p' & T & M & IM & Q1 & Q2 & Q3 & Q4 & Q5 & _ & Q7).
  unfold cav_cell in Q1. rewrite start_ok in Q1. fold L in Q1. destruct (w_cav_one w ec phi (recalc q) (start_matrix L)) as [T' [q'|e]] eqn:EO; [|discriminate].
  cbn [rbind] in Q1. apply pair_eq in Q1 as [-> Q1].
  apply (f_equal (fun r => match r with Ok x => x | Throw _ => q' end)) in Q1. subst p'.
  rewrite recalc_set_K in Q4, Q5, Q7. rewrite C2 in Q3.
  destruct (misalign_affine _ _ _ _ _ _ Q3) as [AM AI].
  destruct (forward_parts w ec (recalc ref) (recalc q) (recalc q') M IM T v S AM) as (x & y & F1 & F2 & F5).
  eexists T, q', _, _, _. split; [reflexivity|]. split; [rewrite Y9, (map_nth_error recalc _ _ Q2), recalc_set_K; reflexivity|].
  split; [exact Q7|]. split; [exact Q4|]. split; [exact Q5|]. rewrite F1. split; [intros UV; apply (F2 UV)|]. split.
  - intros HG UV. apply carried. split; [apply (F2 UV)|exact (F5 HG)].
  - intros HP. destruct (well_frames w ec _ _ _ _ _ HP Q3) as [WM WI].
    assert (EM : meq 7 (mmul 7 IM (mmul 7 (applied_mat T x y) M)) (applied_mat T x y)) by (rewrite WM, WI, mid_l, mid_r; reflexivity).
    assert (EV : veq 7 (mapp 7 M v) v) by (rewrite WM; apply mid_app).
    split.
    2:{ intros i l Hi Hl HN. rewrite (EM i l Hi Hl). unfold applied_mat, mset, shift_entry in *.
        destruct (Nat.eqb i 5) eqn:E5, (Nat.eqb l 6) eqn:E6, (Nat.eqb i 4) eqn:E4; cbn [andb]; try reflexivity;
          apply Nat.eqb_eq in E6; try apply Nat.eqb_eq in E5; try apply Nat.eqb_eq in E4; exfalso; apply HN; auto. }
    intros UV. destruct (F2 UV) as (G2 & F3 & F4).
    assert (EN : veq 7 (fst (fst (fst (cav_forward w ec (recalc ref) (recalc q) (recalc q') M IM T v S)))) (mapp 7 (applied_mat T x y) (mapp 7 M v))).
    { rewrite G2, EM, EV. reflexivity. }
    split; [rewrite (EN 4%nat ltac:(lia)), F3; reflexivity|rewrite (EN 5%nat ltac:(lia)), F4; reflexivity].
Qed.
