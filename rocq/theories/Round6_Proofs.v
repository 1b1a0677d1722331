(** Cavities that complete in both directions. *)
From Coq Require Import Reals List String Bool NArith ZArith Arith Lia Lra.
From Verif Require Import SMap SMap_Proofs Dbl Config_Spec Mat Mat_Proofs Minv Minv_Proofs Machine_Model Machine_Spec Machine_Proofs
  Machine2_Proofs Machine4_Proofs Linear_Model Linear_Spec Linear_Proofs Linear2_Proofs Linear3_Proofs.
From Verif Require Import Moment_Model Moment_Spec Motion_Spec Round_Spec Moment_Proofs Moment2_Proofs Moment3_Proofs Moment4_Proofs
  Moment5_Proofs Moment6_Proofs Motion_Proofs Motion2_Proofs Motion3_Proofs Motion4_Proofs Motion5_Proofs Round_Proofs Round2_Proofs Round3_Proofs
  Round4_Proofs Round5_Proofs.
Import ListNotations.
Open Scope R_scope.
Open Scope string_scope.
Open Scope list_scope.

Lemma regular_inj T : regular T -> inj T.
Proof.
  intros [B HB] v Hv. rewrite <- (mid_app 7 v), <- HB, mapp_mmul. rewrite Hv. intros i Hi. unfold mapp, sumn. ring.
Qed.
Lemma inj_mul A B : inj A -> inj B -> inj (mmul 7 A B).
Proof. intros HA HB v Hv. rewrite mapp_mmul in Hv. apply HB. apply HA. exact Hv. Qed.
Lemma inj_meq A B : meq 7 A B -> inj A -> inj B.
Proof. intros E H v Hv. apply H. rewrite E. exact Hv. Qed.
(** The last column does not matter. *)
Lemma inj_last T T' : affine T -> affine T' -> inj T -> (forall i j, (i < 7)%nat -> (j < 6)%nat -> T' i j = T i j) -> inj T'.
Proof.
  intros A A' H E v Hv. assert (V6 : v 6%nat = 0).
  { specialize (Hv 6%nat ltac:(lia)). cbv beta in Hv. rewrite last_one in Hv by auto. exact Hv. }
  apply H. intros i Hi. rewrite <- (Hv i Hi). unfold mapp. cbn [sumn]. rewrite V6. rewrite !E by lia. ring.
Qed.
Lemma inverse_inj A X : inverse A = Ok X -> inj A /\ inj X.
Proof.
  intros H. apply inverse_ok in H as [H1 H2]. split; apply regular_inj; [exists X|exists A]; auto.
Qed.
Lemma level_inj sh len ref p M IM : sh_pitch sh = 0 -> sh_yaw sh = 0 -> get_misalign sh len ref p = Ok (M, IM) -> inj M /\ inj IM.
Proof.
  intros H1 H2 H. destruct (level_misalign _ _ _ _ _ _ H1 H2 H) as (RI & E1 & E2 & E3).
  destruct (inverse_inj _ _ E1) as [I1 I2]. split; [refine (inj_meq _ _ _ I1)|refine (inj_meq _ _ _ I2)]; symmetry; auto.
Qed.
(** Only these quantities matter. *)
Lemma misalign_more sh len ref p a q : moving q -> 0 < p_Es ref -> p_K p = p_K a -> a = recalc a -> moving a -> p_beta p = p_beta (recalc q) -> p_gamma p = p_gamma (recalc q) ->
  exists M IM, get_misalign sh len ref p = Ok (M, IM).
Proof.
  intros HP HE EK EA HA EB EG. destruct (moving_facts q HP) as (G & B & _ & K & _). destruct (moving_facts a HA) as (_ & _ & _ & Ka & _).
  destruct (inj_inverse (scl_mat ref p)) as [si E1].
  { apply scl_inj.
    - rewrite EK, EA. rewrite (recalc_K a HA). lra.
    - rewrite EB, EG, (recalc_beta q HP), (recalc_gamma q HP). unfold sqr, MeVtoeV.
      apply Rgt_not_eq. apply Rdiv_lt_0_compat; [|lra]. apply Rmult_lt_0_compat; auto. apply Rmult_lt_0_compat; nra. }
  unfold get_misalign. rewrite E1. cbn [rbind].
  destruct (inj_inverse _ (shift_inj (- len / 2 * MtoMM))) as [t1 ->]. cbn [rbind].
  destruct (inj_inverse _ (rot_inj (sh_dx sh) (sh_dy sh) (sh_pitch sh) (sh_yaw sh) (sh_roll sh))) as [r1 ->]. cbn [rbind].
  destruct (inj_inverse _ (shift_inj (len / 2 * MtoMM))) as [t2 ->]. cbn [rbind]. eauto.
Qed.
Lemma run_all {B} (f : particle -> B -> B * option exn) : forall ps l, List.length l = List.length ps ->
  (forall j p x, nth_error ps j = Some p -> nth_error l j = Some x -> exists b, f p x = (b, None)) ->
  exists tm, run_cells f ps l = (tm, None).
Proof.
  induction ps as [|p ps IH]; intros [|x l] L H; try discriminate; cbn [run_cells]; [eauto|].
  destruct (H 0%nat p x eq_refl eq_refl) as [b Hb]. rewrite Hb. destruct (IH l) as [tm Htm]; [simpl in L; lia| |rewrite Htm; eauto].
  intros j. apply (H (S j)).
Qed.
Lemma over_all {A B} (f : B -> A -> A) : forall xs l, (List.length xs <= List.length l)%nat -> exists l', over f xs l = Ok l'.
Proof.
  induction xs as [|x xs IH]; intros [|a l] L; simpl in *; try lia; eauto. destruct (IH l) as [r ->]; [lia|]. cbn [rbind]. eauto.
Qed.

Section W.
Variable w : world.
Hypothesis KA : cavities_affine w.
Hypothesis KI : cavities_keep_ions w.
Hypothesis KM : cavities_keep_moving w.

Lemma fwd_runs c d s ref real : aligned s -> List.length (md_real_in d) = List.length (ms_real s) ->
  List.length (md_tm d) = List.length (md_real_in d) -> List.length (md_mis d) = List.length (md_real_in d) ->
  List.length real = List.length (md_real_in d) -> exists d' s', cav_apply w c d false s ref real = (d', Ok s').
Proof.
  intros A L1 L2 L3 L4. rewrite apply_eq by auto. cbv zeta. set (outs := outs_of _ _ _ _ _ _ _ _ _).
  destruct A as (A1 & A2 & A3 & A4).
  assert (LO : List.length outs = List.length (ms_real s)).
  { unfold outs, outs_of, cells_of. rewrite map_length, !combine_length. lia. }
  destruct (over_all (fun (x : vec * mat * mat * mat) (_ : vec) => fst (fst (fst x))) outs (ms_m0 s)) as [m0 E0]; [lia|].
  destruct (over_all (fun (x : vec * mat * mat * mat) (_ : mat) => snd (fst (fst x))) outs (ms_m1 s)) as [m1 E1]; [lia|].
  destruct (over_all (fun (x : vec * mat * mat * mat) (_ : mat) => snd (fst x)) outs (ms_tm s)) as [tm E2]; [lia|].
  rewrite E0, E1, E2. cbn [rbind].
  apply over_length in E0, E1, E2.
  edestruct calc_aligned as (s' & E & _); [| | | |rewrite E; do 2 eexists; reflexivity]; try congruence.
  destruct real; [|discriminate]. simpl in L4. destruct (ms_real s); [congruence|]. simpl in *. lia.
Qed.
Lemma back_runs c d s ref real : aligned s -> List.length (md_real_in d) = List.length (ms_real s) ->
  List.length (md_tm d) = List.length (md_real_in d) -> List.length (md_mis d) = List.length (md_real_in d) ->
  List.length real = List.length (md_real_in d) ->
  (forall j M IM T, nth_error (md_mis d) j = Some (M, IM) -> nth_error (md_tm d) j = Some T -> inj (mmul 7 IM (mmul 7 T M))) ->
  exists d' s', cav_apply w c d true s ref real = (d', Ok s').
Proof.
  intros A L1 L2 L3 L4 HI. destruct A as (A1 & A2 & A3 & A4).
  unfold cav_apply. rewrite L2, L3, A2, A3, A4, L4, <- L1, Nat.ltb_irrefl. cbn [orb negb].
  match goal with |- context [rmap ?f ?l] => destruct (rmap_some f l) as [outs HO] end.
  { intros (p1 & p2 & [[M IM] T] & v & m) HX. apply In_nth_error in HX as [j Hj].
    apply combine_nth_inv in Hj as [_ Hj]. apply combine_nth_inv in Hj as [_ Hj]. apply combine_nth_inv in Hj as [Hj _].
    apply combine_nth_inv in Hj as [H1 H2]. destruct (inj_inverse _ (HI j M IM T H1 H2)) as [X HX].
    unfold cav_backward. change msize with 7%nat. rewrite HX. cbn [rbind]. eauto. }
  rewrite HO. cbn [rbind]. apply rmap_length in HO. unfold cells_of in HO. rewrite !combine_length in HO.
  assert (LO : List.length outs = List.length (ms_real s)) by lia.
  destruct (over_all (fun (x : vec * mat * mat) (_ : vec) => fst (fst x)) outs (ms_m0 s)) as [m0 E0]; [lia|].
  destruct (over_all (fun (x : vec * mat * mat) (_ : mat) => snd (fst x)) outs (ms_m1 s)) as [m1 E1]; [lia|].
  destruct (over_all (fun (x : vec * mat * mat) (_ : mat) => snd x) outs (ms_tm s)) as [tm E2]; [lia|].
  rewrite E0, E1, E2. cbn [rbind]. apply over_length in E0, E1, E2.
  edestruct calc_aligned as (s' & E & _); [| | | |rewrite E; do 2 eexists; reflexivity]; try congruence.
  destruct real; [|discriminate]. simpl in L4. destruct (ms_real s); [congruence|]. simpl in *. lia.
Qed.
Lemma cells_all c len phi : forall ps tm, List.length tm = List.length ps ->
  (forall p, In p ps -> exists p', snd (cav_cell w c len phi p) = Ok p') -> exists tm' l, cav_cells w c len phi ps tm = (tm', Ok l).
Proof.
  induction ps as [|p ps IH]; intros [|T tm] L H; try discriminate; cbn [cav_cells]; [eauto|].
  destruct (H p (or_introl eq_refl)) as [p' Hp]. destruct (cav_cell w c len phi p) as [T' r]. cbn [snd] in Hp. subst r.
  destruct (IH tm) as (tm' & l & ->); [simpl in L; lia|intros; apply H; right; auto|]. cbn [rbind]. eauto.
Qed.
Lemma cell_runs c len phi p : sound_cavity w c -> moving p ->
  exists p', snd (cav_cell w c len phi (recalc p)) = Ok p' /\ inj (fst (cav_cell w c len phi (recalc p))).
Proof.
  intros (_ & _ & HO) M. unfold cav_cell. set (T := mset _ _ _ _).
  destruct (HO phi (recalc p) T) as (q & Q1 & Q2 & Q3); [apply moving_recalc; auto|apply recalc_idem| |].
  { exists (drift_matrix (- len) 0). intros i j Hi Hj. rewrite <- (drift_inverse len 0 i j Hi Hj). unfold T, drift_matrix.
    unfold mmul. apply sumn_ext. intros l Hl. f_equal; [|unfold mset, mid, PS_S, PS_PS, PS_X, PS_PX, PS_Y, PS_PY; idx7 l Hl; idx7 j Hj; reflexivity].
    unfold mset. rewrite Ropp_0. reflexivity. }
  destruct (w_cav_one w c phi (recalc p) T) as [T' r]. cbn [fst snd] in *. subst r. cbn [rbind]. eexists. split; [reflexivity|]. apply regular_inj. auto.
Qed.
Lemma cell_more c len phi p T p' sh len' ref : sound_cavity w c -> moving p -> cav_cell w c len phi (recalc p) = (T, Ok p') -> 0 < p_Es ref ->
  exists M IM, get_misalign sh len' ref p' = Ok (M, IM).
Proof.
  intros (_ & _ & HO) M HC HE. unfold cav_cell in HC. set (T0 := mset _ _ _ _) in *.
  destruct (HO phi (recalc p) T0) as (q & Q1 & Q2 & Q3); [apply moving_recalc; auto|apply recalc_idem| |].
  { exists (drift_matrix (- len) 0). intros i j Hi Hj. rewrite <- (drift_inverse len 0 i j Hi Hj). unfold T0, drift_matrix.
    unfold mmul. apply sumn_ext. intros l Hl. f_equal; [|unfold mset, mid, PS_S, PS_PS, PS_X, PS_PX, PS_Y, PS_PY; idx7 l Hl; idx7 j Hj; reflexivity].
    unfold mset. rewrite Ropp_0. reflexivity. }
  assert (MQ : moving q). { destruct KM as [_ K]. eapply K; [exact Q1|]. apply moving_recalc; auto. }
  destruct (w_cav_one w c phi (recalc p) T0) as [T' r]. cbn [fst snd] in *. subst r. cbn [rbind] in HC. apply pair_eq in HC as [_ HC].
  apply (f_equal (fun r => match r with Ok x => x | Throw _ => q end)) in HC. subst p'.
  apply (misalign_more _ _ _ _ (recalc p) q); auto; try (rewrite Q2; reflexivity).
Qed.
Lemma cav_goes c d0 s : mom_ctor w KRFCavity c = Ok d0 -> sound_cavity w c -> aligned s -> all_moving s ->
  exists d s1, advance_cav w c d0 false s = (d, Ok s1).
Proof.
  intros HC SC A [MR MV]. assert (F := ctor_fresh w _ _ _ HC). rewrite cav_eq by (apply fresh_miss; auto). unfold cav_miss. cbv zeta.
  assert (A1 := recalc_aligned s A). destruct (note_shape d0 (ms_recalc s)) as (M0 & M1 & M2). set (s' := ms_recalc s) in *.
  change (ms_ref s') with (recalc (ms_ref s)).
  destruct (proj1 (proj2 SC) (recalc (ms_ref s)) (moving_recalc _ MR)) as (ref & phi & HR). rewrite HR.
  assert (ME : 0 < p_Es ref). { destruct KM as [K _]. apply (K _ _ _ _ HR (moving_recalc _ MR)). }
  destruct (cells_all c (md_len (note_input d0 s')) phi (ms_real s') (md_tm (note_input d0 s'))) as (tm & reals & CC); [congruence| |].
  { intros p Hp. apply in_map_iff in Hp as (q & <- & Hq). rewrite Forall_forall in MV.
    destruct (cell_runs c (md_len (note_input d0 s')) phi q SC (MV _ Hq)) as (p' & H & _). eauto. }
  rewrite CC. destruct (cells_length w _ _ _ _ _ _ _ CC) as [L1 L2].
  match goal with |- context [cav_misalign ?d ref reals] => assert (CM : exists mis, cav_misalign d ref reals = (mis, None)) end.
  { unfold cav_misalign. apply run_all; [cbn [with_tm with_phi md_mis]; congruence|]. intros j p' x Hp' _.
    assert (Hj := nth_lt _ _ _ Hp'). destruct (nth_ex (ms_real s') j _ eq_refl ltac:(rewrite <- L2; exact Hj)) as [p Hp].
    destruct (cells_nth w _ _ _ _ _ _ _ _ _ CC Hp) as (T & p2 & C1 & C2 & C3). rewrite Hp' in C3. apply some_eq in C3. subst p2.
    apply nth_error_In in Hp. apply in_map_iff in Hp as (q & <- & Hq). rewrite Forall_forall in MV.
    edestruct (cell_more _ _ _ _ _ _ (md_sh d0) (md_len d0) ref SC (MV _ Hq) C1 ME) as (M & IM & E).
    cbn [with_tm with_phi md_sh md_len]. change (md_sh (note_input d0 s')) with (md_sh d0). change (md_len (note_input d0 s')) with (md_len d0).
    rewrite E. eauto. }
  destruct CM as [mis CM]. rewrite CM.
  assert (LM : List.length mis = List.length (ms_real s')).
  { unfold cav_misalign in CM. assert (Q := run_length _ _ _ _ _ CM). cbn [with_tm with_phi md_mis] in Q. congruence. }
  apply fwd_runs; auto; cbn [with_out with_mis with_tm with_phi md_real_in md_tm md_mis]; rewrite ?map_length; congruence.
Qed.
Lemma pleb_same p q : same_particle p q -> pleb p q = true.
Proof.
  intros ((E1 & E2 & E3 & E4) & E5 & E6). unfold pleb, Reqb. rewrite E1, E2, E3, E4, E5.
  repeat (destruct (Req_EM_T _ _); [|congruence]). reflexivity.
Qed.
Lemma cav_returns c d0 s d s1 t : mom_ctor w KRFCavity c = Ok d0 -> sound_cavity w c -> aligned s -> steady s ->
  advance_cav w c d0 false s = (d, Ok s1) -> shaped KRFCavity c d -> all_moving s1 -> aligned t -> restored s1 t -> exists d2 t2, advance_cav w c d true t = (d2, Ok t2).
Proof.
  intros HC SC A ((MR & MV) & UL) H SH MO At R. assert (F := ctor_fresh w _ _ _ HC).
  destruct (ctor_data _ _ _ _ HC) as (C1 & C2 & C3).
  assert (SC' := SC). destruct SC' as ((PC & P1 & P2 & PG) & _).
  destruct (cav_does w _ _ _ _ _ F A H) as (ref & phi & reals & Y1 & Y2 & Y3 & Y4 & Y5 & Y6 & Y7 & Y8 & Y9 & Y10 & Y11).
  assert (ST := cav_left w _ _ _ _ _ F H). destruct ST as (S1 & S2 & _).
  assert (SP : sh_pitch (md_sh d) = 0 /\ sh_yaw (md_sh d) = 0) by (rewrite S2, C2; split; assumption). destruct SP as [SP SY].
  destruct SH as (H1 & H2 & H3 & _). destruct R as (RP & RR & RC & RC2 & RC3).
  assert (LT : List.length (ms_real t) = List.length (ms_real s)).
  { rewrite <- (Forall2_len _ _ _ RC), Y9, map_length. exact Y2. }
  assert (LI : List.length (md_real_in d) = List.length (ms_real s)) by (rewrite Y4; apply map_length).
  destruct MO as [MR1 MV1].
  assert (MT : moving (ms_ref t) /\ Forall moving (ms_real t)).
  { split.
    - destruct RR as ((E1 & E2 & E3 & E4) & E5 & E6). destruct MR1 as (N1 & N2 & N3 & N4). repeat split; congruence.
    - clear - RC MV1. induction RC as [|p q l l' E RC IH]; [constructor|]. inversion MV1; subst. constructor; [|apply IH; auto].
      destruct E as ((E1 & E2 & E3 & E4) & E5 & E6). destruct H1 as (N1 & N2 & N3 & N4). repeat split; congruence. }
  destruct MT as [MRt MVt].
  unfold advance_cav. cbv zeta.
  assert (LRt : List.length (ms_real (ms_recalc t)) = List.length (ms_real t)) by apply map_length.
  assert (CB : check_backward d (ms_recalc t) = true).
  { unfold check_backward. rewrite Y5, LRt. replace (List.length (md_real_out d)) with (List.length (ms_real t)) by congruence.
    rewrite Nat.eqb_refl. cbn [andb]. apply andb_true_intro. split.
    - apply pleb_same. rewrite <- Y8. exact RR.
    - apply forallb_forall. intros [p q] Hpq. apply In_nth_error in Hpq as [j Hj]. apply combine_nth_inv in Hj as [J1 J2].
      rewrite Y6, <- Y9 in J1. destruct (Forall2_nth _ _ _ RC _ _ J1) as (q' & J3 & J4).
      cbn [ms_recalc ms_real] in J2. rewrite (map_nth_error recalc _ _ J3) in J2. apply some_eq in J2. subst q. apply pleb_same. exact J4. }
  rewrite CB, Y3, Y5. cbn [negb]. rewrite H3, Nat.ltb_irrefl.
  match goal with |- context [over ?f ?xs ?l] => destruct (over_all f xs l) as [real HO]; [rewrite combine_length; lia|] end.
  rewrite HO. assert (LO := over_length _ _ _ _ HO).
  rewrite firstn_all2 by lia.
  assert (BJ : forall j q, nth_error real j = Some q -> exists p0 p1, nth_error (ms_real t) j = Some p1 /\
     q = set_Ek (add_phis (recalc p1) p0) (p_Ek q)).
  { intros j q Hj. assert (Lj := nth_lt _ _ _ Hj). rewrite LO, LRt in Lj.
    destruct (nth_ex (ms_real t) j _ eq_refl Lj) as [p1 Hp1].
    destruct (nth_ex (md_real_in d) j (List.length (ms_real t)) ltac:(congruence) Lj) as [i Hi].
    destruct (nth_ex (md_real_out d) j (List.length (ms_real t)) ltac:(congruence) Lj) as [o Ho].
    assert (E := over_nth _ _ _ _ _ _ _ HO (nth_combine _ _ _ _ _ Hi Ho) (map_nth_error recalc _ _ Hp1)). rewrite Hj in E. apply some_eq in E.
    subst q. exists (- (p_phis o - p_phis i)), p1. split; [exact Hp1|reflexivity]. }
  match goal with |- context [cav_misalign d ?r real] => set (ref' := r); assert (CM : exists mis, cav_misalign d ref' real = (mis, None)) end.
  { unfold cav_misalign. apply run_all; [congruence|]. intros j q x Hq _. destruct (BJ _ _ Hq) as (p0 & p1 & B1 & B2).
    assert (M1 : moving p1) by (rewrite Forall_forall in MVt; apply MVt; eapply nth_error_In; eauto).
    destruct (misalign_more (md_sh d) (md_len d) ref' q (recalc p1) p1) as (M & IM & E); auto; try (rewrite B2; reflexivity).
    - apply MRt.
    - rewrite E. eauto. }
  destruct CM as [mis CM]. rewrite CM.
  assert (LM : List.length mis = List.length (ms_real t)).
  { unfold cav_misalign in CM. assert (Q := run_length _ _ _ _ _ CM). congruence. }
  apply back_runs; cbn [with_mis md_real_in md_tm md_mis]; rewrite ?map_length; try congruence.
  { apply recalc_aligned. exact At. }
  intros j M IM T Hj HT. assert (Lj := nth_lt _ _ _ Hj). rewrite LM in Lj.
  destruct (nth_ex real j (List.length (ms_real t)) ltac:(congruence) Lj) as [q Hq].
  destruct (miss_at _ _ _ _ _ _ CM ltac:(congruence) Hq) as (M' & IM' & N1 & N2).
  rewrite Hj in N1. apply some_eq in N1. apply pair_eq in N1 as [<- <-].
  destruct (level_inj _ _ _ _ _ _ SP SY N2) as [IJ1 IJ2]. apply inj_mul; auto. apply inj_mul; auto.
  rewrite LT in Lj. destruct (nth_ex (ms_real s) j _ eq_refl Lj) as [p Hp]. destruct A as (A1 & A2 & A3 & A4).
  destruct (nth_ex (ms_m0 s) j _ A2 Lj) as [v Hv]. destruct (nth_ex (ms_m1 s) j _ A3 Lj) as [m Hm].
  destruct (Y11 j p v m Hp Hv Hm) as (p' & T0 & M0 & IM0 & Q1 & Q2 & Q3 & Q4 & Q5 & Q6 & _).
  rewrite HT in Q6. apply some_eq in Q6.
  destruct (misalign_affine _ _ _ _ _ _ Q3) as [AM AI].
  assert (VU : unit_last v) by (rewrite Forall_forall in UL; apply UL; eapply nth_error_In; eauto).
  assert (AT := proj1 (cell_inv w KA KI KM _ _ _ _ _ _ Q1)).
  destruct (cav_matrix w c (recalc ref) (recalc p) (recalc p') M0 IM0 T0 v m AM AT VU PG) as (V1 & V2 & V3).
  rewrite <- Q6 in V3. apply (inj_last T0 T); auto.
  - assert (MP : moving p) by (rewrite Forall_forall in MV; apply MV; eapply nth_error_In; eauto).
    destruct (cell_runs c (md_len d0) phi p SC MP) as (x & _ & X). rewrite Q1 in X. exact X.
  - intros a b Ha Hb. rewrite Q6. unfold cav_forward. cbv zeta. cbn [snd]. unfold mset.
    rewrite !(proj2 (Nat.eqb_neq b 6)), !andb_false_r by lia. reflexivity.
Qed.
Hypothesis W : sane w.
Definition both (c : tcfg) : Prop := works w c \/ sound_cavity w c.
Lemma both_reversible c : both c -> reversible w c.
Proof.
  intros [(H1 & H2 & H3 & H4)|[H _]]; [left|right; exact H]. split; [left; exact H1|]. intros X. contradiction.
Qed.
Lemma both_bounce : bounces w steady both.
Proof. intros k c d0 s d s1 Hk HP. apply (all_bounce w KA KI KM); auto. apply both_reversible; auto. Qed.
Lemma both_returns : returns w steady both.
Proof.
  intros k c d0 s Hk HP HC A I. destruct HP as [HP|HP].
  - exact (works_both w k c d0 s Hk HP HC A (proj1 I)).
  - assert (k = KRFCavity) as ->. { destruct HP as [[HP _] _]. assert (E := is_a_inj _ _ _ Hk HP). destruct k; try discriminate E; reflexivity. }
    cbn [advance_of]. destruct (cav_goes c d0 s HC HP A (proj1 I)) as (d & s1 & E). exists d, s1. split; [exact E|].
    intros t At R.
    assert (SH : shaped KRFCavity c d0) by (eapply ctor_ok; [|exact HC]; discriminate).
    destruct (advance_ok w W KRFCavity c d0 false s d (Ok s1) SH A E) as [O1 O2].
    destruct (both_bounce KRFCavity c d0 s d s1 Hk (or_intror HP) HC A I E O1) as [[B1 B2] _].
    exact (cav_returns c d0 s d s1 t HC HP A I E (O2 _ eq_refl) B1 At R).
Qed.
Lemma all_works c m es us i n st :
  new_machine (moment_reg w) c = Ok m -> tfind "elements" c = Some (TCfgs es) ->
  Forall strips_to_some es -> smooth (fun r s => r = false /\ aligned s) strips_to_some m us ->
  (N.of_nat (List.length es) <= SIZE_MAX)%N -> along (entries m es us) i n both ->
  aligned (st_body st) -> all_moving (st_body st) -> Forall unit_last (ms_m0 (st_body st)) -> (Z.of_nat n <= INT_MAX)%Z ->
  exists p f p' g,
    propagate (uses m us) st (N.of_nat i) (Z.of_nat n) = Some p /\ pr_end p = Ok f /\
    propagate (uses m (us ++ [UProp st (N.of_nat i) (Z.of_nat n)])) f (N.of_nat (i + n) - 1) (- Z.of_nat n) = Some p' /\
    pr_end p' = Ok g /\ restored (st_body st) (st_body g).
Proof. intros. eapply (machine_works w W steady both both_bounce both_returns); eauto. split; auto. Qed.
End W.

(** ** An example *)
Definition cavity : tcfg := TCfg [("L", TNum done); ("name", TStr "c"); ("type", TStr "rfcavity")] [].
Definition powered : list tcfg := [magnet; cavity; lens done].
Lemma world0_keeps num a : cavities_keep_moving (world0 num a).
Proof. split; cbn; intros; congruence. Qed.
Lemma cavity_sound num a : sound_cavity (world0 num a) cavity.
Proof.
  split; [repeat split|]. split; [intros p _; cbn; eauto|]. intros phi p T _ E R. exists p. split; [reflexivity|]. split; [exact E|exact R].
Qed.
Lemma guides_work a : works (world0 one_num a) magnet /\ works (world0 one_num a) (lens done).
Proof.
  split; (split; [apply guides_described|split; [apply guides_equipped|split; [apply guides_proper|discriminate]]]).
Qed.
Lemma state0_unit n : Forall unit_last (ms_m0 (state0 n)).
Proof. apply Forall_forall. intros v Hv. apply repeat_spec in Hv. subst v. reflexivity. Qed.
Lemma powered_runs a : exists m, new_machine (moment_reg (world0 one_num a)) (mconf powered) = Ok m /\
  Forall strips_to_some powered /\
  along (entries m powered []) 0 3 (fun c => works (world0 one_num a) c \/ sound_cavity (world0 one_num a) c).
Proof.
  eexists. split; [reflexivity|]. split; [repeat constructor; discriminate|].
  destruct (guides_work a) as [G1 G2].
  intros [|[|[|j]]] Hj; [..|lia]; cbn [entries fold_left powered nth_error].
  - exists magnet. auto.
  - exists cavity. split; auto. right. apply cavity_sound.
  - exists (lens done). auto.
Qed.
Lemma guides_along a m : new_machine (moment_reg (world0 one_num a)) (mconf guides) = Ok m ->
  along (entries m guides [UReconf 1 (lens done)]) 0 2 (works (world0 one_num a)).
Proof.
  intros Hm j Hj. destruct (guides_runs a) as (_ & m' & Hm' & _ & _ & _ & E1 & E2). assert (m' = m) as -> by congruence.
  destruct (guides_work a) as [G1 G2]. destruct j as [|[|j]]; [| |lia]; eauto.
Qed.
