(** Cavities that undo backward what they did forward. *)
From Coq Require Import Reals List String Bool NArith ZArith Arith Lia Lra.
From Verif Require Import SMap SMap_Proofs Dbl Config_Spec Mat Mat_Proofs Minv Minv_Proofs Machine_Model Machine_Spec Machine_Proofs
  Machine2_Proofs Machine4_Proofs Linear_Model Linear_Spec Linear_Proofs Linear2_Proofs Linear3_Proofs.
From Verif Require Import Moment_Model Moment_Spec Motion_Spec Round_Spec Moment_Proofs Moment2_Proofs Moment3_Proofs Moment4_Proofs
  Moment5_Proofs Moment6_Proofs Motion_Proofs Motion2_Proofs Motion3_Proofs Motion4_Proofs Motion5_Proofs Round_Proofs Round2_Proofs Round3_Proofs.
Import ListNotations.
Open Scope R_scope.
Open Scope string_scope.
Open Scope list_scope.

Section W.
Variable w : world.
Notation num := (w_num w).

Lemma fwd_apply c d s ref real d' s' :
  cav_apply w c d false s ref real = (d', Ok s') ->
  ms_pos s' = ms_pos s + md_len d /\
  forall j pin p M IM T v m, nth_error (md_real_in d) j = Some pin -> nth_error real j = Some p ->
    nth_error (md_mis d) j = Some (M, IM) -> nth_error (md_tm d) j = Some T ->
    nth_error (ms_m0 s) j = Some v -> nth_error (ms_m1 s) j = Some m ->
    let out := cav_forward w c ref pin p M IM T v m in
    nth_error (ms_m0 s') j = Some (fst (fst (fst out))) /\ nth_error (ms_m1 s') j = Some (snd (fst (fst out))) /\
    nth_error (md_tm d') j = Some (snd out) /\
    ((j < List.length (ms_tm s))%nat -> nth_error (ms_tm s') j = Some (snd (fst out))).
Proof.
  intros H. unfold cav_apply in H. destruct (_ || _)%bool; [discriminate|]. cbv zeta in H. cbn [negb] in H.
  match type of H with context [map snd ?o] => set (outs := o) in * end.
  apply pair_eq in H as [<- H].
  apply rbind_ok in H as (m0 & H0 & H). apply rbind_ok in H as (m1 & H1 & H). apply rbind_ok in H as (tm & H2 & H).
  apply calc_keeps in H as (K1 & _ & _ & K4 & K5 & K6). cbn [ms_pos ms_m0 ms_m1 ms_tm] in *. split; [exact K1|].
  intros j pin p M IM T v m Hi Hp HM HT Hv Hm. set (out := cav_forward w c ref pin p M IM T v m).
  assert (HO : nth_error outs j = Some out).
  { unfold outs, cells_of. exact (map_nth_error (fun '(p_in, (p, (M, IM, T, (v, m)))) => cav_forward w c ref p_in p M IM T v m) j _
      (nth_combine _ _ _ _ _ Hi (nth_combine _ _ _ _ _ Hp (nth_combine _ _ _ _ _ (nth_combine _ _ _ _ _ HM HT) (nth_combine _ _ _ _ _ Hv Hm))))). }
  rewrite K4, K5. split; [exact (over_nth _ _ _ _ _ _ _ H0 HO Hv)|]. split; [exact (over_nth _ _ _ _ _ _ _ H1 HO Hm)|].
  cbn [with_tm md_tm]. split; [rewrite nth_error_app1|].
  - apply map_nth_error. exact HO.
  - rewrite map_length. eapply nth_lt; eauto.
  - intros Hj. destruct (nth_ex (ms_tm s) j _ eq_refl Hj) as [t Ht]. rewrite K6. exact (over_nth _ _ _ _ _ _ _ H2 HO Ht).
Qed.
Lemma back_apply c d s ref real d' s' :
  cav_apply w c d true s ref real = (d', Ok s') ->
  ms_pos s' = ms_pos s - md_len d /\
  forall j pin p M IM T v m, nth_error (md_real_in d) j = Some pin -> nth_error real j = Some p ->
    nth_error (md_mis d) j = Some (M, IM) -> nth_error (md_tm d) j = Some T ->
    nth_error (ms_m0 s) j = Some v -> nth_error (ms_m1 s) j = Some m ->
    exists X, inverse (mmul 7 IM (mmul 7 T M)) = Ok X /\
    nth_error (ms_m0 s') j = Some (mapp 7 X v) /\ nth_error (ms_m1 s') j = Some (sandwich X m).
Proof.
  intros H. unfold cav_apply in H. destruct (_ || _)%bool; [discriminate|]. cbv zeta in H. cbn [negb] in H.
  apply pair_eq in H as [<- H]. apply rbind_ok in H as (outs & HR & H).
  apply rbind_ok in H as (m0 & H0 & H). apply rbind_ok in H as (m1 & H1 & H). apply rbind_ok in H as (tm & H2 & H).
  apply calc_keeps in H as (K1 & _ & _ & K4 & K5 & _). cbn [ms_pos ms_m0 ms_m1] in *. split; [exact K1|].
  intros j pin p M IM T v m Hi Hp HM HT Hv Hm.
  destruct (rmap_nth _ _ _ j _ HR (nth_combine _ _ _ _ _ Hi (nth_combine _ _ _ _ _ Hp (nth_combine _ _ _ _ _ (nth_combine _ _ _ _ _ HM HT) (nth_combine _ _ _ _ _ Hv Hm)))))
    as (o & HO & HB). unfold cav_backward in HB. apply rbind_ok in HB as (X & HX & HB). exists X. split; [exact HX|].
  rewrite K4, K5. assert (E : o = (mapp 7 X v, sandwich X m, X)) by (change (mapp 7 X v) with (mapp msize X v); congruence). subst o.
  split; [exact (over_nth _ _ _ _ _ _ _ H0 HO Hv)|]. exact (over_nth _ _ _ _ _ _ _ H1 HO Hm).
Qed.
Lemma cells_nth c len phi ps : forall tm tm' l j p, cav_cells w c len phi ps tm = (tm', Ok l) -> nth_error ps j = Some p ->
  exists T p', cav_cell w c len phi p = (T, Ok p') /\ nth_error tm' j = Some T /\ nth_error l j = Some p'.
Proof.
  induction ps as [|q ps IH]; intros tm tm' l j p H Hp; [destruct j; discriminate|]. cbn [cav_cells] in H.
  destruct tm as [|x tm]; [discriminate|]. destruct (cav_cell w c len phi q) as [T [q'|e]] eqn:E; [|discriminate].
  destruct (cav_cells w c len phi ps tm) as [tm2 r2] eqn:E2. apply pair_eq in H as [<- H]. apply rbind_ok in H as (l2 & -> & H).
  apply (f_equal (fun r => match r with Ok x => x | Throw _ => [] end)) in H. subst l.
  destruct j as [|j]; cbn [nth_error] in *.
  - apply some_eq in Hp. subst q. eauto.
  - eapply IH; eauto.
Qed.
Lemma miss_at d ref real mis j p : cav_misalign d ref real = (mis, None) -> List.length (md_mis d) = List.length real ->
  nth_error real j = Some p -> exists M IM, nth_error mis j = Some (M, IM) /\ get_misalign (md_sh d) (md_len d) ref p = Ok (M, IM).
Proof.
  unfold cav_misalign. intros H L Hp. destruct (nth_ex (md_mis d) j _ L (nth_lt _ _ _ Hp)) as [a Ha].
  destruct (run_nth _ _ _ _ _ _ _ H Hp Ha) as (b & B1 & B2). destruct (get_misalign _ _ ref p) as [[M IM]|]; [|discriminate].
  apply pair_eq in B2 as [<- _]. eauto.
Qed.

(** Forward, by a new element. *)
Lemma cav_does c d0 s d s1 : fresh d0 -> aligned s -> advance_cav w c d0 false s = (d, Ok s1) ->
  exists ref phi reals,
    w_cav_ref w c (recalc (ms_ref s)) = Ok (ref, phi) /\ List.length reals = List.length (ms_real s) /\
    md_ref_in d = Some (recalc (ms_ref s)) /\ md_real_in d = map recalc (ms_real s) /\
    md_ref_out d = Some (recalc ref) /\ md_real_out d = map recalc reals /\
    List.length (md_mis d) = List.length (ms_real s) /\
    ms_ref s1 = recalc ref /\ ms_real s1 = map recalc reals /\ ms_pos s1 = ms_pos s + md_len d0 /\
    forall j p v m, nth_error (ms_real s) j = Some p -> nth_error (ms_m0 s) j = Some v -> nth_error (ms_m1 s) j = Some m ->
    exists p' T M IM, cav_cell w c (md_len d0) phi (recalc p) = (T, Ok p') /\ nth_error reals j = Some p' /\
      get_misalign (md_sh d0) (md_len d0) ref p' = Ok (M, IM) /\
      let out := cav_forward w c (recalc ref) (recalc p) (recalc p') M IM T v m in
      nth_error (ms_m0 s1) j = Some (fst (fst (fst out))) /\ nth_error (ms_m1 s1) j = Some (snd (fst (fst out))) /\
      nth_error (md_tm d) j = Some (snd out) /\ nth_error (ms_tm s1) j = Some (snd (fst out)).
Proof.
  intros F A H. rewrite cav_eq in H by (apply fresh_miss; auto). unfold cav_miss in H. cbv zeta in H.
  assert (A1 := recalc_aligned s A). set (s' := ms_recalc s) in *. destruct (note_shape d0 s') as (M0 & M1 & M2).
  change (ms_ref s') with (recalc (ms_ref s)) in H.
  destruct (w_cav_ref w c (recalc (ms_ref s))) as [[ref phi]|e] eqn:CR; [|discriminate].
  destruct (cav_cells w c _ _ _ _) as [tm [reals|e]] eqn:CC; [|discriminate].
  match type of H with context [cav_misalign ?x ?a ?b] => destruct (cav_misalign x a b) as [mis [e|]] eqn:CM end; [discriminate|].
  assert (LR : List.length (ms_real s') = List.length (ms_real s)) by apply map_length.
  destruct (cells_length w _ _ _ _ _ _ _ CC) as [L1 L2].
  exists ref, phi, reals. split; [reflexivity|]. split; [congruence|].
  assert (H' := H). apply cav_apply_parts in H' as (E1 & E2 & E3 & E4 & E5 & E6).
  assert (EM : md_mis d = mis).
  { unfold cav_apply in H. destruct (_ || _)%bool; [discriminate|]. cbn [negb] in H. apply pair_eq in H as [<- _]. reflexivity. }
  cbn [with_out with_mis with_tm with_phi note_input with_in md_ref_in md_real_in md_ref_out md_real_out] in E3, E4, E5, E6.
  rewrite E3, E4, E5, E6, EM.
  assert (LM : List.length mis = List.length (ms_real s)).
  { unfold cav_misalign in CM. assert (Q := run_length _ _ _ _ _ CM). cbn [with_tm with_phi md_mis] in Q. congruence. }
  repeat (split; [first [reflexivity | exact LM | exact E1 | exact E2]|]).
  destruct (fwd_apply _ _ _ _ _ _ _ H) as [P1 P2].
  split; [exact P1|]. intros j p v m Hp Hv Hm.
  assert (Hp' : nth_error (ms_real s') j = Some (recalc p)) by (apply map_nth_error; auto).
  destruct (cells_nth _ _ _ _ _ _ _ _ _ CC Hp') as (T & p' & C1 & C2 & C3).
  destruct (miss_at _ _ _ _ _ _ CM ltac:(cbn [with_tm with_phi md_mis]; congruence) C3) as (M & IM & N1 & N2).
  exists p', T, M, IM. split; [exact C1|]. split; [exact C3|]. split; [exact N2|].
  destruct (P2 j (recalc p) (recalc p') M IM T v m) as (Q1 & Q2 & Q3 & Q4); auto; [apply map_nth_error; exact C3|].
  split; [exact Q1|]. split; [exact Q2|]. split; [exact Q3|]. apply Q4.
  destruct A as (_ & _ & _ & A). change (ms_tm s') with (ms_tm s). rewrite A. eapply nth_lt; eauto.
Qed.
(** Backward, by the same element. *)
Lemma cav_undoes c d s d' s1 rin rout : aligned s ->
  md_ref_in d = Some rin -> md_ref_out d = Some rout -> List.length (md_real_in d) = List.length (ms_real s) ->
  List.length (md_real_out d) = List.length (ms_real s) ->
  List.length (md_mis d) = List.length (ms_real s) -> advance_cav w c d true s = (d', Ok s1) ->
  let back i o p := set_Ek (add_phis p (- (p_phis o - p_phis i))) (p_Ek i) in
  ms_ref s1 = recalc (back rin rout (recalc (ms_ref s))) /\ List.length (ms_real s1) = List.length (ms_real s) /\
  ms_pos s1 = ms_pos s - md_len d /\
  forall j p v m i o T, nth_error (ms_real s) j = Some p -> nth_error (ms_m0 s) j = Some v -> nth_error (ms_m1 s) j = Some m ->
    nth_error (md_real_in d) j = Some i -> nth_error (md_real_out d) j = Some o -> nth_error (md_tm d) j = Some T ->
    nth_error (ms_real s1) j = Some (recalc (back i o (recalc p))) /\
    exists M IM X, get_misalign (md_sh d) (md_len d) (back rin rout (recalc (ms_ref s))) (back i o (recalc p)) = Ok (M, IM) /\
      inverse (mmul 7 IM (mmul 7 T M)) = Ok X /\
      nth_error (ms_m0 s1) j = Some (mapp 7 X v) /\ nth_error (ms_m1 s1) j = Some (sandwich X m).
Proof.
  intros A RI RO L1 L2 L3 H back. unfold advance_cav in H. cbv zeta in H.
  destruct (negb (check_backward d (ms_recalc s))); [discriminate|]. rewrite RI, RO in H.
  destruct (Nat.ltb _ _); [discriminate|].
  match type of H with context [over ?f ?xs (ms_real (ms_recalc s))] => destruct (over f xs (ms_real (ms_recalc s))) as [real|e] eqn:OV end; [|discriminate].
  match type of H with context [cav_misalign ?x ?a ?b] => destruct (cav_misalign x a b) as [mis [e|]] eqn:CM end; [discriminate|].
  assert (A1 := recalc_aligned s A).
  assert (LR : List.length (ms_real (ms_recalc s)) = List.length (ms_real s)) by apply map_length.
  assert (LV := over_length _ _ _ _ OV). rewrite LR in LV.
  assert (H' := H). apply cav_apply_parts in H' as (E1 & E2 & _).
  destruct (back_apply _ _ _ _ _ _ _ H) as [P1 P2].
  split; [exact E1|]. split; [rewrite E2, map_length; exact LV|]. split; [exact P1|].
  intros j p v m i o T Hp Hv Hm Hi Ho HT.
  assert (HR : nth_error real j = Some (back i o (recalc p))).
  { exact (over_nth _ _ _ _ _ _ _ OV (nth_combine _ _ _ _ _ Hi Ho) (map_nth_error recalc _ _ Hp)). }
  split; [rewrite E2; apply map_nth_error; exact HR|].
  assert (HF : nth_error (firstn (List.length (md_real_in d)) real) j = Some (back i o (recalc p))).
  { rewrite nth_firstn. assert (Hj := nth_lt _ _ _ Hi). apply Nat.ltb_lt in Hj. rewrite Hj. exact HR. }
  destruct (miss_at _ _ _ _ _ _ CM ltac:(rewrite firstn_length; lia) HF) as (M & IM & N1 & N2).
  destruct (P2 j i (recalc (back i o (recalc p))) M IM T v m) as (X & X1 & X2 & X3); auto.
  { apply map_nth_error; exact HR. }
  exists M, IM, X. auto.
Qed.
Hypothesis KA : cavities_affine w.
Hypothesis KI : cavities_keep_ions w.
Hypothesis KM : cavities_keep_moving w.
Lemma scale_none M : meq 7 (scale_rows (1, 1, 1) M) M.
Proof. intros i j Hi Hj. rewrite <- scale_rows_diag by auto. unfold dvec. idx7 i Hi; idx7 j Hj; cbv beta iota; ring. Qed.
(** The matrix of a cavity takes the centroid where the particle is. *)
Lemma cav_matrix c ref pin p M IM T v m : affine M -> affine T -> unit_last v -> (forall ref p q m x, w_cav_growth w c ref p q m x = (1, 1, 1)) ->
  let out := cav_forward w c ref pin p M IM T v m in
  veq 7 (fst (fst (fst out))) (mapp 7 (mmul 7 IM (mmul 7 (snd out) M)) v) /\
  meq 7 (snd (fst (fst out))) (sandwich (mmul 7 IM (mmul 7 (snd out) M)) m) /\ affine (snd out).
Proof.
  intros HM HT HU HG. unfold cav_forward. cbv zeta. rewrite HG. cbn [fst snd]. change msize with 7%nat.
  set (v1 := mapp 7 M v). set (T0 := mset (mset T PS_S 6 0) PS_PS 6 0). set (v2 := mapp 7 T0 v1).
  set (s0 := p_phis p - p_phis ref). set (s1 := (p_Ek p - p_Ek ref) / MeVtoeV).
  set (T1 := mset (mset T0 PS_S 6 (- v2 PS_S + s0)) PS_PS 6 (- v2 PS_PS + s1)).
  assert (V1 : v1 6%nat = 1) by (unfold v1; rewrite last_one; auto).
  assert (E : veq 7 (vset (vset v2 PS_S s0) PS_PS s1) (mapp 7 T1 v1)).
  { assert (K : forall i, (i < 7)%nat -> mapp 7 T1 v1 i = mapp 7 T0 v1 i + (T1 i 6%nat - T0 i 6%nat)).
    { intros i Hi. unfold mapp. cbn [sumn]. rewrite V1.
      assert (K : forall j, (j < 6)%nat -> T1 i j = T0 i j).
      { intros j Hj. unfold T1, mset. rewrite !(proj2 (Nat.eqb_neq j 6)), !andb_false_r by lia. reflexivity. }
      rewrite !K by lia. ring. }
    intros i Hi. rewrite K by auto. fold v2. unfold vset, T1, mset.
    idx7 i Hi; unfold PS_S, PS_PS; cbn [Nat.eqb andb]; try ring.
    - unfold T0, mset. unfold PS_S, PS_PS; cbn [Nat.eqb andb]. ring.
    - unfold T0, mset. unfold PS_S, PS_PS; cbn [Nat.eqb andb]. ring. }
  split; [rewrite E; unfold v1; rewrite !mapp_mmul; reflexivity|]. split.
  - rewrite (sandwich_meq IM IM _ _ ltac:(reflexivity) (scale_none _)). rewrite !sandwich_twice.
    apply sandwich_meq; [|reflexivity]. rewrite <- ?mmul_assoc. reflexivity.
  - unfold T1, T0. repeat apply affine_set; auto; unfold PS_S, PS_PS; lia.
Qed.

Definition steady (s : mstate) : Prop := all_moving s /\ Forall unit_last (ms_m0 s).
Lemma moving_recalc p : moving p -> moving (recalc p). Proof. auto. Qed.
Lemma moving_set_K p x : moving p -> moving (set_K p x). Proof. auto. Qed.
Lemma same_set p q x : same_ion p q -> same_ion p (set_K q x). Proof. auto. Qed.
Lemma cell_inv c len phi p T p' : cav_cell w c len phi p = (T, Ok p') ->
  affine T /\ same_ion p p' /\ (moving p -> moving p').
Proof.
  unfold cav_cell. set (T0 := mset _ _ _ _). destruct (w_cav_one w c phi p T0) as [T' r] eqn:E. intros H.
  apply pair_eq in H as [<- H]. apply rbind_ok in H as (q & Hq & H). subst r.
  assert (X : snd (w_cav_one w c phi p T0) = Ok q) by (rewrite E; reflexivity).
  assert (Y : fst (w_cav_one w c phi p T0) = T') by (rewrite E; reflexivity).
  apply (f_equal (fun r => match r with Ok x => x | Throw _ => q end)) in H. subst p'. split; [|split].
  - rewrite <- Y. apply KA. unfold T0. repeat apply affine_set; try (unfold PS_X, PS_Y; lia). apply affine_id.
  - apply same_set. destruct KI as [_ K]. eapply K; eauto.
  - intros M. apply moving_set_K. destruct KM as [_ K]. eapply K; eauto.
Qed.
Lemma misalign_affine sh len ref p M IM : get_misalign sh len ref p = Ok (M, IM) -> affine M /\ affine IM.
Proof. exact (P_misalign affine affine_id affine_mul affine_inv affine_set sh len ref p M IM). Qed.
Lemma PB p o q : same_ion p o -> same_particle (recalc o) q ->
  same_particle p (recalc (set_Ek (add_phis (recalc q) (- (p_phis (recalc o) - p_phis (recalc p)))) (p_Ek (recalc p)))).
Proof.
  intros (I1 & I2 & I3 & I4) ((J1 & J2 & J3 & J4) & J5 & J6).
  change (p_phis (recalc o)) with (p_phis o). change (p_phis (recalc p)) with (p_phis p). change (p_Ek (recalc p)) with (p_Ek p).
  change (p_phis q = p_phis o) in J6. change (p_Z q = p_Z o) in J1. change (p_Q q = p_Q o) in J2. change (p_Es q = p_Es o) in J3.
  change (p_freq q = p_freq o) in J4.
  split; [|split].
  - split; [|split; [|split]]; [change (p_Z q = p_Z p)|change (p_Q q = p_Q p)|change (p_Es q = p_Es p)|change (p_freq q = p_freq p)]; congruence.
  - reflexivity.
  - change (p_phis q + - (p_phis o - p_phis p) = p_phis p). rewrite J6. ring.
Qed.
Lemma cav_bounce c d0 s d s1 : mom_ctor w KRFCavity c = Ok d0 -> plain_cavity w c -> aligned s -> steady s ->
  advance_cav w c d0 false s = (d, Ok s1) -> aligned s1 ->
  steady s1 /\ forall t d2 t2, aligned t -> restored s1 t -> advance_cav w c d true t = (d2, Ok t2) -> aligned t2 -> restored s t2.
Proof.
  intros HC (PC & P1 & P2 & PG) A ((MR & MV) & UL) H A1. assert (F := ctor_fresh w _ _ _ HC).
  destruct (ctor_data _ _ _ _ HC) as (C1 & C2 & C3).
  destruct (cav_does _ _ _ _ _ F A H) as (ref & phi & reals & Y1 & Y2 & Y3 & Y4 & Y5 & Y6 & Y7 & Y8 & Y9 & Y10 & Y11).
  assert (ST := cav_left w _ _ _ _ _ F H). destruct ST as (S1 & S2 & _).
  assert (SP : sh_pitch (md_sh d0) = 0 /\ sh_yaw (md_sh d0) = 0) by (rewrite C2; split; assumption). destruct SP as [SP SY].
  assert (A' := A). destruct A' as (A2 & A3 & A4 & A5).
  assert (X : forall j p, nth_error (ms_real s) j = Some p -> exists v m, nth_error (ms_m0 s) j = Some v /\ nth_error (ms_m1 s) j = Some m).
  { intros j p Hp. assert (Hj := nth_lt _ _ _ Hp). destruct (nth_ex (ms_m0 s) j _ A3 Hj) as [v ?]. destruct (nth_ex (ms_m1 s) j _ A4 Hj) as [m ?]. eauto. }
  split.
  { split; [split|].
    - rewrite Y8. apply moving_recalc. destruct KM as [K _]. eapply K; eauto.
    - rewrite Y9. apply Forall_forall. intros p' Hp'. apply in_map_iff in Hp' as (q & <- & Hq). apply moving_recalc.
      apply In_nth_error in Hq as [j Hj]. destruct (nth_ex (ms_real s) j _ eq_refl ltac:(rewrite <- Y2; eapply nth_lt; eauto)) as [p Hp].
      destruct (X j p Hp) as (v & m & Hv & Hm). destruct (Y11 j p v m Hp Hv Hm) as (p' & T & M & IM & Q1 & Q2 & _).
      rewrite Hj in Q2. apply some_eq in Q2. subst p'. apply (cell_inv _ _ _ _ _ _ Q1). apply moving_recalc.
      rewrite Forall_forall in MV. apply MV. eapply nth_error_In; eauto.
    - apply Forall_forall. intros u Hu. apply In_nth_error in Hu as [j Hj]. assert (Lj := nth_lt _ _ _ Hj).
      destruct A1 as (_ & B3 & _). rewrite B3, Y9, map_length, Y2 in Lj.
      destruct (nth_ex (ms_real s) j _ eq_refl Lj) as [p Hp]. destruct (X j p Hp) as (v & m & Hv & Hm).
      destruct (Y11 j p v m Hp Hv Hm) as (p' & T & M & IM & Q1 & Q2 & Q3 & Q4 & Q5 & Q6 & _).
      rewrite Hj in Q4. apply some_eq in Q4. subst u. destruct (misalign_affine _ _ _ _ _ _ Q3) as [AM AI].
      assert (VU : unit_last v) by (rewrite Forall_forall in UL; apply UL; eapply nth_error_In; eauto).
      destruct (cav_matrix c (recalc ref) (recalc p) (recalc p') M IM T v m AM (proj1 (cell_inv _ _ _ _ _ _ Q1)) VU PG) as (V1 & V2 & V3).
      unfold unit_last. rewrite (V1 6%nat ltac:(lia)). rewrite last_one; [exact VU|].
      apply affine_mul; auto. apply affine_mul; auto. }
  intros t d2 t2 At R HT At2.
  assert (R' := R). destruct R' as (RP & RR & RC1 & RC2 & RC3).
  assert (LT : List.length (ms_real t) = List.length (ms_real s)).
  { rewrite <- (Forall2_len _ _ _ RC1), Y9, map_length. exact Y2. }
  destruct (cav_undoes c d t d2 t2 _ _ At Y3 Y5) as (Z1 & Z2 & Z3 & Z4); auto.
  { rewrite Y4, map_length. auto. } { rewrite Y6, map_length. congruence. } { congruence. }
  split; [rewrite Z3, RP, Y10, S1; ring|]. split.
  { rewrite Z1. apply PB.
    - destruct KI as [K _]. specialize (K _ _ _ _ Y1). exact K.
    - rewrite Y8 in RR. exact RR. }
  apply lengths_same; auto; [congruence|].
  intros j p v m q2 u2 x2 Hp Hv Hm Hq2 Hu2 Hx2.
  destruct (Y11 j p v m Hp Hv Hm) as (p' & T & M & IM & Q1 & Q2 & Q3 & Q4 & Q5 & Q6 & _).
  assert (Hp1 : nth_error (ms_real s1) j = Some (recalc p')) by (rewrite Y9; apply map_nth_error; auto).
  destruct (Forall2_nth _ _ _ RC1 _ _ Hp1) as (q & Hq & QQ). destruct (Forall2_nth _ _ _ RC2 _ _ Q4) as (u & Hu & U2).
  destruct (Forall2_nth _ _ _ RC3 _ _ Q5) as (x & Hx & X2).
  assert (Hi : nth_error (md_real_in d) j = Some (recalc p)) by (rewrite Y4; apply map_nth_error; auto).
  assert (Ho : nth_error (md_real_out d) j = Some (recalc p')) by (rewrite Y6; apply map_nth_error; auto).
  destruct (Z4 j q u x (recalc p) (recalc p') _ Hq Hu Hx Hi Ho Q6) as (W1 & M' & IM' & K & W2 & W3 & W4 & W5).
  rewrite W1 in Hq2. apply some_eq in Hq2. subst q2. rewrite W4 in Hu2. apply some_eq in Hu2. subst u2.
  rewrite W5 in Hx2. apply some_eq in Hx2. subst x2.
  destruct (cell_inv _ _ _ _ _ _ Q1) as (AT & IO & _).
  split; [apply PB; auto|].
  destruct (misalign_affine _ _ _ _ _ _ Q3) as [AM AI].
  assert (VU : unit_last v) by (rewrite Forall_forall in UL; apply UL; eapply nth_error_In; eauto).
  destruct (cav_matrix c (recalc ref) (recalc p) (recalc p') M IM T v m AM AT VU PG) as (V1 & V2 & V3).
  set (out := cav_forward w c (recalc ref) (recalc p) (recalc p') M IM T v m) in *.
  rewrite S1, S2 in W2. destruct (level_misalign _ _ _ _ _ _ SP SY Q3) as (RI & G1 & G2 & G3).
  destruct (level_misalign _ _ _ _ _ _ SP SY W2) as (RI' & G1' & G2' & G3').
  assert (RI' = RI) as -> by congruence.
  apply inverse_ok in W3 as [W3 _].
  assert (EM : meq 7 (mmul 7 K (mmul 7 IM (mmul 7 (snd out) M))) mid).
  { rewrite G2, G3, <- G2', <- G3'. exact W3. }
  split.
  - rewrite <- U2, V1. rewrite <- mapp_mmul, EM. symmetry. apply mid_app.
  - rewrite <- (sandwich_meq K K _ _ ltac:(reflexivity) X2). rewrite (sandwich_meq K K _ _ ltac:(reflexivity) V2). symmetry. apply sandwich_back. exact EM.
Qed.

Lemma guided_unit k c d0 s d s1 : mom_ctor w k c = Ok d0 -> is_a (mkind_name k) c -> guiding c ->
  (is_a "tmatrix" c -> forall l m, vec_at c "matrix" = Some l -> fills_mat (w_num w) l m -> affine m) ->
  aligned s -> aligned s1 -> advance_of w k c d0 false s = (d, Ok s1) -> Forall unit_last (ms_m0 s) -> Forall unit_last (ms_m0 s1).
Proof.
  intros HC Hk HG HT A A1 H UL. assert (HK := guiding_kind _ _ Hk HG). assert (F := ctor_fresh w _ _ _ HC).
  destruct (ctor_data _ _ _ _ HC) as (C1 & _).
  assert (LE : List.length (ms_real s1) = List.length (ms_real s)).
  { assert (NS : k <> KStripper) by (intros ->; cbn [In] in HK; decompose [or] HK; try contradiction; discriminate).
    assert (NR : k <> KRFCavity) by (intros ->; cbn [In] in HK; decompose [or] HK; try contradiction; discriminate).
    assert (NO : k <> KSource) by (intros ->; cbn [In] in HK; decompose [or] HK; try contradiction; discriminate).
    destruct (step_kept w (fun _ _ => True)) with (k := k) (c := c) (d := d0) (r := false) (s := s) (d' := d) (s' := s1) as [_ [_ K2]]; auto.
    - intros ->. contradiction.
    - apply (ctor_ok w) in HC; auto.
    - eapply ctor_noted; eauto.
    - symmetry. eapply Forall2_len; eauto. }
  assert (X : exists f, setup w k d0 c (recalc (ms_ref s)) = Ok f /\ cell_done f false s s1).
  { cbn [In] in HK. assert (B : k = KSBend \/ forall d b s, advance_of w k c d b s = advance_base w k c d b s)
      by (decompose [or] HK; try contradiction; subst k; auto). destruct B as [->|B].
    - cbn [advance_of] in H. destruct (sbend_does w c d0 false s d s1 F C1 A H) as (f & G1 & _ & _ & _ & G5). eauto.
    - rewrite B in H. destruct (base_does w k c d0 false s d s1 F C1 A H) as (f & G1 & _ & _ & _ & G5). eauto. }
  destruct X as (f & Sf & Cf). apply Forall_forall. intros u Hu. apply In_nth_error in Hu as [j Hj]. assert (Lj := nth_lt _ _ _ Hj).
  destruct A1 as (_ & B3 & _). destruct A as (_ & A3 & A4 & _). rewrite B3, LE in Lj.
  destruct (nth_ex (ms_real s) j _ eq_refl Lj) as [p Hp]. destruct (nth_ex (ms_m0 s) j _ A3 Lj) as [v Hv]. destruct (nth_ex (ms_m1 s) j _ A4 Lj) as [m Hm].
  destruct (Cf j p v m Hp Hv Hm) as (T & Y & T1 & T2 & T3 & T4 & T5). cbn [applied] in T2. subst Y.
  rewrite Hj in T4. apply some_eq in T4. subst u.
  assert (VU : unit_last v) by (rewrite Forall_forall in UL; apply UL; eapply nth_error_In; eauto).
  unfold unit_last. rewrite last_one; [exact VU|].
  assert (P := P_setup w affine affine_id affine_mul affine_inv affine_set affine_ver k d0 c (recalc (ms_ref s)) f).
  assert (Q : tmat_ok w affine k c).
  { intros -> l Hl. apply load_storage_ok in Hl as (E & L). apply (HT Hk l _ E). apply fills_mat_of; auto. }
  assert (Z := P Q Sf (recalc p) mid affine_id). rewrite T1 in Z. exact Z.
Qed.
Lemma all_bounce : bounces w steady (reversible w).
Proof.
  intros k c d0 s d s1 Hk HR HC A I H A1. destruct HR as [[HG HT]|HP].
  - destruct (guides_bounce w k c d0 s d s1 Hk HG HC A (proj1 I) H A1) as [B1 B2]. split; [|exact B2].
    split; [exact B1|]. exact (guided_unit k c d0 s d s1 HC Hk HG HT A A1 H (proj2 I)).
  - assert (k = KRFCavity) as ->. { destruct HP as [HP _]. assert (E := is_a_inj _ _ _ Hk HP). destruct k; try discriminate E; reflexivity. }
    exact (cav_bounce c d0 s d s1 HC HP A I H A1).
Qed.
End W.
