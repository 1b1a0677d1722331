(** Lines: consequences in the form of the theorems, and examples. *)
From Coq Require Import Reals List String Bool NArith ZArith Arith Lia Lra.
From Verif Require Import SMap SMap_Proofs Dbl Config_Spec Mat Mat_Proofs Minv Minv_Proofs Machine_Model Machine_Spec Machine_Proofs
  Machine2_Proofs Linear_Model Linear_Spec Linear_Proofs.
From Verif Require Import Moment_Model Moment_Spec Motion_Spec Round_Spec Moment_Proofs Moment2_Proofs Moment3_Proofs
  Moment6_Proofs Motion_Proofs Motion2_Proofs Motion3_Proofs Motion4_Proofs Motion5_Proofs
  Frame_Spec Frame_Proofs Area_Spec Area_Proofs Area2_Proofs Cut_Proofs Line_Spec Line_Proofs.
Import ListNotations.
Open Scope R_scope.
Open Scope string_scope.
Open Scope list_scope.

Lemma line_det w : sane w -> forall ecs s f f', travels w ecs s f -> travels w ecs s f' -> f = f'.
Proof. intros W ecs s f f' H H'. apply (turn_det w W ecs s); apply line_in_turn; assumption. Qed.
Lemma goes_areas w ec s f : sane w -> goes_through w ec s f ->
  described ec -> proper_magnet (w_num w) ec -> ~ is_a "tmatrix" ec ->
  moving (ms_ref s) -> Forall moving (ms_real s) ->
  forall j q, nth_error (ms_real s) j = Some q ->
  exists T, nth_error (ms_tm f) j = Some T /\
    ((is_a "sbend" ec -> made_for w ec (ms_ref s) q) -> keeps_areas (canonical (ms_ref s) q) T) /\
    (facing (w_num w) ec -> keeps_transverse_areas T).
Proof.
  intros W (c & m & es & us & i & st & p & st' & G1 & G3 & G4 & G5 & G6 & G7 & A & G9 & G10 & G11) HD HP HN HR HRs. subst s f.
  exact (moment_areas w c m es us i ec st p st' W G1 G3 G4 G5 G6 HD HP HN A HR HRs G9 G10).
Qed.

(** ** Examples *)
Lemma state2 : aligned (state0 2) /\ moving (ms_ref (state0 2)) /\ Forall moving (ms_real (state0 2)).
Proof. split; [apply (state0_aligned 1)|apply (state0_moving 2)]. Qed.
Lemma line_example a : sane (world0 nums a) /\ exists f, travels (world0 nums a) whole (state0 2) f.
Proof. split; [apply world0_sane|]. apply whole_runs; apply state2. Qed.
Lemma completes_example a : exists m,
  let st := mkSt 0 false (state0 2) in
  sane (world0 nums a) /\ new_machine (moment_reg (world0 nums a)) (mconf cut) = Ok m /\ Forall strips_to_some cut /\
  firstn 3 (skipn 1 (entries m cut [])) = tl cut /\
  Forall described (tl cut) /\ Forall (equipped (world0 nums a)) (tl cut) /\ Forall (proper_magnet nums) (tl cut) /\
  aligned (st_body st) /\ moving (ms_ref (st_body st)) /\ Forall moving (ms_real (st_body st)).
Proof.
  destruct (cut_fine a) as (F1 & F2 & F3). apply Forall_app in F1 as [_ F1], F2 as [_ F2], F3 as [_ F3].
  eexists. cbv zeta. split; [apply world0_sane|]. split; [reflexivity|]. split; [repeat constructor; unfold strips_to_some; discriminate|].
  split; [reflexivity|]. split; [exact (Forall_inv_tail F1)|]. split; [exact (Forall_inv_tail F2)|]. split; [exact (Forall_inv_tail F3)|]. apply state2.
Qed.
Lemma whole_fine a : Forall described whole /\ Forall (equipped (world0 nums a)) whole /\ Forall (proper_magnet nums) whole.
Proof. destruct (cut_fine a) as (F1 & F2 & F3). apply Forall_app in F1 as [F1 _], F2 as [F2 _], F3 as [F3 _]. auto. Qed.
Lemma position_example a : (sane (world0 nums a) /\ exists f, travels (world0 nums a) whole (state0 2) f) /\
  Forall described whole /\ Forall (proper_magnet nums) whole /\ line_extent nums whole (1 + (1 + (1 + 0))) /\
  moving (ms_ref (state0 2)) /\ Forall moving (ms_real (state0 2)).
Proof.
  split; [apply line_example|]. split; [apply (whole_fine a)|]. split; [apply (whole_fine a)|]. split; [|apply state2].
  assert (X : forall c, ~ Exists (fun t => is_a t c) ["marker"; "bpm"; "orbtrim"] -> real_at nums c "L" 0 = 1 -> extent nums c 1).
  { intros c H H1. split; [tauto|]. auto. }
  repeat (apply le_next; [apply X; [intros H; apply Exists_exists in H as (t & [<-|[<-|[<-|[]]]] & H); discriminate H|reflexivity]|]). apply le_none.
Qed.
Lemma made0 a ec : tfind "HdipoleFitMode" ec = None -> made_for (world0 nums a) ec (ms_ref (state0 2)) (ms_ref (state0 2)).
Proof. intros H. split; [reflexivity|]. intros fit F. unfold flagged in F. cbv zeta in F. rewrite H in F. subst fit. reflexivity. Qed.
Lemma one_goes a ec s : (ec = quad0 \/ exists L p1 p2, nums L <> 0 /\ ec = bend_of L p1 p2) -> aligned s -> moving (ms_ref s) -> Forall moving (ms_real s) ->
  exists f, goes_through (world0 nums a) ec s f.
Proof.
  intros HE A HR HRs.
  assert (X : exists m, new_machine (moment_reg (world0 nums a)) (mconf [ec]) = Ok m /\ Forall strips_to_some [ec] /\ described ec /\ equipped (world0 nums a) ec).
  { destruct (cut_fine a) as (F1 & F2 & _). rewrite Forall_forall in F1, F2.
    destruct HE as [->|(L & p1 & p2 & H & ->)].
    - eexists. split; [reflexivity|]. split; [repeat constructor; unfold strips_to_some; discriminate|]. split; [apply F1|apply F2]; cbn; auto.
    - eexists. split; [reflexivity|]. split; [repeat constructor; unfold strips_to_some; discriminate|].
      split; [apply Exists_exists; exists "sbend"; split; [cbn; tauto|reflexivity]|].
      split; [discriminate|]. split; [discriminate|]. split; [discriminate|]. split; [|discriminate]. intros _. split; [repeat constructor; discriminate|].
      intros fit F E. unfold flagged in F. cbn in F. congruence. }
  destruct X as (m & X1 & X3 & X4 & X5).
  destruct (moment_completes (world0 nums a) false (mconf [ec]) m [ec] [] 0 ec (mkSt 0 false s)
    (world0_sane nums a) X1 eq_refl X3 I eq_refl X4 X5 ltac:(discriminate) A HR HRs) as (p & f & P1 & P2).
  exists (st_body f), (mconf [ec]), m, [ec], [], 0%nat, (mkSt 0 false s), p, f.
  split; [exact X1|]. split; [reflexivity|]. split; [exact X3|]. split; [exact I|]. split; [reflexivity|]. split; [reflexivity|]. split; [exact A|].
  split; [exact P1|]. split; [exact P2|reflexivity].
Qed.
Lemma nums_done : nums done <> 0. Proof. change (nums done) with 1. lra. Qed.
Lemma nums_half : nums dhalf <> 0. Proof. change (nums dhalf) with (/ 2). lra. Qed.
Lemma bend_described L p1 p2 : described (bend_of L p1 p2).
Proof. apply Exists_exists; exists "sbend"; split; [cbn; tauto|reflexivity]. Qed.
Lemma areas_example a : exists ec f, ec = bend_of done done done /\
  sane (world0 nums a) /\ goes_through (world0 nums a) ec (state0 2) f /\ described ec /\ proper_magnet nums ec /\ ~ is_a "tmatrix" ec /\
  moving (ms_ref (state0 2)) /\ Forall moving (ms_real (state0 2)) /\ nth_error (ms_real (state0 2)) 1 = Some (ms_ref (state0 2)) /\
  made_for (world0 nums a) ec (ms_ref (state0 2)) (ms_ref (state0 2)) /\ facing nums ec.
Proof.
  destruct (one_goes a (bend_of done done done) (state0 2)) as [f G]; [right; exists done, done, done; split; [apply nums_done|reflexivity]|apply state2..|].
  exists (bend_of done done done), f. split; [reflexivity|]. split; [apply world0_sane|]. split; [exact G|]. split; [apply bend_described|].
  split; [apply bend_proper, nums_done|]. split; [discriminate|]. split; [apply state2|]. split; [apply state2|]. split; [reflexivity|].
  split; [apply made0; reflexivity|split; reflexivity].
Qed.
Lemma line_areas_example a : (sane (world0 nums a) /\ exists f, travels (world0 nums a) whole (state0 2) f) /\
  Forall described whole /\ Forall (fun c => ~ is_a "tmatrix" c) whole /\ Forall (proper_magnet nums) whole /\
  moving (ms_ref (state0 2)) /\ Forall moving (ms_real (state0 2)) /\
  nth_error (ms_real (state0 2)) 1 = Some (ms_ref (state0 2)) /\
  Forall (fun c => is_a "sbend" c -> made_for (world0 nums a) c (ms_ref (state0 2)) (ms_ref (state0 2))) whole.
Proof.
  split; [apply line_example|]. split; [apply (whole_fine a)|]. split; [repeat (apply Forall_cons; [discriminate|]); apply Forall_nil|].
  split; [apply (whole_fine a)|]. split; [apply state2|]. split; [apply state2|]. split; [reflexivity|].
  repeat (apply Forall_cons; [intros _; apply made0; reflexivity|]). apply Forall_nil.
Qed.
Lemma emittance_example a : (sane (world0 nums a) /\ exists f, travels (world0 nums a) [quad0; quad0] beam0 f) /\
  Forall straight [quad0; quad0] /\ Forall (upright nums) [quad0; quad0] /\ Forall (proper_magnet nums) [quad0; quad0] /\
  moving (ms_ref beam0) /\ Forall moving (ms_real beam0) /\
  exists S, nth_error (ms_m1 beam0) 1 = Some S /\ seventh_fixed S /\ emittance2 S 0 = 1.
Proof.
  destruct beam0_facts as (B1 & B2 & B3 & B4 & B5).
  assert (P : proper_magnet nums quad0) by (split; discriminate).
  split; [split; [apply world0_sane|]|].
  - destruct (cut_fine a) as (F1 & F2 & _). rewrite Forall_forall in F1, F2. assert (I1 : In quad0 (whole ++ cut)) by (cbn; auto).
    assert (X : exists m, new_machine (moment_reg (world0 nums a)) (mconf [quad0; quad0]) = Ok m) by (eexists; reflexivity). destruct X as [m Hm].
    assert (HQ : Forall strips_to_some [quad0; quad0]) by (repeat constructor; unfold strips_to_some; discriminate).
    destruct (completes (world0 nums a) (world0_sane nums a) (mconf [quad0; quad0]) m [quad0; quad0] Hm eq_refl HQ [quad0; quad0] [] 0 (mkSt 0 false beam0) I) as (p & f & P1 & P2);
      [unfold SIZE_MAX; cbn; lia|unfold INT_MAX; cbn; lia|reflexivity|repeat (apply Forall_cons; [auto|]); apply Forall_nil..|exact B1|exact B2|exact B3|].
    exists (st_body f), (mconf [quad0; quad0]), m, [quad0; quad0], [], 0%nat, (mkSt 0 false beam0), p, f.
    split; [exact Hm|]. split; [reflexivity|]. split; [exact HQ|]. split; [exact I|]. split; [unfold SIZE_MAX; cbn; lia|]. split; [unfold INT_MAX; cbn; lia|].
    split; [reflexivity|]. split; [reflexivity|]. split; [exact B1|]. split; [exact P1|]. split; [exact P2|reflexivity].
  - split. { repeat (apply Forall_cons; [apply Exists_exists; exists "quadrupole"; split; [cbn; tauto|reflexivity]|]); apply Forall_nil. }
    split. { repeat (apply Forall_cons; [repeat split|]); apply Forall_nil. }
    split. { repeat (apply Forall_cons; [exact P|]); apply Forall_nil. }
    split; [exact B2|]. split; [exact B3|]. exists (mset mid 6 6 0). split; [reflexivity|]. split.
    + intros i Hi. destruct i as [|[|[|[|[|[|[|i]]]]]]]; try (split; reflexivity); lia.
    + unfold emittance2, mset, mid. cbn. ring.
Qed.
Lemma halves_example a : exists f f1 f2, let w := world0 nums a in
  let ec := bend_of done done done in let ea := bend_of dhalf done dzero in let eb := bend_of dhalf dzero done in
  sane w /\ halves w ec ea eb /\ proper_magnet nums ec /\ moving (ms_ref (state0 2)) /\ Forall moving (ms_real (state0 2)) /\
  goes_through w ec (state0 2) f /\ goes_through w ea (state0 2) f1 /\ goes_through w eb f1 f2.
Proof.
  destruct state2 as (A & B & C). assert (W := world0_sane nums a).
  destruct (one_goes a (bend_of done done done) (state0 2)) as [f G]; [right; exists done, done, done; split; [apply nums_done|reflexivity]|assumption..|].
  destruct (one_goes a (bend_of dhalf done dzero) (state0 2)) as [f1 G1]; [right; exists dhalf, done, dzero; split; [apply nums_half|reflexivity]|assumption..|].
  destruct (extent_ex (world0 nums a) (bend_of dhalf done dzero)) as [x EX].
  assert (P := moment_pass (world0 nums a) _ _ _ _ W G1 (bend_described _ _ _) (bend_proper _ _ _ nums_half) EX B C).
  destruct (pass_moving (world0 nums a) _ _ _ _ A P B C) as [B1 C1].
  destruct (one_goes a (bend_of dhalf dzero done) f1) as [f2 G2]; [right; exists dhalf, dzero, done; split; [apply nums_half|reflexivity]|apply P|assumption..|].
  exists f, f1, f2. cbv zeta. split; [exact W|]. split; [apply cut_halves|]. split; [apply bend_proper, nums_done|]. auto.
Qed.
Lemma cut_line_example a : exists f f', let w := world0 nums a in
  let ec := bend_of done done done in let ea := bend_of dhalf done dzero in let eb := bend_of dhalf dzero done in
  sane w /\ halves w ec ea eb /\ proper_magnet nums ec /\ Forall described [quad0] /\ Forall (proper_magnet nums) [quad0] /\
  moving (ms_ref (state0 2)) /\ Forall moving (ms_real (state0 2)) /\
  travels w ([quad0] ++ ec :: [quad0]) (state0 2) f /\ travels w ([quad0] ++ ea :: eb :: [quad0]) (state0 2) f'.
Proof.
  destruct state2 as (A & B & C). destruct (whole_runs a (state0 2) A B C) as [[f T] [f' T']].
  exists f, f'. cbv zeta. split; [apply world0_sane|]. split; [apply cut_halves|]. split; [apply bend_proper, nums_done|].
  destruct (whole_fine a) as (F1 & _ & F3). rewrite Forall_forall in F1, F3. assert (I1 : In quad0 whole) by (cbn; auto).
  split; [apply Forall_cons; [auto|apply Forall_nil]|]. split; [apply Forall_cons; [auto|apply Forall_nil]|]. auto.
Qed.
