(** C35: misplaced elements of the simulation type MomentMatrix, in exact
    arithmetic. *)
From Coq Require Import Reals List String Bool NArith ZArith Arith Lia Lra.
From Verif Require Import SMap Dbl Config_Spec Mat Mat_Proofs Machine_Model Machine_Spec Moment_Model Moment_Spec Motion_Spec Frame_Spec
  Moment2_Proofs Motion5_Proofs Frame_Proofs.
Import ListNotations.
Open Scope R_scope.
Open Scope string_scope.
Open Scope list_scope.

(** An element placed well acts as described without any frame: a particle passes the
    fields and edges only. *)
Theorem C35_placed_well : forall w ec s f, sane w -> goes_through w ec s f -> steerable ec ->
  proper_magnet (w_num w) ec -> placed_well (w_num w) ec -> moving (ms_ref s) -> Forall moving (ms_real s) ->
  forall j q v S, nth_error (ms_real s) j = Some q -> nth_error (ms_m0 s) j = Some v -> nth_error (ms_m1 s) j = Some S ->
  exists T v' S' legs,
    nth_error (ms_tm f) j = Some T /\ nth_error (ms_m0 f) j = Some v' /\ nth_error (ms_m1 f) j = Some S' /\ transported T v S v' S' /\
    bare_course w ec (ms_ref s) q legs /\ forall u, unit_last u -> passes legs u (mapp 7 T u).
Proof. exact well_placed. Qed.
Print Assumptions C35_placed_well.
Example C35_placed_well_ex : forall a, exists f, let w := world0 one_num a in let ec := lens_at [] in
  sane w /\ goes_through w ec beam0 f /\ steerable ec /\ proper_magnet one_num ec /\ placed_well one_num ec /\
  moving (ms_ref beam0) /\ Forall moving (ms_real beam0).
Proof.
  intros a. destruct beam0_facts as (B1 & B2 & B3 & _). destruct (lens_goes a [] beam0 ltac:(auto) B1 B2 B3) as [f H]. exists f. cbv zeta.
  split; [apply world0_sane|]. split; [exact H|]. split; [apply Exists_exists; exists "quadrupole"; split; [cbn; tauto|reflexivity]|].
  split; [split; discriminate|]. split; [repeat constructor|]. auto.
Qed.

(** Only the frame matters: of two elements that differ in their placing, with
    beams that look the same to them at the entrance, the outgoing beams look the
    same at the exit, whatever else the machines have done before. *)
Theorem C35_only_the_frame_matters : forall w ec ec' s s' f f', sane w -> goes_through w ec s f -> goes_through w ec' s' f' ->
  same_else ec ec' -> placeable ec -> same_moving s s' ->
  let L := real_at (w_num w) ec "L" 0 * 1000 in
  look_alike (w_num w) ec ec' (- L / 2) (ms_ref s) (ms_real s) s s' ->
  look_alike (w_num w) ec ec' (L / 2) (ms_ref s) (ms_real s) f f' /\
  ms_pos f - ms_pos s = ms_pos f' - ms_pos s' /\ ms_ref f' = ms_ref f /\ (~ is_a "sbend" ec -> ms_real f' = ms_real f).
Proof. exact only_frame. Qed.
Print Assumptions C35_only_the_frame_matters.
Example C35_only_the_frame_matters_ex : forall a, exists s' f f',
  let w := world0 one_num a in let ec := lens_at [("dx", TNum done)] in let ec' := lens_at [] in let s := beam0 in
  sane w /\ goes_through w ec s f /\ goes_through w ec' s' f' /\ same_else ec ec' /\ placeable ec /\ same_moving s s' /\
  look_alike one_num ec ec' (- (real_at one_num ec "L" 0 * 1000) / 2) (ms_ref s) (ms_real s) s s' /\ ~ placed_well one_num ec.
Proof.
  intros a. destruct beam0_facts as (B1 & B2 & B3 & B4 & B5). set (ec := lens_at [("dx", TNum done)]). set (ec' := lens_at []).
  set (s' := moved_state (over_by ((real_at one_num ec' "dx" 0 - real_at one_num ec "dx" 0) * 1000) ((real_at one_num ec' "dy" 0 - real_at one_num ec "dy" 0) * 1000)) beam0).
  destruct (lens_goes a [("dx", TNum done)] beam0 ltac:(auto) B1 B2 B3) as [f H].
  destruct (lens_goes a [] s' ltac:(auto) (moved_aligned _ _ B1) B2 B3) as [f' H'].
  exists s', f, f'. cbv zeta. split; [apply world0_sane|]. split; [exact H|]. split; [exact H'|].
  split; [apply lens_at_else; repeat constructor; cbn; tauto|]. split; [apply Exists_exists; exists "quadrupole"; split; [cbn; tauto|reflexivity]|].
  assert (SM : same_moving beam0 s') by exact (conj eq_refl (conj eq_refl (conj B2 B3))). split; [exact SM|]. split.
  - apply (shift_looks (world0 one_num a)); auto; [repeat constructor|apply moved_displaced; auto].
  - intros X. inversion X as [|? ? E _]. change (1 = 0) in E. lra.
Qed.

(** Moving an element and the beam by the same distance across moves the outgoing
    beam by that distance, and changes nothing else. *)
Theorem C35_shifted_with_the_beam : forall w ec ec' s s' f f', sane w -> goes_through w ec s f -> goes_through w ec' s' f' ->
  same_else ec ec' -> same_angles (w_num w) ec ec' -> placeable ec -> same_moving s s' ->
  Forall unit_last (ms_m0 s) -> Forall flat (ms_m1 s) ->
  let x := (real_at (w_num w) ec' "dx" 0 - real_at (w_num w) ec "dx" 0) * 1000 in
  let y := (real_at (w_num w) ec' "dy" 0 - real_at (w_num w) ec "dy" 0) * 1000 in
  displaced x y s s' -> displaced x y f f' /\ ms_ref f' = ms_ref f /\ ms_real f' = ms_real f.
Proof. exact shift_moves. Qed.
Print Assumptions C35_shifted_with_the_beam.
Example C35_shifted_with_the_beam_ex : forall a, exists s' f f',
  let w := world0 one_num a in let ec := lens_at [("dx", TNum done)] in let ec' := lens_at [("dx", TNum done); ("dy", TNum done)] in let s := beam0 in
  sane w /\ goes_through w ec s f /\ goes_through w ec' s' f' /\ same_else ec ec' /\ same_angles one_num ec ec' /\ placeable ec /\ same_moving s s' /\
  Forall unit_last (ms_m0 s) /\ Forall flat (ms_m1 s) /\
  displaced ((real_at one_num ec' "dx" 0 - real_at one_num ec "dx" 0) * 1000) ((real_at one_num ec' "dy" 0 - real_at one_num ec "dy" 0) * 1000) s s' /\
  real_at one_num ec' "dy" 0 <> real_at one_num ec "dy" 0.
Proof.
  intros a. destruct beam0_facts as (B1 & B2 & B3 & B4 & B5).
  set (ec := lens_at [("dx", TNum done)]). set (ec' := lens_at [("dx", TNum done); ("dy", TNum done)]).
  set (s' := moved_state (over_by ((real_at one_num ec' "dx" 0 - real_at one_num ec "dx" 0) * 1000) ((real_at one_num ec' "dy" 0 - real_at one_num ec "dy" 0) * 1000)) beam0).
  destruct (lens_goes a [("dx", TNum done)] beam0 ltac:(auto) B1 B2 B3) as [f H].
  destruct (lens_goes a [("dx", TNum done); ("dy", TNum done)] s' ltac:(auto) (moved_aligned _ _ B1) B2 B3) as [f' H'].
  exists s', f, f'. cbv zeta. split; [apply world0_sane|]. split; [exact H|]. split; [exact H'|].
  split; [apply lens_at_else; repeat constructor; cbn; tauto|]. split; [repeat constructor|]. split; [apply Exists_exists; exists "quadrupole"; split; [cbn; tauto|reflexivity]|].
  split; [exact (conj eq_refl (conj eq_refl (conj B2 B3)))|]. split; [exact B4|]. split; [exact B5|]. split; [apply moved_displaced; auto|].
  change (1 <> 0). lra.
Qed.
