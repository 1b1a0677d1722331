(** C28, C29, C49, C51 and C69 for whole beam lines of the simulation type MomentMatrix, in exact
    arithmetic.  [travels w ecs s f]: beam [s] has gone through consecutive elements with entries
    [ecs] in one forward propagation, in a machine after any history of reconfigurations and
    completed forward propagations, and came out as [f].  [goes_through w ec s f]: the same for one
    element. *)
From Coq Require Import Reals List String Bool NArith ZArith Arith Lia Lra.
From Verif Require Import SMap Dbl Config_Spec Mat Mat_Proofs Minv Machine_Model Machine_Spec Linear_Spec
  Moment_Model Moment_Spec Motion_Spec Frame_Spec Area_Spec Line_Spec Moment_Proofs Moment2_Proofs Moment6_Proofs Motion5_Proofs
  Frame_Proofs Area_Proofs Area2_Proofs Cut_Proofs Line_Proofs Line2_Proofs.
Import ListNotations.
Open Scope R_scope.
Open Scope string_scope.
Open Scope list_scope.

(** ** C69 *)

(** A line does what its elements do one after the other, each alone in any machine. *)
Theorem C69_line_is_its_elements : forall w, sane w -> forall ecs s f, travels w ecs s f -> in_turn w ecs s f.
Proof. exact line_in_turn. Qed.
Print Assumptions C69_line_is_its_elements.
Example C69_line_is_its_elements_ex : forall a, sane (world0 nums a) /\ exists f, travels (world0 nums a) whole (state0 2) f.
Proof. exact line_example. Qed.

(** So the outcome depends on the entries and the beam only: not on the machine, its history, or the
    elements before and after. *)
Theorem C69_only_the_entries_matter : forall w, sane w -> forall ecs s f f', travels w ecs s f -> travels w ecs s f' -> f = f'.
Proof. exact line_det. Qed.
Print Assumptions C69_only_the_entries_matter.
Example C69_only_the_entries_matter_ex : forall a, sane (world0 nums a) /\ exists f, travels (world0 nums a) whole (state0 2) f.
Proof. exact line_example. Qed.

(** A line of elements with all their settings lets every moving beam pass. *)
Theorem C69_line_completes : forall w, sane w -> forall c m es,
  new_machine (moment_reg w) c = Ok m -> tfind "elements" c = Some (TCfgs es) -> Forall strips_to_some es ->
  forall ecs us i st, smooth (fun r s => r = false /\ aligned s) strips_to_some m us ->
  (N.of_nat (i + List.length ecs) <= SIZE_MAX)%N -> (Z.of_nat (List.length ecs) <= INT_MAX)%Z ->
  firstn (List.length ecs) (skipn i (entries m es us)) = ecs ->
  Forall described ecs -> Forall (equipped w) ecs -> Forall (proper_magnet (w_num w)) ecs ->
  aligned (st_body st) -> moving (ms_ref (st_body st)) -> Forall moving (ms_real (st_body st)) ->
  exists p f, propagate (uses m us) st (N.of_nat i) (Z.of_nat (List.length ecs)) = Some p /\ pr_end p = Ok f.
Proof. exact completes. Qed.
Print Assumptions C69_line_completes.
Example C69_line_completes_ex : forall a, exists m,
  let st := mkSt 0 false (state0 2) in
  sane (world0 nums a) /\ new_machine (moment_reg (world0 nums a)) (mconf cut) = Ok m /\ Forall strips_to_some cut /\
  firstn 3 (skipn 1 (entries m cut [])) = tl cut /\
  Forall described (tl cut) /\ Forall (equipped (world0 nums a)) (tl cut) /\ Forall (proper_magnet nums) (tl cut) /\
  aligned (st_body st) /\ moving (ms_ref (st_body st)) /\ Forall moving (ms_real (st_body st)).
Proof. exact completes_example. Qed.

(** ** C51 for lines *)

(** Positions and phases add up. *)
Theorem C51_along_a_line : forall w, sane w -> forall ecs s f L,
  travels w ecs s f -> Forall described ecs -> Forall (proper_magnet (w_num w)) ecs -> line_extent (w_num w) ecs L ->
  moving (ms_ref s) -> Forall moving (ms_real s) ->
  ms_pos f = ms_pos s + L /\ moved_on (ms_ref s) (ms_ref f) (wavenumber (ms_ref s) * (L * 1000)) /\
  List.length (ms_real f) = List.length (ms_real s) /\
  forall j q, nth_error (ms_real s) j = Some q -> exists q' extra, nth_error (ms_real f) j = Some q' /\
     moved_on q q' (wavenumber q * (L * 1000) + extra) /\ (Forall (fun c => ~ is_a "sbend" c) ecs -> extra = 0).
Proof. exact line_position. Qed.
Print Assumptions C51_along_a_line.
Example C51_along_a_line_ex : forall a, (sane (world0 nums a) /\ exists f, travels (world0 nums a) whole (state0 2) f) /\
  Forall described whole /\ Forall (proper_magnet nums) whole /\ line_extent nums whole (1 + (1 + (1 + 0))) /\
  moving (ms_ref (state0 2)) /\ Forall moving (ms_real (state0 2)).
Proof. exact position_example. Qed.

(** ** C28 for MomentMatrix *)

(** The matrix of every charge state keeps areas in phase space: the sum of the shadows on the three
    canonical planes, for elements in any position; for a sector magnet only when made for the
    particle.  When the element is neither pitched nor yawed it keeps transverse areas for every
    charge state. *)
Theorem C28_moment_elements : forall w ec s f, sane w -> goes_through w ec s f ->
  described ec -> proper_magnet (w_num w) ec -> ~ is_a "tmatrix" ec ->
  moving (ms_ref s) -> Forall moving (ms_real s) ->
  forall j q, nth_error (ms_real s) j = Some q ->
  exists T, nth_error (ms_tm f) j = Some T /\
    ((is_a "sbend" ec -> made_for w ec (ms_ref s) q) -> keeps_areas (canonical (ms_ref s) q) T) /\
    (facing (w_num w) ec -> keeps_transverse_areas T).
Proof. exact goes_areas. Qed.
Print Assumptions C28_moment_elements.
Example C28_moment_elements_ex : forall a, exists ec f, ec = bend_of done done done /\
  sane (world0 nums a) /\ goes_through (world0 nums a) ec (state0 2) f /\ described ec /\ proper_magnet nums ec /\ ~ is_a "tmatrix" ec /\
  moving (ms_ref (state0 2)) /\ Forall moving (ms_real (state0 2)) /\ nth_error (ms_real (state0 2)) 1 = Some (ms_ref (state0 2)) /\
  made_for (world0 nums a) ec (ms_ref (state0 2)) (ms_ref (state0 2)) /\ facing nums ec.
Proof. exact areas_example. Qed.

(** So does a whole line: centroid and covariance go with one matrix that keeps areas. *)
Theorem C28_moment_line : forall w, sane w -> forall ecs s f, travels w ecs s f ->
  Forall described ecs -> Forall (fun c => ~ is_a "tmatrix" c) ecs -> Forall (proper_magnet (w_num w)) ecs ->
  moving (ms_ref s) -> Forall moving (ms_real s) ->
  forall j q v S, nth_error (ms_real s) j = Some q -> nth_error (ms_m0 s) j = Some v -> nth_error (ms_m1 s) j = Some S ->
  Forall (fun c => is_a "sbend" c -> made_for w c (ms_ref s) q) ecs ->
  exists T v' S', nth_error (ms_m0 f) j = Some v' /\ nth_error (ms_m1 f) j = Some S' /\ transported T v S v' S' /\
    keeps_areas (canonical (ms_ref s) q) T.
Proof. exact line_areas. Qed.
Print Assumptions C28_moment_line.
Example C28_moment_line_ex : forall a, (sane (world0 nums a) /\ exists f, travels (world0 nums a) whole (state0 2) f) /\
  Forall described whole /\ Forall (fun c => ~ is_a "tmatrix" c) whole /\ Forall (proper_magnet nums) whole /\
  moving (ms_ref (state0 2)) /\ Forall moving (ms_real (state0 2)) /\
  nth_error (ms_real (state0 2)) 1 = Some (ms_ref (state0 2)) /\
  Forall (fun c => is_a "sbend" c -> made_for (world0 nums a) c (ms_ref (state0 2)) (ms_ref (state0 2))) whole.
Proof. exact line_areas_example. Qed.

(** A line of upright straight elements keeps the emittance of each transverse plane of each charge
    state. *)
Theorem C28_emittances_stay : forall w, sane w -> forall ecs s f, travels w ecs s f ->
  Forall straight ecs -> Forall (upright (w_num w)) ecs -> Forall (proper_magnet (w_num w)) ecs ->
  moving (ms_ref s) -> Forall moving (ms_real s) ->
  forall j S k, nth_error (ms_m1 s) j = Some S -> seventh_fixed S -> (k = 0 \/ k = 2)%nat ->
  exists S', nth_error (ms_m1 f) j = Some S' /\ emittance2 S' k = emittance2 S k.
Proof. exact line_emittance. Qed.
Print Assumptions C28_emittances_stay.
Example C28_emittances_stay_ex : forall a, (sane (world0 nums a) /\ exists f, travels (world0 nums a) [quad0; quad0] beam0 f) /\
  Forall straight [quad0; quad0] /\ Forall (upright nums) [quad0; quad0] /\ Forall (proper_magnet nums) [quad0; quad0] /\
  moving (ms_ref beam0) /\ Forall moving (ms_real beam0) /\
  exists S, nth_error (ms_m1 beam0) 1 = Some S /\ seventh_fixed S /\ emittance2 S 0 = 1.
Proof. exact emittance_example. Qed.

(** ** C29 for MomentMatrix *)

(** An element and its two halves one after the other, forward, for every beam: same position, same
    phases, same moments, and the matrices multiply to that of the whole. *)
Theorem C29_moment_halves : forall w ec ea eb s f f1 f2, sane w -> halves w ec ea eb -> proper_magnet (w_num w) ec ->
  moving (ms_ref s) -> Forall moving (ms_real s) ->
  goes_through w ec s f -> goes_through w ea s f1 -> goes_through w eb f1 f2 ->
  same_beam f f2 /\
  forall j T Ta Tb, nth_error (ms_tm f) j = Some T -> nth_error (ms_tm f1) j = Some Ta -> nth_error (ms_tm f2) j = Some Tb ->
    meq 7 T (mmul 7 Tb Ta).
Proof. exact moment_halves. Qed.
Print Assumptions C29_moment_halves.
Example C29_moment_halves_ex : forall a, exists f f1 f2, let w := world0 nums a in
  let ec := bend_of done done done in let ea := bend_of dhalf done dzero in let eb := bend_of dhalf dzero done in
  sane w /\ halves w ec ea eb /\ proper_magnet nums ec /\ moving (ms_ref (state0 2)) /\ Forall moving (ms_real (state0 2)) /\
  goes_through w ec (state0 2) f /\ goes_through w ea (state0 2) f1 /\ goes_through w eb f1 f2.
Proof. exact halves_example. Qed.

(** In a line. *)
Theorem C29_moment_line : forall w, sane w -> forall pre ec ea eb post s f f', halves w ec ea eb -> proper_magnet (w_num w) ec ->
  Forall described pre -> Forall (proper_magnet (w_num w)) pre -> Forall described post ->
  moving (ms_ref s) -> Forall moving (ms_real s) ->
  travels w (pre ++ ec :: post) s f -> travels w (pre ++ ea :: eb :: post) s f' -> same_beam f f'.
Proof. exact line_halves. Qed.
Print Assumptions C29_moment_line.
Example C29_moment_line_ex : forall a, exists f f', let w := world0 nums a in
  let ec := bend_of done done done in let ea := bend_of dhalf done dzero in let eb := bend_of dhalf dzero done in
  sane w /\ halves w ec ea eb /\ proper_magnet nums ec /\ Forall described [quad0] /\ Forall (proper_magnet nums) [quad0] /\
  moving (ms_ref (state0 2)) /\ Forall moving (ms_real (state0 2)) /\
  travels w ([quad0] ++ ec :: [quad0]) (state0 2) f /\ travels w ([quad0] ++ ea :: eb :: [quad0]) (state0 2) f'.
Proof. exact cut_line_example. Qed.
