(** C28 and C49 for electrostatic dipoles and for sector magnets that defocus in their plane, in
    the simulation type MomentMatrix, in exact arithmetic.  [goes_through w ec s f]: beam [s] has
    gone forwards through an element with entry [ec], in a machine after any history of
    reconfigurations and completed forward propagations, and came out as [f].
    [deflector w c ref p kx pace]: the way of a particle made for the deflector, with focusing
    [kx] in the plane of the bend, phases changing at [pace]; the right ones are [field_focus]
    and 1. *)
From Coq Require Import Reals List String Bool NArith ZArith.
From Verif Require Import SMap Dbl Config_Spec Mat Machine_Model Machine_Spec Linear_Spec Moment_Model Moment_Spec Motion_Spec
  Frame_Spec Area_Spec Deflect_Spec Moment2_Proofs Moment6_Proofs Line_Proofs Deflect2_Proofs Deflect3_Proofs Deflect4_Proofs.
Import ListNotations.
Open Scope R_scope.
Open Scope string_scope.
Open Scope list_scope.

(** ** C49 *)

(** A symmetric deflector in any position leads charge states like the reference particle along
    the motion between its electrodes, but for the focusing in its plane and the pace of phases:
    there [gamma^2] stands where [1/gamma^2] should, and phases change [gamma/(1+gamma)] times as
    fast as they should. *)
Theorem C49_electric_dipole_partial : forall w ec s f, sane w -> goes_through w ec s f -> is_a "edipole" ec ->
  moving (ms_ref s) -> Forall moving (ms_real s) -> proper_deflector w ec (ms_ref s) -> symmetric (w_num w) ec ->
  forall j q, nth_error (ms_real s) j = Some q -> alike (ms_ref s) q ->
  exists T, nth_error (ms_tm f) j = Some T /\
  let g := gamma_of q in
  forall u, unit_last u ->
    passes (deflector w ec (ms_ref s) q (1 - real_at (w_num w) ec "spher" 0 + g * g) (g / (1 + g))) u (mapp 7 T u).
Proof. exact electric_motion. Qed.
Print Assumptions C49_electric_dipole_partial.
Example C49_electric_dipole_partial_ex : forall a, exists f,
  let ec := plates dzero done in
  sane (world0 nums a) /\ goes_through (world0 nums a) ec (state0 2) f /\ is_a "edipole" ec /\
  moving (ms_ref (state0 2)) /\ Forall moving (ms_real (state0 2)) /\ proper_deflector (world0 nums a) ec (ms_ref (state0 2)) /\ symmetric nums ec /\
  vertical ec = true /\ nth_error (ms_real (state0 2)) 1 = Some (ms_ref (state0 2)) /\ alike (ms_ref (state0 2)) (ms_ref (state0 2)).
Proof. exact electric_example. Qed.

(** Whatever the focusing, phases do not change at the right pace. *)
Theorem C49_electric_dipole_phase_refuted : exists w ec s f q T, sane w /\ goes_through w ec s f /\ is_a "edipole" ec /\
  moving (ms_ref s) /\ Forall moving (ms_real s) /\ proper_deflector w ec (ms_ref s) /\ symmetric (w_num w) ec /\
  nth_error (ms_real s) 1 = Some q /\ alike (ms_ref s) q /\ nth_error (ms_tm f) 1 = Some T /\
  forall kx, 0 < kx -> ~ (forall u, unit_last u -> passes (deflector w ec (ms_ref s) q kx 1) u (mapp 7 T u)).
Proof. exact C49_electric_dipole_phase_refuted_w. Qed.
Print Assumptions C49_electric_dipole_phase_refuted.

(** Whatever the pace of phases, the deflector does not focus as its field does. *)
Theorem C49_electric_dipole_focusing_refuted : exists w ec s f q T, sane w /\ goes_through w ec s f /\ is_a "edipole" ec /\
  moving (ms_ref s) /\ Forall moving (ms_real s) /\ proper_deflector w ec (ms_ref s) /\ symmetric (w_num w) ec /\
  nth_error (ms_real s) 1 = Some q /\ alike (ms_ref s) q /\ nth_error (ms_tm f) 1 = Some T /\
  forall pace, ~ (forall u, unit_last u -> passes (deflector w ec (ms_ref s) q (field_focus (w_num w) ec q) pace) u (mapp 7 T u)).
Proof. exact C49_electric_dipole_focusing_refuted_w. Qed.
Print Assumptions C49_electric_dipole_focusing_refuted.

(** A sector magnet with a field gradient that defocuses in its plane does not follow the motion. *)
Theorem C49_defocusing_bend_refuted : exists w ec s f q T legs, sane w /\ goes_through w ec s f /\ is_a "sbend" ec /\
  real_at (w_num w) ec "L" 0 <> 0 /\ real_at (w_num w) ec "phi" 0 <> 0 /\
  moving (ms_ref s) /\ Forall moving (ms_real s) /\
  nth_error (ms_real s) 1 = Some q /\ nth_error (ms_tm f) 1 = Some T /\ course w ec (ms_ref s) q legs /\
  ~ (forall u, unit_last u -> passes legs u (mapp 7 T u)).
Proof. exact C49_defocusing_bend_refuted_w. Qed.
Print Assumptions C49_defocusing_bend_refuted.

(** ** C28 *)

(** A symmetric deflector that is neither pitched nor yawed keeps transverse areas, for every charge
    state. *)
Theorem C28_electric_dipole_partial : forall w ec s f, sane w -> goes_through w ec s f -> is_a "edipole" ec ->
  moving (ms_ref s) -> Forall moving (ms_real s) -> proper_deflector w ec (ms_ref s) -> symmetric (w_num w) ec -> facing (w_num w) ec ->
  forall j q, nth_error (ms_real s) j = Some q -> exists T, nth_error (ms_tm f) j = Some T /\ keeps_transverse_areas T.
Proof. exact electric_areas. Qed.
Print Assumptions C28_electric_dipole_partial.
Example C28_electric_dipole_partial_ex : forall a, exists f,
  let ec := plates dzero done in
  sane (world0 nums a) /\ goes_through (world0 nums a) ec (state0 2) f /\ is_a "edipole" ec /\
  moving (ms_ref (state0 2)) /\ Forall moving (ms_real (state0 2)) /\ proper_deflector (world0 nums a) ec (ms_ref (state0 2)) /\ symmetric nums ec /\
  facing nums ec /\ exists q, nth_error (ms_real (state0 2)) 1 = Some q.
Proof. exact electric_areas_example. Qed.

(** Not so with "asym_fac". *)
Theorem C28_electric_dipole_refuted : exists w ec s f q T, sane w /\ goes_through w ec s f /\ is_a "edipole" ec /\
  moving (ms_ref s) /\ Forall moving (ms_real s) /\ proper_deflector w ec (ms_ref s) /\ facing (w_num w) ec /\
  nth_error (ms_real s) 1 = Some q /\ alike (ms_ref s) q /\ nth_error (ms_tm f) 1 = Some T /\ ~ keeps_transverse_areas T.
Proof. exact C28_electric_dipole_refuted_w. Qed.
Print Assumptions C28_electric_dipole_refuted.

(** Nor for areas with phases and energies. *)
Theorem C28_electric_dipole_phase_refuted : exists w ec s f q T, sane w /\ goes_through w ec s f /\ is_a "edipole" ec /\
  moving (ms_ref s) /\ Forall moving (ms_real s) /\ proper_deflector w ec (ms_ref s) /\ symmetric (w_num w) ec /\ facing (w_num w) ec /\
  nth_error (ms_real s) 1 = Some q /\ alike (ms_ref s) q /\ nth_error (ms_tm f) 1 = Some T /\ ~ keeps_areas (canonical (ms_ref s) q) T.
Proof. exact C28_electric_dipole_phase_refuted_w. Qed.
Print Assumptions C28_electric_dipole_phase_refuted.
