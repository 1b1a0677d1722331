(** C29 for electrostatic dipoles of the simulation type MomentMatrix, in exact arithmetic.
    [goes_through w ec s f]: beam [s] has gone through an element with entry [ec], in a machine after
    any history of reconfigurations and completed forward propagations, and came out as [f].  [ea] and
    [eb] have the settings of [ec] except for their name and their shares of length and angle; there
    are no fields beyond the ends. *)
From Coq Require Import Reals List String Bool NArith ZArith Arith Lia Lra.
From Verif Require Import SMap Dbl Config_Spec Mat Mat_Proofs Minv Machine_Model Machine_Spec Linear_Spec
  Moment_Model Moment_Spec Motion_Spec Frame_Spec Area_Spec Line_Spec Deflect_Spec Cut_Spec Moment_Proofs Moment2_Proofs
  Line_Proofs Cut2_Proofs Cut3_Proofs.
Import ListNotations.
Open Scope R_scope.
Open Scope string_scope.
Open Scope list_scope.

(** A dipole with symmetric electrodes and its two halves: same position, same phase of the reference
    particle and of every charge state, and for each charge state with mass, charge, energy and
    frequency of the reference particle the same moments, and matrices that multiply to that of the
    whole. *)
Theorem C29_electric_dipole_partial : forall w ec ea eb s f f1 f2, sane w -> deflector_halves w ec ea eb ->
  proper_deflector w ec (ms_ref s) -> symmetric (w_num w) ec -> moving (ms_ref s) -> Forall moving (ms_real s) ->
  goes_through w ec s f -> goes_through w ea s f1 -> goes_through w eb f1 f2 ->
  ms_pos f2 = ms_pos f /\ same_particle (ms_ref f) (ms_ref f2) /\ Forall2 same_particle (ms_real f) (ms_real f2) /\
  forall j q, nth_error (ms_real s) j = Some q -> alike (ms_ref s) q -> same_at j f f2 /\
  forall T Ta Tb, nth_error (ms_tm f) j = Some T -> nth_error (ms_tm f1) j = Some Ta -> nth_error (ms_tm f2) j = Some Tb ->
    meq 7 T (mmul 7 Tb Ta).
Proof. exact electric_halves. Qed.
Print Assumptions C29_electric_dipole_partial.
Example C29_electric_dipole_partial_ex : forall a, exists f f1 f2,
  let w := world0 nums a in let ec := piece done done in let ea := piece dhalf done in
  sane w /\ deflector_halves w ec ea ea /\ proper_deflector w ec (ms_ref mixed) /\ symmetric nums ec /\
  moving (ms_ref mixed) /\ Forall moving (ms_real mixed) /\
  goes_through w ec mixed f /\ goes_through w ea mixed f1 /\ goes_through w ea f1 f2 /\ vertical ec = true /\
  nth_error (ms_real mixed) 0 = Some (ms_ref mixed) /\ alike (ms_ref mixed) (ms_ref mixed).
Proof. exact electric_halves_example. Qed.

(** For another charge state the moments are not the same: the phase it falls behind in the dipole
    because it bends otherwise than the reference particle is counted in the second half only. *)
Theorem C29_electric_dipole_refuted : exists w ec ea eb s f f1 f2 q, sane w /\ deflector_halves w ec ea eb /\
  proper_deflector w ec (ms_ref s) /\ symmetric (w_num w) ec /\ moving (ms_ref s) /\ Forall moving (ms_real s) /\
  goes_through w ec s f /\ goes_through w ea s f1 /\ goes_through w eb f1 f2 /\
  nth_error (ms_real s) 1 = Some q /\ ~ same_at 1 f f2.
Proof. exact C29_electric_dipole_refuted_w. Qed.
Print Assumptions C29_electric_dipole_refuted.
