(** C29 for elements with fields along their length. *)
From Coq Require Import Reals List String Bool NArith ZArith Arith Lia Lra.
From Verif Require Import SMap Dbl Config_Spec Mat Mat_Proofs Minv Machine_Model Machine_Spec Linear_Spec
  Moment_Model Moment_Spec Motion_Spec Moment2_Proofs Frame_Spec Area_Spec Line_Spec Line_Proofs Slice_Spec Slice_Proofs Slice2_Proofs.
Import ListNotations.
Open Scope R_scope.
Open Scope string_scope.
Open Scope list_scope.

(** A quadrupole, electric quadrupole or solenoid given by field curves, and its two parts one after
    the other, each with its samples of the curves, forward, for every beam: same position, same
    phases, same moments, and the matrices multiply to that of the whole. *)
Theorem C29_field_parts : forall w ec ea eb, parts w ec ea eb -> forall s f f1 f2, sane w -> proper_magnet (w_num w) ec ->
  moving (ms_ref s) -> Forall moving (ms_real s) ->
  goes_through w ec s f -> goes_through w ea s f1 -> goes_through w eb f1 f2 ->
  same_beam f f2 /\
  forall j T Ta Tb, nth_error (ms_tm f) j = Some T -> nth_error (ms_tm f1) j = Some Ta -> nth_error (ms_tm f2) j = Some Tb ->
    meq 7 T (mmul 7 Tb Ta).
Proof. exact moment_parts. Qed.
Print Assumptions C29_field_parts.
Example C29_field_parts_ex : forall a, exists f f1 f2, let w := world0 nums a in
  sane w /\ parts w quad_c quad_a quad_b /\ proper_magnet nums quad_c /\ moving (ms_ref (state0 2)) /\ Forall moving (ms_real (state0 2)) /\
  goes_through w quad_c (state0 2) f /\ goes_through w quad_a (state0 2) f1 /\ goes_through w quad_b f1 f2.
Proof. exact parts_example. Qed.

(** In a line, its elements one after the other. *)
Theorem C29_field_line : forall w, sane w -> forall pre ec ea eb post s f f', parts w ec ea eb -> proper_magnet (w_num w) ec ->
  Forall described pre -> Forall (proper_magnet (w_num w)) pre -> Forall described post ->
  moving (ms_ref s) -> Forall moving (ms_real s) ->
  in_turn w (pre ++ ec :: post) s f -> in_turn w (pre ++ ea :: eb :: post) s f' -> same_beam f f'.
Proof. exact line_parts. Qed.
Print Assumptions C29_field_line.
Example C29_field_line_ex : forall a, exists f f', let w := world0 nums a in
  sane w /\ parts w quad_c quad_a quad_b /\ proper_magnet nums quad_c /\ Forall described [quad0] /\ Forall (proper_magnet nums) [quad0] /\
  moving (ms_ref (state0 2)) /\ Forall moving (ms_real (state0 2)) /\
  in_turn w ([quad0] ++ quad_c :: []) (state0 2) f /\ in_turn w ([quad0] ++ quad_a :: quad_b :: []) (state0 2) f'.
Proof. exact line_parts_example. Qed.
