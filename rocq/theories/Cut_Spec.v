(** An electrostatic deflector and its two halves. *)
From Coq Require Import Reals List String Bool NArith ZArith.
From Verif Require Import SMap Dbl Config_Spec Mat Machine_Model Machine_Spec Linear_Spec Moment_Model Moment_Spec Motion_Spec Area_Spec.
Import ListNotations.
Open Scope R_scope.
Open Scope string_scope.
Open Scope list_scope.

(** [ea] and [eb] are what [ec] is cut into: the same settings, and shares of length and angle.  No
    fields beyond the ends, that would be inside after the cut. *)
Definition deflector_halves (w : world) (ec ea eb : tcfg) : Prop :=
  let at_ c n := real_at (w_num w) c n 0 in
  is_a "edipole" ec /\
  (forall n, ~ In n ["name"; "L"; "phi"] -> tfind n ea = tfind n ec /\ tfind n eb = tfind n ec) /\
  at_ ec "L" = at_ ea "L" + at_ eb "L" /\
  facing (w_num w) ec /\ at_ ec "fringe_x" = 0 /\ at_ ec "fringe_y" = 0 /\
  at_ ea "L" <> 0 /\ at_ eb "L" <> 0 /\
  at_ ea "phi" * at_ ec "L" = at_ ec "phi" * at_ ea "L" /\ at_ eb "phi" * at_ ec "L" = at_ ec "phi" * at_ eb "L".

(** The moments of the charge state with index [j] are the same in both beams. *)
Definition same_at (j : nat) (s s' : mstate) : Prop := exists v v' S S',
  nth_error (ms_m0 s) j = Some v /\ nth_error (ms_m0 s') j = Some v' /\ veq 7 v v' /\
  nth_error (ms_m1 s) j = Some S /\ nth_error (ms_m1 s') j = Some S' /\ meq 7 S S'.
