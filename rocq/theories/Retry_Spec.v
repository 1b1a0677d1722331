(** Histories in which propagations may fail, for C30. *)
From Coq Require Import List String NArith ZArith.
From Verif Require Import Config_Spec Machine_Model Machine_Spec Moment_Model Moment_Spec.
Import ListNotations.
Open Scope string_scope.

(** Every propagation starts from a state that [J] allows, and every Config handed
    to reconfigure() satisfies [Q]; how they end does not matter. *)
Definition attempts {B} (J : B -> Prop) (Q : tcfg -> Prop) (us : list (use B)) : Prop :=
  Forall (fun u => match u with
                   | UReconf _ c => Q c
                   | UProp st _ _ => J (st_body st)
                   | UObs _ _ => True
                   end) us.

(** The number of charge states a lattice entry with a beam of its own, a source or
    a stripper, sends on. *)
Definition sends_on (n : nat) (c : tcfg) : Prop :=
  (tfind "type" c = Some (TStr "stripper") ->
     exists zs, vec_at c "IonChargeStates" = Some zs /\ List.length zs = n) /\
  (tfind "type" c = Some (TStr "source") ->
     n = match vec_at c "IonChargeStates", num_at c "cstate" with
         | Some zs, None => List.length zs
         | _, _ => 1%nat
         end).

(** An aligned state of n charge states. *)
Definition aligned_at (n : nat) (s : mstate) : Prop := aligned s /\ List.length (ms_real s) = n.
