(** Copies of states, stated on their own. *)
From Coq Require Import List String Bool ZArith NArith Arith.
From Verif Require Import SMap Dbl Array_Model Array_Spec Clone_Model.
Import ListNotations.
Open Scope string_scope.
Open Scope nat_scope.
Open Scope list_scope.

(** The statement changes or destroys this object, if any. *)
Definition acts_on (x : op) (i : nat) : Prop :=
  match x with
  | ONew _ _ | OClone _ => False
  | OAssign j _ | OSet j _ _ | ODel j | ODo j _ => i = j
  end.
Definition spared (i : nat) (l : list op) : Prop := Forall (fun x => ~ acts_on x i) l.
(** What a program can come to. *)
Definition reached (ab : abi) (s : session) : Prop := exists l, steps ab nothing l = Some s.
(** The variables of a state. *)
Definition contains (ab : abi) (s : session) (i : nat) (kd : kind) (c : field -> cell) : Prop :=
  exists o, object s i = Some o /\ o_kind o = kd /\ holds ab kd (view (ss_heap s) o) c.
(** The same variables, but for next_elem. *)
Definition with_next (n : cell) (c : field -> cell) : field -> cell := fun f => match f with FNext => n | _ => c f end.
(** States of one class. *)
Definition alike (a b : kind) : Prop :=
  match a, b with KVector, KVector | KMatrix, KMatrix | KMoment _, KMoment _ => True | _, _ => False end.
