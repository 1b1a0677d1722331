(** What an entry of a Simple1D lattice does to position, place and velocity. *)
From Coq Require Import List String Bool NArith ZArith Reals.
From Verif Require Import SMap Dbl Number_Spec Config_Spec Machine_Model Tut_Model.
Import ListNotations.
Local Open Scope string_scope.

Definition number (c : tcfg) (n : string) : double := match tfind n c with Some (TNum x) => x | _ => dzero end.
(** A source sets the state to its own; other elements add to it. *)
Definition pass1 (s : s1d) (c : tcfg) : s1d :=
  match tfind "type" c with
  | Some (TStr "source") => mkS1 (dadd dzero (number c "L")) (number c "x") (number c "xv")
  | _ => let t := ddiv (number c "L") (d_of_Z 299792458) in
         mkS1 (dadd (s_pos s) (number c "L")) (dadd (s_x s) (dmul (dmul (number c "A") t) t)) (dadd (s_xv s) (dmul (number c "A") t))
  end.
Definition is_source (c : tcfg) : Prop := tfind "type" c = Some (TStr "source").
(** An entry that Simple1D knows. *)
Definition entry1d (c : tcfg) : Prop :=
  (exists n, tfind "name" c = Some (TStr n)) /\ (tfind "type" c = Some (TStr "source") \/ tfind "type" c = Some (TStr "generic")).

(** A body with acceleration [a] for the time [t] (Newton). *)
Definition moves (a t x v x' v' : R) : Prop := (x' = x + v * t + a * t * t / 2 /\ v' = v + a * t)%R.

(** Reconfigurations, refused ones included, of a machine and of the entries of its lattice. *)
Inductive reconfs : machine e1d s1d -> list tcfg -> machine e1d s1d -> list tcfg -> Prop :=
| R_none m es : reconfs m es m es
| R_done m es i c m1 m' es' : reconfigure m i c = (m1, Ok tt) -> reconfs m1 (update es (N.to_nat i) c) m' es' -> reconfs m es m' es'
| R_refused m es i c m1 e m' es' : reconfigure m i c = (m1, Throw e) -> reconfs m1 es m' es' -> reconfs m es m' es'.
