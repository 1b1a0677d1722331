(** Notions used to state the optics properties. *)
From Coq Require Import Reals List String Bool NArith ZArith.
From Verif Require Import Dbl Config_Spec Mat Machine_Model Machine_Spec Linear_Model.
Import ListNotations.
Open Scope R_scope.
Open Scope string_scope.

(** The symplectic form of (x,px,y,py,s,ps). *)
Definition J : mat := fun i j =>
  match i, j with
  | 0, 1 => (1)%R | 1, 0 => (-1)%R
  | 2, 3 => (1)%R | 3, 2 => (-1)%R
  | 4, 5 => (1)%R | 5, 4 => (-1)%R
  | _, _ => (0)%R
  end%nat.
Definition symplectic (n : nat) (M : mat) : Prop :=
  meq n (mmul n (mtr M) (mmul n J M)) J.
(** Determinant of the block of coordinates i, i+1. *)
Definition det2 (M : mat) (i : nat) : R := M i i * M (S i) (S i) - M i (S i) * M (S i) i.

(** Slots a propagation visits hold no source. *)
Definition no_source {D B} (els : list (elem D B)) (vs : list nat) : Prop :=
  forall i e, In i vs -> nth_error els i = Some e -> el_tname e <> "source"%string.

(** The element types with a fixed optics formula. *)
Definition optical (t : string) : Prop :=
  In t ["marker"; "drift"; "sbend"; "quadrupole"; "solenoid"]%string.

(** Length and strength a lattice entry asks for. *)
Definition length_of (num : double -> R) (c : tcfg) : R :=
  num (match tfind "L" c with Some (TNum x) => x | _ => dzero end).
Definition strength_of (num : double -> R) (c : tcfg) : R :=
  num (match tfind "K" c with Some (TNum x) => x | _ => dzero end).

(** A bend has a length and an angle: the code divides by the angle and by the
    radius. *)
Definition proper_bend (num : double -> R) (c : tcfg) : Prop :=
  tfind "type" c = Some (TStr "sbend") ->
  length_of num c <> 0 /\ forall p, tfind "phi" c = Some (TNum p) -> num p <> 0.

(** Entry [c] cut into [a] followed by [b]: same type and strength, lengths
    adding up; for a bend the angles add up too, in proportion to the lengths. *)
Definition cut (num : double -> R) (c a b : tcfg) : Prop :=
  exists t, optical t /\
    tfind "type" c = Some (TStr t) /\ tfind "type" a = Some (TStr t) /\ tfind "type" b = Some (TStr t) /\
    length_of num c = length_of num a + length_of num b /\
    strength_of num a = strength_of num c /\ strength_of num b = strength_of num c /\
    (t = "sbend" -> forall p pa pb,
       tfind "phi" c = Some (TNum p) -> tfind "phi" a = Some (TNum pa) -> tfind "phi" b = Some (TNum pb) ->
       num p = num pa + num pb /\ length_of num a * num pb = length_of num b * num pa) /\
    proper_bend num c /\ proper_bend num a /\ proper_bend num b.

(** ** Equations of motion *)
(** [x' = A x], along the length. *)
Definition trajectory (A : mat) (x : R -> vec) : Prop :=
  forall s i, (i < 6)%nat -> derivable_pt_lim (fun s => x s i) s (mapp 6 A (x s) i).

(** Transverse motion with focusing strengths kx and ky: x'' = -kx x, y'' = -ky y. *)
Definition focusing (kx ky : R) : mat := fun i j =>
  match i, j with
  | 0, 1 => (1)%R | 1, 0 => (- kx)%R | 2, 3 => (1)%R | 3, 2 => (- ky)%R | _, _ => (0)%R
  end%nat.
(** Motion in a solenoid, rotating with k in the Larmor frame. *)
Definition larmor (k : R) : mat := fun i j =>
  match i, j with
  | 0, 1 => (1)%R  | 0, 2 => (k)%R
  | 1, 0 => (- (k * k))%R | 1, 3 => (k)%R
  | 2, 0 => (- k)%R | 2, 3 => (1)%R
  | 3, 1 => (- k)%R | 3, 2 => (- (k * k))%R
  | _, _ => (0)%R
  end%nat.

(** The motion in the element of a lattice entry, lengths in mm: a quadrupole
    focuses x and defocuses y when its strength (per m^2) is positive; a bend
    focuses x with the square of its curvature in addition. *)
Definition motion (num : double -> R) (c : tcfg) : mat :=
  let k := (strength_of num c / 1000 / 1000)%R in
  match tfind "type" c with
  | Some (TStr t) =>
      if String.eqb t "drift" then focusing 0 0
      else if String.eqb t "quadrupole" then focusing k (- k)
      else if String.eqb t "sbend" then
        let h := (match tfind "phi" c with Some (TNum p) => num p | _ => 0 end / (length_of num c * 1000))%R in
        focusing (k + h * h) (- k)
      else if String.eqb t "solenoid" then larmor (strength_of num c / 1000)
      else (fun _ _ => 0)%R
  | _ => (fun _ _ => 0)%R
  end.
