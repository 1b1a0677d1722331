(** What C83 and C84 say about numbers as they are stored. *)
From Coq Require Import Reals List ZArith Arith Floats.SpecFloat.
From Verif Require Import Dbl Number_Spec Bits_Model.
Import ListNotations.

(** A finite double. *)
Definition number (x : double) : Prop := well_formed x /\ is_finite x = true.
(** The same double, but for the sign of zero. *)
Definition alike (x y : double) : Prop :=
  x = y \/ exists s t, x = S754_zero s /\ y = S754_zero t.

(** All numbers shown of a charge state and of a state agree; [tm] tells whether the
    transfer matrices do. *)
Definition particle_alike (p q : fpart) : Prop :=
  fZ p = fZ q /\ fQ p = fQ q /\ fEs p = fEs q /\ fW p = fW q /\ fgamma p = fgamma q /\ fbeta p = fbeta q /\
  fbg p = fbg q /\ ffreq p = ffreq q /\ flambda p = flambda q /\ fK p = fK q /\ fEk p = fEk q /\
  alike (fphis p) (fphis q).
Definition cell_alike (tm : bool) (c d : fcell) : Prop :=
  particle_alike (c_p c) (c_p d) /\
  (forall i, (i < 7)%nat -> alike (c_m0 c i) (c_m0 d i)) /\
  (forall i j, (i < 7)%nat -> (j < 7)%nat -> alike (c_m1 c i j) (c_m1 d i j)) /\
  (tm = true -> forall i j, (i < 7)%nat -> (j < 7)%nat -> c_tm c i j = c_tm d i j).
Definition shown_alike (tm : bool) (s t : fstate) : Prop :=
  alike (f_pos s) (f_pos t) /\ particle_alike (f_ref s) (f_ref t) /\
  Forall2 (cell_alike tm) (f_cells s) (f_cells t) /\
  (forall i, (i < 7)%nat -> alike (f_env0 s i) (f_env0 t i)) /\
  (forall i, (i < 7)%nat -> alike (f_rms s i) (f_rms t i)) /\
  (forall i j, (i < 7)%nat -> (j < 7)%nat -> alike (f_env1 s i j) (f_env1 t i j)).

(** Dependent values and envelopes are up to date, as in every state a simulation
    creates or shows. *)
Definition up_to_date (s : fstate) : Prop :=
  f_cells s <> [] /\ frecalc (f_ref s) = f_ref s /\
  Forall (fun c => frecalc (c_p c) = c_p c) (f_cells s) /\
  (forall i, f_env0 s i = fenv0 (f_cells s) (f_env0 s) i) /\
  (forall i j, f_env1 s i j = fenv1 (f_cells s) (f_env0 s) i j) /\
  (forall i, f_rms s i = dsqrt (f_env1 s i i)).

(** Centroids, covariances and wave numbers are finite. *)
Definition all_finite (s : fstate) : Prop :=
  is_finite (fK (f_ref s)) = true /\
  Forall (fun c => is_finite (fK (c_p c)) = true /\
                   (forall i, (i < 7)%nat -> number (c_m0 c i)) /\
                   (forall i j, (i < 7)%nat -> (j < 7)%nat -> number (c_m1 c i j))) (f_cells s).

(** The matrix of the element does not depend on phases. *)
Definition phase_blind (e : felem) : Prop :=
  forall r p x y, e_mat e (set_phis x r) (set_phis y p) = e_mat e r p.

(** Row [i] of a matrix is that of the unit matrix, zeros of either sign. *)
Definition unit_row (n : nat) (T : fmat) (i : nat) : Prop :=
  T i i = done /\ forall k, (k < n)%nat -> k <> i -> exists s, T i k = S754_zero s.

(** Not below zero (zeros, infinity and NaN are not). *)
Definition not_below_zero (x : double) : Prop :=
  match x with S754_finite true _ _ | S754_infinity true => False | _ => True end.
(** Symmetric, and no less than zero as a quadratic form, as a matrix of the reals
    the doubles stand for. *)
Definition covariance_of_doubles (M : fmat) : Prop :=
  (forall i j, (i < 7)%nat -> (j < 7)%nat -> number (M i j) /\ M i j = M j i) /\
  forall v : nat -> R,
    (0 <= fold_right Rplus 0
            (map (fun i => fold_right Rplus 0 (map (fun j => v i * dval (M i j) * v j) (seq 0 7))) (seq 0 7)))%R.

(** Zero or NaN. *)
Definition zero_or_nan (x : double) : Prop := (exists s, x = S754_zero s) \/ x = S754_nan.
(** The plane a component belongs to: 0 horizontal, 1 vertical, 2 longitudinal, 3
    the constant. *)
Definition plane (i : nat) : nat := Nat.div2 i.
(** The matrix of an element mixes no two planes (kicks are admitted). *)
Definition planes_apart (T : fmat) : Prop :=
  forall i j, (i < 7)%nat -> (j < 6)%nat -> plane i <> plane j -> zero_or_nan (T i j).
(** The covariance has no correlation between two planes, and none with the constant. *)
Definition uncorrelated (M : fmat) : Prop :=
  forall i j, (i < 7)%nat -> (j < 7)%nat -> plane i <> plane j \/ i = 6%nat -> zero_or_nan (M i j).
(** The components [I] of centroid and covariance are the same. *)
Definition kept (I : nat -> Prop) (c d : fcell) : Prop :=
  (forall i, I i -> alike (c_m0 d i) (c_m0 c i)) /\
  (forall i j, I i -> I j -> alike (c_m1 d i j) (c_m1 c i j)).
