(** How far double arithmetic may be from exact arithmetic. *)
From Coq Require Import Reals List ZArith Arith Floats.SpecFloat.
From Verif Require Import Dbl Number_Spec Bits_Model Bits_Spec.
Import ListNotations.
Open Scope R_scope.

(** Half the distance of 1 to the next double; half the smallest positive double. *)
Definition u_round : R := powerRZ 2 (-53).
Definition u_tiny : R := powerRZ 2 (-1075).
Fixpoint rsum (n : nat) (f : nat -> R) : R := match n with O => 0 | S n => rsum n f + f n end.
(** Relative and absolute part of the error of a sum of [n] products. *)
Definition gamma (n : nat) : R := (1 + u_round) ^ S n - 1.
Definition lost (n : nat) : R := INR n * u_tiny * (1 + u_round) ^ n.

Definition well_formed_vec (n : nat) (v : fvec) : Prop := forall i, (i < n)%nat -> well_formed (v i).
Definition well_formed_mat (n : nat) (M : fmat) : Prop := forall i j, (i < n)%nat -> (j < n)%nat -> well_formed (M i j).

(** [T v] and [T M T'] over the reals, and the same with all signs positive. *)
Definition exact_vec (n : nat) (T : fmat) (x : nat -> R) (i : nat) : R := rsum n (fun k => dval (T i k) * x k).
Definition abs_vec (n : nat) (T : fmat) (x : nat -> R) (i : nat) : R := rsum n (fun k => Rabs (dval (T i k)) * x k).
Definition exact_cov (n : nat) (T M : fmat) (i j : nat) : R :=
  rsum n (fun l => rsum n (fun k => dval (T i k) * dval (M k l)) * dval (T j l)).
Definition abs_cov (n : nat) (T M : fmat) (i j : nat) : R :=
  rsum n (fun l => rsum n (fun k => Rabs (dval (T i k) * dval (M k l))) * Rabs (dval (T j l))).
Definition cov_error (n : nat) (T M : fmat) (i j : nat) : R :=
  ((1 + gamma n) ^ 2 - 1) * abs_cov n T M i j +
  lost n * (1 + (1 + gamma n) * rsum n (fun l => Rabs (dval (T j l)))).

(** A line of matrices applied to a vector: exact result, the same with all signs
    positive, and the part of the error due to numbers too small to be stored. *)
Fixpoint exact_line (n : nat) (Ts : list fmat) (x : nat -> R) : nat -> R :=
  match Ts with [] => x | T :: Ts => exact_line n Ts (exact_vec n T x) end.
Fixpoint abs_line (n : nat) (Ts : list fmat) (x : nat -> R) : nat -> R :=
  match Ts with [] => x | T :: Ts => abs_line n Ts (abs_vec n T x) end.
Fixpoint small_line (n : nat) (Ts : list fmat) (y : nat -> R) : nat -> R :=
  match Ts with [] => y | T :: Ts => small_line n Ts (fun i => (1 + gamma n) * abs_vec n T y i + lost n) end.
(** A sum of doubles. *)
Definition rlist (l : list double) : R := fold_right (fun x s => dval x + s) 0 l.
Definition rlist_abs (l : list double) : R := fold_right (fun x s => Rabs (dval x) + s) 0 l.
