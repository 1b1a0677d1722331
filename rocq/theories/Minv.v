(** Matrix inversion as done by inverse(), src/moment_sup.cpp:22-36: LU
    factorisation with row exchanges (ublas::lu_factorize), failure when the
    matrix is singular, otherwise the inverse.  In exact arithmetic the inverse is
    unique, so the order in which ublas eliminates does not matter; here it is
    Gauss-Jordan elimination taking the first usable pivot. *)
From Coq Require Import Reals Arith Bool.
From Verif Require Import Mat.
Open Scope R_scope.

(** Exchange of rows [j] and [p]. *)
Definition swap (j p r : nat) : nat :=
  if Nat.eqb r j then p else if Nat.eqb r p then j else r.
(** Bring row [p] to row [j], divide it by its pivot, and subtract multiples of it
    from the others; [a] is the column being cleared. *)
Definition pivot_op (j p : nat) (a : vec) (X : mat) : mat :=
  fun r c => if Nat.eqb r j then X p c / a p
             else X (swap j p r) c - a (swap j p r) * (X p c / a p).
(** First row from [r] on, among [k] rows, with a nonzero entry. *)
Fixpoint find_pivot (k r : nat) (a : vec) : option nat :=
  match k with
  | O => None
  | S k' => if Req_EM_T (a r) 0 then find_pivot k' (S r) a else Some r
  end.
(** [k] columns left, starting at [j]. *)
Fixpoint gauss (k j : nat) (A B : mat) : option mat :=
  match k with
  | O => Some B
  | S k' =>
      let a := fun r => A r j in
      match find_pivot k j a with
      | None => None
      | Some p => gauss k' (S j) (pivot_op j p a A) (pivot_op j p a B)
      end
  end.
(** inverse(); None: std::runtime_error "Failed to invert matrix". *)
Definition minv (n : nat) (A : mat) : option mat := gauss n 0 A mid.
