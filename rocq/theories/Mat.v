(** Vectors and matrices of real numbers as functions of the indices; an
    n-dimensional object is determined by its entries below n ([meq], [veq]).
    Used for the ublas matrices and vectors of src/linear.cpp, src/moment.cpp and
    src/moment_sup.cpp, in exact arithmetic. *)
From Coq Require Import Reals Arith Lia Lra List Bool Setoid Morphisms.
Open Scope R_scope.

Definition vec := nat -> R.
Definition mat := nat -> nat -> R.

Fixpoint sumn (n : nat) (f : nat -> R) : R :=
  match n with O => 0 | S k => sumn k f + f k end.

(** boost::numeric::ublas::prod and trans, identity_matrix. *)
Definition mmul (n : nat) (A B : mat) : mat := fun i j => sumn n (fun k => A i k * B k j).
Definition mapp (n : nat) (A : mat) (v : vec) : vec := fun i => sumn n (fun k => A i k * v k).
Definition mtr (A : mat) : mat := fun i j => A j i.
Definition mid : mat := fun i j => if Nat.eqb i j then 1 else 0.
Definition madd (A B : mat) : mat := fun i j => A i j + B i j.
Definition mscal (x : R) (A : mat) : mat := fun i j => x * A i j.
Definition vadd (u v : vec) : vec := fun i => u i + v i.
Definition vscal (x : R) (v : vec) : vec := fun i => x * v i.
Definition dot (n : nat) (u v : vec) : R := sumn n (fun k => u k * v k).
(** [M(i,j) = x]. *)
Definition mset (A : mat) (i j : nat) (x : R) : mat :=
  fun a b => if (Nat.eqb a i && Nat.eqb b j)%bool then x else A a b.
Definition vset (v : vec) (i : nat) (x : R) : vec := fun a => if Nat.eqb a i then x else v a.

Definition meq (n : nat) (A B : mat) : Prop := forall i j, (i < n)%nat -> (j < n)%nat -> A i j = B i j.
Definition veq (n : nat) (u v : vec) : Prop := forall i, (i < n)%nat -> u i = v i.
