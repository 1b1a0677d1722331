(** IEEE-754 binary64 numbers, as in the C++ type [double] on the supported
    platforms: the standard library's computable specification floats with
    precision 53 and maximal exponent 1024. *)
From Coq Require Import ZArith Bool.
From Coq Require Export Floats.SpecFloat.

Definition dprec : Z := 53.
Definition demax : Z := 1024.

Notation double := spec_float (only parsing).

Definition dzero : double := S754_zero false.
(** The correctly rounded double nearest to the integer [z]. *)
Definition d_of_Z (z : Z) : double := binary_normalize dprec demax z 0 false.
Definition done : double := d_of_Z 1.

Definition dadd (x y : double) : double := SFadd dprec demax x y.
Definition dsub (x y : double) : double := SFsub dprec demax x y.
Definition dmul (x y : double) : double := SFmul dprec demax x y.
Definition ddiv (x y : double) : double := SFdiv dprec demax x y.
Definition dopp (x : double) : double := SFopp x.

(** C++ comparison operators: any comparison with NaN is false. *)
Definition deq (x y : double) : bool := SFeqb x y.
Definition dlt (x y : double) : bool := SFltb x y.
Definition dle (x y : double) : bool := SFleb x y.

Definition is_nan (x : double) : bool :=
  match x with S754_nan => true | _ => false end.
(** [std::isfinite] / [isfinite]. *)
Definition is_finite (x : double) : bool :=
  match x with S754_zero _ => true | S754_finite _ _ _ => true | _ => false end.
