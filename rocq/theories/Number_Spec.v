(** What a numeric literal should mean: the double nearest to the decimal number
    written, ties going to the even mantissa (IEEE 754 round to nearest even). *)
From Coq Require Import Reals ZArith List Ascii.
From Coq Require Import Floats.SpecFloat.
From Verif Require Import Dbl.
Open Scope R_scope.

(** The real number a finite double stands for. *)
Definition dval (x : double) : R :=
  match x with
  | S754_finite s m e => (if s then -1 else 1) * IZR (Zpos m) * powerRZ 2 e
  | _ => 0
  end.
(** A double in the binary64 format: mantissa below 2^53, exponent in range, and
    no other mantissa for the same number. *)
Definition well_formed (x : double) : Prop := valid_binary dprec demax x = true.
Definition even_mantissa (x : double) : Prop :=
  match x with S754_finite _ m _ => Z.even (Zpos m) = true | _ => True end.

Definition nearest (v : R) (x : double) : Prop :=
  well_formed x /\ is_finite x = true /\
  (forall y, well_formed y -> is_finite y = true -> Rabs (v - dval x) <= Rabs (v - dval y)) /\
  (forall y, well_formed y -> is_finite y = true -> Rabs (v - dval x) = Rabs (v - dval y) ->
             dval y = dval x \/ even_mantissa x).

(** The decimal number [m * 10^e]. *)
Definition decval (m e : Z) : R := IZR m * powerRZ 10 e.
(** Too large: at least the midpoint between the largest double and 2^1024. *)
Definition overflow_bound : R := powerRZ 2 1024 - powerRZ 2 970.
(** Too small: at most half the smallest positive double. *)
Definition underflow_bound : R := powerRZ 2 (-1075).
