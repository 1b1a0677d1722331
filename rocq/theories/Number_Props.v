(** C48: numbers in lattice files.  Specification: Number_Spec. *)
From Coq Require Import Reals ZArith List Ascii String Lra.
From Verif Require Import Dbl Lexer_Model Lexer_Spec Number_Spec Number_Proofs.
Import ListNotations.
Open Scope R_scope.
Open Scope string_scope.

(** Every number the scanner delivers is the double nearest to a decimal number
    written in the text. *)
Theorem C48_literals_correctly_rounded : forall s ts x,
  lex s = Some (ts, false) -> In (KNum x) ts ->
  exists a p b m e, list_ascii_of_string s = (a ++ p ++ b)%list /\
    decimal p m e /\ nearest (decval m e) x.
Proof. exact literal_nearest. Qed.
Print Assumptions C48_literals_correctly_rounded.
Example C48_literals_correctly_rounded_ex :
  exists x, lex "a = 0.1;" = Some ([KKw "a"; KEq; KNum x; KSemi], false) /\
            x = S754_finite false 7205759403792794 (-56).
Proof. eexists. split; vm_compute; reflexivity. Qed.

(** A literal is accepted exactly when it is zero or lies strictly between half the
    smallest double and the midpoint beyond the largest. *)
Theorem C48_literal_range : forall s m e,
  decimal (list_ascii_of_string s) m e ->
  (exists x, lex s = Some ([KNum x], false)) <->
  (m = 0%Z \/ (underflow_bound < decval m e /\ decval m e < overflow_bound)).
Proof. exact literal_range. Qed.
Print Assumptions C48_literal_range.
Example C48_literal_range_ex :
  decimal (list_ascii_of_string "1.50e-3") 150 (-5) /\
  decimal (list_ascii_of_string "1e400") 1 400 /\ lex "1e400" = Some ([], true) /\
  lex "1e-400" = Some ([], true).
Proof.
  split; [|split; [|split]].
  - apply (dec_intro ["1"%char] ["."; "5"; "0"]%char ["5"; "0"]%char ["e"; "-"; "3"]%char (-3)); try discriminate; auto.
    + apply (fr_some ["5"; "0"]%char). reflexivity.
    + apply (ex_minus "e"%char ["3"%char]); simpl; auto. discriminate.
  - apply (dec_intro ["1"%char] [] [] ["e"; "4"; "0"; "0"]%char 400); try discriminate; auto.
    + constructor.
    + apply (ex_plain "e"%char ["4"; "0"; "0"]%char); simpl; auto. discriminate.
  - vm_compute. reflexivity.
  - vm_compute. reflexivity.
Qed.

(** Sums, differences, products and quotients of doubles are correctly rounded
    whenever they are in range. *)
Theorem C48_arithmetic_correctly_rounded : forall x y,
  well_formed x -> is_finite x = true -> well_formed y -> is_finite y = true ->
  (Rabs (dval x + dval y) < overflow_bound -> nearest (dval x + dval y) (dadd x y)) /\
  (Rabs (dval x - dval y) < overflow_bound -> nearest (dval x - dval y) (dsub x y)) /\
  (Rabs (dval x * dval y) < overflow_bound -> nearest (dval x * dval y) (dmul x y)) /\
  (dval y <> 0 -> Rabs (dval x / dval y) < overflow_bound -> nearest (dval x / dval y) (ddiv x y)).
Proof. exact arith_nearest. Qed.
Print Assumptions C48_arithmetic_correctly_rounded.
Example C48_arithmetic_correctly_rounded_ex :
  well_formed done /\ is_finite done = true /\ dval done = 1 /\
  well_formed (ddiv done (d_of_Z 3)) /\ even_mantissa (d_of_Z 6).
Proof.
  split; [reflexivity|]. split; [reflexivity|]. split; [|split; [reflexivity|reflexivity]].
  change done with (S754_finite false 4503599627370496 (-52)). unfold dval.
  change (powerRZ 2 (-52)) with (/ 2 ^ 52). simpl. lra.
Qed.
