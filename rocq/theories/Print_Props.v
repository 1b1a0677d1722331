(** Properties of the lattice printer (C18).  Specification: Print_Spec. *)
From Coq Require Import List String Ascii Bool ZArith Reals.
From Verif Require Import SMap Dbl Config_Model Config_Spec Lexer_Model Lexer_Spec Number_Spec Glps_Model Glps_Spec Machine_Model.
From Verif Require Import Glps6_Proofs Print_Model Print_Spec Print_Proofs Print2_Proofs Print3_Proofs Print5_Proofs Print6_Proofs Print7_Proofs.
Import ListNotations.
Open Scope string_scope.
Open Scope list_scope.

(** ** Numbers *)
(** A finite number is written as its sign and a decimal literal of at most six
    digits; no other such decimal is nearer, and its relative error is at most
    1/200000. *)
Theorem C18_number_text : forall s m e, well_formed (S754_finite s m e) ->
  exists p k d, show_num (S754_finite s m e) = sign_text s ++ p /\ decimal p k d /\ (0 < k < 1000000)%Z /\
    nearest_six (dval (S754_finite false m e)) (decval k d) /\
    (Rabs (decval k d - dval (S754_finite false m e)) <= dval (S754_finite false m e) / 200000)%R.
Proof. exact show_finite. Qed.
Print Assumptions C18_number_text.
Example C18_number_text_ex :
  well_formed (S754_finite true 8895992769862258 (-56)) /\
  show_num (S754_finite true 8895992769862258 (-56)) = txt "-0.123457".
Proof. split; vm_compute; reflexivity. Qed.

(** The scanner reads it as a double of the same sign at most one part in 100000
    away (or the smallest double), and as the same double if six digits suffice. *)
Theorem C18_number_read : forall x c r ts, writable_num x -> In c [","; ";"; "]"]%char -> tokenises (c :: r) ts ->
  exists y, tokenises (show_num x ++ c :: r) (num_tokens y ++ ts) /\ nearly_num x y.
Proof. exact t_read. Qed.
Print Assumptions C18_number_read.
Example C18_number_read_ex : writable_num (S754_finite true 8895992769862258 (-56)) /\ In ";"%char [","; ";"; "]"]%char /\
  tokenises [";"%char] [KSemi].
Proof.
  split; [apply numb_ok; vm_compute; reflexivity|]. split; [simpl; auto|].
  apply t_punct; [reflexivity|constructor].
Qed.

(** ** Lattices *)
(** GLPSPrint writes any lattice whose names are keywords, whose numbers are finite,
    whose strings hold no quote or line break, in which one name stands for one
    definition and no element is called like a variable or USE.  The text parses to
    the same elements in the same order, with the same names and types and nearly
    the same properties, behind which are nearly the same variables.  Missing: the
    lattices excluded, and digits beyond the sixth (refuted below). *)
Theorem C18_round_trip_partial : forall w c es, lattice c es ->
  exists s c', glps_print c = Ok s /\ parse_text w [] true s = Parsed c' /\ read_back c es c'.
Proof. exact round_trip. Qed.
Print Assumptions C18_round_trip_partial.
Example C18_round_trip_ex : lattice cell (elements_of cell) /\ List.length (elements_of cell) = 3%nat.
Proof.
  split; [|reflexivity]. apply (parsed_lattice demo [] cell_text cell I ltac:(intros n v []) cell_parsed).
  - apply valsb_ok. vm_compute. reflexivity.
  - apply apartb_ok. vm_compute. reflexivity.
Qed.

(** A lattice that was read from a text: the exclusions about names and repeated
    definitions that remain are the clash of an element with a variable or USE. *)
Theorem C18_parsed_partial : forall w w' vars s c, ssorted vars -> (forall n v, In (n, v) vars -> word n) ->
  parse_text w vars true s = Parsed c -> all_writable c -> names_apart c ->
  exists t c', glps_print c = Ok t /\ parse_text w' [] true t = Parsed c' /\ looks_alike onearly c c'.
Proof. exact parsed_round_trip. Qed.
Print Assumptions C18_parsed_partial.
Example C18_parsed_ex : parse_text demo [] true cell_text = Parsed cell /\ all_writable cell /\ names_apart cell.
Proof.
  split; [exact cell_parsed|]. split; [apply valsb_ok|apply apartb_ok]; vm_compute; reflexivity.
Qed.

(** ... and if six digits suffice for every number, every lookup in the lattice and
    in its elements gives exactly what it gave. *)
Theorem C18_exact_partial : forall w w' vars s c, ssorted vars -> (forall n v, In (n, v) vars -> word n) ->
  parse_text w vars true s = Parsed c -> all_writable c -> all_short c -> names_apart c ->
  exists t c', glps_print c = Ok t /\ parse_text w' [] true t = Parsed c' /\ looks_alike (fun o o' => o' = o) c c'.
Proof. exact parsed_exactly. Qed.
Print Assumptions C18_exact_partial.
Example C18_exact_ex : parse_text demo [] true short_text = Parsed cell_short /\ all_writable cell_short /\
  all_short cell_short /\ names_apart cell_short.
Proof.
  split; [exact short_parsed|]. split; [apply valsb_ok; vm_compute; reflexivity|]. split; [exact cell_short_short|].
  apply apartb_ok. vm_compute. reflexivity.
Qed.

(** ** What is lost *)
(** A variable with seven digits comes back changed. *)
Theorem C18_digits_refuted : exists w s c t c', parse_text w [] true s = Parsed c /\ glps_print c = Ok t /\
  parse_text w [] true t = Parsed c' /\ tlookup "x" c' <> tlookup "x" c.
Proof. exact (ex_intro _ demo (ex_intro _ digits_text7 C18_digits_refuted_w)). Qed.
Print Assumptions C18_digits_refuted.

(** The text written for an infinite number does not parse. *)
Theorem C18_infinity_refuted : exists w s c t, parse_text w [] true s = Parsed c /\ glps_print c = Ok t /\
  parse_text w [] true t = Failed.
Proof. exact (ex_intro _ demo (ex_intro _ inf_text C18_infinity_refuted_w)). Qed.
Print Assumptions C18_infinity_refuted.

(** The text written for a lattice with a variable named like an element need not parse. *)
Theorem C18_clash_refuted : exists w s c t, parse_text w [] true s = Parsed c /\ all_writable c /\ glps_print c = Ok t /\
  parse_text w [] true t = Failed.
Proof. exact (ex_intro _ demo (ex_intro _ clash_text C18_clash_refuted_w)). Qed.
Print Assumptions C18_clash_refuted.

(** Of two elements with one name, the second comes back with the properties of the first. *)
Theorem C18_twins_refuted : exists w c t c', glps_print c = Ok t /\ parse_text w [] true t = Parsed c' /\
  length_at c 1 = Some (TNum d2) /\ length_at c' 1 = Some (TNum d1).
Proof. exact (ex_intro _ demo (ex_intro _ twins C18_twins_refuted_w)). Qed.
Print Assumptions C18_twins_refuted.

(** The text written for a string with a quote does not parse. *)
Theorem C18_quote_refuted : exists w c t, glps_print c = Ok t /\ parse_text w [] true t = Failed.
Proof. exact (ex_intro _ demo (ex_intro _ quote7 C18_quote_refuted_w)). Qed.
Print Assumptions C18_quote_refuted.

(** A property that is a list of Configs is dropped. *)
Theorem C18_nested_refuted : exists w c t c', glps_print c = Ok t /\ parse_text w [] true t = Parsed c' /\
  prop_at "sub" c <> None /\ prop_at "sub" c' = None.
Proof. exact (ex_intro _ demo (ex_intro _ nested C18_nested_refuted_w)). Qed.
Print Assumptions C18_nested_refuted.
