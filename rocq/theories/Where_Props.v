(** C87: the line numbers in messages of the lattice parser. *)
From Coq Require Import List String Ascii Bool ZArith NArith.
From Verif Require Import SMap Config_Model Config_Spec Lexer_Model Glps_Model Glps_Spec Glps6_Proofs
  Where_Model Where_Spec Where_Proofs Where2_Proofs.
Import ListNotations.
Open Scope string_scope.

(** A message with a line number is made exactly when the text is refused. *)
Theorem C87_reported : forall w vars s, ssorted vars ->
  match report_text w vars s with
  | Fine _ => exists t, parse_text w vars false s = Parsed t
  | OnLine _ _ => parse_text w vars false s = Failed \/ parse_text w vars false s = FailedKvFree
  | Broken => parse_text w vars false s = Undefined UBCast
  end.
Proof. exact reported. Qed.
Print Assumptions C87_reported.
Example C87_reported_ex : report_text demo [] demo_text = Fine [] /\
  report_text demo [] (whole_lines ["a = 1;"; "b = a +;"; "c = nowhere;"]) = OnLine 2 [] /\
  report_text demo [] (whole_lines ["a = 1;"; "print(a); print(2);"; "b = ""no end"] ++ """;") = OnLine 3 [2; 2]%N.
Proof. repeat split; vm_compute; reflexivity. Qed.

(** There is no message for a text whose lattice is read. *)
Theorem C87_lattice : forall w vars s t, ssorted vars ->
  parse_text w vars true s = Parsed t -> exists pr, report_text w vars s = Fine pr.
Proof. exact lattice_fine. Qed.
Print Assumptions C87_lattice.
Example C87_lattice_ex : exists t, parse_text demo [] true demo_text = Parsed t.
Proof. eexists. vm_compute. reflexivity. Qed.

(** The line exists, for errors and for print(). *)
Theorem C87_in_text : forall w vars s,
  match report_text w vars s with
  | Fine pr => Forall (fun k => 1 <= k <= 1 + newlines s)%N pr
  | OnLine n pr => (1 <= n <= 1 + newlines s)%N /\ Forall (fun k => 1 <= k <= 1 + newlines s)%N pr
  | Broken => True
  end.
Proof. exact in_text. Qed.
Print Assumptions C87_in_text.
Example C87_in_text_ex : report_text demo [] (whole_lines ["# a comment"; "print(1); # twice"; "print(2"; ");"]) = Fine [2; 4]%N /\
  report_text demo [] (whole_lines ["a = 1"; "# still open"]) = OnLine 3 [].
Proof. repeat split; vm_compute; reflexivity. Qed.

(** An error is never reported above its cause: no change below the line that is named
    makes the text readable, or moves the message. *)
Theorem C87_cause : forall w vars ls b b' k pr, Forall is_line ls ->
  report_text w vars (whole_lines ls ++ b) = OnLine k pr -> (k <= N.of_nat (List.length ls))%N ->
  about k (report_text w vars (whole_lines ls ++ b')).
Proof. exact cause. Qed.
Print Assumptions C87_cause.
Example C87_cause_ex : Forall is_line ["a = 1;"; "a = 2;"; "c = 3;"] /\
  report_text demo [] (whole_lines ["a = 1;"; "a = 2;"; "c = 3;"] ++ "d = ;") = OnLine 2 [].
Proof. split; [repeat constructor|vm_compute; reflexivity]. Qed.

(** The line named is that of the cause: not so.  A name is looked up when the token behind
    it has been read, so that an unknown name on line 1 is reported for line 3, though with
    the name defined the text is read. *)
Theorem C87_culprit_refuted : exists w vars def use rest, is_line use /\
  report_text w vars (use ++ whole_lines [""; ""] ++ rest) = OnLine 3 [] /\
  report_text w vars ((def ++ use) ++ whole_lines [""; ""] ++ rest) = Fine [].
Proof. exact culprit_refuted. Qed.
Print Assumptions C87_culprit_refuted.
