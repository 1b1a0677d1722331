(** Properties of the scanner (C16).  Specification: Lexer_Spec. *)
From Coq Require Import List String Ascii Bool ZArith.
From Verif Require Import Dbl Lexer_Model Lexer_Spec Lexer_Proofs.
Import ListNotations.
Open Scope string_scope.

(** Scanning any text ends, with tokens and possibly an error. *)
Theorem C16_lexer_terminates : forall s, exists ts e, lex s = Some (ts, e).
Proof. exact lex_total. Qed.
Print Assumptions C16_lexer_terminates.

(** Without an error, the tokens are those of the unique division of the text into
    longest lexemes of the rules of glps.l; every byte belongs to one lexeme. *)
Theorem C16_longest_match : forall s ts,
  lex s = Some (ts, false) <-> tokenises (list_ascii_of_string s) ts.
Proof. exact lex_tokenises. Qed.
Print Assumptions C16_longest_match.

(** An error is reported exactly when there is no such division. *)
Theorem C16_error_iff_not_tokenisable : forall s,
  (exists ts, lex s = Some (ts, true)) <-> ~ exists ts, tokenises (list_ascii_of_string s) ts.
Proof. exact lex_error. Qed.
Print Assumptions C16_error_iff_not_tokenisable.

(** Blanks, newlines and comment lines inserted after a lexeme change nothing. *)
Theorem C16_blanks_between_tokens : forall s w t us ts,
  boundary (list_ascii_of_string s) (list_ascii_of_string t) ts ->
  spaces (list_ascii_of_string w) ->
  lex (s ++ w ++ t) = Some (us, false) <-> lex (s ++ t) = Some (us, false).
Proof. exact lex_spaces. Qed.
Print Assumptions C16_blanks_between_tokens.

(** In a text that can be scanned, the end of every lexeme is such a place. *)
Theorem C16_boundary_after_every_lexeme : forall s ts, tokenises s ts ->
  exists ls, s = List.concat ls /\ (forall p, In p ls -> exists r, matches (rule_re r) p) /\
  forall i, exists us vs, ts = (us ++ vs)%list /\
    boundary (List.concat (firstn i ls)) (List.concat (skipn i ls)) us.
Proof. exact lex_lexemes. Qed.
Print Assumptions C16_boundary_after_every_lexeme.

(** A keyword may contain colons but not end with one; the longest match decides. *)
Example C16_ex_colon : lex "a:b: c" = Some ([KKw "a:b"; KColon; KKw "c"], false).
Proof. reflexivity. Qed.
Example C16_ex_number : lex "1e5e+" = Some ([KNum (d_of_Z 100000); KKw "e"; KPlus], false).
Proof. vm_compute. reflexivity. Qed.
(** A comment on the last line needs its newline. *)
Example C16_ex_comment : lex "a;#x" = Some ([KKw "a"; KSemi], true).
Proof. reflexivity. Qed.
Example C16_ex_boundary :
  boundary (list_ascii_of_string "a1:b") (list_ascii_of_string "*1.5e-3;") [KKw "a1:b"] /\
  spaces (list_ascii_of_string " #c: d
 ").
Proof.
  split; [apply scan_boundary; reflexivity|].
  apply sp_blank; [simpl; auto|]. apply (sp_comment ["c"; ":"; " "; "d"]%char).
  - simpl. intros [H|[H|[H|[H|[]]]]]; discriminate.
  - apply sp_blank; [simpl; auto|]. constructor.
Qed.
Example C16_ex_blanks :
  lex "a1:b #c: d
 *1.5e-3;" = lex "a1:b*1.5e-3;".
Proof. vm_compute. reflexivity. Qed.
