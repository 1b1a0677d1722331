(** Model of the line numbers in messages of the lattice parser: "On line N: ..." of the
    exception (glps_parser.cpp:539-547) and "On line N : ..." of print()
    (glps_parser.cpp:486-521).

    The scanner counts lines by hand (src/glps.l:43, 49); a message carries the count
    at the time it is made, that is the line of the last token that the parser has
    asked for.  Whether a token beyond the rule has been asked for follows from the LALR
    tables: a state whose only action is one reduction takes no token.  Those are the
    states after NUM, STR, a vector, a closing parenthesis, a product, a quotient, a
    negation (the precedence declarations, src/glps.y:64-66, leave nothing but the
    reduction) and after the ';' of a statement.  After a name (a call could follow), a sum or a
    difference (a product could follow), and at the end of a list or of a property the
    next token has been read.  Only the first message is kept
    (glps_verror, glps_parser.cpp:47-57).

    The parser is that of Glps_Model with the scanner's line.  Simplifications as there;
    an exhausted stack (Stack_Model) is left out. *)
From Coq Require Import List String Ascii Bool ZArith NArith Arith.
From Verif Require Import SMap Dbl Config_Model Config_Spec Lexer_Model Glps_Model.
Import ListNotations.
Open Scope string_scope.

(** ** The scanner's count *)

(** yylineno after one action on input starting with [c]: src/glps.l:43, 49 *)
Definition bump (c : ascii) (n : N) : N :=
  if (is_nl c || Ascii.eqb c "#")%bool then N.succ n else n.

(** Tokens with the count when they are returned, the count at the end of the input or
    at the error that ended it, and whether there was one. *)
Fixpoint lines_fuel (fuel : nat) (n : N) (l : list ascii) : option (list (token * N) * N * bool) :=
  match l with
  | [] => Some ([], n, false)
  | c :: _ =>
      match fuel with
      | O => None
      | S f =>
          match scan l with
          | STok t _ r =>
              match lines_fuel f n r with
              | Some (ts, m, e) => Some ((t, n) :: ts, m, e)
              | None => None
              end
          | SSkip _ r => lines_fuel f (bump c n) r
          | SErr => Some ([], n, true)
          end
      end
  end.
(** glps_set_lineno(1, scanner), glps_parser.cpp:537 *)
Definition lines (s : string) : option (list (token * N) * N * bool) :=
  let l := list_ascii_of_string s in lines_fuel (List.length l) 1 l.

(** ** The parser's messages *)

(** yylineno, parse_context::last_line when last_error is set, lines of print() so far
    (last one first) *)
Record wst := mkW { w_line : N; w_first : option N; w_prints : list N }.

(** glps_verror, glps_parser.cpp:47-57 *)
Definition note (x : wst) : wst :=
  match w_first x with
  | Some _ => x
  | None => mkW (w_line x) (Some (w_line x)) (w_prints x)
  end.

Inductive wres (A : Type) :=
| WOk (a : A) (rest : list (token * N)) (x : wst)
| WStop (x : wst)          (** yyparse() returns 1 *)
| WBadGet | WUB (u : ub) | WFuel.
Arguments WOk {A}. Arguments WStop {A}. Arguments WBadGet {A}. Arguments WUB {A}. Arguments WFuel {A}.

Definition wbind {A B} (y : wres A) (f : A -> list (token * N) -> wst -> wres B) : wres B :=
  match y with
  | WOk a r x => f a r x | WStop x => WStop x | WBadGet => WBadGet | WUB u => WUB u | WFuel => WFuel
  end.
(** An action that records an error and makes the parser stop (PERR, src/glps.y:75). *)
Definition wact {A B} (y : act A) (x : wst) (f : A -> wres B) : wres B :=
  match y with AOk a => f a | AFail => WStop (note x) | ABadGet => WBadGet | AUB u => WUB u end.

Section Parser.
Context {C A V L K : Type} (X : actions C A V L K).
(** Whether the context holds an error (glps_assign and the like record one and go on). *)
Context (bad : C -> bool).
(** The count at the end of the input, and whether an error of the scanner ended it. *)
Context (eoi : N * bool).

(** A token has been taken. *)
Definition at_line (n : N) (x : wst) : wst := mkW n (w_first x) (w_prints x).
(** The next token has been asked for: yylex() *)
Definition peek (ts : list (token * N)) (x : wst) : wst :=
  match ts with
  | (_, n) :: _ => at_line n x
  | [] => if snd eoi then note (at_line (fst eoi) x) else at_line (fst eoi) x
  end.
(** yyerror(): "syntax error", src/glps.y:7-12 *)
Definition syntax {B} (ts : list (token * N)) (x : wst) : wres B := WStop (note (peek ts x)).

(** [expr], src/glps.y:110-120; see [p_expr]. *)
Fixpoint w_expr (fuel lvl : nat) (c : C) (ts : list (token * N)) (x : wst) {struct fuel} : wres A :=
  match fuel with
  | O => WFuel
  | S f =>
      match lvl with
      | 0 | 1 => wbind (w_expr f (S lvl) c ts x) (fun a r x' => w_ops f lvl c a r x')
      | _ =>
          match ts with
          | (KNum v, n) :: r => let x := at_line n x in wact (a_num X v) x (fun a => WOk a r x)
          | (KStr s, n) :: r => let x := at_line n x in wact (a_str X s) x (fun a => WOk a r x)
          | (KMinus, n) :: r =>
              wbind (w_expr f 2 c r (at_line n x)) (fun a r' x' =>
                wact (a_un X c "-" a) x' (fun y => WOk y r' x'))
          | (KLPar, n) :: r =>
              wbind (w_expr f 0 c r (at_line n x)) (fun a r' x' =>
                match r' with (KRPar, m) :: r'' => WOk a r'' (at_line m x') | _ => syntax r' x' end)
          | (KLBrk, n) :: r =>
              wbind (w_vec f c r (at_line n x)) (fun v r' x' =>
                match r' with
                | (KRBrk, m) :: r'' => let x' := at_line m x' in wact (a_vec X v) x' (fun a => WOk a r'' x')
                | _ => syntax r' x'
                end)
          | (KKw s, n) :: (KLPar, m) :: r =>
              wbind (w_expr f 0 c r (at_line m x)) (fun a r' x' =>
                match r' with
                | (KRPar, k) :: r'' =>
                    let x' := at_line k x' in wact (a_un X c s a) x' (fun y => WOk y r'' x')
                | _ => syntax r' x'
                end)
          | (KKw s, n) :: r =>
              let x := peek r x in wact (a_var X c s) x (fun a => WOk a r x)
          | _ => syntax ts x
          end
      end
  end
(** expr op expr, src/glps.y:114-117.  An operator could follow, so that the next token is
    read.  The right operand of a product is an operand alone; that of a sum ends here, with
    the token after it read. *)
with w_ops (fuel lvl : nat) (c : C) (a : A) (ts : list (token * N)) (x : wst) {struct fuel} : wres A :=
  match fuel with
  | O => WFuel
  | S f =>
      match ts with
      | (t, n) :: r =>
          match binop_at lvl t with
          | Some o =>
              wbind (w_expr f (S lvl) c r (at_line n x)) (fun b r' x' =>
                wact (a_bin X c o a b) x' (fun y => w_ops f lvl c y r' x'))
          | None => WOk a ts (peek ts x)
          end
      | [] => WOk a ts (peek ts x)
      end
  end
(** [expr_list], src/glps.y:122-124; the token after it has been read *)
with w_vec (fuel : nat) (c : C) (ts : list (token * N)) (x : wst) {struct fuel} : wres V :=
  match fuel with
  | O => WFuel
  | S f =>
      match ts with
      | (KRBrk, n) :: _ => WOk (v_nil X) ts (at_line n x)
      | _ =>
          wbind (w_expr f 0 c ts x) (fun a r x' =>
            match r with
            | (KComma, n) :: r' =>
                wbind (w_vec f c r' (at_line n x')) (fun v r'' x'' =>
                  wact (v_cons X a v) x'' (fun w => WOk w r'' x''))
            | _ => wact (v_cons X a (v_nil X)) x' (fun w => WOk w r x')
            end)
      end
  end.

(** See [p_expr0]. *)
Definition w_expr0 (c : C) (ts : list (token * N)) (x : wst) : wres A :=
  w_expr (4 * List.length ts + 4) 0 c ts x.

(** [line_list], src/glps.y:106-108; the token after it has been read *)
Fixpoint w_lines (fuel : nat) (c : C) (ts : list (token * N)) (x : wst) : wres L :=
  match fuel with
  | O => WFuel
  | S f =>
      match ts with
      | (KRPar, n) :: _ => WOk (l_nil X) ts (at_line n x)
      | _ =>
          wbind (w_expr0 c ts x) (fun a r x' =>
            match r with
            | (KComma, n) :: r' =>
                wbind (w_lines f c r' (at_line n x')) (fun v r'' x'' =>
                  wact (l_cons X a v) x'' (fun w => WOk w r'' x''))
            | _ => wact (l_cons X a (l_nil X)) x' (fun w => WOk w r x')
            end)
      end
  end.

(** The first of these tokens that is not the expected one, for a syntax error. *)
Definition syntax2 {B} (ok : token -> bool) (ts : list (token * N)) (x : wst) : wres B :=
  match ts with
  | (t, n) :: r => if ok t then syntax r (at_line n x) else syntax ts x
  | [] => syntax ts x
  end.
Definition is_kw (t : token) : bool := match t with KKw _ => true | _ => false end.

(** [properties], [property], src/glps.y:101-104 *)
Fixpoint w_props (fuel : nat) (c : C) (ts : list (token * N)) (x : wst) : wres K :=
  match fuel with
  | O => WFuel
  | S f =>
      match ts with
      | (KComma, _) :: (KKw k, _) :: (KEq, n) :: r =>
          wbind (w_expr0 c r (at_line n x)) (fun a r' x' =>
            wbind (w_props f c r' x') (fun m r'' x'' => WOk (k_cons X k a m) r'' x''))
      | (KComma, n) :: r => syntax2 is_kw r (at_line n x)
      | _ => WOk (k_nil X) ts (peek ts x)
      end
  end.

(** A statement has ended and its action has been run. *)
Definition done (c : C) (x : wst) : wst := if bad c then note x else x.
Definition w_semi {B} (ts : list (token * N)) (x : wst) (k : list (token * N) -> wst -> wres B) : wres B :=
  match ts with (KSemi, n) :: r => k r (at_line n x) | _ => syntax ts x end.
(** "On line " of print, glps_parser.cpp:493-495 *)
Definition print (f : string) (x : wst) : wst :=
  if String.eqb f "print" then mkW (w_line x) (w_first x) (w_line x :: w_prints x) else x.

(** [entry], src/glps.y:85-99 *)
Definition w_entry (c : C) (ts : list (token * N)) (x : wst) : wres C :=
  match ts with
  | (KKw s, _) :: (KEq, n) :: r =>
      wbind (w_expr0 c r (at_line n x)) (fun a r' x' => w_semi r' x' (fun r'' x' =>
        wact (s_assign X c s a) x' (fun c' => WOk c' r'' (done c' x'))))
  | (KKw s, _) :: (KColon, _) :: (KKw t, _) :: (KEq, _) :: (KLPar, n) :: r =>
      wbind (w_lines (S (List.length r)) c r (at_line n x)) (fun l r' x' =>
        match r' with
        | (KRPar, m) :: r'' => w_semi r'' (at_line m x') (fun r3 x' =>
            wact (s_line X c s t l) x' (fun c' => WOk c' r3 (done c' x')))
        | _ => syntax r' x'
        end)
  | (KKw s, _) :: (KColon, _) :: (KKw t, _) :: (KEq, n) :: r => syntax r (at_line n x)
  | (KKw s, _) :: (KColon, _) :: (KKw t, n) :: r =>
      wbind (w_props (S (List.length r)) c r (at_line n x)) (fun m r' x' => w_semi r' x' (fun r'' x' =>
        wact (s_elem X c s t m) x' (fun c' => WOk c' r'' (done c' x'))))
  | (KKw s, _) :: (KLPar, n) :: r =>
      wbind (w_expr0 c r (at_line n x)) (fun a r' x' =>
        match r' with
        | (KRPar, m) :: r'' => w_semi r'' (at_line m x') (fun r3 x' =>
            let x' := print s x' in
            wact (s_call X c s a) x' (fun c' => WOk c' r3 (done c' x')))
        | _ => syntax r' x'
        end)
  | (KKw s, _) :: (KSemi, n) :: r =>
      let x := at_line n x in wact (s_cmd X c s) x (fun c' => WOk c' r (done c' x))
  | (KKw s, _) :: (KColon, n) :: r => syntax r (at_line n x)
  | (KKw s, n) :: r => syntax r (at_line n x)
  | _ => syntax ts x
  end.

(** [file], src/glps.y:82-83: the end is known once the next token has been read *)
Fixpoint w_file (fuel : nat) (c : C) (ts : list (token * N)) (x : wst) : wres C :=
  match ts with
  | [] => WOk c [] (peek [] x)
  | _ =>
      match fuel with
      | O => WFuel
      | S f => wbind (w_entry c ts x) (fun c' r x' => w_file f c' r x')
      end
  end.

End Parser.

(** ** What the caller sees of parse_common, glps_parser.cpp:524-557 *)
Inductive report :=
| Fine (prints : list N)
| OnLine (n : N) (prints : list N)   (** the exception "On line n: ..." *)
| Broken.                            (** one of the outcomes excluded or refuted by C06 *)

Definition report_tokens (w : world) (vars : smap tval) (ts : list (token * N)) (m : N) (e : bool) : report :=
  match w_file (glps w) c_err (m, e) (List.length ts) (fill_vars vars ctx0) ts (mkW 1 None []) with
  | WOk _ _ x | WStop x =>
      match w_first x with
      | None => Fine (rev (w_prints x))
      | Some n => OnLine n (rev (w_prints x))
      end
  | _ => Broken
  end.
Definition report_text (w : world) (vars : smap tval) (s : string) : report :=
  match lines s with
  | Some (ts, m, e) => report_tokens w vars ts m e
  | None => Broken
  end.
