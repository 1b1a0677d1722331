(** Model of the depth of the parser's stack.

    glps.par.c is the LALR parser that bison writes from src/glps.y (src/CMakeLists.txt:7-15)
    with its skeleton yacc.c.  Every shift and every reduction pushes one state; when
    the stack then holds YYMAXDEPTH states the parser gives up: yyerror() records
    "memory exhausted", what is on the stack is passed to its %destructors, and
    yyparse() returns 2.  src/glps.y defines no YYMAXDEPTH, so it is bison's default of
    10000 states; the initial state is one of them, so that 9998 grammar symbols fit.

    The parser below is that of Glps_Model (same rules, same actions, same order)
    with [d], the number of grammar symbols on the stack.  Simplifications: when the
    next token does not fit at all, bison may reduce an empty list before it notices;
    here the syntax error comes first (both end in an exception).  The allocations
    that double the stack up to that size are taken to succeed. *)
From Coq Require Import List String Ascii Bool ZArith NArith Arith.
From Verif Require Import SMap Dbl Config_Model Config_Spec Lexer_Model Glps_Model.
Import ListNotations.
Open Scope string_scope.

(** Outcome of a grammar rule: as [pres], and [BStack] for an exhausted stack; [kv] as
    in [PAbort]: a [property] was on the stack and its %destructor (src/glps.y:59) ran. *)
Inductive bres (A : Type) :=
| BOk (a : A) (rest : list token)
| BAbort (kv : bool)
| BBadGet | BUB (u : ub) | BFuel
| BStack (kv : bool).
Arguments BOk {A}. Arguments BAbort {A}. Arguments BBadGet {A}. Arguments BUB {A}.
Arguments BFuel {A}. Arguments BStack {A}.

Definition bbind {A B} (x : bres A) (f : A -> list token -> bres B) : bres B :=
  match x with
  | BOk a r => f a r | BAbort k => BAbort k | BBadGet => BBadGet | BUB u => BUB u
  | BFuel => BFuel | BStack k => BStack k
  end.
(** Run an action after reducing a rule. *)
Definition bact {A B} (x : act A) (f : A -> bres B) : bres B :=
  match x with AOk a => f a | AFail => BAbort false | ABadGet => BBadGet | AUB u => BUB u end.

(** YYMAXDEPTH - 2: the symbols that fit besides the initial state. *)
Definition max_symbols : N := 9998.
(** A push that makes [d] symbols. *)
Definition push {B} (d : N) (k : bres B) : bres B :=
  if N.leb d max_symbols then k else BStack false.

Section Parser.
Context {C A V L K : Type} (X : actions C A V L K).

(** [expr], src/glps.y:110-120; see [p_expr].  The comments give the symbols above
    the [d] that were there before. *)
Fixpoint b_expr (fuel lvl : nat) (d : N) (c : C) (ts : list token) {struct fuel} : bres A :=
  match fuel with
  | O => BFuel
  | S f =>
      match lvl with
      | 0 | 1 => bbind (b_expr f (S lvl) d c ts) (fun a r => b_ops f lvl d c a r)
      | _ =>
          match ts with
          | KNum x :: r => push (d + 1) (bact (a_num X x) (fun a => BOk a r))
          | KStr s :: r => push (d + 1) (bact (a_str X s) (fun a => BOk a r))
          | KMinus :: r =>                               (* '-' expr *)
              push (d + 1) (bbind (b_expr f 2 (d + 1) c r) (fun a r' =>
                bact (a_un X c "-" a) (fun x => BOk x r')))
          | KLPar :: r =>                                (* '(' expr ')' *)
              push (d + 1) (bbind (b_expr f 0 (d + 1) c r) (fun a r' =>
                match r' with KRPar :: r'' => push (d + 3) (BOk a r'') | _ => BAbort false end))
          | KLBrk :: r =>                                (* '[' expr_list ']' *)
              push (d + 1) (bbind (b_vec f (d + 1) c r) (fun v r' =>
                match r' with
                | KRBrk :: r'' => push (d + 3) (bact (a_vec X v) (fun a => BOk a r''))
                | _ => BAbort false
                end))
          | KKw n :: KLPar :: r =>                       (* KEYWORD '(' expr ')' *)
              push (d + 2) (bbind (b_expr f 0 (d + 2) c r) (fun a r' =>
                match r' with
                | KRPar :: r'' => push (d + 4) (bact (a_un X c n a) (fun x => BOk x r''))
                | _ => BAbort false
                end))
          | KKw n :: r => push (d + 1) (bact (a_var X c n) (fun a => BOk a r))
          | _ => BAbort false
          end
      end
  end
(** expr op expr, src/glps.y:114-117 *)
with b_ops (fuel lvl : nat) (d : N) (c : C) (a : A) (ts : list token) {struct fuel} : bres A :=
  match fuel with
  | O => BFuel
  | S f =>
      match ts with
      | t :: r =>
          match binop_at lvl t with
          | Some o =>
              push (d + 2) (bbind (b_expr f (S lvl) (d + 2) c r) (fun b r' =>
                bact (a_bin X c o a b) (fun x => b_ops f lvl d c x r')))
          | None => BOk a ts
          end
      | [] => BOk a ts
      end
  end
(** [expr_list], src/glps.y:122-124: expr ',' expr_list *)
with b_vec (fuel : nat) (d : N) (c : C) (ts : list token) {struct fuel} : bres V :=
  match fuel with
  | O => BFuel
  | S f =>
      match ts with
      | KRBrk :: _ => push (d + 1) (BOk (v_nil X) ts)
      | _ =>
          bbind (b_expr f 0 d c ts) (fun a r =>
            match r with
            | KComma :: r' =>
                push (d + 2) (bbind (b_vec f (d + 2) c r') (fun v r'' =>
                  bact (v_cons X a v) (fun w => BOk w r'')))
            | _ => bact (v_cons X a (v_nil X)) (fun w => BOk w r)
            end)
      end
  end.

(** See [p_expr0]. *)
Definition b_expr0 (d : N) (c : C) (ts : list token) : bres A := b_expr (expr_fuel ts) 0 d c ts.

(** [line_list], src/glps.y:106-108: expr ',' line_list *)
Fixpoint b_lines (fuel : nat) (d : N) (c : C) (ts : list token) : bres L :=
  match fuel with
  | O => BFuel
  | S f =>
      match ts with
      | KRPar :: _ => push (d + 1) (BOk (l_nil X) ts)
      | _ =>
          bbind (b_expr0 d c ts) (fun a r =>
            match r with
            | KComma :: r' =>
                push (d + 2) (bbind (b_lines f (d + 2) c r') (fun v r'' =>
                  bact (l_cons X a v) (fun w => BOk w r'')))
            | _ => bact (l_cons X a (l_nil X)) (fun w => BOk w r)
            end)
      end
  end.

(** [properties], [property], src/glps.y:101-104: ',' KEYWORD '=' expr, then
    ',' property properties *)
Fixpoint b_props (fuel : nat) (d : N) (c : C) (ts : list token) : bres K :=
  match fuel with
  | O => BFuel
  | S f =>
      match ts with
      | KComma :: KKw k :: KEq :: r =>
          push (d + 3) (bbind (b_expr0 (d + 3) c r) (fun a r' =>
            match b_props f (d + 2) c r' with
            | BOk m r'' => BOk (k_cons X k a m) r''
            | BAbort _ => BAbort true
            | BStack _ => BStack true
            | e => e
            end))
      | KComma :: _ => BAbort false
      | _ => push (d + 1) (BOk (k_nil X) ts)
      end
  end.

(** The ';' that makes [d] symbols. *)
Definition b_semi {B} (d : N) (ts : list token) (k : list token -> bres B) : bres B :=
  match ts with KSemi :: r => push d (k r) | _ => BAbort false end.

(** [entry], src/glps.y:85-99 *)
Definition b_entry (d : N) (c : C) (ts : list token) : bres C :=
  match ts with
  | KKw n :: KEq :: r =>                                 (* KEYWORD '=' expr ';' *)
      push (d + 2) (bbind (b_expr0 (d + 2) c r) (fun a r' => b_semi (d + 4) r' (fun r'' =>
        bact (s_assign X c n a) (fun c' => BOk c' r''))))
  | KKw n :: KColon :: KKw t :: KEq :: KLPar :: r =>     (* KEYWORD ':' KEYWORD '=' '(' line_list ')' ';' *)
      push (d + 5) (bbind (b_lines (S (List.length r)) (d + 5) c r) (fun l r' =>
        match r' with
        | KRPar :: r'' =>
            push (d + 7) (b_semi (d + 8) r'' (fun r3 => bact (s_line X c n t l) (fun c' => BOk c' r3)))
        | _ => BAbort false
        end))
  | KKw n :: KColon :: KKw t :: r =>                     (* KEYWORD ':' KEYWORD properties ';' *)
      push (d + 3) (bbind (b_props (S (List.length r)) (d + 3) c r) (fun m r' =>
        b_semi (d + 5) r' (fun r'' => bact (s_elem X c n t m) (fun c' => BOk c' r''))))
  | KKw n :: KLPar :: r =>                               (* KEYWORD '(' expr ')' ';' *)
      push (d + 2) (bbind (b_expr0 (d + 2) c r) (fun a r' =>
        match r' with
        | KRPar :: r'' =>
            push (d + 4) (b_semi (d + 5) r'' (fun r3 => bact (s_call X c n a) (fun c' => BOk c' r3)))
        | _ => BAbort false
        end))
  | KKw n :: KSemi :: r => push (d + 2) (bact (s_cmd X c n) (fun c' => BOk c' r))
  | _ => BAbort false
  end.

(** [file], src/glps.y:82-83: entry file.  The rule is recursive on the right, so every
    entry stays on the stack until the end of the text. *)
Fixpoint b_file (fuel : nat) (d : N) (c : C) (ts : list token) : bres C :=
  match ts with
  | [] => push (d + 1) (BOk c [])
  | _ =>
      match fuel with
      | O => BFuel
      | S f => bbind (b_entry d c ts) (fun c' r => b_file f (d + 1) c' r)
      end
  end.
Definition b_all (c : C) (ts : list token) : bres C := b_file (List.length ts) 0 c ts.

End Parser.

(** GLPSParser::parse_byte, config.cpp:363-422 and parse_common, glps_parser.cpp:524-557,
    as [parse_text]; [Exhausted]: an exception that says "memory exhausted", or whatever
    error had been recorded before (glps_verror keeps the first, glps_parser.cpp:49-50). *)
Inductive limited :=
| Within (o : outcome)
| Exhausted (kv : bool).

Definition limited_tokens (w : world) (vars : smap tval) (lattice : bool) (ts : list token)
    (lexerr : bool) : limited :=
  match b_all (glps w) (fill_vars vars ctx0) ts with
  | BOk c _ =>
      Within (if (c_err c || lexerr)%bool then Failed
              else match fill_context c lattice with
                   | AOk t => Parsed t | AFail => Failed | ABadGet => BadGet | AUB u => Undefined u
                   end)
  | BAbort false => Within Failed
  | BAbort true => Within FailedKvFree
  | BBadGet => Within BadGet
  | BUB u => Within (Undefined u)
  | BFuel => Within OutOfFuel
  | BStack kv => Exhausted kv
  end.

Definition limited_text (w : world) (vars : smap tval) (lattice : bool) (s : string) : limited :=
  match lex s with
  | Some (ts, e) => limited_tokens w vars lattice ts e
  | None => Within OutOfFuel
  end.
