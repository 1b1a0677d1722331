(** Model of the lattice-file parser: grammar src/glps.y:82-126, actions
    src/glps_parser.cpp, operations src/glps_ops.cpp, and the construction of the
    resulting Config, src/config.cpp:199-422.

    Simplifications, for the whole file: error messages are not modelled, only
    that an error was recorded ([cerr], parse_context::last_error non-empty);
    memory exhaustion (including bison's stack limit YYMAXDEPTH) is not modelled;
    the output of print() statements is not modelled; sin, cos, ... and the file
    system are parameters ([world]).  Configs are value trees [tcfg] of
    Config_Spec; Config_Props relates these to the reference-counted objects. *)
From Coq Require Import List String Ascii Bool ZArith Arith.
From Verif Require Import SMap Dbl Config_Model Config_Spec Lexer_Model.
Import ListNotations.
Open Scope string_scope.

(** ** Outcome of a semantic action *)
Inductive ub :=
| UBCast     (** conversion of NaN to unsigned *)
| UBIndex.   (** access outside a vector or argument array *)

Inductive act (A : Type) :=
| AOk (a : A)
| AFail      (** an error was recorded and NULL returned, or (PERR) YYERROR *)
| ABadGet    (** boost::get at a type the variant does not hold *)
| AUB (u : ub).       (** undefined behaviour of C++ *)
Arguments AOk {A}. Arguments AFail {A}. Arguments ABadGet {A}. Arguments AUB {A}.

Definition abind {A B} (x : act A) (f : A -> act B) : act B :=
  match x with AOk a => f a | AFail => AFail | ABadGet => ABadGet | AUB u => AUB u end.

(** ** Outcome of a grammar rule *)
Inductive pres (A : Type) :=
| POk (a : A) (rest : list token)
| PAbort (kv : bool)
    (** yyparse() returns 1: syntax error (yyerror records it) or YYERROR.
        [kv]: a [property] was on the stack, so its %destructor (src/glps.y:59)
        ran free() on a string_t made by new, which is undefined behaviour. *)
| PBadGet | PUB (u : ub) | PFuel.
Arguments POk {A}. Arguments PAbort {A}. Arguments PBadGet {A}. Arguments PUB {A}. Arguments PFuel {A}.

Definition pbind {A B} (x : pres A) (f : A -> list token -> pres B) : pres B :=
  match x with
  | POk a r => f a r | PAbort k => PAbort k | PBadGet => PBadGet | PUB u => PUB u | PFuel => PFuel
  end.
(** Run an action after reducing a rule. *)
Definition pact {A B} (x : act A) (f : A -> pres B) : pres B :=
  match x with AOk a => f a | AFail => PAbort false | ABadGet => PBadGet | AUB u => PUB u end.

(** ** The grammar, src/glps.y:82-126, generic in its semantic actions.
    [C]: parser context, [A]: expressions, [V]: vector members, [L]: line
    members, [K]: properties. *)
Record actions (C A V L K : Type) := mkActions {
  a_num : double -> act A;                      (* glps.y:110 *)
  a_vec : V -> act A;                           (* :111 *)
  a_str : string -> act A;                      (* :112 *)
  a_var : C -> string -> act A;                 (* :113 *)
  a_bin : C -> string -> A -> A -> act A;       (* :114-117 *)
  a_un : C -> string -> A -> act A;             (* :118 with "-", :120 *)
  v_nil : V; v_cons : A -> V -> act V;          (* :122-124 *)
  l_nil : L; l_cons : A -> L -> act L;          (* :106-108 *)
  k_nil : K; k_cons : string -> A -> K -> K;    (* :101-104 *)
  s_assign : C -> string -> A -> act C;         (* :91 *)
  s_elem : C -> string -> string -> K -> act C; (* :93 *)
  s_line : C -> string -> string -> L -> act C; (* :95 *)
  s_call : C -> string -> A -> act C;           (* :97 *)
  s_cmd : C -> string -> act C                  (* :99 *)
}.
Arguments a_num {C A V L K}. Arguments a_vec {C A V L K}. Arguments a_str {C A V L K}.
Arguments a_var {C A V L K}. Arguments a_bin {C A V L K}. Arguments a_un {C A V L K}.
Arguments v_nil {C A V L K}. Arguments v_cons {C A V L K}. Arguments l_nil {C A V L K}.
Arguments l_cons {C A V L K}. Arguments k_nil {C A V L K}. Arguments k_cons {C A V L K}.
Arguments s_assign {C A V L K}. Arguments s_elem {C A V L K}. Arguments s_line {C A V L K}.
Arguments s_call {C A V L K}. Arguments s_cmd {C A V L K}.

(** Binary operators by level: %left '-' '+' below %left '*' '/', src/glps.y:64-65. *)
Definition binop_at (lvl : nat) (t : token) : option string :=
  match lvl, t with
  | 0, KPlus => Some "+" | 0, KMinus => Some "-"
  | 1, KMul => Some "*" | 1, KDiv => Some "/"
  | _, _ => None
  end.

Section Parser.
Context {C A V L K : Type} (X : actions C A V L K).

(** [expr], src/glps.y:110-120.  The LALR automaton that bison derives from the
    ambiguous rules and the precedence declarations is represented by recursive
    descent over three levels (0: sums, 1: products, 2: unary minus, which binds
    tightest because of %prec NEG).  Actions run in the automaton's order: operands
    left to right, then the operator; list members are appended from the last one
    back (right recursion).  Each call uses one unit of fuel; running out is the
    distinct outcome [PFuel], excluded by Glps_Proofs for the fuel used below. *)
Fixpoint p_expr (fuel lvl : nat) (c : C) (ts : list token) {struct fuel} : pres A :=
  match fuel with
  | O => PFuel
  | S f =>
      match lvl with
      | 0 | 1 => pbind (p_expr f (S lvl) c ts) (fun a r => p_ops f lvl c a r)
      | _ =>
          match ts with
          | KNum x :: r => pact (a_num X x) (fun a => POk a r)
          | KStr s :: r => pact (a_str X s) (fun a => POk a r)
          | KMinus :: r =>
              pbind (p_expr f 2 c r) (fun a r' => pact (a_un X c "-" a) (fun x => POk x r'))
          | KLPar :: r =>
              pbind (p_expr f 0 c r) (fun a r' =>
                match r' with KRPar :: r'' => POk a r'' | _ => PAbort false end)
          | KLBrk :: r =>
              pbind (p_vec f c r) (fun v r' =>
                match r' with KRBrk :: r'' => pact (a_vec X v) (fun a => POk a r'') | _ => PAbort false end)
          | KKw n :: KLPar :: r =>
              pbind (p_expr f 0 c r) (fun a r' =>
                match r' with
                | KRPar :: r'' => pact (a_un X c n a) (fun x => POk x r'')
                | _ => PAbort false
                end)
          | KKw n :: r => pact (a_var X c n) (fun a => POk a r)
          | _ => PAbort false
          end
      end
  end
with p_ops (fuel lvl : nat) (c : C) (a : A) (ts : list token) {struct fuel} : pres A :=
  match fuel with
  | O => PFuel
  | S f =>
      match ts with
      | t :: r =>
          match binop_at lvl t with
          | Some o =>
              pbind (p_expr f (S lvl) c r) (fun b r' =>
                pact (a_bin X c o a b) (fun x => p_ops f lvl c x r'))
          | None => POk a ts
          end
      | [] => POk a ts
      end
  end
(** [expr_list], src/glps.y:122-124; ends before the closing bracket. *)
with p_vec (fuel : nat) (c : C) (ts : list token) {struct fuel} : pres V :=
  match fuel with
  | O => PFuel
  | S f =>
      match ts with
      | KRBrk :: _ => POk (v_nil X) ts
      | _ =>
          pbind (p_expr f 0 c ts) (fun a r =>
            match r with
            | KComma :: r' => pbind (p_vec f c r') (fun v r'' => pact (v_cons X a v) (fun w => POk w r''))
            | _ => pact (v_cons X a (v_nil X)) (fun w => POk w r)
            end)
      end
  end.

(** Fuel for an expression: at most 3 calls per token and a few more at the end. *)
Definition expr_fuel (ts : list token) : nat := 4 * List.length ts + 4.
Definition p_expr0 (c : C) (ts : list token) : pres A := p_expr (expr_fuel ts) 0 c ts.

(** [line_list], src/glps.y:106-108; ends before the closing parenthesis. *)
Fixpoint p_lines (fuel : nat) (c : C) (ts : list token) : pres L :=
  match fuel with
  | O => PFuel
  | S f =>
      match ts with
      | KRPar :: _ => POk (l_nil X) ts
      | _ =>
          pbind (p_expr0 c ts) (fun a r =>
            match r with
            | KComma :: r' => pbind (p_lines f c r') (fun v r'' => pact (l_cons X a v) (fun w => POk w r''))
            | _ => pact (l_cons X a (l_nil X)) (fun w => POk w r)
            end)
      end
  end.

(** [properties], [property], src/glps.y:101-104.  While the members after the first
    are parsed, the first [property] is on the stack (see [PAbort]). *)
Fixpoint p_props (fuel : nat) (c : C) (ts : list token) : pres K :=
  match fuel with
  | O => PFuel
  | S f =>
      match ts with
      | KComma :: KKw k :: KEq :: r =>
          pbind (p_expr0 c r) (fun a r' =>
            match p_props f c r' with
            | POk m r'' => POk (k_cons X k a m) r''
            | PAbort _ => PAbort true
            | e => e
            end)
      | KComma :: _ => PAbort false
      | _ => POk (k_nil X) ts
      end
  end.

Definition p_semi {B} (ts : list token) (k : list token -> pres B) : pres B :=
  match ts with KSemi :: r => k r | _ => PAbort false end.

(** [entry], src/glps.y:85-99 *)
Definition p_entry (c : C) (ts : list token) : pres C :=
  match ts with
  | KKw n :: KEq :: r =>
      pbind (p_expr0 c r) (fun a r' => p_semi r' (fun r'' =>
        pact (s_assign X c n a) (fun c' => POk c' r'')))
  | KKw n :: KColon :: KKw t :: KEq :: KLPar :: r =>
      pbind (p_lines (S (List.length r)) c r) (fun l r' =>
        match r' with
        | KRPar :: r'' => p_semi r'' (fun r3 => pact (s_line X c n t l) (fun c' => POk c' r3))
        | _ => PAbort false
        end)
  | KKw n :: KColon :: KKw t :: r =>
      pbind (p_props (S (List.length r)) c r) (fun m r' => p_semi r' (fun r'' =>
        pact (s_elem X c n t m) (fun c' => POk c' r'')))
  | KKw n :: KLPar :: r =>
      pbind (p_expr0 c r) (fun a r' =>
        match r' with
        | KRPar :: r'' => p_semi r'' (fun r3 => pact (s_call X c n a) (fun c' => POk c' r3))
        | _ => PAbort false
        end)
  | KKw n :: KSemi :: r => pact (s_cmd X c n) (fun c' => POk c' r)
  | _ => PAbort false
  end.

(** [file], src/glps.y:82-83 *)
Fixpoint p_file (fuel : nat) (c : C) (ts : list token) : pres C :=
  match ts with
  | [] => POk c []
  | _ =>
      match fuel with
      | O => PFuel
      | S f => pbind (p_entry c ts) (fun c' r => p_file f c' r)
      end
  end.
Definition p_all (c : C) (ts : list token) : pres C := p_file (List.length ts) c ts.

End Parser.

(** ** Values, src/glps_parser.h:19-28, 83-105 *)
Inductive etype := ENumber | EVector | EString | EConfig | EVar | ELine | EElem | EInvalid.
Definition etype_eqb (a b : etype) : bool :=
  match a, b with
  | ENumber, ENumber | EVector, EVector | EString, EString | EConfig, EConfig
  | EVar, EVar | ELine, ELine | EElem, EElem | EInvalid, EInvalid => true
  | _, _ => false
  end.

(** boost::variant contents.  The type tag of an expression is a separate field. *)
Inductive evalue :=
| XNum (x : double) | XVec (l : list double) | XStr (s : string)
| XLine (l : list string) | XCfg (c : tcfg).

Record expr := mkExpr { ety : etype; eval : evalue }.

(** boost::get<T> *)
Definition get_num (v : evalue) : act double := match v with XNum x => AOk x | _ => ABadGet end.
Definition get_vec (v : evalue) : act (list double) := match v with XVec x => AOk x | _ => ABadGet end.
Definition get_str (v : evalue) : act string := match v with XStr x => AOk x | _ => ABadGet end.
Definition get_line (v : evalue) : act (list string) := match v with XLine x => AOk x | _ => ABadGet end.
Definition get_cfg (v : evalue) : act tcfg := match v with XCfg x => AOk x | _ => ABadGet end.

(** ** The world outside the parser.  [None]: the call throws or reports an error. *)
Record world := mkWorld {
  w_sin : double -> double; w_cos : double -> double; w_tan : double -> double;
  w_asin : double -> double; w_acos : double -> double; w_atan : double -> double;
  w_parse : string -> option tcfg;   (** parse_file of the canonical path, glps_ops.cpp:144-149 *)
  w_file : string -> option string;  (** canonical path, glps_ops.cpp:158-167 *)
  w_h5 : string -> option string     (** glps_ops.cpp:171-203 *)
}.

(** M_PI, glps_ops.cpp:10 and math.h *)
Definition d_pi : double := strtod_val 314159265358979323846 (-20).
Definition uint_max : double := d_of_Z 4294967295.

(** Conversion of a non-negative finite double to an integer type: truncation. *)
Definition d_trunc (x : double) : option Z :=
  match x with
  | S754_zero _ => Some 0%Z
  | S754_finite s m e =>
      let a := if (0 <=? e)%Z then (Zpos m * 2 ^ e)%Z else (Zpos m / 2 ^ (- e))%Z in
      Some (if s then (- a)%Z else a)
  | _ => None
  end.

Definition of_opt {A} (o : option A) : act A := match o with Some a => AOk a | None => AFail end.

Definition un_num (f : double -> double) (a : list expr) : act evalue :=
  match a with
  | [x] => abind (get_num (eval x)) (fun v => AOk (XNum (f v)))
  | _ => AUB UBIndex
  end.
Definition bin_num (f : double -> double -> act double) (a : list expr) : act evalue :=
  match a with
  | [x; y] => abind (get_num (eval x)) (fun v => abind (get_num (eval y)) (fun w =>
                abind (f v w) (fun r => AOk (XNum r))))
  | _ => AUB UBIndex
  end.
(** binary_div, glps_ops.cpp:83-92 *)
Definition op_div (x y : double) : act double :=
  let r := ddiv x y in if is_finite r then AOk r else AFail.
(** unary_bl_negate, glps_ops.cpp:96-106 *)
Definition op_bl_negate (a : list expr) : act evalue :=
  match a with
  | [x] => abind (get_line (eval x)) (fun l => AOk (XLine (rev l)))
  | _ => AUB UBIndex
  end.
Fixpoint repeat_line (n : nat) (l : list string) : list string :=
  match n with O => [] | S n' => l ++ repeat_line n' l end.
(** binary_bl_mult, glps_ops.cpp:108-138.  The cast of NaN to unsigned is undefined.
    Overflow of size_t in the length is not modelled. *)
Definition bl_mult (factor : double) (l : list string) : act (list string) :=
  if (dlt factor dzero || dlt uint_max factor)%bool then AFail
  else match d_trunc factor with
       | Some n => AOk (repeat_line (Z.to_nat n) l)
       | None => AUB UBCast
       end.
Definition op_bl_mult (mult_first : bool) (a : list expr) : act evalue :=
  match a with
  | [x; y] =>
      let (m, l) := if mult_first then (x, y) else (y, x) in
      abind (get_num (eval m)) (fun f => abind (get_line (eval l)) (fun names =>
        abind (bl_mult f names) (fun r => AOk (XLine r))))
  | _ => AUB UBIndex
  end.
(** unary_parse, unary_file, unary_h5file, glps_ops.cpp:140-203 *)
Definition un_str (f : string -> act evalue) (a : list expr) : act evalue :=
  match a with
  | [x] => abind (get_str (eval x)) f
  | _ => AUB UBIndex
  end.

(** operation_t, src/glps_parser.h:143-152 *)
Record operation := mkOp { op_name : string; op_res : etype; op_args : list etype;
                           op_fn : list expr -> act evalue }.

(** parse_context::parse_context, glps_ops.cpp:207-246, in registration order. *)
Definition op_table (w : world) : list operation :=
  let num1 n f := mkOp n ENumber [ENumber] (un_num f) in
  let num2 n f := mkOp n ENumber [ENumber; ENumber] (bin_num f) in
  [ num1 "-" dopp;
    num1 "sin" (w_sin w); num1 "cos" (w_cos w); num1 "tan" (w_tan w);
    num1 "asin" (w_asin w); num1 "acos" (w_acos w); num1 "atan" (w_atan w);
    num1 "arcsin" (w_asin w); num1 "arccos" (w_acos w); num1 "arctan" (w_atan w);
    num1 "deg2rad" (fun v => dmul v (ddiv d_pi (d_of_Z 180)));
    num1 "rad2deg" (fun v => dmul v (ddiv (d_of_Z 180) d_pi));
    num2 "+" (fun x y => AOk (dadd x y)); num2 "-" (fun x y => AOk (dsub x y));
    num2 "*" (fun x y => AOk (dmul x y)); num2 "/" op_div;
    mkOp "-" ELine [ELine] op_bl_negate;
    mkOp "*" ELine [ENumber; ELine] (op_bl_mult true);
    mkOp "*" ELine [ELine; ENumber] (op_bl_mult false);
    mkOp "parse" EConfig [EString] (un_str (fun s => abind (of_opt (w_parse w s)) (fun c => AOk (XCfg c))));
    mkOp "file" EString [EString] (un_str (fun s => abind (of_opt (w_file w s)) (fun p => AOk (XStr p))));
    mkOp "dir" EString [EString] (un_str (fun s => abind (of_opt (w_file w s)) (fun p => AOk (XStr p))));
    mkOp "h5file" EString [EString] (un_str (fun s => abind (of_opt (w_h5 w s)) (fun p => AOk (XStr p)))) ].

Fixpoint etypes_match (sig : list etype) (args : list expr) : bool :=
  match sig, args with
  | [], [] => true
  | t :: s', a :: a' => (etype_eqb t (ety a) && etypes_match s' a')%bool
  | _, _ => false
  end.

(** glps_add_op, glps_parser.cpp:320-383: the first operation registered under the
    name whose argument types are exactly those given. *)
Definition find_op (ops : list operation) (n : string) (args : list expr) : option operation :=
  find (fun o => (String.eqb (op_name o) n && etypes_match (op_args o) args)%bool) ops.
Definition add_op (w : world) (n : string) (args : list expr) : act expr :=
  match find_op (op_table w) n args with
  | Some o => abind (op_fn o args) (fun v => AOk (mkExpr (op_res o) v))
  | None => AFail
  end.

(** ** Parser context, src/glps_parser.h:121-195 *)
Record pelem := mkElem { el_label : string; el_type : string; el_props : smap expr }.
Record pline := mkLine { ln_label : string; ln_names : list string }.
Record pctx := mkCtx {
  c_vars : list (string * expr); c_var_idx : smap nat;
  c_elems : list pelem; c_elem_idx : smap nat;
  c_lines : list pline; c_line_idx : smap nat;
  c_err : bool    (** last_error is not empty *)
}.
Definition ctx0 : pctx := mkCtx [] [] [] [] [] [] false.
Definition ctx_fail (c : pctx) : pctx :=
  mkCtx (c_vars c) (c_var_idx c) (c_elems c) (c_elem_idx c) (c_lines c) (c_line_idx c) true.

(** glps_add_value with glps_expr_var, glps_parser.cpp:228-268 *)
Definition add_var (c : pctx) (n : string) : act expr :=
  match sfind n (c_var_idx c) with
  | Some i =>
      match nth_error (c_vars c) i with Some v => AOk (mkExpr (ety (snd v)) (eval (snd v))) | None => AUB UBIndex end
  | None =>
      match sfind n (c_elem_idx c) with
      | Some _ => AOk (mkExpr ELine (XLine [n]))
      | None =>
          match sfind n (c_line_idx c) with
          | Some i =>
              match nth_error (c_lines c) i with Some l => AOk (mkExpr ELine (XLine (ln_names l))) | None => AUB UBIndex end
          | None => if String.eqb n "pi" then AOk (mkExpr ENumber (XNum d_pi)) else AFail
          end
      end
  end.

(** glps_append_vector, glps_parser.cpp:190-212 *)
Definition append_vector (e : expr) (v : list double) : act (list double) :=
  match ety e with
  | ENumber => abind (get_num (eval e)) (fun x => AOk (v ++ [x])%list)
  | _ => AFail
  end.
(** glps_append_expr, glps_parser.cpp:145-188 *)
Definition append_expr (e : expr) (l : list string) : act (list string) :=
  match ety e with
  | EElem => abind (get_str (eval e)) (fun s => AOk (l ++ [s])%list)
  | ELine => abind (get_line (eval e)) (fun n => AOk (l ++ rev n)%list)
  | _ => AFail
  end.

(** glps_assign, glps_parser.cpp:386-426.  Errors do not stop the parser. *)
Definition assign (c : pctx) (n : string) (e : expr) : act pctx :=
  AOk match ety e with
      | EVector | ENumber | EString | EConfig =>
          match sfind n (c_var_idx c) with
          | Some _ => ctx_fail c
          | None => mkCtx (c_vars c ++ [(n, e)])%list (sset n (List.length (c_vars c)) (c_var_idx c))
                          (c_elems c) (c_elem_idx c) (c_lines c) (c_line_idx c) (c_err c)
          end
      | _ => ctx_fail c
      end.

(** glps_add_element, glps_parser.cpp:428-449 *)
Definition add_element (c : pctx) (n t : string) (m : smap expr) : act pctx :=
  AOk (if (String.eqb n "" || String.eqb t "")%bool then ctx_fail c else
       match sfind n (c_elem_idx c) with
       | Some _ => ctx_fail c
       | None => mkCtx (c_vars c) (c_var_idx c)
                       (c_elems c ++ [mkElem n t m])%list (sset n (List.length (c_elems c)) (c_elem_idx c))
                       (c_lines c) (c_line_idx c) (c_err c)
       end).

(** strcasecmp in the C locale *)
Definition lower (c : ascii) : ascii :=
  if in_range 65 90 c then ascii_of_N (N_of_ascii c + 32) else c.
Fixpoint lower_str (s : string) : string :=
  match s with EmptyString => EmptyString | String c s' => String (lower c) (lower_str s') end.
Definition strcaseeq (a b : string) : bool := String.eqb (lower_str a) (lower_str b).

(** glps_add_line, glps_parser.cpp:451-476 *)
Definition add_line (c : pctx) (n t : string) (l : list string) : act pctx :=
  AOk (if negb (strcaseeq t "LINE") then ctx_fail c else
       match sfind n (c_line_idx c) with
       | Some _ => ctx_fail c
       | None => mkCtx (c_vars c) (c_var_idx c) (c_elems c) (c_elem_idx c)
                       (c_lines c ++ [mkLine n (rev l)])%list (sset n (List.length (c_lines c)) (c_line_idx c))
                       (c_err c)
       end).

(** glps_command, glps_parser.cpp:478-484 *)
Definition command (c : pctx) (n : string) : act pctx :=
  AOk (if String.eqb n "END" then c else ctx_fail c).

(** glps_call1, glps_parser.cpp:486-521, with a printer set *)
Definition call1 (c : pctx) (n : string) (e : expr) : act pctx :=
  if negb (String.eqb n "print") then AOk (ctx_fail c) else
  match ety e with
  | ENumber => abind (get_num (eval e)) (fun _ => AOk c)
  | EString => abind (get_str (eval e)) (fun _ => AOk c)
  | EVector => abind (get_vec (eval e)) (fun _ => AOk c)
  | ELine => abind (get_line (eval e)) (fun _ => AOk c)
  | _ => AOk c
  end.

(** The actions of src/glps.y:91-126. *)
Definition glps (w : world) : actions pctx expr (list double) (list string) (smap expr) :=
  mkActions pctx expr (list double) (list string) (smap expr)
    (fun x => AOk (mkExpr ENumber (XNum x)))
    (fun v => AOk (mkExpr EVector (XVec (rev v))))   (* glps_parser.cpp:278-289 *)
    (fun s => AOk (mkExpr EString (XStr s)))
    add_var
    (fun _ o a b => add_op w o [a; b])
    (fun _ o a => add_op w o [a])
    [] append_vector [] append_expr
    [] (fun k e m => sset k e m)                     (* glps_append_kv, glps_parser.cpp:141 *)
    assign add_element add_line call1 command.

(** ** From the context to a Config, src/config.cpp:199-342 *)

(** Variables preset with GLPSParser::setVar: store_ctxt_var and fill_vars,
    config.cpp:199-219, 255-262.  Lists of Configs are ignored. *)
Definition store_var (c : pctx) (n : string) (e : expr) : pctx :=
  mkCtx (c_vars c ++ [(n, e)])%list (sset n (List.length (c_vars c)) (c_var_idx c))
        (c_elems c) (c_elem_idx c) (c_lines c) (c_line_idx c) (c_err c).
Definition store_val (c : pctx) (nv : string * tval) : pctx :=
  match snd nv with
  | TNum x => store_var c (fst nv) (mkExpr ENumber (XNum x))
  | TStr s => store_var c (fst nv) (mkExpr EString (XStr s))
  | TVec l => store_var c (fst nv) (mkExpr EVector (XVec l))
  | TCfgs _ => c
  end.
Definition fill_vars (vars : smap tval) (c : pctx) : pctx := fold_left store_val vars c.

(** assign_expr_to_Config, config.cpp:221-245 *)
Definition expr_tval (e : expr) : act tval :=
  match ety e with
  | ENumber => abind (get_num (eval e)) (fun x => AOk (TNum x))
  | EString => abind (get_str (eval e)) (fun x => AOk (TStr x))
  | EVector => abind (get_vec (eval e)) (fun x => AOk (TVec x))
  | EConfig => abind (get_cfg (eval e)) (fun x => AOk (TCfgs [x]))
  | _ => AFail
  end.
Fixpoint assign_all (kvs : list (string * expr)) (c : tcfg) : act tcfg :=
  match kvs with
  | [] => AOk c
  | (k, e) :: r => abind (expr_tval e) (fun v => assign_all r (tset k v c))
  end.

Definition tscope (c : tcfg) : tcfg := TCfg [] (smerge (town c) (touter c)).

(** [ctxt.elements[ctxt.element_idx[name]]], config.cpp:319: map::operator[] yields
    index 0 for an unknown name, vector::operator[] is unchecked. *)
Definition elem_ref (c : pctx) (n : string) : act pelem :=
  match nth_error (c_elems c) (match sfind n (c_elem_idx c) with Some i => i | None => 0 end) with
  | Some e => AOk e
  | None => AUB UBIndex
  end.

(** config.cpp:318-334 *)
Definition elem_config (c : pctx) (top : tcfg) (n : string) : act tcfg :=
  abind (elem_ref c n) (fun e =>
    abind (assign_all (el_props e) (tscope top)) (fun g =>
      AOk (tset "name" (TStr (el_label e)) (tset "type" (TStr (el_type e)) g)))).
Fixpoint elem_configs (c : pctx) (top : tcfg) (ns : list string) : act (list tcfg) :=
  match ns with
  | [] => AOk []
  | n :: r => abind (elem_config c top n) (fun g => abind (elem_configs c top r) (fun l => AOk (g :: l)))
  end.

(** The line to use, config.cpp:280-300 *)
Definition use_line (c : pctx) : act pline :=
  match sfind "USE" (c_elem_idx c) with
  | Some i =>
      match nth_error (c_elems c) i with
      | Some e =>
          match sfind (el_type e) (c_line_idx c) with
          | Some j => match nth_error (c_lines c) j with Some l => AOk l | None => AUB UBIndex end
          | None => AFail
          end
      | None => AUB UBIndex
      end
  | None => match rev (c_lines c) with l :: _ => AOk l | [] => AFail end
  end.

(** fill_context, config.cpp:264-342 *)
Definition fill_context (c : pctx) (lattice : bool) : act tcfg :=
  abind (assign_all (c_vars c) (TCfg [] [])) (fun top =>
    if lattice then
      match c_lines c with
      | [] => AFail
      | _ =>
          abind (use_line c) (fun ln =>
            match ln_names ln with
            | [] => AFail
            | ns =>
                abind (elem_configs c top ns) (fun es =>
                  AOk (tset "elements" (TCfgs es) (tset "name" (TStr (ln_label ln)) top)))
            end)
      end
    else AOk top).

(** ** GLPSParser::parse_byte / parse_file, config.cpp:363-422 and parse_common,
    glps_parser.cpp:524-557: any recorded error becomes an exception. *)
Inductive outcome :=
| Parsed (c : tcfg)
| Failed          (** an exception is thrown *)
| FailedKvFree    (** an exception is thrown, after the undefined free() of [PAbort true] *)
| BadGet | Undefined (u : ub) | OutOfFuel.

Definition parse_tokens (w : world) (vars : smap tval) (lattice : bool) (ts : list token) (lexerr : bool) : outcome :=
  match p_all (glps w) (fill_vars vars ctx0) ts with
  | POk c _ =>
      if (c_err c || lexerr)%bool then Failed
      else match fill_context c lattice with
           | AOk t => Parsed t | AFail => Failed | ABadGet => BadGet | AUB u => Undefined u
           end
  | PAbort false => Failed
  | PAbort true => FailedKvFree
  | PBadGet => BadGet
  | PUB u => Undefined u
  | PFuel => OutOfFuel
  end.

Definition parse_text (w : world) (vars : smap tval) (lattice : bool) (s : string) : outcome :=
  match lex s with
  | Some (ts, e) => parse_tokens w vars lattice ts e
  | None => OutOfFuel
  end.
