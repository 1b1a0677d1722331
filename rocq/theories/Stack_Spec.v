(** How deep the LALR parser's stack gets at least for a list of statements, in terms
    of their syntax trees alone. *)
From Coq Require Import List String Bool NArith.
From Verif Require Import Dbl Lexer_Model Glps_Spec.
Import ListNotations.
Local Open Scope N_scope.

(** Items of which each leaves itself and a comma below the next one. *)
Fixpoint row (l : list N) : N :=
  match l with
  | [] => 0
  | [x] => x
  | x :: l' => N.max x (2 + row l')
  end.

(** Symbols for an expression: a list keeps its earlier members, an operator its first
    operand, a call its name and parenthesis. *)
Fixpoint need (e : tree) : N :=
  match e with
  | ANum _ | AStr _ | AVar _ => 1
  | AVec l => N.max 3 (1 + row (map need l))
  | ABin _ a b => N.max (need a) (2 + need b)
  | ACall f a => if String.eqb f "-" then 1 + need a else N.max 4 (2 + need a)
  end.

Fixpoint need_props (l : list (string * tree)) : N :=
  match l with
  | [] => 1
  | (_, e) :: l' => N.max (3 + need e) (2 + need_props l')
  end.

Definition need_stmt (s : stmt) : N :=
  match s with
  | SAssign _ e => N.max 4 (2 + need e)
  | SElem _ _ l => N.max 5 (3 + need_props l)
  | SLine _ _ l => N.max 8 (5 + row (map need l))
  | SCall _ e => N.max 5 (2 + need e)
  | SCmd _ => 2
  end.

(** Every statement stays on the stack until the end of the file. *)
Fixpoint need_file (p : list stmt) : N :=
  match p with
  | [] => 1
  | s :: p' => N.max (need_stmt s) (1 + need_file p')
  end.

(** Number of semicolons: one ends each statement. *)
Fixpoint semicolons (ts : list token) : nat :=
  match ts with
  | [] => 0
  | KSemi :: r => S (semicolons r)
  | _ :: r => semicolons r
  end.
