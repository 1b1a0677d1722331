(** Lines of a text. *)
From Coq Require Import List String Ascii Bool NArith.
From Verif Require Import Where_Model.
Import ListNotations.
Local Open Scope N_scope.

(** Number of line ends. *)
Fixpoint newlines (s : string) : N :=
  match s with
  | EmptyString => 0
  | String c r => (if Ascii.eqb c "010" then 1 else 0) + newlines r
  end.

(** Lines, each with its end. *)
Fixpoint whole_lines (ls : list string) : string :=
  match ls with
  | [] => ""
  | l :: r => l ++ String "010" (whole_lines r)
  end.
Definition is_line (l : string) : Prop := newlines l = 0.

(** The report is about line [k]; or the behaviour is undefined (refuted by C06). *)
Definition about (k : N) (r : report) : Prop := r = Broken \/ exists pr, r = OnLine k pr.
