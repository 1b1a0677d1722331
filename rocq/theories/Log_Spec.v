(** What becomes of log messages, stated on its own. *)
From Coq Require Import List String Ascii Bool NArith ZArith Arith.
From Verif Require Import Log_Model.
Import ListNotations.
Open Scope list_scope.

(** Where messages go and from which level on, after what happened. *)
Inductive level_after : list logev -> Z -> Prop :=
| lv_start : level_after [] FLAME_WARN
| lv_set : forall es n, level_after (es ++ [SetDetail n]) n
| lv_log : forall es r n, level_after es n -> level_after (es ++ [DoLog r]) n
| lv_logger : forall es p n, level_after es n -> level_after (es ++ [SetLogger p]) n.
Inductive logger_after : list logev -> logger -> Prop :=
| lr_start : logger_after [] Cerr
| lr_set : forall es l, logger_after (es ++ [SetLogger (Some l)]) l
| lr_null : forall es, logger_after (es ++ [SetLogger None]) Cerr
| lr_log : forall es r l, logger_after es l -> logger_after (es ++ [DoLog r]) l
| lr_detail : forall es n l, logger_after es l -> logger_after (es ++ [SetDetail n]) l.

(** The lines of a text, each of which has ended. *)
Fixpoint lines (l : list ascii) (acc : list ascii) : list (list ascii) :=
  match l with
  | [] => []
  | c :: l' => if Ascii.eqb c NL then rev acc :: lines l' [] else lines l' (c :: acc)
  end.
(** Without newlines; without those at the end. *)
Definition one_line (l : list ascii) : Prop := ~ In NL l.
Inductive stripped : list ascii -> list ascii -> Prop :=
| sp_done : forall l, last l "a"%char <> NL -> stripped l l
| sp_more : forall l t, stripped l t -> stripped (l ++ [NL]) t.
