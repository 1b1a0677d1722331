(** Words for the properties of printed text. *)
From Coq Require Import List String Ascii Bool NArith ZArith DecimalString.
From Verif Require Import Dbl Config_Spec Machine_Model.
Import ListNotations.
Open Scope string_scope.
Open Scope list_scope.

Definition newline : ascii := ascii_of_nat 10.
Definition chars (s : string) : list ascii := list_ascii_of_string s.
(** The lines of a text, without their ends; the last one is what follows the last
    line end. *)
Fixpoint lines (t : list ascii) : list (list ascii) :=
  match t with
  | [] => [[]]
  | c :: r =>
      if Ascii.eqb c newline then [] :: lines r
      else match lines r with l :: ls => (c :: l) :: ls | [] => [[c]] end
  end.
Fixpoint starts (p t : list ascii) : bool :=
  match p, t with
  | [], _ => true
  | a :: p', b :: t' => (Ascii.eqb a b && starts p' t')%bool
  | _ :: _, [] => false
  end.
(** The lines that begin with [p], as grep finds them. *)
Definition lines_with (p : string) (t : list ascii) : list (list ascii) := filter (starts (chars p)) (lines t).
Definition one_line (s : string) : Prop := ~ In newline (chars s).
(** Decimal digits read as a number. *)
Definition reads (d : list ascii) (n : N) : Prop :=
  option_map N.of_uint (NilEmpty.uint_of_string (string_of_list_ascii d)) = Some n.

(** The line of an element in the text of a machine. *)
Definition element_line (l : list ascii) (i : N) (name type : string) : Prop :=
  exists d, reads d i /\ l = chars "Element " ++ d ++ chars ": " ++ chars name ++ chars " (" ++ chars type ++ chars ")".
(** A line of the trace; [r]: what is shown of the state. *)
Definition trace_line (l : list ascii) (n : N) (name : string) (r : list ascii) : Prop :=
  exists d, reads d n /\ l = chars "After [" ++ d ++ chars "] " ++ chars name ++ chars " " ++ r.
(** The first line of an entry of the txt output. *)
Definition view_line (l : list ascii) (n : N) (name : string) (r : list ascii) : Prop :=
  exists d, reads d n /\ l = chars "After Element [" ++ d ++ chars "] " ++ chars name ++ chars " " ++ r.

(** The machine with an observer on every element. *)
Definition watched {D B} (m : machine D B) : machine D B :=
  with_elems m (map (fun e => with_obs e (Some 0)) (m_elems m)).

Definition first_line (t : list ascii) : list ascii := hd [] (lines t).
(** A line of a trace belongs to a call of an observer: it names the element in
    that slot, and shows the state in one of the ways [shows] allows. *)
Definition traced_as {D B} (shows : B -> list ascii -> Prop) (m : machine D B) (l : list ascii) (ev : event B) : Prop :=
  exists e r, nth_error (m_elems m) (ev_slot ev) = Some e /\ shows (st_body (ev_state ev)) r /\
    trace_line l (N.of_nat (ev_slot ev)) (el_name e) r.
(** The same for the txt output, which gives the element's own index. *)
Definition viewed_as {D B} (shows : nat -> B -> list ascii -> Prop) (m : machine D B) (l : list ascii) (ev : event B) : Prop :=
  exists e r, nth_error (m_elems m) (ev_slot ev) = Some e /\ shows (ev_obs ev) (st_body (ev_state ev)) r /\
    view_line l (el_index e) (el_name e) r.
