(** Where a location in an HDF5 file is, stated on its own. *)
From Coq Require Import List String Ascii Bool ZArith NArith Arith.
From Verif Require Import SMap Dbl Machine_Model Array_Model Array_Spec Hdf_Model.
Import ListNotations.
Open Scope string_scope.
Open Scope list_scope.

(** There is no slash in it. *)
Definition slashless (s : string) : Prop := forall a b, s <> (a ++ "/" ++ b)%string.
(** A path: pieces with slashes between them; those that are empty or a dot do not count. *)
Definition spells (p : string) (names : list string) : Prop :=
  exists pieces, pieces <> [] /\ p = String.concat "/" pieces /\ Forall slashless pieces /\
    names = filter (fun s => negb (String.eqb s "" || String.eqb s ".")) pieces.
(** What lies at the end of these names. *)
Inductive lies : hnode -> list string -> hnode -> Prop :=
| lies_here : forall n, lies n [] n
| lies_in : forall links c n r x, sfind c links = Some n -> lies n r x -> lies (HGroup links) (c :: r) x.
Definition is_group (n : hnode) : Prop := exists links, n = HGroup links.

(** The text says file, slash, path; and no longer piece of it, up to a slash, is the
    name of a file. *)
Definition names_file {A} (openf : string -> option A) (spec f p : string) (a : A) : Prop :=
  spec = (f ++ "/" ++ p)%string /\ openf f = Some a /\
  forall f' p', spec = (f' ++ "/" ++ p')%string -> String.length f < String.length f' -> openf f' = None.
(** No piece of the text up to a slash is the name of a file. *)
Definition no_file {A} (openf : string -> option A) (spec : string) : Prop :=
  forall f p, spec = (f ++ "/" ++ p)%string -> openf f = None.
Definition absolute (spec : string) : Prop := exists p, spec = ("/" ++ p)%string.

(** However long one waits, it does not return. *)
Definition never_returns {A} (run : nat -> hout A) : Prop := forall fuel, run fuel = HLoop.
(** It comes to this outcome. *)
Definition comes_to {A} (run : nat -> hout A) (o : hout A) : Prop :=
  o <> HLoop /\ exists n, forall fuel, n <= fuel -> run fuel = o.

(** The number in a cell; integers become the nearest double. *)
Definition number_in (c : cell) : double := match c with CD x => x | CN n => d_of_Z (Z.of_N n) end.
(** A dataset as a matrix: a number is one by one, a row of numbers is a column. *)
Definition as_matrix (s : dset) (m : hmat) : Prop :=
  match d_ext s with
  | [] => hm_rows m = 1 /\ hm_cols m = 1 /\ hm_at m 0 0 = option_map number_in (d_val s [])
  | [n] => hm_rows m = n /\ hm_cols m = 1 /\ forall i, i < n -> hm_at m i 0 = option_map number_in (d_val s [i])
  | [n; k] => hm_rows m = n /\ hm_cols m = k /\
      forall i j, i < n -> j < k -> hm_at m i j = option_map number_in (d_val s [i; j])
  | _ => False
  end.
(** One row for each of these states: the values of an attribute. *)
Definition rows_of (states : list (field -> cell)) (sh : list nat) (den : list nat -> field) (m : hmat) : Prop :=
  hm_rows m = List.length states /\ hm_cols m = prodn sh /\
  forall r c j, nth_error states r = Some c -> j < prodn sh ->
    hm_at m r j = Some (number_in (c (den (match sh with [] => [] | _ => [j] end)))).
(** Apart from this path, everything is as it was. *)
Definition elsewhere (names : list string) (root root' : hnode) : Prop :=
  forall l n, ~ (exists r, l = names ++ r) -> ~ (exists r, names = l ++ r) -> (lies root l n <-> lies root' l n).
(** The text of a string in memory: the bytes before the first zero. *)
Definition text_in (b t : list ascii) : Prop := exists r, b = t ++ "000"%char :: r /\ ~ In "000"%char t.
