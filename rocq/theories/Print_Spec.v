(** What it should mean to print a Config, independently of the printer. *)
From Coq Require Import List String Ascii Bool ZArith Reals.
From Verif Require Import SMap Dbl Config_Model Config_Spec Lexer_Model Lexer_Spec Number_Spec Glps_Spec.
Import ListNotations.
Open Scope string_scope.
Open Scope list_scope.

(** ** Numbers *)
Definition dabs (x : double) : double :=
  match x with
  | S754_zero _ => S754_zero false | S754_infinity _ => S754_infinity false
  | S754_finite _ m e => S754_finite false m e | S754_nan => S754_nan
  end.
Definition negative (x : double) : bool :=
  match x with S754_zero s | S754_infinity s | S754_finite s _ _ => s | S754_nan => false end.

(** No decimal with at most six digits is nearer to [v] than [d]. *)
Definition nearest_six (v d : R) : Prop :=
  forall m e, (0 <= m < 1000000)%Z -> (Rabs (d - v) <= Rabs (decval m e - v))%R.
(** [x] is what the scanner reads from a literal with at most six significant
    digits, up to its sign; denormal numbers are left out. *)
Definition short (x : double) : Prop :=
  (exists s, x = S754_zero s) \/
  exists m e, (0 < m < 1000000)%Z /\ dabs x = strtod_val m e /\ is_finite x = true /\
              (powerRZ 2 (-1022) <= dval (dabs x))%R.

(** A double that can be written: neither infinite nor a NaN.  (Every double the code
    handles is well formed.) *)
Definition writable_num (x : double) : Prop := is_finite x = true /\ well_formed x.
(** [y] stands for [x] rounded to six digits: the same sign, off by at most one part
    in 100000 (or the smallest double), and [x] itself if [x] is short. *)
Definition nearly_num (x y : double) : Prop :=
  is_finite y = true /\ negative y = negative x /\
  (Rabs (dval y - dval x) <= Rabs (dval x) / 100000 + powerRZ 2 (-1074))%R /\
  (short x -> y = x).

(** ** Texts *)
(** The name can be written as a keyword. *)
Definition word (s : string) : Prop := matches (rule_re LKeyword) (list_ascii_of_string s).
(** The string can be written between quotes. *)
Definition quotable (s : string) : Prop :=
  forall c, In c (list_ascii_of_string s) -> c <> c_quote /\ c <> c_nl /\ c <> c_cr.

Definition writable (v : tval) : Prop :=
  match v with
  | TNum x => writable_num x
  | TVec l => Forall writable_num l
  | TStr s => quotable s
  | TCfgs _ => False
  end.
Definition nearly (v v' : tval) : Prop :=
  match v, v' with
  | TNum x, TNum y => nearly_num x y
  | TVec l, TVec l' => Forall2 nearly_num l l'
  | TStr s, TStr s' => s' = s
  | _, _ => False
  end.
Definition short_val (v : tval) : Prop :=
  match v with TNum x => short x | TVec l => Forall short l | _ => True end.
(** The same for a value that may be missing. *)
Definition onearly (o o' : option tval) : Prop :=
  match o, o' with Some v, Some v' => nearly v v' | None, None => True | _, _ => False end.

(** ** Lattices.  An element: its own scope has a name, a type and properties. *)
Definition own (n : string) (c : tcfg) : option tval := sfind n (town c).
Definition element_as (n t : string) (g : tcfg) : Prop :=
  ssorted (town g) /\ own "name" g = Some (TStr n) /\ own "type" g = Some (TStr t) /\ word n /\ word t /\
  forall k v, own k g = Some v -> k <> "name" -> k <> "type" -> word k /\ writable v.

Record lattice (c : tcfg) (es : list tcfg) : Prop := mkLattice {
  (** variables, the element list and nothing behind *)
  lt_sorted : ssorted (town c);
  lt_outer : touter c = [];
  lt_elements : own "elements" c = Some (TCfgs es);
  lt_some : es <> [];
  lt_vars : forall n v, own n c = Some v -> n <> "elements" -> word n /\ writable v;
  (** the name of the lattice *)
  lt_name : forall v, own "name" c = Some v -> exists s, v = TStr s /\ word s;
  lt_each : forall g, In g es -> exists n t, element_as n t g;
  (** one name, one definition *)
  lt_same : forall g h, In g es -> In h es -> own "name" g = own "name" h -> town g = town h;
  (** no element is called like a variable, or USE *)
  lt_apart : forall g n, In g es -> own "name" g = Some (TStr n) ->
     n <> "USE" /\ (n = "elements" \/ own n c = None) }.

(** A variable of the lattice. *)
Definition variable (n : string) (c : tcfg) : option tval :=
  if String.eqb n "elements" then None else own n c.

(** [c'] is [c] read back: nearly the same variables and, in the same order, elements
    with nearly the same own scope, behind which are the variables. *)
Definition read_back (c : tcfg) (es : list tcfg) (c' : tcfg) : Prop :=
  (forall n, n <> "name" -> onearly (variable n c) (variable n c')) /\
  own "name" c' = Some match own "name" c with Some v => v | None => TStr "default" end /\
  exists es', own "elements" c' = Some (TCfgs es') /\
    Forall2 (fun g g' => (forall n, onearly (own n g) (own n g')) /\
                         forall n, onearly (variable n c) (sfind n (touter g'))) es es'.

(** ** Lattices that were read from a text *)
(** Every variable and property can be written. *)
Definition all_vals (P : tval -> Prop) (c : tcfg) : Prop :=
  (forall n v, own n c = Some v -> n <> "elements" -> P v) /\
  forall g, In g (elements_of c) -> forall n v, own n g = Some v -> P v.
Definition all_writable : tcfg -> Prop := all_vals writable.
(** Every number has at most six digits. *)
Definition all_short : tcfg -> Prop := all_vals short_val.
(** No element is called USE or like a variable. *)
Definition names_apart (c : tcfg) : Prop :=
  forall g n, In g (elements_of c) -> own "name" g = Some (TStr n) -> n <> "USE" /\ (n = "elements" \/ own n c = None).
(** Lookups in the two lattices and in their elements give nearly the same.  (An
    element sees the variables, but not the element list.) *)
Definition looks_alike (R : option tval -> option tval -> Prop) (c c' : tcfg) : Prop :=
  (forall n, n <> "elements" -> R (tlookup n c) (tlookup n c')) /\
  Forall2 (fun g g' => (forall n, R (own n g) (own n g')) /\
                       forall n, n <> "elements" -> R (tlookup n g) (tlookup n g'))
          (elements_of c) (elements_of c').

(** Property L of element [i]; property [n] of the first element. *)
Definition length_at (c : tcfg) (i : nat) : option tval :=
  match nth_error (elements_of c) i with Some g => tlookup "L" g | None => None end.
Definition prop_at (n : string) (c : tcfg) : option tval :=
  match elements_of c with g :: _ => tlookup n g | [] => None end.
