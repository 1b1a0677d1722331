(** Specification for C88: who may do what with Machines and Observers, told without
    memory.  Nothing here mentions addresses. *)
From Coq Require Import List String Bool NArith ZArith Arith.
From Verif Require Import SMap Dbl Config_Spec Machine_Model Own_Model.
Import ListNotations.
Open Scope list_scope.

(** Whose an observer is: the program's, that of the element in slot s of machine i, or
    nobody's, being deleted. *)
Inductive owner := Mine | On (i s : nat) | Gone.
(** Machines: the number of elements, or [None] for one which could not be constructed or
    is deleted.  Observers: the owners.  In the order of construction. *)
Record book := mkBk { b_ms : list (option nat); b_obs : list owner }.
Definition b_start : book := mkBk [] [].

(** The element in slot s of machine i gives back the observer it has, if any. *)
Definition give_back (i s : nat) (w : owner) : owner :=
  match w with On i' s' => if (Nat.eqb i i' && Nat.eqb s s')%bool then Mine else w | _ => w end.
(** Machine i goes with all the observers it has. *)
Definition take_along (i : nat) (w : owner) : owner :=
  match w with On i' _ => if Nat.eqb i i' then Gone else w | _ => w end.
Fixpoint put_at {A} (l : list A) (n : nat) (a : A) : list A :=
  match l, n with
  | [], _ => []
  | _ :: l', O => a :: l'
  | x :: l', S n' => x :: put_at l' n' a
  end.

(** The rules: a machine is used while it exists and slots that exist; an observer is
    attached while it is the program's and becomes the element's; set_observer gives the
    previous one back to the program; the program deletes its own observers only, and a
    machine which exists. *)
Section Rules.
Context {D B : Type}.
Variable reg : registry D B.
Inductive obeys : book -> list (cmd B) -> book -> Prop :=
| ob_nil b : obeys b [] b
| ob_new b c l b' :
    obeys (mkBk (b_ms b ++ [match new_machine reg c with
                            | Ok m => Some (List.length (m_elems m))
                            | Throw _ => None end]) (b_obs b)) l b' ->
    obeys b (New c :: l) b'
| ob_obs b l b' :
    obeys (mkBk (b_ms b) (b_obs b ++ [Mine])) l b' -> obeys b (NewObs :: l) b'
| ob_set b i s o n l b' :
    nth_error (b_ms b) i = Some (Some n) -> s < n -> nth_error (b_obs b) o = Some Mine ->
    obeys (mkBk (b_ms b) (put_at (map (give_back i s) (b_obs b)) o (On i s))) l b' ->
    obeys b (SetObs i s (Some o) :: l) b'
| ob_unset b i s n l b' :
    nth_error (b_ms b) i = Some (Some n) -> s < n ->
    obeys (mkBk (b_ms b) (map (give_back i s) (b_obs b))) l b' ->
    obeys b (SetObs i s None :: l) b'
| ob_reconf b i idx c n l b' :
    nth_error (b_ms b) i = Some (Some n) -> obeys b l b' -> obeys b (Reconf i idx c :: l) b'
| ob_prop b i st start max n l b' :
    nth_error (b_ms b) i = Some (Some n) -> max <> INT_MIN -> obeys b l b' ->
    obeys b (Propagate i st start max :: l) b'
| ob_del b i n l b' :
    nth_error (b_ms b) i = Some (Some n) ->
    obeys (mkBk (put_at (b_ms b) i None) (map (take_along i) (b_obs b))) l b' ->
    obeys b (Del i :: l) b'
| ob_delobs b o l b' :
    nth_error (b_obs b) o = Some Mine ->
    obeys (mkBk (b_ms b) (put_at (b_obs b) o Gone)) l b' ->
    obeys b (DelObs o :: l) b'.

(** Every construction of a machine in the program succeeds. *)
Definition all_built (l : list (cmd B)) : Prop :=
  forall c, In (New c) l -> exists m, new_machine reg c = Ok m.
(** Everything has been deleted, or left to elements which have been. *)
Definition all_gone (b : book) : Prop :=
  Forall (fun m => m = None) (b_ms b) /\ Forall (fun w => w = Gone) (b_obs b).

(** ** Python.  For each object: not initialised, initialised, freed. *)
Inductive pystatus := Raw | Ready | Freed.
(** What the interpreter sees to - nothing is called on a freed object -, and what it does
    not: nothing is called on an object before a successful __init__ ([Raw] may be freed),
    and __init__ is called on a [Raw] object. *)
Inductive pyobeys : list pystatus -> list (pycall B) -> list pystatus -> Prop :=
| py_nil s : pyobeys s [] s
| py_new s l s' : pyobeys (s ++ [Raw]) l s' -> pyobeys s (PyNew :: l) s'
| py_init s x c l s' :
    nth_error s x = Some Raw ->
    pyobeys (match new_machine reg c with Ok _ => put_at s x Ready | Throw _ => s end) l s' ->
    pyobeys s (PyInit x c :: l) s'
| py_prop s x st start max obs l s' :
    nth_error s x = Some Ready ->
    match max with Some z => py_int z <> INT_MIN | None => True end ->
    pyobeys s l s' -> pyobeys s (PyProp x st start max obs :: l) s'
| py_reconf s x idx c l s' :
    nth_error s x = Some Ready -> pyobeys s l s' -> pyobeys s (PyReconf x idx c :: l) s'
| py_use s x l s' :
    nth_error s x = Some Ready -> pyobeys s l s' -> pyobeys s (PyUse x :: l) s'
| py_free s x w l s' :
    nth_error s x = Some w -> w <> Freed -> pyobeys (put_at s x Freed) l s' ->
    pyobeys s (PyFree x :: l) s'.
Definition py_all_built (l : list (pycall B)) : Prop :=
  forall x c, In (PyInit x c) l -> exists m, new_machine reg c = Ok m.

(** The configuration names a known type, and its constructor does not throw. *)
Definition constructs (i : sinfo D B) (c : tcfg) : Prop :=
  exists t k e, get_str c "type" = Ok t /\ sfind t (si_elems i) = Some k /\ build k c = Ok e.
(** The element has an observer. *)
Definition observed (e : elem D B) : bool := match el_obs e with Some _ => true | None => false end.
End Rules.
