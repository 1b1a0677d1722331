(** Model of the simulation engine: registry of simulation and element types,
    construction of a Machine, lookups, propagate() and reconfigure()
    (src/base.cpp, src/flame/base.h), and the observer handling of the Python
    propagate() (python/flame/modmachine.cpp).

    The engine is generic in what elements do: [D] is the private data of the
    element classes (matrices, caches ...), [B] the part of a simulation state
    that the engine itself never touches.  A class is given by its constructor,
    its assign() and its advance(), which are arbitrary functions here.

    Configs are the value trees of Config_Spec.v; that a Config behaves like such
    a tree is what C01-C05 prove.

    Simplified: the trace stream (base.cpp:187-190; see Show_Model) and log output are left out;
    the mutex is left out (one thread); memory exhaustion is left out; elements
    built before a constructor failure are leaked by the code, which nothing in
    the model can see. *)
From Coq Require Import List String Bool NArith ZArith.
From Verif Require Import SMap Dbl Config_Spec.
Import ListNotations.

(** C++ exceptions by class: key_error (config.h:27), std::invalid_argument,
    std::runtime_error, std::logic_error.  [Abort] is no exception: a failed
    assert() or undefined behaviour, which nothing can catch.  [BadIndex] is
    undefined behaviour of one sort, kept apart: a per-charge-state array of a
    moment simulation (Moment_Model) is accessed beyond its end.  [NotFinite] is
    neither: a simulation in exact arithmetic came to a division by zero or the
    root of a negative number, where the program goes on with infinities or NaN. *)
Inductive exn := KeyError | InvalidArgument | RuntimeError | LogicError | Abort | BadIndex | NotFinite.
Inductive res (A : Type) := Ok (a : A) | Throw (e : exn).
Arguments Ok {A}. Arguments Throw {A}.

Definition rbind {A C} (r : res A) (f : A -> res C) : res C :=
  match r with Ok a => f a | Throw e => Throw e end.

(** [c.get<std::string>(n)] (config.h:199-209): key_error when missing or of
    another type. *)
Definition get_str (c : tcfg) (n : string) : res string :=
  match tfind n c with Some (TStr s) => Ok s | _ => Throw KeyError end.
(** [c.get<Config::vector_t>(n)]. *)
Definition get_cfgs (c : tcfg) (n : string) : res (list tcfg) :=
  match tfind n c with Some (TCfgs l) => Ok l | _ => Throw KeyError end.
(** [c.get<double>(n)]. *)
Definition get_num (c : tcfg) (n : string) : res double :=
  match tfind n c with Some (TNum x) => Ok x | _ => Throw KeyError end.
(** [c.get<double>(n, d)] (config.h:215-224). *)
Definition get_num_def (c : tcfg) (n : string) (d : double) : double :=
  match tfind n c with Some (TNum x) => x | _ => d end.
(** [c.get<std::string>(n, d)]. *)
Definition get_str_def (c : tcfg) (n : string) (d : string) : string :=
  match tfind n c with Some (TStr s) => s | _ => d end.
(** [c.get<std::vector<double> >(n)]. *)
Definition get_vec (c : tcfg) (n : string) : res (list double) :=
  match tfind n c with Some (TVec l) => Ok l | _ => Throw KeyError end.

(** size_t. *)
Definition SIZE_MAX : N := 18446744073709551615.
Definition size_incr (n : N) : N := if N.eqb n SIZE_MAX then 0%N else N.succ n.
Definition size_decr (n : N) : N := if N.eqb n 0 then SIZE_MAX else N.pred n.

Section Machine.
Context {D B : Type}.

(** StateBase (base.h:28-120): the engine's fields and the rest. *)
Record pstate := mkSt { st_next : N; st_retreat : bool; st_body : B }.

(** Data members of ElementVoid (base.h:165-260) apart from the derived class's
    own ([D]) and the observer pointer. *)
Record ebase := mkEB {
  eb_name : string; eb_index : N; eb_len : double; eb_conf : tcfg
}.

(** A registered element class: run time type identity, type_name(), the derived
    constructor's own part, assign()'s own part (destination first), and
    advance(), which may update the element's private data (also when it throws),
    may change the state's next_elem and retreat, and may throw. *)
Record class := mkCls {
  cl_id : nat;
  cl_tname : string;
  cl_ctor : tcfg -> res D;
  cl_assign : D -> D -> D;
  cl_advance : ebase -> D -> pstate -> D * res pstate
}.

(** An element object.  [el_obs] is p_observe: NULL or the identity of an
    observer; no element class looks at it. *)
Record elem := mkEl { el_class : class; el_base : ebase; el_obs : option nat; el_data : D }.
Definition el_name e := eb_name (el_base e).
Definition el_index e := eb_index (el_base e).
Definition el_tname e := cl_tname (el_class e).

(** ElementVoid::ElementVoid (base.cpp:54-60). *)
Definition base_ctor (c : tcfg) : res ebase :=
  rbind (get_str c "name") (fun n =>
  Ok (mkEB n 0 (get_num_def c "L" dzero) c)).

(** element_builder_impl<Element>::build (base.h:392-393): base constructor,
    then the derived class's. *)
Definition build (k : class) (c : tcfg) : res elem :=
  rbind (base_ctor c) (fun b =>
  rbind (cl_ctor k c) (fun d => Ok (mkEl k b None d))).

Definition with_index (e : elem) (i : N) : elem :=
  let b := el_base e in
  mkEl (el_class e) (mkEB (eb_name b) i (eb_len b) (eb_conf b)) (el_obs e) (el_data e).
Definition with_obs (e : elem) (o : option nat) : elem :=
  mkEl (el_class e) (el_base e) o (el_data e).
Definition with_data (e : elem) (d : D) : elem := mkEl (el_class e) (el_base e) (el_obs e) d.

(** element_builder_impl<Element>::rebuild (base.h:394-403).  [dynamic_cast]
    succeeds iff the run time class is the builder's: no registered class
    derives from another.  ElementVoid::assign (base.cpp:73-79) copies every
    base member but the observer. *)
Definition rebuild (k : class) (o : elem) (c : tcfg) (idx : N) : res elem :=
  rbind (build k c) (fun n =>
  if Nat.eqb (cl_id k) (cl_id (el_class o))
  then Ok (with_index (mkEl (el_class o) (el_base n) (el_obs o)
                            (cl_assign k (el_data o) (el_data n))) idx)
  else Throw RuntimeError).

(** ** Registry (base.h:405-460, base.cpp:215-260) *)

(** state_info: the state builder and the element types. *)
Record sinfo := mkSI { si_build : tcfg -> res B; si_elems : smap class }.
Definition registry := smap sinfo.

(** Machine::p_registerState (base.cpp:217-229). *)
Definition reg_state (r : registry) (n : string) (b : tcfg -> res B) : registry * res unit :=
  match sfind n r with
  | Some _ => (r, Throw LogicError)
  | None => (sset n (mkSI b []) r, Ok tt)
  end.
(** Machine::p_registerElement (base.cpp:231-249). *)
Definition reg_elem (r : registry) (s n : string) (k : class) : registry * res unit :=
  match sfind s r with
  | None => (r, Throw LogicError)
  | Some i =>
      match sfind n (si_elems i) with
      | Some _ => (r, Throw LogicError)
      | None => (sset s (mkSI (si_build i) (sset n k (si_elems i))) r, Ok tt)
      end
  end.

(** ** Lookup tables: std::map<LookupKey, ElementVoid*> (base.h:327-339) *)
Definition lkey : Type := string * N.
(** LookupKey::operator< *)
Definition key_lt (a b : lkey) : bool :=
  match String.compare (fst a) (fst b) with
  | Lt => true
  | Gt => false
  | Eq => N.ltb (snd a) (snd b)
  end.
(** The map, in its order; elements are identified by their slot in p_elements
    (slots never move or get replaced during the life of a Machine). *)
Definition lookup := list (lkey * nat).
(** std::map::insert of one pair. *)
Fixpoint linsert (k : lkey) (v : nat) (m : lookup) : lookup :=
  match m with
  | [] => [(k, v)]
  | (k', v') :: m' =>
      if key_lt k k' then (k, v) :: (k', v') :: m'
      else if key_lt k' k then (k', v') :: linsert k v m'
      else (k', v') :: m'
  end.
(** The part of the map from [lower_bound k] on. *)
Fixpoint from_lower (k : lkey) (m : lookup) : lookup :=
  match m with
  | [] => []
  | (k', v') :: m' => if key_lt k' k then from_lower k m' else (k', v') :: m'
  end.
(** ... and the part of a map before [upper_bound k]. *)
Fixpoint to_upper (k : lkey) (m : lookup) : lookup :=
  match m with
  | [] => []
  | (k', v') :: m' => if key_lt k k' then [] else (k', v') :: to_upper k m'
  end.

Record machine := mkM {
  m_elems : list elem;       (* p_elements *)
  m_lookup : lookup;         (* p_lookup *)
  m_types : lookup;          (* p_lookup_type *)
  m_simtype : string;        (* p_simtype *)
  m_conf : tcfg;             (* p_conf *)
  m_info : sinfo             (* p_info *)
}.

(** equal_range (base.h:369-376) as the list of slots it iterates over. *)
Definition equal_range (m : machine) (n : string) : list nat :=
  map snd (to_upper (n, SIZE_MAX) (from_lower (n, 0%N) (m_lookup m))).
(** equal_range_type (base.h:380-386). *)
Definition equal_range_type (m : machine) (n : string) : list nat :=
  map snd (to_upper (n, SIZE_MAX) (from_lower (n, 0%N) (m_types m))).
(** all_range (base.h:362-365). *)
Definition all_range (m : machine) : list nat := map snd (m_lookup m).
(** find (base.h:346-355). *)
Fixpoint find_loop (l : list nat) (nth : N) : option nat :=
  match l with
  | [] => None
  | v :: l' => if N.eqb nth 0 then Some v else find_loop l' (N.pred nth)
  end.
Definition find (m : machine) (n : string) (nth : N) : option nat :=
  find_loop (map snd (to_upper (n, SIZE_MAX) (from_lower (n, 0%N) (m_lookup m)))) nth.

(** ** Construction (base.cpp:81-158) *)
Fixpoint build_loop (i : sinfo) (es : list tcfg) (idx : nat)
    (result : list elem) (ll lt : lookup) : res (list elem * lookup * lookup) :=
  match es with
  | [] => Ok (result, ll, lt)
  | ec :: es' =>
      rbind (get_str ec "type") (fun etype =>
      match sfind etype (si_elems i) with
      | None => Throw KeyError
      | Some k =>
          match build k ec with
          | Throw KeyError => Throw KeyError
          | Throw Abort => Throw Abort
          | Throw BadIndex => Throw BadIndex
          | Throw NotFinite => Throw NotFinite
          | Throw _ => Throw RuntimeError
          | Ok e =>
              if String.eqb (el_tname e) etype then
                let e := with_index e (N.of_nat idx) in
                build_loop i es' (S idx) (result ++ [e])
                           (linsert (el_name e, el_index e) idx ll)
                           (linsert (etype, el_index e) idx lt)
              else Throw LogicError
          end
      end)
  end.

Definition new_machine (r : registry) (c : tcfg) : res machine :=
  rbind (get_str c "sim_type") (fun t =>
  match sfind t r with
  | None => Throw KeyError
  | Some i =>
      rbind (get_cfgs c "elements") (fun es =>
      rbind (build_loop i es 0 [] [] []) (fun '(els, ll, lt) =>
      Ok (mkM els ll lt t c i)))
  end).

(** Machine::allocState (base.cpp:193-197). *)
Definition alloc_state (m : machine) (c : tcfg) : res pstate :=
  rbind (si_build (m_info m) c) (fun b => Ok (mkSt 0 false b)).

(** ** propagate (base.cpp:167-191) *)
Fixpoint update {A} (l : list A) (i : nat) (a : A) : list A :=
  match l, i with
  | [], _ => []
  | _ :: l', O => a :: l'
  | x :: l', S i' => x :: update l' i' a
  end.

(** One call of an observer: which, for the element in which slot, and the state
    it is shown. *)
Record event := mkEv { ev_obs : nat; ev_slot : nat; ev_state : pstate }.

(** How propagate ends: normally with a state, or by an exception (then the
    state is unspecified, base.h:299), together with the machine's elements
    (whose caches may have changed) and the observer calls made. *)
Record prun := mkRun { pr_elems : list elem; pr_events : list event; pr_end : res pstate }.

(** [p_elements[n]], if [n] is less than the number of elements. *)
Definition slot (els : list elem) (n : N) : option elem :=
  if N.ltb n (N.of_nat (List.length els)) then nth_error els (N.to_nat n) else None.

(** [k] is the number of iterations left, [abs(max) - i]. *)
Fixpoint prop_loop (k : nat) (els : list elem) (st : pstate) (evs : list event) : prun :=
  match k with
  | O => mkRun els evs (Ok st)
  | S k' =>
      match slot els (st_next st) with
      | None => mkRun els evs (Ok st)            (* S->next_elem >= nelem *)
      | Some e =>
          let n := N.to_nat (st_next st) in
          let st1 := mkSt (if st_retreat st then size_decr (st_next st) else size_incr (st_next st))
                          (st_retreat st) (st_body st) in
          match cl_advance (el_class e) (el_base e) (el_data e) st1 with
          | (d, Throw x) => mkRun (update els n (with_data e d)) evs (Throw x)
          | (d, Ok st2) =>
              prop_loop k' (update els n (with_data e d)) st2
                (match el_obs e with
                 | Some o => evs ++ [mkEv o n st2]
                 | None => evs
                 end)
          end
      end
  end.

(** int. *)
Definition INT_MIN : Z := -2147483648.
Definition INT_MAX : Z := 2147483647.

(** [None]: undefined behaviour, abs(INT_MIN) overflows.  [signbit(max)] is
    [max < 0]: an integer zero converts to +0.0. *)
Definition propagate (m : machine) (st : pstate) (start : N) (max : Z) : option prun :=
  if Z.eqb max INT_MIN then
    (* the operand of the loop condition is evaluated only when the first part holds *)
    if N.ltb start (N.of_nat (List.length (m_elems m))) then None
    else Some (mkRun (m_elems m) [] (Ok (mkSt start true (st_body st))))
  else
    Some (prop_loop (Z.abs_nat max) (m_elems m) (mkSt start (Z.ltb max 0) (st_body st)) []).

Definition with_elems (m : machine) (els : list elem) : machine :=
  mkM els (m_lookup m) (m_types m) (m_simtype m) (m_conf m) (m_info m).

(** ** reconfigure (base.cpp:199-213).  Returns the machine afterwards and how
    the call ended. *)
Definition reconfigure (m : machine) (idx : N) (c : tcfg) : machine * res unit :=
  match slot (m_elems m) idx with
  | None => (m, Throw InvalidArgument)
  | Some o =>
      match get_str c "type" with
      | Throw e => (m, Throw e)
      | Ok etype =>
          match sfind etype (si_elems (m_info m)) with
          | None => (m, Throw KeyError)
          | Some k =>
              match rebuild k o c idx with
              | Throw e => (m, Throw e)
              | Ok e => (with_elems m (update (m_elems m) (N.to_nat idx) e), Ok tt)
              end
          end
      end
  end.

(** ElementVoid::set_observer (base.h:213). *)
Definition set_observer (els : list elem) (i : nat) (o : option nat) : list elem :=
  match nth_error els i with
  | Some e => update els i (with_obs e o)
  | None => els
  end.

(** ** Python's Machine.propagate (python/flame/modmachine.cpp:109-195) *)

(** PyScopedObserver::observe for each requested number (modmachine.cpp:127-134,
    168-178): negative numbers become huge size_t values; an index out of range
    throws std::runtime_error. *)
Fixpoint py_observe (els : list elem) (l : list Z) (o : nat) : list elem * res unit :=
  match l with
  | [] => (els, Ok tt)
  | z :: l' =>
      if (Z.ltb z 0 || Z.leb (Z.of_nat (List.length els)) z)%bool then (els, Throw RuntimeError)
      else py_observe (set_observer els (Z.to_nat z) (Some o)) l' o
  end.
(** ~PyScopedObserver (modmachine.cpp:119-125). *)
Definition py_unobserve (els : list elem) : list elem := map (fun e => with_obs e None) els.

(** What PyStoreObserver::view (modmachine.cpp:93-99) appends: the element's
    index and a clone of the state, which starts with next_elem 0 and retreat
    false (base.cpp:26-32). *)
Definition py_store (els : list elem) (evs : list event) : list (N * pstate) :=
  map (fun ev => (match nth_error els (ev_slot ev) with Some e => el_index e | None => 0%N end,
                  mkSt 0 false (st_body (ev_state ev)))) evs.

(** [(int) PyLong_AsLong(pymax)] (modmachine.cpp:165) for a Python integer that
    fits a C long; the conversion to int keeps the low 32 bits (gcc).  Larger
    Python integers (OverflowError left pending) are not modelled. *)
Definition py_int (z : Z) : Z :=
  let w := (z mod 4294967296)%Z in if Z.ltb w 2147483648 then w else (w - 4294967296)%Z.

(** The machine afterwards, and either an exception or the state and the list
    returned; [None] is the undefined behaviour of propagate.  [pymax] is the
    argument max= if given, [obs] the numbers in observe= (empty if not given),
    [o] the identity of the PyStoreObserver object. *)
Definition py_propagate (m : machine) (st : pstate) (start : N) (pymax : option Z)
    (obs : list Z) (o : nat)
  : option (machine * res (pstate * list (N * pstate))) :=
  let max := match pymax with Some z => py_int z | None => INT_MAX end in
  let '(els, r) := py_observe (m_elems m) obs o in
  match r with
  | Throw e => Some (with_elems m (py_unobserve els), Throw e)
  | Ok _ =>
      match propagate (with_elems m els) st start max with
      | None => None
      | Some p =>
          Some (with_elems m (py_unobserve (pr_elems p)),
                match pr_end p with
                | Throw e => Throw e
                | Ok st' => Ok (st', py_store (pr_elems p) (pr_events p))
                end)
      end
  end.

End Machine.
Arguments pstate : clear implicits.
Arguments class : clear implicits.
Arguments elem : clear implicits.
Arguments sinfo : clear implicits.
Arguments registry : clear implicits.
Arguments machine : clear implicits.
Arguments event : clear implicits.
Arguments prun : clear implicits.
