(** Model of who frees what: the memory of Machines, their elements and the Observers
    attached to elements (src/base.cpp, src/flame/base.h), for a C++ program using the
    library, for the Python module (python/flame/modmachine.cpp) and for the command line
    tool (tools/cli.cpp).

    Objects are addresses.  No address is given out twice, so that an access to a freed
    object is always seen; a real allocator may hand out the memory again, but the access
    is undefined behaviour all the same.

    Simplified: only Machines, elements and observers are objects here, not the memory an
    element, a state or a Config holds inside.  propagate() is taken to access every
    element of the Machine, not only the visited ones.  Observers do not access the
    Machine.  Storage of an object whose constructor throws is freed by the language and
    never counted.  What element classes do wrong by themselves (Abort and the like in
    Machine_Model) ends the call like an exception. *)
From Coq Require Import List String Bool NArith ZArith Arith.
From Verif Require Import SMap Dbl Config_Spec Machine_Model Cli_Model.
Import ListNotations.
Open Scope list_scope.

(** ** Memory *)

(** [h_live]: objects made by new and not yet deleted; [h_auto]: objects with automatic
    storage within their block. *)
Record heap := mkH { h_next : nat; h_live : list nat; h_auto : list nat }.
(** [Bad]: undefined behaviour - access to an object which is not there, delete of
    something that did not come from new or is deleted already. *)
Inductive mem (A : Type) := Fine (a : A) | Bad.
Arguments Fine {A}. Arguments Bad {A}.
Definition mbind {A C} (x : mem A) (f : A -> mem C) : mem C :=
  match x with Fine a => f a | Bad => Bad end.

(** operator new. *)
Definition h_new (h : heap) : nat * heap :=
  (h_next h, mkH (S (h_next h)) (h_next h :: h_live h) (h_auto h)).
(** A local variable comes into scope, and leaves it. *)
Definition h_enter (h : heap) : nat * heap :=
  (h_next h, mkH (S (h_next h)) (h_live h) (h_next h :: h_auto h)).
Definition h_leave (h : heap) (a : nat) : heap :=
  mkH (h_next h) (h_live h) (List.remove Nat.eq_dec a (h_auto h)).
Definition mem_nat (a : nat) (l : list nat) : bool := existsb (Nat.eqb a) l.
(** May the object be accessed? *)
Definition h_ok (h : heap) (a : nat) : bool := (mem_nat a (h_live h) || mem_nat a (h_auto h))%bool.
(** operator delete. *)
Definition h_free (h : heap) (a : nat) : mem heap :=
  if mem_nat a (h_live h)
  then Fine (mkH (h_next h) (List.remove Nat.eq_dec a (h_live h)) (h_auto h))
  else Bad.
(** Several deletes in this order. *)
Fixpoint h_frees (h : heap) (l : list nat) : mem heap :=
  match l with
  | [] => Fine h
  | a :: l' => mbind (h_free h a) (fun h' => h_frees h' l')
  end.

Section Own.
Context {D B : Type}.
Variable reg : registry D B.

(** A Machine in memory: its address, its members, and the addresses of the elements
    p_elements points to (base.h:391). *)
Record omach := mkOM { om_addr : nat; om_m : machine D B; om_els : list nat }.
Definition om_elems (m : omach) : list (elem D B) := m_elems (om_m m).
Definition om_put (m : omach) (els : list (elem D B)) : omach :=
  mkOM (om_addr m) (with_elems (om_m m) els) (om_els m).

(** The loop of Machine::Machine (base.cpp:111-150): every element made by
    builder->build() (base.h:412-413) is put into the local vector [result], whose
    destructor deletes no element. *)
Fixpoint build_mem (i : sinfo D B) (es : list tcfg) (h : heap) (result : list nat) : heap * list nat :=
  match es with
  | [] => (h, result)
  | ec :: es' =>
      match get_str ec "type" with
      | Throw _ => (h, result)
      | Ok etype =>
          match sfind etype (si_elems i) with
          | None => (h, result)
          | Some k =>
              match build k ec with
              | Throw _ => (h, result)
              | Ok e =>
                  let '(a, h) := h_new h in
                  if String.eqb (el_tname e) etype
                  then build_mem i es' h (result ++ [a])
                  else (h, result)
              end
          end
      end
  end.
(** Machine::Machine (base.cpp:82-158) called by new; ~Machine is not run when the
    constructor throws. *)
Definition new_mem (h : heap) (c : tcfg) : heap * res omach :=
  let '(h, els) :=
    match get_str c "sim_type" with
    | Throw _ => (h, [])
    | Ok t =>
        match sfind t reg with
        | None => (h, [])
        | Some i =>
            match get_cfgs c "elements" with
            | Throw _ => (h, [])
            | Ok es => build_mem i es h []
            end
        end
    end in
  match new_machine reg c with
  | Throw e => (h, Throw e)
  | Ok m => let '(a, h) := h_new h in (h, Ok (mkOM a m els))
  end.

(** ~ElementVoid (base.cpp:64-67) and the storage of the element: delete p_observe (a
    NULL pointer is ignored), then the element. *)
Definition elem_frees (x : nat * elem D B) : list nat :=
  match el_obs (snd x) with Some o => [o] | None => [] end ++ [fst x].
(** ~Machine (base.cpp:160-166) and the storage of the Machine. *)
Definition mach_frees (m : omach) : list nat :=
  flat_map elem_frees (combine (om_els m) (om_elems m)) ++ [om_addr m].
Definition del_mem (h : heap) (m : omach) : mem heap :=
  if h_ok h (om_addr m) then h_frees h (mach_frees m) else Bad.

(** m[s]->set_observer(o) (base.h:207, 325): [s] beyond the end is undefined. *)
Definition set_mem (h : heap) (m : omach) (s : nat) (o : option nat) : mem omach :=
  if h_ok h (om_addr m) then
    match nth_error (om_els m) s with
    | Some a => if h_ok h a then Fine (om_put m (set_observer (om_elems m) s o)) else Bad
    | None => Bad
    end
  else Bad.

(** reconfigure (base.cpp:200-215, base.h:414-422): the new element, held by an auto_ptr,
    is deleted again, whether or not the types agree; its p_observe is NULL. *)
Definition reconf_mem (h : heap) (m : omach) (idx : N) (c : tcfg) : mem (heap * omach) :=
  if h_ok h (om_addr m) then
    let m' := mkOM (om_addr m) (fst (reconfigure (om_m m) idx c)) (om_els m) in
    match slot (om_elems m) idx, get_str c "type" with
    | Some _, Ok etype =>
        match sfind etype (si_elems (m_info (om_m m))) with
        | None => Fine (h, m')
        | Some k =>
            match build k c with
            | Throw _ => Fine (h, m')
            | Ok n =>
                let '(a, h1) := h_new h in
                match nth_error (om_els m) (N.to_nat idx) with
                | Some x =>
                    if h_ok h1 x then
                      mbind (h_frees h1 (elem_frees (a, n))) (fun h2 => Fine (h2, m'))
                    else Bad
                | None => Bad
                end
            end
        end
    | _, _ => Fine (h, m')
    end
  else Bad.

(** propagate (base.cpp:168-192).  [None]: abs(INT_MIN). *)
Definition prop_mem (h : heap) (m : omach) (st : pstate B) (start : N) (max : Z) : mem omach :=
  if (h_ok h (om_addr m) && forallb (h_ok h) (om_els m))%bool then
    match propagate (om_m m) st start max with
    | None => Bad
    | Some p =>
        if forallb (fun ev => h_ok h (ev_obs ev)) (pr_events p)
        then Fine (om_put m (pr_elems p))
        else Bad
    end
  else Bad.

(** ** A C++ program: what it does with pointers to Machines and Observers.  Machines and
    observers are numbered in the order in which they are made. *)
Inductive cmd :=
| New (c : tcfg)                               (* m = NULL; try { m = new Machine(c); } ... *)
| NewObs                                       (* o = new SomeObserver *)
| SetObs (i s : nat) (o : option nat)          (* m_i[s]->set_observer(o), or of NULL *)
| Reconf (i : nat) (idx : N) (c : tcfg)        (* m_i->reconfigure(idx, c) *)
| Propagate (i : nat) (st : pstate B) (start : N) (max : Z)
| Del (i : nat)                                (* delete m_i *)
| DelObs (o : nat).                            (* delete o *)

(** Variables keep their values when the objects are gone. *)
Record prog := mkP { p_heap : heap; p_ms : list (option omach); p_obs : list nat }.
Definition p_start : prog := mkP (mkH 0 [] []) [] [].

(** A pointer which is used; NULL and a number that was never given are not allowed. *)
Definition use (p : prog) (i : nat) : mem omach :=
  match nth_error (p_ms p) i with Some (Some m) => Fine m | _ => Bad end.
Definition put (p : prog) (h : heap) (i : nat) (m : omach) : prog :=
  mkP h (update (p_ms p) i (Some m)) (p_obs p).

Definition step (p : prog) (x : cmd) : mem prog :=
  let h := p_heap p in
  match x with
  | New c =>
      match new_mem h c with
      | (h', Ok m) => Fine (mkP h' (p_ms p ++ [Some m]) (p_obs p))
      | (h', Throw _) => Fine (mkP h' (p_ms p ++ [None]) (p_obs p))
      end
  | NewObs => let '(a, h') := h_new h in Fine (mkP h' (p_ms p) (p_obs p ++ [a]))
  | SetObs i s None => mbind (use p i) (fun m => mbind (set_mem h m s None) (fun m' => Fine (put p h i m')))
  | SetObs i s (Some o) =>
      match nth_error (p_obs p) o with
      | None => Bad
      | Some a => mbind (use p i) (fun m => mbind (set_mem h m s (Some a)) (fun m' => Fine (put p h i m')))
      end
  | Reconf i idx c =>
      mbind (use p i) (fun m => mbind (reconf_mem h m idx c) (fun '(h', m') => Fine (put p h' i m')))
  | Propagate i st start max =>
      mbind (use p i) (fun m => mbind (prop_mem h m st start max) (fun m' => Fine (put p h i m')))
  | Del i =>
      match nth_error (p_ms p) i with
      | None => Bad
      | Some None => Fine p                       (* delete NULL *)
      | Some (Some m) => mbind (del_mem h m) (fun h' => Fine (mkP h' (p_ms p) (p_obs p)))
      end
  | DelObs o =>
      match nth_error (p_obs p) o with
      | None => Bad
      | Some a => mbind (h_free h a) (fun h' => Fine (mkP h' (p_ms p) (p_obs p)))
      end
  end.
Fixpoint run (p : prog) (l : list cmd) : mem prog :=
  match l with
  | [] => Fine p
  | x :: l' => mbind (step p x) (fun p' => run p' l')
  end.

(** ** The Python module.  Objects are numbered in the order in which they are made. *)
Inductive pycall :=
| PyNew                                        (* Machine.__new__(Machine): machine is NULL *)
| PyInit (x : nat) (c : tcfg)                  (* x.__init__(...), the Config is c *)
| PyProp (x : nat) (st : pstate B) (start : N) (max : option Z) (obs : list Z)
| PyReconf (x : nat) (idx : N) (c : tcfg)      (* x.reconfigure(...), the merged Config is c *)
| PyUse (x : nat)                              (* conf, find, allocState, len, str *)
| PyFree (x : nat).                            (* the last reference goes *)

(** PyMachine::machine (modmachine.cpp:12-17) of every object: NULL, or a Machine; a freed
    object keeps its entry. *)
Record pyprog := mkPy { y_heap : heap; y_ms : list (option omach) }.
Definition y_start : pyprog := mkPy (mkH 0 [] []) [].
Definition yuse (p : pyprog) (x : nat) : mem omach :=
  match nth_error (y_ms p) x with Some (Some m) => Fine m | _ => Bad end.
Definition yput (p : pyprog) (h : heap) (x : nat) (m : option omach) : pyprog :=
  mkPy h (update (y_ms p) x m).

(** PyMachine_propagate (modmachine.cpp:134-193): PyStoreObserver and PyScopedObserver are
    local variables; the second is destroyed first, also when an exception passes. *)
Definition pyprop_mem (h : heap) (m : omach) (st : pstate B) (start : N) (pymax : option Z)
    (obs : list Z) : mem (heap * omach) :=
  if (h_ok h (om_addr m) && forallb (h_ok h) (om_els m))%bool then
    let max := match pymax with Some z => py_int z | None => INT_MAX end in
    let '(o, h1) := h_enter h in
    let '(els, r) := py_observe (om_elems m) obs o in
    match r with
    | Throw _ => Fine (h_leave h1 o, om_put m (py_unobserve els))
    | Ok _ =>
        mbind (prop_mem h1 (om_put m els) st start max) (fun m' =>
        Fine (h_leave h1 o, om_put m' (py_unobserve (om_elems m'))))
    end
  else Bad.

Definition pystep (p : pyprog) (c : pycall) : mem pyprog :=
  let h := y_heap p in
  match c with
  | PyNew => Fine (mkPy h (y_ms p ++ [None]))
  (* PyMachine_init (modmachine.cpp:20-34): the pointer is overwritten *)
  | PyInit x c =>
      match nth_error (y_ms p) x with
      | None => Bad
      | Some _ =>
          match new_mem h c with
          | (h', Ok m) => Fine (yput p h' x (Some m))
          | (h', Throw _) => Fine (mkPy h' (y_ms p))
          end
      end
  | PyProp x st start max obs =>
      mbind (yuse p x) (fun m => mbind (pyprop_mem h m st start max obs) (fun '(h', m') =>
      Fine (yput p h' x (Some m'))))
  | PyReconf x idx c =>
      mbind (yuse p x) (fun m => mbind (reconf_mem h m idx c) (fun '(h', m') =>
      Fine (yput p h' x (Some m'))))
  | PyUse x =>
      mbind (yuse p x) (fun m =>
      if (h_ok h (om_addr m) && forallb (h_ok h) (om_els m))%bool then Fine p else Bad)
  (* PyMachine_free (modmachine.cpp:35-47) *)
  | PyFree x =>
      match nth_error (y_ms p) x with
      | None => Bad
      | Some None => Fine p
      | Some (Some m) => mbind (del_mem h m) (fun h' => Fine (mkPy h' (y_ms p)))
      end
  end.
Fixpoint pyrun (p : pyprog) (l : list pycall) : mem pyprog :=
  match l with
  | [] => Fine p
  | x :: l' => mbind (pystep p x) (fun p' => pyrun p' l')
  end.

(** ** The command line tool (cli.cpp:490-583) *)

(** elem->set_observer(ofact->observe(sim, elem)) where observe() makes a new observer
    ([mk]) or returns NULL (cli.cpp:328-332). *)
Definition cli_set (mk : bool) (hm : heap * omach) (s : nat) : mem (heap * omach) :=
  let '(h, m) := hm in
  if mk then let '(a, h') := h_new h in mbind (set_mem h' m s (Some a)) (fun m' => Fine (h', m'))
  else mbind (set_mem h m s None) (fun m' => Fine (h, m')).
(** ... unless elem->observer() is not NULL (cli.cpp:518-521, 537-540, 548-551). *)
Definition cli_attach (mk : bool) (hm : heap * omach) (s : nat) : mem (heap * omach) :=
  match nth_error (om_elems (snd hm)) s with
  | Some e => match el_obs e with None => cli_set mk hm s | Some _ => Fine hm end
  | None => Bad
  end.
Fixpoint cli_attaches (f : heap * omach -> nat -> mem (heap * omach)) (hm : heap * omach) (l : list nat)
  : mem (heap * omach) :=
  match l with
  | [] => Fine hm
  | s :: l' => mbind (f hm s) (fun hm' => cli_attaches f hm' l')
  end.
(** cli.cpp:501-553. *)
Definition cli_select (mk : bool) (a : cliargs) (hm : heap * omach) : mem (heap * omach) :=
  let m := om_m (snd hm) in
  let n := List.length (m_elems m) in
  mbind (if a_all a then cli_attaches (cli_set mk) hm (seq 0 n) else Fine hm) (fun hm =>
  mbind (cli_attaches (cli_attach mk) hm (flat_map (equal_range_type m) (a_types a))) (fun hm =>
  mbind (cli_attaches (cli_attach mk) hm (flat_map (equal_range m) (a_names a))) (fun hm =>
  if (a_last a && negb (Nat.eqb n 0))%bool then cli_attach mk hm (n - 1) else Fine hm))).
(** From the construction of the Machine to its destruction at the end of main, also by
    an exception (cli.cpp:497-587): the memory afterwards.  The state comes from
    sim.allocState(), and is propagated a second time with --timeit. *)
Definition cli_mem (h : heap) (mk : bool) (a : cliargs) (max : Z) (c : tcfg) (st1 st2 : pstate B)
  : mem heap :=
  match new_mem h c with
  | (h', Throw _) => Fine h'
  | (h', Ok m) =>
      mbind (cli_select mk a (h', m)) (fun '(h1, m1) =>
      mbind (prop_mem h1 m1 st1 0 max) (fun m2 =>
      mbind (if a_timeit a then prop_mem h1 m2 st2 0 max else Fine m2) (fun m3 =>
      del_mem h1 m3)))
  end.
End Own.
Arguments cmd : clear implicits.
Arguments pycall : clear implicits.
Arguments prog : clear implicits.
Arguments pyprog : clear implicits.
Arguments omach : clear implicits.
