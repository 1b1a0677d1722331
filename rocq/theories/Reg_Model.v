(** Model of the registry of types over the life of a program: the objects that build
    elements, the pointers to them in the registry and in Machines, and
    Machine::registeryCleanup() (src/base.cpp:81-158, 193-265, src/flame/base.h:398-493).

    Machine_Model has the registry as a map from names to classes.  Here it is, as in
    the code, a map from names to pointers; a Machine has a copy of the pointers, not
    of what they point to.

    Builders are addresses.  No address is given out twice, so that an access to a
    deleted one is always seen.

    Simplified: one thread (the mutex of base.cpp:12 is left out); the pointers to the
    functions that build states are not to objects and are kept as the functions
    themselves; the memory of machines and elements is that of Own_Model. *)
From Coq Require Import List String Bool NArith ZArith Arith.
From Verif Require Import SMap Dbl Config_Spec Machine_Model.
Import ListNotations.
Open Scope string_scope.
Open Scope list_scope.

(** [Wild]: undefined behaviour, access to or delete of an object that is not there. *)
Inductive mem (A : Type) := Fine (a : A) | Wild.
Arguments Fine {A}. Arguments Wild {A}.
Definition mbind {A C} (x : mem A) (f : A -> mem C) : mem C :=
  match x with Fine a => f a | Wild => Wild end.

Section Reg.
Context {D B : Type}.

(** Objects of the classes element_builder_impl<Element> (base.h:404-423) made by new
    and not yet deleted. *)
Record bheap := mkBH { b_next : nat; b_live : list (nat * class D B) }.
Definition b_new (h : bheap) (k : class D B) : nat * bheap :=
  (b_next h, mkBH (S (b_next h)) ((b_next h, k) :: b_live h)).
Fixpoint b_find (l : list (nat * class D B)) (a : nat) : option (class D B) :=
  match l with
  | [] => None
  | (x, k) :: l' => if Nat.eqb x a then Some k else b_find l' a
  end.
(** A virtual call through the pointer needs the object. *)
Definition deref (h : bheap) (a : nat) : mem (class D B) :=
  match b_find (b_live h) a with Some k => Fine k | None => Wild end.
(** delete *)
Definition b_free (h : bheap) (a : nat) : mem bheap :=
  match b_find (b_live h) a with
  | Some _ => Fine (mkBH (b_next h) (filter (fun p => negb (Nat.eqb (fst p) a)) (b_live h)))
  | None => Wild
  end.
Fixpoint b_frees (h : bheap) (l : list nat) : mem bheap :=
  match l with
  | [] => Fine h
  | a :: l' => mbind (b_free h a) (fun h' => b_frees h' l')
  end.

(** state_info (base.h:425-430); its name is the key in the registry. *)
Record rinfo := mkRI { ri_build : tcfg -> res B; ri_elems : smap nat }.
(** p_state_infos (base.h:434-435) *)
Definition rreg := smap rinfo.

(** p_registerState (base.cpp:218-230) *)
Definition state_reg (r : rreg) (n : string) (b : tcfg -> res B) : rreg * res unit :=
  match sfind n r with
  | Some _ => (r, Throw LogicError)
  | None => (sset n (mkRI b []) r, Ok tt)
  end.
(** registerElement (base.h:477-481) makes the builder first; p_registerElement
    (base.cpp:232-249) does not delete it when it throws. *)
Definition elem_reg (h : bheap) (r : rreg) (s n : string) (k : class D B) : bheap * rreg * res unit :=
  let '(a, h) := b_new h k in
  match sfind s r with
  | None => (h, r, Throw LogicError)
  | Some i =>
      match sfind n (ri_elems i) with
      | Some _ => (h, r, Throw LogicError)
      | None => (h, sset s (mkRI (ri_build i) (sset n a (ri_elems i))) r, Ok tt)
      end
  end.
(** registeryCleanup (base.cpp:251-265) *)
Definition addrs (r : rreg) : list nat := flat_map (fun p => map snd (ri_elems (snd p))) r.
Definition cleanup (h : bheap) (r : rreg) : mem bheap := b_frees h (addrs r).

(** Machine (base.h:389-432): [rm_info] is a copy of the state_info (base.cpp:101). *)
Record rmach := mkRM {
  rm_elems : list (elem D B); rm_lookup : lookup; rm_types : lookup;
  rm_simtype : string; rm_conf : tcfg; rm_info : rinfo }.

(** The loop of Machine::Machine (base.cpp:111-150), as in Machine_Model.build_loop. *)
Fixpoint loop_reg (h : bheap) (i : rinfo) (es : list tcfg) (idx : nat) (result : list (elem D B)) (ll lt : lookup)
    : mem (res (list (elem D B) * lookup * lookup)) :=
  match es with
  | [] => Fine (Ok (result, ll, lt))
  | ec :: es' =>
      match get_str ec "type" with
      | Throw e => Fine (Throw e)
      | Ok etype =>
          match sfind etype (ri_elems i) with
          | None => Fine (Throw KeyError)
          | Some a =>
              mbind (deref h a) (fun k =>
              match build k ec with
              | Throw KeyError => Fine (Throw KeyError)
              | Throw Abort => Fine (Throw Abort)
              | Throw BadIndex => Fine (Throw BadIndex)
              | Throw NotFinite => Fine (Throw NotFinite)
              | Throw _ => Fine (Throw RuntimeError)
              | Ok e =>
                  if String.eqb (el_tname e) etype then
                    let e := with_index e (N.of_nat idx) in
                    loop_reg h i es' (S idx) (result ++ [e])
                             (linsert (el_name e, el_index e) idx ll) (linsert (etype, el_index e) idx lt)
                  else Fine (Throw LogicError)
              end)
          end
      end
  end.
(** Machine::Machine (base.cpp:81-158) *)
Definition mach_reg (h : bheap) (r : rreg) (c : tcfg) : mem (res rmach) :=
  match get_str c "sim_type" with
  | Throw e => Fine (Throw e)
  | Ok t =>
      match sfind t r with
      | None => Fine (Throw KeyError)
      | Some i =>
          match get_cfgs c "elements" with
          | Throw e => Fine (Throw e)
          | Ok es =>
              mbind (loop_reg h i es 0 [] [] []) (fun x =>
              Fine (rbind x (fun '(els, ll, lt) => Ok (mkRM els ll lt t c i))))
          end
      end
  end.
(** The machine with other elements (p_elements, base.h:391). *)
Definition rm_put (m : rmach) (els : list (elem D B)) : rmach :=
  mkRM els (rm_lookup m) (rm_types m) (rm_simtype m) (rm_conf m) (rm_info m).
(** Machine::reconfigure (base.cpp:200-214) *)
Definition reconf_reg (h : bheap) (m : rmach) (idx : N) (c : tcfg) : mem (rmach * res unit) :=
  match slot (rm_elems m) idx with
  | None => Fine (m, Throw InvalidArgument)
  | Some o =>
      match get_str c "type" with
      | Throw e => Fine (m, Throw e)
      | Ok etype =>
          match sfind etype (ri_elems (rm_info m)) with
          | None => Fine (m, Throw KeyError)
          | Some a =>
              mbind (deref h a) (fun k =>
              match rebuild k o c idx with
              | Throw e => Fine (m, Throw e)
              | Ok e => Fine (rm_put m (update (rm_elems m) (N.to_nat idx) e), Ok tt)
              end)
          end
      end
  end.
(** Machine::allocState (base.cpp:193-198) *)
Definition alloc_reg (m : rmach) (c : tcfg) : res (pstate B) :=
  rbind (ri_build (rm_info m) c) (fun b => Ok (mkSt 0 false b)).
(** Machine::propagate (base.cpp:167-192) uses no builder. *)
Definition prop_reg (m : rmach) (st : pstate B) (start : N) (max : Z) : option (prun D B) :=
  propagate (mkM (rm_elems m) (rm_lookup m) (rm_types m) (rm_simtype m) (rm_conf m) (mkSI (ri_build (rm_info m)) [])) st start max.

(** ** Programs *)

(** What a program does with the library, in this order.  Machines are numbered in the
    order in which their constructors are called, those that throw included. *)
Inductive op :=
| OState (n : string) (b : tcfg -> res B)          (* registerState<S>(n), base.h:460-464 *)
| OElem (s n : string) (k : class D B)             (* registerElement<E>(s, n), base.h:477-481 *)
| OClean                                           (* registeryCleanup() *)
| ONew (c : tcfg)                                  (* new Machine(c) *)
| OReconf (x : nat) (idx : N) (c : tcfg)           (* machine x: reconfigure(idx, c) *)
| OAlloc (x : nat) (c : tcfg)                      (* machine x: allocState(c) *)
| OProp (x : nat) (st : pstate B) (start : N) (max : Z) (* machine x: propagate *)
| ODel (x : nat).                                  (* delete machine x *)
(** What it gets back.  [RNone]: there is no such machine, or propagate's INT_MIN; the
    call is left out. *)
Inductive reply :=
| RUnit (r : res unit)
| RNew (r : res (list (elem D B) * lookup * lookup))
| RState (r : res (pstate B))
| RRun (p : prun D B)
| RNone.
(** A program's memory: builders, p_state_infos (base.cpp:216) and its machines. *)
Record rprog := mkRP { g_heap : bheap; g_reg : rreg; g_ms : list (option rmach) }.
Definition prog0 : rprog := mkRP (mkBH 0 []) [] [].
Definition put_mach {A} (l : list (option A)) (x : nat) (m : option A) : list (option A) := update l x m.
Definition get_mach {A} (l : list (option A)) (x : nat) : option A :=
  match nth_error l x with Some (Some m) => Some m | _ => None end.

(** One call (base.cpp:81-265). *)
Definition step (p : rprog) (o : op) : mem (rprog * reply) :=
  let '(mkRP h r ms) := p in
  match o with
  | OState n b => let '(r', e) := state_reg r n b in Fine (mkRP h r' ms, RUnit e)
  | OElem s n k => let '(h', r', e) := elem_reg h r s n k in Fine (mkRP h' r' ms, RUnit e)
  | OClean => mbind (cleanup h r) (fun h' => Fine (mkRP h' [] ms, RUnit (Ok tt)))
  | ONew c =>
      mbind (mach_reg h r c) (fun x =>
      Fine (match x with
            | Ok m => (mkRP h r (ms ++ [Some m]), RNew (Ok (rm_elems m, rm_lookup m, rm_types m)))
            | Throw e => (mkRP h r (ms ++ [None]), RNew (Throw e))
            end))
  | OReconf x idx c =>
      match get_mach ms x with
      | None => Fine (p, RNone)
      | Some m => mbind (reconf_reg h m idx c) (fun '(m', e) => Fine (mkRP h r (put_mach ms x (Some m')), RUnit e))
      end
  | OAlloc x c =>
      match get_mach ms x with
      | None => Fine (p, RNone)
      | Some m => Fine (p, RState (alloc_reg m c))
      end
  | OProp x st start max =>
      match get_mach ms x with
      | None => Fine (p, RNone)
      | Some m =>
          match prop_reg m st start max with
          | None => Fine (p, RNone)
          | Some q => Fine (mkRP h r (put_mach ms x (Some (rm_put m (pr_elems q)))), RRun q)
          end
      end
  | ODel x => Fine (mkRP h r (put_mach ms x None), RUnit (Ok tt))
  end.
(** A program that goes on after exceptions, as Python's do (modmachine.cpp). *)
Fixpoint run (p : rprog) (l : list op) : mem (rprog * list reply) :=
  match l with
  | [] => Fine (p, [])
  | o :: l' => mbind (step p o) (fun '(p', a) => mbind (run p' l') (fun '(p2, rs) => Fine (p2, a :: rs)))
  end.
End Reg.
Arguments bheap : clear implicits.
Arguments rinfo : clear implicits.
Arguments rreg : clear implicits.
Arguments rmach : clear implicits.
Arguments op : clear implicits.
Arguments reply : clear implicits.
Arguments rprog : clear implicits.
