(** The registry as its users see it: types have names, there are no pointers. *)
From Coq Require Import List String Bool NArith ZArith.
From Verif Require Import SMap Dbl Config_Spec Machine_Model Reg_Model.
Import ListNotations.
Open Scope list_scope.

Section Spec.
Context {D B : Type}.
(** The same programs with the registry and the machines of Machine_Model, where a
    machine keeps the classes it was made with; cleaning forgets the types. *)
Record aprog := mkAP { a_reg : registry D B; a_ms : list (option (machine D B)) }.
Definition astep (p : aprog) (o : op D B) : aprog * reply D B :=
  let '(mkAP r ms) := p in
  match o with
  | OState n b => let '(r', e) := reg_state r n b in (mkAP r' ms, RUnit e)
  | OElem s n k => let '(r', e) := reg_elem r s n k in (mkAP r' ms, RUnit e)
  | OClean => (mkAP [] ms, RUnit (Ok tt))
  | ONew c =>
      match new_machine r c with
      | Ok m => (mkAP r (ms ++ [Some m]), RNew (Ok (m_elems m, m_lookup m, m_types m)))
      | Throw e => (mkAP r (ms ++ [None]), RNew (Throw e))
      end
  | OReconf x idx c =>
      match get_mach ms x with
      | None => (p, RNone)
      | Some m => let '(m', e) := reconfigure m idx c in (mkAP r (put_mach ms x (Some m')), RUnit e)
      end
  | OAlloc x c =>
      match get_mach ms x with
      | None => (p, RNone)
      | Some m => (p, RState (alloc_state m c))
      end
  | OProp x st start max =>
      match get_mach ms x with
      | None => (p, RNone)
      | Some m =>
          match propagate m st start max with
          | None => (p, RNone)
          | Some q => (mkAP r (put_mach ms x (Some (with_elems m (pr_elems q)))), RRun q)
          end
      end
  | ODel x => (mkAP r (put_mach ms x None), RUnit (Ok tt))
  end.
Fixpoint aruns (p : aprog) (l : list (op D B)) : list (reply D B) :=
  match l with
  | [] => []
  | o :: l' => let '(p', a) := astep p o in a :: aruns p' l'
  end.
Fixpoint afinal (p : aprog) (l : list (op D B)) : aprog :=
  match l with [] => p | o :: l' => afinal (fst (astep p o)) l' end.
Definition expected (l : list (op D B)) : list (reply D B) := aruns (mkAP [] []) l.

(** Machine [x] after the program [l], if it was made and not deleted. *)
Definition machine_after (l : list (op D B)) (x : nat) : option (machine D B) := get_mach (a_ms (afinal (mkAP [] []) l)) x.

(** No machine is reconfigured that was made before the last clean-up.  [made]: how
    many constructors were called so far, [old]: how many before the last clean-up. *)
Fixpoint keeps (made old : nat) (l : list (op D B)) : Prop :=
  match l with
  | [] => True
  | ONew _ :: l' => keeps (S made) old l'
  | OClean :: l' => keeps made made l'
  | OReconf x _ _ :: l' => (old <= x)%nat /\ keeps made old l'
  | _ :: l' => keeps made old l'
  end.
Definition is_new (o : op D B) : bool := match o with ONew _ => true | _ => false end.
Definition constructions (l : list (op D B)) : nat := List.length (filter is_new l).
(** Registrations of elements that throw. *)
Fixpoint refused (l : list (op D B)) (rs : list (reply D B)) : nat :=
  match l, rs with
  | OElem _ _ _ :: l', RUnit (Throw _) :: rs' => S (refused l' rs')
  | _ :: l', _ :: rs' => refused l' rs'
  | _, _ => 0
  end.
(** Programs that only register, construct and clean up. *)
Definition setup (o : op D B) : bool :=
  match o with OState _ _ | OElem _ _ _ | OClean | ONew _ => true | _ => false end.
End Spec.
Arguments aprog : clear implicits.
