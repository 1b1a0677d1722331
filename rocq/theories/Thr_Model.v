(** Model of the framework's static calls made by several threads: the mutex that guards
    the registry of types and the logger (src/base.cpp:10-14), and the calls that take it
    (src/base.cpp:92-152, 218-265, 298-317).

    What is done with the mutex held is done in several steps: first what is shared is
    read, then it is written.  Without the mutex a write could be lost.

    Simplified: the two messages of Machine's constructor (base.cpp:90 and 157), both
    outside of the lock, are calls of their own; a constructor without sim_type, which
    throws before it touches anything shared (base.cpp:88), and a message below the
    level of detail are nothing at all; log_detail (base.h:518), a plain variable, is not
    changed while threads run; registrations and clean-ups free no memory (that is
    Reg_Model); a logger's log() makes no calls. *)
From Coq Require Import List String Bool NArith ZArith Arith.
From Verif Require Import SMap Dbl Config_Spec Machine_Model.
Import ListNotations.
Open Scope string_scope.
Open Scope list_scope.

Section Thr.
Context {D B : Type}.

(** p_state_infos (base.cpp:216) and p_logger (base.cpp:296), as the number of a Logger;
    number 0 is Logcerr::singleton (base.cpp:292). *)
Record shared := mkSh { sh_reg : registry D B; sh_logger : nat }.

(** Calls of a thread. *)
Inductive call :=
| CState (n : string) (b : tcfg -> res B)    (* registerState, base.cpp:218-230 *)
| CElem (s n : string) (k : class D B)       (* registerElement, base.cpp:232-249 *)
| CClean                                     (* registeryCleanup, base.cpp:251-265 *)
| CMake (c : tcfg)                           (* Machine::Machine, base.cpp:82-158 *)
| CLogger (n : nat)                          (* set_logger, base.cpp:298-307 *)
| CLog (lvl : Z) (msg : string).             (* FLAME_LOG, base.h:537-543, base.cpp:309-317 *)
(** What a call gives: a return, a machine, or a record handed to a logger. *)
Inductive answer :=
| AnsUnit (r : res unit)
| AnsNew (r : res (machine D B))
| AnsMsg (logger : nat) (lvl : Z) (msg : string).

(** What a call does to what is shared, with the mutex held. *)
Definition perform (g : shared) (c : call) : shared * answer :=
  match c with
  | CState n b => let '(r, e) := reg_state (sh_reg g) n b in (mkSh r (sh_logger g), AnsUnit e)
  | CElem s n k => let '(r, e) := reg_elem (sh_reg g) s n k in (mkSh r (sh_logger g), AnsUnit e)
  | CClean => (mkSh [] (sh_logger g), AnsUnit (Ok tt))
  | CMake c => (g, AnsNew (new_machine (sh_reg g) c))
  | CLogger n => (mkSh (sh_reg g) n, AnsUnit (Ok tt))
  | CLog lvl m => (g, AnsMsg (sh_logger g) lvl m)
  end.

(** Steps of a thread.  [IBuild]: the loop over the elements (base.cpp:111-150), which
    runs their constructors.  [IDone]: the call returns; for a message the logger's log()
    is called (base.cpp:316). *)
Inductive instr := ILock | IRead | IBuild (c : tcfg) | IApply (c : call) | IUnlock | IDone.

Variable detail : Z.                                (* log_detail, base.h:518 *)
Variable inner : shared -> tcfg -> list call.       (* calls made by the constructors of elements *)

(** Machine::detail (base.h:520) and c.get("sim_type") (base.cpp:88) *)
Definition takes_lock (c : call) : bool :=
  match c with
  | CLog lvl _ => Z.leb detail lvl
  | CMake c => match get_str c "sim_type" with Ok _ => true | Throw _ => false end
  | _ => true
  end.
(** The steps of a call: scoped_lock G(info_mutex) ... its end, also by an exception
    (base.cpp:92-152, 220, 234, 253, 304, 313). *)
Definition steps (c : call) : list instr :=
  if takes_lock c then
    [ILock; IRead] ++ match c with CMake m => [IBuild m] | _ => [] end ++ [IApply c; IUnlock; IDone]
  else [].
Definition code (l : list call) : list instr := flat_map steps l.

(** A thread: what it has yet to do, what it has read, the answer of its last call if it
    has not returned. *)
Record thread := mkT { t_code : list instr; t_seen : shared; t_pend : option answer }.
(** All threads, the owner of info_mutex (base.cpp:13), and the answers given so far,
    with the number of the thread. *)
Record sys := mkY { y_sh : shared; y_lock : option nat; y_th : list thread; y_out : list (nat * answer) }.

Definition put (y : sys) (i : nat) (t : thread) : list thread := update (y_th y) i t.
(** The next step of thread [i]; [None] if it has none or waits for the mutex.  The
    mutex is not recursive (boost::mutex, base.cpp:12): its owner waits too. *)
Definition tstep (y : sys) (i : nat) : option sys :=
  match nth_error (y_th y) i with
  | None => None
  | Some t =>
      match t_code t with
      | [] => None
      | ILock :: k =>
          match y_lock y with
          | None => Some (mkY (y_sh y) (Some i) (put y i (mkT k (t_seen t) (t_pend t))) (y_out y))
          | Some _ => None
          end
      | IRead :: k => Some (mkY (y_sh y) (y_lock y) (put y i (mkT k (y_sh y) (t_pend t))) (y_out y))
      | IBuild c :: k => Some (mkY (y_sh y) (y_lock y) (put y i (mkT (code (inner (t_seen t) c) ++ k) (t_seen t) (t_pend t))) (y_out y))
      | IApply c :: k =>
          let '(g, a) := perform (t_seen t) c in
          Some (mkY g (y_lock y) (put y i (mkT k (t_seen t) (Some a))) (y_out y))
      | IUnlock :: k => Some (mkY (y_sh y) None (put y i (mkT k (t_seen t) (t_pend t))) (y_out y))
      | IDone :: k =>
          Some (mkY (y_sh y) (y_lock y) (put y i (mkT k (t_seen t) None))
                    (y_out y ++ match t_pend t with Some a => [(i, a)] | None => [] end))
      end
  end.
(** Threads take turns in any order; one that cannot go on loses its turn. *)
Definition turn (y : sys) (i : nat) : sys := match tstep y i with Some y' => y' | None => y end.
Definition turns (y : sys) (l : list nat) : sys := fold_left turn l y.
Definition start (g : shared) (ps : list (list call)) : sys :=
  mkY g None (map (fun p => mkT (code p) g None) ps) [].
End Thr.
Arguments shared : clear implicits.
Arguments call : clear implicits.
Arguments answer : clear implicits.
Arguments instr : clear implicits.
Arguments thread : clear implicits.
Arguments sys : clear implicits.
