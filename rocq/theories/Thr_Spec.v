(** Calls made one after another, by whichever thread. *)
From Coq Require Import List String Bool ZArith Arith.
From Verif Require Import SMap Dbl Config_Spec Machine_Model Reg_Model Reg_Spec Thr_Model.
Import ListNotations.
Open Scope list_scope.

Section Spec.
Context {D B : Type}.
(** What is shared after the calls [l], each with the number of its thread, and what
    each of them gave. *)
Fixpoint after (g : shared D B) (l : list (nat * call D B)) : shared D B :=
  match l with [] => g | (_, c) :: l' => after (fst (perform g c)) l' end.
Fixpoint gave (g : shared D B) (l : list (nat * call D B)) : list (nat * answer D B) :=
  match l with [] => [] | (i, c) :: l' => (i, snd (perform g c)) :: gave (fst (perform g c)) l' end.
(** The logger set last. *)
Fixpoint logger_after (n : nat) (l : list (nat * call D B)) : nat :=
  match l with [] => n | (_, CLogger m) :: l' => logger_after m l' | _ :: l' => logger_after n l' end.
(** The types known after the calls: those that C90 says a program of one thread knows. *)
Definition as_op (c : call D B) : list (op D B) :=
  match c with
  | CState n b => [OState n b]
  | CElem s n k => [OElem s n k]
  | CClean => [OClean]
  | CMake m => [ONew m]
  | _ => []
  end.
Definition types_after (l : list (nat * call D B)) : registry D B :=
  a_reg (afinal (mkAP [] []) (flat_map (fun p => as_op (snd p)) l)).
(** What the call [c] gives after the calls [l], if there were no types and the logger
    [n] before them. *)
Definition due (n : nat) (l : list (nat * call D B)) (c : call D B) : answer D B :=
  match c with
  | CState s b => AnsUnit (snd (reg_state (types_after l) s b))
  | CElem s e k => AnsUnit (snd (reg_elem (types_after l) s e k))
  | CMake m => AnsNew (new_machine (types_after l) m)
  | CLog lvl msg => AnsMsg (logger_after n l) lvl msg
  | _ => AnsUnit (Ok tt)
  end.
(** Those of thread [i]. *)
Definition mine {A} (i : nat) (l : list (nat * A)) : list A := map snd (filter (fun p => Nat.eqb (fst p) i) l).
(** The calls that do something: messages below the level of detail are not made, and a
    constructor without sim_type throws at once. *)
Definition real_call (detail : Z) (c : call D B) : Prop :=
  match c with
  | CLog lvl _ => (detail <= lvl)%Z
  | CMake m => exists s, get_str m "sim_type"%string = Ok s
  | _ => True
  end.
(** No constructor of an element makes a call into the framework. *)
Definition quiet (detail : Z) (inner : shared D B -> tcfg -> list (call D B)) : Prop :=
  forall g c, Forall (fun x => ~ real_call detail x) (inner g c).
(** [l'] is [l] without the calls that do nothing. *)
Inductive kept (detail : Z) : list (call D B) -> list (call D B) -> Prop :=
| kept_nil : kept detail [] []
| kept_real c l l' : real_call detail c -> kept detail l l' -> kept detail (c :: l) (c :: l')
| kept_not c l l' : ~ real_call detail c -> kept detail l l' -> kept detail (c :: l) l'.
(** No thread has anything left to do. *)
Definition finished (y : sys D B) : Prop := Forall (fun t => t_code t = []) (y_th y).
(** Thread [i] waits for the mutex. *)
Definition waits (y : sys D B) (i : nat) : Prop :=
  exists t k, nth_error (y_th y) i = Some t /\ t_code t = ILock :: k /\ y_lock y <> None.
End Spec.
