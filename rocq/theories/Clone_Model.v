(** Model of several state objects side by side: how they are created, copied,
    assigned, changed and destroyed (src/base.cpp:17-37, src/flame/base.h:28-140,
    src/linear.cpp:40-52, 90-102, src/moment.cpp:235-263, python/flame/modstate.cpp).

    Array_Model has the memory of one state; here blocks of several states lie in one
    heap and objects have the addresses of their blocks.  Freed addresses are not
    used again.  Where a std::vector keeps or moves its storage when it is resized is
    not modelled: it keeps its address. *)
From Coq Require Import List String Bool ZArith NArith Arith Reals.
From Verif Require Import SMap Dbl Mat Machine_Model Linear_Model Moment_Model Array_Model.
Import ListNotations.
Open Scope string_scope.
Open Scope nat_scope.
Open Scope list_scope.

(** ** Memory *)
Definition addr := nat.
Record heap := mkHeap { h_mem : addr -> Z -> option cell; h_free : addr }.
Definition blks : list blk := [BNext; BPos; BState; BRef; BReal; BM0; BM1; BT; BEnv0; BRms; BEnv1; BLast].
(** Which block of a new object it is. *)
Definition bnum (b : blk) : nat :=
  match b with BNext => 0 | BPos => 1 | BState => 2 | BRef => 3 | BReal => 4 | BM0 => 5 | BM1 => 6 | BT => 7
  | BEnv0 => 8 | BRms => 9 | BEnv1 => 10 | BLast => 11 end.
(** A state with the Python object that owns it (modstate.cpp:23-29): its class and
    number of charge states, where its blocks are, and the dictionary of names. *)
Record sobj := mkObj { o_kind : kind; o_at : blk -> addr; o_names : smap nat }.
(** The memory the methods of an object see. *)
Definition view (h : heap) (o : sobj) : mem := fun b => h_mem h (o_at o b).
(** Memory after the blocks of an object have been given these contents. *)
Definition put (h : heap) (o : sobj) (m : mem) : heap :=
  mkHeap (fun a => match List.find (fun b => Nat.eqb a (o_at o b)) blks with Some b => m b | None => h_mem h a end) (h_free h).
(** operator new: blocks that nothing else uses. *)
Definition alloc (h : heap) (kd : kind) (d : smap nat) (m : mem) : heap * sobj :=
  let o := mkObj kd (fun b => h_free h + bnum b) d in
  (put (mkHeap (h_mem h) (h_free h + 12)) o m, o).

(** ** Copies *)
(** The members that the copy constructors of the derived classes copy: linear.cpp:40-43,
    90-93, moment.cpp:235-246. *)
Definition copied (kd : kind) : list blk :=
  match kd with
  | KVector | KMatrix => [BState]
  | KMoment _ => [BRef; BReal; BM0; BM1; BT; BEnv0; BRms; BEnv1; BLast]
  end.
(** StateBase::StateBase(const StateBase&, clone_tag), base.cpp:25-30, and these. *)
Definition clone_mem (kd : kind) (m : mem) : mem := fun b =>
  match b with
  | BNext => fun o => if Z.eqb o 0 then Some (CN 0) else None
  | BPos => m BPos
  | _ => if existsb (blk_beq b) (copied kd) then m b else fun _ => None
  end.
(** What assign() of the derived classes assigns: linear.cpp:45-52, 95-102,
    moment.cpp:248-263. *)
Definition assigned (kd : kind) : list blk :=
  match kd with
  | KVector | KMatrix => [BState]
  | KMoment _ => [BRef; BReal; BM0; BM1; BT; BEnv0; BRms; BEnv1; BLast]
  end.
(** StateBase::assign, base.cpp:32-35, and these. *)
Definition assign_mem (kd : kind) (dst src : mem) : mem := fun b =>
  match b with
  | BNext => dst BNext
  | BPos => src BPos
  | _ => if existsb (blk_beq b) (assigned kd) then src b else dst b
  end.
(** The dynamic_cast of linear.cpp:47, 97 and moment.cpp:250. *)
Definition same_class (a b : kind) : bool :=
  match a, b with KVector, KVector | KMatrix, KMatrix | KMoment _, KMoment _ => true | _, _ => false end.

(** ** A program that uses states *)
(** ONew: Machine.allocState(), with whatever contents.  OSet: assignment to an attribute.
    ODel: the last reference goes.  ODo: anything else that is done to a state by calling
    its methods or passing it to a machine. *)
Inductive op :=
| ONew (kd : kind) (m : mem)
| OClone (i : nat)
| OAssign (i j : nat)
| OSet (i : nat) (nm : string) (v : pyval)
| ODel (i : nat)
| ODo (i : nat) (f : kind -> mem -> kind * mem).
Record session := mkS { ss_heap : heap; ss_objs : list (option sobj) }.
Definition nothing : session := mkS (mkHeap (fun _ _ => None) 0) [].
Definition object (s : session) (i : nat) : option sobj :=
  match nth_error (ss_objs s) i with Some (Some o) => Some o | _ => None end.
(** wrapstate(), modstate.cpp:319-366, of a new state. *)
Definition wrapped (ab : abi) (s : session) (kd : kind) (m : mem) : option session :=
  match wrapstate ab kd with
  | Some (Some d) => let '(h, o) := alloc (ss_heap s) kd d m in Some (mkS h (ss_objs s ++ [Some o]))
  | _ => None
  end.
(** One statement.  None: undefined behaviour, or there is no such object.  An exception
    leaves what it has left. *)
Definition step (ab : abi) (s : session) (x : op) : option session :=
  match x with
  | ONew kd m => wrapped ab s kd m
  | OClone i =>
      match object s i with
      | None => None
      | Some o => wrapped ab s (o_kind o) (clone_mem (o_kind o) (view (ss_heap s) o))
      end
  | OAssign i j =>
      match object s i, object s j with
      | Some o, Some o' =>
          if same_class (o_kind o) (o_kind o')
          then Some (mkS (put (ss_heap s) o (assign_mem (o_kind o) (view (ss_heap s) o) (view (ss_heap s) o')))
                         (update (ss_objs s) i (Some (mkObj (o_kind o') (o_at o) (o_names o)))))
          else Some s
      | _, _ => None
      end
  | OSet i nm v =>
      match object s i with
      | None => None
      | Some o =>
          match py_set ab (o_kind o) (o_names o) (view (ss_heap s) o) nm v with
          | (_, PUndef) => None
          | (m, _) => Some (mkS (put (ss_heap s) o m) (ss_objs s))
          end
      end
  | ODel i =>
      match object s i with
      | None => None
      | Some o => Some (mkS (put (ss_heap s) o (fun _ _ => None)) (update (ss_objs s) i None))
      end
  | ODo i f =>
      match object s i with
      | None => None
      | Some o =>
          let '(kd, m) := f (o_kind o) (view (ss_heap s) o) in
          Some (mkS (put (ss_heap s) o m) (update (ss_objs s) i (Some (mkObj kd (o_at o) (o_names o)))))
      end
  end.
Fixpoint steps (ab : abi) (s : session) (l : list op) : option session :=
  match l with [] => Some s | x :: l' => match step ab s x with Some s' => steps ab s' l' | None => None end end.
(** Reading an attribute. *)
Definition attr (ab : abi) (s : session) (i : nat) (nm : string) : pyout :=
  match object s i with
  | None => PUndef
  | Some o => py_get ab (o_kind o) (o_names o) (view (ss_heap s) o) nm
  end.

(** ** Copies of the values that the simulations compute with *)
(** MomentState, moment.cpp:235-246 and base.cpp:25-30. *)
Definition clone_moment (st : pstate mstate) : pstate mstate :=
  let s := st_body st in
  mkSt 0 false (mkMS (ms_pos s) (ms_ref s) (ms_real s) (ms_m0 s) (ms_m1 s) (ms_tm s)
                     (ms_env0 s) (ms_rms s) (ms_env1 s) (ms_phi0 s)).
(** VectorState and MatrixState, linear.cpp:40-43, 90-93. *)
Definition clone_linear {V} (st : pstate (lstate V)) : pstate (lstate V) :=
  let s := st_body st in mkSt 0 false (mkLS (ls_pos s) (ls_val s)).
(** assign(), moment.cpp:248-263, linear.cpp:45-52, 95-102, base.cpp:32-35. *)
Definition assign_moment (dst src : pstate mstate) : pstate mstate :=
  let s := st_body src in
  mkSt (st_next dst) (st_retreat dst)
       (mkMS (ms_pos s) (ms_ref s) (ms_real s) (ms_m0 s) (ms_m1 s) (ms_tm s)
             (ms_env0 s) (ms_rms s) (ms_env1 s) (ms_phi0 s)).
Definition assign_linear {V} (dst src : pstate (lstate V)) : pstate (lstate V) :=
  let s := st_body src in mkSt (st_next dst) (st_retreat dst) (mkLS (ls_pos s) (ls_val s)).
