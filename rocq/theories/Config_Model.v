(** Model of the [Config] class: src/flame/config.h:66-228, src/config.cpp:11-124.

    Objects live in a heap of maps.  A [Config] object is a pair of shared
    pointers (src/flame/config.h:84-85).  A program manipulates Config variables
    ([regs]) and [value_t] variables ([vregs]) through the public operations.
    [shared_ptr::unique()] is the only place where the reference counts are
    observed; its answer is an argument [u] of the step function, constrained by
    [legal] below. *)
From Coq Require Import List String Bool Arith.
From Verif Require Import SMap Dbl.
Import ListNotations.

Definition loc := nat.

(** src/flame/config.h:84-85: [values] (never null) and [implicit_values]
    (may be null). *)
Record handle := mkH { h_vals : loc; h_impl : option loc }.

(** src/flame/config.h:70-75: [boost::variant<double, vector<double>, string,
    vector<Config>>]. *)
Inductive value :=
| VNum (x : double)
| VVec (l : list double)
| VStr (s : string)
| VCfgs (l : list handle).

Inductive vty := TyNum | TyVec | TyStr | TyCfgs.

(** [variant::which()]. *)
Definition vtype (v : value) : vty :=
  match v with VNum _ => TyNum | VVec _ => TyVec | VStr _ => TyStr | VCfgs _ => TyCfgs end.

Definition vty_eqb (a b : vty) : bool :=
  match a, b with
  | TyNum, TyNum | TyVec, TyVec | TyStr, TyStr | TyCfgs, TyCfgs => true
  | _, _ => false
  end.

(** [T()] for the four alternatives, src/flame/config.h detail::buildval
    (lines 33-48); [value_t()] is the first alternative, a zero double. *)
Definition vdefault (t : vty) : value :=
  match t with
  | TyNum => VNum dzero | TyVec => VVec [] | TyStr => VStr EmptyString | TyCfgs => VCfgs []
  end.

Definition heap := list (smap value).

Definition deref (hp : heap) (l : loc) : option (smap value) := nth_error hp l.

(** [new values_t(m)] *)
Definition alloc (hp : heap) (m : smap value) : heap * loc := (hp ++ [m], List.length hp).

Fixpoint update (hp : heap) (l : loc) (m : smap value) : heap :=
  match hp, l with
  | [], _ => []
  | _ :: hp', O => m :: hp'
  | m0 :: hp', S l' => m0 :: update hp' l' m
  end.

Record state := mkS { hp : heap; regs : nat -> option handle; vregs : nat -> value }.

Definition upd {A} (f : nat -> A) (r : nat) (x : A) : nat -> A :=
  fun r' => if Nat.eqb r' r then x else f r'.

Definition init : state := mkS [] (fun _ => None) (fun _ => VNum dzero).

(** The map behind [implicit_values]; the empty map when the pointer is null
    (every use tests the pointer first: src/config.cpp:47,62,95-100,118). *)
Definition impl_map (h : heap) (hd : handle) : option (smap value) :=
  match h_impl hd with
  | None => Some []
  | Some l => deref h l
  end.

(** Config::getAny / tryGetAny, src/config.cpp:39-67.  Outer [None]: dangling
    pointer (cannot happen, see the proofs); inner [None]: not present. *)
Definition lookup (h : heap) (hd : handle) (name : string) : option (option value) :=
  match deref h (h_vals hd) with
  | None => None
  | Some m =>
      match sfind name m with
      | Some v => Some (Some v)
      | None =>
          match impl_map h hd with
          | None => None
          | Some mi => Some (sfind name mi)
          end
      end
  end.

(** Config::_cow, src/config.cpp:31-37.  [u] is the answer of
    [values.unique()]. *)
Definition cow (h : heap) (hd : handle) (u : bool) : option (heap * handle) :=
  if u then Some (h, hd)
  else match deref h (h_vals hd) with
       | None => None
       | Some m => let (h', l) := alloc h m in Some (h', mkH l (h_impl hd))
       end.

(** Config::setAny, src/config.cpp:68-73, and set<T>, src/flame/config.h:174-180. *)
Definition set_any (h : heap) (hd : handle) (u : bool) (name : string) (v : value)
  : option (heap * handle) :=
  match cow h hd u with
  | None => None
  | Some (h1, hd1) =>
      match deref h1 (h_vals hd1) with
      | None => None
      | Some m => Some (update h1 (h_vals hd1) (sset name v m), hd1)
      end
  end.

(** Config::swapAny, src/config.cpp:75-89: exchanges with the entry of the inner
    scope; when absent the entry is first created holding [value_t()]. *)
Definition swap_any (h : heap) (hd : handle) (u : bool) (name : string) (v : value)
  : option (heap * handle * value) :=
  match cow h hd u with
  | None => None
  | Some (h1, hd1) =>
      match deref h1 (h_vals hd1) with
      | None => None
      | Some m =>
          let old := match sfind name m with Some w => w | None => vdefault TyNum end in
          Some (update h1 (h_vals hd1) (sset name v m), hd1, old)
      end
  end.

(** Config::flatten, src/config.cpp:116-124.  Note: no call of _cow(). *)
Definition flatten (h : heap) (hd : handle) : option (heap * handle) :=
  match h_impl hd with
  | None => Some (h, hd)
  | Some li =>
      match deref h (h_vals hd), deref h li with
      | Some m, Some mi => Some (update h (h_vals hd) (smerge m mi), mkH (h_vals hd) None)
      | _, _ => None
      end
  end.

(** Config::push_scope, src/config.cpp:109-114. *)
Definition push_scope (h : heap) (hd : handle) : option (heap * handle) :=
  match flatten h hd with
  | None => None
  | Some (h1, hd1) =>
      let (h2, l) := alloc h1 sempty in
      Some (h2, mkH l (Some (h_vals hd1)))
  end.

(** Config::new_scope, src/config.cpp:91-107.  [Config ret;] allocates first. *)
Definition new_scope (h : heap) (hd : handle) : option (heap * handle) :=
  let (h1, l) := alloc h sempty in
  match deref h (h_vals hd), impl_map h hd with
  | Some m, Some mi =>
      if sis_empty m then Some (h1, mkH l (h_impl hd))
      else if sis_empty mi then Some (h1, mkH l (Some (h_vals hd)))
      else let (h2, l2) := alloc h1 (smerge m mi) in Some (h2, mkH l (Some l2))
  | _, _ => None
  end.

(** Operations of a client program.  Variables are numbered. *)
Inductive op :=
| OpNew (r : nat)                          (* Config r; *)
| OpCopy (r s : nat)                       (* r = s, or Config r(s) *)
| OpDestroy (r : nat)
| OpSwap (r s : nat)                       (* r.swap(s), config.h:202-207 *)
| OpSet (r : nat) (n : string) (v : nat)   (* r.setAny(n,v) / r.set<T>(n,v) *)
| OpSwapT (t : vty) (r : nat) (n : string) (v : nat) (* r.swap<T>(n,v), config.h:191-199 *)
| OpSwapAny (r : nat) (n : string) (v : nat)
| OpNewScope (r s : nat)                   (* r = s.new_scope() *)
| OpPush (r : nat)
| OpFlatten (r : nat)
| OpTryGetAny (v : nat) (r : nat) (n : string)
| OpGetAny (v : nat) (r : nat) (n : string)
| OpGet (t : vty) (v : nat) (r : nat) (n : string)      (* v = r.get<T>(n) *)
| OpGetDef (t : vty) (v : nat) (r : nat) (n : string)   (* v = r.get<T>(n, v) *)
| OpTryGet (t : vty) (v : nat) (r : nat) (n : string)   (* r.tryGet<T>(n, v) *)
| OpKeys (r : nat)                         (* iterate begin()..end(), or show() *)
| OpLit (v : nat) (x : value)              (* v = literal (no Configs inside) *)
| OpPack (v : nat) (rs : list nat)         (* v = vector<Config>{rs...} *)
| OpElem (r : nat) (v : nat) (i : nat)     (* r = v[i] *)
| OpShow (v : nat).                        (* look at v *)

(** What a program sees of a value without descending into nested Configs. *)
Inductive shape := ShNum (x : double) | ShVec (l : list double) | ShStr (s : string) | ShCfgs (n : nat).

Definition vshape (v : value) : shape :=
  match v with
  | VNum x => ShNum x | VVec l => ShVec l | VStr s => ShStr s | VCfgs l => ShCfgs (List.length l)
  end.

Inductive out :=
| OUnit | OKeyError | OBool (b : bool) | OShape (s : shape) | OKeys (l : list (string * shape)).

Definition is_scalar (v : value) : bool := match v with VCfgs _ => false | _ => true end.

Fixpoint get_regs (f : nat -> option handle) (rs : list nat) : option (list handle) :=
  match rs with
  | [] => Some []
  | r :: rs' => match f r, get_regs f rs' with Some h, Some l => Some (h :: l) | _, _ => None end
  end.

(** One operation.  [None]: the program is ill formed at this point (uses an
    unconstructed variable, a wrongly typed literal, an index out of range) or a
    dangling pointer is followed. *)
Definition step (st : state) (o : op) (u : bool) : option (state * out) :=
  let h := hp st in
  match o with
  | OpNew r =>                                   (* config.cpp:11-13 *)
      let (h1, l) := alloc h sempty in
      Some (mkS h1 (upd (regs st) r (Some (mkH l None))) (vregs st), OUnit)
  | OpCopy r s =>                                (* config.cpp:15-28 *)
      match regs st s with
      | None => None
      | Some hd => Some (mkS h (upd (regs st) r (Some hd)) (vregs st), OUnit)
      end
  | OpDestroy r => Some (mkS h (upd (regs st) r None) (vregs st), OUnit)
  | OpSwap r s =>
      match regs st r, regs st s with
      | Some a, Some b => Some (mkS h (upd (upd (regs st) r (Some b)) s (Some a)) (vregs st), OUnit)
      | _, _ => None
      end
  | OpSet r n v =>
      match regs st r with
      | None => None
      | Some hd =>
          match set_any h hd u n (vregs st v) with
          | None => None
          | Some (h1, hd1) => Some (mkS h1 (upd (regs st) r (Some hd1)) (vregs st), OUnit)
          end
      end
  | OpSwapT t r n v =>
      (* temp = T(); val.swap(temp); swapAny(n,temp); the final swap back is
         commented out in the source (config.h:198).  [double] has no member
         swap, so T = double does not compile. *)
      match regs st r with
      | None => None
      | Some hd =>
          if vty_eqb t TyNum || negb (vty_eqb t (vtype (vregs st v))) then None
          else
            let temp := vregs st v in
            let st1 := upd (vregs st) v (vdefault t) in
            match swap_any h hd u n temp with
            | None => None
            | Some (h1, hd1, _) => Some (mkS h1 (upd (regs st) r (Some hd1)) st1, OUnit)
            end
      end
  | OpSwapAny r n v =>
      match regs st r with
      | None => None
      | Some hd =>
          match swap_any h hd u n (vregs st v) with
          | None => None
          | Some (h1, hd1, old) =>
              Some (mkS h1 (upd (regs st) r (Some hd1)) (upd (vregs st) v old), OUnit)
          end
      end
  | OpNewScope r s =>
      match regs st s with
      | None => None
      | Some hd =>
          match new_scope h hd with
          | None => None
          | Some (h1, hd1) => Some (mkS h1 (upd (regs st) r (Some hd1)) (vregs st), OUnit)
          end
      end
  | OpPush r =>
      match regs st r with
      | None => None
      | Some hd =>
          match push_scope h hd with
          | None => None
          | Some (h1, hd1) => Some (mkS h1 (upd (regs st) r (Some hd1)) (vregs st), OUnit)
          end
      end
  | OpFlatten r =>
      match regs st r with
      | None => None
      | Some hd =>
          match flatten h hd with
          | None => None
          | Some (h1, hd1) => Some (mkS h1 (upd (regs st) r (Some hd1)) (vregs st), OUnit)
          end
      end
  | OpTryGetAny v r n =>                          (* config.cpp:39-55 *)
      match regs st r with
      | None => None
      | Some hd =>
          match lookup h hd n with
          | None => None
          | Some (Some x) => Some (mkS h (regs st) (upd (vregs st) v x), OBool true)
          | Some None => Some (st, OBool false)
          end
      end
  | OpGetAny v r n =>                             (* config.cpp:57-67 *)
      match regs st r with
      | None => None
      | Some hd =>
          match lookup h hd n with
          | None => None
          | Some (Some x) => Some (mkS h (regs st) (upd (vregs st) v x), OUnit)
          | Some None => Some (st, OKeyError)
          end
      end
  | OpGet t v r n =>                              (* config.h:121-129 *)
      match regs st r with
      | None => None
      | Some hd =>
          match lookup h hd n with
          | None => None
          | Some (Some x) =>
              if vty_eqb t (vtype x) then Some (mkS h (regs st) (upd (vregs st) v x), OUnit)
              else Some (st, OKeyError)
          | Some None => Some (st, OKeyError)
          end
      end
  | OpGetDef t v r n =>                           (* config.h:139-148 *)
      match regs st r with
      | None => None
      | Some hd =>
          match lookup h hd n with
          | None => None
          | Some (Some x) =>
              if vty_eqb t (vtype x) then Some (mkS h (regs st) (upd (vregs st) v x), OUnit)
              else Some (st, OUnit)
          | Some None => Some (st, OUnit)
          end
      end
  | OpTryGet t v r n =>                           (* config.h:154-166 *)
      match regs st r with
      | None => None
      | Some hd =>
          match lookup h hd n with
          | None => None
          | Some (Some x) =>
              if vty_eqb t (vtype x) then Some (mkS h (regs st) (upd (vregs st) v x), OBool true)
              else Some (st, OBool false)
          | Some None => Some (st, OBool false)
          end
      end
  | OpKeys r =>                                   (* config.h:218-220, config.cpp:187-195 *)
      match regs st r with
      | None => None
      | Some hd =>
          match deref h (h_vals hd) with
          | None => None
          | Some m => Some (st, OKeys (map (fun kv => (fst kv, vshape (snd kv))) m))
          end
      end
  | OpLit v x =>
      if is_scalar x then Some (mkS h (regs st) (upd (vregs st) v x), OUnit) else None
  | OpPack v rs =>
      match get_regs (regs st) rs with
      | None => None
      | Some l => Some (mkS h (regs st) (upd (vregs st) v (VCfgs l)), OUnit)
      end
  | OpElem r v i =>
      match vregs st v with
      | VCfgs l =>
          match nth_error l i with
          | None => None
          | Some hd => Some (mkS h (upd (regs st) r (Some hd)) (vregs st), OUnit)
          end
      | _ => None
      end
  | OpShow v => Some (st, OShape (vshape (vregs st v)))
  end.

(** ** Which answers of [unique()] are possible

    [shared_ptr::unique()] is [use_count()==1].  The use count is at least the
    number of live [Config] objects pointing at the map: variables, Configs
    inside value variables, and Configs stored in maps that are themselves
    alive. *)
Definition mentions (hd : handle) (l : loc) : Prop := h_vals hd = l \/ h_impl hd = Some l.

Definition in_value (hd : handle) (v : value) : Prop :=
  match v with VCfgs l => In hd l | _ => False end.

(** [hd'] is stored in a map that [hd] points to. *)
Definition nested (h : heap) (hd hd' : handle) : Prop :=
  exists l m k v, mentions hd l /\ deref h l = Some m /\ In (k, v) m /\ in_value hd' v.

Inductive live (st : state) : handle -> Prop :=
| live_reg r hd : regs st r = Some hd -> live st hd
| live_vreg v hd : in_value hd (vregs st v) -> live st hd
| live_nested hd hd' : live st hd -> nested (hp st) hd hd' -> live st hd'.

(** No live Config other than variable [r] points at the inner map of [r]. *)
Definition exclusive (st : state) (r : nat) (hd : handle) : Prop :=
  let l := h_vals hd in
  h_impl hd <> Some l /\
  (forall r' hd', r' <> r -> regs st r' = Some hd' -> ~ mentions hd' l) /\
  (forall v hd', in_value hd' (vregs st v) -> ~ mentions hd' l) /\
  (forall hd1 hd', live st hd1 -> nested (hp st) hd1 hd' -> ~ mentions hd' l).

(** Variable on which the operation calls [_cow()]. *)
Definition cow_target (o : op) : option nat :=
  match o with
  | OpSet r _ _ | OpSwapT _ r _ _ | OpSwapAny r _ _ => Some r
  | _ => None
  end.

Definition legal (st : state) (o : op) (u : bool) : Prop :=
  match cow_target o with
  | Some r => u = true -> forall hd, regs st r = Some hd -> exclusive st r hd
  | None => True
  end.

Fixpoint run (st : state) (os : list (op * bool)) : option (list out) :=
  match os with
  | [] => Some []
  | (o, u) :: os' =>
      match step st o u with
      | None => None
      | Some (st', x) => match run st' os' with Some l => Some (x :: l) | None => None end
      end
  end.

(** The state after a run. *)
Fixpoint exec (st : state) (os : list (op * bool)) : option state :=
  match os with
  | [] => Some st
  | (o, u) :: os' => match step st o u with None => None | Some (st', _) => exec st' os' end
  end.

(** Every [unique()] answer along the run is a possible one. *)
Fixpoint legal_run (st : state) (os : list (op * bool)) : Prop :=
  match os with
  | [] => True
  | (o, u) :: os' =>
      legal st o u /\
      match step st o u with None => True | Some (st', _) => legal_run st' os' end
  end.

(** States a program can reach. *)
Inductive reachable : state -> Prop :=
| reach_init : reachable init
| reach_step st o u st' x :
    reachable st -> legal st o u -> step st o u = Some (st', x) -> reachable st'.

(** What a lookup of [n] through variable [r] finds: outer [None] when [r] is not
    constructed (or its storage is gone), inner [None] when the name is absent. *)
Definition see (st : state) (r : nat) (n : string) : option (option value) :=
  match regs st r with
  | Some hd => lookup (hp st) hd n
  | None => None
  end.

(** The entries of the inner scope of [r], as begin()..end() enumerates them
    (src/flame/config.h:218-220). *)
Definition own_entries (st : state) (r : nat) : option (smap value) :=
  match regs st r with
  | Some hd => deref (hp st) (h_vals hd)
  | None => None
  end.

(** ** Sharing discipline used by the iteration property

    Flattening and pushing are applied only to Configs whose inner map is not
    shared, or which have no outer scope. *)
Definition safe (st : state) (o : op) : Prop :=
  match o with
  | OpFlatten r | OpPush r =>
      forall hd, regs st r = Some hd -> h_impl hd = None \/ exclusive st r hd
  | _ => True
  end.

Fixpoint safe_run (st : state) (os : list (op * bool)) : Prop :=
  match os with
  | [] => True
  | (o, u) :: os' =>
      safe st o /\
      match step st o u with None => True | Some (st', _) => safe_run st' os' end
  end.

(** PyMachine_conf, python/flame/modmachine.cpp:59-84, for the Config held in
    variable [e] (the machine's own or that of one element): [Config C;
    C = …->conf(); C.flatten(); return conf2dict(&C);].  conf2dict
    (python/flame/modconfig.cpp:132-149) iterates over the inner scope; [C] is
    destroyed on return. *)
Definition py_conf (e tmp : nat) : list (op * bool) :=
  [(OpNew tmp, false); (OpCopy tmp e, false); (OpFlatten tmp, false);
   (OpKeys tmp, false); (OpDestroy tmp, false)].
