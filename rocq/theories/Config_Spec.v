(** What a user of [Config] may assume: two value-semantics machines.

    [fstep] ("flat"): every Config variable holds a private tree whose nodes are
    plain maps from names to values.  Creating a scope copies the map; push_scope
    and flatten do nothing.  This is what lookups should see.

    [tstep] ("two scopes"): every Config variable holds a private tree whose
    nodes are pairs (own map, outer map).  This is what iteration and swapAny
    should see.

    Neither mentions heaps, pointers or reference counts. *)
From Coq Require Import List String Bool Arith.
From Verif Require Import SMap Dbl Config_Model.
Import ListNotations.

(** ** Flat trees *)
Inductive fval :=
| FNum (x : double) | FVec (l : list double) | FStr (s : string) | FCfgs (l : list fcfg)
with fcfg := FCfg (m : smap fval).

Definition fmap (c : fcfg) : smap fval := match c with FCfg m => m end.
Definition ffind (n : string) (c : fcfg) : option fval := sfind n (fmap c).
Definition fset (n : string) (v : fval) (c : fcfg) : fcfg := FCfg (sset n v (fmap c)).

Definition ftype (v : fval) : vty :=
  match v with FNum _ => TyNum | FVec _ => TyVec | FStr _ => TyStr | FCfgs _ => TyCfgs end.
Definition fdefault (t : vty) : fval :=
  match t with TyNum => FNum dzero | TyVec => FVec [] | TyStr => FStr EmptyString | TyCfgs => FCfgs [] end.
Definition fshape (v : fval) : shape :=
  match v with FNum x => ShNum x | FVec l => ShVec l | FStr s => ShStr s | FCfgs l => ShCfgs (List.length l) end.
(** Program literals. *)
Definition flit (v : value) : option fval :=
  match v with VNum x => Some (FNum x) | VVec l => Some (FVec l) | VStr s => Some (FStr s) | VCfgs _ => None end.

Record fstate := mkF { fregs : nat -> option fcfg; fvregs : nat -> fval }.
Definition finit : fstate := mkF (fun _ => None) (fun _ => FNum dzero).

Fixpoint all_some {A} (l : list (option A)) : option (list A) :=
  match l with
  | [] => Some []
  | x :: l' => match x, all_some l' with Some a, Some r => Some (a :: r) | _, _ => None end
  end.

(** Typed or untyped read of [n] into value variable [v]. *)
Definition fread (st : fstate) (t : option vty) (v r : nat) (n : string) (hit miss : out)
  : option (fstate * out) :=
  match fregs st r with
  | None => None
  | Some c =>
      match ffind n c with
      | Some x =>
          if match t with None => true | Some t => vty_eqb t (ftype x) end
          then Some (mkF (fregs st) (upd (fvregs st) v x), hit)
          else Some (st, miss)
      | None => Some (st, miss)
      end
  end.

Definition fstep (st : fstate) (o : op) : option (fstate * out) :=
  let setr r c := Some (mkF (upd (fregs st) r (Some c)) (fvregs st), OUnit) in
  match o with
  | OpNew r => setr r (FCfg [])
  | OpCopy r s => match fregs st s with Some c => setr r c | None => None end
  | OpDestroy r => Some (mkF (upd (fregs st) r None) (fvregs st), OUnit)
  | OpSwap r s =>
      match fregs st r, fregs st s with
      | Some a, Some b => Some (mkF (upd (upd (fregs st) r (Some b)) s (Some a)) (fvregs st), OUnit)
      | _, _ => None
      end
  | OpSet r n v => match fregs st r with Some c => setr r (fset n (fvregs st v) c) | None => None end
  | OpSwapT t r n v =>
      match fregs st r with
      | Some c =>
          if vty_eqb t TyNum || negb (vty_eqb t (ftype (fvregs st v))) then None
          else Some (mkF (upd (fregs st) r (Some (fset n (fvregs st v) c)))
                         (upd (fvregs st) v (fdefault t)), OUnit)
      | None => None
      end
  | OpSwapAny _ _ _ => None
  | OpNewScope r s => match fregs st s with Some c => setr r c | None => None end
  | OpPush r | OpFlatten r => match fregs st r with Some _ => Some (st, OUnit) | None => None end
  | OpTryGetAny v r n => fread st None v r n (OBool true) (OBool false)
  | OpGetAny v r n => fread st None v r n OUnit OKeyError
  | OpGet t v r n => fread st (Some t) v r n OUnit OKeyError
  | OpGetDef t v r n => fread st (Some t) v r n OUnit OUnit
  | OpTryGet t v r n => fread st (Some t) v r n (OBool true) (OBool false)
  | OpKeys _ => None
  | OpLit v x => match flit x with Some y => Some (mkF (fregs st) (upd (fvregs st) v y), OUnit) | None => None end
  | OpPack v rs =>
      match all_some (map (fregs st) rs) with
      | Some l => Some (mkF (fregs st) (upd (fvregs st) v (FCfgs l)), OUnit)
      | None => None
      end
  | OpElem r v i =>
      match fvregs st v with
      | FCfgs l => match nth_error l i with Some c => setr r c | None => None end
      | _ => None
      end
  | OpShow v => Some (st, OShape (fshape (fvregs st v)))
  end.

Fixpoint frun (st : fstate) (os : list op) : option (list out) :=
  match os with
  | [] => Some []
  | o :: os' =>
      match fstep st o with
      | None => None
      | Some (st', x) => match frun st' os' with Some l => Some (x :: l) | None => None end
      end
  end.

(** Operations that only look values up (everything except iterating over the
    inner scope and the inner-scope exchange swapAny). *)
Definition lookup_only (o : op) : bool :=
  match o with OpKeys _ | OpSwapAny _ _ _ => false | _ => true end.

(** ** Trees with an inner and an outer scope *)
Inductive tval :=
| TNum (x : double) | TVec (l : list double) | TStr (s : string) | TCfgs (l : list tcfg)
with tcfg := TCfg (own outer : smap tval).

Definition town (c : tcfg) := match c with TCfg a _ => a end.
Definition touter (c : tcfg) := match c with TCfg _ b => b end.
Definition tfind (n : string) (c : tcfg) : option tval :=
  match sfind n (town c) with Some v => Some v | None => sfind n (touter c) end.
Definition ttype (v : tval) : vty :=
  match v with TNum _ => TyNum | TVec _ => TyVec | TStr _ => TyStr | TCfgs _ => TyCfgs end.
Definition tdefault (t : vty) : tval :=
  match t with TyNum => TNum dzero | TyVec => TVec [] | TyStr => TStr EmptyString | TyCfgs => TCfgs [] end.
Definition tshape (v : tval) : shape :=
  match v with TNum x => ShNum x | TVec l => ShVec l | TStr s => ShStr s | TCfgs l => ShCfgs (List.length l) end.
Definition tlit (v : value) : option tval :=
  match v with VNum x => Some (TNum x) | VVec l => Some (TVec l) | VStr s => Some (TStr s) | VCfgs _ => None end.

Record tstate := mkT { tregs : nat -> option tcfg; tvregs : nat -> tval }.
Definition tinit : tstate := mkT (fun _ => None) (fun _ => TNum dzero).

Definition tread (st : tstate) (t : option vty) (v r : nat) (n : string) (hit miss : out)
  : option (tstate * out) :=
  match tregs st r with
  | None => None
  | Some c =>
      match tfind n c with
      | Some x =>
          if match t with None => true | Some t => vty_eqb t (ttype x) end
          then Some (mkT (tregs st) (upd (tvregs st) v x), hit)
          else Some (st, miss)
      | None => Some (st, miss)
      end
  end.

Definition tset (n : string) (v : tval) (c : tcfg) : tcfg := TCfg (sset n v (town c)) (touter c).

Definition tstep (st : tstate) (o : op) : option (tstate * out) :=
  let setr r c := Some (mkT (upd (tregs st) r (Some c)) (tvregs st), OUnit) in
  match o with
  | OpNew r => setr r (TCfg [] [])
  | OpCopy r s => match tregs st s with Some c => setr r c | None => None end
  | OpDestroy r => Some (mkT (upd (tregs st) r None) (tvregs st), OUnit)
  | OpSwap r s =>
      match tregs st r, tregs st s with
      | Some a, Some b => Some (mkT (upd (upd (tregs st) r (Some b)) s (Some a)) (tvregs st), OUnit)
      | _, _ => None
      end
  | OpSet r n v => match tregs st r with Some c => setr r (tset n (tvregs st v) c) | None => None end
  | OpSwapT t r n v =>
      match tregs st r with
      | Some c =>
          if vty_eqb t TyNum || negb (vty_eqb t (ttype (tvregs st v))) then None
          else Some (mkT (upd (tregs st) r (Some (tset n (tvregs st v) c)))
                         (upd (tvregs st) v (tdefault t)), OUnit)
      | None => None
      end
  | OpSwapAny r n v =>
      match tregs st r with
      | Some c =>
          Some (mkT (upd (tregs st) r (Some (tset n (tvregs st v) c)))
                    (upd (tvregs st) v (match sfind n (town c) with Some w => w | None => tdefault TyNum end)), OUnit)
      | None => None
      end
  | OpNewScope r s =>
      match tregs st s with Some c => setr r (TCfg [] (smerge (town c) (touter c))) | None => None end
  | OpPush r =>
      match tregs st r with Some c => setr r (TCfg [] (smerge (town c) (touter c))) | None => None end
  | OpFlatten r =>
      match tregs st r with Some c => setr r (TCfg (smerge (town c) (touter c)) []) | None => None end
  | OpTryGetAny v r n => tread st None v r n (OBool true) (OBool false)
  | OpGetAny v r n => tread st None v r n OUnit OKeyError
  | OpGet t v r n => tread st (Some t) v r n OUnit OKeyError
  | OpGetDef t v r n => tread st (Some t) v r n OUnit OUnit
  | OpTryGet t v r n => tread st (Some t) v r n (OBool true) (OBool false)
  | OpKeys r =>
      match tregs st r with
      | Some c => Some (st, OKeys (map (fun kv => (fst kv, tshape (snd kv))) (town c)))
      | None => None
      end
  | OpLit v x => match tlit x with Some y => Some (mkT (tregs st) (upd (tvregs st) v y), OUnit) | None => None end
  | OpPack v rs =>
      match all_some (map (tregs st) rs) with
      | Some l => Some (mkT (tregs st) (upd (tvregs st) v (TCfgs l)), OUnit)
      | None => None
      end
  | OpElem r v i =>
      match tvregs st v with
      | TCfgs l => match nth_error l i with Some c => setr r c | None => None end
      | _ => None
      end
  | OpShow v => Some (st, OShape (tshape (tvregs st v)))
  end.

Fixpoint trun (st : tstate) (os : list op) : option (list out) :=
  match os with
  | [] => Some []
  | o :: os' =>
      match tstep st o with
      | None => None
      | Some (st', x) => match trun st' os' with Some l => Some (x :: l) | None => None end
      end
  end.
