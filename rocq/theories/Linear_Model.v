(** Model of the simulation types Vector and TransferMatrix (src/linear.cpp,
    src/flame/linear.h, src/flame/state/vector.h, src/flame/state/matrix.h) in
    exact arithmetic: doubles held by states and elements are real numbers here;
    [num] says which real number a double found in a Config stands for (any
    function will do).  Division by zero and overflow of the floating point
    formulas are therefore outside the model.  Left out: show(), clone() and
    getArray() (treated with the array access model). *)
From Coq Require Import Reals List String Bool NArith ZArith.
From Verif Require Import SMap Dbl Config_Spec Mat Machine_Model.
Import ListNotations.
Open Scope R_scope.
Open Scope string_scope.

(** maxsize, vector.h:14, matrix.h:14. *)
Definition lsize : nat := 6.
(** Phase space coordinates (vector.h:15-17). *)
Definition PS_X := 0%nat. Definition PS_PX := 1%nat. Definition PS_Y := 2%nat.
Definition PS_PY := 3%nat. Definition PS_S := 4%nat. Definition PS_PS := 5%nat.

(** linear.cpp:18. *)
Definition MtoMM : R := 1000.
Definition sqr (x : R) : R := x * x.

(** Get2by2Matrix, linear.cpp:119-166: the entries (i,i)=(i+1,i+1), (i,i+1) and
    (i+1,i). *)
Definition plane_cs (L K : R) : R :=
  if Rlt_dec 0 K then cos (sqrt K * L) else cosh (sqrt (- K) * L).
Definition plane_sn (L K : R) : R :=
  if Rlt_dec 0 K then
    (if Req_EM_T (sqrt K) 0 then L else sin (sqrt K * L) / sqrt K)
  else
    (if Req_EM_T (sqrt (- K)) 0 then L else sinh (sqrt (- K) * L) / sqrt (- K)).
Definition plane_sp (L K : R) : R :=
  if Rlt_dec 0 K then
    (if Req_EM_T (sqrt K) 0 then 0 else - sqrt K * sin (sqrt K * L))
  else
    (if Req_EM_T (sqrt (- K)) 0 then 0 else sqrt (- K) * sinh (sqrt (- K) * L)).
Definition get2by2 (L K : R) (ind : nat) (M : mat) : mat :=
  mset (mset (mset (mset M ind ind (plane_cs L K)) (S ind) (S ind) (plane_cs L K))
             ind (S ind) (plane_sn L K)) (S ind) ind (plane_sp L K).

(** ElementDrift, linear.cpp:225-235; [l] is the length in m. *)
Definition drift_matrix (l : R) : mat :=
  let L := l * MtoMM in
  mset (mset mid PS_X PS_PX L) PS_Y PS_PY L.
(** ElementSBend, linear.cpp:248-266. *)
Definition sbend_matrix (l phi k : R) : mat :=
  let L := l * MtoMM in
  let rho := L / phi in
  let K := k / sqr MtoMM in
  let Kx := K + 1 / sqr rho in
  let Ky := - K in
  get2by2 L Ky PS_Y (get2by2 L Kx PS_X mid).
(** ElementQuad, linear.cpp:279-293. *)
Definition quad_matrix (l k : R) : mat :=
  let L := l * MtoMM in
  let K := k / sqr MtoMM in
  get2by2 L (- K) PS_Y (get2by2 L K PS_X mid).
(** ElementSolenoid, linear.cpp:306-352. *)
Definition solenoid_matrix (l k : R) : mat :=
  let L := l * MtoMM in
  let K := k / MtoMM in
  let C := cos (K * L) in
  let S := sin (K * L) in
  let z := Req_EM_T K 0 in
  let m := mset mid PS_PY PS_PY (sqr C) in
  let m := mset m PS_Y PS_Y (sqr C) in
  let m := mset m PS_PX PS_PX (sqr C) in
  let m := mset m PS_X PS_X (sqr C) in
  let m := mset m PS_X PS_PX (if z then L else S * C / K) in
  let m := mset m PS_X PS_Y (S * C) in
  let m := mset m PS_X PS_PY (if z then 0 else sqr S / K) in
  let m := mset m PS_PX PS_X (- K * S * C) in
  let m := mset m PS_PX PS_Y (- K * sqr S) in
  let m := mset m PS_PX PS_PY (S * C) in
  let m := mset m PS_Y PS_X (- S * C) in
  let m := mset m PS_Y PS_PX (if z then 0 else - sqr S / K) in
  let m := mset m PS_Y PS_PY (if z then L else S * C / K) in
  let m := mset m PS_PY PS_X (K * sqr S) in
  let m := mset m PS_PY PS_PX (- S * C) in
  let m := mset m PS_PY PS_Y (- K * S * C) in
  m.

Section Linear.
Variable num : double -> R.

(** [std::copy(I.begin(), I.end(), M.data().begin())] into a row major matrix
    (linear.cpp:31, 371). *)
Definition fill_matrix (l : list double) (M : mat) : mat :=
  fun i j => match nth_error l (lsize * i + j) with
             | Some x => if Nat.ltb j lsize then num x else M i j
             | None => M i j
             end.
(** ... and into a vector (linear.cpp:84). *)
Definition fill_vector (l : list double) (v : vec) : vec :=
  fun i => match nth_error l i with Some x => num x | None => v i end.

(** ElementGeneric, linear.cpp:363-372. *)
Definition generic_matrix (c : tcfg) : res mat :=
  rbind (get_vec c "transfer") (fun l =>
  if Nat.ltb (lsize * lsize) (List.length l) then Throw InvalidArgument
  else Ok (fill_matrix l mid)).

Inductive lkind := KSource | KMark | KDrift | KSBend | KQuad | KSolenoid | KGeneric.

(** type_name(). *)
Definition kind_name (k : lkind) : string :=
  match k with
  | KSource => "source" | KMark => "marker" | KDrift => "drift" | KSBend => "sbend"
  | KQuad => "quadrupole" | KSolenoid => "solenoid" | KGeneric => "generic"
  end.
Definition kind_id (k : lkind) : nat :=
  match k with
  | KSource => 0 | KMark => 1 | KDrift => 2 | KSBend => 3 | KQuad => 4 | KSolenoid => 5 | KGeneric => 6
  end%nat.

(** The member transfer after construction; this->length is L, default 0.
    ElementSource and ElementMark leave the identity of linear.h:26. *)
Definition transfer_of (k : lkind) (c : tcfg) : res mat :=
  let len := num (get_num_def c "L" dzero) in
  let K := num (get_num_def c "K" dzero) in
  match k with
  | KSource | KMark => Ok mid
  | KDrift => Ok (drift_matrix len)
  | KSBend => rbind (get_num c "phi") (fun phi => Ok (sbend_matrix len (num phi) K))
  | KQuad => Ok (quad_matrix len K)
  | KSolenoid => Ok (solenoid_matrix len K)
  | KGeneric => generic_matrix c
  end.

(** ** States *)
(** A state of either type: pos and state.  [V] is vec or mat. *)
Record lstate (V : Type) := mkLS { ls_pos : R; ls_val : V }.
Arguments mkLS {V}. Arguments ls_pos {V}. Arguments ls_val {V}.

(** VectorState::VectorState, linear.cpp:73-88. *)
Definition new_vector (c : tcfg) : res (lstate vec) :=
  match get_vec c "initial" with
  | Ok l => if Nat.ltb lsize (List.length l) then Throw InvalidArgument
            else Ok (mkLS 0 (fill_vector l (fun _ => 0)))
  | Throw _ => Ok (mkLS 0 (fun _ => 0))
  end.
(** MatrixState::MatrixState, linear.cpp:22-37. *)
Definition new_matrix (c : tcfg) : res (lstate mat) :=
  match get_vec c "initial" with
  | Ok l => if Nat.ltb (lsize * lsize) (List.length l) then Throw InvalidArgument
            else Ok (mkLS 0 (fill_matrix l mid))
  | Throw _ => Ok (mkLS 0 mid)
  end.

Section Kind.
Context {V : Type}.
Variable new_state : tcfg -> res (lstate V).
Variable apply : mat -> V -> V.

(** The members of the element classes: transfer (linear.h:47) and, for
    ElementSource, istate (linear.cpp:193). *)
Record ldata := mkLD { ld_transfer : mat; ld_istate : option (lstate V) }.

Definition lin_ctor (k : lkind) (c : tcfg) : res ldata :=
  rbind (transfer_of k c) (fun T =>
  match k with
  | KSource => rbind (new_state c) (fun s => Ok (mkLD T (Some s)))
  | _ => Ok (mkLD T None)
  end).
(** LinearElementBase::assign, linear.h:49-54: ElementSource does not override
    it, so istate stays. *)
Definition lin_assign (dst src : ldata) : ldata := mkLD (ld_transfer src) (ld_istate dst).
(** LinearElementBase::advanceT, linear.h:57-62; ElementSource::advance,
    linear.cpp:178-183 with VectorState/MatrixState::assign (linear.cpp:47-54,
    98-105) and StateBase::assign (base.cpp:34-37): state and pos, nothing else. *)
Definition lin_advance (k : lkind) (b : ebase) (d : ldata) (st : pstate (lstate V))
  : ldata * res (pstate (lstate V)) :=
  let s := st_body st in
  match k, ld_istate d with
  | KSource, Some i => (d, Ok (mkSt (st_next st) (st_retreat st) i))
  | _, _ =>
      (d, Ok (mkSt (st_next st) (st_retreat st)
                   (mkLS (ls_pos s + num (eb_len b)) (apply (ld_transfer d) (ls_val s)))))
  end.

(** ids distinguish the instances for the two state types. *)
Variable base_id : nat.
Definition lin_class (k : lkind) : class ldata (lstate V) :=
  mkCls (base_id + kind_id k)%nat (kind_name k) (lin_ctor k) lin_assign (lin_advance k).

(** registerLinear(), linear.cpp:381-406, for one simulation type. *)
Definition lin_kinds : list lkind := [KSource; KMark; KDrift; KSBend; KQuad; KSolenoid; KGeneric].
Definition lin_elems : smap (class ldata (lstate V)) :=
  fold_left (fun m k => sset (kind_name k) (lin_class k) m) lin_kinds [].
Definition lin_info : sinfo ldata (lstate V) := mkSI new_state lin_elems.
End Kind.
Arguments ldata : clear implicits.

(** The two simulation types. *)
Definition vector_reg : registry (ldata vec) (lstate vec) :=
  [("Vector", lin_info new_vector (mapp lsize) 0)].
Definition matrix_reg : registry (ldata mat) (lstate mat) :=
  [("TransferMatrix", lin_info new_matrix (mmul lsize) 100)].

End Linear.
Arguments mkLS {V}. Arguments ls_pos {V}. Arguments ls_val {V}.
Arguments ldata : clear implicits.
