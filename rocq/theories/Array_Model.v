(** Model of the introspection of states: StateBase::ArrayInfo and getArray()
    (base.h:49-100, base.cpp:37-54, linear.cpp:59-72, 109-120, moment.cpp:306-547),
    the attributes of the Python class State (python/flame/modstate.cpp:62-263,
    319-366) and H5StateWriter::prepare() and append() (h5writer.cpp:118-235).

    Memory is made of blocks of 8 byte cells: one block for each member and for the
    storage of each std::vector.  Access outside of what is there is undefined. *)
From Coq Require Import List String Ascii Bool ZArith NArith Arith.
From Verif Require Import SMap Dbl Lexer_Model Util_Model.
Import ListNotations.
Open Scope string_scope.
Open Scope list_scope.

Inductive cell := CD (x : double) | CN (n : N).
(** next_elem and pos of StateBase; state of VectorState and MatrixState; the members
    of MomentState (moment.h:112-123). *)
Inductive blk := BNext | BPos | BState | BRef | BReal | BM0 | BM1 | BT | BEnv0 | BRms | BEnv1 | BLast.
Scheme Equality for blk.
Definition mem := blk -> Z -> option cell.
Definition load (m : mem) (p : blk * Z) : option cell := m (fst p) (snd p).
Definition store (m : mem) (p : blk * Z) (c : cell) : option mem :=
  match load m p with
  | None => None
  | Some _ => Some (fun b o => if blk_beq b (fst p) && Z.eqb o (snd p) then Some c else m b o)%bool
  end.

(** The members of Particle (moment.h:19-37): 12 doubles in this order. *)
Inductive pmem := PZ | PQ | PEs | PW | PGamma | PBeta | PBg | PFreq | PLambda | PIonK | PPhis | PEk.
Definition pidx (p : pmem) : Z :=
  match p with PZ => 0 | PQ => 1 | PEs => 2 | PW => 3 | PGamma => 4 | PBeta => 5 | PBg => 6 | PFreq => 7
  | PLambda => 8 | PIonK => 9 | PPhis => 10 | PEk => 11 end.

(** sizeof(moment0[0]) and sizeof(moment1[0]): at least the numbers they hold, by the
    static_assert of moment.cpp:325, 341, 373. *)
Record abi := mkAbi { szV : Z; szM : Z }.
Definition abi_ok (a : abi) : Prop := (56 <= szV a)%Z /\ (392 <= szM a)%Z.

(** The three types of state; a MomentState with its number of charge states. *)
Inductive kind := KVector | KMatrix | KMoment (n : nat).

(** The number of items of an array, base.h:66. *)
Definition prodn (l : list nat) : nat := fold_right Nat.mul 1 l.

(** ** ArrayInfo, base.h:49-100 *)
Inductive atype := TDouble | TSizet.
Record ainfo := mkInfo { a_name : string; a_type : atype; a_ptr : blk * Z; a_dim : list nat; a_stride : list Z }.
(** raw(), base.h:84-92. *)
Fixpoint dot (idx : list nat) (st : list Z) : Z :=
  match idx, st with i :: idx', s :: st' => (Z.of_nat i * s + dot idx' st')%Z | _, _ => 0%Z end.
Definition raw (a : ainfo) (idx : list nat) : blk * Z := (fst (a_ptr a), (snd (a_ptr a) + dot idx (a_stride a))%Z).
(** inbounds(), base.h:72-82. *)
Fixpoint inbounds (dim idx : list nat) : bool :=
  match dim, idx with d :: dim', i :: idx' => Nat.ltb i d && inbounds dim' idx' | _, _ => true end%bool.

(** ** getArray() *)
(** ANone: returns false.  AUndef: the first element of an empty vector. *)
Inductive aresult := AInfo (a : ainfo) | ANone | AUndef.
Definition scalar (nm : string) (t : atype) (b : blk) (o : Z) : aresult := AInfo (mkInfo nm t (b, o) [] []).

(** StateBase::getArray, base.cpp:37-54. *)
Definition base_array (idx : nat) : aresult :=
  match idx with
  | 0 => scalar "next_elem" TSizet BNext 0
  | 1 => scalar "pos" TDouble BPos 0
  | _ => ANone
  end.
(** MatrixState::getArray, linear.cpp:59-72. *)
Definition matrix_array (idx : nat) : aresult :=
  match idx with
  | 0 => AInfo (mkInfo "state" TDouble (BState, 0%Z) [6; 6] [8 * 6; 8]%Z)
  | S j => base_array j
  end.
(** VectorState::getArray, linear.cpp:109-120. *)
Definition vector_array (idx : nat) : aresult :=
  match idx with
  | 0 => AInfo (mkInfo "state" TDouble (BState, 0%Z) [6] [8]%Z)
  | S j => base_array j
  end.
(** The members of ref, moment.cpp:383-448. *)
Definition ref_attr (nm : string) (p : pmem) : aresult := scalar nm TDouble BRef (8 * pidx p).
(** The members of real[], moment.cpp:449-537. *)
Definition real_attr (nm : string) (p : pmem) (n : nat) : aresult :=
  AInfo (mkInfo nm TDouble (BReal, (8 * pidx p)%Z) [n] [96]%Z).
(** An element of a vector that must not be empty. *)
Definition nonempty (n : nat) (r : aresult) : aresult := match n with O => AUndef | S _ => r end.
(** MomentState::getArray, moment.cpp:306-547. *)
Definition moment_array (ab : abi) (n : nat) (idx : nat) : aresult :=
  match idx with
  | 0 => AInfo (mkInfo "moment1_env" TDouble (BEnv1, 0%Z) [7; 7] [8 * 7; 8]%Z)
  | 1 => nonempty n (AInfo (mkInfo "moment1" TDouble (BM1, 0%Z) [7; 7; n] [8 * 7; 8; szM ab]%Z))
  | 2 => nonempty n (AInfo (mkInfo "transmat" TDouble (BT, 0%Z) [7; 7; n] [8 * 7; 8; szM ab]%Z))
  | 3 => AInfo (mkInfo "moment0_env" TDouble (BEnv0, 0%Z) [7] [8]%Z)
  | 4 => AInfo (mkInfo "moment0_rms" TDouble (BRms, 0%Z) [7] [8]%Z)
  | 5 => nonempty n (AInfo (mkInfo "moment0" TDouble (BM0, 0%Z) [7; n] [8; szV ab]%Z))
  | 6 => ref_attr "ref_IonZ" PZ
  | 7 => ref_attr "ref_IonQ" PQ
  | 8 => ref_attr "ref_IonEs" PEs
  | 9 => ref_attr "ref_IonW" PW
  | 10 => ref_attr "ref_gamma" PGamma
  | 11 => ref_attr "ref_beta" PBeta
  | 12 => ref_attr "ref_bg" PBg
  | 13 => ref_attr "ref_SampleFreq" PFreq
  | 14 => ref_attr "ref_SampleIonK" PIonK
  | 15 => ref_attr "ref_phis" PPhis
  | 16 => ref_attr "ref_IonEk" PEk
  | 17 => nonempty n (real_attr "IonZ" PZ n)
  | 18 => nonempty n (real_attr "IonEs" PEs n)
  | 19 => nonempty n (real_attr "IonW" PW n)
  | 20 => nonempty n (real_attr "gamma" PGamma n)
  | 21 => nonempty n (real_attr "beta" PBeta n)
  | 22 => nonempty n (real_attr "bg" PBg n)
  | 23 => nonempty n (real_attr "SampleFreq" PFreq n)
  | 24 => nonempty n (real_attr "SampleIonK" PIonK n)
  | 25 => nonempty n (real_attr "phis" PPhis n)
  | 26 => nonempty n (real_attr "IonEk" PEk n)
  | 27 => nonempty n (real_attr "IonQ" PQ n)
  | 28 => scalar "last_caviphi0" TDouble BLast 0
  | _ => base_array (idx - 29)
  end.
Definition get_array (ab : abi) (k : kind) (idx : nat) : aresult :=
  match k with KVector => vector_array idx | KMatrix => matrix_array idx | KMoment n => moment_array ab n idx end.

(** ** Python attributes *)
(** wrapstate(), modstate.cpp:319-366: a dictionary from names to indices.  [fuel]
    bounds the loop; None: it has not ended.  (No attribute has more than three
    dimensions or another type.) *)
Fixpoint wrap (fuel : nat) (ab : abi) (k : kind) (i : nat) (d : smap nat) : option (option (smap nat)) :=
  match fuel with
  | O => None
  | S f =>
      match get_array ab k i with
      | ANone => Some (Some d)
      | AUndef => Some None
      | AInfo a => wrap f ab k (S i) (sset (a_name a) i d)
      end
  end.
Definition wrapstate (ab : abi) (k : kind) : option (option (smap nat)) := wrap 100 ab k 0 [].

(** numpy arrays of 8 byte items: shape, strides in bytes (perhaps negative), address
    of the first item, and memory. *)
Record ndarray := mkND { n_shape : list nat; n_strides : list Z; n_base : Z; n_mem : Z -> option cell }.
(** PyArray_GETPTR1, PyArray_GETPTR2. *)
Definition nd_at (a : ndarray) (idx : list nat) : option cell := n_mem a (n_base a + dot idx (n_strides a))%Z.
(** ArrayInfo::raw() on the parts of a numpy array: strides and products are size_t. *)
Definition wrap64 (z : Z) : Z := (z mod 18446744073709551616)%Z.
Definition py_raw (a : ndarray) (idx : list nat) : Z :=
  wrap64 (n_base a + dot idx (map wrap64 (n_strides a)))%Z.
(** PyArray_SimpleNew: C order. *)
Fixpoint cstrides (sh : list nat) : list Z :=
  match sh with [] => [] | _ :: sh' => (8 * Z.of_nat (prodn sh'))%Z :: cstrides sh' end.

(** What the interpreter sees.  PGeneric: the attribute is left to
    PyObject_GenericGetAttr / SetAttr.  PUndef: undefined behaviour. *)
Inductive pyerr := PyValueError | PyOverflowError | PyRuntimeError.
Inductive pyout := POk | PGeneric | PFloat (x : double) | PInt (n : N) | PArr (a : ndarray) | PErr (e : pyerr) | PUndef.

(** PyState_getattro, modstate.cpp:62-135.  [d] is the dictionary of the object.  The
    new array starts at address 0 of its own memory. *)
Fixpoint copy_out (m : mem) (a : ainfo) (dst : ndarray) (l : list (list nat)) : option ndarray :=
  match l with
  | [] => Some dst
  | idx :: l' =>
      match load m (raw a idx) with
      | None => None
      | Some c =>
          let o := py_raw dst idx in
          if (Z.ltb o (8 * Z.of_nat (prodn (n_shape dst))))
          then copy_out m a (mkND (n_shape dst) (n_strides dst) (n_base dst)
                 (fun o' => if Z.eqb o' o then Some c else n_mem dst o')) l'
          else None
      end
  end.
Definition py_get (ab : abi) (k : kind) (d : smap nat) (m : mem) (nm : string) : pyout :=
  match sfind nm d with
  | None => PGeneric
  | Some i =>
      match get_array ab k i with
      | ANone => PErr PyRuntimeError
      | AUndef => PUndef
      | AInfo a =>
          match a_dim a with
          | [] => match load m (a_ptr a) with Some (CD x) => PFloat x | Some (CN n) => PInt n | None => PUndef end
          | _ =>
              match nd_visit (S (prodn (a_dim a))) (a_dim a) with
              | None => PUndef
              | Some l =>
                  match copy_out m a (mkND (a_dim a) (cstrides (a_dim a)) 0 (fun _ => None)) l with
                  | Some r => PArr r
                  | None => PUndef
                  end
              end
          end
      end
  end.

(** Values that can be assigned: float, int, something numpy makes an array of 8 byte
    items of, anything else, and the deletion of the attribute (a null pointer). *)
Inductive pyval := VFloat (x : double) | VInt (z : Z) | VArray (a : ndarray) | VOther | VNull.
(** Conversion of a double to size_t; None: undefined. *)
Definition d_to_size (x : double) : option N :=
  match x with
  | S754_zero _ => Some 0%N
  | S754_finite s m e =>
      let z := (if (0 <=? e)%Z then Zpos m * 2 ^ e else Zpos m / 2 ^ (- e))%Z in
      if s then (if Z.eqb z 0 then Some 0%N else None)
      else if Z.ltb z 18446744073709551616 then Some (Z.to_N z) else None
  | _ => None
  end.
Definition store_ok (m : mem) (p : blk * Z) (c : cell) (o : pyout) : mem * pyout :=
  match store m p c with Some m' => (m', o) | None => (m, PUndef) end.
(** The scalars, modstate.cpp:153-187.  PyLong_AsDouble and PyLong_AsUnsignedLongLong
    return -1 when they fail, and that is stored. *)
Definition set_scalar (m : mem) (a : ainfo) (v : pyval) : mem * pyout :=
  match a_type a with
  | TDouble =>
      match v with
      | VFloat x => store_ok m (a_ptr a) (CD x) POk
      | VInt z => if is_inf (d_of_Z z) then store_ok m (a_ptr a) (CD (d_of_Z (-1))) (PErr PyOverflowError)
                  else store_ok m (a_ptr a) (CD (d_of_Z z)) POk
      | VArray _ | VOther => (m, PErr PyValueError)
      | VNull => (m, PUndef)
      end
  | TSizet =>
      match v with
      | VFloat x => match d_to_size x with Some n => store_ok m (a_ptr a) (CN n) POk | None => (m, PUndef) end
      | VInt z => if (0 <=? z)%Z && (z <? 18446744073709551616)%Z
                  then store_ok m (a_ptr a) (CN (Z.to_N z)) POk
                  else store_ok m (a_ptr a) (CN 18446744073709551615) (PErr PyOverflowError)
      | VArray _ | VOther => (m, PErr PyValueError)
      | VNull => (m, PUndef)
      end
  end%bool.
(** The loop of modstate.cpp:220-230 and the second ones, 233-257. *)
Fixpoint copy_in (src : list nat -> option cell) (a : ainfo) (m : mem) (l : list (list nat)) : option mem :=
  match l with
  | [] => Some m
  | idx :: l' =>
      match src idx with
      | None => None
      | Some c => match store m (raw a idx) c with None => None | Some m' => copy_in src a m' l' end
      end
  end.
Definition again (dim : list nat) : list (list nat) :=
  match dim with
  | [d] => map (fun i => [i]) (seq 0 d)
  | [d; e] => flat_map (fun i => map (fun j => [i; j]) (seq 0 e)) (seq 0 d)
  | _ => []
  end.
(** PyState_setattro, modstate.cpp:137-263.  PyArray_FromObject refuses what has not
    the number of dimensions asked for. *)
Definition py_set (ab : abi) (k : kind) (d : smap nat) (m : mem) (nm : string) (v : pyval) : mem * pyout :=
  match sfind nm d with
  | None => (m, PGeneric)
  | Some i =>
      match get_array ab k i with
      | ANone => (m, PErr PyRuntimeError)
      | AUndef => (m, PUndef)
      | AInfo a =>
          match a_dim a with
          | [] => set_scalar m a v
          | _ =>
              match v with
              | VNull => (m, PUndef)
              | VFloat _ | VInt _ | VOther => (m, PErr PyValueError)
              | VArray arr =>
                  if negb (Nat.eqb (List.length (n_shape arr)) (List.length (a_dim a))) then (m, PErr PyValueError)
                  else if negb (if list_eq_dec Nat.eq_dec (a_dim a) (n_shape arr) then true else false) then (m, PErr PyValueError)
                  else
                    match nd_visit (S (prodn (a_dim a))) (a_dim a) with
                    | None => (m, PUndef)
                    | Some l =>
                        match copy_in (fun idx => n_mem arr (py_raw arr idx)) a m l with
                        | None => (m, PUndef)
                        | Some m1 =>
                            match copy_in (nd_at arr) a m1 (again (a_dim a)) with
                            | None => (m1, PUndef)
                            | Some m2 => (m2, POk)
                            end
                        end
                    end
              end
          end
      end
  end.

(** ** HDF5 *)
(** A dataset: its extents and values; outside of the extents there is nothing. *)
Record dset := mkDS { d_ext : list nat; d_val : list nat -> option cell }.
(** The fill value. *)
Definition fill (t : atype) : cell := match t with TDouble => CD dzero | TSizet => CN 0 end.
Definition inside (ext idx : list nat) : bool := Nat.eqb (List.length idx) (List.length ext) && inbounds ext idx.
(** H5Dset_extent: what falls outside is lost, what is new is filled. *)
Definition extend (t : atype) (s : dset) (ext : list nat) : dset :=
  mkDS ext (fun idx => if inside ext idx
                       then if inside (d_ext s) idx then d_val s idx else Some (fill t)
                       else None).
(** Position in C order. *)
Fixpoint flat (dim idx : list nat) : nat :=
  match dim, idx with _ :: dim', i :: idx' => i * prodn dim' + flat dim' idx' | _, _ => 0 end.
(** DataSet::write with a simple memory space [1,dim]: consecutive cells from the
    pointer on.  None: some cell is not there. *)
Definition write_row (m : mem) (a : ainfo) (s : dset) (row : nat) : option dset :=
  let cellat (j : nat) := m (fst (a_ptr a)) (snd (a_ptr a) + 8 * Z.of_nat j)%Z in
  if forallb (fun j => match cellat j with Some _ => true | None => false end) (seq 0 (prodn (a_dim a)))
  then Some (mkDS (d_ext s) (fun idx =>
         match idx with
         | r :: idx' => if Nat.eqb r row && inside (a_dim a) idx' then cellat (flat (a_dim a) idx') else d_val s idx
         | [] => d_val s idx
         end))
  else None.
(** StateElement: attribute index, name and dataset, and nextrow (h5writer.cpp:20-27). *)
Record helem := mkHE { h_idx : nat; h_name : string; h_dset : dset; h_next : nat }.
(** prepare(), h5writer.cpp:118-181.  None: undefined behaviour or out of fuel. *)
Fixpoint h5_prepare (fuel : nat) (ab : abi) (k : kind) (i : nat) : option (list helem) :=
  match fuel with
  | O => None
  | S f =>
      match get_array ab k i with
      | ANone => Some []
      | AUndef => None
      | AInfo a =>
          match h5_prepare f ab k (S i) with
          | None => None
          | Some l => Some (mkHE i (a_name a) (mkDS (0 :: a_dim a) (fun _ => None)) 0 :: l)
          end
      end
  end.
(** append(), h5writer.cpp:183-225. *)
Fixpoint h5_append_to (ab : abi) (k : kind) (m : mem) (l : list helem) : option (list helem) :=
  match l with
  | [] => Some []
  | h :: l' =>
      match get_array ab k (h_idx h) with
      | AInfo a =>
          let row := h_next h in
          match write_row m a (extend (a_type a) (h_dset h) (S row :: a_dim a)) row, h5_append_to ab k m l' with
          | Some s, Some r => Some (mkHE (h_idx h) (h_name h) s (S row) :: r)
          | _, _ => None
          end
      | _ => None
      end
  end.
Definition h5_append (ab : abi) (km : kind * mem) (l : list helem) : option (list helem) :=
  match l with
  | [] => match h5_prepare 100 ab (fst km) 0 with
          | Some l => h5_append_to ab (fst km) (snd km) l
          | None => None
          end
  | _ => h5_append_to ab (fst km) (snd km) l
  end.
(** A writer that has been given these states, one after the other. *)
Fixpoint h5_run (ab : abi) (states : list (kind * mem)) (l : list helem) : option (list helem) :=
  match states with
  | [] => Some l
  | s :: r => match h5_append ab s l with Some l' => h5_run ab r l' | None => None end
  end.
