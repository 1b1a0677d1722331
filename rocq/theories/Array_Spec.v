(** What the attributes of a state are, stated on its own: the variables of a state,
    where the compiler puts them, and which variable an attribute shows at an index. *)
From Coq Require Import List String Bool ZArith NArith Arith.
From Verif Require Import SMap Dbl Lexer_Model Util_Model Util_Spec Array_Model.
Import ListNotations.
Open Scope string_scope.
Open Scope list_scope.

(** The variables of a state. *)
Inductive field :=
| FNext | FPos | FVec (i : nat) | FMat (i j : nat)
| FRef (p : pmem) | FReal (k : nat) (p : pmem)
| FM0 (k i : nat) | FM1 (k i j : nat) | FT (k i j : nat)
| FEnv0 (i : nat) | FRms (i : nat) | FEnv1 (i j : nat) | FLast.
Definition has_field (kd : kind) (f : field) : Prop :=
  match kd, f with
  | _, FNext | _, FPos => True
  | KVector, FVec i => i < 6
  | KMatrix, FMat i j => i < 6 /\ j < 6
  | KMoment n, FRef _ | KMoment n, FLast => True
  | KMoment n, FReal k _ => k < n
  | KMoment n, FM0 k i => k < n /\ i < 7
  | KMoment n, FM1 k i j | KMoment n, FT k i j => k < n /\ i < 7 /\ j < 7
  | KMoment n, FEnv0 i | KMoment n, FRms i => i < 7
  | KMoment n, FEnv1 i j => i < 7 /\ j < 7
  | _, _ => False
  end.
(** Matrices are stored by rows; the storage of an array is within the object. *)
Definition place (ab : abi) (f : field) : blk * Z :=
  match f with
  | FNext => (BNext, 0%Z) | FPos => (BPos, 0%Z)
  | FVec i => (BState, 8 * Z.of_nat i)%Z
  | FMat i j => (BState, 8 * (6 * Z.of_nat i + Z.of_nat j))%Z
  | FRef p => (BRef, 8 * pidx p)%Z
  | FReal k p => (BReal, 96 * Z.of_nat k + 8 * pidx p)%Z
  | FM0 k i => (BM0, Z.of_nat k * szV ab + 8 * Z.of_nat i)%Z
  | FM1 k i j => (BM1, Z.of_nat k * szM ab + 8 * (7 * Z.of_nat i + Z.of_nat j))%Z
  | FT k i j => (BT, Z.of_nat k * szM ab + 8 * (7 * Z.of_nat i + Z.of_nat j))%Z
  | FEnv0 i => (BEnv0, 8 * Z.of_nat i)%Z
  | FRms i => (BRms, 8 * Z.of_nat i)%Z
  | FEnv1 i j => (BEnv1, 8 * (7 * Z.of_nat i + Z.of_nat j))%Z
  | FLast => (BLast, 0%Z)
  end.
(** The memory of a state whose variables have the values [c]. *)
Definition holds (ab : abi) (kd : kind) (m : mem) (c : field -> cell) : Prop :=
  forall f, has_field kd f -> load m (place ab f) = Some (c f).
(** Variables are doubles, but for next_elem. *)
Definition typed (c : field -> cell) : Prop :=
  forall f, match f with FNext => exists n, c f = CN n | _ => exists x, c f = CD x end.

(** The attributes by name: shape, and what is shown at an index. *)
Definition attribute := (string * list nat * (list nat -> field))%type.
Definition at0 (f : field) : list nat -> field := fun _ => f.
Definition at1 (f : nat -> field) : list nat -> field := fun idx => match idx with i :: _ => f i | _ => f 0 end.
Definition at2 (f : nat -> nat -> field) : list nat -> field := fun idx => match idx with i :: j :: _ => f i j | _ => f 0 0 end.
Definition at3 (f : nat -> nat -> nat -> field) : list nat -> field :=
  fun idx => match idx with i :: j :: k :: _ => f i j k | _ => f 0 0 0 end.
Definition base_attrs : list attribute := [("next_elem", [], at0 FNext); ("pos", [], at0 FPos)].
Definition attributes (kd : kind) : list attribute :=
  match kd with
  | KVector => ("state", [6], at1 FVec) :: base_attrs
  | KMatrix => ("state", [6; 6], at2 FMat) :: base_attrs
  | KMoment n =>
      [("moment1_env", [7; 7], at2 FEnv1);
       ("moment1", [7; 7; n], at3 (fun i j k => FM1 k i j));
       ("transmat", [7; 7; n], at3 (fun i j k => FT k i j));
       ("moment0_env", [7], at1 FEnv0);
       ("moment0_rms", [7], at1 FRms);
       ("moment0", [7; n], at2 (fun i k => FM0 k i));
       ("ref_IonZ", [], at0 (FRef PZ)); ("ref_IonQ", [], at0 (FRef PQ)); ("ref_IonEs", [], at0 (FRef PEs));
       ("ref_IonW", [], at0 (FRef PW)); ("ref_gamma", [], at0 (FRef PGamma)); ("ref_beta", [], at0 (FRef PBeta));
       ("ref_bg", [], at0 (FRef PBg)); ("ref_SampleFreq", [], at0 (FRef PFreq));
       ("ref_SampleIonK", [], at0 (FRef PIonK)); ("ref_phis", [], at0 (FRef PPhis)); ("ref_IonEk", [], at0 (FRef PEk));
       ("IonZ", [n], at1 (fun k => FReal k PZ)); ("IonEs", [n], at1 (fun k => FReal k PEs));
       ("IonW", [n], at1 (fun k => FReal k PW)); ("gamma", [n], at1 (fun k => FReal k PGamma));
       ("beta", [n], at1 (fun k => FReal k PBeta)); ("bg", [n], at1 (fun k => FReal k PBg));
       ("SampleFreq", [n], at1 (fun k => FReal k PFreq)); ("SampleIonK", [n], at1 (fun k => FReal k PIonK));
       ("phis", [n], at1 (fun k => FReal k PPhis)); ("IonEk", [n], at1 (fun k => FReal k PEk));
       ("IonQ", [n], at1 (fun k => FReal k PQ));
       ("last_caviphi0", [], at0 FLast)] ++ base_attrs
  end.
(** There is at least one charge state, and they fit into the address space. *)
Definition populated (kd : kind) : Prop :=
  match kd with KMoment n => 0 < n /\ (392 * Z.of_nat n < 18446744073709551616)%Z | _ => True end.

(** What is seen is an array (a number, if it has no dimensions) of this shape with
    these values. *)
Definition shows (o : pyout) (sh : list nat) (val : list nat -> cell) : Prop :=
  match sh with
  | [] => match val [] with CD x => o = PFloat x | CN n => o = PInt n end
  | _ => exists a, o = PArr a /\ n_shape a = sh /\ forall idx, within sh idx -> nd_at a idx = Some (val idx)
  end.
(** An array that exists: every item is in memory, at an address of 64 bits. *)
Definition nd_ok (a : ndarray) : Prop :=
  List.length (n_strides a) = List.length (n_shape a) /\
  forall idx, within (n_shape a) idx ->
    (0 <= n_base a + dot idx (n_strides a) < 18446744073709551616)%Z /\ nd_at a idx <> None.

(** The number that is stored when [v] is assigned to the variable [f]: a double takes
    a float, and an integer that is not too large; next_elem takes integers below 2^64. *)
Definition scalar_value (f : field) (v : pyval) : option cell :=
  match f, v with
  | FNext, VInt z => if (0 <=? z)%Z && (z <? 18446744073709551616)%Z then Some (CN (Z.to_N z)) else None
  | FNext, _ => None
  | _, VFloat x => Some (CD x)
  | _, VInt z => if is_inf (d_of_Z z) then None else Some (CD (d_of_Z z))
  | _, _ => None
  end%bool.
(** What cannot be assigned to an attribute of this shape. *)
Definition ill (sh : list nat) (v : pyval) : Prop :=
  match v with
  | VArray arr => n_shape arr <> sh \/ sh = []
  | VOther => True
  | VFloat _ | VInt _ => sh <> []
  | VNull => False
  end.

(** The variables of an attribute lie side by side, in C order. *)
Definition packed (ab : abi) (sh : list nat) (den : list nat -> field) : Prop :=
  forall idx, within sh idx ->
    place ab (den idx) = (fst (place ab (den (repeat 0%nat (List.length sh)))),
                          snd (place ab (den (repeat 0%nat (List.length sh)))) + 8 * Z.of_nat (flat sh idx))%Z.
(** A dataset records these states: one row for each, in order. *)
Definition records (states : list (field -> cell)) (nm : string) (sh : list nat) (den : list nat -> field) (h : helem) : Prop :=
  h_name h = nm /\ d_ext (h_dset h) = List.length states :: sh /\
  forall r c idx, nth_error states r = Some c -> within sh idx -> d_val (h_dset h) (r :: idx) = Some (c (den idx)).
(** A history: the kind, the memory and the contents of each state. *)
Definition hist_ok (ab : abi) (h : kind * mem * (field -> cell)) : Prop :=
  populated (fst (fst h)) /\ holds ab (fst (fst h)) (snd (fst h)) (snd h).
(** The states whose attributes are all packed. *)
Definition simple (kd : kind) : Prop := match kd with KMoment n => n = 1 | _ => True end.
