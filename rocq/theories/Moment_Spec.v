(** What a user of the MomentMatrix simulation may assume, stated on its own. *)
From Coq Require Import Reals List String Bool NArith ZArith DecimalString.
From Verif Require Import SMap Dbl Config_Spec Mat Machine_Model Machine_Spec Moment_Model.
Import ListNotations.
Open Scope R_scope.
Open Scope string_scope.
Open Scope list_scope.

(** ** Reading a Config *)
Definition num_at (c : tcfg) (n : string) : option double :=
  match tfind n c with Some (TNum x) => Some x | _ => None end.
Definition vec_at (c : tcfg) (n : string) : option (list double) :=
  match tfind n c with Some (TVec l) => Some l | _ => None end.
Definition str_at (c : tcfg) (n d : string) : string :=
  match tfind n c with Some (TStr x) => x | _ => d end.
Definition real_at (num : double -> R) (c : tcfg) (n : string) (d : R) : R :=
  match num_at c n with Some x => num x | None => d end.

(** [z] is [x] without its fractional part. *)
Definition truncates (x : double) (z : Z) : Prop :=
  match x with
  | S754_zero _ => z = 0%Z
  | S754_finite s m e =>
      let one := (2 ^ Z.max 0 (- e))%Z in
      (Z.abs z * one <= Zpos m * 2 ^ Z.max 0 e < (Z.abs z + 1) * one)%Z /\
      (0 <= (if s then - z else z))%Z
  | _ => False
  end.

(** The name of the array of charge state [k]: the stem and the number. *)
Definition numbered (stem : string) (k : nat) : string :=
  (stem ++ NilEmpty.string_of_uint (N.to_uint (N.of_nat k)))%string.
Definition centroid_name (c : tcfg) (k : nat) : string :=
  numbered (str_at c "vector_variable" "moment0") k.
Definition matrix_name (c : tcfg) (k : nat) : string :=
  numbered (str_at c "matrix_variable" "initial") k.

(** ** Initial states *)
(** Charge state [k] of [n] is wanted: all of them, or the one [cstate] names. *)
Definition wanted (c : tcfg) (n k : nat) : Prop :=
  (k < n)%nat /\ forall x, num_at c "cstate" = Some x -> truncates x (Z.of_nat k).

(** The Config describes an initial state. *)
Definition describes_state (c : tcfg) : Prop :=
  match vec_at c "IonChargeStates" with
  | None => num_at c "cstate" = None
  | Some zs =>
      zs <> [] /\
      (exists qs, vec_at c "NCharge" = Some qs /\ List.length qs = List.length zs) /\
      (forall x, num_at c "cstate" = Some x ->
         exists z, truncates x z /\ (0 <= z < Z.of_nat (List.length zs))%Z /\ (z < 2 ^ 64)%Z) /\
      forall k, wanted c (List.length zs) k ->
        (exists l, vec_at c (centroid_name c k) = Some l /\ List.length l = 7%nat) /\
        (exists l, vec_at c (matrix_name c k) = Some l /\ List.length l = 49%nat)
  end.

(** The derived quantities of a particle agree with its energies and frequency. *)
Definition kinematic (p : particle) : Prop :=
  p_W p = p_Es p + p_Ek p /\
  (p_Es p <> 0 -> p_gamma p * p_Es p = p_W p) /\
  (1 <= p_gamma p -> 0 <= p_beta p /\ p_beta p * p_beta p = 1 - 1 / (p_gamma p * p_gamma p)) /\
  (p_beta p <> 0 -> p_bg p = p_beta p * p_gamma p) /\
  (p_freq p <> 0 -> p_lambda p * p_freq p = 299792458 * 1000) /\
  (p_beta p <> 0 -> p_freq p <> 0 -> p_K p * (p_beta p * p_lambda p) = 2 * PI).

(** [l] is what the vector, and the matrix row by row, consist of. *)
Definition fills_vec (num : double -> R) (l : list double) (v : vec) : Prop :=
  forall i, (i < 7)%nat -> exists x, nth_error l i = Some x /\ v i = num x.
Definition fills_mat (num : double -> R) (l : list double) (m : mat) : Prop :=
  forall i j, (i < 7)%nat -> (j < 7)%nat -> exists x, nth_error l (7 * i + j) = Some x /\ m i j = num x.

(** Charge state [k] of the Config as particle, centroid and covariance matrix. *)
Definition charge_state (num : double -> R) (c : tcfg) (k : nat) (p : particle) (v : vec) (m : mat) : Prop :=
  exists zs qs z q lv lm ps pe,
    vec_at c "IonChargeStates" = Some zs /\ vec_at c "NCharge" = Some qs /\
    nth_error zs k = Some z /\ nth_error qs k = Some q /\
    vec_at c (centroid_name c k) = Some lv /\ vec_at c (matrix_name c k) = Some lm /\
    nth_error lv 4 = Some ps /\ nth_error lv 5 = Some pe /\
    p_Z p = num z /\ p_Q p = num q /\
    p_Es p = real_at num c "IonEs" 0 /\ p_freq p = real_at num c "SampleFreq" 80500000 /\
    p_phis p = num ps /\ p_Ek p = real_at num c "IonEk" 0 + num pe * 1000000 /\
    kinematic p /\
    fills_vec num lv v /\ fills_mat num lm m.

(** The reference particle of the Config. *)
Definition reference (num : double -> R) (c : tcfg) (p : particle) : Prop :=
  p_Es p = real_at num c "IonEs" 0 /\ p_Ek p = real_at num c "IonEk" 0 /\
  p_freq p = real_at num c "SampleFreq" 80500000 /\ p_phis p = 0 /\ kinematic p /\
  match vec_at c "IonChargeStates", vec_at c "NCharge" with
  | Some (z :: _), Some (q :: _) =>
      p_Z p = real_at num c "IonZ" (num z) /\ p_Q p = real_at num c "IonQ" (num q)
  | Some _, _ => False
  | None, _ => p_Z p = real_at num c "IonZ" 0 /\ p_Q p = real_at num c "IonQ" 1
  end.

(** ** Aligned states *)
(** One centroid, covariance matrix and transfer matrix per charge state, and at
    least one charge state. *)
Definition aligned (s : mstate) : Prop :=
  ms_real s <> [] /\
  List.length (ms_m0 s) = List.length (ms_real s) /\
  List.length (ms_m1 s) = List.length (ms_real s) /\
  List.length (ms_tm s) = List.length (ms_real s).

(** A stripper entry lists charge states. *)
Definition strips_to_some (c : tcfg) : Prop :=
  tfind "type" c = Some (TStr "stripper") -> vec_at c "IonChargeStates" <> Some [].

(** What the cavity computations and curve files do not do: reach beyond the
    arrays of charge states. *)
Definition sane (w : world) : Prop :=
  (forall c p, w_cav_ref w c p <> Throw BadIndex) /\
  (forall c phi p T, snd (w_cav_one w c phi p T) <> Throw BadIndex) /\
  (forall f, w_readcfg w f <> Throw BadIndex).

(** ** Covariances and envelopes *)
Definition symmetric (M : mat) : Prop := forall i j, (i < 7)%nat -> (j < 7)%nat -> M i j = M j i.
Definition semidefinite (M : mat) : Prop := forall v : vec, 0 <= dot 7 v (mapp 7 M v).
Definition covariance (M : mat) : Prop := symmetric M /\ semidefinite M.

(** The sum over the charge states of weight times a function of the centroid and
    the covariance matrix. *)
Definition over_states (s : mstate) (f : vec -> mat -> R) : R :=
  fold_right Rplus 0 (map (fun '(p, (v, m)) => p_Q p * f v m)
                          (combine (ms_real s) (combine (ms_m0 s) (ms_m1 s)))).
(** The reported envelope is that of the charge states: weighted mean of the
    centroids, weighted mean of the covariances about it (of the six coordinates),
    and the root of its diagonal. *)
Definition consistent (s : mstate) : Prop :=
  let W := over_states s (fun _ _ => 1) in
  W <> 0 ->
  (forall i, (i < 7)%nat -> W * ms_env0 s i = over_states s (fun v _ => v i)) /\
  (forall i j, (i < 6)%nat -> (j < 6)%nat ->
     W * ms_env1 s i j
     = over_states s (fun v m => m i j + (v i - ms_env0 s i) * (v j - ms_env0 s j))) /\
  (forall i, (i < 7)%nat -> ms_env1 s i 6%nat = 0 /\ ms_env1 s 6%nat i = 0) /\
  (forall i, (i < 7)%nat -> 0 <= ms_rms s i /\
     (0 <= ms_env1 s i i -> ms_rms s i * ms_rms s i = ms_env1 s i i)).
(** Weights of a mixture. *)
Definition weighted (s : mstate) : Prop :=
  (forall p, In p (ms_real s) -> 0 <= p_Q p) /\ exists p, In p (ms_real s) /\ 0 < p_Q p.

(** ** What stays the same *)
(** The same sort of ion with the same weight, and at the same sampling
    frequency. *)
Definition same_ion (p q : particle) : Prop :=
  p_Z q = p_Z p /\ p_Q q = p_Q p /\ p_Es q = p_Es p /\ p_freq q = p_freq p.
Definition same_ions (s s' : mstate) : Prop :=
  same_ion (ms_ref s) (ms_ref s') /\ Forall2 same_ion (ms_real s) (ms_real s').
(** And the same kinetic energy. *)
Definition same_energies (s s' : mstate) : Prop :=
  p_Ek (ms_ref s') = p_Ek (ms_ref s) /\ Forall2 (fun p q => p_Ek q = p_Ek p) (ms_real s) (ms_real s').
(** The cavity computations change only energy and phase of a particle. *)
Definition cavities_keep_ions (w : world) : Prop :=
  (forall c p p' phi, w_cav_ref w c p = Ok (p', phi) -> same_ion p p') /\
  (forall c phi p T p', snd (w_cav_one w c phi p T) = Ok p' -> same_ion p p').
(** The entry is not of that class. *)
Definition not_a (t : string) (c : tcfg) : Prop := tfind "type" c <> Some (TStr t).

(** ** Beams *)
(** The constant component does not vary. *)
Definition flat (M : mat) : Prop := forall i, (i < 7)%nat -> M i 6%nat = 0 /\ M 6%nat i = 0.
Definition unit_last (v : vec) : Prop := v 6%nat = 1.
(** The last row is that of the identity. *)
Definition affine (M : mat) : Prop := forall j, (j < 7)%nat -> M 6%nat j = if Nat.eqb j 6 then 1 else 0.

(** Every centroid, covariance matrix and weight of the state the Config describes
    is of the given sort. *)
Definition describes_beam (num : double -> R) (V : vec -> Prop) (C : mat -> Prop) (N : R -> Prop) (c : tcfg) : Prop :=
  match vec_at c "IonChargeStates" with
  | Some _ =>
      (forall k l v, vec_at c (centroid_name c k) = Some l -> fills_vec num l v -> V v) /\
      (forall k l m, vec_at c (matrix_name c k) = Some l -> fills_mat num l m -> C m) /\
      (forall l q, vec_at c "NCharge" = Some l -> In q l -> N (num q))
  | None =>
      (exists l, vec_at c (str_at c "vector_variable" "moment0") = Some l /\ List.length l = 7%nat /\
         forall v, fills_vec num l v -> V v) /\
      (exists l, vec_at c (str_at c "matrix_variable" "initial") = Some l /\ List.length l = 49%nat /\
         forall m, fills_mat num l m -> C m) /\
      N (real_at num c "IonQ" 1)
  end.
Definition is_a (t : string) (c : tcfg) : Prop := tfind "type" c = Some (TStr t).
(** An entry that is no stripper, and describes covariance matrices if it is a source. *)
Definition bends_only (num : double -> R) (c : tcfg) : Prop :=
  not_a "stripper" c /\
  (is_a "source" c -> describes_beam num (fun _ => True) covariance (fun _ => True) c).
(** An entry that leaves the constant component alone: sources describe beams with
    constant component 1, flat covariances and weights that are not negative;
    strippers do not hand out negative weights; given matrices have the last row of
    the identity. *)
Definition proper_entry (num : double -> R) (c : tcfg) : Prop :=
  (is_a "source" c ->
     describes_beam num unit_last (fun m => covariance m /\ flat m) (fun q => 0 <= q) c) /\
  (is_a "stripper" c -> vec_at c "IonChargeStates" <> Some [] /\
     forall l q, vec_at c "NCharge" = Some l -> In q l -> 0 <= num q) /\
  (is_a "tmatrix" c -> forall l m, vec_at c "matrix" = Some l -> fills_mat num l m -> affine m).
(** The cavity computations make matrices that leave the constant component alone. *)
Definition cavities_affine (w : world) : Prop :=
  forall c phi p T, affine T -> affine (fst (w_cav_one w c phi p T)).
(** Centroids with constant component 1, flat covariances, weights not negative. *)
Definition healthy (s : mstate) : Prop :=
  Forall unit_last (ms_m0 s) /\ Forall (fun m => covariance m /\ flat m) (ms_m1 s) /\
  Forall (fun p => 0 <= p_Q p) (ms_real s).

(** An entry that is neither source nor stripper. *)
Definition keeps_ions (c : tcfg) : Prop := not_a "source" c /\ not_a "stripper" c.
(** Nor a cavity. *)
Definition keeps_energies (c : tcfg) : Prop := keeps_ions c /\ not_a "rfcavity" c.
