(** What a charge stripper does to a beam, stated on its own. *)
From Coq Require Import Reals List String Bool NArith ZArith.
From Verif Require Import SMap Dbl Config_Spec Mat Machine_Model Moment_Model Moment_Spec Motion_Spec.
Import ListNotations.
Open Scope R_scope.
Open Scope string_scope.
Open Scope list_scope.

(** Sum over the charge states of weight times [f], and the weighted mean. *)
Definition sum_states (s : mstate) (f : particle -> vec -> mat -> R) : R :=
  fold_right Rplus 0 (map (fun '(p, (v, m)) => p_Q p * f p v m)
                          (combine (ms_real s) (combine (ms_m0 s) (ms_m1 s)))).
Definition averages (s : mstate) (f : particle -> vec -> mat -> R) (x : R) : Prop :=
  sum_states s (fun _ _ _ => 1) <> 0 /\ sum_states s (fun _ _ _ => 1) * x = sum_states s f.

Section S.
Variable num : double -> R.
Variable c : tcfg.
(** Settings that are lists, with defaults: foil thickness in micrometers, its
    variation in percent, energy at which the energy loss was measured; energy after
    the foil for that energy, slope, dependence on the thickness. *)
Definition listed (n : string) (d : list R) (i : nat) (x : R) : Prop :=
  nth_error (match vec_at c n with Some l => map num l | None => d end) i = Some x.
Definition foil_at := listed "Stripper_Para" [3; 20; 16623000].
Definition energy_at := listed "Stripper_E0Para" [16348000; 100547 / 100000; - (10681 / 100000)].
(** Kinetic energy per nucleon after the foil. *)
Definition slowed (e e' : R) : Prop :=
  exists centre left slope, foil_at 2 centre /\ energy_at 0 left /\ energy_at 1 slope /\
    e' = left + slope * (e - centre).

(** What scattering adds to the variance of coordinate [i]. *)
Definition added (i : nat) (x : R) : Prop :=
  match i with
  | 1%nat | 3%nat =>
      let lambda := real_at num c "Stripper_lambda" (5574 / 1000) in
      lambda <> 0 /\ x * (lambda * lambda) = real_at num c "Stripper_upara" (26903 / 10000) / 1000000
  | 5%nat =>
      let E1 := real_at num c "Stripper_E1Para" (28874 / 10000000) in
      exists thick percent dep, foil_at 0 thick /\ foil_at 1 percent /\ energy_at 2 dep /\
        x = E1 * E1 + (percent / 100 * thick * dep) * (percent / 100 * thick * dep) / 3
  | _ => x = 0
  end.

(** Baron's formula: the normal density with this mean and standard deviation, at
    the charge. *)
Definition baron (beta z q : R) : Prop :=
  let Z := real_at num c "Stripper_IonProton" 92 in
  let A := real_at num c "Stripper_IonMass" 238 in
  let q1 := Z * (1 - exp (- (83275 / 1000) * beta / Rpower Z (447 / 1000))) in
  let mean := q1 * (1 - exp (- (12905 / 1000) + 2124 / 10000 * Z - 122 / 100000 * (Z * Z))) in
  exists dev, 0 < dev /\ dev * dev = q1 * (7535 / 100000 + 19 / 100 * (q1 / Z) - 2654 / 10000 * ((q1 / Z) * (q1 / Z))) /\
    q * (dev * sqrt (2 * PI)) = exp (- ((z * A - mean) * (z * A - mean)) / (2 * (dev * dev))).

(** The weight of charge state [k] of the list [zs]. *)
Definition weighs (s : mstate) (zs qs : list double) (k : nat) (q : R) : Prop :=
  str_at c "charge_model" "baron" = "off" /\ List.length qs = List.length zs /\
    (exists y, nth_error qs k = Some y /\ q = num y) \/
  str_at c "charge_model" "baron" = "baron" /\
    exists z p, nth_error zs k = Some z /\ nth_error (ms_real s) 0 = Some p /\
      exists beta, (p_Es p <> 0 -> beta = beta_of p) /\ baron beta (num z) q.

(** The covariance about the common centroid [v], scattered. *)
Definition pooled (s : mstate) (v : vec) (M : mat) : Prop :=
  forall i j, (i < 7)%nat -> (j < 7)%nat -> averages s (fun _ u m => m i j + (u i - v i) * (u j - v j)) (M i j).
Definition scattered (M M' : mat) : Prop :=
  exists f : nat -> R,
    (forall i, (i < 6)%nat -> 0 <= f i /\ exists x, added i x /\ f i * f i * M i i = M i i + x) /\
    (forall i, (i < 6)%nat -> Nat.even i = true -> f i = 1) /\
    (forall i j, (i < 6)%nat -> (j < 6)%nat -> M' i j = f i * f j * M i j) /\
    (forall i, (i < 7)%nat -> M' i 6%nat = M i 6%nat /\ M' 6%nat i = M 6%nat i).

(** The beam after the foil. *)
Definition stripped (s s' : mstate) : Prop :=
  exists zs qs v M M',
    vec_at c "IonChargeStates" = Some zs /\ vec_at c "NCharge" = Some qs /\
    ms_pos s' = ms_pos s /\
    (let r := ms_ref s in let r' := ms_ref s' in
     p_Z r' = real_at num c "Stripper_IonZ" (78 / 238) /\ p_Q r' = p_Q r /\ p_Es r' = p_Es r /\ p_freq r' = p_freq r /\
     p_phis r' = p_phis r /\ slowed (p_Ek r) (p_Ek r') /\ kinematic r') /\
    (forall i, (i < 7)%nat -> averages s (fun _ u _ => u i) (v i)) /\
    pooled s v M /\ scattered M M' /\
    List.length (ms_real s') = List.length zs /\ List.length (ms_m0 s') = List.length zs /\
    List.length (ms_m1 s') = List.length zs /\ List.length (ms_tm s') = List.length zs /\
    forall k z, nth_error zs k = Some z ->
      exists p u m t, nth_error (ms_real s') k = Some p /\ nth_error (ms_m0 s') k = Some u /\
        nth_error (ms_m1 s') k = Some m /\ nth_error (ms_tm s') k = Some t /\
        p_Z p = num z /\ weighs s zs qs k (p_Q p) /\ p_Es p = p_Es (ms_ref s) /\ p_freq p = p_freq (ms_ref s) /\
        averages s (fun p _ _ => p_phis p) (p_phis p) /\
        (exists e, averages s (fun p _ _ => p_Ek p) e /\ slowed e (p_Ek p)) /\ kinematic p /\
        veq 7 u v /\ meq 7 m M' /\ meq 7 t mid.

(** The settings make sense: a list of charges and of weights, as many of them
    unless the weights are computed, a known model, and a foil. *)
Definition foil_fine (s : mstate) : Prop :=
  exists zs qs, vec_at c "IonChargeStates" = Some zs /\ vec_at c "NCharge" = Some qs /\ zs <> [] /\
  (str_at c "charge_model" "baron" = "off" /\ List.length qs = List.length zs \/
   str_at c "charge_model" "baron" = "baron" /\
     exists p, nth_error (ms_real s) 0 = Some p /\ p_Es p <> 0 /\
       let Z := real_at num c "Stripper_IonProton" 92 in
       let y := 1 - exp (- (83275 / 1000) * beta_of p / Rpower Z (447 / 1000)) in
       0 < Z /\ 0 < Z * y * (7535 / 100000 + 19 / 100 * y - 2654 / 10000 * (y * y))) /\
  (forall i, (i < 3)%nat -> exists x y, foil_at i x /\ energy_at i y) /\
  real_at num c "Stripper_lambda" (5574 / 1000) <> 0 /\ 0 <= real_at num c "Stripper_upara" (26903 / 10000).
(** The beam has weight, and its momenta vary. *)
Definition spread_out (s : mstate) : Prop :=
  sum_states s (fun _ _ _ => 1) <> 0 /\
  forall v M, (forall i, (i < 7)%nat -> averages s (fun _ u _ => u i) (v i)) -> pooled s v M ->
    0 < M 1%nat 1%nat /\ 0 < M 3%nat 3%nat /\ 0 < M 5%nat 5%nat.
End S.
(** Settings that are refused, and with what: a missing list, as many weights as
    charges where the weights are given, or an unknown model. *)
Definition ill_foil (c : tcfg) (x : exn) : Prop :=
  match vec_at c "IonChargeStates", vec_at c "NCharge" with
  | Some zs, Some qs =>
      x = RuntimeError /\
      (str_at c "charge_model" "baron" = "off" /\ List.length qs <> List.length zs \/
       str_at c "charge_model" "baron" <> "off" /\ str_at c "charge_model" "baron" <> "baron")
  | _, _ => x = KeyError
  end.
