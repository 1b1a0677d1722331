(** What "preserves phase space" means for the MomentMatrix simulation, and when two elements
    are the halves of a third. *)
From Coq Require Import Reals List String Bool NArith ZArith.
From Verif Require Import SMap Dbl Config_Spec Mat Machine_Model Machine_Spec Linear_Spec Moment_Model Moment_Spec Motion_Spec.
Import ListNotations.
Open Scope R_scope.
Open Scope string_scope.
Open Scope list_scope.

(** ** Areas in phase space *)
(** Three particles span a parallelogram.  The sum of its shadows on the planes (x, x'), (y, y')
    and, with some weight, on the plane of distance and momentum: phase and energy deviation. *)
Definition area (weight : R) (u0 u1 u2 : vec) : R :=
  let shadow i j := (u1 i - u0 i) * (u2 j - u0 j) - (u1 j - u0 j) * (u2 i - u0 i) in
  shadow 0%nat 1%nat + shadow 2%nat 3%nat - weight * shadow 4%nat 5%nat.
(** A distance is a phase over the wave number, a relative momentum deviation an energy deviation
    over beta^2 gamma Es.  Energy deviations refer to the rest energy of the reference particle. *)
Definition momentum_unit (ref p : particle) : R := beta_of p * beta_of p * gamma_of p * (p_Es ref / 1000000).
Definition canonical (ref p : particle) : R := 1 / (wavenumber p * momentum_unit ref p).
(** The matrix keeps areas: of any three particles; or of any three particles of one energy, in
    the transverse planes alone. *)
Definition keeps_areas (weight : R) (T : mat) : Prop := forall u0 u1 u2, unit_last u0 -> unit_last u1 -> unit_last u2 ->
  area weight (mapp 7 T u0) (mapp 7 T u1) (mapp 7 T u2) = area weight u0 u1 u2.
Definition keeps_transverse_areas (T : mat) : Prop := forall u0 u1 u2, unit_last u0 -> unit_last u1 -> unit_last u2 ->
  u1 5%nat = u0 5%nat -> u2 5%nat = u0 5%nat ->
  area 0 (mapp 7 T u0) (mapp 7 T u1) (mapp 7 T u2) = area 0 u0 u1 u2.

(** A sector magnet made for this particle: its setting is that of the particle's velocity. *)
Definition made_for (w : world) (c : tcfg) (ref p : particle) : Prop :=
  p_freq p = p_freq ref /\
  forall fit, flagged w c "HdipoleFitMode" 1 fit ->
    gamma_of p = if N.eqb fit 0 then sqrt (1 + real_at (w_num w) c "bg" 0 ^ 2) else gamma_of ref.
(** Neither pitched nor yawed; nor rolled. *)
Definition facing (num : double -> R) (c : tcfg) : Prop := real_at num c "pitch" 0 = 0 /\ real_at num c "yaw" 0 = 0.
Definition upright (num : double -> R) (c : tcfg) : Prop :=
  facing num c /\ real_at num c "roll" 0 = 0 /\ real_at num c "xyrotate" 0 = 0.

(** The square of the emittance of a plane: the determinant of its block of the covariance matrix. *)
Definition emittance2 (S : mat) (i : nat) : R := S i i * S (i + 1)%nat (i + 1)%nat - S i (i + 1)%nat * S (i + 1)%nat i.
(** The last coordinate, 1 for all particles, does not vary. *)
Definition seventh_fixed (S : mat) : Prop := forall i, (i < 7)%nat -> S i 6%nat = 0 /\ S 6%nat i = 0.
(** Elements that treat the planes separately, whatever the energy. *)
Definition straight (c : tcfg) : Prop :=
  Exists (fun t => is_a t c) ["marker"; "bpm"; "drift"; "quadrupole"; "equad"; "orbtrim"].

(** ** Cutting an element *)
(** The two halves have everything of the whole but the name, the lengths, which add up, and for a
    magnet the angles: those of the halves in proportion to the lengths, the first with the entrance
    and the second with the exit of the whole.  The whole may be displaced and rolled, but is neither
    pitched nor yawed, and has one field all along. *)
Definition halves (w : world) (ec ea eb : tcfg) : Prop :=
  let at_ c n := real_at (w_num w) c n 0 in
  Exists (fun t => is_a t ec) ["drift"; "quadrupole"; "equad"; "solenoid"; "sbend"] /\
  (forall n, ~ In n ["name"; "L"; "phi"; "phi1"; "phi2"] -> tfind n ea = tfind n ec /\ tfind n eb = tfind n ec) /\
  at_ ec "L" = at_ ea "L" + at_ eb "L" /\
  facing (w_num w) ec /\ flagged w ec "ncurve" 0 0 /\
  (is_a "sbend" ec ->
     at_ ec "L" <> 0 /\ at_ ea "L" <> 0 /\ at_ eb "L" <> 0 /\
     at_ ea "phi" * at_ ec "L" = at_ ec "phi" * at_ ea "L" /\ at_ eb "phi" * at_ ec "L" = at_ ec "phi" * at_ eb "L" /\
     at_ ea "phi1" = at_ ec "phi1" /\ at_ ea "phi2" = 0 /\ at_ eb "phi1" = 0 /\ at_ eb "phi2" = at_ ec "phi2").
(** The same state of a beam, as far as particles and moments go. *)
Definition same_particle (p q : particle) : Prop := same_ion p q /\ p_Ek q = p_Ek p /\ p_phis q = p_phis p.
Definition same_beam (s s' : mstate) : Prop :=
  ms_pos s' = ms_pos s /\ same_particle (ms_ref s) (ms_ref s') /\
  Forall2 same_particle (ms_real s) (ms_real s') /\
  Forall2 (veq 7) (ms_m0 s) (ms_m0 s') /\ Forall2 (meq 7) (ms_m1 s) (ms_m1 s').
