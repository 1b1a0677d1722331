(** Motion in an electrostatic deflector. *)
From Coq Require Import Reals List String Bool NArith ZArith.
From Verif Require Import SMap Dbl Config_Spec Mat Machine_Model Machine_Spec Linear_Spec Moment_Model Moment_Spec Motion_Spec.
Import ListNotations.
Open Scope R_scope.
Open Scope string_scope.
Open Scope list_scope.

(** Between two electrodes of curvature [h].  A particle outside the middle has climbed in potential:
    it has the kinetic energy of its total energy less beta^2 gamma Es h x.  So displacement and
    energy deviation act [1 + 1/gamma^2] times as strong as in a magnet, on the curvature of the
    path and on the time. *)
Definition deflecting (kx ky h b kphi gamma : R) : mat := fun i j =>
  let n := 1 + 1 / (gamma * gamma) in
  match i, j with
  | 1, 5 => (h * n / b)%R
  | 4, 0 => (kphi * (h * n))%R
  | 4, 5 => (- (kphi / (b * (gamma * gamma))))%R
  | _, _ => focusing kx ky i j
  end%nat.
(** Fields beyond the ends of the electrodes, as thin lenses; strengths in 1/m. *)
Definition fringe (num : double -> R) (c : tcfg) (u u' : vec) : Prop :=
  veq 7 u' (fun i => match i with
    | 1 => (u 1%nat + real_at num c "fringe_x" 0 / 1000 * u 0%nat)%R
    | 3 => (u 3%nat + real_at num c "fringe_y" 0 / 1000 * u 2%nat)%R | _ => u i end%nat).
(** "ver" 1: bends vertically. *)
Definition vertical (c : tcfg) : bool := match num_at c "ver" with Some x => deq x done | None => false end.
Definition tip (a : R) (c : tcfg) : list leg := if vertical c then [Via (rolled a)] else [].
(** On the way of a particle through a deflector made for it.  [kx]: focusing in the plane of the
    bend in units of the square of the curvature; [pace]: how fast phases change, 1 for the right
    pace.  "spher": 0 for cylinders, 1 for spheres. *)
Section Deflector.
Variable w : world.
Variable c : tcfg.
Variables ref p : particle.
Variables kx pace : R.
Definition deflector : list leg :=
  let num := w_num w in
  let L := real_at num c "L" 0 * 1000 in
  let h := angle_of w c "phi" / L in
  let b := beta_of p * beta_of p * gamma_of p * (p_Es ref / 1000000) in
  Via (framed num c (- L / 2) ref p) ::
  (tip (PI / 2) c ++
   [Via (fringe num c);
    Along (deflecting (kx * (h * h)) (real_at num c "spher" 0 * (h * h)) h b (pace * wavenumber p) (gamma_of p)) L;
    Via (fringe num c)] ++
   tip (- (PI / 2)) c) ++
  [Via (fun u v => framed num c (L / 2) ref p v u)].
End Deflector.
(** The field between cylinders or spheres, and the change of the kinetic energy. *)
Definition field_focus (num : double -> R) (c : tcfg) (p : particle) : R :=
  1 - real_at num c "spher" 0 + 1 / (gamma_of p * gamma_of p).

(** A particle like the reference particle. *)
Definition alike (ref p : particle) : Prop :=
  p_Es p = p_Es ref /\ p_Ek p = p_Ek ref /\ p_Z p = p_Z ref /\ p_freq p = p_freq ref.
(** The deflector has a length and an angle, and is set for the reference particle. *)
Definition proper_deflector (w : world) (c : tcfg) (ref : particle) : Prop :=
  real_at (w_num w) c "L" 0 <> 0 /\ real_at (w_num w) c "phi" 0 <> 0 /\
  (forall fit, flagged w c "HdipoleFitMode" 1 fit -> fit = 0%N -> real_at (w_num w) c "beta" (beta_of ref) = beta_of ref) /\
  0 < 1 - real_at (w_num w) c "spher" 0 + gamma_of ref * gamma_of ref.
(** No factor "asym_fac" between the potentials inside and outside. *)
Definition symmetric (num : double -> R) (c : tcfg) : Prop := real_at num c "asym_fac" 0 = 0.
