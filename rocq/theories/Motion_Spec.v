(** The equations of motion behind the elements of the MomentMatrix simulation,
    stated on their own.  Coordinates: x [mm], x' [rad], y, y', phase [rad], energy
    deviation [MeV/u], 1.  Lengths in mm along the path of the reference particle. *)
From Coq Require Import Reals List String Bool NArith ZArith.
From Verif Require Import SMap Dbl Config_Spec Mat Machine_Model Machine_Spec Linear_Spec Moment_Model Moment_Spec.
Import ListNotations.
Open Scope R_scope.
Open Scope string_scope.
Open Scope list_scope.

(** ** Particles *)
Definition lightspeed : R := 299792458.
(** A moving charged particle. *)
Definition moving (p : particle) : Prop := 0 < p_Es p /\ 0 < p_Ek p /\ 0 < p_freq p /\ p_Z p <> 0.
(** Relativistic factors, from rest and kinetic energy per nucleon. *)
Definition gamma_of (p : particle) : R := 1 + p_Ek p / p_Es p.
Definition beta_of (p : particle) : R := sqrt (1 - 1 / (gamma_of p * gamma_of p)).
(** Momentum per charge, in T m: from the energies in eV. *)
Definition rigidity (p : particle) : R :=
  sqrt ((p_Es p + p_Ek p) * (p_Es p + p_Ek p) - p_Es p * p_Es p) / (lightspeed * p_Z p).
(** The wave length of the sampling frequency, in mm, and the phase a particle
    gains per mm. *)
Definition wavelength (p : particle) : R := lightspeed / p_freq p * 1000.
Definition wavenumber (p : particle) : R := 2 * PI / (beta_of p * wavelength p).
(** Phase gained per mm and MeV/u of energy deviation, because of the change of
    velocity. *)
Definition slip (p : particle) : R :=
  - 2 * PI / (wavelength p * (p_Es p / 1000000) * (beta_of p * gamma_of p) ^ 3).

(** ** Motion *)
(** [x' = A x], along the path. *)
Definition moves (A : mat) (x : R -> vec) : Prop :=
  forall s i, (i < 7)%nat -> derivable_pt_lim (fun s => x s i) s (mapp 7 A (x s) i).

(** A stretch with constant forces, or something that happens at a place. *)
Inductive leg := Along (A : mat) (len : R) | Via (R : vec -> vec -> Prop).
Fixpoint passes (l : list leg) (u u' : vec) : Prop :=
  match l with
  | [] => veq 7 u u'
  | Along A len :: l' => exists x u1, moves A x /\ veq 7 (x 0) u /\ veq 7 (x len) u1 /\ passes l' u1 u'
  | Via r :: l' => exists u1, r u u1 /\ passes l' u1 u'
  end.

(** Transverse forces proportional to the distance, and the slip in phase. *)
Definition coasting (kx ky : R) (p : particle) : mat := fun i j =>
  match i, j with 4, 5 => slip p | _, _ => focusing kx ky i j end%nat.
(** A solenoid. *)
Definition spiralling (k : R) (p : particle) : mat := fun i j =>
  match i, j with 4, 5 => slip p | _, _ => larmor k i j end%nat.
(** A sector magnet of curvature [h] made for particles with momentum term
    [b] = beta^2 gamma Es (in MeV): the energy deviation, and the deviation [d] of
    the magnetic setting, displace the orbit; the path is longer outside, and the
    velocity differs. *)
Definition bending (kx ky h b d dv kphi gamma : R) : mat := fun i j =>
  match i, j with
  | 1, 5 => (h / b)%R | 1, 6 => (h * d)%R
  | 4, 0 => (kphi * h)%R
  | 4, 5 => (- (kphi / (b * (gamma * gamma))))%R | 4, 6 => (- (kphi * dv / (gamma * gamma)))%R
  | _, _ => focusing kx ky i j
  end%nat.

(** ** Misalignment *)
(** Rotation about the x, then the y, then the z axis. *)
Definition turned (pitch yaw roll : R) (a : R * R * R) : R * R * R :=
  let '(x, y, z) := a in
  let '(y, z) := (cos pitch * y + sin pitch * z, - sin pitch * y + cos pitch * z) in
  let '(x, z) := (cos yaw * x + sin yaw * z, - sin yaw * x + cos yaw * z) in
  (cos roll * x + sin roll * y, - sin roll * x + cos roll * y, z).
(** The coordinates [u] of [v] in the frame of an element that is displaced (dx, dy
    in m) and rotated about its centre, [z] mm before (negative) or behind that
    centre. *)
Definition framed (num : double -> R) (c : tcfg) (z : R) (ref p : particle) (v u : vec) : Prop :=
  let turn := turned (real_at num c "pitch" 0) (real_at num c "yaw" 0) (real_at num c "roll" 0) in
  let b := beta_of p * beta_of p * gamma_of p * (p_Es ref / 1000000) in
  let dist x := - (x / wavenumber p) in
  turn (v 0%nat - real_at num c "dx" 0 * 1000, v 2%nat - real_at num c "dy" 0 * 1000, dist (v 4%nat) + z)
    = (u 0%nat, u 2%nat, dist (u 4%nat) + z) /\
  turn (v 1%nat, v 3%nat, v 5%nat / b + 1) = (u 1%nat, u 3%nat, u 5%nat / b + 1) /\
  u 6%nat = v 6%nat.

(** ** Elements *)
(** A setting that counts: a number, or a string that spells one. *)
Definition flagged (w : world) (c : tcfg) (n : string) (d k : N) : Prop :=
  let is x := deq (d_of_Z (Z.of_N k)) x = true in
  match tfind n c with
  | Some (TNum x) => is x
  | Some (TStr t) => match w_lexd w t with Some x => is x | None => k = d end
  | _ => k = d
  end.
(** The field along the element: one value [f], or, when "ncurve" is not 0, the sum of that many
    curves times their scales.  The curves are arrays of the entry, or of the file
    it names, of equal length; "use_range" cuts a piece out of each. *)
Definition curve_source (w : world) (c cv : tcfg) : Prop :=
  match tfind "CurveFile" c with
  | Some (TStr f) => w_readcfg w (str_at c "Eng_Data_Dir" (w_defpath w) ++ "/" ++ f)%string = Ok cv
  | _ => cv = c
  end.
Definition curve_piece (c : tcfg) (l : list double) (l' : list double) : Prop :=
  match vec_at c "use_range" with
  | None => l' = l
  | Some r => exists a b x y, r = [a; b] /\ truncates a (Z.of_nat x) /\ truncates b (Z.of_nat y) /\
      (x <= y <= List.length l)%nat /\ l' = firstn (y - x) (skipn x l)
  end.
Definition field (w : world) (c : tcfg) (f : R) (l : list R) : Prop :=
  exists n, flagged w c "ncurve" 0 n /\
  if N.eqb n 0 then l = [f]
  else exists cv cs, curve_source w c cv /\ List.length cs = N.to_nat n /\
    (forall k x, nth_error cs k = Some x ->
       exists all, vec_at cv (numbered "curve" k) = Some all /\ curve_piece c all x /\
                   List.length x = List.length l) /\
    forall j b, nth_error l j = Some b ->
      b = sumn (N.to_nat n) (fun k => real_at (w_num w) c (numbered "scl_fac" k) 0
                                      * w_num w (nth j (nth k cs []) dzero)).

(** Stretches of equal length. *)
Definition stretches (A : R -> mat) (len : R) (l : list R) : list leg :=
  map (fun b => Along (A b) (len / INR (List.length l))) l.

(** What a particle meets on its way through the element of the entry. *)
Section Course.
Variable w : world.
Variable c : tcfg.
Variables ref p : particle.
Let num := w_num w.
Let L := real_at num c "L" 0 * 1000.
Let inside (l : list leg) : list leg :=
  Via (framed num c (- L / 2) ref p) :: l ++ [Via (fun u v => framed num c (L / 2) ref p v u)].

(** Steering: angles in rad, or integrated fields in T m when "realpara" is 1. *)
Definition kick_of (angle field : string) : R :=
  match num_at c "realpara" with
  | Some x => if deq x done then real_at num c field 0 / rigidity ref
              else real_at num c angle 0
  | None => real_at num c angle 0
  end * (p_Z p / p_Z ref).
Definition kicked (u u' : vec) : Prop :=
  veq 7 u' (fun i => match i with
    | 1 => (u 1%nat + kick_of "theta_x" "tm_xkick" * u 6%nat)%R
    | 3 => (u 3%nat + kick_of "theta_y" "tm_ykick" * u 6%nat)%R
    | _ => u i end%nat).
Definition rolled (a : R) (u u' : vec) : Prop :=
  veq 7 u' (fun i => match i with
    | 0 => (cos a * u 0%nat + sin a * u 2%nat)%R | 2 => (- sin a * u 0%nat + cos a * u 2%nat)%R
    | 1 => (cos a * u 1%nat + sin a * u 3%nat)%R | 3 => (- sin a * u 1%nat + cos a * u 3%nat)%R
    | _ => u i end%nat).
(** The edge of a sector magnet, at an angle. *)
Definition edge (h a : R) (u u' : vec) : Prop :=
  veq 7 u' (fun i => match i with
    | 1 => (u 1%nat + h * tan a * u 0%nat)%R | 3 => (u 3%nat - h * tan a * u 2%nat)%R | _ => u i end%nat).
Definition angle_of (n : string) : R := real_at num c n 0 * PI / 180.
(** The velocity a sector magnet is set for: that of the reference particle, or
    given by beta*gamma when "HdipoleFitMode" is 0. *)
Definition sector (gamma : R) : list leg :=
  let h := angle_of "phi" / L in
  let k := real_at num c "K" 0 / 1000000 in
  let beta := sqrt (1 - 1 / (gamma * gamma)) in
  let b := beta * beta * gamma * (p_Es ref / 1000000) in
  let dz := (p_Z p - p_Z ref) / p_Z ref in
  let d := (gamma_of ref - gamma) / (beta * beta * gamma) in
  [Via (edge h (angle_of "phi1"));
   Along (bending (k + h * h) (- k) h b (d - dz) d (2 * PI / (beta * wavelength ref)) (gamma_of ref)) L;
   Via (edge h (angle_of "phi2"))].

Inductive course : list leg -> Prop :=
| c_none : is_a "marker" c \/ is_a "bpm" c -> course []
| c_drift : is_a "drift" c -> course [Along (coasting 0 0 p) L]
| c_quad l : is_a "quadrupole" c -> field w c (real_at num c "B2" 0) l ->
    course (inside (stretches (fun b => coasting (b / rigidity p / 1000000) (- (b / rigidity p / 1000000)) p) L l))
| c_equad l : is_a "equad" c ->
    field w c (real_at num c "V" 0 / (real_at num c "radius" 0 * real_at num c "radius" 0)) l ->
    course (inside (stretches (fun e => let k := 2 * e / (beta_of p * lightspeed) / rigidity p / 1000000 in
                                        coasting k (- k) p) L l))
| c_sol l : is_a "solenoid" c -> field w c (real_at num c "B" 0) l ->
    course (inside (stretches (fun b => spiralling (b / rigidity p / 2 / 1000) p) L l))
| c_trim : is_a "orbtrim" c ->
    course ([Via (rolled (angle_of "xyrotate"));
             Via (framed num c 0 ref p); Via kicked; Via (fun u v => framed num c 0 ref p v u)])
| c_bend fit : is_a "sbend" c -> flagged w c "HdipoleFitMode" 1 fit ->
    course (if Req_EM_T L 0 then []
            else inside (sector (if N.eqb fit 0 then sqrt (1 + real_at num c "bg" 0 ^ 2) else gamma_of ref)))
| c_given l M : is_a "tmatrix" c -> vec_at c "matrix" = Some l -> fills_mat num l M ->
    course [Via (fun u u' => veq 7 u' (mapp 7 M u))].
End Course.

(** Along the way of [T] through the element, the centroid goes with it and the
    covariance matrix is that of the image. *)
Definition transported (T : mat) (v : vec) (S : mat) (v' : vec) (S' : mat) : Prop :=
  veq 7 v' (mapp 7 T v) /\
  forall a b, dot 7 a (mapp 7 S' b) = dot 7 (mapp 7 (mtr T) a) (mapp 7 S (mapp 7 (mtr T) b)).

(** What the formulas need: a sector magnet with some angle, focusing in its plane, set for a
    particle that moves; a quadrupole with a radius. *)
Definition proper_magnet (num : double -> R) (c : tcfg) : Prop :=
  let L := real_at num c "L" 0 * 1000 in
  (is_a "sbend" c -> L <> 0 ->
     let h := real_at num c "phi" 0 * PI / 180 / L in
     real_at num c "phi" 0 <> 0 /\ 0 < real_at num c "K" 0 / 1000000 + h * h /\ real_at num c "bg" 1 <> 0) /\
  (is_a "equad" c -> real_at num c "radius" 1 <> 0).
(** The kinds of elements whose motion is described here. *)
Definition described (c : tcfg) : Prop :=
  Exists (fun t => is_a t c)
    ["marker"; "bpm"; "drift"; "quadrupole"; "equad"; "solenoid"; "orbtrim"; "sbend"; "tmatrix"].

(** ** Position, phases and energies *)
(** The elements that guide the beam: those described here, and electrostatic
    dipoles. *)
Definition guiding (c : tcfg) : Prop := described c \/ is_a "edipole" c.
(** How long the element is, in m. *)
Definition extent (num : double -> R) (c : tcfg) (l : R) : Prop :=
  (Exists (fun t => is_a t c) ["marker"; "bpm"; "orbtrim"] -> l = 0) /\
  (~ Exists (fun t => is_a t c) ["marker"; "bpm"; "orbtrim"] -> l = real_at num c "L" 0).
(** The same particle some phase further on. *)
Definition later (p p' : particle) (phase : R) : Prop :=
  same_ion p p' /\ p_Ek p' = p_Ek p /\ p_phis p' = p_phis p + phase /\ kinematic p'.

(** ** Elements that work *)
(** Everything the element reads is there; the field is uniform. *)
Definition equipped (w : world) (c : tcfg) : Prop :=
  let has := Forall (fun n => num_at c n <> None) in
  (is_a "quadrupole" c -> has ["L"; "B2"] /\ flagged w c "ncurve" 0 0) /\
  (is_a "solenoid" c -> has ["L"; "B"] /\ flagged w c "ncurve" 0 0) /\
  (is_a "equad" c -> has ["L"; "V"; "radius"] /\ flagged w c "ncurve" 0 0) /\
  (is_a "sbend" c -> has ["L"; "phi"; "phi1"; "phi2"] /\
     forall fit, flagged w c "HdipoleFitMode" 1 fit -> fit = 0%N -> has ["bg"]) /\
  (is_a "tmatrix" c -> exists l, vec_at c "matrix" = Some l /\ List.length l = 49%nat).
