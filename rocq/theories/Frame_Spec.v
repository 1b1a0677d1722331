(** Misalignment as a change of the frame in which the beam is seen, stated on its
    own. *)
From Coq Require Import Reals List String Bool NArith ZArith.
From Verif Require Import SMap Dbl Config_Spec Mat Machine_Model Machine_Spec Moment_Model Moment_Spec Motion_Spec.
Import ListNotations.
Open Scope R_scope.
Open Scope string_scope.
Open Scope list_scope.

(** The settings that place an element. *)
Definition placing : list string := ["dx"; "dy"; "pitch"; "yaw"; "roll"].
(** Two entries that differ in these only; an entry where they are zero. *)
Definition same_else (c c' : tcfg) : Prop := forall n, ~ In n placing -> tfind n c = tfind n c'.
Definition placed_well (num : double -> R) (c : tcfg) : Prop := Forall (fun n => real_at num c n 0 = 0) placing.
(** The kinds of elements that can be misplaced; correctors (which turn the beam
    first) and cavities apart. *)
Definition placeable (c : tcfg) : Prop :=
  Exists (fun t => is_a t c) ["quadrupole"; "solenoid"; "equad"; "sbend"; "edipole"; "sextupole"].

(** Beam [s] has gone through an element with this entry, in a machine after any
    history of reconfigurations and completed forward propagations, and came out as
    [s']. *)
Definition goes_through (w : world) (ec : tcfg) (s s' : mstate) : Prop :=
  exists c m es us i st p f,
    new_machine (moment_reg w) c = Ok m /\ tfind "elements" c = Some (TCfgs es) /\
    Forall strips_to_some es /\ smooth (fun r s => r = false /\ aligned s) strips_to_some m us /\
    nth_error (entries m es us) i = Some ec /\ st_body st = s /\ aligned s /\
    propagate (uses m us) st (N.of_nat i) 1 = Some p /\ pr_end p = Ok f /\ st_body f = s'.
(** The same ions, all of them moving. *)
Definition same_moving (s s' : mstate) : Prop :=
  ms_ref s' = ms_ref s /\ ms_real s' = ms_real s /\ moving (ms_ref s) /\ Forall moving (ms_real s).

(** Centroid [u] and covariance [U] are centroid [v] and covariance [S] seen in the
    frame. *)
Definition seen (frame : vec -> vec -> Prop) (v : vec) (S : mat) (u : vec) (U : mat) : Prop :=
  exists F, affine F /\
    (forall x, unit_last x -> frame x (mapp 7 F x)) /\ transported F v S u U.
(** Both see the same. *)
Definition see_the_same (frame frame' : vec -> vec -> Prop) (v : vec) (S : mat) (v' : vec) (S' : mat) : Prop :=
  exists u U, seen frame v S u U /\ seen frame' v' S' u U.
(** States with the same particles, that look the same from the frames of the elements
    at their entrance or exit. *)
Definition look_alike (num : double -> R) (c c' : tcfg) (z : R) (ref : particle) (ions : list particle) (s s' : mstate) : Prop :=
  forall j q v S v' S', nth_error ions j = Some q ->
    nth_error (ms_m0 s) j = Some v -> nth_error (ms_m1 s) j = Some S ->
    nth_error (ms_m0 s') j = Some v' -> nth_error (ms_m1 s') j = Some S' ->
    see_the_same (framed num c z ref q) (framed num c' z ref q) v S v' S'.

(** The same covariance, the centroid moved by some mm. *)
Definition displaced (x y : R) (s s' : mstate) : Prop :=
  forall j v S v' S',
    nth_error (ms_m0 s) j = Some v -> nth_error (ms_m1 s) j = Some S ->
    nth_error (ms_m0 s') j = Some v' -> nth_error (ms_m1 s') j = Some S' ->
    meq 7 S S' /\
    veq 7 v' (fun i => match i with 0 => (v 0%nat + x)%R | 2 => (v 2%nat + y)%R | _ => v i end%nat).

(** Displaced elements. *)
Definition same_angles (num : double -> R) (c c' : tcfg) : Prop :=
  Forall (fun n => real_at num c n 0 = real_at num c' n 0) ["pitch"; "yaw"; "roll"].

(** The kinds whose motion is described and that can be misplaced. *)
Definition steerable (c : tcfg) : Prop :=
  Exists (fun t => is_a t c) ["quadrupole"; "equad"; "solenoid"; "orbtrim"; "sbend"].
(** What a particle meets in an element that is placed well: just what is inside. *)
Section Bare.
Variable w : world.
Variable c : tcfg.
Variables ref p : particle.
Let num := w_num w.
Let L := real_at num c "L" 0 * 1000.
Inductive bare_course : list leg -> Prop :=
| b_quad l : is_a "quadrupole" c -> field w c (real_at num c "B2" 0) l ->
    bare_course (stretches (fun b => coasting (b / rigidity p / 1000000) (- (b / rigidity p / 1000000)) p) L l)
| b_equad l : is_a "equad" c ->
    field w c (real_at num c "V" 0 / (real_at num c "radius" 0 * real_at num c "radius" 0)) l ->
    bare_course (stretches (fun e => let k := 2 * e / (beta_of p * lightspeed) / rigidity p / 1000000 in
                                     coasting k (- k) p) L l)
| b_sol l : is_a "solenoid" c -> field w c (real_at num c "B" 0) l ->
    bare_course (stretches (fun b => spiralling (b / rigidity p / 2 / 1000) p) L l)
| b_trim : is_a "orbtrim" c ->
    bare_course [Via (rolled (angle_of w c "xyrotate")); Via (kicked w c ref p)]
| b_bend fit : is_a "sbend" c -> flagged w c "HdipoleFitMode" 1 fit ->
    bare_course (if Req_EM_T L 0 then []
                 else sector w c ref p (if N.eqb fit 0 then sqrt (1 + real_at num c "bg" 0 ^ 2) else gamma_of ref)).
End Bare.
