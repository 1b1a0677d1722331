(** C63: in exact arithmetic, the matrix of an RF cavity of type Generic is that of the
    pieces of its data file.  [p] is the particle as it comes in, [T] the matrix before,
    [phi] the phase of the cavity, [cv] what has been read from the data file. *)
From Coq Require Import Reals List String Bool NArith ZArith Lia Lra.
From Verif Require Import SMap Dbl Config_Spec Mat Machine_Model Moment_Model Moment_Spec Cavity_Model Cavity_Spec Cavity3_Spec.
From Verif Require Import Moment2_Proofs Cavity5_Proofs Cavity11_Proofs Cavity12_Proofs.
Import ListNotations.
Open Scope R_scope.
Open Scope string_scope.
Open Scope list_scope.

(** ** C63 *)

(** Positions and angles go from piece to piece: drifts, lenses, vertical kicks, and
    the damping of accelerating gaps. *)
Theorem C63_rays_through_the_pieces : forall w files c phi p T p' cv scl,
  snd (w_cav_one (with_cavities w files) c phi p T) = Ok p' -> load_cavity w files c = Ok cv -> cv_cavi cv = 0%nat ->
  num_of w c "scl_fac" = Ok scl -> 0 < p_Es p -> cv_f cv <> 0 -> int_tables (cv_lat cv) ->
  let M := fst (w_cav_one (with_cavities w files) c phi p T) in
  forall r u1 u2, let r' := through_all cv p scl (cv_lat cv) (p_Ek p + p_Es p, cv_f cv / p_freq p * p_phis p + phi) r in
    mapp msize M (ray_vec r u1 u2) 0%nat = x r' /\ mapp msize M (ray_vec r u1 u2) 1%nat = x' r' /\
    mapp msize M (ray_vec r u1 u2) 2%nat = y r' /\ mapp msize M (ray_vec r u1 u2) 3%nat = y' r'.
Proof. exact element_rays. Qed.
Print Assumptions C63_rays_through_the_pieces.
Example C63_rays_through_the_pieces_ex : let w := world0 num01 true in exists p',
  snd (w_cav_one (with_cavities w files4) cavity2 phi4 slow mid) = Ok p' /\ load_cavity w files4 cavity2 = Ok loaded4 /\ cv_cavi loaded4 = 0%nat /\
  num_of w cavity2 "scl_fac" = Ok 1 /\ 0 < p_Es slow /\ cv_f loaded4 <> 0 /\ int_tables (cv_lat loaded4).
Proof.
  destruct (one4 true mid) as [p' H]. exists p'. split; [exact H|]. split; [apply load4|]. split; [reflexivity|]. split; [reflexivity|].
  split; [cbn; lra|]. split; [cbn; lra|]. apply tables4.
Qed.

(** Phase and energy: the particle's own way through the pieces is one of those
    [beam_moves] describes, and the matrix holds the derivatives of [beam_moves] there. *)
Theorem C63_phase_and_energy : forall w files c phi p T p' cv scl,
  snd (w_cav_one (with_cavities w files) c phi p T) = Ok p' -> load_cavity w files c = Ok cv -> cv_cavi cv = 0%nat ->
  num_of w c "scl_fac" = Ok scl -> 0 < p_Es p -> cv_f cv <> 0 -> int_tables (cv_lat cv) ->
  let M := fst (w_cav_one (with_cavities w files) c phi p T) in
  let n := cv_f cv / p_freq p in
  let WF := (p_Ek p + p_Es p, n * p_phis p + phi) in
  let st := stages cv p scl (cv_lat cv) WF in
  let WF' := after_all cv p scl (cv_lat cv) WF in
  moves_all cv p st (n * p_phis p + phi, (p_Ek p + p_Es p) / 1000000) = (snd WF', fst WF' / 1000000) /\
  forall cu t a b, cu t = (p_phis p, (p_Ek p + p_Es p) / 1000000) -> velocity cu t a b ->
    velocity (fun s => beam_moves cv p n phi st (cu s)) t (M 4%nat 4%nat * a + M 4%nat 5%nat * b) (M 5%nat 4%nat * a + M 5%nat 5%nat * b).
Proof. exact element_longitudinal. Qed.
Print Assumptions C63_phase_and_energy.
Example C63_phase_and_energy_ex : let w := world0 num01 true in exists p',
  snd (w_cav_one (with_cavities w files4) cavity2 phi4 slow mid) = Ok p' /\ load_cavity w files4 cavity2 = Ok loaded4 /\ cv_cavi loaded4 = 0%nat /\
  num_of w cavity2 "scl_fac" = Ok 1 /\ 0 < p_Es slow /\ cv_f loaded4 <> 0 /\ int_tables (cv_lat loaded4) /\
  exists cu : R -> R * R, cu 0 = (p_phis slow, (p_Ek slow + p_Es slow) / 1000000) /\ velocity cu 0 1 0.
Proof.
  destruct C63_rays_through_the_pieces_ex as (p' & H1 & H2 & H3 & H4 & H5 & H6 & H7). exists p'. repeat (split; [assumption|]).
  exists (fun s => (p_phis slow + s, (p_Ek slow + p_Es slow) / 1000000)). split; [f_equal; ring|]. split; cbn [fst snd].
  - replace 1 with (0 + 1) at 1 by ring. apply (derivable_pt_lim_plus (fun _ => p_phis slow) (fun s => s)); [apply derivable_pt_lim_const|apply derivable_pt_lim_id].
  - apply derivable_pt_lim_const.
Qed.

(** Acceleration shrinks the area of both transverse planes as the momentum grows. *)
Theorem C63_damping : forall w files c phi p T p' cv scl,
  snd (w_cav_one (with_cavities w files) c phi p T) = Ok p' -> load_cavity w files c = Ok cv -> cv_cavi cv = 0%nat ->
  num_of w c "scl_fac" = Ok scl -> 0 < p_Es p -> cv_f cv <> 0 -> int_tables (cv_lat cv) ->
  let M := fst (w_cav_one (with_cavities w files) c phi p T) in
  let W' := fst (after_all cv p scl (cv_lat cv) (p_Ek p + p_Es p, cv_f cv / p_freq p * p_phis p + phi)) in
  det_at M 0 = momentum_at p (p_Ek p + p_Es p) / momentum_at p W' /\
  det_at M 2 = momentum_at p (p_Ek p + p_Es p) / momentum_at p W'.
Proof. exact element_damping. Qed.
Print Assumptions C63_damping.
Example C63_damping_ex : let w := world0 num01 true in exists p',
  snd (w_cav_one (with_cavities w files4) cavity2 phi4 slow mid) = Ok p' /\ load_cavity w files4 cavity2 = Ok loaded4 /\ cv_cavi loaded4 = 0%nat /\
  num_of w cavity2 "scl_fac" = Ok 1 /\ 0 < p_Es slow /\ cv_f loaded4 <> 0 /\ int_tables (cv_lat loaded4).
Proof. exact C63_rays_through_the_pieces_ex. Qed.
