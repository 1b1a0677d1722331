(** What comes back after going forward and then backward, stated on its own. *)
From Coq Require Import Reals List String Bool NArith ZArith.
From Verif Require Import SMap Dbl Config_Spec Mat Machine_Model Machine_Spec Moment_Model Moment_Spec Motion_Spec.
Import ListNotations.
Open Scope R_scope.
Open Scope string_scope.
Open Scope list_scope.

(** The same particle: charge, weight, rest energy, frequency, kinetic energy and
    phase. *)
Definition same_particle (p q : particle) : Prop :=
  same_ion p q /\ p_Ek q = p_Ek p /\ p_phis q = p_phis p.
(** The same position, particles, centroids and covariance matrices. *)
Definition restored (s s' : mstate) : Prop :=
  ms_pos s' = ms_pos s /\ same_particle (ms_ref s) (ms_ref s') /\
  Forall2 same_particle (ms_real s) (ms_real s') /\
  Forall2 (veq 7) (ms_m0 s) (ms_m0 s') /\ Forall2 (meq 7) (ms_m1 s) (ms_m1 s').

(** Entry [j] satisfies [P], for every [j] from [i] on, [n] of them. *)
Definition along (es : list tcfg) (i n : nat) (P : tcfg -> Prop) : Prop :=
  forall j, (i <= j < i + n)%nat -> exists ec, nth_error es j = Some ec /\ P ec.

(** All particles of the state move. *)
Definition all_moving (s : mstate) : Prop := moving (ms_ref s) /\ Forall moving (ms_real s).

(** A cavity that goes both ways: neither pitched nor yawed, and without emittance
    growth. *)
Definition plain_cavity (w : world) (c : tcfg) : Prop :=
  is_a "rfcavity" c /\
  real_at (w_num w) c "pitch" 0 = 0 /\ real_at (w_num w) c "yaw" 0 = 0 /\
  (forall ref p q m x, w_cav_growth w c ref p q m x = (1, 1, 1)).
(** An element that goes both ways. *)
Definition reversible (w : world) (c : tcfg) : Prop :=
  (guiding c /\ (is_a "tmatrix" c -> forall l m, vec_at c "matrix" = Some l -> fills_mat (w_num w) l m -> affine m)) \/
  plain_cavity w c.
(** The cavity computations do not bring particles to a halt. *)
Definition cavities_keep_moving (w : world) : Prop :=
  (forall c p p' phi, w_cav_ref w c p = Ok (p', phi) -> moving p -> moving p') /\
  (forall c phi p T p', snd (w_cav_one w c phi p T) = Ok p' -> moving p -> moving p').

(** The matrix can be undone. *)
Definition regular (T : mat) : Prop := exists B, meq 7 (mmul 7 B T) mid.
(** A cavity that goes both ways for every moving particle: its computations succeed,
    leave the quantities derived from the energy up to date, and give a matrix that
    can be undone. *)
Definition sound_cavity (w : world) (c : tcfg) : Prop :=
  plain_cavity w c /\
  (forall p, moving p -> exists q phi, w_cav_ref w c p = Ok (q, phi)) /\
  (forall phi p T, moving p -> recalc p = p -> regular T ->
     exists q, snd (w_cav_one w c phi p T) = Ok q /\ recalc q = q /\ regular (fst (w_cav_one w c phi p T))).
(** Everything the element needs is there, and its motion can be retraced. *)
Definition works (w : world) (c : tcfg) : Prop :=
  described c /\ equipped w c /\ proper_magnet (w_num w) c /\ ~ is_a "tmatrix" c.
