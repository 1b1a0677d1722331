(** More about the RF cavity: what it does to a beam, mirrored gaps, turned phases,
    and cavities without field. *)
From Coq Require Import Reals List String Bool NArith ZArith.
From Verif Require Import SMap Dbl Config_Spec Mat Machine_Model Moment_Model Moment_Spec Motion_Spec Cavity_Model Cavity_Spec.
Import ListNotations.
Open Scope R_scope.
Open Scope string_scope.
Open Scope list_scope.

(** ** What a cavity does to a beam *)
(** No emittance growth is computed for the cavity. *)
Definition no_growth (w : world) (c : tcfg) : Prop :=
  forall ref p_in p m x, w_cav_growth w c ref p_in p m x = (1, 1, 1).
(** The matrix a cavity's computation starts from. *)
Definition start_matrix (L : R) : mat :=
  fun i j => match i, j with 0, 1 | 2, 3 => L | _, _ => (if Nat.eqb i j then 1 else 0)%R end%nat.
(** Entries where the kick to the phase and energy of the charge state sits. *)
Definition shift_entry (i j : nat) : Prop := (i = 4 \/ i = 5)%nat /\ j = 6%nat.

(** ** Mirrored gaps *)
(** The transit time factors of a gap, and those of its mirror image in a cavity of
    length [L]. *)
Definition mirrored (L : R) (t t' : ttf) : Prop :=
  t_Ecen t + t_Ecen t' = L /\ t_T t' = - t_T t /\ t_Tp t' = - t_Tp t /\
  t_S t' = t_S t /\ t_Sp t' = t_Sp t /\ t_V0 t' = t_V0 t.
(** The range of velocities a cavity type has fits for, and its length in mm. *)
Definition built_in : list (nat * (R * R * R)) :=
  [(41%nat, (25 / 1000, 80 / 1000, 120)); (85%nat, (50 / 1000, 250 / 1000, 150));
   (29%nat, (150 / 1000, 400 / 1000, 150)); (53%nat, (300 / 1000, 600 / 1000, 250))].
(** The length that counts: that of the type where the fits are used, otherwise the
    last position of the table. *)
Definition mirror_length (cv : cavity) (label : nat) (beta L : R) : Prop :=
  (cv_force cv = false /\ exists lo hi, In (label, (lo, hi, L)) built_in /\ lo <= beta <= hi) \/
  ((cv_force cv = true \/ forall lo hi L', In (label, (lo, hi, L')) built_in -> ~ lo <= beta <= hi) /\
   L = nth 0 (last (cv_axis cv) []) 0).

(** ** Cavities without field *)
Definition unpowered (num : double -> R) (c : tcfg) : Prop :=
  exists x, tfind "scl_fac" c = Some (TNum x) /\ num x = 0.
(** The length of the table, and of the drifts among the pieces, in mm. *)
Definition table_length (cv : cavity) : R := fst (last (cv_data cv) (0, 0)) - fst (hd (0, 0) (cv_data cv)).
Definition drifts_length (cv : cavity) : R :=
  fold_right Rplus 0 (map r_len (filter (fun P => String.eqb (r_type P) "drift") (cv_lat cv))).
(** The length that counts longitudinally: Generic cavities add up their drifts, the
    others go by the table. *)
Definition lon_length (cv : cavity) : R := if Nat.eqb (cv_cavi cv) 0 then drifts_length cv else table_length cv.
(** The matrix of a drift of length [Lt] across and [Ll] along. *)
Definition coast (Lt Ll : R) (p : particle) : mat :=
  fun i j => match i, j with 0, 1 | 2, 3 => Lt | 4, 5 => (slip p * Ll)%R | _, _ => (if Nat.eqb i j then 1 else 0)%R end%nat.
(** A particle further on by a phase. *)
Definition later (p : particle) (x : R) : particle :=
  mkP (p_Z p) (p_Q p) (p_Es p) (p_W p) (p_gamma p) (p_beta p) (p_bg p) (p_freq p) (p_lambda p) (p_K p) (p_phis p + x) (p_Ek p).

(** ** Turned phases *)
(** Entries that differ in the phase only, by a number of full turns. *)
Definition turned (num : double -> R) (n : Z) (c c' : tcfg) : Prop :=
  (forall name, name <> "phi" -> tfind name c' = tfind name c) /\
  exists x x', tfind "phi" c = Some (TNum x) /\ tfind "phi" c' = Some (TNum x') /\ num x' = num x + 360 * IZR n.
(** The same state, up to full turns of the phase of the last cavity it remembers. *)
Definition same_but_turns (s s' : mstate) : Prop :=
  ms_pos s' = ms_pos s /\ ms_ref s' = ms_ref s /\ ms_real s' = ms_real s /\ ms_m0 s' = ms_m0 s /\ ms_m1 s' = ms_m1 s /\ ms_tm s' = ms_tm s /\
  ms_env0 s' = ms_env0 s /\ ms_rms s' = ms_rms s /\ ms_env1 s' = ms_env1 s /\ exists k, ms_phi0 s' = ms_phi0 s + 360 * IZR k.
