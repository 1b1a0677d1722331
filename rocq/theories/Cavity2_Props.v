(** C53, C54, C57 and C58: what an RF cavity does to a beam, in exact arithmetic.
    [files] are the data files of the cavities, [w] holds the rest of the program's
    surroundings.  [goes_through w c s f]: beam [s] has passed forward through an
    element with the entry [c], in a machine after any history of reconfigurations
    and completed forward propagations, and came out as [f]. *)
From Coq Require Import Reals List String Bool NArith ZArith Lia Lra.
From Verif Require Import SMap Dbl Config_Spec Mat Machine_Model Machine_Spec Moment_Model Moment_Spec Motion_Spec Moment2_Proofs Motion5_Proofs Frame_Spec.
From Verif Require Import Cavity_Model Cavity_Spec Cavity2_Spec Cavity5_Proofs Cavity6_Proofs Cavity7_Proofs Cavity8_Proofs Cavity9_Proofs Cavity10_Proofs.
Import ListNotations.
Open Scope R_scope.
Open Scope string_scope.
Open Scope list_scope.

(** ** C53 *)

(** Two cavities that differ by full turns of their phase leave a beam in the same
    state.  (The state remembers the phase of the cavity, in degrees, up to full
    turns.) *)
Theorem C53_full_turns : forall w files n c c' s f f', proper_files files -> (forall n, w_readcfg w n <> Throw BadIndex) ->
  turned (w_num w) n c c' -> is_a "rfcavity" c ->
  goes_through (with_cavities w files) c s f -> goes_through (with_cavities w files) c' s f' -> same_but_turns f f'.
Proof. exact turns. Qed.
Print Assumptions C53_full_turns.
Example C53_full_turns_ex : exists f f', turned num3 1 (cavity3 done) (cavity3 d361) /\ is_a "rfcavity" (cavity3 done) /\ proper_files files2 /\
  goes_through (world3 true) (cavity3 done) (state0 2) f /\ goes_through (world3 true) (cavity3 d361) (state0 2) f'.
Proof.
  destruct (state0_moving 2) as [M1 M2].
  destruct (through_cavity3 true done (state0 2) (state0_aligned 1) M1 M2) as [f G].
  destruct (through_cavity3 true d361 (state0 2) (state0_aligned 1) M1 M2) as [f' G'].
  exists f, f'. split; [apply cavity3_turned|]. split; [reflexivity|]. split; [apply files2_proper|]. split; assumption.
Qed.

(** The computations behind it, for every particle and matrix, whether they succeed
    or fail: the reference particle comes out the same, with a driven phase further
    on by the turns; charge states under that phase come out the same, with the same
    matrix; growth factors are the same; and one cavity loads if the other does. *)
Theorem C53_same_computations : forall w files n c c', turned (w_num w) n c c' ->
  let w' := with_cavities w files in
  (forall p, w_cav_ref w' c' p = match w_cav_ref w' c p with Ok (q, phi) => Ok (q, phi + 2 * PI * IZR n) | Throw e => Throw e end) /\
  (forall phi p M, w_cav_one w' c' (phi + 2 * PI * IZR n) p M = w_cav_one w' c phi p M) /\
  (forall ref p_in p m x, w_cav_growth w' c' ref p_in p m x = w_cav_growth w' c ref p_in p m x) /\
  w_cav_ctor w' c' = w_cav_ctor w' c.
Proof. exact computations_turn. Qed.
Print Assumptions C53_same_computations.
Example C53_same_computations_ex : turned num3 1 (cavity3 done) (cavity3 d361) /\
  exists q phi, w_cav_ref (world3 true) (cavity3 done) slow = Ok (q, phi).
Proof. split; [apply cavity3_turned|]. apply ref3. apply slow_passes. Qed.

(** ** C54 *)

(** A cavity whose field scale is zero leaves every particle as it is but for its
    phase, which advances by the particle's wave number times the length of the field
    table.  If it is not misplaced, the matrix it reports is that of a drift, apart
    from the shifts of phase and energy. *)
Theorem C54_no_field : forall w files ec cv s f, load_cavity w files ec = Ok cv -> unpowered (w_num w) ec ->
  proper_files files -> (forall n, w_readcfg w n <> Throw BadIndex) ->
  goes_through (with_cavities w files) ec s f -> is_a "rfcavity" ec -> moving (ms_ref s) -> Forall moving (ms_real s) ->
  let onward q := recalc (later q (wavenumber q * table_length cv)) in
  ms_ref f = onward (ms_ref s) /\ ms_real f = map onward (ms_real s) /\
  (placed_well (w_num w) ec -> forall j q, nth_error (ms_real s) j = Some q ->
    exists Tm, nth_error (ms_tm f) j = Some Tm /\
      forall i k, (i < 7)%nat -> (k < 7)%nat -> ~ shift_entry i k -> Tm i k = coast (drifts_length cv) (lon_length cv) q i k).
Proof. exact no_field. Qed.
Print Assumptions C54_no_field.
Example C54_no_field_ex : exists f, load_cavity (world0 num3 true) files2 (cavity3 done) = Ok (loaded3 done) /\ unpowered num3 (cavity3 done) /\
  goes_through (world3 true) (cavity3 done) (state0 2) f /\ moving (ms_ref (state0 2)) /\ Forall moving (ms_real (state0 2)) /\
  placed_well num3 (cavity3 done) /\ table_length (loaded3 done) = 1 /\ drifts_length (loaded3 done) = 2.
Proof.
  destruct (state0_moving 2) as [M1 M2].
  destruct (through_cavity3 true done (state0 2) (state0_aligned 1) M1 M2) as [f G].
  exists f. split; [apply load3|]. split; [apply cavity3_off|]. split; [exact G|]. split; [exact M1|]. split; [exact M2|].
  split; [apply cavity3_well|]. split; [unfold table_length; cbn; lra|unfold drifts_length; cbn; lra].
Qed.

(** ** C57 *)

(** The transit time factors of the second gap mirror those of the first, for every
    cavity, field table, velocity and wave number; they are there for both gaps or
    for none. *)
Theorem C57_mirrored_gaps : forall cv label beta K scl,
  (exists L t t', trans_facts cv label beta K 1 scl = Ok t /\ trans_facts cv label beta K 2 scl = Ok t' /\
     mirrored L t t' /\ mirror_length cv label beta L) \/
  (exists e, trans_facts cv label beta K 1 scl = Throw e /\ trans_facts cv label beta K 2 scl = Throw e).
Proof. exact gaps_mirrored. Qed.
Print Assumptions C57_mirrored_gaps.
Example C57_mirrored_gaps_ex : exists t t', trans_facts easy 41 (5 / 100) 1 1 1 = Ok t /\ trans_facts easy 41 (5 / 100) 1 2 1 = Ok t' /\
  mirror_length easy 41 (5 / 100) 120.
Proof.
  destruct (fits_exist easy 41 (25 / 1000) (80 / 1000) 120 (5 / 100) 1 1 1) as [t E]; [reflexivity|left; reflexivity|lra|auto|].
  destruct (fits_exist easy 41 (25 / 1000) (80 / 1000) 120 (5 / 100) 1 2 1) as [t' E']; [reflexivity|left; reflexivity|lra|auto|].
  exists t, t'. split; [exact E|]. split; [exact E'|]. left. split; [reflexivity|]. exists (25 / 1000), (80 / 1000). split; [left; reflexivity|lra].
Qed.

(** They are there for the built-in types in the range of their fits. *)
Theorem C57_fits_exist : forall cv label lo hi L beta K gap scl, cv_force cv = false -> In (label, (lo, hi, L)) built_in -> lo <= beta <= hi ->
  gap = 1%nat \/ gap = 2%nat -> exists t, trans_facts cv label beta K gap scl = Ok t.
Proof. exact fits_exist. Qed.
Print Assumptions C57_fits_exist.
Example C57_fits_exist_ex : cv_force easy = false /\ In (41%nat, (25 / 1000, 80 / 1000, 120)) built_in /\ 25 / 1000 <= 5 / 100 <= 80 / 1000.
Proof. split; [reflexivity|]. split; [left; reflexivity|lra]. Qed.

(** ** C58 *)

(** What a cavity leaves of a beam, whatever its computations ([w_cav_ref] for the
    reference particle, [w_cav_one] for one charge state) give. *)
Theorem C58_what_a_cavity_does : forall w ec s f, sane w -> goes_through w ec s f -> is_a "rfcavity" ec ->
  let L := real_at (w_num w) ec "L" 0 in
  ms_pos f = ms_pos s + L /\ List.length (ms_real f) = List.length (ms_real s) /\
  exists ref phi, w_cav_ref w ec (recalc (ms_ref s)) = Ok (ref, phi) /\ ms_ref f = recalc ref /\
  forall j q v S, nth_error (ms_real s) j = Some q -> nth_error (ms_m0 s) j = Some v -> nth_error (ms_m1 s) j = Some S ->
  exists T q' Tm v' S', w_cav_one w ec phi (recalc q) (start_matrix L) = (T, Ok q') /\
    nth_error (ms_real f) j = Some (recalc q') /\ nth_error (ms_tm f) j = Some Tm /\ nth_error (ms_m0 f) j = Some v' /\ nth_error (ms_m1 f) j = Some S' /\
    (unit_last v -> veq 7 v' (mapp 7 Tm v)) /\
    (no_growth w ec -> unit_last v -> transported Tm v S v' S') /\
    (placed_well (w_num w) ec ->
       (unit_last v -> v' 4%nat = p_phis q' - p_phis ref /\ v' 5%nat = (p_Ek q' - p_Ek ref) / 1000000) /\
       forall i k, (i < 7)%nat -> (k < 7)%nat -> ~ shift_entry i k -> Tm i k = T i k).
Proof. exact cavity_does. Qed.
Print Assumptions C58_what_a_cavity_does.
Example C58_what_a_cavity_does_ex : exists f, sane (world3 true) /\ goes_through (world3 true) (cavity3 done) (state0 2) f /\ is_a "rfcavity" (cavity3 done) /\
  no_growth (world3 true) (cavity3 done) /\ placed_well num3 (cavity3 done) /\ Forall unit_last (ms_m0 (state0 2)).
Proof.
  destruct (state0_moving 2) as [M1 M2].
  destruct (through_cavity3 true done (state0 2) (state0_aligned 1) M1 M2) as [f G].
  exists f. split; [apply world3_sane|]. split; [exact G|]. split; [reflexivity|]. split; [intros ref p_in p m x; reflexivity|].
  split; [apply cavity3_well|]. repeat constructor.
Qed.
