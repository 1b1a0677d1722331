(** C65: what a cavity with EmitGrowth adds to the spread of a beam. *)
From Coq Require Import Reals List String Bool NArith.
From Verif Require Import Mat Dbl Machine_Model Machine_Spec Moment_Model Moment_Spec Motion_Spec Round_Spec Frame_Spec Cavity_Model Cavity_Spec Growth_Spec.
From Verif Require Import Moment2_Proofs Cavity5_Proofs Cavity10_Proofs Cavity14_Proofs Growth_Proofs Growth2_Proofs Growth3_Proofs.
Import ListNotations.
Open Scope R_scope.
Open Scope string_scope.
Open Scope list_scope.

Theorem C65_growth_partial : forall w files ec s f cv, let w' := with_cavities w files in
  sane w' -> goes_through w' ec s f -> is_a "rfcavity" ec -> load_cavity w files ec = Ok cv -> cv_eg cv <> 0%N -> placed_well (w_num w) ec ->
  forall j q v S, nth_error (ms_real s) j = Some q -> nth_error (ms_m0 s) j = Some v -> nth_error (ms_m1 s) j = Some S ->
  exists q' Tm S' gx gy gz, nth_error (ms_real f) j = Some q' /\ nth_error (ms_tm f) j = Some Tm /\ nth_error (ms_m1 f) j = Some S' /\
    let U := carried_by Tm S in
    (forall i k, (i < 7)%nat -> (k < 7)%nat -> S' i k = stretch gx gy gz i * stretch gx gy gz k * U i k) /\
    (0 < U 4%nat 4%nat ->
      let D := sqrt (U 4%nat 4%nat) in
      let ref := ms_ref f in
      let p := recalc q in
      (0 < U 1%nat 1%nat -> 0 <= S 0%nat 0%nat -> 1 <= gx /\ gx ^ 2 * U 1%nat 1%nat = U 1%nat 1%nat + added cv ref p q' D (S 0%nat 0%nat + v 0%nat ^ 2)) /\
      (0 < U 3%nat 3%nat -> 0 <= S 2%nat 2%nat -> 1 <= gy /\ gy ^ 2 * U 3%nat 3%nat = U 3%nat 3%nat + added cv ref p q' D (S 2%nat 2%nat + v 2%nat ^ 2)) /\
      (0 < U 5%nat 5%nat -> mid_gamma p q' <> 1 -> p_Es ref <> 0 -> let e := U 5%nat 5%nat + added_energy cv ref p q' D in
         (0 < e -> 0 < gz /\ gz ^ 2 * U 5%nat 5%nat = e) /\ (e <= 0 -> gz = 1))).
Proof. exact cavity_grows. Qed.
Print Assumptions C65_growth_partial.
Example C65_growth_partial_ex : exists f cv,
  let w := world0 num6 true in let ec := cavity6 done in
  sane (with_cavities w files5) /\ goes_through (with_cavities w files5) ec state6 f /\ is_a "rfcavity" ec /\
  load_cavity w files5 ec = Ok cv /\ cv_eg cv <> 0%N /\ placed_well (w_num w) ec /\
  nth_error (ms_real state6) 0 = Some slow /\ nth_error (ms_m1 state6) 0 = Some mid.
Proof.
  destruct (through6 true done) as [f H]. exists f, (loaded6 done). split; [apply world6_sane|]. split; [exact H|]. split; [reflexivity|].
  split; [apply load6|]. split; [discriminate|]. split; [apply cavity6_well|]. split; reflexivity.
Qed.

Theorem C65_emittance_partial : forall w files ec s f cv, let w' := with_cavities w files in
  sane w' -> goes_through w' ec s f -> is_a "rfcavity" ec -> load_cavity w files ec = Ok cv -> cv_eg cv <> 0%N -> placed_well (w_num w) ec ->
  forall j q v S, nth_error (ms_real s) j = Some q -> nth_error (ms_m0 s) j = Some v -> nth_error (ms_m1 s) j = Some S ->
  exists Tm S', nth_error (ms_tm f) j = Some Tm /\ nth_error (ms_m1 f) j = Some S' /\
    let U := carried_by Tm S in
    forall i, (i = 0 \/ i = 2)%nat -> 0 < U 4%nat 4%nat -> 0 < U (i + 1)%nat (i + 1)%nat -> 0 <= S i i ->
    let area (M : mat) := M i i * M (i + 1)%nat (i + 1)%nat - M i (i + 1)%nat * M (i + 1)%nat i in
    0 <= area U -> area U <= area S'.
Proof. exact emittance_grows. Qed.
Print Assumptions C65_emittance_partial.
Example C65_emittance_partial_ex : exists f cv,
  let w := world0 num6 false in let ec := cavity6 dzero in
  sane (with_cavities w files5) /\ goes_through (with_cavities w files5) ec state6 f /\ is_a "rfcavity" ec /\
  load_cavity w files5 ec = Ok cv /\ cv_eg cv <> 0%N /\ placed_well (w_num w) ec /\
  nth_error (ms_real state6) 0 = Some slow /\ nth_error (ms_m1 state6) 0 = Some mid.
Proof.
  destruct (through6 false dzero) as [f H]. exists f, (loaded6 dzero). split; [apply world6_sane|]. split; [exact H|]. split; [reflexivity|].
  split; [apply load6|]. split; [discriminate|]. split; [apply cavity6_well|]. split; reflexivity.
Qed.

Theorem C65_longitudinal_refuted : exists w files ec cv ref a b m x gx gy gz,
  load_cavity w files ec = Ok cv /\ cv_eg cv <> 0%N /\ moving a /\ moving b /\
  w_cav_growth (with_cavities w files) ec ref (recalc a) (recalc b) m x = (gx, gy, gz) /\
  (0 < m 1%nat 1%nat /\ 0 < m 3%nat 3%nat /\ 0 < m 4%nat 4%nat /\ 0 < m 5%nat 5%nat) /\ 0 < gz < 1.
Proof. exact C65_longitudinal_refuted_w. Qed.
Print Assumptions C65_longitudinal_refuted.

Theorem C65_spread_refuted : exists w files ec cv ref a b m x2 y2 gx gy gz,
  load_cavity w files ec = Ok cv /\ cv_eg cv <> 0%N /\ moving a /\ moving b /\
  w_cav_growth (with_cavities w files) ec ref (recalc a) (recalc b) m (x2, 0, y2, 0) = (gx, gy, gz) /\
  (0 < m 1%nat 1%nat /\ 0 < m 3%nat 3%nat /\ 0 < m 4%nat 4%nat /\ 0 < m 5%nat 5%nat /\ 0 < x2) /\
  (exists D, 0 < D /\ variance D (fun d => d) = m 4%nat 4%nat) /\
  forall D, 0 < D -> variance D (fun d => d) = m 4%nat 4%nat ->
    gx ^ 2 * m 1%nat 1%nat < m 1%nat 1%nat + added cv ref (recalc a) (recalc b) D x2.
Proof. exact C65_spread_refuted_w. Qed.
Print Assumptions C65_spread_refuted.
