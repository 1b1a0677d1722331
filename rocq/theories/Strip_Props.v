(** C36: charge strippers, in exact arithmetic. *)
From Coq Require Import Reals List String Bool NArith ZArith Arith Lia.
From Verif Require Import SMap Dbl Config_Spec Mat Machine_Model Machine_Spec Moment_Model Moment_Spec Motion_Spec Strip_Spec
  Moment2_Proofs Motion3_Proofs Motion5_Proofs Strip_Proofs.
Import ListNotations.
Open Scope R_scope.
Open Scope string_scope.
Open Scope list_scope.

(** After any history of reconfigurations and completed propagations: a stripper
    replaces the charge states by the configured ones, in order, with the configured
    or computed weights, all at the common centroid, with the pooled covariance
    scattered, and with the energy after the foil. *)
Theorem C36_what_a_stripper_leaves : forall w, sane w -> forall c m es us i ec st,
  new_machine (moment_reg w) c = Ok m -> tfind "elements" c = Some (TCfgs es) ->
  Forall strips_to_some es -> smooth (fun _ => aligned) strips_to_some m us ->
  nth_error (entries m es us) i = Some ec -> is_a "stripper" ec -> aligned (st_body st) -> forall p st',
  propagate (uses m us) st (N.of_nat i) 1 = Some p -> pr_end p = Ok st' ->
  stripped (w_num w) ec (st_body st) (st_body st').
Proof. exact strip_leaves. Qed.
Print Assumptions C36_what_a_stripper_leaves.
Example C36_what_a_stripper_leaves_ex : forall num a, exists m p st',
  let w := world0 num a in let us := foil_run (foil_off [done; dzero] [done; done]) in
  sane w /\ new_machine (moment_reg w) (mconf line2) = Ok m /\ Forall strips_to_some line2 /\
  smooth (fun _ => aligned) strips_to_some m us /\
  nth_error (entries m line2 us) 2 = Some (foil_off [done; dzero] [done; done]) /\
  is_a "stripper" (foil_off [done; dzero] [done; done]) /\ aligned (state0 2) /\
  propagate (uses m us) (mkSt 0 false (state0 2)) 2 1 = Some p /\ pr_end p = Ok st'.
Proof.
  intros num a. destruct (foil_runs num a (foil_off [done; dzero] [done; done])) as (m & H1 & H2 & H3 & H4 & H5 & _).
  { exists [done; dzero], [done; done]. split; [discriminate|auto]. }
  destruct (strip_works (world0 num a) (world0_sane num a) (mconf line2) m line2 _ 2 _ (mkSt 0 false (state0 2))
    H1 eq_refl H2 H3 H4 H5 (state0_aligned 1) (off_fine num) state0_spread) as (p & st' & P1 & P2).
  exists m, p, st'. cbv zeta. split; [apply world0_sane|]. repeat (split; [assumption|]). split; [apply state0_aligned|]. auto.
Qed.

(** It does so if its settings make sense and the momenta of the beam vary. *)
Theorem C36_completes : forall w, sane w -> forall c m es us i ec st,
  new_machine (moment_reg w) c = Ok m -> tfind "elements" c = Some (TCfgs es) ->
  Forall strips_to_some es -> smooth (fun _ => aligned) strips_to_some m us ->
  nth_error (entries m es us) i = Some ec -> is_a "stripper" ec -> aligned (st_body st) ->
  foil_fine (w_num w) ec (st_body st) -> spread_out (st_body st) ->
  exists p st', propagate (uses m us) st (N.of_nat i) 1 = Some p /\ pr_end p = Ok st'.
Proof. exact strip_works. Qed.
Print Assumptions C36_completes.
Example C36_completes_ex : forall num a, exists m,
  let w := world0 num a in let us := foil_run (foil [done; dzero] []) in
  sane w /\ new_machine (moment_reg w) (mconf line2) = Ok m /\ Forall strips_to_some line2 /\
  smooth (fun _ => aligned) strips_to_some m us /\
  nth_error (entries m line2 us) 2 = Some (foil [done; dzero] []) /\ is_a "stripper" (foil [done; dzero] []) /\
  aligned (state0 2) /\ foil_fine num (foil [done; dzero] []) (state0 2) /\
  foil_fine num (foil_off [done; dzero] [done; done]) (state0 2) /\ spread_out (state0 2).
Proof.
  intros num a. destruct (foil_runs num a (foil [done; dzero] [])) as (m & H1 & H2 & H3 & H4 & H5 & _).
  { exists [done; dzero], []. split; [discriminate|auto]. }
  exists m. cbv zeta. split; [apply world0_sane|]. repeat (split; [assumption|]). split; [apply state0_aligned|].
  split; [apply baron_fine|]. split; [apply off_fine|apply state0_spread].
Qed.

(** Backward it refuses, whatever its settings. *)
Theorem C36_backward_refused : forall w, sane w -> forall c m es us i ec st,
  new_machine (moment_reg w) c = Ok m -> tfind "elements" c = Some (TCfgs es) ->
  Forall strips_to_some es -> smooth (fun _ => aligned) strips_to_some m us ->
  nth_error (entries m es us) i = Some ec -> is_a "stripper" ec -> aligned (st_body st) -> forall p,
  propagate (uses m us) st (N.of_nat i) (-1) = Some p -> pr_end p = Throw RuntimeError.
Proof. exact strip_back. Qed.
Print Assumptions C36_backward_refused.
Example C36_backward_refused_ex : forall num a, exists m p,
  let w := world0 num a in let us := foil_run (foil [done; dzero] []) in
  sane w /\ new_machine (moment_reg w) (mconf line2) = Ok m /\ Forall strips_to_some line2 /\
  smooth (fun _ => aligned) strips_to_some m us /\
  nth_error (entries m line2 us) 2 = Some (foil [done; dzero] []) /\ is_a "stripper" (foil [done; dzero] []) /\
  aligned (state0 2) /\ propagate (uses m us) (mkSt 0 false (state0 2)) 2 (-1) = Some p.
Proof.
  intros num a. destruct (foil_runs num a (foil [done; dzero] [])) as (m & H1 & H2 & H3 & H4 & H5 & H6).
  { exists [done; dzero], []. split; [discriminate|auto]. }
  destruct (H6 (-1)%Z (or_intror eq_refl)) as (p & HP). exists m, p. cbv zeta. split; [apply world0_sane|]. repeat (split; [assumption|]).
  split; [apply state0_aligned|exact HP].
Qed.

(** It refuses inconsistent settings: no list of charges or of weights, another
    number of weights than of charges where the weights are given, an unknown model. *)
Theorem C36_inconsistent_refused : forall w, sane w -> forall c m es us i ec st,
  new_machine (moment_reg w) c = Ok m -> tfind "elements" c = Some (TCfgs es) ->
  Forall strips_to_some es -> smooth (fun _ => aligned) strips_to_some m us ->
  nth_error (entries m es us) i = Some ec -> is_a "stripper" ec -> aligned (st_body st) -> forall x p,
  ill_foil ec x -> propagate (uses m us) st (N.of_nat i) 1 = Some p -> pr_end p = Throw x.
Proof. exact strip_refuses. Qed.
Print Assumptions C36_inconsistent_refused.
Example C36_inconsistent_refused_ex : forall num a, exists m p,
  let w := world0 num a in let us := foil_run (foil_off [done; dzero] [done]) in
  sane w /\ new_machine (moment_reg w) (mconf line2) = Ok m /\ Forall strips_to_some line2 /\
  smooth (fun _ => aligned) strips_to_some m us /\
  nth_error (entries m line2 us) 2 = Some (foil_off [done; dzero] [done]) /\ is_a "stripper" (foil_off [done; dzero] [done]) /\
  aligned (state0 2) /\ ill_foil (foil_off [done; dzero] [done]) RuntimeError /\
  propagate (uses m us) (mkSt 0 false (state0 2)) 2 1 = Some p.
Proof.
  intros num a. destruct (foil_runs num a (foil_off [done; dzero] [done])) as (m & H1 & H2 & H3 & H4 & H5 & H6).
  { exists [done; dzero], [done]. split; [discriminate|auto]. }
  destruct (H6 1%Z (or_introl eq_refl)) as (p & HP). exists m, p. cbv zeta. split; [apply world0_sane|]. repeat (split; [assumption|]).
  split; [apply state0_aligned|]. split; [|exact HP].
  split; [reflexivity|]. left. split; [reflexivity|discriminate].
Qed.
