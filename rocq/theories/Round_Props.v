(** C32 for the simulation type MomentMatrix, in exact arithmetic. *)
From Coq Require Import Reals List String Bool NArith ZArith Arith Lia Lra.
From Verif Require Import SMap Dbl Config_Spec Mat Machine_Model Machine_Spec Moment_Model Moment_Spec Motion_Spec Round_Spec
  Moment2_Proofs Moment5_Proofs Moment6_Proofs Motion5_Proofs Round2_Proofs Round3_Proofs Round4_Proofs Round5_Proofs Round6_Proofs.
Import ListNotations.
Open Scope R_scope.
Open Scope string_scope.
Open Scope list_scope.

(** After any history of reconfigurations and completed forward propagations: if the
    range consists of elements that guide the beam, going through it forward and then
    backward brings every moving state back, whatever the element's settings. *)
Theorem C32_forward_then_backward : forall w, sane w -> forall c m es us i n st p f p' g,
  new_machine (moment_reg w) c = Ok m -> tfind "elements" c = Some (TCfgs es) ->
  Forall strips_to_some es -> smooth (fun r s => r = false /\ aligned s) strips_to_some m us ->
  (N.of_nat (List.length es) <= SIZE_MAX)%N -> along (entries m es us) i n guiding ->
  aligned (st_body st) -> all_moving (st_body st) -> (Z.of_nat n <= INT_MAX)%Z ->
  propagate (uses m us) st (N.of_nat i) (Z.of_nat n) = Some p -> pr_end p = Ok f ->
  propagate (uses m (us ++ [UProp st (N.of_nat i) (Z.of_nat n)])) f (N.of_nat (i + n) - 1) (- Z.of_nat n) = Some p' ->
  pr_end p' = Ok g ->
  restored (st_body st) (st_body g).
Proof. exact (fun w W => machine_round w W all_moving guiding (guides_bounce w)). Qed.
Print Assumptions C32_forward_then_backward.
Example C32_forward_then_backward_ex : forall a, exists m p f p' g,
  let w := world0 one_num a in let us := [UReconf 1 (lens done)] in let st := mkSt 0 false (state0 2) in
  sane w /\ new_machine (moment_reg w) (mconf guides) = Ok m /\ Forall strips_to_some guides /\
  smooth (fun r s => r = false /\ aligned s) strips_to_some m us /\ along (entries m guides us) 0 2 guiding /\
  aligned (st_body st) /\ all_moving (st_body st) /\
  propagate (uses m us) st 0 2 = Some p /\ pr_end p = Ok f /\
  propagate (uses m (us ++ [UProp st 0 2])) f 1 (-2) = Some p' /\ pr_end p' = Ok g.
Proof.
  intros a. destruct (guides_runs a) as (W & m & Hm & HQ & HS & _). assert (AL := guides_along a m Hm).
  destruct (guided_works (world0 one_num a) W (mconf guides) m guides [UReconf 1 (lens done)] 0 2 (mkSt 0 false (state0 2)))
    as (p & f & p' & g & H1 & H2 & H3 & H4 & _); auto; try discriminate; [apply state0_aligned|apply state0_moving|].
  exists m, p, f, p', g. cbv zeta. split; [exact W|]. split; [exact Hm|]. split; [exact HQ|]. split; [exact HS|].
  split; [intros j Hj; destruct (AL j Hj) as (ec & E1 & E2 & _); exists ec; split; [exact E1|left; exact E2]|].
  split; [apply state0_aligned|]. split; [apply state0_moving|]. auto.
Qed.

(** The same with RF cavities, for centroids whose constant component is one; a
    cavity in the range must not be pitched or yawed and not blow up the beam. *)
Theorem C32_with_cavities : forall w, sane w -> cavities_affine w -> cavities_keep_ions w -> cavities_keep_moving w ->
  forall c m es us i n st p f p' g,
  new_machine (moment_reg w) c = Ok m -> tfind "elements" c = Some (TCfgs es) ->
  Forall strips_to_some es -> smooth (fun r s => r = false /\ aligned s) strips_to_some m us ->
  (N.of_nat (List.length es) <= SIZE_MAX)%N -> along (entries m es us) i n (reversible w) ->
  aligned (st_body st) -> all_moving (st_body st) /\ Forall unit_last (ms_m0 (st_body st)) -> (Z.of_nat n <= INT_MAX)%Z ->
  propagate (uses m us) st (N.of_nat i) (Z.of_nat n) = Some p -> pr_end p = Ok f ->
  propagate (uses m (us ++ [UProp st (N.of_nat i) (Z.of_nat n)])) f (N.of_nat (i + n) - 1) (- Z.of_nat n) = Some p' ->
  pr_end p' = Ok g ->
  restored (st_body st) (st_body g).
Proof. exact (fun w W KA KI KM => machine_round w W steady (reversible w) (all_bounce w KA KI KM)). Qed.
Print Assumptions C32_with_cavities.
Example C32_with_cavities_ex : forall a, exists m p f p' g,
  let w := world0 one_num a in let st := mkSt 0 false (state0 2) in
  sane w /\ cavities_affine w /\ cavities_keep_ions w /\ cavities_keep_moving w /\
  new_machine (moment_reg w) (mconf powered) = Ok m /\ Forall strips_to_some powered /\
  along (entries m powered []) 0 3 (reversible w) /\
  aligned (st_body st) /\ all_moving (st_body st) /\ Forall unit_last (ms_m0 (st_body st)) /\
  propagate m st 0 3 = Some p /\ pr_end p = Ok f /\
  propagate (uses m [UProp st 0 3]) f 2 (-3) = Some p' /\ pr_end p' = Ok g.
Proof.
  intros a. destruct (powered_runs a) as (m & Hm & HQ & AL). assert (W := world0_sane one_num a).
  destruct (world0_cavities one_num a) as [KI KA]. assert (KM := world0_keeps one_num a).
  destruct (all_works (world0 one_num a) KA KI KM W (mconf powered) m powered [] 0 3 (mkSt 0 false (state0 2)))
    as (p & f & p' & g & H1 & H2 & H3 & H4 & _); auto; try discriminate; try exact I;
    [apply state0_aligned|apply state0_moving|apply state0_unit|].
  exists m, p, f, p', g. cbv zeta. split; [exact W|]. split; [exact KA|]. split; [exact KI|]. split; [exact KM|].
  split; [exact Hm|]. split; [exact HQ|].
  split; [intros j Hj; destruct (AL j Hj) as (ec & E1 & E2); exists ec; split; [exact E1|]; apply both_reversible; auto|].
  split; [apply state0_aligned|]. split; [apply state0_moving|]. split; [apply state0_unit|]. auto.
Qed.

(** Both ways complete if the elements have all their settings and the computations
    of the cavities succeed; the state is back. *)
Theorem C32_both_ways_complete : forall w, cavities_affine w -> cavities_keep_ions w -> cavities_keep_moving w -> sane w ->
  forall c m es us i n st,
  new_machine (moment_reg w) c = Ok m -> tfind "elements" c = Some (TCfgs es) ->
  Forall strips_to_some es -> smooth (fun r s => r = false /\ aligned s) strips_to_some m us ->
  (N.of_nat (List.length es) <= SIZE_MAX)%N ->
  along (entries m es us) i n (fun ec => works w ec \/ sound_cavity w ec) ->
  aligned (st_body st) -> all_moving (st_body st) -> Forall unit_last (ms_m0 (st_body st)) -> (Z.of_nat n <= INT_MAX)%Z ->
  exists p f p' g,
    propagate (uses m us) st (N.of_nat i) (Z.of_nat n) = Some p /\ pr_end p = Ok f /\
    propagate (uses m (us ++ [UProp st (N.of_nat i) (Z.of_nat n)])) f (N.of_nat (i + n) - 1) (- Z.of_nat n) = Some p' /\
    pr_end p' = Ok g /\ restored (st_body st) (st_body g).
Proof. exact all_works. Qed.
Print Assumptions C32_both_ways_complete.
Example C32_both_ways_complete_ex : forall a, exists m,
  let w := world0 one_num a in let st := mkSt 0 false (state0 2) in
  cavities_affine w /\ cavities_keep_ions w /\ cavities_keep_moving w /\ sane w /\
  new_machine (moment_reg w) (mconf powered) = Ok m /\ Forall strips_to_some powered /\
  along (entries m powered []) 0 3 (fun ec => works w ec \/ sound_cavity w ec) /\
  aligned (st_body st) /\ all_moving (st_body st) /\ Forall unit_last (ms_m0 (st_body st)).
Proof.
  intros a. destruct (powered_runs a) as (m & Hm & HQ & AL). exists m. cbv zeta.
  split; [apply world0_cavities|]. split; [apply world0_cavities|]. split; [apply world0_keeps|]. split; [apply world0_sane|].
  split; [exact Hm|]. split; [exact HQ|]. split; [exact AL|]. split; [apply state0_aligned|]. split; [apply state0_moving|apply state0_unit].
Qed.

(** With a backward propagation in the history it can fail: the drift remembers the
    phase it gave going backward, and gives it again going forward. *)
Theorem C32_after_backward_refuted : forall a, exists m p f p' g,
  let w := world0 (fun _ => 1) a in
  let st := mkSt 0 false (state0 1) in
  let us := [UProp st 0 (-1)] in
  sane w /\ new_machine (moment_reg w) (mconf one_drift) = Ok m /\
  aligned (st_body st) /\ all_moving (st_body st) /\ smooth (fun _ => aligned) strips_to_some m us /\
  propagate (uses m us) st 0 1 = Some p /\ pr_end p = Ok f /\
  propagate (uses m (us ++ [UProp st 0 1])) f 0 (-1) = Some p' /\ pr_end p' = Ok g /\
  p_phis (ms_ref (st_body g)) <> p_phis (ms_ref (st_body st)).
Proof. exact C32_after_backward_refuted_w. Qed.
Print Assumptions C32_after_backward_refuted.
