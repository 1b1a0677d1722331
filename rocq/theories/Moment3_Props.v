(** C33, and C24 for the simulation type MomentMatrix, in exact arithmetic: [w]
    holds the interpretation of doubles as real numbers, the cavity and file
    computations that are not modelled, and whether assert() is compiled in. *)
From Coq Require Import Reals List String Bool NArith ZArith Arith Lia Lra.
From Verif Require Import SMap Dbl Config_Spec Mat Mat_Proofs Minv Machine_Model Machine_Spec
  Moment_Model Moment_Spec Moment_Proofs Moment2_Proofs Moment6_Proofs.
Import ListNotations.
Open Scope R_scope.
Open Scope string_scope.
Open Scope list_scope.

(** After any history of reconfigurations, observer changes and completed
    propagations in one direction ([b]: backward), propagating in that direction
    ends as it does on a machine built anew from the entries now in force: same
    state, or same exception.  The history may mix states at will. *)
Theorem C33_one_direction_partial : forall w b c m es us c', sane w ->
  new_machine (moment_reg w) c = Ok m -> tfind "elements" c = Some (TCfgs es) ->
  Forall strips_to_some es -> smooth (fun r s => r = b /\ aligned s) strips_to_some m us ->
  tfind "sim_type" c' = Some (TStr "MomentMatrix") -> tfind "elements" c' = Some (TCfgs (entries m es us)) ->
  exists m2, new_machine (moment_reg w) c' = Ok m2 /\
    forall st start max, (max <? 0)%Z = b -> aligned (st_body st) ->
      option_map pr_end (propagate (uses m us) st start max) = option_map pr_end (propagate m2 st start max).
Proof. exact cache_unseen. Qed.
Print Assumptions C33_one_direction_partial.
Example C33_one_direction_partial_ex : forall num a, sane (world0 num a) /\
  exists m, new_machine (moment_reg (world0 num a)) (mconf line2) = Ok m /\
    Forall strips_to_some line2 /\
    smooth (fun r s => r = false /\ aligned s) strips_to_some m
      [UReconf 2 (foil [done; dzero] []); UProp (mkSt 0 false (state0 2)) 0 1].
Proof.
  intros. split; [apply world0_sane|]. eexists. split; [reflexivity|].
  split; [repeat constructor; unfold strips_to_some; discriminate|].
  split; [discriminate|]. split; [|exact I]. split; [split; [reflexivity|apply state0_aligned]|].
  eapply run_plain; [reflexivity|reflexivity|right; right; reflexivity|reflexivity|apply state0_aligned].
Qed.

(** What went through in the other direction does matter: a state that went
    forward through a drift and then goes backward through it gets the phase of
    the forward passage. *)
Theorem C33_direction_refuted : forall a, exists m p p1 p2 st1 st2 st3,
  let w := world0 (fun _ => 1) a in
  let st := mkSt 0 false (state0 1) in
  sane w /\ new_machine (moment_reg w) (mconf one_drift) = Ok m /\ aligned (st_body st) /\
  propagate m st 0 1 = Some p /\ pr_end p = Ok st1 /\
  propagate (uses m [UProp st 0 1]) st 0 (-1) = Some p1 /\ pr_end p1 = Ok st2 /\
  propagate m st 0 (-1) = Some p2 /\ pr_end p2 = Ok st3 /\
  p_phis (ms_ref (st_body st2)) <> p_phis (ms_ref (st_body st3)).
Proof. exact C33_direction_refuted_w. Qed.
Print Assumptions C33_direction_refuted.
Example C33_direction_refuted_ex : exists c, one_drift = [c] /\ is_a "drift" c /\ num_at c "L" = Some done.
Proof. eexists. split; [reflexivity|]. split; reflexivity. Qed.

(** So does a propagation that failed: an element that throws while it computes its
    matrix does not throw when asked again for the same state.  It ends the program
    where assert() is compiled in, and hands on a state with the identity as
    transfer matrix where it is not. *)
Theorem C33_failed_refuted : forall num a, exists m p1 p2 x,
  let w := world0 num a in
  let st := mkSt 0 false (state0 1) in
  sane w /\ new_machine (moment_reg w) (mconf no_length) = Ok m /\ aligned (st_body st) /\
  propagate m st 0 1 = Some p1 /\ pr_end p1 = Throw x /\ x <> Abort /\
  propagate (uses m [UProp st 0 1]) st 0 1 = Some p2 /\
  (if a then pr_end p2 = Throw Abort else exists st', pr_end p2 = Ok st').
Proof. exact C33_failed_refuted_w. Qed.
Print Assumptions C33_failed_refuted.
Example C33_failed_refuted_ex : exists c, no_length = [c] /\ num_at c "L" = None /\ is_a "quadrupole" c.
Proof. eexists. split; [reflexivity|]. split; reflexivity. Qed.
