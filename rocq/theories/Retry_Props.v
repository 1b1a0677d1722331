(** C30 once more: histories in which propagations may fail.  Type MomentMatrix, in
    exact arithmetic. *)
From Coq Require Import Reals List String Bool NArith ZArith.
From Verif Require Import Dbl Config_Spec Machine_Model Machine_Spec Moment_Model Moment_Spec Moment_Proofs
  Moment2_Proofs Moment6_Proofs Retry_Spec Retry_Proofs.
Import ListNotations.
Open Scope R_scope.

(** Any history of reconfigurations, observer changes and propagations, forward and
    backward, completed or ended by an exception, as long as all states have the
    same number of charge states and every source and stripper sends on as many:
    propagating such a state shows only such states, ends in one or in an
    exception, and no access is out of range.  Not covered: failures with a
    changing number of charge states. *)
Theorem C30_after_failures_partial : forall w, sane w -> forall c m es us st start max p n,
  new_machine (moment_reg w) c = Ok m -> tfind "elements" c = Some (TCfgs es) ->
  Forall (sends_on n) es -> attempts (aligned_at n) (sends_on n) us ->
  aligned_at n (st_body st) -> propagate (uses m us) st start max = Some p ->
  (forall ev, In ev (pr_events p) -> aligned_at n (st_body (ev_state ev))) /\
  match pr_end p with Ok st' => aligned_at n (st_body st') | Throw x => x <> BadIndex end.
Proof. exact after_failures. Qed.
Print Assumptions C30_after_failures_partial.
(** A propagation that fails, a reconfiguration that is refused, then backward from the end. *)
Example C30_after_failures_partial_ex : forall num a, exists m p x,
  sane (world0 num a) /\ new_machine (moment_reg (world0 num a)) (mconf no_length) = Ok m /\
  propagate m (mkSt 0 false (state0 1)) 0 1 = Some p /\ pr_end p = Throw x /\
  Forall (sends_on 1) no_length /\ sends_on 2 (foil [done; dzero] []) /\
  attempts (aligned_at 1) (sends_on 1)
    [UProp (mkSt 0 false (state0 1)) 0 1; UReconf 0 (foil [done] []); UProp (mkSt 0 true (state0 1)) 1 (-1)].
Proof.
  intros num a. destruct (C33_failed_refuted_w num a) as (m & p & p2 & x & H1 & H2 & H3 & H4 & H5 & _).
  exists m, p, x. repeat (split; [assumption|]). assert (A : aligned_at 1 (state0 1)) by (split; [exact H3|reflexivity]).
  split; [repeat constructor; discriminate|]. split; [split; [intros _; eexists; split; reflexivity|discriminate]|].
  constructor; [exact A|]. constructor; [split; [intros _; eexists; split; reflexivity|discriminate]|].
  constructor; [exact A|constructor].
Qed.
