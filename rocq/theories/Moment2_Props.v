(** C31, C34 and C50 for the simulation type MomentMatrix, in exact arithmetic. *)
From Coq Require Import Reals List String Bool NArith ZArith Arith Lia Lra.
From Verif Require Import SMap Dbl Config_Spec Mat Mat_Proofs Minv Machine_Model Machine_Spec
  Moment_Model Moment_Spec Moment_Proofs Moment2_Proofs Moment4_Proofs Moment5_Proofs.
Import ListNotations.
Open Scope R_scope.
Open Scope string_scope.
Open Scope list_scope.

(** ** C31 *)

(** Without strippers, whatever the elements do and in either direction: covariance
    matrices that are symmetric and positive semidefinite stay so. *)
Theorem C31_covariances_stay : forall w, sane w -> forall c m es us st start max p,
  new_machine (moment_reg w) c = Ok m -> tfind "elements" c = Some (TCfgs es) ->
  Forall (bends_only (w_num w)) es -> smooth (fun _ => aligned) (bends_only (w_num w)) m us ->
  aligned (st_body st) -> Forall covariance (ms_m1 (st_body st)) ->
  propagate (uses m us) st start max = Some p ->
  (forall ev, In ev (pr_events p) -> Forall covariance (ms_m1 (st_body (ev_state ev)))) /\
  (forall st', pr_end p = Ok st' -> Forall covariance (ms_m1 (st_body st'))).
Proof. exact covariances. Qed.
Print Assumptions C31_covariances_stay.
Example C31_covariances_stay_ex : forall num a, sane (world0 num a) /\
  (exists m, new_machine (moment_reg (world0 num a)) (mconf cav_line) = Ok m) /\
  Forall (bends_only num) cav_line /\ aligned beam2 /\ Forall covariance (ms_m1 beam2).
Proof.
  intros. split; [apply world0_sane|]. split; [eexists; reflexivity|]. split; [apply cav_bends|].
  split; [apply beam2_aligned|]. constructor; [apply shallow_fcov|]. constructor; [apply shallow_fcov|constructor].
Qed.

(** With strippers too, provided the constant component does not vary and weights
    are not negative, which stays so as well. *)
Theorem C31_with_strippers : forall w, sane w -> forall c m es us st start max p,
  cavities_keep_ions w -> cavities_affine w ->
  new_machine (moment_reg w) c = Ok m -> tfind "elements" c = Some (TCfgs es) ->
  Forall (proper_entry (w_num w)) es -> smooth (fun _ => aligned) (proper_entry (w_num w)) m us ->
  aligned (st_body st) -> healthy (st_body st) -> propagate (uses m us) st start max = Some p ->
  (forall ev, In ev (pr_events p) -> healthy (st_body (ev_state ev))) /\
  (forall st', pr_end p = Ok st' -> healthy (st_body st')).
Proof. exact covariances_strip. Qed.
Print Assumptions C31_with_strippers.
Example C31_with_strippers_ex : let w := world0 (fun _ => 1) true in
  sane w /\ cavities_keep_ions w /\ cavities_affine w /\
  (exists m, new_machine (moment_reg w) (mconf line2) = Ok m) /\
  Forall (proper_entry (w_num w)) line2 /\ aligned beam2 /\ healthy beam2.
Proof.
  split; [apply world0_sane|]. split; [apply world0_cavities|]. split; [apply world0_cavities|].
  split; [eexists; reflexivity|]. split; [apply line2_proper|]. split; [apply beam2_aligned|apply beam2_healthy].
Qed.

(** If it does vary, a stripper makes a matrix that is no covariance: it scales the
    rows of the momenta but for their last entry. *)
Theorem C31_stripper_refuted : forall w, exists m p st',
  new_machine (moment_reg w) (mconf [foil_off [done] [done]]) = Ok m /\
  aligned ones /\ weighted ones /\ Forall covariance (ms_m1 ones) /\
  propagate m (mkSt 0 false ones) 0 1 = Some p /\ pr_end p = Ok st' /\
  exists M, In M (ms_m1 (st_body st')) /\ ~ semidefinite M.
Proof. exact C31_stripper_refuted_w. Qed.
Print Assumptions C31_stripper_refuted.
Example C31_stripper_refuted_ex : ms_m1 ones = [fun _ _ => 1] /\ List.length (ms_real ones) = 1%nat.
Proof. split; reflexivity. Qed.

(** The envelope is then a covariance matrix too. *)
Theorem C31_envelope_covariance : forall s, aligned s -> weighted s -> consistent s ->
  Forall covariance (ms_m1 s) -> covariance (ms_env1 s).
Proof. exact env_cov. Qed.
Print Assumptions C31_envelope_covariance.
Example C31_envelope_covariance_ex : exists s, aligned s /\ weighted s /\ consistent s /\
  Forall covariance (ms_m1 s) /\ List.length (ms_real s) = 2%nat.
Proof. destruct (beam2_settled (world0 (fun _ => 1) true)) as (s & H). exists s. tauto. Qed.

(** ** C34 *)

(** A new state reports the envelope of its charge states. *)
Theorem C34_new_states_consistent : forall w cm m c st, new_machine (moment_reg w) cm = Ok m ->
  alloc_state m c = Ok st -> consistent (st_body st).
Proof. exact alloc_consistent. Qed.
Print Assumptions C34_new_states_consistent.
Example C34_new_states_consistent_ex : forall w, exists m st,
  new_machine (moment_reg w) (mconf plain_line) = Ok m /\ alloc_state m two_states = Ok st.
Proof.
  intros w. assert (M : exists m, new_machine (moment_reg w) (mconf plain_line) = Ok m) by (eexists; reflexivity).
  destruct M as [m Hm]. destruct (proj2 (alloc_iff w _ m two_states Hm) two_states_described) as [st Hst].
  exists m, st. auto.
Qed.

(** And every state that propagation shows or ends in does. *)
Theorem C34_envelopes_consistent : forall w, sane w -> forall c m es us st start max p,
  new_machine (moment_reg w) c = Ok m -> tfind "elements" c = Some (TCfgs es) ->
  Forall strips_to_some es -> smooth (fun _ => aligned) strips_to_some m us ->
  aligned (st_body st) -> consistent (st_body st) -> propagate (uses m us) st start max = Some p ->
  (forall ev, In ev (pr_events p) -> consistent (st_body (ev_state ev))) /\
  (forall st', pr_end p = Ok st' -> consistent (st_body st')).
Proof. exact envelopes. Qed.
Print Assumptions C34_envelopes_consistent.
Example C34_envelopes_consistent_ex : forall num a, sane (world0 num a) /\
  (exists s, aligned s /\ consistent s /\ List.length (ms_real s) = 2%nat) /\
  exists m, new_machine (moment_reg (world0 num a)) (mconf line2) = Ok m /\
    Forall strips_to_some line2 /\
    smooth (fun _ => aligned) strips_to_some m
      [UReconf 2 (foil [done; dzero] []); UProp (mkSt 0 false (state0 2)) 0 1].
Proof.
  intros. split; [apply world0_sane|]. split; [|apply line2_example].
  destruct (beam2_settled (world0 num a)) as (s & H). exists s. tauto.
Qed.

(** The mean lies within the range of the centroids. *)
Theorem C34_between : forall s lo hi i, aligned s -> weighted s -> consistent s -> (i < 7)%nat ->
  Forall (fun v : vec => lo <= v i <= hi) (ms_m0 s) -> lo <= ms_env0 s i <= hi.
Proof. exact between. Qed.
Print Assumptions C34_between.
Example C34_between_ex : exists s, aligned s /\ weighted s /\ consistent s /\
  Forall (fun v : vec => 1 <= v 0%nat <= 3) (ms_m0 s).
Proof.
  destruct (beam2_settled (world0 (fun _ => 1) true)) as (s & A & W & C & _ & E & _). exists s. rewrite E.
  split; [exact A|]. split; [exact W|]. split; [exact C|].
  constructor; [lra|]. constructor; [lra|constructor].
Qed.

(** ** C50 *)

(** Without sources and strippers the ions and their weights stay what they were. *)
Theorem C50_ions_kept : forall w, sane w -> forall c m es us st start max p,
  cavities_keep_ions w ->
  new_machine (moment_reg w) c = Ok m -> tfind "elements" c = Some (TCfgs es) ->
  Forall keeps_ions es -> smooth (fun _ => aligned) keeps_ions m us ->
  aligned (st_body st) -> propagate (uses m us) st start max = Some p ->
  (forall ev, In ev (pr_events p) -> same_ions (st_body st) (st_body (ev_state ev))) /\
  (forall st', pr_end p = Ok st' -> same_ions (st_body st) (st_body st')).
Proof. exact ions_kept. Qed.
Print Assumptions C50_ions_kept.
Example C50_ions_kept_ex : forall num a, sane (world0 num a) /\ cavities_keep_ions (world0 num a) /\
  (exists m, new_machine (moment_reg (world0 num a)) (mconf cav_line) = Ok m) /\
  Forall keeps_ions cav_line /\ aligned beam2.
Proof.
  intros. split; [apply world0_sane|]. split; [apply world0_cavities|]. split; [eexists; reflexivity|].
  split; [apply cav_ions|apply beam2_aligned].
Qed.

(** Without cavities their energies do too. *)
Theorem C50_energies_kept : forall w, sane w -> forall c m es us st start max p,
  new_machine (moment_reg w) c = Ok m -> tfind "elements" c = Some (TCfgs es) ->
  Forall keeps_energies es -> smooth (fun _ => aligned) keeps_energies m us ->
  aligned (st_body st) -> propagate (uses m us) st start max = Some p ->
  (forall ev, In ev (pr_events p) -> same_ions (st_body st) (st_body (ev_state ev)) /\
                                     same_energies (st_body st) (st_body (ev_state ev))) /\
  (forall st', pr_end p = Ok st' -> same_ions (st_body st) (st_body st') /\
                                    same_energies (st_body st) (st_body st')).
Proof. exact energies_kept. Qed.
Print Assumptions C50_energies_kept.
Example C50_energies_kept_ex : forall num a, sane (world0 num a) /\
  (exists m, new_machine (moment_reg (world0 num a)) (mconf plain_line) = Ok m) /\
  Forall keeps_energies plain_line /\ aligned beam2.
Proof.
  intros. split; [apply world0_sane|]. split; [eexists; reflexivity|].
  split; [apply plain_energies|apply beam2_aligned].
Qed.
