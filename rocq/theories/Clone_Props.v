(** C37: copies of states. *)
From Coq Require Import List String Bool ZArith NArith Arith Lia Reals.
From Verif Require Import SMap Dbl Config_Spec Mat Machine_Model Machine_Spec Linear_Model Moment_Model Moment_Spec
  Array_Model Array_Spec Array3_Proofs Moment2_Proofs Motion5_Proofs Clone_Model Clone_Spec Clone_Proofs.
Import ListNotations.
Open Scope string_scope.
Open Scope nat_scope.
Open Scope list_scope.

(** A clone shows all that the original shows, except for next_elem, which is 0. *)
Theorem C37_shows_the_same : forall ab s i kd c, reached ab s -> contains ab s i kd c -> populated kd ->
  exists s', step ab s (OClone i) = Some s' /\ reached ab s' /\
    contains ab s' (List.length (ss_objs s)) kd (with_next (CN 0) c) /\
    forall k nm sh den, nth_error (attributes kd) k = Some (nm, sh, den) ->
      shows (attr ab s' (List.length (ss_objs s)) nm) sh (fun idx => with_next (CN 0) c (den idx)).
Proof. exact cloned. Qed.
Print Assumptions C37_shows_the_same.
Example C37_shows_the_same_ex : exists s, reached ab0 s /\ contains ab0 s 1 (KMoment 2) c0 /\ populated (KMoment 2) /\
  c0 (FReal 1 PZ) <> c0 (FReal 0 PZ) /\ nth_error (attributes (KMoment 2)) 17 = Some ("IonZ", [2], at1 (fun k => FReal k PZ)).
Proof.
  destruct (two_states KVector (KMoment 2)) as (s & R & _ & C); [discriminate|intros n E; injection E as <-; lia|].
  exists s. split; [exact R|]. split; [exact C|].
  split; [split; [lia|reflexivity]|]. split; [discriminate|reflexivity].
Qed.

(** Whatever is done to other states, the clones of a state among them, is not seen in
    it; so neither is what is done to a state seen in its clones. *)
Theorem C37_independent : forall ab s s' i l, reached ab s -> steps ab s l = Some s' -> spared i l -> object s i <> None ->
  object s' i <> None /\ forall nm, attr ab s' i nm = attr ab s i nm.
Proof. exact unaffected. Qed.
Print Assumptions C37_independent.
(** The original is changed and deleted, the clone stays; the other way round. *)
Example C37_independent_ex : exists s s1 s2, reached ab0 s /\
  steps ab0 s [OSet 0 "pos" (VFloat done); ODel 0] = Some s1 /\ object s 1 <> None /\
  steps ab0 s [OSet 1 "pos" (VFloat done); ODel 1] = Some s2 /\ object s 0 <> None.
Proof.
  do 3 eexists. split; [exists [ONew KVector m0; OClone 0]; reflexivity|].
  split; [vm_compute; reflexivity|]. split; [discriminate|]. split; [vm_compute; reflexivity|]. discriminate.
Qed.

(** Assigning a state to another of its class makes it show the same, next_elem
    excepted; other states cannot be assigned. *)
Theorem C37_assigned : forall ab s i j kd kd' c c', reached ab s -> contains ab s i kd c -> contains ab s j kd' c' -> alike kd kd' ->
  exists s', step ab s (OAssign i j) = Some s' /\ contains ab s' i kd' (with_next (c FNext) c').
Proof. exact assigned_to. Qed.
Print Assumptions C37_assigned.
Example C37_assigned_ex : exists s, reached ab0 s /\ contains ab0 s 0 (KMoment 1) c0 /\ contains ab0 s 1 (KMoment 2) c0.
Proof.
  apply two_states; intros n E; injection E as <-; lia.
Qed.
Theorem C37_not_assigned : forall ab s i j kd kd' c c', contains ab s i kd c -> contains ab s j kd' c' -> ~ alike kd kd' ->
  step ab s (OAssign i j) = Some s.
Proof. exact not_assigned. Qed.
Print Assumptions C37_not_assigned.
Example C37_not_assigned_ex : exists s, reached ab0 s /\ contains ab0 s 0 KVector c0 /\ contains ab0 s 1 (KMoment 2) c0 /\ ~ alike KVector (KMoment 2).
Proof.
  destruct (two_states KVector (KMoment 2)) as (s & R & C & C'); [discriminate|intros n E; injection E as <-; lia|].
  exists s. split; [exact R|]. split; [exact C|]. split; [exact C'|]. exact (fun x => x).
Qed.

(** Propagating a clone, or a state assigned from the original, ends as propagating the
    original would: same state or exception, same observations, same changes to the
    elements, for any machine, start, number of elements and observers. *)
Theorem C37_propagates_alike : forall D (m : machine D mstate) st d start max obs o,
  py_propagate m (clone_moment st) start max obs o = py_propagate m st start max obs o /\
  py_propagate m (assign_moment d st) start max obs o = py_propagate m st start max obs o.
Proof. intros. split; apply py_propagate_body; [apply clone_body|apply assign_body]. Qed.
Print Assumptions C37_propagates_alike.
Example C37_propagates_alike_ex : forall d, clone_moment (mkSt 3 true (state0 2)) <> mkSt 3 true (state0 2) /\
  (st_retreat d = false -> assign_moment d (mkSt 3 true (state0 2)) <> mkSt 3 true (state0 2)).
Proof. intros d. split; [discriminate|]. intros E X. apply (f_equal st_retreat) in X. cbn in X. congruence. Qed.
Theorem C37_linear_propagates_alike : forall V D (m : machine D (lstate V)) st d start max obs o,
  py_propagate m (clone_linear st) start max obs o = py_propagate m st start max obs o /\
  py_propagate m (assign_linear d st) start max obs o = py_propagate m st start max obs o.
Proof. intros. split; apply py_propagate_body; [apply clone_linear_body|apply assign_linear_body]. Qed.
Print Assumptions C37_linear_propagates_alike.
Example C37_linear_propagates_alike_ex : clone_linear (mkSt 3 true (mkLS 1%R mid)) <> mkSt 3 true (mkLS 1%R mid).
Proof. discriminate. Qed.

(** A clone kept back can take the way of the original later: it ends in the same state,
    after any history of completed propagations in the one direction. *)
Theorem C37_once_more : forall w b c m es us st start max p f, sane w ->
  new_machine (moment_reg w) c = Ok m -> tfind "elements" c = Some (TCfgs es) ->
  Forall strips_to_some es -> smooth (fun r s => r = b /\ aligned s) strips_to_some m us ->
  (max <? 0)%Z = b -> aligned (st_body st) -> propagate (uses m us) st start max = Some p -> pr_end p = Ok f ->
  exists p', propagate (with_elems (uses m us) (pr_elems p)) (clone_moment st) start max = Some p' /\ pr_end p' = Ok f.
Proof. exact once_more. Qed.
Print Assumptions C37_once_more.
Example C37_once_more_ex : forall num a, sane (world0 num a) /\
  exists m p f, new_machine (moment_reg (world0 num a)) (mconf line2) = Ok m /\
    Forall strips_to_some line2 /\ smooth (fun r s => r = false /\ aligned s) strips_to_some m [] /\
    propagate m (mkSt 0 false (state0 2)) 0 1 = Some p /\ pr_end p = Ok f.
Proof.
  intros. split; [apply world0_sane|]. assert (X : exists m, new_machine (moment_reg (world0 num a)) (mconf line2) = Ok m) by (eexists; reflexivity).
  destruct X as [m Hm]. assert (Y : exists p f, propagate m (mkSt 0 false (state0 2)) 0 1 = Some p /\ pr_end p = Ok f).
  { injection Hm as <-. eapply run_plain; [reflexivity|reflexivity|right; right; reflexivity|reflexivity|apply state0_aligned]. }
  destruct Y as (p & f & Hp & Hf). exists m, p, f. split; [exact Hm|].
  split; [repeat constructor; unfold strips_to_some; discriminate|]. split; [exact I|]. auto.
Qed.

(** The attribute next_elem of a clone is not that of the original. *)
Theorem C37_next_elem_refuted : exists ab s s' i, abi_ok ab /\ reached ab s /\ step ab s (OClone i) = Some s' /\
  attr ab s i "next_elem" = PInt 5 /\ attr ab s' (List.length (ss_objs s)) "next_elem" = PInt 0.
Proof. exact C37_next_elem_refuted_w. Qed.
Print Assumptions C37_next_elem_refuted.
(** So a clone taken on the way does not continue where the original does, if each is
    propagated from its next_elem. *)
Theorem C37_where_to_continue_refuted : exists num (m : machine (ldata vec) (lstate vec)) st p f p1 f1 p2 f2,
  new_machine (vector_reg num) two_drifts = Ok m /\
  propagate m st 0 1 = Some p /\ pr_end p = Ok f /\
  propagate m f (st_next f) 1 = Some p1 /\ pr_end p1 = Ok f1 /\
  propagate m (clone_linear f) (st_next (clone_linear f)) 1 = Some p2 /\ pr_end p2 = Ok f2 /\
  ls_pos (st_body f1) <> ls_pos (st_body f2).
Proof. exact C37_where_to_continue_refuted_w. Qed.
Print Assumptions C37_where_to_continue_refuted.
