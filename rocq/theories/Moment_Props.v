(** C30 and C47 for the simulation type MomentMatrix, in exact arithmetic: [w]
    holds the interpretation of doubles as real numbers, the cavity and file
    computations that are not modelled, and whether assert() is compiled in. *)
From Coq Require Import Reals List String Bool NArith ZArith Arith Lia Lra.
From Verif Require Import SMap Dbl Config_Spec Mat Mat_Proofs Minv Machine_Model Machine_Spec
  Moment_Model Moment_Spec Moment_Proofs Moment2_Proofs.
Import ListNotations.
Open Scope R_scope.
Open Scope string_scope.
Open Scope list_scope.

(** ** C47 *)

(** allocState() succeeds exactly for the Configs that describe a state. *)
Theorem C47_built_iff_described : forall w cm m c, new_machine (moment_reg w) cm = Ok m ->
  ((exists st, alloc_state m c = Ok st) <-> describes_state c).
Proof. exact alloc_iff. Qed.
Print Assumptions C47_built_iff_described.
Example C47_built_iff_described_ex :
  describes_state two_states /\ ~ describes_state (TCfg [("IonChargeStates", TVec [done])] []) /\
  forall w, exists m, new_machine (moment_reg w) (mconf [foil [done] [done]]) = Ok m.
Proof.
  split; [exact two_states_described|]. split; [|intros w; eexists; reflexivity].
  intros (_ & (qs & H & _) & _). discriminate.
Qed.

(** The state is at the start, goes forward, and holds what the Config says: the
    reference particle, and per charge state (all of them, or the one "cstate"
    names) the charge, the weight, the centroid and the covariance matrix. *)
Theorem C47_holds_the_config : forall w cm m c st, new_machine (moment_reg w) cm = Ok m ->
  alloc_state m c = Ok st ->
  let s := st_body st in
  st_next st = 0%N /\ st_retreat st = false /\ ms_pos s = 0 /\ aligned s /\
  reference (w_num w) c (ms_ref s) /\ Forall (meq 7 mid) (ms_tm s) /\
  match vec_at c "IonChargeStates" with
  | Some zs =>
      List.length (ms_real s) = (match num_at c "cstate" with Some _ => 1 | None => List.length zs end)%nat /\
      forall j p v m, nth_error (ms_real s) j = Some p -> nth_error (ms_m0 s) j = Some v ->
        nth_error (ms_m1 s) j = Some m ->
        exists k, match num_at c "cstate" with Some x => truncates x (Z.of_nat k) | None => k = j end /\
                  charge_state (w_num w) c k p v m
  | None =>
      ms_real s = [ms_ref s] /\
      (forall l, vec_at c (str_at c "vector_variable" "moment0") = Some l -> List.length l = 7%nat ->
         exists v, ms_m0 s = [v] /\ fills_vec (w_num w) l v) /\
      (forall l, vec_at c (str_at c "matrix_variable" "initial") = Some l -> List.length l = 49%nat ->
         exists m, ms_m1 s = [m] /\ fills_mat (w_num w) l m)
  end.
Proof. exact alloc_contents. Qed.
Print Assumptions C47_holds_the_config.
Example C47_holds_the_config_ex : forall w, exists m st,
  new_machine (moment_reg w) (mconf [foil [done] [done]]) = Ok m /\ alloc_state m two_states = Ok st /\
  List.length (ms_real (st_body st)) = 2%nat.
Proof.
  intros w. assert (M : exists m, new_machine (moment_reg w) (mconf [foil [done] [done]]) = Ok m) by (eexists; reflexivity).
  destruct M as [m Hm]. destruct (proj2 (C47_built_iff_described w _ m two_states Hm) two_states_described) as [st Hst].
  exists m, st. split; [exact Hm|]. split; [exact Hst|].
  apply (C47_holds_the_config w _ m two_states st Hm Hst).
Qed.

(** It does not always fail when an array has the wrong number of entries: without
    IonChargeStates such an array is taken for missing, and the state holds
    whatever the memory held. *)
Theorem C47_wrong_length_refuted : forall w, exists s,
  vec_at short_vector "moment0" = Some [done] /\ new_state w short_vector = Ok s /\ ms_m0 s = [w_junk0 w].
Proof. exact C47_wrong_length_refuted_w. Qed.
Print Assumptions C47_wrong_length_refuted.
Example C47_wrong_length_refuted_ex : List.length [done] <> 7%nat.
Proof. discriminate. Qed.

(** ** C30 *)

(** After any history of reconfigurations, observer changes and completed
    propagations from aligned states, forward and backward: propagating an aligned
    state shows only aligned states, ends in one, and no access is out of range. *)
Theorem C30_stays_aligned : forall w, sane w -> forall c m es us st start max p,
  new_machine (moment_reg w) c = Ok m -> tfind "elements" c = Some (TCfgs es) ->
  Forall strips_to_some es -> smooth (fun _ => aligned) strips_to_some m us ->
  aligned (st_body st) -> propagate (uses m us) st start max = Some p ->
  (forall ev, In ev (pr_events p) -> aligned (st_body (ev_state ev))) /\
  match pr_end p with Ok st' => aligned (st_body st') | Throw x => x <> BadIndex end.
Proof. exact stays_aligned. Qed.
Print Assumptions C30_stays_aligned.
Example C30_stays_aligned_ex : forall num a, sane (world0 num a) /\ aligned (state0 2) /\
  exists m, new_machine (moment_reg (world0 num a)) (mconf line2) = Ok m /\
    Forall strips_to_some line2 /\
    smooth (fun _ => aligned) strips_to_some m
      [UReconf 2 (foil [done; dzero] []); UProp (mkSt 0 false (state0 2)) 0 1].
Proof. intros. split; [apply world0_sane|]. split; [apply state0_aligned|]. apply line2_example. Qed.

(** A stripper with an empty list of charge states, without assert(), leaves a
    state without charge states; the next stripper reads its first one. *)
Theorem C30_empty_stripper_refuted : forall num, exists m p,
  new_machine (moment_reg (world0 num false)) (mconf [foil_off [] []; foil [done] [done]]) = Ok m /\
  aligned (state0 1) /\ propagate m (mkSt 0 false (state0 1)) 0 2 = Some p /\ pr_end p = Throw BadIndex.
Proof. exact C30_empty_stripper_refuted_w. Qed.
Print Assumptions C30_empty_stripper_refuted.
Example C30_empty_stripper_refuted_ex : sane (world0 (fun _ => 0) false).
Proof. apply world0_sane. Qed.
