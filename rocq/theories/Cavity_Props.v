(** C43, C44, C52, C55 and C56, and C30, C31 and C50 again, for machines of the
    simulation type MomentMatrix whose RF cavities compute what src/rf_cavity.cpp
    does, in exact arithmetic.  [files] are the data files of the cavities, [w] holds
    the rest of the program's surroundings. *)
From Coq Require Import Reals List String Bool NArith ZArith Lia Lra.
From Verif Require Import SMap Dbl Config_Spec Mat Machine_Model Machine_Spec Moment_Model Moment_Spec Moment_Proofs Moment2_Proofs Moment5_Proofs
  Cavity_Model Cavity_Spec Cavity_Proofs Cavity2_Proofs Cavity3_Proofs Cavity4_Proofs Cavity5_Proofs.
Import ListNotations.
Open Scope R_scope.
Open Scope string_scope.
Open Scope list_scope.

(** ** C43 *)

(** ipow(base, n) is the power, for every n an int can be. *)
Theorem C43_power : forall b n, (Z.of_nat n <= 2147483647)%Z -> ipow b (Z.of_nat n) = Some (b ^ n).
Proof. exact ipow_power. Qed.
Print Assumptions C43_power.
Example C43_power_ex : (Z.of_nat 10 <= 2147483647)%Z.
Proof. discriminate. Qed.

(** With a negative exponent it never returns, however many rounds its loop makes. *)
Theorem C43_negative_exponent_refuted : forall b e, (e < 0)%Z -> forall rounds r, ipow_loop rounds r b e = None.
Proof. intros b e H rounds r. exact (ipow_negative rounds r b e H). Qed.
Print Assumptions C43_negative_exponent_refuted.
Example C43_negative_exponent_refuted_ex : (-1 < 0)%Z.
Proof. reflexivity. Qed.

(** calFitPow: the polynomial whose coefficients are given highest power first. *)
Theorem C43_fit_is_the_polynomial : forall x l, (Z.of_nat (List.length l) <= 2147483647)%Z ->
  cal_fit_pow x l = Some (poly x (rev l)).
Proof. exact fit_poly. Qed.
Print Assumptions C43_fit_is_the_polynomial.
Example C43_fit_is_the_polynomial_ex : (Z.of_nat (List.length [1; 2; 3]) <= 2147483647)%Z /\ poly 2 (rev [1; 2; 3]) = 11.
Proof. split; [discriminate|cbn; lra]. Qed.

(** PwrSeries: lowest power first. *)
Theorem C43_series_is_the_polynomial : forall x l, pwr_series x l = poly x l.
Proof. exact series_poly. Qed.
Print Assumptions C43_series_is_the_polynomial.
Example C43_series_is_the_polynomial_ex : poly 2 [1; 2; 3] = 17.
Proof. cbn. lra. Qed.

(** ** C44 *)

(** A particle that enters a cavity is tracked by the midpoint rule through the mean
    fields between the points of the table.  If it is above rest at every point but
    the last, it comes out with the last energy and phase of the track, or at rest;
    otherwise there are no such numbers (NaN). *)
Theorem C44_what_is_tracked : forall asserts cv p E F scl, enters cv p E ->
  (gets_through cv p E F scl ->
     let x := last (track_in cv p E F scl) (F, E) in
     boost asserts cv p E F scl = Ok (Some (Rmax (p_Es p) (snd x), fst x))) /\
  (~ gets_through cv p E F scl -> boost asserts cv p E F scl = Ok None).
Proof. exact boost_tracks. Qed.
Print Assumptions C44_what_is_tracked.
Example C44_what_is_tracked_ex : enters easy slow 2 /\ gets_through easy slow 2 0 1.
Proof. split; [apply slow_enters; [cbn; lra|cbn; lia]|apply easy_through]. Qed.

(** What comes out is not below rest energy. *)
Theorem C44_not_below_rest : forall asserts cv p E F scl E' F', enters cv p E ->
  boost asserts cv p E F scl = Ok (Some (E', F')) -> p_Es p <= E'.
Proof. exact boost_above. Qed.
Print Assumptions C44_not_below_rest.
Example C44_not_below_rest_ex : forall asserts, exists E' F', enters easy slow 2 /\ boost asserts easy slow 2 0 1 = Ok (Some (E', F')).
Proof.
  intros asserts. assert (En : enters easy slow 2) by (apply slow_enters; [cbn; lra|cbn; lia]).
  do 2 eexists. split; [exact En|]. apply (proj1 (boost_tracks asserts easy slow 2 0 1 En)). apply easy_through.
Qed.

(** But some particles do not come out with a number at all. *)
Theorem C44_stopped_particle_refuted : forall asserts, exists cv p E F scl, enters cv p E /\ boost asserts cv p E F scl = Ok None.
Proof. exact C44_stopped_particle_refuted_w. Qed.
Print Assumptions C44_stopped_particle_refuted.

(** No particle of a state is ever below rest energy: reference particle and all
    charge states, in either direction, after every history of reconfigurations and
    propagations of such states. *)
Theorem C44_stays_above_rest : forall w files, proper_files files -> (forall f, w_readcfg w f <> Throw BadIndex) ->
  forall c m es us st start max p,
  new_machine (moment_reg (with_cavities w files)) c = Ok m -> tfind "elements" c = Some (TCfgs es) ->
  Forall keeps_ions es -> smooth (fun _ s => aligned s /\ above_rest s) keeps_ions m us ->
  aligned (st_body st) -> above_rest (st_body st) -> propagate (uses m us) st start max = Some p ->
  (forall ev, In ev (pr_events p) -> above_rest (st_body (ev_state ev))) /\
  (forall st', pr_end p = Ok st' -> above_rest (st_body st')).
Proof. exact stays_above. Qed.
Print Assumptions C44_stays_above_rest.
Example C44_stays_above_rest_ex : forall num a, proper_files files1 /\ (forall f, w_readcfg (world0 num a) f <> Throw BadIndex) /\
  (exists m, new_machine (moment_reg (with_cavities (world0 num a) files1)) (mconf rf_line) = Ok m) /\
  Forall keeps_ions rf_line /\ aligned beam2 /\ above_rest beam2.
Proof.
  intros num a. split; [apply files1_proper|]. split; [discriminate|]. split; [apply rf_built|]. split; [apply rf_keeps|].
  split; [apply beam2_aligned|apply beam2_above].
Qed.

(** ** C52 *)

(** The energy gained or lost is at most charge times the integral of the field. *)
Theorem C52_gain_is_bounded : forall asserts cv p E F scl E' F', enters cv p E ->
  boost asserts cv p E F scl = Ok (Some (E', F')) -> Rabs (E' - E) <= Rabs (p_Z p * scl) * field_integral cv.
Proof. exact boost_bound. Qed.
Print Assumptions C52_gain_is_bounded.
Example C52_gain_is_bounded_ex : forall asserts, exists E' F', enters easy slow 2 /\ boost asserts easy slow 2 0 1 = Ok (Some (E', F')) /\
  field_integral easy = 2.
Proof.
  intros asserts. destruct (C44_not_below_rest_ex asserts) as (E' & F' & H1 & H2). exists E', F'. split; [exact H1|]. split; [exact H2|].
  unfold field_integral, step_of. cbn. rewrite Rabs_right; lra.
Qed.

(** ** C55 *)

(** Whatever the fields, the matrix of a cavity keeps the planes apart but for a
    vertical kick, shrinks both transverse planes alike and not to nothing, and keeps the
    area of the longitudinal plane. *)
Theorem C55_shape_of_the_matrix : forall w files c phi p T p', let w' := with_cavities w files in
  snd (w_cav_one w' c phi p T) = Ok p' -> cav_shape (fst (w_cav_one w' c phi p T)).
Proof. exact with_shape. Qed.
Print Assumptions C55_shape_of_the_matrix.
Example C55_shape_of_the_matrix_ex : exists w files c phi p T p', snd (w_cav_one (with_cavities w files) c phi p T) = Ok p'.
Proof. exact shape_example. Qed.

(** ** C56 *)

(** If the files are as the program expects them, no element is read beyond its
    attributes, no table beyond its rows: neither when a cavity is built ... *)
Theorem C56_proper_files_build : forall w files, proper_files files -> forall c,
  mom_ctor (with_cavities w files) KRFCavity c <> Throw BadIndex.
Proof. exact cav_build. Qed.
Print Assumptions C56_proper_files_build.
Example C56_proper_files_build_ex : proper_files files1.
Proof. exact files1_proper. Qed.

(** ... nor when states are propagated. *)
Theorem C56_proper_files_propagate : forall w files, proper_files files -> (forall f, w_readcfg w f <> Throw BadIndex) ->
  forall c m es us st start max p,
  new_machine (moment_reg (with_cavities w files)) c = Ok m -> tfind "elements" c = Some (TCfgs es) ->
  Forall strips_to_some es -> smooth (fun _ => aligned) strips_to_some m us ->
  aligned (st_body st) -> propagate (uses m us) st start max = Some p ->
  (forall ev, In ev (pr_events p) -> aligned (st_body (ev_state ev))) /\
  match pr_end p with Ok st' => aligned (st_body st') | Throw x => x <> BadIndex end.
Proof. exact cav_stays_aligned. Qed.
Print Assumptions C56_proper_files_propagate.
Example C56_proper_files_propagate_ex : forall num a, proper_files files1 /\ (forall f, w_readcfg (world0 num a) f <> Throw BadIndex) /\
  (exists m, new_machine (moment_reg (with_cavities (world0 num a) files1)) (mconf rf_line) = Ok m) /\
  Forall strips_to_some rf_line /\ aligned beam2.
Proof.
  intros num a. split; [apply files1_proper|]. split; [discriminate|]. split; [apply rf_built|]. split; [apply rf_strips|].
  apply beam2_aligned.
Qed.

(** With fewer attributes than that the constructor reads beyond them. *)
Theorem C56_short_attr_refuted : forall w,
  new_machine (moment_reg (with_cavities w (files_of (Some (data_of [gap_of 22] ez4))))) (mconf [cavity1]) = Throw BadIndex.
Proof. exact C56_short_attr_refuted_w. Qed.
Print Assumptions C56_short_attr_refuted.

(** An odd number of values in the field table is written beyond the table, and a file
    that does not parse gives a null pointer. *)
Theorem C56_odd_field_refuted : forall w,
  new_machine (moment_reg (with_cavities w (files_of (Some (data_of [gap_of 23] [dzero; done; done]))))) (mconf [cavity1]) = Throw Abort.
Proof. exact C56_odd_field_refuted_w. Qed.
Print Assumptions C56_odd_field_refuted.
Theorem C56_unparsable_refuted : forall w,
  new_machine (moment_reg (with_cavities w (files_of None))) (mconf [cavity1]) = Throw Abort.
Proof. exact C56_unparsable_refuted_w. Qed.
Print Assumptions C56_unparsable_refuted.

(** Without any accelerating gap the cavity can be built, but propagation reads the
    synchronous phase fit that only a gap has. *)
Theorem C56_no_gap_refuted : forall num a, exists m p,
  let w := with_cavities (world0 num a) (files_of (Some (data_of [piece0] ez4))) in
  new_machine (moment_reg w) (mconf [cavity1]) = Ok m /\ aligned (state0 1) /\
  propagate m (mkSt 0 false (state0 1)) 0 1 = Some p /\ pr_end p = Throw BadIndex.
Proof. exact C56_no_gap_refuted_w. Qed.
Print Assumptions C56_no_gap_refuted.

(** ** C50, C31 with these cavities *)

Theorem C50_ions_kept_by_cavities : forall w files, proper_files files -> (forall f, w_readcfg w f <> Throw BadIndex) ->
  forall c m es us st start max p,
  new_machine (moment_reg (with_cavities w files)) c = Ok m -> tfind "elements" c = Some (TCfgs es) ->
  Forall keeps_ions es -> smooth (fun _ => aligned) keeps_ions m us ->
  aligned (st_body st) -> propagate (uses m us) st start max = Some p ->
  (forall ev, In ev (pr_events p) -> same_ions (st_body st) (st_body (ev_state ev))) /\
  (forall st', pr_end p = Ok st' -> same_ions (st_body st) (st_body st')).
Proof. exact cav_ions_kept. Qed.
Print Assumptions C50_ions_kept_by_cavities.
Example C50_ions_kept_by_cavities_ex : forall num a, proper_files files1 /\ (forall f, w_readcfg (world0 num a) f <> Throw BadIndex) /\
  (exists m, new_machine (moment_reg (with_cavities (world0 num a) files1)) (mconf rf_line) = Ok m) /\
  Forall keeps_ions rf_line /\ aligned beam2.
Proof. intros num a. destruct (C44_stays_above_rest_ex num a) as (H1 & H2 & H3 & H4 & H5 & _). auto. Qed.

Theorem C31_with_strippers_and_cavities : forall w files, proper_files files -> (forall f, w_readcfg w f <> Throw BadIndex) ->
  forall c m es us st start max p,
  new_machine (moment_reg (with_cavities w files)) c = Ok m -> tfind "elements" c = Some (TCfgs es) ->
  Forall (proper_entry (w_num w)) es -> smooth (fun _ => aligned) (proper_entry (w_num w)) m us ->
  aligned (st_body st) -> healthy (st_body st) -> propagate (uses m us) st start max = Some p ->
  (forall ev, In ev (pr_events p) -> healthy (st_body (ev_state ev))) /\
  (forall st', pr_end p = Ok st' -> healthy (st_body st')).
Proof. exact cav_covariances. Qed.
Print Assumptions C31_with_strippers_and_cavities.
Example C31_with_strippers_and_cavities_ex : let w := world0 (fun _ => 1) true in
  proper_files files1 /\ (forall f, w_readcfg w f <> Throw BadIndex) /\
  (exists m, new_machine (moment_reg (with_cavities w files1)) (mconf strip_line) = Ok m) /\
  Forall (proper_entry (w_num w)) strip_line /\ aligned beam2 /\ healthy beam2.
Proof.
  split; [apply files1_proper|]. split; [discriminate|]. split; [eexists; reflexivity|].
  split; [apply strip_proper|]. split; [apply beam2_aligned|apply beam2_healthy].
Qed.
