(** Proofs about the RF cavity: machines with cavities, examples and refutations. *)
From Coq Require Import Reals List String Bool NArith ZArith Lia Lra Psatz.
From Verif Require Import SMap Dbl Config_Spec Mat Machine_Model Machine_Spec Machine_Proofs Machine2_Proofs Machine3_Proofs Machine4_Proofs Util_Model Moment_Model
  Moment_Spec Moment_Proofs Moment2_Proofs Moment3_Proofs Moment4_Proofs Moment5_Proofs Moment6_Proofs Cavity_Model Cavity_Spec Cavity_Proofs Cavity2_Proofs
  Cavity3_Proofs Cavity4_Proofs.
Import ListNotations.
Open Scope R_scope.
Open Scope string_scope.
Open Scope list_scope.

Section M.
Variable w : world.
Variable files : cavfiles.
Hypothesis PF : proper_files files.
Hypothesis HR : forall f, w_readcfg w f <> Throw BadIndex.
Notation w' := (with_cavities w files).

Lemma stays_above c m es us st start max p :
  new_machine (moment_reg w') c = Ok m -> tfind "elements" c = Some (TCfgs es) ->
  Forall keeps_ions es -> smooth (fun _ s => aligned s /\ above_rest s) keeps_ions m us ->
  aligned (st_body st) -> above_rest (st_body st) -> propagate (uses m us) st start max = Some p ->
  (forall ev, In ev (pr_events p) -> above_rest (st_body (ev_state ev))) /\
  (forall st', pr_end p = Ok st' -> above_rest (st_body st')).
Proof.
  apply (machine_upheld w' (with_sane w files PF HR) (fun x => 0 <= x)).
  - intros c0 q q' phi H E. cbn in E. apply rbind_ok in E as (cv & _ & E). eapply long_above; eauto.
  - intros c0 phi q T q' H E. cbn in E. destruct (load_cavity w files c0) as [cv|]; [|discriminate]. eapply init_above; eauto.
Qed.

Lemma cav_stays_aligned c m es us st start max p :
  new_machine (moment_reg w') c = Ok m -> tfind "elements" c = Some (TCfgs es) ->
  Forall strips_to_some es -> smooth (fun _ => aligned) strips_to_some m us ->
  aligned (st_body st) -> propagate (uses m us) st start max = Some p ->
  (forall ev, In ev (pr_events p) -> aligned (st_body (ev_state ev))) /\
  match pr_end p with Ok st' => aligned (st_body st') | Throw x => x <> BadIndex end.
Proof. apply stays_aligned. apply with_sane; auto. Qed.

Lemma cav_ions_kept c m es us st start max p :
  new_machine (moment_reg w') c = Ok m -> tfind "elements" c = Some (TCfgs es) ->
  Forall keeps_ions es -> smooth (fun _ => aligned) keeps_ions m us ->
  aligned (st_body st) -> propagate (uses m us) st start max = Some p ->
  (forall ev, In ev (pr_events p) -> same_ions (st_body st) (st_body (ev_state ev))) /\
  (forall st', pr_end p = Ok st' -> same_ions (st_body st) (st_body st')).
Proof. apply ions_kept; [apply with_sane; auto|apply with_keep_ions]. Qed.

Lemma cav_covariances c m es us st start max p :
  new_machine (moment_reg w') c = Ok m -> tfind "elements" c = Some (TCfgs es) ->
  Forall (proper_entry (w_num w)) es -> smooth (fun _ => aligned) (proper_entry (w_num w)) m us ->
  aligned (st_body st) -> healthy (st_body st) -> propagate (uses m us) st start max = Some p ->
  (forall ev, In ev (pr_events p) -> healthy (st_body (ev_state ev))) /\
  (forall st', pr_end p = Ok st' -> healthy (st_body st')).
Proof. apply (covariances_strip w'); [apply with_sane; auto|apply with_keep_ions|apply with_affine]. Qed.

Lemma cav_build c : mom_ctor w' KRFCavity c <> Throw BadIndex.
Proof.
  destruct (load_usable w files PF c) as [H _]. unfold mom_ctor. cbn [w_cav_ctor with_cavities]. intros E.
  destruct (load_cavity w files c) as [cv|e]; [discriminate|]. injection E as ->. apply H. reflexivity.
Qed.
End M.

(** ** Examples *)
(** A gap with [n] attributes. *)
Definition gap_of (n : nat) : tcfg :=
  TCfg [("L", TNum done); ("V0", TNum done); ("attr", TVec (repeat done n)); ("type", TStr "AccGap")] [].
Definition piece0 : tcfg := TCfg [("L", TNum done); ("type", TStr "drift")] [].
Definition data_of (es : list tcfg) (ez : list double) : tcfg :=
  TCfg [("Ez", TVec ez); ("Rm", TNum done); ("elements", TCfgs es)] [].
Definition files_of (o : option tcfg) : cavfiles :=
  mkCF (fun _ => Throw RuntimeError) (fun _ => Throw RuntimeError) (fun _ => Ok o).
Definition ez4 : list double := [dzero; done; done; done].
Definition data1 : tcfg := data_of [piece0; gap_of 23; piece0] ez4.
Definition files1 : cavfiles := files_of (Some data1).
Definition cavity1 : tcfg :=
  TCfg [("L", TNum done); ("cavtype", TStr "Generic"); ("datafile", TStr "d"); ("f", TNum done); ("name", TStr "c");
        ("phi", TNum done); ("scl_fac", TNum done); ("type", TStr "rfcavity")] [].
Definition rf_line : list tcfg := cavity1 :: plain_line.
Lemma files1_proper : proper_files files1.
Proof.
  split; [discriminate|]. split; [discriminate|]. split; [discriminate|]. split; [discriminate|].
  intros n conf [= <-]. split; [|split; [|split]].
  - intros l [= <-]. split.
    + constructor; [left; reflexivity|]. constructor; [right|constructor; [left; reflexivity|constructor]].
      exists (repeat done 23). split; [reflexivity|]. rewrite repeat_length. split; [lia|intros _; lia].
    + right. left. reflexivity.
  - intros l [= <-]. simpl. lia.
  - intros l H. discriminate.
  - intros l H. discriminate.
Qed.
Lemma rf_built w : exists m, new_machine (moment_reg (with_cavities w files1)) (mconf rf_line) = Ok m.
Proof. eexists. reflexivity. Qed.
Lemma rf_keeps : Forall keeps_ions rf_line.
Proof. repeat constructor; unfold not_a; discriminate. Qed.
Lemma rf_strips : Forall strips_to_some rf_line.
Proof. repeat constructor; unfold strips_to_some; discriminate. Qed.
Lemma beam2_above : above_rest beam2.
Proof. split; [cbn; lra|]. repeat constructor; cbn; lra. Qed.

(** A particle slow enough to be stopped. *)
Definition slow : particle := recalc (mkP 1 1 1 0 0 0 0 1 0 0 0 1).
Definition brake (f : R) : cavity := mkCav 0 f 0 1 false 0 0 [] [(0, -2); (1000, -2); (2000, -2)] [] [] [] None None None None.
Definition easy : cavity := mkCav 0 1 0 1 false 0 0 [] [(0, 1); (1000, 3)] [] [] [] None None None None.
Lemma slow_beta : 0 < p_beta slow.
Proof.
  unfold slow, recalc. cbn [p_Es p_Ek p_beta]. destruct (Req_EM_T 1 0); [lra|]. apply sqrt_lt_R0. lra.
Qed.
Lemma slow_enters cv : cv_f cv <> 0 -> (2 <= List.length (cv_data cv))%nat -> enters cv slow 2.
Proof. intros H L. split; [cbn; lra|]. split; [apply slow_beta|]. split; [cbn; lra|]. auto. Qed.
Lemma easy_through F scl : gets_through easy slow 2 F scl.
Proof. intros a b H. destruct H. Qed.
Lemma C44_stopped_particle_refuted_w : forall a, exists cv p E F scl, enters cv p E /\ boost a cv p E F scl = Ok None.
Proof.
  intros a. set (cv := brake 1). set (k := 2 * PI * cv_f cv / (p_beta slow * (299792458 * 1000))).
  assert (En : enters cv slow 2) by (apply slow_enters; [cbn; lra|cbn; lia]).
  exists cv, slow, 2, (- (k * 1000 / 2)), 1. split; [exact En|].
  destruct (boost_tracks a cv slow 2 (- (k * 1000 / 2)) 1 En) as [_ B]. apply B. intros G.
  unfold gets_through, track_in in G. fold k in G.
  assert (ST : step_of (cv_data cv) = 1000) by (unfold step_of; cbn; lra). rewrite ST in G.
  change (mean_fields (map snd (cv_data cv))) with [(-2 + -2) / 2; (-2 + -2) / 2] in G. cbn [track removelast] in G.
  specialize (G _ _ (or_introl eq_refl)). cbn [p_Es p_Z slow recalc] in G.
  replace ((- (k * 1000 / 2) + (- (k * 1000 / 2) + k * 1000)) / 2) with 0 in G by field. rewrite cos_0 in G. lra.
Qed.

(** ** A cavity that lets particles pass *)
Definition num01 (x : double) : R := match x with SpecFloat.S754_zero _ => 0 | _ => 1 end.
Definition still_gap : tcfg :=
  TCfg [("L", TNum dzero); ("V0", TNum done); ("attr", TVec (repeat dzero 23)); ("type", TStr "AccGap")] [].
Definition files2 : cavfiles := files_of (Some (data_of [piece0; still_gap; piece0] ez4)).
Definition cavity2 : tcfg :=
  TCfg [("L", TNum done); ("cavtype", TStr "Generic"); ("datafile", TStr "d"); ("f", TNum done); ("name", TStr "c");
        ("phi", TNum done); ("scl_fac", TNum done); ("syncflag", TNum dzero); ("type", TStr "rfcavity")] [].
Definition world2 (a : bool) : world := with_cavities (world0 num01 a) files2.
Definition loaded2 : cavity :=
  mkCav 0 1 (1 * PI / 180) 1 (negb (Reqb 0 0)) 2 0
    [mkRaw "drift" 1 0 [] []; mkRaw "AccGap" 0 1 (repeat 0 10) (repeat 0 10); mkRaw "drift" 1 0 [] []]
    [(0, 1); (1, 1)] [[0; 1]; [1; 1]] [] [0; 0; 0] None None None None.
Lemma load2 a : load_cavity (world0 num01 a) files2 cavity2 = Ok loaded2.
Proof. reflexivity. Qed.
Lemma enters2 p E : 0 < p_Es p -> 0 < p_beta p -> p_Es p <= E -> enters loaded2 p E.
Proof. intros. unfold enters. repeat split; auto. cbn. lra. Qed.
Lemma through2 a p E F scl : enters loaded2 p E -> exists E' F', boost a loaded2 p E F scl = Ok (Some (E', F')).
Proof.
  intros En. do 2 eexists. apply (proj1 (boost_tracks a loaded2 p E F scl En)). intros x y H. destruct H.
Qed.
Definition passable (p : particle) : Prop := 0 < p_Es p /\ 0 < p_beta p /\ 0 < p_Ek p /\ p_freq p <> 0 /\ p_Es p <= p_W p.
Lemma ref2 a p : passable p -> exists p' phi, w_cav_ref (world2 a) cavity2 p = Ok (p', phi).
Proof.
  intros (H1 & H2 & H3 & H4 & H5). unfold world2, with_cavities. cbn [w_cav_ref]. rewrite load2. cbn [rbind]. unfold propagate_long.
  change (num_of (world0 num01 a) cavity2 "scl_fac") with (Ok 1). cbn [rbind].
  destruct (Req_EM_T (p_freq p) 0); [contradiction|].
  assert (DP : driven_phase (world0 num01 a) loaded2 cavity2 p 1 = Ok (1 * PI / 180)).
  { unfold driven_phase. change (num_def (world0 num01 a) cavity2 "syncflag" 1) with 0. cbn [cv_cavi loaded2 Nat.eqb check_limit cv_eklim rbind].
    destruct (Rle_dec 1 0); [lra|]. reflexivity. }
  rewrite DP. cbn [rbind].
  destruct (through2 (w_asserts (world0 num01 a)) p (p_W p) (cv_f loaded2 / p_freq p * p_phis p + 1 * PI / 180) 1) as (E' & F' & ->).
  - apply enters2; auto.
  - cbn [rbind]. eauto.
Qed.
Lemma fit0 k : fit_pow k (repeat 0 10) = Ok 0.
Proof.
  unfold fit_pow. rewrite fit_poly by discriminate. f_equal. cbn [repeat rev app poly]. ring.
Qed.
Lemma one2 a phi p T : passable p -> exists p', snd (w_cav_one (world2 a) cavity2 phi p T) = Ok p'.
Proof.
  intros (H1 & H2 & H3 & H4 & H5). unfold world2, with_cavities. cbn [w_cav_one]. rewrite load2. unfold init_cav.
  cbn [cv_cavi loaded2 label_of rbind]. destruct (Req_EM_T (p_freq p) 0); [contradiction|].
  change (num_of (world0 num01 a) cavity2 "scl_fac") with (Ok 1). cbn [rbind].
  destruct (through2 (w_asserts (world0 num01 a)) p (p_Ek p + p_Es p) (cv_f loaded2 / p_freq p * p_phis p + phi) 1) as (E' & F' & X).
  { apply enters2; auto. lra. }
  fold loaded2. rewrite X. cbn [rbind]. cbn [Nat.ltb Nat.leb].
  set (q := boosted p E' _ _). assert (Q : p_Es q = p_Es p) by reflexivity.
  assert (G : exists M, gen_matrix (world0 num01 a) loaded2 q 1 (cv_f loaded2 / p_freq p * p_phis p + phi) (p_Ek p) = Ok M).
  { unfold gen_matrix. rewrite Q.
    assert (B : exists b, beta_of ((p_Ek p + p_Es p) / p_Es p) = Ok b).
    { unfold beta_of. destruct (Rlt_dec _ _) as [L|L]; [eauto|]. exfalso. apply L. unfold sqr.
      replace ((p_Ek p + p_Es p) / p_Es p) with (1 + p_Ek p / p_Es p) by (field; lra).
      assert (0 < p_Ek p / p_Es p) by (apply Rdiv_lt_0_compat; auto). nra. }
    destruct B as [b B]. rewrite B. cbn [rbind].
    assert (RM : (w_asserts (world0 num01 a) && negb (if Rlt_dec 0 (cv_Rm loaded2) then true else false))%bool = false).
    { apply andb_false_iff. right. cbn [cv_Rm loaded2]. destruct (Rlt_dec 0 1); [reflexivity|lra]. }
    rewrite RM. cbn [cv_lat loaded2 gen_loop]. unfold gen_step at 1. cbn [r_type String.eqb Ascii.eqb Bool.eqb rbind].
    unfold gen_step at 1. cbn [r_type String.eqb Ascii.eqb Bool.eqb r_T r_S g_k g_W g_Fy]. rewrite fit0. cbn [rbind r_E0].
    match goal with |- context [beta_of (?x / p_Es q)] => replace x with (p_Ek p + p_Es p) by ring end. rewrite Q, B. cbn [rbind].
    unfold gen_step. cbn [r_type String.eqb Ascii.eqb Bool.eqb rbind]. eauto. }
  destruct G as [M G]. rewrite G. cbn [rbind snd]. eauto.
Qed.
Lemma shape_example : exists w files c phi p T p', snd (w_cav_one (with_cavities w files) c phi p T) = Ok p'.
Proof.
  exists (world0 num01 true), files2, cavity2, 0, slow, mid. apply (one2 true).
  unfold passable. split; [cbn; lra|]. split; [apply slow_beta|]. repeat split; cbn; lra.
Qed.
Lemma cavity1_proper num : proper_entry num cavity1.
Proof. unfold proper_entry, is_a. split; [discriminate|]. split; discriminate. Qed.

Definition strip_line : list tcfg := [cavity1; foil [done; dzero; done] [done]; TCfg [("name", TStr "m"); ("type", TStr "marker")] []].
Lemma strip_proper : Forall (proper_entry (fun _ => 1)) strip_line.
Proof.
  constructor; [apply cavity1_proper|]. pose proof line2_proper as H. inversion H as [|? ? _ H2]. inversion H2 as [|? ? _ H3]. exact H3.
Qed.

(** ** Malformed files *)
Definition line_of (w : world) (o : option tcfg) : res (machine mdata mstate) :=
  new_machine (moment_reg (with_cavities w (files_of o))) (mconf [cavity1]).
Lemma C56_short_attr_refuted_w : forall w, line_of w (Some (data_of [gap_of 22] ez4)) = Throw BadIndex.
Proof. reflexivity. Qed.
Lemma C56_odd_field_refuted_w : forall w, line_of w (Some (data_of [gap_of 23] [dzero; done; done])) = Throw Abort.
Proof. reflexivity. Qed.
Lemma C56_unparsable_refuted_w : forall w, line_of w None = Throw Abort.
Proof. reflexivity. Qed.
Lemma C56_no_gap_refuted_w : forall num a, exists m p,
  let w := with_cavities (world0 num a) (files_of (Some (data_of [piece0] ez4))) in
  new_machine (moment_reg w) (mconf [cavity1]) = Ok m /\ aligned (state0 1) /\
  propagate m (mkSt 0 false (state0 1)) 0 1 = Some p /\ pr_end p = Throw BadIndex.
Proof.
  intros num a. set (w := with_cavities (world0 num a) (files_of (Some (data_of [piece0] ez4)))).
  assert (X : exists m e, new_machine (moment_reg w) (mconf [cavity1]) = Ok m /\ nth_error (m_elems m) 0 = Some e /\
    el_class e = mom_class w KRFCavity /\ eb_conf (el_base e) = cavity1 /\ mom_ctor w KRFCavity cavity1 = Ok (el_data e)).
  { do 2 eexists. split; [reflexivity|]. repeat split. }
  destruct X as (m & e & Hm & He & K & Cf & D).
  assert (CC : w_cav_ref w cavity1 (ms_ref (ms_recalc (state0 1))) = Throw BadIndex).
  { unfold w, with_cavities. cbn [w_cav_ref].
    change (load_cavity (world0 num a) (files_of (Some (data_of [piece0] ez4))) cavity1) with
      (@Ok cavity (mkCav 0 (num done) (num done * PI / 180) (num done) (negb (Reqb 0 0)) 2 0 [mkRaw "drift" (num done) 0 [] []]
         [(num dzero, num done); (num done, num done)] [[num dzero; num done]; [num done; num done]] [] [] None None None None)).
    cbn [rbind]. unfold propagate_long. change (num_of (world0 num a) cavity1 "scl_fac") with (Ok (num done)). cbn [rbind].
    destruct (Req_EM_T _ 0) as [Z|Z]; [cbn in Z; lra|].
    unfold driven_phase. change (num_def (world0 num a) cavity1 "syncflag" 1) with 1. cbn [cv_cavi Nat.eqb check_limit cv_eklim rbind].
    destruct (Rle_dec 1 1); [|lra]. cbn [cv_nrm]. unfold cav_phase. cbn [cv_cavi cv_syn rbind]. reflexivity. }
  destruct (run_any m (mkSt 0 false (state0 1)) 0 1 e (note_input (el_data e) (ms_recalc (state0 1))) (Throw BadIndex)) as (p & P1 & P2 & _).
  - exact He.
  - auto.
  - rewrite K. cbn [cl_advance mom_class]. unfold mom_advance. cbn [advance_of st_retreat st_body]. rewrite Cf. unfold advance_cav.
    change (1 <? 0)%Z with false. cbv iota. cbv zeta.
    assert (CK : check_cache (el_data e) (ms_recalc (state0 1)) = false).
    { apply fresh_miss. eapply ctor_fresh. exact D. }
    rewrite CK, CC. reflexivity.
  - exists m, p. split; [exact Hm|]. split; [apply state0_aligned|]. split; [exact P1|exact P2].
Qed.
