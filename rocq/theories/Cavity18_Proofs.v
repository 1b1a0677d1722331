(** Examples of driven phases and transit time factors; refutations. *)
From Coq Require Import Reals List String Bool NArith ZArith Lia Lra Psatz.
From Verif Require Import SMap Dbl Config_Spec Mat Machine_Model Machine_Spec Moment_Model Moment_Spec Moment_Proofs Moment2_Proofs Cavity_Model Cavity_Spec Cavity_Proofs Cavity2_Proofs Cavity3_Proofs
  Cavity4_Proofs Cavity5_Proofs Cavity13_Proofs Cavity14_Proofs Cavity5_Spec Cavity15_Proofs Cavity16_Proofs Cavity17_Proofs.
Import ListNotations.
Open Scope R_scope.
Open Scope string_scope.
Open Scope list_scope.

(** ** Phases *)
Lemma ref_passes w files c cv p scl F : load_cavity w files c = Ok cv -> num_of w c "scl_fac" = Ok scl -> p_freq p <> 0 ->
  driven_phase w cv c p scl = Ok F ->
  (exists E' F', boost (w_asserts w) cv p (p_W p) (cv_f cv / p_freq p * p_phis p + F) scl = Ok (Some (E', F'))) ->
  exists p', w_cav_ref (with_cavities w files) c p = Ok (p', F).
Proof.
  intros L Sc Fr D (E' & F' & B). unfold with_cavities. cbn [w_cav_ref]. rewrite L. cbn [rbind]. unfold propagate_long. cbv zeta. rewrite Sc. cbn [rbind].
  destruct (Req_EM_T (p_freq p) 0); [contradiction|]. rewrite D. cbn [rbind]. rewrite B. cbn [rbind]. eauto.
Qed.
Lemma slow_freq : p_freq slow <> 0.
Proof. cbn. lra. Qed.
Lemma slow_W : p_W slow = 2.
Proof. cbn. lra. Qed.
Lemma slow_MeV : energy_MeV slow = 1 / 1000000.
Proof. unfold energy_MeV. cbn. lra. Qed.
Lemma slow_pow b : fpow ((p_W slow - p_Es slow) / MeVtoeV) b = Ok (Rpower (1 / 1000000) b).
Proof.
  change ((p_W slow - p_Es slow) / MeVtoeV) with (energy_MeV slow). rewrite slow_MeV. unfold fpow. destruct (Rlt_dec 0 (1 / 1000000)); [reflexivity|lra].
Qed.

(** A cavity of a type with a name. *)
Lemma named5 a : exists p' F, w_cav_ref (with_cavities (world0 num01 a) files5) cavity5 slow = Ok (p', F).
Proof.
  destruct (driven_phase (world0 num01 a) loaded5 cavity5 slow 1) as [F|e] eqn:D.
  - destruct (ref_passes (world0 num01 a) files5 cavity5 loaded5 slow 1 F) as [p' H]; [apply load5|reflexivity|apply slow_freq|exact D| |eauto].
    rewrite slow_W. destruct (fast_enough (w_asserts (world0 num01 a)) loaded5 slow 2 (cv_f loaded5 / p_freq slow * p_phis slow + F) 1 (proj1 enough5) (proj2 enough5)) as (E' & F' & X & _). eauto.
  - exfalso. revert D. unfold driven_phase. change (num_def (world0 num01 a) cavity5 "syncflag" 1) with 1. cbv zeta. change (Nat.eqb (cv_cavi loaded5) 0) with false.
    cbv iota. cbn [rbind]. destruct (Rle_dec 1 1) as [_|N]; [|lra]. unfold cav_phase. cbv zeta. change (cv_cavi loaded5) with 1%nat. cbv iota. rewrite slow_pow. discriminate.
Qed.

(** Generic cavities: fitted by the gap, fitted by peaks. *)
Definition conf7 : tcfg := data_of [piece0; gap_of 23; piece0] ez4.
Definition conf8 : tcfg :=
  TCfg [("Ez", TVec ez4); ("RefNorm", TNum done); ("Rm", TNum done); ("SyncFit", TVec [dzero; dzero; dzero; done; dzero]);
        ("elements", TCfgs [piece0; gap_of 23; piece0])] [].
Definition loaded7 (nrm : option R) (cx : option (list R)) : cavity :=
  mkCav 0 1 (1 * PI / 180) 1 (negb (Reqb 0 0)) 2 0
    [mkRaw "drift" 1 0 [] []; mkRaw "AccGap" 1 1 (repeat 1 10) (repeat 1 10); mkRaw "drift" 1 0 [] []]
    [(0, 1); (1, 1)] [[0; 1]; [1; 1]] [] [1; 1; 1] nrm cx None None.
Lemma load7 a : load_cavity (world0 num01 a) (files_of (Some conf7)) cavity1 = Ok (loaded7 None None).
Proof. reflexivity. Qed.
Lemma load8 a : load_cavity (world0 num01 a) (files_of (Some conf8)) cavity1 = Ok (loaded7 (Some 1) (Some [0; 0; 0; 1; 0])).
Proof. reflexivity. Qed.
Lemma through7 a nrm cx F : exists E' F', boost a (loaded7 nrm cx) slow 2 F 1 = Ok (Some (E', F')).
Proof.
  assert (En : enters (loaded7 nrm cx) slow 2) by (apply slow_enters; [cbn; lra|cbn; lia]).
  do 2 eexists. apply (proj1 (boost_tracks a (loaded7 nrm cx) slow 2 F 1 En)). intros x y H. destruct H.
Qed.
Lemma ref7 a : exists p' F, w_cav_ref (with_cavities (world0 num01 a) (files_of (Some conf7))) cavity1 slow = Ok (p', F).
Proof.
  destruct (driven_phase (world0 num01 a) (loaded7 None None) cavity1 slow 1) as [F|e] eqn:D.
  - destruct (ref_passes (world0 num01 a) (files_of (Some conf7)) cavity1 (loaded7 None None) slow 1 F) as [p' H]; [apply load7|reflexivity|apply slow_freq|exact D| |eauto].
    rewrite slow_W. apply through7.
  - exfalso. revert D. unfold driven_phase. change (num_def (world0 num01 a) cavity1 "syncflag" 1) with 1. cbv zeta. cbn [cv_cavi loaded7 Nat.eqb check_limit cv_eklim rbind cv_nrm].
    destruct (Rle_dec 1 1) as [_|N]; [|lra]. unfold cav_phase. cbv zeta. cbn [cv_cavi loaded7 cv_syn]. rewrite slow_pow. discriminate.
Qed.
Lemma ref8 a : exists p' F, w_cav_ref (with_cavities (world0 num01 a) (files_of (Some conf8))) cavity1 slow = Ok (p', F).
Proof.
  destruct (driven_phase (world0 num01 a) (loaded7 (Some 1) (Some [0; 0; 0; 1; 0])) cavity1 slow 1) as [F|e] eqn:D.
  - destruct (ref_passes (world0 num01 a) (files_of (Some conf8)) cavity1 (loaded7 (Some 1) (Some [0; 0; 0; 1; 0])) slow 1 F) as [p' H]; [apply load8|reflexivity|apply slow_freq|exact D| |eauto].
    rewrite slow_W. apply through7.
  - exfalso. revert D. unfold driven_phase. change (num_def (world0 num01 a) cavity1 "syncflag" 1) with 1. cbv zeta. cbn [cv_cavi loaded7 Nat.eqb check_limit cv_eklim rbind cv_nrm cv_cx cv_nrlim].
    destruct (Rle_dec 1 1) as [_|N]; [|lra]. unfold Reqb. destruct (Req_EM_T 1 1) as [_|N]; [|lra].
    unfold fdiv. destruct (Req_EM_T 1 0) as [N|_]; [lra|]. cbn [rbind]. unfold cav_phase_complex. change (negb (Nat.eqb (List.length [0; 0; 0; 1; 0] mod 5) 0)) with false. cbv iota.
    rewrite complex_cons. change (ipow (1 * p_Z slow / 1) 0) with (Some 1). cbv iota. rewrite slow_pow. discriminate.
Qed.
Lemma data7 a : data_file (world0 num01 a) (files_of (Some conf7)) cavity1 conf7.
Proof. split; [reflexivity|]. exists "d". split; reflexivity. Qed.
Lemma data8 a : data_file (world0 num01 a) (files_of (Some conf8)) cavity1 conf8.
Proof. split; [reflexivity|]. exists "d". split; reflexivity. Qed.
Lemma gap7 : gap_numbers conf7 (repeat done 23).
Proof.
  exists [piece0], (gap_of 23), [piece0]. split; [reflexivity|]. split; [repeat constructor; unfold is_a; discriminate|]. split; reflexivity.
Qed.
Lemma peaks7 : ~ has_peaks conf7.
Proof. intros [[x H] _]. discriminate. Qed.
Lemma C74_documented_fit_refuted_w : exists w files c conf l ref ref' F a b d,
  w_cav_ref (with_cavities w files) c ref = Ok (ref', F) /\ data_file w files c conf /\ ~ has_peaks conf /\ gap_numbers conf l /\
  nth_error l 20 = Some a /\ nth_error l 21 = Some b /\ nth_error l 22 = Some d /\
  entry_phase (w_num w) c ref F <> phi_given (w_num w) c - sine_fit (w_num w a) (w_num w b) (w_num w d) (energy_MeV ref).
Proof.
  destruct (ref7 true) as (p' & F & H). exists (world0 num01 true), (files_of (Some conf7)), cavity1, conf7, (repeat done 23), slow, p', F, done, done, done.
  split; [exact H|]. split; [apply data7|]. split; [apply peaks7|]. split; [apply gap7|]. split; [reflexivity|]. split; [reflexivity|]. split; [reflexivity|].
  destruct (entry_gap (world0 num01 true) (files_of (Some conf7)) cavity1 slow p' F H conf7 (repeat done 23) (data7 true) gap7) as (_ & a & b & d & A & B & D & E).
  { change (real_at (w_num (world0 num01 true)) cavity1 "syncflag" 1) with 1. lra. }
  { right. apply peaks7. }
  change (Some done = Some a) in A. change (Some done = Some b) in B. change (Some done = Some d) in D. injection A as <-. injection B as <-. injection D as <-. rewrite E. unfold sine_fit. change (w_num (world0 num01 true) done) with 1. intros Y. lra.
Qed.
Lemma C74_documented_peaks_refuted_w : exists w files c conf x P ref ref' F,
  w_cav_ref (with_cavities w files) c ref = Ok (ref', F) /\ data_file w files c conf /\
  tfind "RefNorm" conf = Some (TNum x) /\ tfind "SyncFit" conf = Some (TVec P) /\
  entry_phase (w_num w) c ref F <>
    phi_given (w_num w) c - peak_fit_documented (real_at (w_num w) c "scl_fac" 0 * p_Z ref / w_num w x) (energy_MeV ref) (map (w_num w) P).
Proof.
  destruct (ref8 true) as (p' & F & H). exists (world0 num01 true), (files_of (Some conf8)), cavity1, conf8, done, [dzero; dzero; dzero; done; dzero], slow, p', F.
  split; [exact H|]. split; [apply data8|]. split; [reflexivity|]. split; [reflexivity|].
  destruct (entry_peaks (world0 num01 true) (files_of (Some conf8)) cavity1 slow p' F H conf8 done [dzero; dzero; dzero; done; dzero] (data8 true)) as (_ & _ & E);
    [reflexivity|reflexivity|cbn [List.length]; lia|reflexivity|].
  rewrite E, slow_MeV. change (map (w_num (world0 num01 true)) [dzero; dzero; dzero; done; dzero]) with [0; 0; 0; 1; 0]. cbn [peak_fit peak_fit_documented].
  assert (X : exp (- (1 / 1000000)) < exp (1 / 1000000)) by (apply exp_increasing; lra). intros Y. lra.
Qed.

(** ** Pieces the documentation has *)
Definition hfocus : tcfg := TCfg [("L", TNum dzero); ("V0", TNum done); ("attr", TVec (repeat dzero 20)); ("type", TStr "HFocus")] [].
Definition conf9 : tcfg := data_of [piece0; hfocus; still_gap; piece0] ez4.
Definition loaded9 : cavity :=
  mkCav 0 1 (1 * PI / 180) 1 (negb (Reqb 0 0)) 2 0
    [mkRaw "drift" 1 0 [] []; mkRaw "HFocus" 0 1 (repeat 0 10) (repeat 0 10); mkRaw "AccGap" 0 1 (repeat 0 10) (repeat 0 10); mkRaw "drift" 1 0 [] []]
    [(0, 1); (1, 1)] [[0; 1]; [1; 1]] [] [0; 0; 0] None None None None.
Lemma load9 a : load_cavity (world0 num01 a) (files_of (Some conf9)) cavity2 = Ok loaded9.
Proof. reflexivity. Qed.
Lemma through9 a F : exists E' F', boost a loaded9 slow 2 F 1 = Ok (Some (E', F')).
Proof.
  assert (En : enters loaded9 slow 2) by (apply slow_enters; [cbn; lra|cbn; lia]).
  do 2 eexists. apply (proj1 (boost_tracks a loaded9 slow 2 F 1 En)). intros x y H. destruct H.
Qed.
Lemma C66_documented_types_refuted_w : exists w files c conf es ref' F T,
  data_file w files c conf /\ tfind "elements" conf = Some (TCfgs es) /\
  Forall (fun e => In (str_at e "type" "") ["drift"; "HFocus"; "AccGap"]) es /\
  w_cav_ref (with_cavities w files) c slow = Ok (ref', F) /\ snd (w_cav_one (with_cavities w files) c F slow T) = Throw RuntimeError.
Proof.
  assert (R : exists p', w_cav_ref (with_cavities (world0 num01 true) (files_of (Some conf9))) cavity2 slow = Ok (p', 1 * PI / 180)).
  { apply ref_passes with (cv := loaded9) (scl := 1); [apply load9|reflexivity|apply slow_freq| |rewrite slow_W; apply through9].
    unfold driven_phase. change (num_def (world0 num01 true) cavity2 "syncflag" 1) with 0. cbn [cv_cavi loaded9 Nat.eqb check_limit cv_eklim rbind].
    destruct (Rle_dec 1 0); [lra|]. reflexivity. }
  destruct R as [p' R]. exists (world0 num01 true), (files_of (Some conf9)), cavity2, conf9, [piece0; hfocus; still_gap; piece0], p', (1 * PI / 180), mid.
  split; [split; [reflexivity|exists "d"; split; reflexivity]|]. split; [reflexivity|]. split; [repeat apply Forall_cons; try apply Forall_nil; cbn; auto|]. split; [exact R|].
  unfold with_cavities. cbn [w_cav_one]. rewrite load9. unfold init_cav.
  cbn [cv_cavi loaded9 label_of rbind]. destruct (Req_EM_T (p_freq slow) 0) as [Z|_]; [cbn in Z; lra|].
  change (num_of (world0 num01 true) cavity2 "scl_fac") with (Ok 1). cbn [rbind].
  assert (PE : p_Ek slow + p_Es slow = 2) by (cbn; lra). rewrite PE.
  destruct (through9 (w_asserts (world0 num01 true)) (cv_f loaded9 / p_freq slow * p_phis slow + 1 * PI / 180)) as (E' & F' & X).
  fold loaded9. rewrite X. cbn [rbind]. cbn [Nat.ltb Nat.leb].
  set (q := boosted slow E' _ _). assert (Q : p_Es q = 1) by reflexivity. change (p_Ek slow) with 1.
  assert (G : gen_matrix (world0 num01 true) loaded9 q 1 (cv_f loaded9 / p_freq slow * p_phis slow + 1 * PI / 180) 1 = Throw RuntimeError).
  { unfold gen_matrix. rewrite Q.
    assert (B : exists b, beta_of ((1 + 1) / 1) = Ok b).
    { unfold beta_of. destruct (Rlt_dec _ _) as [L|L]; [eauto|]. exfalso. apply L. unfold sqr. lra. }
    destruct B as [b B]. rewrite B. cbn [rbind].
    assert (RM : (w_asserts (world0 num01 true) && negb (if Rlt_dec 0 (cv_Rm loaded9) then true else false))%bool = false).
    { apply andb_false_iff. right. cbn [cv_Rm loaded9]. destruct (Rlt_dec 0 1); [reflexivity|lra]. }
    rewrite RM. cbn [cv_lat loaded9 gen_loop]. unfold gen_step at 1. cbn [r_type String.eqb Ascii.eqb Bool.eqb rbind].
    unfold gen_step at 1. cbn [r_type String.eqb Ascii.eqb Bool.eqb rbind]. reflexivity. }
  rewrite G. reflexivity.
Qed.

(** ** Tables *)
(** Three rows with a field that is strongest in the middle. *)
Definition hill : list (list R) := [[0; 1]; [1; 2]; [2; 1]].
Lemma hill_voltage : voltage hill 1 3 = 3.
Proof. unfold voltage, step, over, size_at, field_at, pos_at. cbn. rewrite !Rabs_pos_eq by lra. field. Qed.
Lemma hill_column : has_column 1 hill.
Proof. unfold hill. repeat constructor. Qed.
Lemma hill_ok gap K : exists t, cal_transfac hill 2 gap K false = Ok t.
Proof.
  apply (table_iff hill 1 false gap K). split; [apply hill_column|]. change (rows_used hill false) with 3%nat. split; [lia|]. rewrite hill_voltage. lra.
Qed.
Lemma hill_step : step hill 3 = 1.
Proof. unfold step, pos_at. cbn. field. Qed.
Lemma hill_even : evenly_spaced hill 3.
Proof. intros k Hk. rewrite hill_step. destruct k as [|[|k]]; [| |lia]; unfold pos_at; cbn; ring. Qed.

Lemma uneven_step : step uneven 3 = 5.
Proof. unfold step, pos_at. cbn. field. Qed.
Lemma uneven_voltage : voltage uneven 1 3 = 15 / 2.
Proof.
  unfold voltage. rewrite uneven_step. unfold over, size_at, field_at. cbn. rewrite (Rabs_pos_eq 2), (Rabs_pos_eq 1), Rabs_R0 by lra. field.
Qed.
Lemma uneven_centre : centre uneven 1 3 = 37 / 6.
Proof.
  unfold centre. rewrite uneven_voltage, uneven_step. unfold over, size_at, between, field_at, pos_at. cbn. rewrite (Rabs_pos_eq 2), (Rabs_pos_eq 1), Rabs_R0 by lra. field.
Qed.
Lemma uneven_odd : odd_part uneven 1 3 (3 * PI / 10) = - (6 / 5).
Proof.
  unfold odd_part. rewrite uneven_voltage. unfold over, off. rewrite uneven_centre. unfold mean_at, between, field_at, pos_at. cbn.
  replace (3 * PI / 10 * ((0 + 9) / 2 - 37 / 6)) with (- (PI / 2)) by field. replace (3 * PI / 10 * ((9 + 10) / 2 - 37 / 6)) with PI by field.
  rewrite sin_neg, sin_PI2, sin_PI. field.
Qed.
Lemma C75_uneven_refuted_w : exists rows K t, cal_transfac rows 2 0 K false = Ok t /\ in_order rows (List.length rows) /\ t_S t < -1.
Proof.
  destruct (proj2 (table_iff uneven 1 false 0 (3 * PI / 10))) as [t H].
  { split; [unfold uneven; repeat constructor|]. change (rows_used uneven false) with 3%nat. split; [lia|]. rewrite uneven_voltage. lra. }
  exists uneven, (3 * PI / 10), t. split; [exact H|]. split.
  - intros k Hk. cbn in Hk. destruct k as [|[|k]]; [| |lia]; unfold pos_at; cbn; lra.
  - destruct (table_value uneven 1 false 0 _ t H) as (_ & _ & _ & E & _). rewrite E. change (rows_used uneven false) with 3%nat. rewrite uneven_odd. lra.
Qed.
Lemma table_slopes rows col gap half (t : R -> ttf) : (forall K, cal_transfac rows (S col) gap K half = Ok (t K)) ->
  forall K, derivable_pt_lim (fun x => t_T (t x)) K (t_Tp (t K)) /\
    (evenly_spaced rows (rows_used rows half) -> derivable_pt_lim (fun x => t_S (t x)) K (t_Sp (t K))).
Proof.
  intros H K. assert (E : forall x, t x = facts rows col half x (Nat.eqb gap 2)) by (intros x; apply (proj1 (table_ok rows col half gap x (t x) (H x)))).
  rewrite E. split.
  - pose proof (derivable_pt_lim_scal _ (if Nat.eqb gap 2 then -1 else 1) K _ (even_derivable rows col half K)) as D.
    refine (derivable_pt_lim_ext _ _ _ _ _ D). intros x. rewrite E. reflexivity.
  - intros Ev. refine (derivable_pt_lim_ext _ _ _ _ _ (odd_derivable rows col half K Ev)). intros x. rewrite E. reflexivity.
Qed.
(** What the loaded cavity takes from the entry and the data file. *)
Lemma settings w files c cv : load_cavity w files c = Ok cv ->
  cv_f cv = real_at (w_num w) c "f" 0 /\ cv_phi cv = phi_given (w_num w) c /\
  (cv_force cv = true <-> real_at (w_num w) c "forcettfcalc" 0 <> 0) /\
  (tfind "cavtype" c <> Some (TStr "Generic") -> cv_Rm cv = real_at (w_num w) c "Rm" 0) /\
  (forall conf, data_file w files c conf ->
     cv_Rm cv = real_at (w_num w) conf "Rm" (real_at (w_num w) c "Rm" 0) /\
     (forall r, cv_nrm cv = Some r <-> exists x, tfind "RefNorm" conf = Some (TNum x) /\ r = w_num w x) /\
     (forall P, cv_cx cv = Some P <-> exists l, tfind "SyncFit" conf = Some (TVec l) /\ P = map (w_num w) l)).
Proof.
  intros L. destruct (load_facts w files c cv L) as (Lf & Lp & Lo & t & Ht & Lc). split; [exact Lf|]. split; [exact Lp|]. split; [|split].
  - rewrite Lo. unfold Reqb. destruct (Req_EM_T _ 0) as [E|E]; cbn [negb]; split; auto; try discriminate; intros X; try contradiction; try (exfalso; apply X; exact E).
  - intros N. rewrite Ht in N. destruct (cav_files t) as [[k fs]|]; [apply Lc|]. destruct Lc as (-> & _). contradiction.
  - intros conf (Hg & n & Hn & Hc). rewrite Hg in Ht. injection Ht as <-. destruct (cav_files "Generic") as [[? ?]|] eqn:X; [discriminate X|].
    destruct Lc as (_ & _ & Y). destruct (Y n conf Hn Hc) as (Y0 & Y1 & Y2). split; [exact Y0|]. split.
    + intros r. rewrite Y1. destruct (tfind "RefNorm" conf) as [[]|]; split; try discriminate; try (intros (x' & Z & _); discriminate).
      * intros [= <-]. eauto.
      * intros (x' & [= <-] & ->). reflexivity.
    + intros P. rewrite Y2. destruct (tfind "SyncFit" conf) as [[]|]; split; try discriminate; try (intros (x' & Z & _); discriminate).
      * intros [= <-]. eauto.
      * intros (x' & [= <-] & ->). reflexivity.
Qed.
