(** Cavities that beams pass: examples. *)
From Coq Require Import Reals List String Bool NArith ZArith Arith Lia Lra.
From Verif Require Import SMap Dbl Config_Spec Mat Mat_Proofs Machine_Model Machine_Spec Machine_Proofs.
From Verif Require Import Moment_Model Moment_Spec Motion_Spec Moment_Proofs Moment2_Proofs Moment3_Proofs Moment6_Proofs Motion_Proofs Motion2_Proofs Motion3_Proofs Motion5_Proofs Round4_Proofs Round6_Proofs Frame_Spec Frame_Proofs.
From Verif Require Import Cavity_Model Cavity_Spec Cavity2_Spec Cavity_Proofs Cavity2_Proofs Cavity3_Proofs Cavity4_Proofs Cavity5_Proofs Cavity6_Proofs Cavity7_Proofs Cavity8_Proofs Cavity9_Proofs.
Import ListNotations.
Open Scope R_scope.
Open Scope string_scope.
Open Scope list_scope.

Definition d361 : double := d_of_Z 361.
Definition num3 (x : double) : R :=
  match x with SpecFloat.S754_zero _ => 0 | SpecFloat.S754_finite _ m _ => if Pos.eqb m 4503599627370496 then 1 else 361 | _ => 0 end.
(** A cavity of no field, with phase [x]. *)
Definition cavity3 (x : double) : tcfg :=
  TCfg [("L", TNum done); ("cavtype", TStr "Generic"); ("datafile", TStr "d"); ("f", TNum done); ("name", TStr "c");
        ("phi", TNum x); ("scl_fac", TNum dzero); ("syncflag", TNum dzero); ("type", TStr "rfcavity")] [].
Definition loaded3 (x : double) : cavity :=
  mkCav 0 1 (num3 x * PI / 180) 1 (negb (Reqb 0 0)) 2 0
    [mkRaw "drift" 1 0 [] []; mkRaw "AccGap" 0 1 (repeat 0 10) (repeat 0 10); mkRaw "drift" 1 0 [] []]
    [(0, 1); (1, 1)] [[0; 1]; [1; 1]] [] [0; 0; 0] None None None None.
Lemma load3 a x : load_cavity (world0 num3 a) files2 (cavity3 x) = Ok (loaded3 x).
Proof. reflexivity. Qed.
Definition world3 (a : bool) : world := with_cavities (world0 num3 a) files2.
Lemma through3 a x p E F scl : 0 < p_Es p -> 0 < p_beta p -> p_Es p <= E -> exists E' F', boost a (loaded3 x) p E F scl = Ok (Some (E', F')).
Proof.
  intros H1 H2 H3. assert (En : enters (loaded3 x) p E) by (unfold enters; repeat split; auto; cbn; lra).
  do 2 eexists. apply (proj1 (boost_tracks a (loaded3 x) p E F scl En)). intros y z H. destruct H.
Qed.
Lemma moving_passable p : moving p -> passable (recalc p).
Proof.
  intros M. assert (B := moving_beta p M). destruct (moving_facts p M) as (_ & B' & _). rewrite <- (recalc_beta p M) in B'.
  destruct M as (M1 & M2 & M3 & M4). unfold passable. cbn [p_Es p_Ek p_freq p_W recalc]. repeat split; auto; try lra.
Qed.
Lemma ref3 a x p : passable p -> exists p' phi, w_cav_ref (world3 a) (cavity3 x) p = Ok (p', phi).
Proof.
  intros (H1 & H2 & H3 & H4 & H5). unfold world3, with_cavities. cbn [w_cav_ref]. rewrite load3. cbn [rbind]. unfold propagate_long.
  change (num_of (world0 num3 a) (cavity3 x) "scl_fac") with (Ok 0). cbn [rbind].
  destruct (Req_EM_T (p_freq p) 0); [contradiction|].
  assert (DP : driven_phase (world0 num3 a) (loaded3 x) (cavity3 x) p 0 = Ok (num3 x * PI / 180)).
  { unfold driven_phase. change (num_def (world0 num3 a) (cavity3 x) "syncflag" 1) with 0. cbn [cv_cavi loaded3 Nat.eqb check_limit cv_eklim rbind].
    destruct (Rle_dec 1 0); [lra|]. reflexivity. }
  rewrite DP. cbn [rbind].
  destruct (through3 (w_asserts (world0 num3 a)) x p (p_W p) (cv_f (loaded3 x) / p_freq p * p_phis p + num3 x * PI / 180) 0 H1 H2 H5) as (E' & F' & ->).
  cbn [rbind]. eauto.
Qed.
Lemma one3 a x phi p T : passable p -> exists p', snd (w_cav_one (world3 a) (cavity3 x) phi p T) = Ok p'.
Proof.
  intros (H1 & H2 & H3 & H4 & H5). unfold world3, with_cavities. cbn [w_cav_one]. rewrite load3. unfold init_cav.
  cbn [cv_cavi loaded3 label_of rbind]. destruct (Req_EM_T (p_freq p) 0); [contradiction|].
  change (num_of (world0 num3 a) (cavity3 x) "scl_fac") with (Ok 0). cbn [rbind].
  destruct (through3 (w_asserts (world0 num3 a)) x p (p_Ek p + p_Es p) (cv_f (loaded3 x) / p_freq p * p_phis p + phi) 0 H1 H2 ltac:(lra)) as (E' & F' & X).
  fold (loaded3 x). rewrite X. cbn [rbind]. cbn [Nat.ltb Nat.leb].
  set (q := boosted p E' _ _). assert (Q : p_Es q = p_Es p) by reflexivity.
  assert (G : exists M, gen_matrix (world0 num3 a) (loaded3 x) q 0 (cv_f (loaded3 x) / p_freq p * p_phis p + phi) (p_Ek p) = Ok M).
  { unfold gen_matrix. rewrite Q.
    assert (B : exists b, Cavity_Model.beta_of ((p_Ek p + p_Es p) / p_Es p) = Ok b).
    { unfold Cavity_Model.beta_of. destruct (Rlt_dec _ _) as [L|L]; [eauto|]. exfalso. apply L. unfold sqr.
      replace ((p_Ek p + p_Es p) / p_Es p) with (1 + p_Ek p / p_Es p) by (field; lra).
      assert (0 < p_Ek p / p_Es p) by (apply Rdiv_lt_0_compat; auto). nra. }
    destruct B as [b B]. rewrite B. cbn [rbind].
    assert (RM : (w_asserts (world0 num3 a) && negb (if Rlt_dec 0 (cv_Rm (loaded3 x)) then true else false))%bool = false).
    { apply andb_false_iff. right. cbn [cv_Rm loaded3]. destruct (Rlt_dec 0 1); [reflexivity|lra]. }
    rewrite RM. cbn [cv_lat loaded3 gen_loop]. unfold gen_step at 1. cbn [r_type String.eqb Ascii.eqb Bool.eqb rbind].
    unfold gen_step at 1. cbn [r_type String.eqb Ascii.eqb Bool.eqb r_T r_S g_k g_W g_Fy]. rewrite fit0. cbn [rbind r_E0].
    match goal with |- context [Cavity_Model.beta_of (?x / p_Es q)] => replace x with (p_Ek p + p_Es p) by ring end. rewrite Q, B. cbn [rbind].
    unfold gen_step. cbn [r_type String.eqb Ascii.eqb Bool.eqb rbind]. eauto. }
  destruct G as [M G]. rewrite G. cbn [rbind snd]. eauto.
Qed.
Lemma cavity3_off x : unpowered num3 (cavity3 x).
Proof. exists dzero. split; reflexivity. Qed.
Lemma files2_proper : proper_files files2.
Proof.
  split; [discriminate|]. split; [discriminate|]. split; [discriminate|]. split; [discriminate|].
  intros n conf [= <-]. split; [|split; [|split]].
  - intros l [= <-]. split.
    + constructor; [left; reflexivity|]. constructor; [right|constructor; [left; reflexivity|constructor]].
      exists (repeat dzero 23). split; [reflexivity|]. rewrite repeat_length. split; [lia|intros _; lia].
    + right. left. reflexivity.
  - intros l [= <-]. simpl. lia.
  - intros l H. discriminate.
  - intros l H. discriminate.
Qed.
Lemma world3_sane a : sane (world3 a).
Proof. apply with_sane; [apply files2_proper|discriminate]. Qed.
Lemma goes3 a x d0 s : mom_ctor (world3 a) KRFCavity (cavity3 x) = Ok d0 -> aligned s -> moving (ms_ref s) -> Forall moving (ms_real s) ->
  exists d s1, advance_cav (world3 a) (cavity3 x) d0 false s = (d, Ok s1).
Proof.
  intros HC A MR MV. set (w := world3 a) in *. assert (F := ctor_fresh w _ _ _ HC). rewrite cav_eq by (apply fresh_miss; auto). unfold cav_miss. cbv zeta.
  assert (A1 := recalc_aligned s A). destruct (note_shape d0 (ms_recalc s)) as (M0 & M1 & M2). set (s' := ms_recalc s) in *.
  change (ms_ref s') with (recalc (ms_ref s)).
  destruct (ref3 a x _ (moving_passable _ MR)) as (ref & phi & HR). fold w in HR. rewrite HR.
  assert (ER : ref = onward (loaded3 x) (ms_ref s)) by (eapply (ref_off (world0 num3 a) files2 _ _ (load3 a x) (cavity3_off x)); eauto).
  assert (ME : 0 < p_Es ref) by (rewrite ER; apply MR).
  destruct (cells_all w (cavity3 x) (md_len (note_input d0 s')) phi (ms_real s') (md_tm (note_input d0 s'))) as (tm & reals & CC); [congruence| |].
  { intros p Hp. apply in_map_iff in Hp as (q & <- & Hq). rewrite Forall_forall in MV. unfold cav_cell. set (T0 := mset _ _ _ _).
    destruct (one3 a x phi _ T0 (moving_passable _ (MV _ Hq))) as [p' Hp']. fold w in Hp'. destruct (w_cav_one w _ _ _ _) as [T r]. cbn [snd] in Hp'. subst r. cbn [rbind snd]. eauto. }
  rewrite CC. destruct (cells_length w _ _ _ _ _ _ _ CC) as [L1 L2].
  match goal with |- context [cav_misalign ?d ref reals] => assert (CM : exists mis, cav_misalign d ref reals = (mis, None)) end.
  { unfold cav_misalign. apply run_all; [cbn [with_tm with_phi md_mis]; congruence|]. intros j p' y Hp' _.
    assert (Hj := nth_lt _ _ _ Hp'). destruct (nth_ex (ms_real s') j _ eq_refl ltac:(rewrite <- L2; exact Hj)) as [p Hp].
    destruct (cells_nth w _ _ _ _ _ _ _ _ _ CC Hp) as (T & p2 & C1 & C2 & C3). rewrite Hp' in C3. apply some_eq in C3. subst p2.
    apply nth_error_In in Hp. apply in_map_iff in Hp as (q & <- & Hq). rewrite Forall_forall in MV. assert (Mq := MV _ Hq).
    assert (X : exists M IM, get_misalign (md_sh d0) (md_len d0) ref p' = Ok (M, IM)).
    { unfold cav_cell in C1. set (T0 := mset _ _ _ _) in C1. destruct (w_cav_one w _ _ _ T0) as [T1 r] eqn:W1. apply pair_eq in C1 as [_ C1].
      apply rbind_ok in C1 as (q1 & -> & C1). apply (f_equal (fun r => match r with Ok x => x | Throw _ => p' end)) in C1. rewrite <- C1.
      destruct (one_off (world0 num3 a) files2 _ _ (load3 a x) (cavity3_off x) _ _ _ _ _ Mq W1) as [EQ _].
      apply (misalign_more _ _ _ _ (recalc q) q1); auto; rewrite ?EQ; try reflexivity; try (apply moving_recalc; exact Mq); exact Mq. }
    destruct X as (M & IM & E).
    cbn [with_tm with_phi md_sh md_len]. change (md_sh (note_input d0 s')) with (md_sh d0). change (md_len (note_input d0 s')) with (md_len d0).
    rewrite E. eauto. }
  destruct CM as [mis CM]. rewrite CM.
  assert (LM : List.length mis = List.length (ms_real s')).
  { unfold cav_misalign in CM. assert (Q := run_length _ _ _ _ _ CM). cbn [with_tm with_phi md_mis] in Q. congruence. }
  apply fwd_runs; auto; cbn [with_out with_mis with_tm with_phi md_real_in md_tm md_mis]; rewrite ?map_length; congruence.
Qed.
Lemma through_cavity3 a x s : aligned s -> moving (ms_ref s) -> Forall moving (ms_real s) -> exists f, goes_through (world3 a) (cavity3 x) s f.
Proof.
  intros A MR MV.
  assert (X : exists m e d0, new_machine (moment_reg (world3 a)) (mconf [cavity3 x]) = Ok m /\ nth_error (m_elems m) 0 = Some e /\
    el_class e = mom_class (world3 a) KRFCavity /\ el_data e = d0 /\ eb_conf (el_base e) = cavity3 x /\ mom_ctor (world3 a) KRFCavity (cavity3 x) = Ok d0 /\
    nth_error (entries m [cavity3 x] []) 0 = Some (cavity3 x)).
  { do 3 eexists. repeat split; reflexivity. }
  destruct X as (m & e & d0 & X1 & X2 & X3 & X4 & X5 & X6 & X7).
  destruct (goes3 a x d0 s X6 A MR MV) as (d & s1 & E).
  destruct (run_one m (mkSt 0 false s) 0 e d (mkSt (size_incr 0) false s1) X2) as (p & P1 & P2 & _).
  { rewrite X3. cbn [cl_advance mom_class]. unfold mom_advance. cbn [st_retreat st_body]. rewrite X5, X4. cbn [advance_of]. rewrite E. reflexivity. }
  exists s1, (mconf [cavity3 x]), m, [cavity3 x], [], 0%nat, (mkSt 0 false s), p, (mkSt (size_incr 0) false s1).
  split; [exact X1|]. split; [reflexivity|]. split; [repeat constructor; unfold strips_to_some; discriminate|]. split; [exact I|].
  split; [exact X7|]. split; [reflexivity|]. split; [exact A|]. split; [exact P1|]. split; [exact P2|reflexivity].
Qed.
Lemma cavity3_turned : turned num3 1 (cavity3 done) (cavity3 d361).
Proof.
  split.
  - intros name H. unfold tfind, cavity3. cbn [town touter sfind]. destruct (String.eqb_spec name "phi"); [contradiction|]. reflexivity.
  - exists done, d361. split; [reflexivity|]. split; [reflexivity|]. assert (E1 : num3 d361 = 361) by reflexivity. assert (E2 : num3 done = 1) by reflexivity. rewrite E1, E2. lra.
Qed.
Lemma cavity3_well x : placed_well num3 (cavity3 x).
Proof. repeat constructor. Qed.
Lemma slow_passes : passable slow.
Proof. unfold passable. split; [cbn; lra|]. split; [apply slow_beta|]. repeat split; cbn; lra. Qed.

(** ** In the form of the theorems *)
Lemma turns w files n c c' s f f' : proper_files files -> (forall n, w_readcfg w n <> Throw BadIndex) -> turned (w_num w) n c c' -> is_a "rfcavity" c ->
  goes_through (with_cavities w files) c s f -> goes_through (with_cavities w files) c' s f' -> same_but_turns f f'.
Proof. intros PF HR T HK G G'. eapply goes_turn; eauto. apply with_sane; auto. Qed.
Lemma computations_turn w files n c c' : turned (w_num w) n c c' ->
  let w' := with_cavities w files in
  (forall p, w_cav_ref w' c' p = match w_cav_ref w' c p with Ok (q, phi) => Ok (q, phi + 2 * PI * IZR n) | Throw e => Throw e end) /\
  (forall phi p M, w_cav_one w' c' (phi + 2 * PI * IZR n) p M = w_cav_one w' c phi p M) /\
  (forall ref p_in p m x, w_cav_growth w' c' ref p_in p m x = w_cav_growth w' c ref p_in p m x) /\
  w_cav_ctor w' c' = w_cav_ctor w' c.
Proof.
  intros T w'. split; [|split; [|split]].
  - intros p. unfold w'. rewrite (cav_ref_turn n w c c' T). destruct (w_cav_ref _ c p) as [[q phi]|]; reflexivity.
  - intros phi p M. apply cav_one_turn. exact T.
  - intros. eapply cav_growth_turn. exact T.
  - unfold w'. cbn [w_cav_ctor with_cavities]. rewrite (load_turn n w c c' T). destruct (load_cavity w files c); reflexivity.
Qed.
Lemma no_field w files ec cv s f : load_cavity w files ec = Ok cv -> unpowered (w_num w) ec ->
  proper_files files -> (forall n, w_readcfg w n <> Throw BadIndex) ->
  goes_through (with_cavities w files) ec s f -> is_a "rfcavity" ec -> moving (ms_ref s) -> Forall moving (ms_real s) ->
  let onward q := recalc (later q (wavenumber q * table_length cv)) in
  ms_ref f = onward (ms_ref s) /\ ms_real f = map onward (ms_real s) /\
  (placed_well (w_num w) ec -> forall j q, nth_error (ms_real s) j = Some q ->
    exists Tm, nth_error (ms_tm f) j = Some Tm /\
      forall i k, (i < 7)%nat -> (k < 7)%nat -> ~ shift_entry i k -> Tm i k = coast (drifts_length cv) (lon_length cv) q i k).
Proof. intros HL HU PF HR G HK M1 M2. exact (cavity_off w files ec cv HL HU PF HR s f G HK M1 M2). Qed.
Lemma fits_exist cv label lo hi L beta K gap scl : cv_force cv = false -> In (label, (lo, hi, L)) built_in -> lo <= beta <= hi ->
  gap = 1%nat \/ gap = 2%nat -> exists t, trans_facts cv label beta K gap scl = Ok t.
Proof.
  intros HF HI HB HG. unfold trans_facts. cbv zeta. rewrite HF.
  simpl in HI. decompose [or] HI; try contradiction;
    match goal with H : _ = _ |- _ => injection H as <- <- <- <- end; cbn [fit_range];
    (destruct (Rlt_dec beta _); [exfalso; lra|]; destruct (Rlt_dec _ beta); [exfalso; lra|]);
    destruct HG as [-> | ->]; cbn [fitted]; eauto.
Qed.
