(** Elements that have all they need do their work. *)
From Coq Require Import Reals List String Bool NArith ZArith Arith Lia Lra.
From Verif Require Import SMap SMap_Proofs Dbl Config_Spec Mat Mat_Proofs Minv Minv_Proofs Machine_Model Machine_Spec Machine_Proofs
  Machine2_Proofs Linear_Model Linear_Spec Linear_Proofs Linear2_Proofs Linear3_Proofs.
From Verif Require Import Moment_Model Moment_Spec Motion_Spec Moment_Proofs Moment2_Proofs Moment3_Proofs Moment4_Proofs
  Moment5_Proofs Moment6_Proofs Motion_Proofs Motion2_Proofs Motion3_Proofs Motion4_Proofs.
Import ListNotations.
Open Scope R_scope.
Open Scope string_scope.
Open Scope list_scope.

(** ** Misalignment can always be computed *)
Lemma scl_inj ref p : p_K p <> 0 -> sqr (p_beta p) * p_gamma p * p_Es ref / MeVtoeV <> 0 -> inj (scl_mat ref p).
Proof.
  intros HK HB v H.
  assert (E : forall i, (i < 7)%nat -> mapp 7 (scl_mat ref p) v i =
    match i with 4 => (1 / - p_K p * v 4%nat)%R | 5 => (1 / (sqr (p_beta p) * p_gamma p * p_Es ref / MeVtoeV) * v 5%nat)%R | _ => v i end%nat).
  { unfold scl_mat. generalize (1 / - p_K p) (1 / (sqr (p_beta p) * p_gamma p * p_Es ref / MeVtoeV)). intros a b i Hi.
    idx7 i Hi; cbv [mapp sumn mset mid PS_S PS_PS Nat.eqb andb]; ring. }
  assert (Z : forall a x, a <> 0 -> 1 / a * x = 0 -> x = 0).
  { intros a x Ha Hx. apply Rmult_integral in Hx as [Hx|]; auto. exfalso. unfold Rdiv in Hx. rewrite Rmult_1_l in Hx.
    exact (Rinv_neq_0_compat a Ha Hx). }
  intros i Hi. pose proof (H i Hi) as Q. rewrite (E i Hi) in Q. idx7 i Hi; auto.
  - apply (Z _ _ (Ropp_neq_0_compat _ HK) Q).
  - apply (Z _ _ HB Q).
Qed.
Lemma shift_inj x : inj (shift_mat x).
Proof.
  intros v H.
  assert (E : forall i, (i < 7)%nat -> mapp 7 (shift_mat x) v i =
    match i with 4 => (v 4%nat + x * v 6%nat)%R | 5 => (v 5%nat + v 6%nat)%R | _ => v i end%nat).
  { intros i Hi. unfold shift_mat. idx7 i Hi; cbv [mapp sumn mset mid PS_S PS_PS Nat.eqb andb]; ring. }
  assert (V6 : v 6%nat = 0) by (pose proof (H 6%nat ltac:(lia)) as Q; rewrite E in Q by lia; exact Q).
  intros i Hi. pose proof (H i Hi) as Q. rewrite (E i Hi) in Q. rewrite V6 in Q. idx7 i Hi; auto; lra.
Qed.
Lemma turned_zero p y r : turned p y r (0, 0, 0) = (0, 0, 0).
Proof. unfold turned. f_equal; [f_equal|]; ring. Qed.
Lemma rot_inj dx dy tx ty tz : inj (rot_mat dx dy tx ty tz).
Proof.
  intros v H. pose proof (rot_at dx dy tx ty tz v) as E.
  destruct (turned tx ty tz (v 0%nat - dx * v 6%nat, v 2%nat - dy * v 6%nat, v 4%nat)) as [[x y] z] eqn:E1.
  destruct (turned tx ty tz (v 1%nat, v 3%nat, v 5%nat)) as [[x' y'] z'] eqn:E2.
  assert (Q : forall i, (i < 7)%nat -> match i with 0 => x | 1 => x' | 2 => y | 3 => y' | 4 => z | 5 => z' | _ => v i end%nat = 0).
  { intros i Hi. rewrite <- (H i Hi). symmetry. exact (E i Hi). }
  pose proof (Q 0%nat ltac:(lia)) as Q0. pose proof (Q 1%nat ltac:(lia)) as Q1. pose proof (Q 2%nat ltac:(lia)) as Q2.
  pose proof (Q 3%nat ltac:(lia)) as Q3. pose proof (Q 4%nat ltac:(lia)) as Q4. pose proof (Q 5%nat ltac:(lia)) as Q5.
  pose proof (Q 6%nat ltac:(lia)) as Q6. cbv beta iota in *. subst.
  rewrite <- (turned_zero tx ty tz) in E1, E2. apply turned_inj in E1. apply turned_inj in E2.
  apply tuple3 in E1 as (A1 & A2 & A3). apply tuple3 in E2 as (B1 & B2 & B3). rewrite Q6 in A1, A2.
  intros i Hi. idx7 i Hi; auto; lra.
Qed.
Lemma misalign_runs sh len ref p : moving p -> 0 < p_Es ref ->
  exists M IM, get_misalign sh len (recalc ref) (recalc p) = Ok (M, IM).
Proof.
  intros HP HE. destruct (moving_facts p HP) as (G & B & _ & K & _).
  destruct (inj_inverse (scl_mat (recalc ref) (recalc p))) as [si E1].
  { apply scl_inj.
    - rewrite (recalc_K p HP). lra.
    - rewrite (recalc_beta p HP), (recalc_gamma p HP). change (p_Es (recalc ref)) with (p_Es ref). unfold sqr, MeVtoeV.
      apply Rgt_not_eq. apply Rdiv_lt_0_compat; [|lra]. apply Rmult_lt_0_compat; auto. apply Rmult_lt_0_compat; nra. }
  unfold get_misalign. rewrite E1. cbn [rbind].
  destruct (inj_inverse _ (shift_inj (- len / 2 * MtoMM))) as [t1 ->]. cbn [rbind].
  destruct (inj_inverse _ (rot_inj (sh_dx sh) (sh_dy sh) (sh_pitch sh) (sh_yaw sh) (sh_roll sh))) as [r1 ->]. cbn [rbind].
  destruct (inj_inverse _ (shift_inj (len / 2 * MtoMM))) as [t2 ->]. cbn [rbind]. eauto.
Qed.
Lemma misaligned_runs d ref p T : moving p -> 0 < p_Es ref -> exists T', misaligned d (recalc ref) (recalc p) T = (T', None).
Proof.
  intros HP HE. unfold misaligned. destruct (misalign_runs (md_sh d) (md_len d) ref p HP HE) as (M & IM & ->). eauto.
Qed.

(** ** Settings *)
Section S.
Variable w : world.
Lemma num_runs c n : num_at c n <> None -> exists x, num_of w c n = Ok x.
Proof.
  unfold num_at, num_of, get_num. destruct (tfind n c) as [[]|]; try (intros H; contradiction H; reflexivity). cbn [rbind]. eauto.
Qed.
Lemma deq_zero x : deq (d_of_Z (Z.of_N 0)) x = true -> exact_uint x = Some 0%N.
Proof.
  change (d_of_Z (Z.of_N 0)) with (SpecFloat.S754_zero false). destruct x as [[]|[]| |[] m e]; try discriminate; reflexivity.
Qed.
Lemma zero_flag c n : flagged w c n 0 0 -> get_flag w c n 0 = Ok 0%N.
Proof.
  unfold flagged, get_flag, get_num, get_str. destruct (tfind n c) as [[x|l|t|l]|]; cbv zeta; intros H; try reflexivity.
  - rewrite (deq_zero x H). reflexivity.
  - destruct (w_lexd w t) as [x|]; [rewrite (deq_zero x H)|]; reflexivity.
Qed.
Lemma setup_runs k c d ref : mom_ctor w k c = Ok d -> is_a (mkind_name k) c -> described c -> equipped w c -> 0 < p_Es ref ->
  exists f, setup w k d c (recalc ref) = Ok f /\
    forall p T, moving p -> exists T', f (recalc p) T = (T', None).
Proof.
  intros HC Hk HD (Q1 & Q2 & Q3 & Q4 & Q5) HE. assert (HK := described_kind _ _ Hk HD).
  cbn [In] in HK. decompose [or] HK; try contradiction; subst k; cbn [mkind_name setup] in *.
  - eexists. split; [reflexivity|]. eauto.
  - eexists. split; [reflexivity|]. eauto.
  - eexists. split; [reflexivity|]. eauto.
  - destruct (Q1 Hk) as [H1 H2]. inversion H1 as [|? ? N1 H1']. inversion H1' as [|? ? N2 _]. subst.
    unfold setup_quad. destruct (num_runs _ _ N1) as [l ->]. cbn [rbind]. rewrite (zero_flag _ _ H2). cbn [rbind N.eqb negb].
    destruct (num_runs _ _ N2) as [b ->]. cbn [rbind]. eexists. split; [reflexivity|]. intros p T HP. cbv zeta. apply misaligned_runs; auto.
  - destruct (Q3 Hk) as [H1 H2]. inversion H1 as [|? ? N1 H1']. inversion H1' as [|? ? N2 H1'']. inversion H1'' as [|? ? N3 _]. subst.
    unfold setup_equad. destruct (num_runs _ _ N1) as [l ->]. cbn [rbind]. rewrite (zero_flag _ _ H2). cbn [rbind N.eqb negb].
    destruct (num_runs _ _ N2) as [b ->]. cbn [rbind]. destruct (num_runs _ _ N3) as [b3 ->]. cbn [rbind].
    eexists. split; [reflexivity|]. intros p T HP. cbv zeta. apply misaligned_runs; auto.
  - destruct (Q2 Hk) as [H1 H2]. inversion H1 as [|? ? N1 H1']. inversion H1' as [|? ? N2 _]. subst.
    unfold setup_solenoid. destruct (num_runs _ _ N1) as [l ->]. cbn [rbind]. rewrite (zero_flag _ _ H2). cbn [rbind N.eqb negb].
    destruct (num_runs _ _ N2) as [b ->]. cbn [rbind]. eexists. split; [reflexivity|]. intros p T HP. cbv zeta. apply misaligned_runs; auto.
  - eexists. split; [reflexivity|]. intros p T HP. unfold setup_orbtrim. cbv zeta.
    match goal with |- context [misaligned d (recalc ref) (recalc p) ?X] => destruct (misaligned_runs d ref p X HP HE) as [T' ->] end.
    destruct (Req_EM_T _ 0); eauto.
  - destruct (Q4 Hk) as [H1 H2]. inversion H1 as [|? ? N1 H1']. inversion H1' as [|? ? N2 H1'']. inversion H1'' as [|? ? N3 H1'''].
    inversion H1''' as [|? ? N4 _]. subst. clear H1 H1' H1'' H1'''.
    unfold setup_sbend. destruct (num_runs _ _ N1) as [l ->]. cbn [rbind]. destruct (num_runs _ _ N2) as [a ->]. cbn [rbind].
    destruct (num_runs _ _ N3) as [a1 ->]. cbn [rbind]. destruct (num_runs _ _ N4) as [a2 ->]. cbn [rbind].
    eexists. split; [reflexivity|]. intros p T HP. cbv zeta. destruct (Req_EM_T _ 0); [eauto|].
    assert (FL := ctor_fit w _ _ HC).
    destruct (N.eqb_spec (md_fit d) 0) as [E|E].
    + specialize (H2 _ FL E). inversion H2 as [|? ? N5 _]. subst. destruct (num_runs _ _ N5) as [bg ->].
      apply misaligned_runs; auto.
    + apply misaligned_runs; auto.
  - destruct (Q5 Hk) as (l & L1 & L2). eexists. split; [reflexivity|]. intros p T HP. unfold load_storage, get_vec.
    unfold vec_at in L1. destruct (tfind "matrix" c) as [[]|]; try discriminate. injection L1 as ->. rewrite L2. cbn [Nat.eqb msize Nat.mul Nat.add]. eauto.
Qed.

(** ** Elements *)
Lemma cells_run (f : cell_fun) : (forall p T, moving p -> exists T', f (recalc p) T = (T', None)) -> forall ps l, Forall moving ps ->
  List.length l = List.length ps -> exists tm, run_cells f (map recalc ps) l = (tm, None) /\ List.length tm = List.length ps.
Proof.
  intros H. induction ps as [|p ps IH]; intros [|a l] F L; try discriminate; cbn [map run_cells].
  - exists []. auto.
  - inversion F as [|? ? F1 F2]. subst. destruct (H p a F1) as [T ->]. destruct (IH l F2) as (tm & -> & E); [simpl in L; lia|].
    exists (T :: tm). split; [reflexivity|]. simpl. auto.
Qed.
Lemma finish_sbend_runs d r s ref real : aligned s -> List.length (md_real_in d) = List.length (ms_real s) ->
  List.length (md_tm d) = List.length (md_real_in d) -> List.length real = List.length (ms_real s) ->
  (r = true -> forall T, In T (md_tm d) -> exists X, minv msize T = Some X) ->
  exists s', finish_sbend w d r s ref real = Ok s'.
Proof.
  intros A L1 L2 L3 H. assert (X : exists Ts, directed r (md_tm d) = Ok Ts).
  { unfold directed. destruct r; [|eauto]. apply rmap_some. intros T HT. destruct (H eq_refl T HT) as [X HX].
    exists X. unfold inverse. rewrite HX. reflexivity. }
  destruct X as [Ts HT]. unfold finish_sbend. rewrite HT. cbn [rbind]. apply directed_length in HT.
  destruct (transport_ok d s Ts A L1) as (m0 & m1 & tm & -> & M1 & M2 & M3); [congruence|]. cbn [rbind].
  match goal with |- context [over ?f ?x real] => destruct (over_ok f x real) as (real' & -> & LR) end.
  { rewrite firstn_length. lia. }
  cbn [rbind]. edestruct (calc_aligned w) as (s' & E & _); [| | | |rewrite E; eauto]; try congruence.
  destruct A as [A _]. destruct real'; [|discriminate]. destruct (ms_real s); [congruence|]. simpl in *. congruence.
Qed.
Lemma cells_all (Q : mat -> Prop) (f : cell_fun) : (forall p T T', moving p -> f (recalc p) T = (T', None) -> Q T') -> forall ps l tm, Forall moving ps ->
  run_cells f (map recalc ps) l = (tm, None) -> (List.length l <= List.length ps)%nat -> Forall Q tm.
Proof.
  intros H. induction ps as [|p ps IH]; intros l tm F; cbn [map run_cells].
  - intros E L. injection E as <-. destruct l; [constructor|simpl in L; lia].
  - destruct l as [|a l]; [discriminate|]. destruct (f (recalc p) a) as [b [e|]] eqn:E; [discriminate|].
    destruct (run_cells f (map recalc ps) l) as [r o] eqn:R. intros E' L. injection E' as <- ->. inversion F as [|? ? F1 F2]. subst.
    constructor; [eapply H; eauto|]. eapply IH; eauto. simpl in L. lia.
Qed.
(** Where every charge state has its matrix, and it is invertible when going
    backward, the element completes. *)
Lemma advance_runs b k c d s f : mom_ctor w k c = Ok d -> In k [KMark; KBPM; KDrift; KQuad; KEQuad; KSolenoid; KOrbTrim; KSBend; KTMatrix; KEDipole] ->
  aligned s -> Forall moving (ms_real s) -> setup w k d c (recalc (ms_ref s)) = Ok f ->
  (forall p T, moving p -> exists T', f (recalc p) T = (T', None)) ->
  (b = true -> forall p T T', moving p -> f (recalc p) T = (T', None) -> inj T') ->
  exists s', snd (advance_of w k c d b s) = Ok s'.
Proof.
  intros HC HK A HR ES HF HI. assert (F := ctor_fresh w _ _ _ HC).
  destruct (note_shape d (ms_recalc s)) as (N1 & N2 & N3). assert (A1 := recalc_aligned s A).
  assert (LR : List.length (ms_real (ms_recalc s)) = List.length (ms_real s)) by (cbn [ms_recalc ms_real]; apply map_length).
  destruct (cells_run f HF (ms_real s) (md_tm (note_input d (ms_recalc s))) HR) as (tm & RC & LT); [congruence|].
  assert (RC' : recompute w k c (note_input d (ms_recalc s)) (ms_recalc s) = (tm, None)).
  { unfold recompute. rewrite (setup_stat w k (note_input d (ms_recalc s)) d) by (repeat split).
    change (ms_ref (ms_recalc s)) with (recalc (ms_ref s)). rewrite ES. exact RC. }
  assert (IV : b = true -> forall T, In T tm -> exists X, minv msize T = Some X).
  { intros Hb T HT. assert (Q : Forall inj tm).
    { eapply cells_all; [exact (HI Hb)|exact HR|exact RC|]. rewrite N2, LR. auto. }
    rewrite Forall_forall in Q. destruct (inj_inverse T (Q T HT)) as [X HX]. unfold inverse in HX.
    destruct (minv msize T) as [Y|]; [eauto|discriminate]. }
  assert (B : k = KSBend \/ advance_of w k c d b s = advance_base w k c d b s).
  { cbn [In] in HK. decompose [or] HK; try contradiction; subst k; auto. }
  destruct B as [->|B].
  - cbn [advance_of]. rewrite sbend_eq by (apply fresh_miss; auto). cbv zeta. rewrite RC'. cbn [snd].
    apply finish_sbend_runs; auto. cbn [with_out with_tm md_tm md_real_in]. congruence.
  - rewrite B. rewrite base_eq by (apply fresh_miss; auto). cbv zeta. rewrite RC'. cbn [snd].
    match goal with |- context [finish w ?d ?r ?s ?ref ?real] => destruct (finish_runs w d r s ref real) as (s' & E & _) end; eauto.
    + cbn [with_out with_tm md_tm md_real_in]. congruence.
    + apply map_length.
Qed.
Lemma setup_ignores k d c ref f : k <> KTMatrix -> setup w k d c ref = Ok f -> forall p T T', f p T = f p T'.
Proof.
  intros HK H p T T'.
  assert (F : forall r : res cell_fun, r = Ok f -> forall g, r = Ok g -> (forall T T', g p T = g p T') -> f p T = f p T')
    by (intros r E g E' HG; rewrite E in E'; injection E' as ->; apply HG).
  destruct k; cbn [setup] in H; try contradiction; try (apply (F _ H _ eq_refl); reflexivity).
  - unfold setup_sbend in H. repeat (apply rbind_ok in H as (? & _ & H)). apply (F _ H _ eq_refl). reflexivity.
  - unfold setup_quad in H. apply rbind_ok in H as (? & _ & H). apply rbind_ok in H as (? & _ & H). destruct (negb _);
      apply rbind_ok in H as (? & _ & H); apply (F _ H _ eq_refl); reflexivity.
  - unfold setup_solenoid in H. apply rbind_ok in H as (? & _ & H). apply rbind_ok in H as (? & _ & H). destruct (negb _);
      apply rbind_ok in H as (? & _ & H); apply (F _ H _ eq_refl); reflexivity.
  - unfold setup_edipole in H. do 5 apply rbind_ok in H as (? & _ & H). destruct (negb _); [discriminate|].
    cbv zeta in H. apply (F _ H _ eq_refl). reflexivity.
  - unfold setup_equad in H. apply rbind_ok in H as (? & _ & H). apply rbind_ok in H as (? & _ & H). destruct (negb _);
      repeat (apply rbind_ok in H as (? & _ & H)); apply (F _ H _ eq_refl); reflexivity.
Qed.
Lemma affine_setup k d c ref f p T T' : k <> KTMatrix -> setup w k d c ref = Ok f -> f p T = (T', None) -> affine T -> affine T'.
Proof.
  intros HK HS HT HA. assert (X := P_setup w affine affine_id affine_mul affine_inv affine_set affine_ver k d c ref f).
  assert (Y := X ltac:(intros E; contradiction) HS p T HA). rewrite HT in Y. exact Y.
Qed.
End S.

Lemma propagates {D B} (m : machine D B) st start max : (max <> INT_MIN)%Z -> exists p, propagate m st start max = Some p.
Proof. intros H. unfold propagate. destruct (Z.eqb_spec max INT_MIN); [contradiction|]. eauto. Qed.
Theorem moment_completes w b c m es us i ec st : sane w ->
  new_machine (moment_reg w) c = Ok m -> tfind "elements" c = Some (TCfgs es) ->
  Forall strips_to_some es -> smooth (fun r s => r = b /\ aligned s) strips_to_some m us ->
  nth_error (entries m es us) i = Some ec -> described ec -> equipped w ec ->
  (b = true -> proper_magnet (w_num w) ec /\ ~ is_a "tmatrix" ec) ->
  aligned (st_body st) -> moving (ms_ref (st_body st)) -> Forall moving (ms_real (st_body st)) ->
  exists p f, propagate (uses m us) st (N.of_nat i) (if b then -1 else 1)%Z = Some p /\ pr_end p = Ok f.
Proof.
  intros W Hm He HQ HS Hi HD HE HB A HR HRs.
  destruct (propagates (uses m us) st (N.of_nat i) (if b then -1 else 1)%Z) as [p HP]; [destruct b; discriminate|].
  destruct (one_step w b c m es us i ec st p _ W Hm He HQ HS Hi A eq_refl HP) as (k & d0 & Hk & HC & EE).
  assert (HK := described_kind _ _ Hk HD).
  destruct (setup_runs w k ec d0 (ms_ref (st_body st)) HC Hk HD HE) as (f & F1 & F2); [apply HR|].
  destruct (advance_runs w b k ec d0 (st_body st) f HC) as [s' ES]; auto.
  { cbn [In] in *. tauto. }
  { intros Hb q T T' Hq HT. destruct (HB Hb) as [PM NT].
    assert (NK : k <> KTMatrix) by (intros ->; apply NT; exact Hk).
    rewrite (setup_ignores w k d0 ec _ f NK F1 (recalc q) T mid) in HT.
    assert (G := setup_goes w k ec d0 (ms_ref (st_body st)) q f mid T' HC Hk HD PM HR Hq F1 HT). eapply goes_inj; [exact Hq|apply HR|exact NT| |exact G]. eapply affine_setup; eauto. apply affine_id. }
  exists p. rewrite EE, ES. cbn [rbind]. eexists. split; [exact HP|reflexivity].
Qed.

(** ** A line to look at *)
Definition magnet : tcfg :=
  TCfg [("L", TNum done); ("name", TStr "b"); ("phi", TNum done); ("phi1", TNum done); ("phi2", TNum done);
        ("pitch", TNum done); ("type", TStr "sbend")] [].
Definition lens (yaw : double) : tcfg :=
  TCfg [("B2", TNum done); ("L", TNum done); ("dx", TNum done); ("name", TStr "q"); ("type", TStr "quadrupole"); ("yaw", TNum yaw)] [].
Definition guides : list tcfg := [magnet; lens dzero; TCfg [("name", TStr "m"); ("type", TStr "marker")] []].
Definition one_num : double -> R := fun _ => 1.
Lemma guides_runs a : sane (world0 one_num a) /\
  exists m, new_machine (moment_reg (world0 one_num a)) (mconf guides) = Ok m /\
    Forall strips_to_some guides /\
    smooth (fun r s => r = false /\ aligned s) strips_to_some m [UReconf 1 (lens done)] /\
    smooth (fun r s => r = true /\ aligned s) strips_to_some m [UReconf 1 (lens done)] /\
    nth_error (entries m guides [UReconf 1 (lens done)]) 0 = Some magnet /\
    nth_error (entries m guides [UReconf 1 (lens done)]) 1 = Some (lens done).
Proof.
  split; [apply world0_sane|]. eexists. split; [reflexivity|].
  split; [repeat constructor; unfold strips_to_some; discriminate|].
  split; [split; [discriminate|exact I]|]. split; [split; [discriminate|exact I]|]. split; reflexivity.
Qed.
Lemma state0_moving n : moving (ms_ref (state0 n)) /\ Forall moving (ms_real (state0 n)).
Proof.
  assert (M : moving (ms_ref (state0 n))) by (unfold moving, state0; cbn; repeat split; lra).
  split; [exact M|]. apply Forall_forall. intros p Hp. apply repeat_spec in Hp. rewrite Hp. exact M.
Qed.
Lemma guides_described : described magnet /\ described (lens done).
Proof. split; apply Exists_exists; eexists; (split; [|reflexivity]); cbn; tauto. Qed.
Lemma guides_equipped a : equipped (world0 one_num a) magnet /\ equipped (world0 one_num a) (lens done).
Proof.
  split; (split; [|split; [|split; [|split]]]); try discriminate.
  - intros _. split; [repeat constructor; discriminate|]. unfold flagged. cbn. intros fit -> E. discriminate.
  - intros _. split; [repeat constructor; discriminate|]. reflexivity.
Qed.
Lemma guides_proper : proper_magnet one_num magnet /\ proper_magnet one_num (lens done).
Proof.
  split; (split; [|discriminate]); try discriminate. intros _ HL. cbv zeta.
  change (real_at one_num magnet "phi" 0) with 1. change (real_at one_num magnet "L" 0) with 1.
  change (real_at one_num magnet "K" 0) with 0. change (real_at one_num magnet "bg" 1) with 1.
  split; [lra|]. split; [|lra]. pose proof PI_RGT_0. assert (0 < 1 * PI / 180 / (1 * 1000)) by lra. nra.
Qed.
