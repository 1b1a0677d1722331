(** Both ways complete; when they do not restore the state. *)
From Coq Require Import Reals List String Bool NArith ZArith Arith Lia Lra.
From Verif Require Import SMap SMap_Proofs Dbl Config_Spec Mat Mat_Proofs Minv Minv_Proofs Machine_Model Machine_Spec Machine_Proofs
  Machine2_Proofs Machine4_Proofs Linear_Model Linear_Spec Linear_Proofs Linear2_Proofs Linear3_Proofs.
From Verif Require Import Moment_Model Moment_Spec Motion_Spec Round_Spec Moment_Proofs Moment2_Proofs Moment3_Proofs Moment4_Proofs
  Moment5_Proofs Moment6_Proofs Motion_Proofs Motion2_Proofs Motion3_Proofs Motion4_Proofs Motion5_Proofs Round_Proofs Round2_Proofs
  Round3_Proofs Round4_Proofs.
Import ListNotations.
Open Scope R_scope.
Open Scope string_scope.
Open Scope list_scope.

Lemma moving_all s t : restored s t -> all_moving s -> all_moving t.
Proof.
  intros (_ & (I & E & _) & R & _) [M1 M2]. split; [eapply moving_same; eauto|].
  induction R as [|p q l l' (J & K & _) R IH]; [constructor|]. inversion M2; subst. constructor; auto. eapply moving_same; eauto.
Qed.

Section W.
Variable w : world.
Hypothesis W : sane w.
Notation num := (w_num w).

Definition returns (Inv : mstate -> Prop) (P : tcfg -> Prop) : Prop := forall k c d0 s,
  is_a (mkind_name k) c -> P c -> mom_ctor w k c = Ok d0 -> aligned s -> Inv s ->
  exists d s1, advance_of w k c d0 false s = (d, Ok s1) /\
    forall t, aligned t -> restored s1 t -> exists d2 t2, advance_of w k c d true t = (d2, Ok t2).
Lemma works_both : returns all_moving (works w).
Proof.
  intros k c d0 s Hk (HD & HE & PM & NT) HC A I. assert (HK := described_kind _ _ Hk HD).
  assert (GO : forall b x, aligned x -> all_moving x -> exists s', snd (advance_of w k c d0 b x) = Ok s').
  { intros b x Ax [M1 M2]. destruct (setup_runs w k c d0 (ms_ref x) HC Hk HD HE) as (f & F1 & F2); [apply M1|].
    apply (advance_runs w b k c d0 x f HC); auto.
    - cbn [In] in *. tauto.
    - intros _ q T T' Hq HT.
      assert (NK : k <> KTMatrix) by (intros ->; apply NT; exact Hk).
      rewrite (setup_ignores w k d0 c _ f NK F1 (recalc q) T mid) in HT.
      assert (G := setup_goes w k c d0 (ms_ref x) q f mid T' HC Hk HD PM M1 Hq F1 HT).
      eapply goes_inj; [exact Hq|apply M1|exact NT| |exact G]. eapply affine_setup; eauto. apply affine_id. }
  destruct (GO false s A I) as [s1 H1]. destruct (advance_of w k c d0 false s) as [d r] eqn:E. cbn [snd] in H1. subst r.
  exists d, s1. split; [reflexivity|]. intros t At R.
  assert (M := guided_moving w k c d0 false s d s1 HC Hk (or_introl HD) E I).
  destruct (GO true t At (moving_all _ _ R M)) as [t2 H2].
  assert (B := back_fresh w k c d0 d s s1 t HC ltac:(unfold plain_kinds; cbn [In] in *; tauto) A (proj1 I) E (proj1 (proj2 R))).
  destruct (advance_of w k c d true t) as [d2 r]. cbn [snd] in B. exists d2, t2. congruence.
Qed.

Section G.
Variable Inv : mstate -> Prop.
Variable P : tcfg -> Prop.
Hypothesis HB : bounces w Inv P.
Hypothesis HR : returns Inv P.
Lemma loop_works es n : forall i els s,
  fit_all (kept_ok w false) (mom_info w) es els -> aligned s -> Inv s -> along es i n P -> (N.of_nat (i + n) <= SIZE_MAX)%N ->
  exists f, pr_end (prop_loop n els (mkSt (N.of_nat i) false s) []) = Ok f /\
  forall els' t evs, (forall j, (i <= j < i + n)%nat -> nth_error els' j = nth_error (pr_elems (prop_loop n els (mkSt (N.of_nat i) false s) [])) j) ->
    aligned t -> restored (st_body f) t -> exists g, pr_end (prop_loop n els' (mkSt (N.pred (N.of_nat (i + n))) true t) evs) = Ok g.
Proof.
  induction n as [|n IH]; intros i els s F A I AL SM.
  { cbn [prop_loop pr_end]. eexists. split; [reflexivity|]. eauto. }
  destruct (IH i els s F A I) as (f1 & E1 & B1).
  { intros j Hj. apply AL. lia. } { lia. }
  assert (ALG : along es i n P) by (intros j Hj; apply AL; lia).
  destruct (loop_round w W Inv P HB es n i els s F A I ALG ltac:(lia) _ f1 eq_refl E1) as (N1 & N2 & N3 & N4 & N5 & _).
  replace (S n) with (n + 1)%nat by lia. rewrite loop_app by (eapply fit_keeps; eauto). rewrite E1.
  set (els1 := pr_elems (prop_loop n els (mkSt (N.of_nat i) false s) [])) in *.
  destruct (AL (i + n)%nat) as (ec & Hec & HP); [lia|].
  destruct (nth_ex els1 (i + n) (List.length es)) as [e He]; [apply N5|eapply nth_lt; eauto|].
  destruct (fit_elem w _ _ _ _ _ N5 He) as (ec' & k & Hec' & C1 & C2 & C3 & (SH & d0 & HC & U)).
  assert (ec' = ec) as -> by congruence.
  rewrite (loop_one w els1 f1 _ e k ec) by (auto; rewrite N1, Nat2N.id; exact He). cbv zeta. rewrite N2.
  destruct (HR k ec d0 (st_body f1) C2 HP HC N3 N4) as (d1 & s2 & EA0 & BK).
  assert (US := adv_used w false k ec d0 (el_data e) (st_body f1) HC U N3). rewrite EA0 in US.
  destruct (advance_of w k ec (el_data e) false (st_body f1)) as [d1' r'] eqn:EA. destruct US as [U1 U2]. cbn [fst snd] in U1, U2. subst r'.
  assert (d1' = d1) as -> by (apply U2; eauto).
  assert (O := EA). apply advance_ok in O as [O1 O2]; auto. cbn [outcome] in O1.
  cbn [pr_end pr_elems]. rewrite N1, Nat2N.id. eexists. split; [reflexivity|]. cbn [st_body].
  intros els' t evs AG At R.
  replace (i + (n + 1))%nat with (S (i + n)) by lia. replace (N.pred (N.of_nat (S (i + n)))) with (N.of_nat (i + n)) by lia.
  replace (n + 1)%nat with (S n) by lia.
  cbn [prop_loop]. rewrite slot_nth. cbn [st_next st_retreat st_body]. rewrite Nat2N.id.
  rewrite (AG (i + n)%nat) by lia. rewrite (nth_update_eq els1 _ _ e He).
  cbn [with_data el_class el_base el_data]. rewrite C1. cbn [cl_advance mom_class]. unfold mom_advance.
  rewrite C3. cbn [st_retreat st_body st_next].
  destruct (BK t At R) as (d3 & t2 & ET). rewrite ET. cbn [rbind].
  assert (Q := ET). apply advance_ok in Q as [Q1 _]; auto; [|eapply O2; eauto]. cbn [outcome] in Q1.
  destruct (HB k ec d0 (st_body f1) d1 s2 C2 HP HC N3 N4 EA0 O1) as [I2 BK2].
  assert (RS := BK2 t d3 t2 At R ET Q1).
  destruct n as [|n]; [cbn [prop_loop pr_end]; eauto|].
  replace (size_decr (N.of_nat (i + S n))) with (N.pred (N.of_nat (i + S n)))
    by (unfold size_decr; destruct (N.eqb_spec (N.of_nat (i + S n)) 0); [lia|reflexivity]).
  eapply B1; [|exact Q1|exact RS].
  intros j Hj. rewrite nth_update_neq by lia. rewrite AG by lia. rewrite nth_update_neq by lia. reflexivity.
Qed.

Lemma machine_works c m es us i n st :
  new_machine (moment_reg w) c = Ok m -> tfind "elements" c = Some (TCfgs es) ->
  Forall strips_to_some es -> smooth (fun r s => r = false /\ aligned s) strips_to_some m us ->
  (N.of_nat (List.length es) <= SIZE_MAX)%N -> along (entries m es us) i n P ->
  aligned (st_body st) -> Inv (st_body st) -> (Z.of_nat n <= INT_MAX)%Z ->
  exists p f p' g,
    propagate (uses m us) st (N.of_nat i) (Z.of_nat n) = Some p /\ pr_end p = Ok f /\
    propagate (uses m (us ++ [UProp st (N.of_nat i) (Z.of_nat n)])) f (N.of_nat (i + n) - 1) (- Z.of_nat n) = Some p' /\
    pr_end p' = Ok g /\ restored (st_body st) (st_body g).
Proof.
  intros Hm He HQ HS SM AL A I ZN.
  assert (X : exists p f p' g, propagate (uses m us) st (N.of_nat i) (Z.of_nat n) = Some p /\ pr_end p = Ok f /\
    propagate (uses m (us ++ [UProp st (N.of_nat i) (Z.of_nat n)])) f (N.of_nat (i + n) - 1) (- Z.of_nat n) = Some p' /\ pr_end p' = Ok g).
  { assert (F := used_fit w W false c m es us Hm He HQ HS).
    assert (LE : List.length (entries m es us) = List.length es).
    { destruct F as [F _]. rewrite uses_length in F. destruct (new_moment w _ _ Hm) as (es0 & H1 & H2 & H3).
      apply new_machine_ok in Hm as (t0 & i0 & es1 & K1 & K2 & K3 & K4 & K5 & K6 & K7 & _). congruence. }
    destruct n as [|n].
    { unfold propagate. cbn. do 4 eexists. repeat split; reflexivity. }
    assert (LI : (i + S n <= List.length es)%nat).
    { destruct (AL (i + n)%nat) as (ec & Hec & _); [lia|]. apply nth_lt in Hec. lia. }
    assert (NB : (Z.of_nat (S n) =? INT_MIN)%Z = false /\ (- Z.of_nat (S n) =? INT_MIN)%Z = false).
    { split; apply Z.eqb_neq; unfold INT_MIN, INT_MAX in *; lia. }
    destruct (loop_works (entries m es us) (S n) i (m_elems (uses m us)) (st_body st) F A I AL) as (f & E1 & B1); [lia|].
    set (p := prop_loop (S n) (m_elems (uses m us)) (mkSt (N.of_nat i) false (st_body st)) []) in *.
    assert (HP : propagate (uses m us) st (N.of_nat i) (Z.of_nat (S n)) = Some p).
    { unfold propagate. rewrite (proj1 NB). replace (Z.of_nat (S n) <? 0)%Z with false by (symmetry; apply Z.ltb_ge; lia).
      rewrite Zabs2Nat.id. reflexivity. }
    destruct (loop_round w W Inv P HB (entries m es us) (S n) i (m_elems (uses m us)) (st_body st) F A I AL ltac:(lia) p f eq_refl E1)
      as (N1 & N2 & N3 & _).
    destruct (B1 (pr_elems p) (st_body f) [] ltac:(reflexivity) N3 (restored_refl _)) as [g Hg].
    exists p, f. eexists. exists g. split; [exact HP|]. split; [exact E1|].
    unfold uses. rewrite fold_left_app. cbn [fold_left use1]. fold (uses m us). rewrite HP.
    unfold propagate. rewrite (proj2 NB).
    replace (- Z.of_nat (S n) <? 0)%Z with true by (symmetry; apply Z.ltb_lt; lia).
    replace (Z.abs_nat (- Z.of_nat (S n))) with (S n) by lia. cbn [with_elems m_elems].
    replace (N.of_nat (i + S n) - 1)%N with (N.pred (N.of_nat (i + S n))) by lia. split; [reflexivity|exact Hg]. }
  destruct X as (p & f & p' & g & X1 & X2 & X3 & X4). exists p, f, p', g. repeat (split; [assumption|]).
  eapply (machine_round w W Inv P HB); eauto.
Qed.
End G.
Lemma works_bounce : bounces w all_moving (works w).
Proof. intros k c d0 s d s1 Hk HP. apply guides_bounce; auto. left. apply HP. Qed.
Lemma guided_works c m es us i n st :
  new_machine (moment_reg w) c = Ok m -> tfind "elements" c = Some (TCfgs es) ->
  Forall strips_to_some es -> smooth (fun r s => r = false /\ aligned s) strips_to_some m us ->
  (N.of_nat (List.length es) <= SIZE_MAX)%N -> along (entries m es us) i n (works w) ->
  aligned (st_body st) -> all_moving (st_body st) -> (Z.of_nat n <= INT_MAX)%Z ->
  exists p f p' g,
    propagate (uses m us) st (N.of_nat i) (Z.of_nat n) = Some p /\ pr_end p = Ok f /\
    propagate (uses m (us ++ [UProp st (N.of_nat i) (Z.of_nat n)])) f (N.of_nat (i + n) - 1) (- Z.of_nat n) = Some p' /\
    pr_end p' = Ok g /\ restored (st_body st) (st_body g).
Proof. intros. eapply (machine_works all_moving (works w) works_bounce works_both); eauto. Qed.
End W.

(** ** What spoils it *)
Lemma drift_cells len : forall ps l tm o, List.length l = List.length ps ->
  run_cells (fun p _ => (drift_matrix (len * MtoMM) (longi p (len * MtoMM)), None)) ps l = (tm, o) ->
  o = None /\ List.length tm = List.length ps /\ forall T, In T tm -> exists X, minv msize T = Some X.
Proof.
  induction ps as [|p ps IH]; intros [|a l] tm o L E; try discriminate; simpl in E.
  - injection E as <- <-. split; auto. split; auto. intros T [].
  - destruct (run_cells _ ps l) as [tm' o'] eqn:E'. injection E as <- <-. destruct (IH l tm' o') as (I1 & I2 & I3); auto.
    split; auto. split; [simpl; auto|]. intros T [<-|HT]; [|apply I3; auto].
    edestruct (minv_left 7) as (X & HX & _); [apply drift_inverse|]. exists X. exact HX.
Qed.
(** A drift that has not seen this state: its own direction. *)
Lemma drift_new w c d b s : aligned s -> check_cache d (ms_recalc s) = false ->
  exists d' s', advance_base w KDrift c d b s = (d', Ok s') /\ stat d' d /\ ms_ref s' = stepped b (md_len d) (recalc (ms_ref s)) /\
  md_ref_in d' = Some (recalc (ms_ref s)) /\
  (md_skip d = false -> exists s2, advance_base w KDrift c d' (negb b) s = (d', Ok s2) /\ ms_ref s2 = ms_ref s').
Proof.
  intros A C. apply recalc_aligned in A. destruct (note_shape d (ms_recalc s)) as (N1 & N2 & N3).
  rewrite base_eq by auto. cbv zeta.
  destruct (recompute w KDrift c (note_input d (ms_recalc s)) (ms_recalc s)) as [tm o] eqn:RC.
  destruct (drift_cells _ _ _ _ _ N2 RC) as (-> & I2 & I3).
  match goal with |- context [finish w ?d b ?s ?ref ?real] => destruct (finish_runs w d b s ref real) as (s' & E & R1 & R2) end; auto.
  { rewrite map_length. reflexivity. }
  rewrite E. do 2 eexists. split; [reflexivity|]. split; [repeat split|]. split; [exact R1|]. split; [reflexivity|].
  intros K. unfold advance_base. rewrite note_hits; [|exact K|reflexivity|reflexivity].
  erewrite from_cache_eq by (cbn [with_out md_ref_out md_real_out]; rewrite ?map_length; reflexivity). cbn [rbind].
  match goal with |- context [finish w ?d (negb b) ?s ?ref ?real] => destruct (finish_runs w d (negb b) s ref real) as (s2 & E2 & Q1 & Q2) end; auto.
  { cbn [with_out md_real_out]. rewrite map_length. reflexivity. }
  rewrite E2. eexists. split; [reflexivity|]. rewrite Q1, R1. reflexivity.
Qed.
Lemma missed d s q : md_ref_in d = Some q -> p_phis q <> p_phis (ms_ref s) -> check_cache d s = false.
Proof.
  intros H N. unfold check_cache. rewrite H. destruct (peqb q (ms_ref s)) eqn:E; [|rewrite andb_false_r; reflexivity].
  apply peqb_fields in E as (_ & _ & _ & _ & E & _). contradiction.
Qed.
Lemma C32_after_backward_refuted_w : forall a, exists m p f p' g,
  let w := world0 (fun _ => 1) a in
  let st := mkSt 0 false (state0 1) in
  let us := [UProp st 0 (-1)] in
  sane w /\ new_machine (moment_reg w) (mconf one_drift) = Ok m /\
  aligned (st_body st) /\ all_moving (st_body st) /\ smooth (fun _ => aligned) strips_to_some m us /\
  propagate (uses m us) st 0 1 = Some p /\ pr_end p = Ok f /\
  propagate (uses m (us ++ [UProp st 0 1])) f 0 (-1) = Some p' /\ pr_end p' = Ok g /\
  p_phis (ms_ref (st_body g)) <> p_phis (ms_ref (st_body st)).
Proof.
  intros a. set (w := world0 (fun _ => 1) a).
  assert (X : exists m e d0, new_machine (moment_reg w) (mconf one_drift) = Ok m /\ m_elems m = [e] /\
    el_class e = mom_class w KDrift /\ mom_ctor w KDrift (eb_conf (el_base e)) = Ok d0 /\ el_data e = d0 /\
    md_len d0 = 1 /\ md_skip d0 = false).
  { do 3 eexists. split; [reflexivity|]. repeat split. }
  destruct X as (m & e & d0 & Hm & He & K & Hc & Ed & L1 & SK).
  pose proof (ctor_fresh w _ _ _ Hc) as F. set (st := mkSt 0 false (state0 1)).
  assert (A : aligned (state0 1)) by apply state0_aligned. set (c := eb_conf (el_base e)) in *.
  destruct (drift_new w c d0 true (state0 1) A (fresh_miss _ _ F)) as (d1 & s1 & E1 & ST1 & R1 & I1 & BK).
  destruct (BK SK) as (s2 & E2 & R2). cbn [negb] in E2.
  assert (WS := world0_sane (fun _ => 1) a).
  assert (A1 : aligned s1 /\ aligned s2).
  { assert (SH : shaped KDrift c d0) by (eapply ctor_ok; [|exact Hc]; discriminate).
    destruct (advance_ok w WS KDrift c d0 true (state0 1) d1 (Ok s1) SH A E1) as [O1 O2]. split; [exact O1|].
    destruct (advance_ok w WS KDrift c d1 false (state0 1) d1 (Ok s2) (O2 _ eq_refl) A E2) as [O3 _]. exact O3. }
  destruct A1 as [A1 A2].
  set (r := recalc (ms_ref (state0 1))) in *.
  assert (PK : 0 < p_K r) by exact p0_K.
  assert (RR : ms_ref s2 = add_phis r (- (p_K r * 1 * 1000))) by (rewrite R2, R1, L1; reflexivity).
  assert (C2 : check_cache d1 (ms_recalc s2) = false).
  { eapply missed; [exact I1|]. change (ms_ref (ms_recalc s2)) with (recalc (ms_ref s2)). rewrite RR.
    change (p_phis r <> p_phis r + - (p_K r * 1 * 1000)). lra. }
  destruct (drift_new w c d1 true s2 A2 C2) as (d3 & s3 & E3 & ST3 & R3 & _).
  destruct ST1 as (S1 & _).
  destruct (run_any m st 0 (-1) e d1 (Ok (mkSt (size_decr 0) true s1))) as (p0 & Q1 & Q2 & Q3); [rewrite He; reflexivity|right; reflexivity| |].
  { rewrite K, Ed. cbn [cl_advance mom_class]. unfold mom_advance. unfold st. cbn [advance_of st_retreat st_body].
    change (-1 <? 0)%Z with true. cbv iota. fold c. rewrite E1. reflexivity. }
  destruct (run_any (uses m [UProp st 0 (-1)]) st 0 1 (with_data e d1) d1 (Ok (mkSt 1 false s2))) as (p & P1 & P2 & P3); [|left; reflexivity| |].
  { cbn [uses fold_left use1]. rewrite Q1. cbn [with_elems m_elems]. rewrite Q3, He. reflexivity. }
  { cbn [with_data el_class el_base el_data]. rewrite K. cbn [cl_advance mom_class]. unfold mom_advance. unfold st. cbn [advance_of st_retreat st_body].
    change (1 <? 0)%Z with false. cbv iota. fold c. rewrite E2. reflexivity. }
  destruct (run_any (uses m ([UProp st 0 (-1)] ++ [UProp st 0 1])) (mkSt 1 false s2) 0 (-1) (with_data e d1) d3 (Ok (mkSt (size_decr 0) true s3)))
    as (p' & O1 & O2 & _); [|right; reflexivity| |].
  { unfold uses. rewrite fold_left_app. fold (uses m [UProp st 0 (-1)]). cbn [fold_left use1]. rewrite P1. cbn [with_elems m_elems]. rewrite P3.
    cbn [uses fold_left use1]. rewrite Q1. cbn [with_elems m_elems]. rewrite Q3, He. reflexivity. }
  { cbn [with_data el_class el_base el_data]. rewrite K. cbn [cl_advance mom_class]. unfold mom_advance. cbn [advance_of st_retreat st_body].
    change (-1 <? 0)%Z with true. cbv iota. fold c. rewrite E3. reflexivity. }
  exists m, p. eexists. exists p'. eexists. cbv zeta. split; [exact WS|]. split; [exact Hm|]. split; [exact A|]. split; [apply state0_moving|].
  split. { cbn [smooth]. split; [|exact I]. split; [exact A|]. exists p0. eexists. split; [exact Q1|exact Q2]. }
  split; [exact P1|]. split; [exact P2|]. split; [exact O1|]. split; [exact O2|].
  cbn [st_body]. rewrite R3, RR, S1, L1. change (p_phis (ms_ref (state0 1))) with (p_phis r).
  unfold stepped.
  change (p_phis r + - (p_K r * 1 * 1000) + - (p_K (recalc (add_phis r (- (p_K r * 1 * 1000)))) * 1 * 1000) <> p_phis r).
  change (recalc (add_phis r (- (p_K r * 1 * 1000)))) with (add_phis (recalc r) (- (p_K r * 1 * 1000))).
  change (p_K (add_phis (recalc r) (- (p_K r * 1 * 1000)))) with (p_K (recalc r)).
  change (recalc r) with (recalc (recalc (ms_ref (state0 1)))). 
  assert (p_K (recalc (recalc (ms_ref (state0 1)))) = p_K r) as -> by reflexivity. lra.
Qed.
