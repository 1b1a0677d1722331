(** Lines. *)
From Coq Require Import Reals List String Bool NArith ZArith Arith Lia Lra.
From Verif Require Import SMap SMap_Proofs Dbl Config_Spec Mat Mat_Proofs Minv Minv_Proofs Machine_Model Machine_Spec Machine_Proofs
  Machine2_Proofs Machine4_Proofs Linear_Model Linear_Spec Linear_Proofs Linear2_Proofs Linear3_Proofs.
From Verif Require Import Moment_Model Moment_Spec Motion_Spec Round_Spec Moment_Proofs Moment2_Proofs Moment3_Proofs Moment4_Proofs
  Moment5_Proofs Moment6_Proofs Motion_Proofs Motion2_Proofs Motion3_Proofs Motion4_Proofs Motion5_Proofs Round_Proofs Round2_Proofs
  Clone_Proofs Frame_Spec Frame_Proofs Area_Spec Area_Proofs Area2_Proofs Cut_Proofs Line_Spec.
Import ListNotations.
Open Scope R_scope.
Open Scope string_scope.
Open Scope list_scope.

Lemma skipn_tail {A} i : forall (l : list A) a r, skipn i l = a :: r -> skipn (Datatypes.S i) l = r.
Proof.
  induction i as [|i IH]; intros [|x l] a r H; try discriminate H; cbn in *; [congruence|]. apply (IH l a r). exact H.
Qed.
Section W.
Variable w : world.
Hypothesis W : sane w.
Notation num := (w_num w).

(** ** A line is its elements one after the other *)
Lemma steps c m es : new_machine (moment_reg w) c = Ok m -> tfind "elements" c = Some (TCfgs es) -> Forall strips_to_some es ->
  forall ecs us i st p f, smooth (fun r s => r = false /\ aligned s) strips_to_some m us ->
  (N.of_nat (i + List.length ecs) <= SIZE_MAX)%N -> (Z.of_nat (List.length ecs) <= INT_MAX)%Z ->
  firstn (List.length ecs) (skipn i (entries m es us)) = ecs -> aligned (st_body st) ->
  propagate (uses m us) st (N.of_nat i) (Z.of_nat (List.length ecs)) = Some p -> pr_end p = Ok f ->
  in_turn w ecs (st_body st) (st_body f).
Proof.
  intros Hm He HQ. induction ecs as [|ec l IH]; intros us i st p f HS HN HZ HF A HP Hf.
  - unfold propagate in HP. cbn in HP. injection HP as <-. cbn [pr_end] in Hf.
    assert (X : st_body f = st_body st).
    { apply (f_equal (fun r => match r with Ok x => st_body x | Throw _ => st_body f end)) in Hf. cbn in Hf. congruence. }
    rewrite X. constructor.
  - cbn [List.length firstn] in *. destruct (skipn i (entries m es us)) as [|e0 rest] eqn:ES; [discriminate HF|].
    injection HF as -> HF.
    assert (Hi : nth_error (entries m es us) i = Some ec).
    { rewrite <- (firstn_skipn i (entries m es us)), ES. rewrite nth_error_app2; rewrite firstn_length.
      - replace (i - min i (List.length (entries m es us)))%nat with 0%nat; [reflexivity|].
        assert (i < List.length (entries m es us))%nat; [|lia].
        assert (X := f_equal (@List.length _) ES). rewrite skipn_length in X. cbn in X. lia.
      - lia. }
    assert (HR : rest = skipn (Datatypes.S i) (entries m es us)).
    { symmetry. exact (skipn_tail _ _ _ _ ES). }
    assert (P1 : exists p1, propagate (uses m us) st (N.of_nat i) 1 = Some p1).
    { unfold propagate. cbn. eauto. }
    destruct P1 as [p1 P1].
    assert (KD := fit_keeps w _ _ _ (used_fit w W false c m es us Hm He HQ HS)).
    assert (SD : same_direction 1 (Z.of_nat (List.length l))) by (left; lia).
    replace (Z.of_nat (Datatypes.S (List.length l))) with (1 + Z.of_nat (List.length l))%Z in HP by lia.
    destruct (pr_end p1) as [s1|x] eqn:E1.
    2:{ rewrite (propagate_composes_throw _ _ _ _ _ _ _ KD SD P1 E1) in HP. injection HP as <-. congruence. }
    destruct (one_step w false c m es us i ec st p1 1 W Hm He HQ HS Hi A eq_refl P1) as (k & d0 & Hk & HC & HE).
    assert (NX : st_next s1 = N.of_nat (Datatypes.S i)).
    { rewrite E1 in HE. symmetry in HE. apply rbind_ok in HE as (s' & HA & HE).
      apply (f_equal (fun r => match r with Ok x => st_next x | Throw _ => 0%N end)) in HE. cbn [st_next] in HE. rewrite <- HE.
      unfold size_incr. destruct (N.eqb_spec (N.of_nat i) SIZE_MAX) as [X|X]; lia. }
    assert (HS1 : smooth (fun r s => r = false /\ aligned s) strips_to_some m (us ++ [UProp st (N.of_nat i) 1])).
    { apply smooth_snoc; [exact HS|]. split; [auto|]. exists p1, s1. auto. }
    assert (P2 : exists p2, propagate (uses m (us ++ [UProp st (N.of_nat i) 1])) s1 (N.of_nat (Datatypes.S i)) (Z.of_nat (List.length l)) = Some p2).
    { unfold propagate. destruct (Z.eqb_spec (Z.of_nat (List.length l)) INT_MIN) as [X|X]; [unfold INT_MIN in X; lia|eauto]. }
    destruct P2 as [p2 P2].
    assert (P3 := P2). rewrite uses_snoc in P3. cbn [use1] in P3. rewrite P1, <- NX in P3.
    rewrite (propagate_composes _ _ _ _ _ _ _ _ KD SD P1 E1 P3) in HP.
    assert (E2 : pr_end p2 = Ok f).
    { injection HP as <-. exact Hf. }
    assert (A1 : aligned (st_body s1)).
    { assert (HS' : smooth (fun _ => aligned) strips_to_some m us) by (eapply smooth_weak; [|exact HS]; intros r s0 [_ X]; exact X).
      destruct (stays_aligned w W c m es us st _ _ p1 Hm He HQ HS' A P1) as [_ A']. rewrite E1 in A'. exact A'. }
    apply it_next with (st_body s1).
    + exists c, m, es, us, i, st, p1, s1. repeat (split; [assumption|]). split; [reflexivity|]. repeat (split; [assumption|]). reflexivity.
    + apply (IH (us ++ [UProp st (N.of_nat i) 1]) (Datatypes.S i) s1 p2 f HS1); auto; try lia.
      rewrite entries_snoc, <- HR. exact HF.
Qed.
Theorem line_in_turn ecs s f : travels w ecs s f -> in_turn w ecs s f.
Proof.
  intros (c & m & es & us & i & st & p & st' & Hm & He & HQ & HS & HN & HZ & HF & <- & A & HP & Hf & <-).
  exact (steps c m es Hm He HQ ecs us i st p st' HS HN HZ HF A HP Hf).
Qed.

(** ** Areas and emittances *)
Lemma canonical_later ref p ref' p' x y : later ref ref' x -> later p p' y -> canonical ref' p' = canonical ref p.
Proof.
  intros ((A1 & A2 & A3 & A4) & A5 & _) ((B1 & B2 & B3 & B4) & B5 & _). destruct ref, p, ref', p'. cbn in *. subst. reflexivity.
Qed.
Lemma made_later c ref p ref' p' x y : later ref ref' x -> later p p' y -> made_for w c ref p -> made_for w c ref' p'.
Proof.
  intros ((A1 & A2 & A3 & A4) & A5 & _) ((B1 & B2 & B3 & B4) & B5 & _). destruct ref, p, ref', p'. cbn in *. subst. exact (fun H => H).
Qed.
Lemma later_trans p p1 p2 x y : later p p1 x -> later p1 p2 y -> later p p2 (x + y).
Proof.
  intros ((A1 & A2 & A3 & A4) & A5 & A6 & A7) ((B1 & B2 & B3 & B4) & B5 & B6 & B7). unfold later, same_ion.
  repeat split; try congruence; try apply B7; auto. rewrite B6, A6. ring.
Qed.
Lemma pass_moving ec l s s1 : aligned s -> pass w ec l s s1 -> moving (ms_ref s) -> Forall moving (ms_real s) ->
  moving (ms_ref s1) /\ Forall moving (ms_real s1).
Proof.
  intros (_ & L1 & L2 & _) (A1 & N1 & O1 & R1 & Q1) HR HRs. split; [exact (later_moving _ _ _ R1 HR)|].
  apply Forall_forall. intros q1 H1. apply In_nth_error in H1 as [j H1]. assert (Hj := nth_lt _ _ _ H1). rewrite N1 in Hj.
  destruct (nth_ex (ms_m0 s) j (List.length (ms_real s)) ltac:(congruence) Hj) as [v Hv].
  destruct (nth_ex (ms_m1 s) j (List.length (ms_real s)) ltac:(congruence) Hj) as [S Hs].
  destruct (nth_ex (ms_real s) j (List.length (ms_real s)) eq_refl Hj) as [q Hq].
  destruct (Q1 j q v S Hq Hv Hs) as (q' & T & v' & S' & legs & X1 & _ & _ & _ & _ & _ & _ & extra & X2 & _).
  rewrite X1 in H1. apply some_eq in H1. subst q'. eapply later_moving; [exact X2|]. rewrite Forall_forall in HRs. apply HRs. exact (nth_error_In _ _ Hq).
Qed.
Lemma goes_aligned ec s f : goes_through w ec s f -> aligned s.
Proof. intros (? & ? & ? & ? & ? & ? & ? & ? & _ & _ & _ & _ & _ & _ & X & _). exact X. Qed.
Lemma transported_trans T1 T2 v S v1 S1 v2 S2 : transported T1 v S v1 S1 -> transported T2 v1 S1 v2 S2 -> transported (mmul 7 T2 T1) v S v2 S2.
Proof.
  intros H1 H2. apply carried in H1 as [H1 H1']. apply carried in H2 as [H2 H2']. apply carried. split.
  - rewrite H2, H1. symmetry. apply mapp_mmul.
  - rewrite H2'. unfold sandwich, msize. rewrite H1'. unfold sandwich, msize. rewrite mtr_mmul, !mmul_assoc. reflexivity.
Qed.
Lemma transported_none v S : transported mid v S v S.
Proof.
  apply carried. split.
  - symmetry. apply mid_app.
  - unfold sandwich, msize. rewrite mtr_mid, mid_r, mid_l. reflexivity.
Qed.
Lemma area_veq c u0 u1 u2 v0 v1 v2 : veq 7 u0 v0 -> veq 7 u1 v1 -> veq 7 u2 v2 -> area c u0 u1 u2 = area c v0 v1 v2.
Proof. intros A B C. unfold area. cbv zeta. rewrite !(A 0%nat), !(A 1%nat), !(A 2%nat), !(A 3%nat), !(A 4%nat), !(A 5%nat), !(B 0%nat), !(B 1%nat), !(B 2%nat), !(B 3%nat), !(B 4%nat), !(B 5%nat), !(C 0%nat), !(C 1%nat), !(C 2%nat), !(C 3%nat), !(C 4%nat), !(C 5%nat) by lia. reflexivity. Qed.
Definition keeps_unit (T : mat) : Prop := forall u, unit_last u -> unit_last (mapp 7 T u).
Lemma legs_unit c legs T : Forall (keeps c false) legs -> (forall u, unit_last u -> passes legs u (mapp 7 T u)) -> keeps_unit T.
Proof.
  intros K P u U.
  assert (X := passes_inv c false legs K (area c u u u) u u u _ _ _ (P u U) (P u U) (P u U)).
  apply X. split; [exact U|]. split; [exact U|]. split; [exact U|]. split; [discriminate|reflexivity].
Qed.
Lemma extent_ex ec : exists x, extent num ec x.
Proof.
  destruct (Exists_dec (fun t => is_a t ec) ["marker"; "bpm"; "orbtrim"]) as [X|X].
  - intros t. unfold is_a. destruct (tfind "type" ec) as [[| |t'|]|]; try (right; discriminate). destruct (string_dec t' t); [left; congruence|right; congruence].
  - exists 0. split; [auto|tauto].
  - exists (real_at num ec "L" 0). split; [tauto|auto].
Qed.
Theorem turn_areas ecs s f : in_turn w ecs s f ->
  Forall described ecs -> Forall (fun c => ~ is_a "tmatrix" c) ecs -> Forall (proper_magnet num) ecs ->
  moving (ms_ref s) -> Forall moving (ms_real s) ->
  forall j q v S, nth_error (ms_real s) j = Some q -> nth_error (ms_m0 s) j = Some v -> nth_error (ms_m1 s) j = Some S ->
  Forall (fun c => is_a "sbend" c -> made_for w c (ms_ref s) q) ecs ->
  exists T v' S', nth_error (ms_m0 f) j = Some v' /\ nth_error (ms_m1 f) j = Some S' /\ transported T v S v' S' /\
    keeps_unit T /\ keeps_areas (canonical (ms_ref s) q) T.
Proof.
  induction 1 as [s|ec l s s1 f G T IH]; intros HD HN HP HR HRs j q v S Hq Hv Hs HB.
  - exists mid, v, S. split; [exact Hv|]. split; [exact Hs|]. split; [apply transported_none|]. split.
    + intros u U. unfold unit_last. rewrite (mid_app 7 u 6%nat) by lia. exact U.
    + intros u0 u1 u2 _ _ _. apply area_veq; apply mid_app.
  - inversion HD as [|? ? D1 D2]; inversion HN as [|? ? N1 N2]; inversion HP as [|? ? M1 M2]; inversion HB as [|? ? B1 B2]; subst.
    destruct (extent_ex ec) as [x EX].
    assert (P := moment_pass w _ _ _ _ W G D1 M1 EX HR HRs). destruct (pass_moving _ _ _ _ (goes_aligned _ _ _ G) P HR HRs) as [HR1 HRs1].
    destruct P as (A1 & L1 & O1 & R1 & Q1).
    destruct (Q1 j q v S Hq Hv Hs) as (q1 & T1 & v1 & S1 & legs & X1 & X2 & X3 & X4 & X5 & X6 & X7 & extra & X8 & _).
    assert (MQ : moving q) by (rewrite Forall_forall in HRs; apply HRs; exact (nth_error_In _ _ Hq)).
    assert (K := course_keeps w ec (ms_ref s) q legs MQ (proj1 HR) N1 B1 X6).
    destruct (IH D2 N2 M2 HR1 HRs1 j q1 v1 S1 X1 X3 X4) as (T2 & v' & S' & Y1 & Y2 & Y3 & Y4 & Y5).
    { eapply Forall_impl; [|exact B2]. cbv beta. intros c0 H0 HS0. exact (made_later _ _ _ _ _ _ _ R1 X8 (H0 HS0)). }
    rewrite (canonical_later _ _ _ _ _ _ R1 X8) in Y5.
    assert (KU := legs_unit _ legs T1 K X7). assert (KA := legs_areas _ legs T1 K X7).
    exists (mmul 7 T2 T1), v', S'. split; [exact Y1|]. split; [exact Y2|]. split; [exact (transported_trans _ _ _ _ _ _ _ _ X5 Y3)|]. split.
    + intros u U. unfold unit_last. rewrite (mapp_mmul 7 T2 T1 u 6%nat) by lia. apply Y4, KU, U.
    + intros u0 u1 u2 U0 U1 U2. rewrite (area_veq _ _ _ _ _ _ _ (mapp_mmul 7 T2 T1 u0) (mapp_mmul 7 T2 T1 u1) (mapp_mmul 7 T2 T1 u2)).
      rewrite Y5 by (apply KU; assumption). apply KA; assumption.
Qed.
Theorem line_areas ecs s f : travels w ecs s f ->
  Forall described ecs -> Forall (fun c => ~ is_a "tmatrix" c) ecs -> Forall (proper_magnet num) ecs ->
  moving (ms_ref s) -> Forall moving (ms_real s) ->
  forall j q v S, nth_error (ms_real s) j = Some q -> nth_error (ms_m0 s) j = Some v -> nth_error (ms_m1 s) j = Some S ->
  Forall (fun c => is_a "sbend" c -> made_for w c (ms_ref s) q) ecs ->
  exists T v' S', nth_error (ms_m0 f) j = Some v' /\ nth_error (ms_m1 f) j = Some S' /\ transported T v S v' S' /\
    keeps_areas (canonical (ms_ref s) q) T.
Proof.
  intros HT HD HN HP HR HRs j q v S Hq Hv Hs HB.
  destruct (turn_areas ecs s f (line_in_turn _ _ _ HT) HD HN HP HR HRs j q v S Hq Hv Hs HB) as (T & v' & S' & A & B & C & _ & D).
  exists T, v', S'. auto.
Qed.

Lemma unit_row T : keeps_unit T -> forall j, (j < 7)%nat -> T 6%nat j = if Nat.eqb j 6 then 1 else 0.
Proof.
  intros H j Hj. assert (O := H origin eq_refl). unfold unit_last in O. rewrite origin_col in O by lia.
  destruct (Nat.eqb_spec j 6) as [->|N]; [exact O|].
  assert (J := H (eye j)). unfold unit_last in J. rewrite eye_col in J by lia. rewrite O in J. specialize (J eq_refl). lra.
Qed.
Lemma fixed_sandwich T S S' v v' : keeps_unit T -> transported T v S v' S' -> seventh_fixed S -> seventh_fixed S'.
Proof.
  intros K TR F. apply carried in TR as [_ E]. assert (R := unit_row T K).
  assert (Z : forall i, (i < 7)%nat -> S i 6%nat = 0) by (intros; apply F; auto). assert (Z' : forall i, (i < 7)%nat -> S 6%nat i = 0) by (intros; apply F; auto).
  intros i Hi. rewrite (E i 6%nat), (E 6%nat i) by lia. unfold sandwich, msize, mmul, mtr. split.
  - rewrite (sumn_single 7 6%nat); [rewrite (R 6%nat) by lia|lia|intros k Hk N; rewrite (R k Hk); apply Nat.eqb_neq in N; rewrite N; ring].
    cbn [Nat.eqb]. rewrite Rmult_1_r, (sumn_ext 7 _ (fun _ => 0)); [apply sumn_0|]. intros k Hk. rewrite (Z k Hk). ring.
  - rewrite (sumn_ext 7 _ (fun _ => 0)); [apply sumn_0|]. intros k Hk.
    rewrite (sumn_single 7 6%nat); [rewrite (Z' k Hk); ring|lia|intros k' Hk' N; rewrite (R k' Hk'); apply Nat.eqb_neq in N; rewrite N; ring].
Qed.
Theorem turn_emittance ecs s f : in_turn w ecs s f ->
  Forall straight ecs -> Forall (upright num) ecs -> Forall (proper_magnet num) ecs ->
  moving (ms_ref s) -> Forall moving (ms_real s) ->
  forall j S k, nth_error (ms_m1 s) j = Some S -> seventh_fixed S -> (k = 0 \/ k = 2)%nat ->
  exists S', nth_error (ms_m1 f) j = Some S' /\ emittance2 S' k = emittance2 S k.
Proof.
  induction 1 as [s|ec l s s1 f G T IH]; intros HD HN HP HR HRs j S k Hs H7 HK.
  - exists S. auto.
  - inversion HD as [|? ? D1 D2]; inversion HN as [|? ? N1 N2]; inversion HP as [|? ? M1 M2]; subst.
    destruct (extent_ex ec) as [x EX].
    assert (DD : described ec).
    { apply Exists_exists in D1 as (t & T1 & T2). apply Exists_exists. exists t. split; auto. cbn [In] in *. tauto. }
    assert (NT : forall t, is_a t ec -> ~ In t ["tmatrix"; "sbend"]).
    { intros t X1 X2. apply Exists_exists in D1 as (t' & T1 & T2). rewrite <- (is_a_inj _ _ _ X1 T2) in T1. cbn [In] in *. intuition congruence. }
    assert (AS := goes_aligned _ _ _ G).
    assert (P := moment_pass w _ _ _ _ W G DD M1 EX HR HRs). destruct (pass_moving _ _ _ _ AS P HR HRs) as [HR1 HRs1].
    destruct P as (A1 & L1 & O1 & R1 & Q1). assert (AS' := AS). destruct AS' as (_ & LA & LB & _).
    assert (Lj : (j < List.length (ms_real s))%nat) by (rewrite <- LB; exact (nth_lt _ _ _ Hs)).
    destruct (nth_ex (ms_m0 s) j (List.length (ms_real s)) ltac:(congruence) Lj) as [v Hv].
    destruct (nth_ex (ms_real s) j (List.length (ms_real s)) eq_refl Lj) as [q Hq].
    destruct (Q1 j q v S Hq Hv Hs) as (q1 & T1 & v1 & S1 & legs & X1 & X2 & X3 & X4 & X5 & X6 & X7 & _).
    assert (MQ : moving q) by (rewrite Forall_forall in HRs; apply HRs; exact (nth_error_In _ _ Hq)).
    assert (KU : keeps_unit T1).
    { apply (legs_unit (canonical (ms_ref s) q) legs); auto. apply (course_keeps w ec); auto; [apply HR| |].
      - intros X. apply (NT _ X). cbn. tauto.
      - intros X. exfalso. apply (NT _ X). cbn. tauto. }
    destruct G as (c & m & es & us & i & st & p & st' & G1 & G2 & G3 & G4 & G5 & G6 & G7 & G8 & G9 & G10). subst s s1.
    destruct (moment_emittance w c m es us i ec st p st' W G1 G2 G3 G4 G5 D1 M1 N1 AS HR HRs G8 G9 j S k Hs H7 HK) as (T2 & S2 & Y1 & Y2 & Y3 & Y4).
    assert (S2 = S1) as -> by congruence.
    destruct (IH D2 N2 M2 HR1 HRs1 j S1 k X4 (fixed_sandwich _ _ _ _ _ KU X5 H7) HK) as (S' & Z1 & Z2).
    exists S'. split; [exact Z1|]. rewrite Z2. exact Y4.
Qed.
Theorem line_emittance ecs s f : travels w ecs s f ->
  Forall straight ecs -> Forall (upright num) ecs -> Forall (proper_magnet num) ecs ->
  moving (ms_ref s) -> Forall moving (ms_real s) ->
  forall j S k, nth_error (ms_m1 s) j = Some S -> seventh_fixed S -> (k = 0 \/ k = 2)%nat ->
  exists S', nth_error (ms_m1 f) j = Some S' /\ emittance2 S' k = emittance2 S k.
Proof. intros HT. apply turn_emittance. apply line_in_turn. exact HT. Qed.

(** ** Positions and phases *)
Lemma later_on p p' x : later p p' x -> moved_on p p' x.
Proof. intros (A & B & C & _). repeat split; auto; apply A. Qed.
Lemma moved_trans p p1 p2 x y : later p p1 x -> moved_on p1 p2 y -> moved_on p p2 (x + y).
Proof.
  intros ((A1 & A2 & A3 & A4) & A5 & A6 & A7) ((B1 & B2 & B3 & B4) & B5 & B6). unfold moved_on, same_ion.
  repeat split; try congruence. rewrite B6, A6. ring.
Qed.
Theorem turn_position ecs s f : in_turn w ecs s f -> forall L, Forall described ecs -> Forall (proper_magnet num) ecs -> line_extent num ecs L ->
  aligned s -> moving (ms_ref s) -> Forall moving (ms_real s) ->
  ms_pos f = ms_pos s + L /\ moved_on (ms_ref s) (ms_ref f) (wavenumber (ms_ref s) * (L * 1000)) /\
  List.length (ms_real f) = List.length (ms_real s) /\
  forall j q, nth_error (ms_real s) j = Some q -> exists q' extra, nth_error (ms_real f) j = Some q' /\
     moved_on q q' (wavenumber q * (L * 1000) + extra) /\ (Forall (fun c => ~ is_a "sbend" c) ecs -> extra = 0).
Proof.
  induction 1 as [s|ec l s s1 f G T IH]; intros L HD HP HL A HR HRs.
  - inversion HL; subst. split; [ring|]. split; [repeat split; ring|]. split; [reflexivity|]. intros j q Hq. exists q, 0. split; [exact Hq|]. split; [repeat split; ring|auto].
  - inversion HD as [|? ? D1 D2]; inversion HP as [|? ? M1 M2]; subst. inversion HL as [|? ? x y EX HL']; subst.
    assert (P := moment_pass w _ _ _ _ W G D1 M1 EX HR HRs). destruct (pass_moving _ _ _ _ A P HR HRs) as [HR1 HRs1].
    destruct P as (A1 & L1 & O1 & R1 & Q1).
    destruct (IH y D2 M2 HL' A1 HR1 HRs1) as (I1 & I2 & I3 & I4).
    split; [rewrite I1, O1; ring|]. split.
    { rewrite (later_wave _ _ _ R1) in I2. replace (wavenumber (ms_ref s) * ((x + y) * 1000)) with (wavenumber (ms_ref s) * (x * 1000) + wavenumber (ms_ref s) * (y * 1000)) by ring.
      exact (moved_trans _ _ _ _ _ R1 I2). }
    split; [congruence|]. intros j q Hq. assert (Hj := nth_lt _ _ _ Hq). destruct A as (_ & LA & LB & _).
    destruct (nth_ex (ms_m0 s) j (List.length (ms_real s)) ltac:(congruence) Hj) as [v Hv].
    destruct (nth_ex (ms_m1 s) j (List.length (ms_real s)) ltac:(congruence) Hj) as [S Hs].
    destruct (Q1 j q v S Hq Hv Hs) as (q1 & T1 & v1 & S1 & legs & X1 & _ & _ & _ & _ & _ & _ & e1 & X8 & _ & X9).
    destruct (I4 j q1 X1) as (q' & e2 & Y1 & Y2 & Y3). exists q', (e1 + e2). split; [exact Y1|]. split.
    + rewrite (later_wave _ _ _ X8) in Y2. replace (wavenumber q * ((x + y) * 1000) + (e1 + e2)) with (wavenumber q * (x * 1000) + e1 + (wavenumber q * (y * 1000) + e2)) by ring.
      exact (moved_trans _ _ _ _ _ X8 Y2).
    + intros N. inversion N; subst. rewrite X9, Y3 by auto. ring.
Qed.
Theorem line_position ecs s f L : travels w ecs s f -> Forall described ecs -> Forall (proper_magnet num) ecs -> line_extent num ecs L ->
  moving (ms_ref s) -> Forall moving (ms_real s) ->
  ms_pos f = ms_pos s + L /\ moved_on (ms_ref s) (ms_ref f) (wavenumber (ms_ref s) * (L * 1000)) /\
  List.length (ms_real f) = List.length (ms_real s) /\
  forall j q, nth_error (ms_real s) j = Some q -> exists q' extra, nth_error (ms_real f) j = Some q' /\
     moved_on q q' (wavenumber q * (L * 1000) + extra) /\ (Forall (fun c => ~ is_a "sbend" c) ecs -> extra = 0).
Proof.
  intros HT HD HP HL HR HRs. apply (turn_position ecs s f (line_in_turn _ _ _ HT) L HD HP HL); auto.
  destruct HT as (? & ? & ? & ? & ? & ? & ? & ? & _ & _ & _ & _ & _ & _ & _ & _ & X & _). exact X.
Qed.

(** ** The same beam stays the same *)
Lemma same_recalc p q : same_particle p q -> recalc q = recalc p.
Proof.
  intros ((A1 & A2 & A3 & A4) & A5 & A6). destruct p, q. cbn in *. subst. reflexivity.
Qed.
Definition all_same (s s' : mstate) : Prop := forall j, (j < List.length (ms_real s))%nat ->
  exists q q' v v' S S', nth_error (ms_real s) j = Some q /\ nth_error (ms_real s') j = Some q' /\ same_particle q q' /\
    nth_error (ms_m0 s) j = Some v /\ nth_error (ms_m0 s') j = Some v' /\ veq 7 v v' /\
    nth_error (ms_m1 s) j = Some S /\ nth_error (ms_m1 s') j = Some S' /\ meq 7 S S'.
Lemma forall2_at {A B} (R : A -> B -> Prop) l l' : Forall2 R l l' -> forall j a, nth_error l j = Some a -> exists b, nth_error l' j = Some b /\ R a b.
Proof.
  induction 1 as [|a b l l' H HF IH]; intros [|j] x Hx; try discriminate Hx; cbn in *; [|eauto].
  injection Hx as <-. eauto.
Qed.
Lemma same_all s s' : aligned s -> same_beam s s' -> all_same s s'.
Proof.
  intros (_ & LA & LB & _) (_ & _ & HR & H0 & H1) j Hj.
  destruct (nth_ex (ms_m0 s) j (List.length (ms_real s)) ltac:(congruence) Hj) as [v Hv].
  destruct (nth_ex (ms_m1 s) j (List.length (ms_real s)) ltac:(congruence) Hj) as [S Hs].
  destruct (nth_ex (ms_real s) j (List.length (ms_real s)) eq_refl Hj) as [q Hq].
  destruct (forall2_at _ _ _ HR j q Hq) as (q' & Q1 & Q2). destruct (forall2_at _ _ _ H0 j v Hv) as (v' & V1 & V2). destruct (forall2_at _ _ _ H1 j S Hs) as (S' & S1 & S2).
  exists q, q', v, v', S, S'. repeat (split; [assumption|]). assumption.
Qed.
Lemma all_beam s s' : aligned s -> aligned s' -> List.length (ms_real s') = List.length (ms_real s) -> ms_pos s' = ms_pos s ->
  same_particle (ms_ref s) (ms_ref s') -> all_same s s' -> same_beam s s'.
Proof.
  intros (_ & LA & LB & _) (_ & LA' & LB' & _) L HP HR H. split; [exact HP|]. split; [exact HR|].
  split; [|split]; apply forall2_nth; try lia; intros j Hj; (assert (Hj' : (j < List.length (ms_real s))%nat) by lia);
    destruct (H j Hj') as (q & q' & v & v' & S & S' & X1 & X2 & X3 & X4 & X5 & X6 & X7 & X8 & X9);
    [exists q, q'|exists v, v'|exists S, S']; auto.
Qed.
Lemma same_added p q x y : same_particle p q -> x = y -> same_particle (add_phis p x) (add_phis q y).
Proof. intros ((A1 & A2 & A3 & A4) & A5 & A6) <-. destruct p, q. cbn in *. subst. repeat split. Qed.
Lemma same_self p : same_particle p p.
Proof. repeat split. Qed.
Lemma goes_step ec s f : goes_through w ec s f -> exists k d0 d', is_a (mkind_name k) ec /\ mom_ctor w k ec = Ok d0 /\ advance_of w k ec d0 false s = (d', Ok f).
Proof.
  intros (c & m & es & us & i & st & p & st' & G1 & G3 & G4 & G5 & G6 & G7 & A & G9 & G10 & G11). subst s f.
  destruct (one_step w false c m es us i ec st p 1 W G1 G3 G4 G5 G6 A eq_refl G9) as (k & d0 & Hk & HC & HE).
  rewrite G10 in HE. symmetry in HE. apply rbind_ok in HE as (s' & HA & HE). injection HE as <-. cbn [st_body].
  destruct (advance_of w k ec d0 false (st_body st)) as [d' r] eqn:EA. cbn [snd] in HA. subst r. exists k, d0, d'. auto.
Qed.
Lemma goes_det ec s f f' : goes_through w ec s f -> goes_through w ec s f' -> f = f'.
Proof.
  intros G G'. destruct (goes_step _ _ _ G) as (k & d0 & d' & Hk & HC & EA), (goes_step _ _ _ G') as (k2 & d2 & d2' & Hk2 & HC2 & EA2).
  assert (k2 = k) as ->. { assert (E := is_a_inj _ _ _ Hk Hk2). destruct k, k2; try discriminate E; reflexivity. }
  assert (d2 = d0) as -> by congruence. congruence.
Qed.
Lemma turn_det l : forall s f f', in_turn w l s f -> in_turn w l s f' -> f = f'.
Proof.
  induction l as [|ec l IH]; intros s f f' H H'.
  - inversion H; inversion H'; subst; reflexivity.
  - inversion H as [|? ? ? x ? G1 T1]; inversion H' as [|? ? ? y ? G2 T2]; subst. rewrite (goes_det _ _ _ _ G2 G1) in T2. eapply IH; eauto.
Qed.
Theorem goes_same ec s s2 f f2 : described ec -> goes_through w ec s f -> goes_through w ec s2 f2 -> same_beam s s2 -> same_beam f f2.
Proof.
  intros HD G G2 SB. assert (A := goes_aligned _ _ _ G). assert (A2 := goes_aligned _ _ _ G2).
  assert (SA := same_all _ _ A SB). destruct SB as (SP & SR & SF & _).
  assert (SL : List.length (ms_real s2) = List.length (ms_real s)) by (clear - SF; induction SF; cbn; auto).
  assert (LF : aligned f /\ List.length (ms_real f) = List.length (ms_real s)).
  { destruct G as (c & m & es & us & i & st & p & st' & G1 & G3 & G4 & G5 & G6 & G7 & G8 & G9 & G10 & G11). subst s f. split.
    - assert (HS' : smooth (fun _ => aligned) strips_to_some m us) by (eapply smooth_weak; [|exact G5]; intros r s0 [_ X]; exact X).
      destruct (stays_aligned w W c m es us st _ _ p G1 G3 G4 HS' A G9) as [_ A']. rewrite G10 in A'. exact A'.
    - exact (guided_length w c m es us i ec st p st' W G1 G3 G4 G5 G6 HD A G9 G10). }
  assert (LF2 : aligned f2 /\ List.length (ms_real f2) = List.length (ms_real s2)).
  { destruct G2 as (c & m & es & us & i & st & p & st' & G1 & G3 & G4 & G5 & G6 & G7 & G8 & G9 & G10 & G11). subst s2 f2. split.
    - assert (HS' : smooth (fun _ => aligned) strips_to_some m us) by (eapply smooth_weak; [|exact G5]; intros r s0 [_ X]; exact X).
      destruct (stays_aligned w W c m es us st _ _ p G1 G3 G4 HS' A2 G9) as [_ A']. rewrite G10 in A'. exact A'.
    - exact (guided_length w c m es us i ec st p st' W G1 G3 G4 G5 G6 HD A2 G9 G10). }
  destruct LF as [AF LF], LF2 as [AF2 LF2].
  assert (D := goes_step _ _ _ G). assert (D2 := goes_step _ _ _ G2).
  destruct D as (k & d0 & d' & Hk & HC & EA), D2 as (k2 & d2 & d2' & Hk2 & HC2 & EA2).
  assert (k2 = k) as ->. { assert (E := is_a_inj _ _ _ Hk Hk2). destruct k, k2; try discriminate E; reflexivity. }
  assert (d2 = d0) as -> by congruence. clear Hk2 HC2.
  destruct (ctor_data w _ _ _ HC) as (C1 & C2 & C3). assert (F := ctor_fresh w _ _ _ HC).
  assert (HK := described_kind _ _ Hk HD). assert (ER := same_recalc _ _ SR).
  assert (CELL : forall g, cell_done g false s f -> cell_done g false s2 f2 -> forall j, (j < List.length (ms_real s))%nat ->
    exists q q2 v v2 v' v2' S' S2', nth_error (ms_real s) j = Some q /\ nth_error (ms_real s2) j = Some q2 /\ recalc q2 = recalc q /\
      nth_error (ms_m0 s) j = Some v /\ nth_error (ms_m0 s2) j = Some v2 /\ veq 7 v v2 /\
      nth_error (ms_m0 f) j = Some v' /\ nth_error (ms_m0 f2) j = Some v2' /\ veq 7 v' v2' /\ nth_error (ms_m1 f) j = Some S' /\ nth_error (ms_m1 f2) j = Some S2' /\ meq 7 S' S2').
  { intros g CD CD2 j Hj. destruct (SA j Hj) as (q & q2 & v & v2 & S & S2 & X1 & X2 & X3 & X4 & X5 & X6 & X7 & X8 & X9).
    destruct (CD j q v S X1 X4 X7) as (T & X & T1 & T2 & T3 & T4 & T5). destruct (CD2 j q2 v2 S2 X2 X5 X8) as (T' & X' & T1' & T2' & T3' & T4' & T5').
    rewrite (same_recalc _ _ X3), T1 in T1'. unfold applied in T2, T2'. subst X X'. apply pair_eq in T1' as [<- _].
    exists q, q2, v, v2, (mapp 7 T v), (mapp 7 T v2), (sandwich T S), (sandwich T S2).
    split; [exact X1|]. split; [exact X2|]. split; [exact (same_recalc _ _ X3)|]. split; [exact X4|]. split; [exact X5|]. split; [exact X6|].
    split; [exact T4|]. split; [exact T4'|]. split; [rewrite X6; reflexivity|]. split; [exact T5|]. split; [exact T5'|].
    unfold sandwich. rewrite X9. reflexivity. }
  assert (B : k = KSBend \/ advance_of w k ec d0 false s = advance_base w k ec d0 false s /\ advance_of w k ec d0 false s2 = advance_base w k ec d0 false s2).
  { cbn [In] in HK. decompose [or] HK; try contradiction; subst k; auto. }
  destruct B as [->|[B B2]].
  - cbn [advance_of] in EA, EA2.
    destruct (sbend_does w ec d0 false s d' f F C1 A EA) as (g & G1 & G2' & G3 & G4 & G5).
    destruct (sbend_does w ec d0 false s2 d2' f2 F C1 A2 EA2) as (g' & H1 & H2 & H3 & H4 & H5).
    rewrite ER, G1 in H1. assert (g' = g) as -> by congruence. apply all_beam; auto; try congruence.
    + rewrite H3, G3, ER. apply same_self.
    + intros j Hj. rewrite LF in Hj. destruct (CELL g G5 H5 j Hj) as (q & q2 & v & v2 & v' & v2' & S' & S2' & X1 & X2 & X3 & X4 & X5 & X6 & X7 & X8 & X9 & X10 & X11 & X12).
      eexists _, _, v', v2', S', S2'. split; [exact (G4 j q v v' X1 X4 X7)|]. split; [exact (H4 j q2 v2 v2' X2 X5 X8)|].
      split; [|repeat (split; [assumption|]); assumption]. rewrite X3. apply same_added; [apply same_self|].
      unfold PS_S. rewrite (X9 4%nat), (X6 4%nat) by lia. reflexivity.
  - rewrite B in EA. rewrite B2 in EA2.
    destruct (base_does w k ec d0 false s d' f F C1 A EA) as (g & G1 & G2' & G3 & G4 & G5).
    destruct (base_does w k ec d0 false s2 d2' f2 F C1 A2 EA2) as (g' & H1 & H2 & H3 & H4 & H5).
    rewrite ER, G1 in H1. assert (g' = g) as -> by congruence. apply all_beam; auto; try congruence.
    + rewrite H3, G3, ER. apply same_self.
    + intros j Hj. rewrite LF in Hj. destruct (CELL g G5 H5 j Hj) as (q & q2 & v & v2 & v' & v2' & S' & S2' & X1 & X2 & X3 & X4 & X5 & X6 & X7 & X8 & X9 & X10 & X11 & X12).
      eexists _, _, v', v2', S', S2'. split; [rewrite G4; exact (map_nth_error _ _ _ X1)|]. split; [rewrite H4; exact (map_nth_error _ _ _ X2)|].
      split; [|repeat (split; [assumption|]); assumption]. rewrite X3. apply same_self.
Qed.

(** ** Cutting an element of a line *)
Lemma turn_same l : Forall described l -> forall s s' f f', in_turn w l s f -> in_turn w l s' f' -> same_beam s s' -> same_beam f f'.
Proof.
  induction 1 as [|ec l HD HL IH]; intros s s' f f' H H' SB; inversion H; inversion H'; subst; [assumption|].
  eapply IH; [eassumption|eassumption|]. eapply goes_same; eauto.
Qed.
Lemma turn_app l1 l2 : forall s f, in_turn w (l1 ++ l2) s f -> exists s1, in_turn w l1 s s1 /\ in_turn w l2 s1 f.
Proof.
  induction l1 as [|ec l1 IH]; intros s f H; [exists s; split; [constructor|exact H]|]. cbn [app] in H. inversion H; subst.
  destruct (IH _ _ H5) as (s2 & X & Y). exists s2. split; [|exact Y]. econstructor; eauto.
Qed.
Lemma turn_moving l : Forall described l -> Forall (proper_magnet num) l -> forall s f, in_turn w l s f ->
  moving (ms_ref s) -> Forall moving (ms_real s) -> moving (ms_ref f) /\ Forall moving (ms_real f).
Proof.
  induction 1 as [|ec l HD HL IH]; intros HP s f H HR HRs; inversion H; subst; [auto|]. inversion HP; subst.
  destruct (extent_ex ec) as [x EX].
  assert (P := moment_pass w _ _ _ _ W H2 HD H3 EX HR HRs). destruct (pass_moving _ _ _ _ (goes_aligned _ _ _ H2) P HR HRs) as [HR1 HRs1].
  eapply IH; eauto.
Qed.
Theorem line_halves pre ec ea eb post s f f' : halves w ec ea eb -> proper_magnet num ec ->
  Forall described pre -> Forall (proper_magnet num) pre -> Forall described post ->
  moving (ms_ref s) -> Forall moving (ms_real s) ->
  travels w (pre ++ ec :: post) s f -> travels w (pre ++ ea :: eb :: post) s f' -> same_beam f f'.
Proof.
  intros HH PM DP PP DQ HR HRs H H'. apply line_in_turn in H, H'.
  apply turn_app in H as (s1 & H1 & H2). apply turn_app in H' as (s1' & H1' & H2').
  assert (s1' = s1) as -> by exact (turn_det _ _ _ _ H1' H1).
  destruct (turn_moving pre DP PP _ _ H1 HR HRs) as [HR1 HRs1].
  inversion H2 as [|? ? ? s2 ? G2 T2]; subst. inversion H2' as [|? ? ? s3 ? G3 T3]; subst. inversion T3 as [|? ? ? s4 ? G4 T4]; subst.
  eapply (turn_same post DQ); [exact T2|exact T4|].
  exact (proj1 (moment_halves w ec ea eb s1 s2 s3 s4 W HH PM HR1 HRs1 G2 G3 G4)).
Qed.

(** ** Lines complete *)
Lemma first_entry {A} (l : list A) i a r n : firstn (Datatypes.S n) (skipn i l) = a :: r -> nth_error l i = Some a /\ firstn n (skipn (Datatypes.S i) l) = r.
Proof.
  intros H. destruct (skipn i l) as [|e0 rest] eqn:ES; [discriminate H|]. cbn [firstn] in H. injection H as -> H. split.
  - rewrite <- (firstn_skipn i l), ES. assert (X := f_equal (@List.length _) ES). rewrite skipn_length in X. cbn in X.
    rewrite nth_error_app2; rewrite firstn_length; [|lia]. replace (i - min i (List.length l))%nat with 0%nat by lia. reflexivity.
  - rewrite (skipn_tail _ _ _ _ ES). exact H.
Qed.
Lemma completes c m es : new_machine (moment_reg w) c = Ok m -> tfind "elements" c = Some (TCfgs es) -> Forall strips_to_some es ->
  forall ecs us i st, smooth (fun r s => r = false /\ aligned s) strips_to_some m us ->
  (N.of_nat (i + List.length ecs) <= SIZE_MAX)%N -> (Z.of_nat (List.length ecs) <= INT_MAX)%Z ->
  firstn (List.length ecs) (skipn i (entries m es us)) = ecs ->
  Forall described ecs -> Forall (equipped w) ecs -> Forall (proper_magnet num) ecs ->
  aligned (st_body st) -> moving (ms_ref (st_body st)) -> Forall moving (ms_real (st_body st)) ->
  exists p f, propagate (uses m us) st (N.of_nat i) (Z.of_nat (List.length ecs)) = Some p /\ pr_end p = Ok f.
Proof.
  intros Hm He HQ. induction ecs as [|ec l IH]; intros us i st HS HN HZ HF HD HE HP A HR HRs.
  - unfold propagate. cbn. eexists _, _. split; reflexivity.
  - cbn [List.length] in *. apply first_entry in HF as [Hi HF].
    inversion HD as [|? ? D1 D2]; inversion HE as [|? ? E1 E2]; inversion HP as [|? ? M1 M2]; subst.
    destruct (moment_completes w false c m es us i ec st W Hm He HQ HS Hi D1 E1 ltac:(discriminate) A HR HRs) as (p1 & s1 & P1 & F1).
    assert (KD := fit_keeps w _ _ _ (used_fit w W false c m es us Hm He HQ HS)).
    assert (SD : same_direction 1 (Z.of_nat (List.length l))) by (left; lia).
    destruct (one_step w false c m es us i ec st p1 1 W Hm He HQ HS Hi A eq_refl P1) as (k & d0 & Hk & HC & HO).
    assert (NX : st_next s1 = N.of_nat (Datatypes.S i)).
    { rewrite F1 in HO. symmetry in HO. apply rbind_ok in HO as (s' & HA & HO).
      apply (f_equal (fun r => match r with Ok x => st_next x | Throw _ => 0%N end)) in HO. cbn [st_next] in HO. rewrite <- HO.
      unfold size_incr. destruct (N.eqb_spec (N.of_nat i) SIZE_MAX) as [X|X]; lia. }
    assert (HS1 : smooth (fun r s => r = false /\ aligned s) strips_to_some m (us ++ [UProp st (N.of_nat i) 1])).
    { apply smooth_snoc; [exact HS|]. split; [auto|]. exists p1, s1. auto. }
    assert (G : goes_through w ec (st_body st) (st_body s1)).
    { exists c, m, es, us, i, st, p1, s1. repeat (split; [assumption|]). split; [reflexivity|]. repeat (split; [assumption|]). reflexivity. }
    destruct (extent_ex ec) as [x EX].
    assert (P := moment_pass w _ _ _ _ W G D1 M1 EX HR HRs). destruct (pass_moving _ _ _ _ A P HR HRs) as [HR1 HRs1].
    destruct (IH (us ++ [UProp st (N.of_nat i) 1]) (Datatypes.S i) s1 HS1) as (p2 & f & P2 & F2); auto; try lia; [rewrite entries_snoc; exact HF|apply P|].
    rewrite uses_snoc in P2. cbn [use1] in P2. rewrite P1, <- NX in P2.
    replace (Z.of_nat (Datatypes.S (List.length l))) with (1 + Z.of_nat (List.length l))%Z by lia.
    rewrite (propagate_composes _ _ _ _ _ _ _ _ KD SD P1 F1 P2). eexists _, f. split; [reflexivity|exact F2].
Qed.
End W.

(** ** Examples *)
Definition dhalf : double := SpecFloat.S754_finite false 4503599627370496 (-53).
Definition nums (d : double) : R := if deq d done then 1 else if deq d dhalf then / 2 else 0.
(** A quadrupole and a rolled sector magnet, whole and cut. *)
Definition quad0 : tcfg := TCfg [("B2", TNum done); ("L", TNum done); ("dx", TNum done); ("name", TStr "q"); ("type", TStr "quadrupole")] [].
Definition bend_of (L phi1 phi2 : double) : tcfg :=
  TCfg [("L", TNum L); ("dx", TNum done); ("name", TStr "b"); ("phi", TNum L); ("phi1", TNum phi1); ("phi2", TNum phi2);
        ("roll", TNum done); ("type", TStr "sbend")] [].
Definition whole : list tcfg := [quad0; bend_of done done done; quad0].
Definition cut : list tcfg := [quad0; bend_of dhalf done dzero; bend_of dhalf dzero done; quad0].
Lemma cut_halves a : halves (world0 nums a) (bend_of done done done) (bend_of dhalf done dzero) (bend_of dhalf dzero done).
Proof.
  unfold halves. cbv zeta. cbn [w_num world0]. split; [apply Exists_exists; exists "sbend"; split; [cbn; tauto|reflexivity]|].
  split. { intros n Hn. cbn in Hn. unfold bend_of, tfind, town. cbn [sfind].
    repeat (match goal with |- context [String.eqb n ?k] => destruct (String.eqb_spec n k) as [->|?] end; [tauto || auto|]); auto. }
  change (real_at nums (bend_of done done done) "L" 0) with 1. change (real_at nums (bend_of dhalf done dzero) "L" 0) with (/ 2).
  change (real_at nums (bend_of dhalf dzero done) "L" 0) with (/ 2).
  split; [lra|]. split; [split; reflexivity|]. split; [reflexivity|]. intros _.
  change (real_at nums (bend_of done done done) "phi" 0) with 1. change (real_at nums (bend_of dhalf done dzero) "phi" 0) with (/ 2).
  change (real_at nums (bend_of dhalf dzero done) "phi" 0) with (/ 2). repeat split; try lra; reflexivity.
Qed.
Lemma bend_proper L p1 p2 : nums L <> 0 -> proper_magnet nums (bend_of L p1 p2).
Proof.
  intros H. split; [|discriminate]. intros _ _. cbv zeta.
  change (real_at nums (bend_of L p1 p2) "phi" 0) with (nums L). change (real_at nums (bend_of L p1 p2) "L" 0) with (nums L).
  change (real_at nums (bend_of L p1 p2) "K" 0) with 0. change (real_at nums (bend_of L p1 p2) "bg" 1) with 1.
  split; [exact H|]. split; [|lra]. assert (0 < PI / 180 / 1000) by (pose proof PI_RGT_0; lra).
  replace (nums L * PI / 180 / (nums L * 1000)) with (PI / 180 / 1000) by (field; auto). nra.
Qed.
Lemma cut_fine a : Forall described (whole ++ cut) /\ Forall (equipped (world0 nums a)) (whole ++ cut) /\ Forall (proper_magnet nums) (whole ++ cut).
Proof.
  assert (Q : described quad0 /\ equipped (world0 nums a) quad0 /\ proper_magnet nums quad0).
  { split; [apply Exists_exists; exists "quadrupole"; split; [cbn; tauto|reflexivity]|]. split; [|split; discriminate].
    split; [|repeat split; discriminate]. intros _. split; [repeat constructor; discriminate|reflexivity]. }
  assert (B : forall L p1 p2, nums L <> 0 -> described (bend_of L p1 p2) /\ equipped (world0 nums a) (bend_of L p1 p2) /\ proper_magnet nums (bend_of L p1 p2)).
  { intros L p1 p2 H. split; [apply Exists_exists; exists "sbend"; split; [cbn; tauto|reflexivity]|]. split; [|apply bend_proper; exact H].
    split; [discriminate|]. split; [discriminate|]. split; [discriminate|]. split; [|discriminate]. intros _. split; [repeat constructor; discriminate|].
    intros fit F E. unfold flagged in F. cbn in F. congruence. }
  assert (D1 : nums done <> 0) by (change (nums done) with 1; lra). assert (D2 : nums dhalf <> 0) by (change (nums dhalf) with (/ 2); lra).
  split; [|split]; repeat (apply Forall_cons; [first [apply Q|apply B; assumption]|]); apply Forall_nil.
Qed.
Lemma whole_runs a s : aligned s -> moving (ms_ref s) -> Forall moving (ms_real s) ->
  (exists f, travels (world0 nums a) whole s f) /\ (exists f, travels (world0 nums a) cut s f).
Proof.
  intros A HR HRs. destruct (cut_fine a) as (F1 & F2 & F3). apply Forall_app in F1 as [F1 F1'], F2 as [F2 F2'], F3 as [F3 F3'].
  assert (K : forall l, (exists m, new_machine (moment_reg (world0 nums a)) (mconf l) = Ok m) -> Forall strips_to_some l -> (List.length l < 9)%nat ->
    Forall described l -> Forall (equipped (world0 nums a)) l -> Forall (proper_magnet nums) l -> exists f, travels (world0 nums a) l s f).
  { intros l [m Hm] HQ HL D E M.
    assert (HF : firstn (List.length l) (skipn 0 (entries m l [])) = l) by apply firstn_all.
    assert (HN : (N.of_nat (0 + List.length l) <= SIZE_MAX)%N) by (unfold SIZE_MAX; lia). assert (HZ : (Z.of_nat (List.length l) <= INT_MAX)%Z) by (unfold INT_MAX; lia).
    destruct (completes (world0 nums a) (world0_sane nums a) (mconf l) m l Hm eq_refl HQ l [] 0 (mkSt 0 false s) I HN HZ HF D E M A HR HRs) as (p & f & P1 & P2).
    exists (st_body f), (mconf l), m, l, [], 0%nat, (mkSt 0 false s), p, f. repeat (split; [first [assumption|reflexivity|exact I]|]). reflexivity. }
  split; apply K; auto; try (eexists; reflexivity); repeat constructor; unfold strips_to_some; discriminate.
Qed.
