(** Going forward and then backward through elements that guide the beam. *)
From Coq Require Import Reals List String Bool NArith ZArith Arith Lia Lra.
From Verif Require Import SMap SMap_Proofs Dbl Config_Spec Mat Mat_Proofs Minv Minv_Proofs Machine_Model Machine_Spec Machine_Proofs
  Machine2_Proofs Machine4_Proofs Linear_Model Linear_Spec Linear_Proofs Linear2_Proofs Linear3_Proofs.
From Verif Require Import Moment_Model Moment_Spec Motion_Spec Round_Spec Moment_Proofs Moment2_Proofs Moment3_Proofs Moment4_Proofs
  Moment5_Proofs Moment6_Proofs Motion_Proofs Motion2_Proofs Motion3_Proofs Motion4_Proofs Motion5_Proofs.
Import ListNotations.
Open Scope R_scope.
Open Scope string_scope.
Open Scope list_scope.

(** ** Lists, matrices, particles *)
Lemma Forall2_at {A B} (P : A -> B -> Prop) l : forall l', List.length l = List.length l' ->
  (forall j a b, nth_error l j = Some a -> nth_error l' j = Some b -> P a b) -> Forall2 P l l'.
Proof.
  induction l as [|x l IH]; intros [|y l'] L H; try discriminate; constructor.
  - apply (H 0%nat); reflexivity.
  - apply IH; [simpl in L; lia|]. intros j a b Ha Hb. apply (H (S j)); auto.
Qed.
Lemma Forall2_nth {A B} (P : A -> B -> Prop) l l' : Forall2 P l l' -> forall j a, nth_error l j = Some a ->
  exists b, nth_error l' j = Some b /\ P a b.
Proof.
  induction 1 as [|x y l l' H F IH]; intros [|j] a Ha; cbn [nth_error] in *; try discriminate.
  - injection Ha as <-. eauto.
  - eauto.
Qed.
Lemma Forall2_len {A B} (P : A -> B -> Prop) l l' : Forall2 P l l' -> List.length l = List.length l'.
Proof. induction 1; simpl; congruence. Qed.
Lemma sandwich_meq A A' M M' : meq 7 A A' -> meq 7 M M' -> meq 7 (sandwich A M) (sandwich A' M').
Proof. intros H K. unfold sandwich, msize. rewrite H, K. reflexivity. Qed.
Lemma sandwich_twice A B M : meq 7 (sandwich A (sandwich B M)) (sandwich (mmul 7 A B) M).
Proof.
  unfold sandwich, msize. rewrite (mtr_mmul 7 A B). rewrite !mmul_assoc. reflexivity.
Qed.
Lemma sandwich_id M : meq 7 (sandwich mid M) M.
Proof. unfold sandwich, msize. rewrite mtr_mid, mid_l, mid_r. reflexivity. Qed.
Lemma sandwich_back A B M : meq 7 (mmul 7 A B) mid -> meq 7 (sandwich A (sandwich B M)) M.
Proof. intros H. rewrite sandwich_twice. rewrite (sandwich_meq _ mid M M H) by reflexivity. apply sandwich_id. Qed.

Lemma same_refl_p p : same_particle p p. Proof. repeat split. Qed.
Lemma recalc_shift p q : same_ion p q -> p_Ek q = p_Ek p -> recalc q = add_phis (recalc p) (p_phis q - p_phis p).
Proof.
  intros (H1 & H2 & H3 & H4) H5. unfold recalc, add_phis. cbn [p_Z p_Q p_Es p_W p_gamma p_beta p_bg p_freq p_lambda p_K p_phis p_Ek].
  rewrite H1, H2, H3, H4, H5. f_equal. ring.
Qed.
Lemma moving_same p q : same_ion p q -> p_Ek q = p_Ek p -> moving p -> moving q.
Proof. intros (H1 & H2 & H3 & H4) H5. unfold moving. rewrite H1, H3, H4, H5. auto. Qed.

Section W.
Variable w : world.
Notation num := (w_num w).

(** The matrices do not depend on phases. *)
Lemma setup_phase k d c ref x : setup w k d c (add_phis ref x) = setup w k d c ref.
Proof. destruct k; reflexivity. Qed.
Lemma cell_phase k d c ref f p x T : setup w k d c ref = Ok f -> f (add_phis p x) T = f p T.
Proof.
  intros H.
  assert (F : forall r : res cell_fun, r = Ok f -> forall g, r = Ok g -> g (add_phis p x) T = g p T -> f (add_phis p x) T = f p T)
    by (intros r E g E' HG; rewrite E in E'; injection E' as ->; apply HG).
  destruct k; cbn [setup] in H; try (apply (F _ H _ eq_refl); reflexivity).
  - unfold setup_sbend in H. repeat (apply rbind_ok in H as (? & _ & H)). apply (F _ H _ eq_refl). reflexivity.
  - unfold setup_quad in H. apply rbind_ok in H as (? & _ & H). apply rbind_ok in H as (? & _ & H). destruct (negb _);
      apply rbind_ok in H as (? & _ & H); apply (F _ H _ eq_refl); reflexivity.
  - unfold setup_solenoid in H. apply rbind_ok in H as (? & _ & H). apply rbind_ok in H as (? & _ & H). destruct (negb _);
      apply rbind_ok in H as (? & _ & H); apply (F _ H _ eq_refl); reflexivity.
  - unfold setup_edipole in H. do 5 apply rbind_ok in H as (? & _ & H). destruct (negb _); [discriminate|].
    cbv zeta in H. apply (F _ H _ eq_refl). reflexivity.
  - unfold setup_equad in H. apply rbind_ok in H as (? & _ & H). apply rbind_ok in H as (? & _ & H). destruct (negb _);
      repeat (apply rbind_ok in H as (? & _ & H)); apply (F _ H _ eq_refl); reflexivity.
Qed.

(** ** Backward through an element that was last used forward *)
(** With no length the cache holds for both directions. *)
Lemma base_hit0 k c d0 d r r' s0 s0' s : fresh d0 -> md_len d0 = 0 -> advance_base w k c d0 r s0 = (d, Ok s0') ->
  check_cache d (ms_recalc s) = true -> advance_base w k c d r' s = advance_base w k c d0 r' s.
Proof.
  intros F L0. rewrite base_eq by (apply fresh_miss; auto). cbv zeta.
  destruct (recompute w k c (note_input d0 (ms_recalc s0)) (ms_recalc s0)) as [tm [e|]] eqn:RC; [discriminate|].
  intros HD C. apply pair_eq in HD as [<- _].
  destruct (hit_key _ _ C) as [K1 K2]; try apply recalc_settled.
  { intros x K. apply some_eq in K. subst x. apply recalc_settled. }
  cbn [with_out with_tm note_input with_in md_ref_in md_real_in] in K1, K2. apply some_eq in K1.
  rewrite (note_parts d0 _ _ K1 K2), (recompute_parts w k c _ _ _ K1 K2) in RC.
  rewrite (note_parts d0 _ _ K1 K2) in C |- *. rewrite K1, K2 in C |- *.
  rewrite (base_eq w k c d0) by (apply fresh_miss; auto). cbv zeta. rewrite RC.
  assert (Z : forall p, stepped r (md_len d0) p = stepped r' (md_len d0) p).
  { intros p. unfold stepped. rewrite L0. f_equal. destruct r, r'; ring. }
  rewrite (map_ext (stepped r (md_len d0)) (stepped r' (md_len d0)) Z), (Z (ms_ref (ms_recalc s))) in C |- *.
  unfold advance_base at 1. cbv zeta. rewrite C.
  erewrite from_cache_eq by (cbn [with_out md_ref_out md_real_out]; rewrite ?map_length; reflexivity).
  reflexivity.
Qed.
Definition plain_kinds : list mkind := [KMark; KBPM; KDrift; KQuad; KEQuad; KSolenoid; KOrbTrim; KSBend; KTMatrix; KEDipole].
Definition same_shape (s t : mstate) : Prop := restored s t /\ aligned t.
Lemma back_fresh k c d0 d s s1 t : mom_ctor w k c = Ok d0 -> In k plain_kinds -> aligned s -> moving (ms_ref s) ->
  advance_of w k c d0 false s = (d, Ok s1) -> same_particle (ms_ref s1) (ms_ref t) ->
  snd (advance_of w k c d true t) = snd (advance_of w k c d0 true t).
Proof.
  intros Hc HK A MR H SP. assert (F := ctor_fresh w _ _ _ Hc). destruct (ctor_data _ _ _ _ Hc) as (C1 & _).
  assert (B : k = KSBend \/ forall d b s, advance_of w k c d b s = advance_base w k c d b s).
  { unfold plain_kinds in HK. cbn [In] in HK. decompose [or] HK; try contradiction; subst k; auto. }
  assert (F' := F). destruct F' as (F1 & F2 & F3 & F4 & F5).
  destruct B as [->|B]; [cbn [advance_of] in *|rewrite !B in *].
  - destruct (check_cache d (ms_recalc t)) eqn:C.
    + rewrite (sbend_hit w c d0 d false true s s1 t); auto.
    + destruct (sbend_left w c d0 false s d s1) as (L1 & L2 & L3); auto.
      apply (sbend_miss w c d d0 true t); auto; [rewrite F3; constructor|apply fresh_miss; auto].
  - destruct (check_cache d (ms_recalc t)) eqn:C.
    + assert (L : md_len d0 = 0).
      { destruct (base_does w k c d0 false s d s1 F C1 A H) as (f & _ & _ & ER & _).
        rewrite base_eq in H by (apply fresh_miss; auto). cbv zeta in H.
        destruct (recompute w k c _ _) as [tm [e|]]; [discriminate|]. apply pair_eq in H as [<- _].
        destruct (hit_key _ _ C) as [K1 _]; try apply recalc_settled.
        { intros x K. apply some_eq in K. subst x. apply recalc_settled. }
        cbn [with_out with_tm note_input with_in md_ref_in] in K1. apply some_eq in K1.
        apply (f_equal p_phis) in K1. change (p_phis (ms_ref s) = p_phis (ms_ref t)) in K1.
        destruct SP as (_ & _ & SP). rewrite ER in SP. unfold stepped, add_phis in SP. cbn [p_phis] in SP.
        change (p_phis (recalc (ms_ref s))) with (p_phis (ms_ref s)) in SP. rewrite recalc_K in SP by auto.
        destruct (moving_facts _ MR) as (_ & _ & _ & K & _).
        assert (E : wavenumber (ms_ref s) * md_len d0 * MtoMM = 0) by lra.
        apply Rmult_integral in E as [E|E]; [|unfold MtoMM in E; lra]. apply Rmult_integral in E as [E|E]; [lra|exact E]. }
      rewrite (base_hit0 k c d0 d false true s s1 t); auto.
    + destruct (base_left w k c d0 false s d s1) as (L1 & L2 & L3); auto.
      apply (base_miss w k c d d0 true t); auto; [rewrite F3; constructor|apply fresh_miss; auto].
Qed.

(** ** There and back *)
Lemma cells_same s t j p v m : restored s t -> aligned s -> nth_error (ms_real s) j = Some p ->
  nth_error (ms_m0 s) j = Some v -> nth_error (ms_m1 s) j = Some m ->
  exists q u x, nth_error (ms_real t) j = Some q /\ nth_error (ms_m0 t) j = Some u /\ nth_error (ms_m1 t) j = Some x /\
    same_particle p q /\ veq 7 v u /\ meq 7 m x.
Proof.
  intros (_ & _ & R1 & R2 & R3) _ Hp Hv Hm.
  destruct (Forall2_nth _ _ _ R1 _ _ Hp) as (q & Q1 & Q2). destruct (Forall2_nth _ _ _ R2 _ _ Hv) as (u & U1 & U2).
  destruct (Forall2_nth _ _ _ R3 _ _ Hm) as (x & X1 & X2). eauto 12.
Qed.
Lemma lengths_same s t : aligned s -> aligned t -> List.length (ms_real s) = List.length (ms_real t) ->
  (forall j p v m q u x, nth_error (ms_real s) j = Some p -> nth_error (ms_m0 s) j = Some v -> nth_error (ms_m1 s) j = Some m ->
     nth_error (ms_real t) j = Some q -> nth_error (ms_m0 t) j = Some u -> nth_error (ms_m1 t) j = Some x ->
     same_particle p q /\ veq 7 v u /\ meq 7 m x) ->
  Forall2 same_particle (ms_real s) (ms_real t) /\ Forall2 (veq 7) (ms_m0 s) (ms_m0 t) /\ Forall2 (meq 7) (ms_m1 s) (ms_m1 t).
Proof.
  intros (A1 & A2 & A3 & A4) (B1 & B2 & B3 & B4) L H.
  assert (X : forall j, (j < List.length (ms_real s))%nat -> exists p v m q u x, nth_error (ms_real s) j = Some p /\
    nth_error (ms_m0 s) j = Some v /\ nth_error (ms_m1 s) j = Some m /\
    nth_error (ms_real t) j = Some q /\ nth_error (ms_m0 t) j = Some u /\ nth_error (ms_m1 t) j = Some x).
  { intros j Hj. destruct (nth_ex (ms_real s) j _ eq_refl Hj) as [p ?]. destruct (nth_ex (ms_m0 s) j _ A2 Hj) as [v ?].
    destruct (nth_ex (ms_m1 s) j _ A3 Hj) as [m ?]. rewrite L in Hj. destruct (nth_ex (ms_real t) j _ eq_refl Hj) as [q ?].
    destruct (nth_ex (ms_m0 t) j _ B2 Hj) as [u ?]. destruct (nth_ex (ms_m1 t) j _ B3 Hj) as [x ?]. eauto 20. }
  split; [|split]; (apply Forall2_at; [congruence|]); intros j a b Ha Hb;
    assert (Hj := nth_lt _ _ _ Ha); rewrite ?A2, ?A3 in Hj; destruct (X j Hj) as (p & v & m & q & u & x & P1 & P2 & P3 & P4 & P5 & P6);
    destruct (H j p v m q u x P1 P2 P3 P4 P5 P6) as (H1 & H2 & H3);
    first [ rewrite P1 in Ha; rewrite P4 in Hb | rewrite P2 in Ha; rewrite P5 in Hb | rewrite P3 in Ha; rewrite P6 in Hb ];
    apply some_eq in Ha; apply some_eq in Hb; subst; assumption.
Qed.
Lemma K_add p x : p_K (add_phis p x) = p_K p. Proof. reflexivity. Qed.
Lemma phis_add p x : p_phis (add_phis p x) = p_phis p + x. Proof. reflexivity. Qed.

Lemma there_and_back k c d0 d s s1 t d2 t2 : mom_ctor w k c = Ok d0 -> In k plain_kinds -> aligned s -> aligned t ->
  moving (ms_ref s) -> advance_of w k c d0 false s = (d, Ok s1) -> aligned s1 -> restored s1 t ->
  advance_of w k c d true t = (d2, Ok t2) -> aligned t2 -> restored s t2.
Proof.
  intros Hc HK A At MR H A1 R HB At2. assert (F := ctor_fresh w _ _ _ Hc). destruct (ctor_data _ _ _ _ Hc) as (C1 & _).
  assert (HB' := back_fresh k c d0 d s s1 t Hc HK A MR H (proj1 (proj2 R))). rewrite HB in HB'. cbn [snd] in HB'.
  destruct (advance_of w k c d0 true t) as [d3 r3] eqn:HT. cbn [snd] in HB'. subst r3.
  assert (B : k = KSBend \/ k <> KSBend /\ forall d b s, advance_of w k c d b s = advance_base w k c d b s).
  { unfold plain_kinds in HK. cbn [In] in HK. decompose [or] HK; try contradiction; subst k; auto; right; split; auto; discriminate. }
  assert (X : exists f g, setup w k d0 c (recalc (ms_ref s)) = Ok f /\ setup w k d0 c (recalc (ms_ref t)) = Ok g /\
    ms_pos s1 = ms_pos s + md_len d0 /\ ms_pos t2 = ms_pos t - md_len d0 /\
    ms_ref s1 = stepped false (md_len d0) (recalc (ms_ref s)) /\ ms_ref t2 = stepped true (md_len d0) (recalc (ms_ref t)) /\
    cell_done f false s s1 /\ cell_done g true t t2).
  { destruct B as [->|[NB B]]; [cbn [advance_of] in H, HT|rewrite B in H, HT].
    - destruct (sbend_does w c d0 false s d s1 F C1 A H) as (f & G1 & G2 & G3 & _ & G5).
      destruct (sbend_does w c d0 true t d3 t2 F C1 At HT) as (g & K1 & K2 & K3 & _ & K5).
      exists f, g. cbn [shift_of] in G2, K2. auto 10.
    - destruct (base_does w k c d0 false s d s1 F C1 A H) as (f & G1 & G2 & G3 & _ & G5).
      destruct (base_does w k c d0 true t d3 t2 F C1 At HT) as (g & K1 & K2 & K3 & _ & K5).
      exists f, g. cbn [shift_of] in G2, K2. auto 10. }
  destruct X as (f & g & Sf & Sg & P1 & P2 & R1 & R2 & Cf & Cg).
  destruct R as (RP & RR & RC). destruct RR as (I & IE & IP).
  assert (IR : same_ion (ms_ref s) (ms_ref t) /\ p_Ek (ms_ref t) = p_Ek (ms_ref s)).
  { rewrite R1 in I, IE. destruct I as (I1 & I2 & I3 & I4). split; [repeat split; assumption|exact IE]. }
  destruct IR as [IR IK].
  rewrite (recalc_shift _ _ IR IK), setup_phase, Sf in Sg. apply (f_equal (fun r => match r with Ok x => x | Throw _ => f end)) in Sg. subst g.
  assert (LR : List.length (ms_real s) = List.length (ms_real s1) /\ List.length (ms_real t) = List.length (ms_real t2)).
  { assert (Y : forall d b (x y : mstate) d', fresh d -> md_tm d = [] -> aligned x -> advance_of w k c d b x = (d', Ok y) ->
      List.length (ms_real y) = List.length (ms_real x)).
    { intros dd b x y d' Fd Td Ax E. destruct B as [->|[NB B]].
      - cbn [advance_of] in E. rewrite sbend_eq in E by (apply fresh_miss; auto). cbv zeta in E.
        destruct (recompute w KSBend c _ _) as [tm [e|]]; [discriminate|]. apply pair_eq in E as [_ E]. unfold finish_sbend in E.
        apply rbind_ok in E as (Ts & _ & E). apply rbind_ok in E as ([[m0 m1] tm'] & _ & E). apply rbind_ok in E as (real & EO & E).
        apply calc_keeps in E as (_ & _ & E & _). rewrite E. cbn [ms_real].
        apply over_length in EO. rewrite EO. apply map_length.
      - rewrite B in E. destruct (base_does w k c dd b x d' y Fd Td Ax E) as (f0 & _ & _ & _ & E' & _). rewrite E'. apply map_length. }
    split; symmetry; eapply Y; eauto. }
  destruct LR as [L1 L2].
  assert (L3 : List.length (ms_real s1) = List.length (ms_real t)) by (destruct RC as [RC _]; eapply Forall2_len; eauto).
  split; [rewrite P2, RP, P1; ring|]. split.
  { split; [|split].
    - rewrite R2. destruct IR as (I1 & I2 & I3 & I4). repeat split; assumption.
    - rewrite R2. exact IK.
    - rewrite R2. rewrite R1 in IP. unfold stepped in *. rewrite phis_add in *. rewrite (recalc_shift _ _ IR IK), phis_add.
      change (p_phis (recalc (ms_ref s))) with (p_phis (ms_ref s)) in *.
      change (p_K (add_phis (recalc (ms_ref s)) (p_phis (ms_ref t) - p_phis (ms_ref s)))) with (p_K (recalc (ms_ref s))).
      rewrite IP. ring. }
  apply lengths_same; auto; [congruence|].
  intros j p v m q2 u2 x2 Hp Hv Hm Hq2 Hu2 Hx2.
  destruct (Cf j p v m Hp Hv Hm) as (T & X & T1 & T2 & T3 & T4 & T5). cbn [applied] in T2. subst X.
  destruct (nth_ex (ms_real s1) j _ eq_refl ltac:(rewrite <- L1; eapply nth_lt; eauto)) as [p1 Hp1].
  destruct RC as (RC1 & RC2 & RC3).
  destruct (Forall2_nth _ _ _ RC1 _ _ Hp1) as (q & Hq & Q2). destruct (Forall2_nth _ _ _ RC2 _ _ T4) as (u & Hu & U2).
  destruct (Forall2_nth _ _ _ RC3 _ _ T5) as (x & Hx & X2).
  destruct (Cg j q u x Hq Hu Hx) as (T' & X & V1 & V2 & V3 & V4 & V5). cbn [applied] in V2.
  assert (PS : same_ion p p1 /\ p_Ek p1 = p_Ek p /\
    forall v1 v2, nth_error (ms_m0 s1) j = Some v1 -> nth_error (ms_m0 t2) j = Some v2 -> v2 4%nat = v 4%nat ->
      v1 4%nat = u 4%nat -> same_ion p q -> p_Ek q = p_Ek p -> same_particle p q2).
  { destruct B as [->|[NB B]].
    - cbn [advance_of] in H, HT.
      destruct (sbend_does w c d0 false s d s1 F C1 A H) as (_ & _ & _ & _ & G4 & _).
      destruct (sbend_does w c d0 true t d3 t2 F C1 At HT) as (_ & _ & _ & _ & K4 & _).
      assert (Y := G4 j p v _ Hp Hv T4). rewrite Hp1 in Y. apply some_eq in Y. subst p1. split; [repeat split|]. split; [reflexivity|].
      intros v1 v2 E1 E2 W1 W2 IQ EQ. rewrite T4 in E1. apply some_eq in E1. subst v1.
      assert (Y := K4 j q u v2 Hq Hu E2). rewrite Hq2 in Y. apply some_eq in Y. subst q2.
      destruct Q2 as (_ & _ & Q2). rewrite (recalc_shift p q IQ EQ).
      destruct IQ as (I1 & I2 & I3 & I4).
      split; [repeat split|]. split; [reflexivity|]. rewrite !phis_add in *. rewrite Q2. unfold shift_of. unfold PS_S in *.
      change (p_phis (recalc p)) with (p_phis p) in *. rewrite W1, W2. rewrite ?K_add. ring.
    - rewrite B in H, HT.
      destruct (base_does w k c d0 false s d s1 F C1 A H) as (_ & _ & _ & _ & G4 & _).
      destruct (base_does w k c d0 true t d3 t2 F C1 At HT) as (_ & _ & _ & _ & K4 & _).
      rewrite G4 in Hp1. rewrite (map_nth_error _ _ _ Hp) in Hp1. apply some_eq in Hp1. subst p1. split; [repeat split|]. split; [reflexivity|].
      intros v1 v2 _ _ _ _ IQ EQ. rewrite K4 in Hq2. rewrite (map_nth_error _ _ _ Hq) in Hq2. apply some_eq in Hq2. subst q2.
      destruct Q2 as (_ & _ & Q2). rewrite (recalc_shift p q IQ EQ). split; [repeat split|]. split; [reflexivity|].
      unfold stepped in *. rewrite !phis_add in *. rewrite Q2.
      change (p_phis (recalc p)) with (p_phis p) in *. rewrite ?K_add. ring. }
  destruct PS as (S1 & S2 & S3).
  assert (IQ : same_ion p q /\ p_Ek q = p_Ek p).
  { destruct S1 as (E1 & E2 & E3 & E4), Q2 as ((F1' & F2' & F3' & F4') & F5' & _). split; [repeat split; congruence|congruence]. }
  destruct IQ as [IQ EQ].
  rewrite (recalc_shift p q IQ EQ), (cell_phase _ _ _ _ _ _ _ _ Sf), T1 in V1. apply pair_eq in V1 as [<- _].
  apply inverse_ok in V2 as [V2 _]. rewrite V4 in Hu2. apply some_eq in Hu2. subst u2. rewrite V5 in Hx2. apply some_eq in Hx2. subst x2.
  assert (E1 : veq 7 v (mapp 7 X u)).
  { rewrite <- U2. symmetry. rewrite <- mapp_mmul, V2. apply mid_app. }
  assert (E2 : meq 7 m (sandwich X x)).
  { rewrite <- (sandwich_meq X X _ _ ltac:(reflexivity) X2). symmetry. apply sandwich_back. exact V2. }
  split; [|split; auto]. apply (S3 _ _ T4 V4); auto. symmetry. apply E1. lia.
Qed.
End W.
