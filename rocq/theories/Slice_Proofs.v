(** Elements with fields along their length and their parts. *)
From Coq Require Import Reals List String Bool NArith ZArith Arith Lia Lra.
From Verif Require Import SMap SMap_Proofs Dbl Config_Spec Mat Mat_Proofs Minv Minv_Proofs Machine_Model Machine_Spec Machine_Proofs
  Machine2_Proofs Linear_Model Linear_Spec Linear_Proofs Linear2_Proofs Linear3_Proofs.
From Verif Require Import Moment_Model Moment_Spec Motion_Spec Moment_Proofs Moment2_Proofs Moment3_Proofs Moment4_Proofs
  Moment5_Proofs Moment6_Proofs Motion_Proofs Motion2_Proofs Motion3_Proofs Motion4_Proofs Frame_Spec Frame_Proofs Area_Spec Area_Proofs Area2_Proofs Cut_Proofs Slice_Spec.
Import ListNotations.
Open Scope R_scope.
Open Scope string_scope.
Open Scope list_scope.

(** ** Lists *)
Lemma firstn_more {A} (l : list A) a b : firstn (a + b) l = firstn a l ++ firstn b (skipn a l).
Proof. revert l. induction a as [|a IH]; intros [|x l]; cbn; try reflexivity; [rewrite firstn_nil; reflexivity|]. rewrite IH. reflexivity. Qed.
Lemma skipn_more {A} (l : list A) a b : skipn (a + b) l = skipn b (skipn a l).
Proof. revert l. induction a as [|a IH]; intros [|x l]; cbn; try reflexivity; [rewrite skipn_nil; reflexivity|]. apply IH. Qed.
Lemma between {A} (l : list A) x k y : (x <= k <= y)%nat ->
  firstn (y - x) (skipn x l) = firstn (k - x) (skipn x l) ++ firstn (y - k) (skipn k l).
Proof.
  intros H. replace (y - x)%nat with ((k - x) + (y - k))%nat by lia. rewrite firstn_more. f_equal. f_equal.
  rewrite <- skipn_more. f_equal. lia.
Qed.
Lemma nth_error_same {A} : forall l l' : list A, List.length l = List.length l' ->
  (forall j a b, nth_error l j = Some a -> nth_error l' j = Some b -> a = b) -> l = l'.
Proof.
  induction l as [|a l IH]; intros [|b l'] L H; try discriminate L; [reflexivity|]. f_equal.
  - apply (H 0%nat); reflexivity.
  - apply IH; [cbn in L; lia|]. intros j. apply (H (S j)).
Qed.
Lemma range_piece c x y all l : range_of c x y -> curve_piece c all l -> (y <= List.length all)%nat /\ l = firstn (y - x) (skipn x all).
Proof.
  intros (a & b & E & T1 & T2). unfold curve_piece. rewrite E. intros (a' & b' & x' & y' & E' & U1 & U2 & L & ->).
  injection E' as <- <-. pose proof (truncates_unique _ _ _ T1 U1). pose proof (truncates_unique _ _ _ T2 U2).
  assert (x' = x) by lia. assert (y' = y) by lia. subst. split; [lia|reflexivity].
Qed.

Section P.
Variable w : world.
Notation num := (w_num w).
Notation at_ c n := (real_at num c n 0).
Variables ec ea eb : tcfg.
Hypothesis HP : parts w ec ea eb.
Ltac other := cbn; intuition discriminate.
Let SA n : ~ In n ["name"; "L"; "use_range"] -> tfind n ea = tfind n ec.
Proof. intros Hn. apply (proj1 (proj2 HP)), Hn. Qed.
Let SB n : ~ In n ["name"; "L"; "use_range"] -> tfind n eb = tfind n ec.
Proof. intros Hn. apply (proj1 (proj2 HP)), Hn. Qed.

Lemma numbered_other s k : s = "curve" \/ s = "scl_fac" -> ~ In (numbered s k) ["name"; "L"; "use_range"].
Proof. unfold numbered. intros [-> | ->]; other. Qed.
Lemma source_same c cv cv' k : (forall n, ~ In n ["name"; "L"; "use_range"] -> tfind n c = tfind n ec) -> curve_source w c cv -> curve_source w ec cv' ->
  vec_at cv (numbered "curve" k) = vec_at cv' (numbered "curve" k).
Proof.
  intros S. unfold curve_source, str_at. rewrite (S "CurveFile"), (S "Eng_Data_Dir") by other.
  destruct (tfind "CurveFile" ec) as [[x|l|t|l]|]; intros A B; try (subst; unfold vec_at; rewrite S by (apply numbered_other; auto); reflexivity).
  rewrite A in B. injection B as <-. reflexivity.
Qed.
Lemma fields_cut f fa fb l la lb x k y : (x < k < y)%nat -> range_of ea x k -> range_of eb k y ->
  (range_of ec x y \/ vec_at ec "use_range" = None /\ x = 0%nat /\
     forall cv all, curve_source w ec cv -> vec_at cv (numbered "curve" 0) = Some all -> List.length all = y) ->
  field w ec f l -> field w ea fa la -> field w eb fb lb ->
  l = la ++ lb /\ List.length la = (k - x)%nat /\ List.length lb = (y - k)%nat.
Proof.
  intros LT RA RB RC (n & Fn & HC) (na & Fna & HA) (nb & Fnb & HB).
  destruct HP as (_ & _ & _ & (n0 & N0 & U) & _).
  apply (same_flag w ec ea) in Fna; [|apply SA; other]. apply (same_flag w ec eb) in Fnb; [|apply SB; other].
  apply U in Fn, Fna, Fnb. subst n na nb.
  destruct (N.eqb_spec n0 0) as [?|_]; [contradiction|].
  destruct HC as (cv & cs & S1 & L1 & P1 & V1). destruct HA as (cva & csa & S2 & L2 & P2 & V2). destruct HB as (cvb & csb & S3 & L3 & P3 & V3).
  assert (PC : forall i, (i < N.to_nat n0)%nat -> exists xc xa xb, nth_error cs i = Some xc /\ nth_error csa i = Some xa /\ nth_error csb i = Some xb /\
    xc = xa ++ xb /\ List.length xa = (k - x)%nat /\ List.length xb = (y - k)%nat /\ List.length xc = List.length l /\ List.length xa = List.length la /\ List.length xb = List.length lb).
  { assert (LC : vec_at ec "use_range" = None -> x = 0%nat -> (forall cv all, curve_source w ec cv -> vec_at cv (numbered "curve" 0) = Some all -> List.length all = y) -> List.length l = y).
    { intros E0 X0 H. destruct (nth_ex cs 0 (N.to_nat n0) L1 ltac:(lia)) as [c0 Q]. destruct (P1 _ _ Q) as (all & A1 & A2 & A3).
      unfold curve_piece in A2. rewrite E0 in A2. subst c0. rewrite <- A3. exact (H _ _ S1 A1). }
    intros i Hi. destruct (nth_ex cs i _ L1 Hi) as [xc Qc]. destruct (nth_ex csa i _ L2 Hi) as [xa Qa]. destruct (nth_ex csb i _ L3 Hi) as [xb Qb].
    destruct (P1 _ _ Qc) as (all & A1 & A2 & A3). destruct (P2 _ _ Qa) as (all2 & B1 & B2 & B3). destruct (P3 _ _ Qb) as (all3 & C1 & C2 & C3).
    rewrite (source_same ea cva cv i SA S2 S1), A1 in B1. injection B1 as <-. rewrite (source_same eb cvb cv i SB S3 S1), A1 in C1. injection C1 as <-.
    destruct (range_piece _ _ _ _ _ RA B2) as [LA EA]. destruct (range_piece _ _ _ _ _ RB C2) as [LB EB].
    assert (EC : xc = firstn (y - x) (skipn x all)).
    { destruct RC as [R|(R1 & R2 & R3)]; [apply (range_piece _ _ _ _ _ R A2)|].
      specialize (LC R1 R2 R3). unfold curve_piece in A2. rewrite R1 in A2. subst xc x. cbn [skipn]. rewrite Nat.sub_0_r, <- LC, <- A3. symmetry. apply firstn_all. }
    exists xc, xa, xb. do 3 (split; [assumption|]). split; [rewrite EC, EA, EB; apply between; lia|].
    split; [rewrite EA, firstn_length, skipn_length; lia|]. split; [rewrite EB, firstn_length, skipn_length; lia|]. auto. }
  destruct (PC 0%nat ltac:(lia)) as (xc & xa & xb & _ & _ & _ & E & E1 & E2 & E3 & E4 & E5).
  assert (Lc : List.length l = (List.length la + List.length lb)%nat) by (rewrite <- E3, E, app_length; lia).
  split; [|lia].
  assert (SC : forall c i, (forall n, ~ In n ["name"; "L"; "use_range"] -> tfind n c = tfind n ec) -> at_ c (numbered "scl_fac" i) = at_ ec (numbered "scl_fac" i)).
  { intros c i S. apply same_find, S, numbered_other. auto. }
  apply nth_error_same; [rewrite app_length; lia|]. intros j b b' Hb Hb'. rewrite (V1 _ _ Hb).
  destruct (Nat.lt_ge_cases j (List.length la)) as [Hj|Hj].
  - rewrite nth_error_app1 in Hb' by lia. rewrite (V2 _ _ Hb'). apply sumn_ext. intros i Hi. rewrite (SC ea i SA).
    destruct (PC i Hi) as (yc & ya & yb & Q1 & Q2 & Q3 & Y & Y1 & Y2 & Y3 & Y4 & Y5).
    rewrite (nth_error_nth cs i [] Q1), (nth_error_nth csa i [] Q2), Y, app_nth1 by lia. reflexivity.
  - rewrite nth_error_app2 in Hb' by lia. rewrite (V3 _ _ Hb'). apply sumn_ext. intros i Hi. rewrite (SC eb i SB).
    destruct (PC i Hi) as (yc & ya & yb & Q1 & Q2 & Q3 & Y & Y1 & Y2 & Y3 & Y4 & Y5).
    rewrite (nth_error_nth cs i [] Q1), (nth_error_nth csb i [] Q3), Y, app_nth2, Y4 by lia. reflexivity.
Qed.
Lemma part_laid c : (forall n, ~ In n ["name"; "L"; "use_range"] -> tfind n c = tfind n ec) -> forall u v, laid num c u v -> laid num ec u v.
Proof. intros S u v. unfold laid. rewrite !(same_find ec c) by (apply S; other). auto. Qed.
Lemma part_facing c : (forall n, ~ In n ["name"; "L"; "use_range"] -> tfind n c = tfind n ec) -> facing num c.
Proof. intros S. assert (F := proj1 (proj2 (proj2 HP))). unfold facing in *. rewrite !(same_find ec c) by (apply S; other). auto. Qed.
Section Q.
Variables ref p : particle.
Hypotheses (MP : moving p) (HE : 0 < p_Es ref).
Definition within (c : tcfg) z1 z2 l : list leg := Via (framed num c z1 ref p) :: l ++ [Via (fun u v => framed num c z2 ref p v u)].
Lemma inside_out c z1 z2 l u v : facing num c -> passes (within c z1 z2 l) u v ->
  exists u1 v1, laid num c u u1 /\ passes l u1 v1 /\ laid num c v v1.
Proof.
  intros HI (u1 & R1 & P). apply passes_app in P as (v1 & P1 & (v2 & R2 & P2)). cbn [passes] in P2.
  apply (facing_framed _ _ _ _ MP HE _ _ _ HI) in R1. apply (facing_framed _ _ _ _ MP HE _ _ _ HI) in R2.
  exists u1, v1. split; [exact R1|]. split; [exact P1|]. unfold laid. cbv zeta in *.
  rewrite <- (P2 0%nat), <- (P2 1%nat), <- (P2 2%nat), <- (P2 3%nat), <- (P2 4%nat), <- (P2 5%nat), <- (P2 6%nat) by lia. exact R2.
Qed.
Lemma inside_cut z1 z2 z3 z4 z5 z6 l la lb : l = la ++ lb -> Forall steers la -> Forall steers lb ->
  forall u v z z', passes (within ea z1 z2 la) u v -> passes (within eb z3 z4 lb) v z -> passes (within ec z5 z6 l) u z' -> veq 7 z' z.
Proof.
  intros -> Fa Fb u v z z' Pa Pb Pc. destruct (fine_laid num ec) as [F1 F2].
  apply inside_out in Pa as (ua & va & A1 & A2 & A3); [|exact (part_facing ea SA)].
  apply inside_out in Pb as (ub & zb & B1 & B2 & B3); [|exact (part_facing eb SB)].
  apply inside_out in Pc as (uc & zc & C1 & C2 & C3); [|apply HP].
  apply (part_laid ea SA) in A1, A3. apply (part_laid eb SB) in B1, B3.
  apply passes_app in C2 as (m & C2 & C4).
  assert (E1 := passes_one la Fa _ _ _ _ (F1 _ _ _ C1 A1) C2 A2).
  assert (E2 : veq 7 m ub) by (rewrite E1; exact (F1 _ _ _ A3 B1)).
  exact (F2 _ _ _ _ C3 B3 (passes_one lb Fb _ _ _ _ E2 C4 B2)).
Qed.
Lemma stretches_cut A La Lb L la lb x k y : (x < k < y)%nat -> List.length la = (k - x)%nat -> List.length lb = (y - k)%nat ->
  La * INR (y - x) = L * INR (k - x) -> Lb * INR (y - x) = L * INR (y - k) ->
  stretches A (L * 1000) (la ++ lb) = stretches A (La * 1000) la ++ stretches A (Lb * 1000) lb.
Proof.
  intros LT E1 E2 Q1 Q2. unfold stretches. rewrite map_app, app_length, E1, E2.
  replace (k - x + (y - k))%nat with (y - x)%nat by lia.
  assert (N1 : INR (y - x) <> 0) by (apply not_0_INR; lia). assert (N2 : INR (k - x) <> 0) by (apply not_0_INR; lia). assert (N3 : INR (y - k) <> 0) by (apply not_0_INR; lia).
  replace (La * 1000 / INR (k - x)) with (L * 1000 / INR (y - x)).
  2: { apply (Rmult_eq_reg_r (INR (y - x) * INR (k - x))); [|apply Rmult_integral_contrapositive_currified; auto]. transitivity (L * INR (k - x) * 1000); [field; auto|]. rewrite <- Q1. field. auto. }
  replace (Lb * 1000 / INR (y - k)) with (L * 1000 / INR (y - x)).
  2: { apply (Rmult_eq_reg_r (INR (y - x) * INR (y - k))); [|apply Rmult_integral_contrapositive_currified; auto]. transitivity (L * INR (y - k) * 1000); [field; auto|]. rewrite <- Q2. field. auto. }
  reflexivity.
Qed.
Lemma part_kind c t t' : (forall n, ~ In n ["name"; "L"; "use_range"] -> tfind n c = tfind n ec) -> is_a t ec -> is_a t' c -> t = t'.
Proof. intros S A B. apply (same_is ec c) in B; [|apply S; other]. exact (is_a_inj _ _ _ A B). Qed.
Lemma parts_core legs la lb : course w ec ref p legs -> course w ea ref p la -> course w eb ref p lb ->
  forall u v z z', passes la u v -> passes lb v z -> passes legs u z' -> veq 7 z' z.
Proof.
  intros HC HA HB. destruct (proj2 (proj2 (proj2 (proj2 HP)))) as (x & k & y & LT & RA & RB & RC & Q1 & Q2). cbv beta in Q1, Q2.
  assert (HT := proj1 HP). apply Exists_exists in HT as (t & T1 & T2).
  assert (go : forall A f fa fb l l1 l2, field w ec f l -> field w ea fa l1 -> field w eb fb l2 -> forall z1 z2 z3 z4 z5 z6 u v z z',
    passes (within ea z1 z2 (stretches A (at_ ea "L" * 1000) l1)) u v -> passes (within eb z3 z4 (stretches A (at_ eb "L" * 1000) l2)) v z ->
    passes (within ec z5 z6 (stretches A (at_ ec "L" * 1000) l)) u z' -> veq 7 z' z).
  { intros A f fa fb l l1 l2 F1 F2 F3 z1 z2 z3 z4 z5 z6. destruct (fields_cut f fa fb l l1 l2 x k y LT RA RB RC F1 F2 F3) as (-> & E1 & E2).
    apply inside_cut; try apply stretches_steer. exact (stretches_cut A _ _ _ l1 l2 x k y LT E1 E2 Q1 Q2). }
  destruct HC as [K|K|l K F|l K F|l K F|K|fit K F|l M K F G]; try (destruct K as [K|K]);
    try (exfalso; rewrite (is_a_inj _ _ _ T2 K) in T1; clear - T1; cbn [In] in T1; intuition discriminate);
    (destruct HA as [K'|K'|l' K' F'|l' K' F'|l' K' F'|K'|fit' K' F'|l' M' K' F' G']; try (destruct K' as [K'|K']);
      try (discriminate (part_kind ea _ _ SA K K')));
    (destruct HB as [K2|K2|l2 K2 F2|l2 K2 F2|l2 K2 F2|K2|fit2 K2 F2|l2 M2 K2 F2 G2]; try (destruct K2 as [K2|K2]);
      try (discriminate (part_kind eb _ _ SB K K2))).
  - intros u v z z'. apply (go _ _ _ _ _ _ _ F F' F2).
  - intros u v z z'. apply (go (fun e => let k := 2 * e / (beta_of p * lightspeed) / rigidity p / 1000000 in coasting k (- k) p) _ _ _ _ _ _ F F' F2).
  - intros u v z z'. apply (go _ _ _ _ _ _ _ F F' F2).
Qed.
End Q.
Lemma part_proper c : (forall n, ~ In n ["name"; "L"; "use_range"] -> tfind n c = tfind n ec) -> proper_magnet num ec -> proper_magnet num c.
Proof.
  intros S [_ P2]. split.
  - intros K. exfalso. apply (same_is ec c) in K; [|apply S; other]. assert (HT := proj1 HP). apply Exists_exists in HT as (t & T1 & T2).
    rewrite (is_a_inj _ _ _ T2 K) in T1. clear - T1. cbn [In] in T1. intuition discriminate.
  - intros K. apply (same_is ec c) in K; [|apply S; other]. rewrite (same_find ec c) by (apply S; other). auto.
Qed.
Lemma parts_split : splits w ec ea eb.
Proof.
  split; [|split; [apply SA; other|split; [apply SB; other|split; [|split; [exact (part_facing ea SA)|]]]]].
  - assert (HT := proj1 HP). apply Exists_exists in HT as (t & T1 & T2). apply Exists_exists. exists t. split; [cbn [In] in *; tauto|exact T2].
  - destruct (proj2 (proj2 (proj2 (proj2 HP)))) as (x & k & y & LT & RA & RB & RC & Q1 & Q2). cbv beta in Q1, Q2.
    assert (N1 : INR (y - x) <> 0) by (apply not_0_INR; lia). apply (Rmult_eq_reg_r (INR (y - x))); [|exact N1].
    rewrite Rmult_plus_distr_r, Q1, Q2, <- Rmult_plus_distr_l, <- plus_INR. do 2 f_equal. lia.
  - intros ref p MP HE. exact (parts_core ref p MP HE).
Qed.
Theorem moment_parts s f f1 f2 : sane w -> proper_magnet num ec ->
  moving (ms_ref s) -> Forall moving (ms_real s) ->
  goes_through w ec s f -> goes_through w ea s f1 -> goes_through w eb f1 f2 ->
  same_beam f f2 /\
  forall j T Ta Tb, nth_error (ms_tm f) j = Some T -> nth_error (ms_tm f1) j = Some Ta -> nth_error (ms_tm f2) j = Some Tb ->
    meq 7 T (mmul 7 Tb Ta).
Proof. intros W PM. apply moment_splits; [exact W|exact parts_split|exact PM|exact (part_proper ea SA PM)|exact (part_proper eb SB PM)]. Qed.
End P.
