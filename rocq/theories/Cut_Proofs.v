(** An element and its two halves. *)
From Coq Require Import Reals List String Bool NArith ZArith Arith Lia Lra.
From Verif Require Import SMap SMap_Proofs Dbl Config_Spec Mat Mat_Proofs Minv Minv_Proofs Machine_Model Machine_Spec Machine_Proofs
  Machine2_Proofs Linear_Model Linear_Spec Linear_Proofs Linear2_Proofs Linear3_Proofs.
From Verif Require Import Moment_Model Moment_Spec Motion_Spec Moment_Proofs Moment2_Proofs Moment3_Proofs Moment4_Proofs
  Moment5_Proofs Moment6_Proofs Motion_Proofs Motion2_Proofs Motion3_Proofs Motion4_Proofs Frame_Spec Frame_Proofs Area_Spec Area_Proofs Area2_Proofs Flag_Proofs.
Import ListNotations.
Open Scope R_scope.
Open Scope string_scope.
Open Scope list_scope.

(** ** Flags *)
Lemma deq_zero_pos n x : deq (d_of_Z 0) x = true -> deq (d_of_Z (Zpos n)) x = true -> False.
Proof.
  change (d_of_Z 0) with (SpecFloat.S754_zero false). intros A B.
  destruct x as [s|s| |s m e]; try (destruct s; discriminate A); try discriminate A.
  assert (N := integer_not_zero n). destruct (d_of_Z (Z.pos n)) as [t|t| |t m e]; [apply (N t); reflexivity|..]; try destruct t; destruct s; discriminate B.
Qed.
Lemma flag_zero w c n d a b : flagged w c n d a -> flagged w c n d b -> N.eqb a 0 = N.eqb b 0.
Proof.
  unfold flagged. cbv zeta.
  assert (K : forall x, deq (d_of_Z (Z.of_N a)) x = true -> deq (d_of_Z (Z.of_N b)) x = true -> N.eqb a 0 = N.eqb b 0).
  { intros x A B. destruct a as [|a], b as [|b]; try reflexivity; exfalso; cbn [Z.of_N] in *.
    - exact (deq_zero_pos b x A B). - exact (deq_zero_pos a x B A). }
  destruct (tfind n c) as [[x|l|t|l]|]; try (intros -> ->; reflexivity); [apply K|].
  destruct (w_lexd w t) as [x|]; [apply K|intros -> ->; reflexivity].
Qed.
Lemma field_uniform w c f l : flagged w c "ncurve" 0 0 -> field w c f l -> l = [f].
Proof.
  intros F (n & Hn & H). assert (E := flag_zero w c "ncurve" 0 0 n F Hn). destruct (N.eqb n 0); [exact H|discriminate].
Qed.

(** ** One stretch between two edges *)
Definition core (A : mat) (h a1 a2 L : R) : list leg := [Via (edge h a1); Along A L; Via (edge h a2)].
(** Seen in some frame. *)
Definition like (F : vec -> vec -> Prop) (l : list leg) (A : mat) (h a1 a2 L : R) : Prop := forall u v, passes l u v ->
  exists u1 v1, F u u1 /\ passes (core A h a1 a2 L) u1 v1 /\ F v v1.
Definition fine (F : vec -> vec -> Prop) : Prop :=
  (forall u v v', F u v -> F u v' -> veq 7 v v') /\ (forall u u' v v', F u v -> F u' v' -> veq 7 v v' -> veq 7 u u').
Lemma fine_veq : fine (veq 7).
Proof. split; [intros u v v' A B; rewrite <- A; exact B|intros u u' v v' A B C; rewrite A, B; exact C]. Qed.
Lemma edge_none a h u : h = 0 \/ a = 0 -> edge h a u u.
Proof.
  intros H i Hi. assert (E : h * tan a = 0) by (destruct H as [-> | ->]; [ring|rewrite tan_0; ring]). idx7 i Hi; rewrite ?E; ring.
Qed.
Lemma edge_veq h a u u' v : veq 7 u u' -> edge h a u v -> edge h a u' v.
Proof.
  intros E H i Hi. rewrite (H i Hi). idx7 i Hi; rewrite <- ?(E 0%nat), <- ?(E 1%nat), <- ?(E 2%nat), <- ?(E 3%nat), <- ?(E 4%nat), <- ?(E 5%nat), <- ?(E 6%nat) by lia; reflexivity.
Qed.
Lemma edge_same a h u v : h = 0 \/ a = 0 -> edge h a u v -> veq 7 u v.
Proof.
  intros H E i Hi. rewrite (E i Hi). symmetry. assert (Z : h * tan a = 0) by (destruct H as [-> | ->]; [ring|rewrite tan_0; ring]). idx7 i Hi; rewrite ?Z; ring.
Qed.
Lemma core_one A h a1 a2 L u v v' : passes (core A h a1 a2 L) u v -> passes (core A h a1 a2 L) u v' -> veq 7 v v'.
Proof.
  apply passes_one; [|reflexivity]. constructor; [unfold edge; cbn [steers]; coords|]. constructor; [exact I|].
  constructor; [unfold edge; cbn [steers]; coords|constructor].
Qed.
Lemma core_cut A h a1 a2 L1 L2 u v z : passes (core A h a1 0 L1) u v -> passes (core A h 0 a2 L2) v z ->
  passes (core A h a1 a2 (L1 + L2)) u z.
Proof.
  intros (u1 & E1 & x & u2 & M1 & X0 & X1 & u3 & E2 & P1) (v1 & E3 & y & v2 & M2 & Y0 & Y1 & v3 & E4 & P2). cbn [passes] in *.
  apply edge_same in E2; [|auto]. apply edge_same in E3; [|auto].
  exists u1. split; [exact E1|]. exists x, v2. split; [exact M1|]. split; [exact X0|]. split; [|exists v3; auto].
  rewrite <- Y1. pose proof (motion_unique 7 A _ _ (moves_shift A x L1 M1) M2) as U. cbv beta in U. rewrite Rplus_0_l in U.
  rewrite (Rplus_comm L1 L2). apply U. rewrite X1, E2, P1, E3. symmetry. exact Y0.
Qed.
Lemma along_core A L : like (veq 7) [Along A L] A 0 0 0 L.
Proof.
  intros u v (x & u1 & M & S0 & S1 & P). cbn [passes] in P. exists u, v. split; [reflexivity|]. split; [|reflexivity]. exists u. split; [apply edge_none; auto|].
  exists x, v. split; auto. split; auto. split; [rewrite S1; exact P|]. exists v. split; [apply edge_none; auto|]. cbn [passes]. reflexivity.
Qed.
Lemma passes_app l1 l2 : forall u v, passes (l1 ++ l2) u v -> exists z, passes l1 u z /\ passes l2 z v.
Proof.
  induction l1 as [|g l1 IH]; intros u v H.
  - exists u. split; [cbn [passes]; reflexivity|exact H].
  - destruct g as [A len|r]; cbn [app passes] in *.
    + destruct H as (x & u1 & M & S0 & S1 & P). apply IH in P as (z & P1 & P2). exists z. split; [|exact P2]. exists x, u1. auto.
    + destruct H as (u1 & R1 & P). apply IH in P as (z & P1 & P2). exists z. split; [|exact P2]. exists u1. auto.
Qed.
Definition laid (num : double -> R) (c : tcfg) (u v : vec) : Prop :=
  let a := real_at num c "roll" 0 in let x := u 0%nat - real_at num c "dx" 0 * 1000 in let y := u 2%nat - real_at num c "dy" 0 * 1000 in
  v 0%nat = cos a * x + sin a * y /\ v 2%nat = - sin a * x + cos a * y /\
  v 1%nat = cos a * u 1%nat + sin a * u 3%nat /\ v 3%nat = - sin a * u 1%nat + cos a * u 3%nat /\
  v 4%nat = u 4%nat /\ v 5%nat = u 5%nat /\ v 6%nat = u 6%nat.
Lemma fine_laid num c : fine (laid num c).
Proof.
  split.
  - intros u v v' (A0 & A2 & A1 & A3 & A4 & A5 & A6) (B0 & B2 & B1 & B3 & B4 & B5 & B6). intros i Hi. idx7 i Hi; congruence.
  - intros u u' v v' (A0 & A2 & A1 & A3 & A4 & A5 & A6) (B0 & B2 & B1 & B3 & B4 & B5 & B6) E.
    pose proof (E 0%nat ltac:(lia)) as E0. pose proof (E 1%nat ltac:(lia)) as E1. pose proof (E 2%nat ltac:(lia)) as E2. pose proof (E 3%nat ltac:(lia)) as E3.
    pose proof (E 4%nat ltac:(lia)) as E4. pose proof (E 5%nat ltac:(lia)) as E5. pose proof (E 6%nat ltac:(lia)) as E6.
    rewrite A0, B0 in E0. rewrite A2, B2 in E2. rewrite A1, B1 in E1. rewrite A3, B3 in E3.
    destruct (rot2 _ _ _ _ _ E0 E2). destruct (rot2 _ _ _ _ _ E1 E3). intros i Hi. idx7 i Hi; try lra; congruence.
Qed.
Lemma self_core A h a1 a2 L : like (veq 7) (core A h a1 a2 L) A h a1 a2 L.
Proof. intros u v P. exists u, v. split; [reflexivity|]. split; [exact P|reflexivity]. Qed.
Lemma core_veq A h a1 a2 L u u' v : veq 7 u u' -> passes (core A h a1 a2 L) u v -> passes (core A h a1 a2 L) u' v.
Proof. intros E (x & E1 & P). exists x. split; [exact (edge_veq _ _ _ _ _ E E1)|exact P]. Qed.
Lemma like_cut F lc la lb A h a1 a2 L1 L2 : fine F -> like F lc A h a1 a2 (L1 + L2) -> like F la A h a1 0 L1 -> like F lb A h 0 a2 L2 ->
  forall u v z z', passes la u v -> passes lb v z -> passes lc u z' -> veq 7 z' z.
Proof.
  intros [F1 F2] HC HA HB u v z z' Pa Pb Pc. apply HA in Pa as (u1 & v1 & X1 & Pa & X2). apply HB in Pb as (v2 & z2 & Y1 & Pb & Y2).
  apply HC in Pc as (u3 & z3 & Z1 & Pc & Z2).
  apply (core_veq _ _ _ _ _ _ _ _ (F1 _ _ _ Y1 X2)) in Pb. apply (core_veq _ _ _ _ _ _ _ _ (F1 _ _ _ Z1 X1)) in Pc.
  apply (F2 _ _ _ _ Z2 Y2). exact (core_one _ _ _ _ _ _ _ _ Pc (core_cut _ _ _ _ _ _ _ _ _ Pa Pb)).
Qed.
Section Place.
Variables (w : world) (c : tcfg) (ref p : particle).
Hypotheses (HP : moving p) (HE : 0 < p_Es ref) (HI : facing (w_num w) c).
Lemma inside_core l A h a1 a2 L z1 z2 : like (veq 7) l A h a1 a2 L ->
  like (laid (w_num w) c) (Via (framed (w_num w) c z1 ref p) :: l ++ [Via (fun u v => framed (w_num w) c z2 ref p v u)]) A h a1 a2 L.
Proof.
  intros HL u v (u1 & R1 & P). apply passes_app in P as (v1 & P1 & (v2 & R2 & P2)). cbn [passes] in P2.
  apply (facing_framed _ _ _ _ HP HE _ _ _ HI) in R1. apply (facing_framed _ _ _ _ HP HE _ _ _ HI) in R2. apply HL in P1 as (x1 & y1 & E1 & P1 & E2).
  exists x1, y1. split; [|split; [exact P1|]].
  - unfold laid. cbv zeta in *. rewrite <- (E1 0%nat), <- (E1 1%nat), <- (E1 2%nat), <- (E1 3%nat), <- (E1 4%nat), <- (E1 5%nat), <- (E1 6%nat) by lia. exact R1.
  - unfold laid. cbv zeta in *. rewrite <- (P2 0%nat), <- (P2 1%nat), <- (P2 2%nat), <- (P2 3%nat), <- (P2 4%nat), <- (P2 5%nat), <- (P2 6%nat) by lia.
    rewrite <- (E2 0%nat), <- (E2 1%nat), <- (E2 2%nat), <- (E2 3%nat), <- (E2 4%nat), <- (E2 5%nat), <- (E2 6%nat) by lia. exact R2.
Qed.
End Place.
Lemma stretch_core A L f : like (veq 7) (stretches A L [f]) (A f) 0 0 0 L.
Proof. unfold stretches. cbn [map List.length]. replace (L / INR 1) with L by (cbn; field). apply along_core. Qed.

(** ** What halves have in common *)
Lemma same_find c c' n num : tfind n c' = tfind n c -> forall d, real_at num c' n d = real_at num c n d.
Proof. intros E d. unfold real_at, num_at. rewrite E. reflexivity. Qed.
Lemma same_flag w c c' n : tfind n c' = tfind n c -> forall d k, flagged w c' n d k <-> flagged w c n d k.
Proof. intros E d k. unfold flagged. rewrite E. reflexivity. Qed.
Lemma same_is c c' t : tfind "type" c' = tfind "type" c -> is_a t c' <-> is_a t c.
Proof. intros E. unfold is_a. rewrite E. reflexivity. Qed.
Section Halves.
Variables (w : world) (ref p : particle).
Hypotheses (HP : moving p) (HE : 0 < p_Es ref).
Notation num := (w_num w).
Notation at_ c n := (real_at num c n 0).
Section Common.
Variables (c c' : tcfg).
Hypotheses (HS : forall n, ~ In n ["name"; "L"; "phi"; "phi1"; "phi2"] -> tfind n c' = tfind n c).
Lemma half_place : facing num c -> facing num c'.
Proof. unfold facing. rewrite !(same_find c c') by (apply HS; cbn; intuition discriminate). auto. Qed.
Lemma half_laid u v : laid num c' u v -> laid num c u v.
Proof. unfold laid. rewrite !(same_find c c') by (apply HS; cbn; intuition discriminate). auto. Qed.
Lemma half_like l A h a1 a2 L : like (laid num c') l A h a1 a2 L -> like (laid num c) l A h a1 a2 L.
Proof. intros H u v P. destruct (H u v P) as (u1 & v1 & X1 & X2 & X3). exists u1, v1. auto using half_laid. Qed.
Lemma half_flag n d k : ~ In n ["name"; "L"; "phi"; "phi1"; "phi2"] -> flagged w c n d k <-> flagged w c' n d k.
Proof. intros Hn. symmetry. apply same_flag, HS, Hn. Qed.
Lemma half_kind t t' : is_a t c -> is_a t' c' -> t = t'.
Proof.
  intros A B. apply (same_is c c') in B; [|apply HS; cbn; intuition discriminate]. exact (is_a_inj _ _ _ A B).
Qed.
Lemma half_at n d : ~ In n ["name"; "L"; "phi"; "phi1"; "phi2"] -> real_at num c' n d = real_at num c n d.
Proof. intros Hn. apply same_find, HS, Hn. Qed.
End Common.
Ltac other := cbn; intuition discriminate.
Lemma course_core c legs : Exists (fun t => is_a t c) ["drift"; "quadrupole"; "equad"; "solenoid"] -> facing num c -> flagged w c "ncurve" 0 0 ->
  course w c ref p legs ->
  exists F A, fine F /\ like F legs A 0 0 0 (at_ c "L" * 1000) /\
  forall c', (forall n, ~ In n ["name"; "L"; "phi"; "phi1"; "phi2"] -> tfind n c' = tfind n c) -> forall legs', course w c' ref p legs' ->
    like F legs' A 0 0 0 (at_ c' "L" * 1000).
Proof.
  intros HT HI HF H.
  assert (NB : ~ is_a "marker" c /\ ~ is_a "bpm" c /\ ~ is_a "orbtrim" c /\ ~ is_a "sbend" c /\ ~ is_a "tmatrix" c).
  { apply Exists_exists in HT as (t & T1 & T2). repeat split; intros X; rewrite (is_a_inj _ _ _ T2 X) in T1; cbn [In] in T1; intuition discriminate. }
  destruct H as [K|K|l K F|l K F|l K F|K|fit K F|l M K F G]; try tauto.
  - exists (veq 7), (coasting 0 0 p). split; [apply fine_veq|]. split; [apply along_core|]. intros c' HS legs' H'.
    destruct H' as [K'|K'|l' K' F'|l' K' F'|l' K' F'|K'|fit' K' F'|l' M' K' F' G']; try (destruct K' as [K'|K']);
      pose proof (half_kind c c' HS _ _ K K') as X; try discriminate X. apply along_core.
  - apply field_uniform in F; [|exact HF]. subst l. exists (laid num c). eexists. split; [apply fine_laid|]. split; [apply inside_core; auto; apply stretch_core|]. intros c' HS legs' H'.
    destruct H' as [K'|K'|l' K' F'|l' K' F'|l' K' F'|K'|fit' K' F'|l' M' K' F' G']; try (destruct K' as [K'|K']);
      pose proof (half_kind c c' HS _ _ K K') as X; try discriminate X.
    apply field_uniform in F'; [|apply (half_flag c c' HS); [other|exact HF]]. subst l'. rewrite (half_at c c' HS "B2") by other.
    apply (half_like c c' HS). apply inside_core; auto; [apply (half_place c c' HS HI)|]. apply stretch_core.
  - apply field_uniform in F; [|exact HF]. subst l.
    exists (laid num c). exists (let e := at_ c "V" / (at_ c "radius" * at_ c "radius") in coasting (2 * e / (beta_of p * lightspeed) / rigidity p / 1000000) (- (2 * e / (beta_of p * lightspeed) / rigidity p / 1000000)) p).
    split; [apply fine_laid|]. split; [apply inside_core; auto; apply (stretch_core (fun e => coasting (2 * e / (beta_of p * lightspeed) / rigidity p / 1000000) (- (2 * e / (beta_of p * lightspeed) / rigidity p / 1000000)) p))|].
    intros c' HS legs' H'.
    destruct H' as [K'|K'|l' K' F'|l' K' F'|l' K' F'|K'|fit' K' F'|l' M' K' F' G']; try (destruct K' as [K'|K']);
      pose proof (half_kind c c' HS _ _ K K') as X; try discriminate X.
    apply field_uniform in F'; [|apply (half_flag c c' HS); [other|exact HF]]. subst l'. rewrite (half_at c c' HS "V"), (half_at c c' HS "radius") by other.
    apply (half_like c c' HS). apply inside_core; auto; [apply (half_place c c' HS HI)|].
    apply (stretch_core (fun e => coasting (2 * e / (beta_of p * lightspeed) / rigidity p / 1000000) (- (2 * e / (beta_of p * lightspeed) / rigidity p / 1000000)) p)).
  - apply field_uniform in F; [|exact HF]. subst l. exists (laid num c). eexists. split; [apply fine_laid|]. split; [apply inside_core; auto; apply stretch_core|]. intros c' HS legs' H'.
    destruct H' as [K'|K'|l' K' F'|l' K' F'|l' K' F'|K'|fit' K' F'|l' M' K' F' G']; try (destruct K' as [K'|K']);
      pose proof (half_kind c c' HS _ _ K K') as X; try discriminate X.
    apply field_uniform in F'; [|apply (half_flag c c' HS); [other|exact HF]]. subst l'. rewrite (half_at c c' HS "B") by other.
    apply (half_like c c' HS). apply inside_core; auto; [apply (half_place c c' HS HI)|]. apply stretch_core.
Qed.
Lemma bend_core c legs : is_a "sbend" c -> facing num c -> at_ c "L" <> 0 -> course w c ref p legs ->
  exists F A h, fine F /\ like F legs A h (angle_of w c "phi1") (angle_of w c "phi2") (at_ c "L" * 1000) /\
  forall c', (forall n, ~ In n ["name"; "L"; "phi"; "phi1"; "phi2"] -> tfind n c' = tfind n c) ->
    at_ c' "L" <> 0 -> at_ c' "phi" * at_ c "L" = at_ c "phi" * at_ c' "L" -> forall legs', course w c' ref p legs' ->
    like F legs' A h (angle_of w c' "phi1") (angle_of w c' "phi2") (at_ c' "L" * 1000).
Proof.
  intros HT HI HL H.
  destruct H as [K|K|l K F|l K F|l K F|K|fit K F|l M K F G]; try (destruct K as [K|K]); try (discriminate (is_a_inj _ _ _ HT K)).
  destruct (Req_EM_T (at_ c "L" * 1000) 0) as [Z|_]; [lra|].
  eexists _, _, _. split; [apply (fine_laid num c)|]. split; [apply inside_core; auto; apply self_core|].
  intros c' HS HL' HPhi legs' H'.
  assert (EH : angle_of w c' "phi" / (at_ c' "L" * 1000) = angle_of w c "phi" / (at_ c "L" * 1000)).
  { unfold angle_of. apply (Rmult_eq_reg_r (at_ c' "L" * at_ c "L")); [|apply Rmult_integral_contrapositive_currified; auto].
    transitivity (at_ c' "phi" * at_ c "L" * (PI / 180 / 1000)); [field; auto|]. rewrite HPhi. field. auto. }
  destruct H' as [K'|K'|l' K' F'|l' K' F'|l' K' F'|K'|fit' K' F'|l' M' K' F' G']; try (destruct K' as [K'|K']); try (discriminate (half_kind c c' HS _ _ K K')).
  destruct (Req_EM_T (at_ c' "L" * 1000) 0) as [Z|_]; [lra|].
  assert (FF : N.eqb fit 0 = N.eqb fit' 0).
  { apply (flag_zero w c "HdipoleFitMode" 1); [exact F|]. apply (half_flag c c' HS); [other|exact F']. }
  rewrite <- FF. rewrite (half_at c c' HS "bg") by other.
  apply (half_like c c' HS). apply inside_core; auto; [apply (half_place c c' HS HI)|].
  unfold sector. rewrite EH. rewrite (half_at c c' HS "K") by other. apply self_core.
Qed.
Lemma halves_core ec ea eb legs la lb : halves w ec ea eb -> course w ec ref p legs -> course w ea ref p la -> course w eb ref p lb ->
  forall u v z z', passes la u v -> passes lb v z -> passes legs u z' -> veq 7 z' z.
Proof.
  intros (HT & HS & HL & HI & HF & HB) HC HA HBc u v z z' Pa Pb Pc.
  assert (SA : forall n, ~ In n ["name"; "L"; "phi"; "phi1"; "phi2"] -> tfind n ea = tfind n ec) by (intros n Hn; apply HS, Hn).
  assert (SB : forall n, ~ In n ["name"; "L"; "phi"; "phi1"; "phi2"] -> tfind n eb = tfind n ec) by (intros n Hn; apply HS, Hn).
  assert (EL : at_ ec "L" * 1000 = at_ ea "L" * 1000 + at_ eb "L" * 1000) by (rewrite HL; ring).
  assert (D : is_a "sbend" ec \/ Exists (fun t => is_a t ec) ["drift"; "quadrupole"; "equad"; "solenoid"]).
  { apply Exists_exists in HT as (t & T1 & T2). destruct (string_dec t "sbend") as [->|N]; [auto|]. right.
    apply Exists_exists. exists t. split; [|exact T2]. cbn [In] in *. intuition congruence. }
  destruct D as [D|D].
  - destruct (HB D) as (L0 & L1 & L2 & P1 & P2 & Q1 & Q2 & Q3 & Q4).
    destruct (bend_core ec legs D HI L0 HC) as (F & A & h & FF & C1 & C2).
    assert (CA := C2 ea SA L1 P1 la HA). assert (CB := C2 eb SB L2 P2 lb HBc).
    unfold angle_of in CA, CB, C1. rewrite Q1, Q2 in CA. rewrite Q3, Q4 in CB. replace (0 * PI / 180) with 0 in * by lra.
    rewrite EL in C1. exact (like_cut F _ _ _ _ _ _ _ _ _ FF C1 CA CB u v z z' Pa Pb Pc).
  - destruct (course_core ec legs D HI HF HC) as (F & A & FF & C1 & C2).
    assert (CA := C2 ea SA la HA). assert (CB := C2 eb SB lb HBc).
    rewrite EL in C1. exact (like_cut F _ _ _ _ _ _ _ _ _ FF C1 CA CB u v z z' Pa Pb Pc).
Qed.
End Halves.

(** ** The machine *)
Ltac other := clear; cbn; intuition discriminate.
Section Moment.
Variable w : world.
Notation num := (w_num w).
Lemma half_described ec ea eb : halves w ec ea eb -> described ec /\ described ea /\ described eb.
Proof.
  intros (HT & HS & _). apply Exists_exists in HT as (t & T1 & T2).
  assert (T3 : In t ["marker"; "bpm"; "drift"; "quadrupole"; "equad"; "solenoid"; "orbtrim"; "sbend"; "tmatrix"]) by (cbn [In] in *; tauto).
  destruct (HS "type") as [S1 S2]; [cbn; intuition discriminate|].
  repeat split; apply Exists_exists; exists t; (split; [exact T3|]); unfold is_a in *; congruence.
Qed.
Lemma half_proper ec ea eb : halves w ec ea eb -> proper_magnet num ec -> proper_magnet num ea /\ proper_magnet num eb.
Proof.
  intros (HT & HS & HL & HI & HF & HB) [P1 P2].
  assert (K : forall c', (forall n, ~ In n ["name"; "L"; "phi"; "phi1"; "phi2"] -> tfind n c' = tfind n ec) ->
    (is_a "sbend" ec -> real_at num c' "L" 0 <> 0 /\ real_at num c' "phi" 0 * real_at num ec "L" 0 = real_at num ec "phi" 0 * real_at num c' "L" 0 /\ real_at num ec "L" 0 <> 0) ->
    proper_magnet num c').
  { intros c' S B. split.
    - intros K L0 h. apply (same_is ec c') in K; [|apply S; cbn; intuition discriminate]. destruct (B K) as (L1 & E & L2).
      specialize (P1 K). cbv zeta in P1. destruct P1 as (Q1 & Q2 & Q3); [lra|].
      assert (E2 : h = real_at num ec "phi" 0 * PI / 180 / (real_at num ec "L" 0 * 1000)).
      { unfold h. apply (Rmult_eq_reg_r (real_at num c' "L" 0 * real_at num ec "L" 0)); [|apply Rmult_integral_contrapositive_currified; auto].
        transitivity (real_at num c' "phi" 0 * real_at num ec "L" 0 * (PI / 180 / 1000)); [field; auto|]. rewrite E. field. auto. }
      rewrite E2. rewrite !(same_find ec c' "K"), !(same_find ec c' "bg") by (apply S; cbn; intuition discriminate).
      split; [|split; assumption]. intros Z. rewrite Z, Rmult_0_l in E. symmetry in E. apply Rmult_integral in E. tauto.
    - intros K. apply (same_is ec c') in K; [|apply S; cbn; intuition discriminate].
      rewrite (same_find ec c') by (apply S; cbn; intuition discriminate). auto. }
  split; apply K; try (intros n Hn; apply HS, Hn); intros D; destruct (HB D) as (L0 & L1 & L2 & B1 & B2 & _); auto.
Qed.
Lemma later_moving p p' x : later p p' x -> moving p -> moving p'.
Proof.
  destruct p, p'. intros ((Z & _ & E & F) & K & _) (A & B). unfold moving in *. cbn in *. subst. auto.
Qed.
Lemma later_wave p p' x : later p p' x -> wavenumber p' = wavenumber p.
Proof. destruct p, p'. intros ((Z & _ & E & F) & K & _). cbn in *. subst. reflexivity. Qed.
Lemma course_same ref p ref' p' x y c legs : later ref ref' x -> later p p' y -> course w c ref' p' legs -> course w c ref p legs.
Proof.
  intros ((A1 & A2 & A3 & A4) & A5 & _) ((B1 & B2 & B3 & B4) & B5 & _) H.
  destruct ref, p, ref', p'. cbn in *. subst.
  destruct H as [K|K|l K F|l K F|l K F|K|fit K F|l M K F G].
  - exact (c_none w c _ _ K).
  - exact (c_drift w c _ _ K).
  - exact (c_quad w c _ _ l K F).
  - exact (c_equad w c _ _ l K F).
  - exact (c_sol w c _ _ l K F).
  - exact (c_trim w c _ _ K).
  - exact (c_bend w c _ _ fit K F).
  - exact (c_given w c _ _ l M K F G).
Qed.
Lemma sbend_length c d0 b s d s' : fresh d0 -> md_tm d0 = [] -> aligned s -> advance_sbend w c d0 b s = (d, Ok s') ->
  List.length (ms_real s') = List.length (ms_real s).
Proof.
  intros F T0 A. rewrite sbend_eq by (apply fresh_miss; auto). cbv zeta. set (s1 := ms_recalc s).
  destruct (recompute w KSBend c (note_input d0 s1) s1) as [tm [e|]] eqn:RC; [discriminate|].
  intros H. apply pair_eq in H as [_ H].
  unfold finish_sbend in H. apply rbind_ok in H as (X & HX & H). apply rbind_ok in H as ([[m0 m1] tm'] & HT & H).
  apply rbind_ok in H as (real' & HR & H).
  apply calc_keeps in H as (K1 & K2 & K3 & K4 & K5 & K6). cbn [ms_pos ms_ref ms_real ms_m0 ms_m1 ms_tm] in *.
  rewrite K3. apply over_length in HR. rewrite HR. unfold s1, ms_recalc. cbn [ms_real]. apply map_length.
Qed.
Lemma guided_length c m es us i ec st p f : sane w ->
  new_machine (moment_reg w) c = Ok m -> tfind "elements" c = Some (TCfgs es) ->
  Forall strips_to_some es -> smooth (fun r s => r = false /\ aligned s) strips_to_some m us ->
  nth_error (entries m es us) i = Some ec -> described ec ->
  aligned (st_body st) ->
  propagate (uses m us) st (N.of_nat i) 1 = Some p -> pr_end p = Ok f ->
  List.length (ms_real (st_body f)) = List.length (ms_real (st_body st)).
Proof.
  intros W Hm He HQ HS Hi HD A HP Hf.
  destruct (one_step w false c m es us i ec st p 1 W Hm He HQ HS Hi A eq_refl HP) as (k & d0 & Hk & HC & HE).
  rewrite Hf in HE. symmetry in HE. apply rbind_ok in HE as (s' & HA & HE). injection HE as <-. cbn [st_body].
  destruct (ctor_data w _ _ _ HC) as (C1 & C2 & C3). assert (F := ctor_fresh w _ _ _ HC).
  assert (HK := described_kind _ _ Hk HD).
  destruct (advance_of w k ec d0 false (st_body st)) as [d' r] eqn:EA. cbn [snd] in HA. subst r.
  assert (B : k = KSBend \/ advance_base w k ec d0 false (st_body st) = (d', Ok s')).
  { cbn [In] in HK. decompose [or] HK; try contradiction; subst k; auto. }
  destruct B as [->|B].
  - cbn [advance_of] in EA. exact (sbend_length ec d0 false _ d' s' F C1 A EA).
  - destruct (base_does w k ec d0 false _ d' s' F C1 A B) as (g & G1 & _ & _ & E & G2). rewrite E. apply map_length.
Qed.
Lemma smooth_weak {D B} (J J' : bool -> B -> Prop) (Q : tcfg -> Prop) : (forall r s, J r s -> J' r s) ->
  forall us (m : machine D B), smooth J Q m us -> smooth J' Q m us.
Proof.
  intros H us. induction us as [|u us IH]; intros m; simpl; auto. intros [H1 H2]. split; [|auto].
  destruct u; simpl in *; auto. destruct H1; auto.
Qed.
Lemma passes_unit c ref p legs T : moving p -> 0 < p_Es ref -> ~ is_a "tmatrix" c -> facing num c -> course w c ref p legs ->
  (forall u, unit_last u -> passes legs u (mapp 7 T u)) -> forall u, unit_last u -> unit_last (mapp 7 T u).
Proof.
  intros HP HE HN HF HC P u U.
  assert (X := passes_inv 0 true legs (course_flat w c ref p legs HP HE HN HF HC) 0 u u u _ _ _ (P u U) (P u U) (P u U)).
  apply X. split; [exact U|]. split; [exact U|]. split; [exact U|]. split; [auto|]. unfold area. cbv zeta. ring.
Qed.
(** All there is to know of one step. *)
Definition pass (ec : tcfg) (l : R) (s s' : mstate) : Prop :=
  aligned s' /\ List.length (ms_real s') = List.length (ms_real s) /\ ms_pos s' = ms_pos s + l /\
  later (ms_ref s) (ms_ref s') (wavenumber (ms_ref s) * (l * 1000)) /\
  forall j q v S, nth_error (ms_real s) j = Some q -> nth_error (ms_m0 s) j = Some v -> nth_error (ms_m1 s) j = Some S ->
  exists q' T v' S' legs,
    nth_error (ms_real s') j = Some q' /\ nth_error (ms_tm s') j = Some T /\ nth_error (ms_m0 s') j = Some v' /\ nth_error (ms_m1 s') j = Some S' /\
    transported T v S v' S' /\ course w ec (ms_ref s) q legs /\ (forall u, unit_last u -> passes legs u (mapp 7 T u)) /\
    exists extra, later q q' (wavenumber q * (l * 1000) + extra) /\
      (is_a "sbend" ec -> extra = v' 4%nat - v 4%nat) /\ (~ is_a "sbend" ec -> extra = 0).
Lemma moment_pass ec l s f : sane w -> goes_through w ec s f -> described ec -> proper_magnet num ec -> extent num ec l ->
  moving (ms_ref s) -> Forall moving (ms_real s) -> pass ec l s f.
Proof.
  intros W (c & m & es & us & i & st & p & f0 & Hm & He & HQ & HS & Hi & Es & A & HP & Hf & Ef) HD HPM HX HR HRs. subst s f.
  assert (HS' : smooth (fun _ => aligned) strips_to_some m us).
  { eapply smooth_weak; [|exact HS]. intros r s0 [_ X]. exact X. }
  destruct (stays_aligned w W c m es us st _ _ p Hm He HQ HS' A HP) as [_ A']. rewrite Hf in A'.
  destruct (moment_advance w false c m es us i ec st p f0 l W Hm He HQ HS Hi (or_introl HD) HX A HR HRs HP Hf) as (P1 & P2 & P3).
  split; [exact A'|]. split; [exact (guided_length c m es us i ec st p f0 W Hm He HQ HS Hi HD A HP Hf)|].
  split; [rewrite P1; ring|]. split; [rewrite Rmult_1_l in P2; exact P2|].
  intros j q v S Hq Hv HSs.
  destruct (moment_motion w c m es us i ec st p f0 W Hm He HQ HS Hi HD HPM A HR HRs HP Hf j q v S Hq Hv HSs) as (T & v' & S' & legs & T1 & T2 & T3 & T4 & T5 & T6).
  destruct (P3 j q v Hq Hv) as (q' & v2 & Q1 & Q2 & extra & Q3 & Q4 & Q5).
  assert (v2 = v') as -> by congruence. rewrite Rmult_1_l in Q3.
  exists q', T, v', S', legs. do 7 (split; [assumption|]). exists extra. auto.
Qed.
Lemma later_same p p1 p2 p' x y : later p p1 x -> later p1 p2 y -> later p p' (x + y) -> same_particle p' p2.
Proof.
  intros ((A1 & A2 & A3 & A4) & A5 & A6 & _) ((B1 & B2 & B3 & B4) & B5 & B6 & _) ((C1 & C2 & C3 & C4) & C5 & C6 & _).
  unfold same_particle, same_ion. repeat split; try congruence. rewrite B6, A6, C6. ring.
Qed.
Lemma forall2_nth {A B} (R : A -> B -> Prop) : forall l l', List.length l = List.length l' ->
  (forall j, (j < List.length l)%nat -> exists a b, nth_error l j = Some a /\ nth_error l' j = Some b /\ R a b) -> Forall2 R l l'.
Proof.
  induction l as [|a l IH]; intros [|b l'] L H; try discriminate L; constructor.
  - destruct (H 0%nat ltac:(cbn; lia)) as (x & y & X & Y & Z). cbn in X, Y. congruence.
  - apply IH; [cbn in L; lia|]. intros j Hj. apply (H (Datatypes.S j)). cbn. lia.
Qed.
(** Two elements that take every particle where a third takes it, in kind and length alike. *)
Definition splits (ec ea eb : tcfg) : Prop :=
  Exists (fun t => is_a t ec) ["drift"; "quadrupole"; "equad"; "solenoid"; "sbend"] /\
  tfind "type" ea = tfind "type" ec /\ tfind "type" eb = tfind "type" ec /\
  real_at num ec "L" 0 = real_at num ea "L" 0 + real_at num eb "L" 0 /\ facing num ea /\
  forall ref p, moving p -> 0 < p_Es ref -> forall legs la lb, course w ec ref p legs -> course w ea ref p la -> course w eb ref p lb ->
    forall u v z z', passes la u v -> passes lb v z -> passes legs u z' -> veq 7 z' z.
Theorem moment_splits ec ea eb s f f1 f2 : sane w -> splits ec ea eb -> proper_magnet num ec -> proper_magnet num ea -> proper_magnet num eb ->
  moving (ms_ref s) -> Forall moving (ms_real s) ->
  goes_through w ec s f -> goes_through w ea s f1 -> goes_through w eb f1 f2 ->
  same_beam f f2 /\
  forall j T Ta Tb, nth_error (ms_tm f) j = Some T -> nth_error (ms_tm f1) j = Some Ta -> nth_error (ms_tm f2) j = Some Tb ->
    meq 7 T (mmul 7 Tb Ta).
Proof.
  intros W (HT & SA & SB & EL & HFa & HCore) PM PMa PMb HR HRs Gc Ga Gb.
  assert (A0 : aligned s) by (destruct Gc as (? & ? & ? & ? & ? & ? & ? & ? & _ & _ & _ & _ & _ & _ & X & _); exact X).
  assert (DD : forall c', tfind "type" c' = tfind "type" ec -> described c').
  { intros c' S. apply Exists_exists in HT as (t & T1 & T2). apply Exists_exists. exists t.
    split; [cbn [In] in *; tauto|]. apply (same_is ec c' t S). exact T2. }
  assert (Dc := DD ec eq_refl). assert (Da := DD ea SA). assert (Db := DD eb SB).
  assert (NX : forall c', tfind "type" c' = tfind "type" ec -> extent num c' (real_at num c' "L" 0)).
  { intros c' S. split; [|auto]. intros X. exfalso. apply Exists_exists in HT as (t & T1 & T2). apply Exists_exists in X as (t' & X1 & X2).
    apply (same_is ec c') in X2; [|exact S]. rewrite (is_a_inj _ _ _ T2 X2) in T1. cbn [In] in *. intuition congruence. }
  set (la := real_at num ea "L" 0) in *. set (lb := real_at num eb "L" 0) in *.
  assert (Pc := moment_pass _ _ _ _ W Gc Dc PM (NX ec eq_refl) HR HRs). rewrite EL in Pc.
  assert (Pa := moment_pass _ _ _ _ W Ga Da PMa (NX ea SA) HR HRs). fold la in Pa.
  destruct Pa as (A1 & N1 & O1 & R1 & Q1).
  assert (HR1 : moving (ms_ref f1)) by exact (later_moving _ _ _ R1 HR).
  assert (I : forall j, (j < List.length (ms_real s))%nat -> exists q v S, nth_error (ms_real s) j = Some q /\ nth_error (ms_m0 s) j = Some v /\ nth_error (ms_m1 s) j = Some S).
  { intros j Hj. destruct A0 as (_ & L1 & L2 & _).
    destruct (nth_ex (ms_m0 s) j (List.length (ms_real s)) ltac:(congruence) Hj) as [v Hv].
    destruct (nth_ex (ms_m1 s) j (List.length (ms_real s)) ltac:(congruence) Hj) as [S Hs].
    destruct (nth_ex (ms_real s) j (List.length (ms_real s)) eq_refl Hj) as [q Hq]. exists q, v, S. auto. }
  assert (HRs1 : Forall moving (ms_real f1)).
  { apply Forall_forall. intros q1 H1. apply In_nth_error in H1 as [j H1]. assert (Hj := nth_lt _ _ _ H1). rewrite N1 in Hj.
    destruct (I j Hj) as (q & v & S & Hq & Hv & Hs). destruct (Q1 j q v S Hq Hv Hs) as (q' & T & v' & S' & legs & X1 & _ & _ & _ & _ & _ & _ & extra & X2 & _).
    rewrite X1 in H1. apply some_eq in H1. subst q'. eapply later_moving; [exact X2|]. rewrite Forall_forall in HRs. apply HRs. exact (nth_error_In _ _ Hq). }
  assert (Pb := moment_pass _ _ _ _ W Gb Db PMb (NX eb SB) HR1 HRs1). fold lb in Pb.
  destruct Pb as (A2 & N2 & O2 & R2 & Q2). destruct Pc as (A3 & N3 & O3 & R3 & Q3).
  assert (K : forall j, (j < List.length (ms_real s))%nat -> exists q2 q3 v2 v3 S2 S3 T Ta Tb,
    nth_error (ms_real f2) j = Some q2 /\ nth_error (ms_real f) j = Some q3 /\ same_particle q3 q2 /\
    nth_error (ms_m0 f2) j = Some v2 /\ nth_error (ms_m0 f) j = Some v3 /\ veq 7 v3 v2 /\
    nth_error (ms_m1 f2) j = Some S2 /\ nth_error (ms_m1 f) j = Some S3 /\ meq 7 S3 S2 /\
    nth_error (ms_tm f) j = Some T /\ nth_error (ms_tm f1) j = Some Ta /\ nth_error (ms_tm f2) j = Some Tb /\ meq 7 T (mmul 7 Tb Ta)).
  { intros j Hj. destruct (I j Hj) as (q & v & S & Hq & Hv & Hs).
    destruct (Q3 j q v S Hq Hv Hs) as (q3 & T & v3 & S3 & legs & C1 & C2 & C3 & C4 & C5 & C6 & C7 & x3 & C8 & C9 & C10).
    destruct (Q1 j q v S Hq Hv Hs) as (q1 & Ta & v1 & S1 & lega & E1 & E2 & E3 & E4 & E5 & E6 & E7 & x1 & E8 & E9 & E10).
    destruct (Q2 j q1 v1 S1 E1 E3 E4) as (q2 & Tb & v2 & S2 & legb & F1 & F2 & F3 & F4 & F5 & F6 & F7 & x2 & F8 & F9 & F10).
    assert (MQ : moving q) by (rewrite Forall_forall in HRs; apply HRs; exact (nth_error_In _ _ Hq)).
    apply (course_same _ _ _ _ _ _ _ _ R1 E8) in F6.
    assert (U : forall u, unit_last u -> unit_last (mapp 7 Ta u)).
    { apply (passes_unit ea (ms_ref s) q lega Ta MQ (proj1 HR)); auto.
      intros X. apply (same_is ec ea) in X; [|exact SA]. apply Exists_exists in HT as (t & T1 & T2).
      rewrite (is_a_inj _ _ _ T2 X) in T1. clear - T1. cbn [In] in T1. intuition discriminate. }
    assert (ET : meq 7 T (mmul 7 Tb Ta)).
    { apply agree_meq. intros u Hu. rewrite mapp_mmul.
      apply (HCore (ms_ref s) q MQ (proj1 HR) legs lega legb C6 E6 F6 u (mapp 7 Ta u)); auto. }
    apply carried in C5 as [C5 C5']. apply carried in E5 as [E5 E5']. apply carried in F5 as [F5 F5'].
    assert (EV : veq 7 v3 v2).
    { rewrite C5, F5, E5, ET. apply mapp_mmul. }
    assert (ES : meq 7 S3 S2).
    { rewrite C5', F5'. unfold sandwich, msize. rewrite E5'. unfold sandwich, msize. rewrite ET, mtr_mmul. rewrite !mmul_assoc. reflexivity. }
    exists q2, q3, v2, v3, S2, S3, T, Ta, Tb. split; [exact F1|]. split; [exact C1|]. split; [|repeat (split; [assumption|]); exact ET].
    apply (later_same _ _ _ _ _ _ E8 F8). rewrite (later_wave _ _ _ E8).
    replace (wavenumber q * (la * 1000) + x1 + (wavenumber q * (lb * 1000) + x2)) with (wavenumber q * ((la + lb) * 1000) + x3); [exact C8|].
    assert (X : x3 = x1 + x2); [|rewrite X; ring].
    destruct (string_dec (match tfind "type" ec with Some (TStr t) => t | _ => "" end) "sbend") as [D|D].
    - assert (D' : is_a "sbend" ec). { unfold is_a. destruct (tfind "type" ec) as [[]|]; try discriminate D. congruence. }
      rewrite (C9 D'), (E9 (proj2 (same_is ec ea "sbend" SA) D')), (F9 (proj2 (same_is ec eb "sbend" SB) D')).
      rewrite (EV 4%nat) by lia. ring.
    - assert (D' : ~ is_a "sbend" ec). { unfold is_a. intros X. rewrite X in D. congruence. }
      rewrite (C10 D'), E10, F10; [ring| |]; intros X; apply D'; [apply (same_is ec eb)|apply (same_is ec ea)]; auto. }
  split.
  - split; [rewrite O2, O1, O3; ring|]. split.
    { apply (later_same _ _ _ _ _ _ R1 R2). rewrite (later_wave _ _ _ R1).
      replace (wavenumber (ms_ref s) * (la * 1000) + wavenumber (ms_ref s) * (lb * 1000)) with (wavenumber (ms_ref s) * ((la + lb) * 1000)) by ring. exact R3. }
    destruct A2 as (_ & M21 & M22 & M23). destruct A3 as (_ & M31 & M32 & M33).
    clear - K N1 N2 N3 M21 M22 M31 M32.
    split; [|split]; apply forall2_nth; try lia; intros j Hj; (assert (Hj' : (j < List.length (ms_real s))%nat) by lia);
      destruct (K j Hj') as (q2 & q3 & v2 & v3 & S2 & S3 & T & Ta & Tb & X1 & X2 & X3 & X4 & X5 & X6 & X7 & X8 & X9 & _);
      [exists q3, q2|exists v3, v2|exists S3, S2]; auto.
  - clear HT. intros j T Ta Tb HT HTa HTb.
    assert (Hj : (j < List.length (ms_real s))%nat).
    { apply nth_lt in HTa. destruct A1 as (_ & _ & _ & X). lia. }
    destruct (K j Hj) as (q2 & q3 & v2 & v3 & S2 & S3 & T' & Ta' & Tb' & _ & _ & _ & _ & _ & _ & _ & _ & _ & Y1 & Y2 & Y3 & Y4).
    rewrite HT in Y1. rewrite HTa in Y2. rewrite HTb in Y3. apply some_eq in Y1, Y2, Y3. subst T' Ta' Tb'. exact Y4.
Qed.
Theorem moment_halves ec ea eb s f f1 f2 : sane w -> halves w ec ea eb -> proper_magnet num ec ->
  moving (ms_ref s) -> Forall moving (ms_real s) ->
  goes_through w ec s f -> goes_through w ea s f1 -> goes_through w eb f1 f2 ->
  same_beam f f2 /\
  forall j T Ta Tb, nth_error (ms_tm f) j = Some T -> nth_error (ms_tm f1) j = Some Ta -> nth_error (ms_tm f2) j = Some Tb ->
    meq 7 T (mmul 7 Tb Ta).
Proof.
  intros W HH PM. destruct (half_proper _ _ _ HH PM) as (PMa & PMb). apply moment_splits; auto.
  assert (CC := fun ref p HP HE legs la lb => halves_core w ref p HP HE ec ea eb legs la lb HH).
  destruct HH as (HT & HS & HL & HI & _). split; [exact HT|].
  split; [apply HS; other|]. split; [apply HS; other|]. split; [exact HL|]. split; [|exact CC].
  apply (half_place w ec ea); [|exact HI]. intros n Hn. apply HS, Hn.
Qed.
End Moment.
