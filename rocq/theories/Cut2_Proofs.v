(** An electrostatic deflector and its two halves. *)
From Coq Require Import Reals List String Bool NArith ZArith Arith Lia Lra.
From Verif Require Import SMap SMap_Proofs Dbl Config_Spec Mat Mat_Proofs Minv Minv_Proofs Machine_Model Machine_Spec Machine_Proofs
  Machine2_Proofs Linear_Model Linear_Spec Linear_Proofs Linear2_Proofs Linear3_Proofs.
From Verif Require Import Moment_Model Moment_Spec Motion_Spec Moment_Proofs Moment2_Proofs Moment3_Proofs Moment4_Proofs
  Moment5_Proofs Moment6_Proofs Motion_Proofs Motion2_Proofs Motion3_Proofs Motion4_Proofs Motion5_Proofs
  Frame_Spec Frame_Proofs Area_Spec Area_Proofs Area2_Proofs Flag_Proofs Cut_Proofs Line_Proofs Deflect_Spec Deflect_Proofs Deflect2_Proofs Cut_Spec.
Import ListNotations.
Open Scope R_scope.
Open Scope string_scope.
Open Scope list_scope.

(** ** Turned and shifted *)
Lemma rolled_fun a u v v' : rolled a u v -> rolled a u v' -> veq 7 v v'.
Proof. intros A B i Hi. transitivity ((fun i => match i with
    | 0 => (cos a * u 0%nat + sin a * u 2%nat)%R | 2 => (- sin a * u 0%nat + cos a * u 2%nat)%R
    | 1 => (cos a * u 1%nat + sin a * u 3%nat)%R | 3 => (- sin a * u 1%nat + cos a * u 3%nat)%R
    | _ => u i end%nat) i); [exact (A i Hi)|symmetry; exact (B i Hi)]. Qed.
Lemma rolled_veq a u u' v : veq 7 u u' -> rolled a u v -> rolled a u' v.
Proof.
  intros E H i Hi. rewrite (H i Hi). idx7 i Hi; rewrite <- ?(E 0%nat), <- ?(E 1%nat), <- ?(E 2%nat), <- ?(E 3%nat), <- ?(E 4%nat), <- ?(E 5%nat), <- ?(E 6%nat) by lia; reflexivity.
Qed.
Lemma rolled_inj a u u' v v' : rolled a u v -> rolled a u' v' -> veq 7 v v' -> veq 7 u u'.
Proof.
  intros A B E. assert (C : veq 7 (fun i => match i with
    | 0 => (cos a * u 0%nat + sin a * u 2%nat)%R | 2 => (- sin a * u 0%nat + cos a * u 2%nat)%R
    | 1 => (cos a * u 1%nat + sin a * u 3%nat)%R | 3 => (- sin a * u 1%nat + cos a * u 3%nat)%R
    | _ => u i end%nat) (fun i => match i with
    | 0 => (cos a * u' 0%nat + sin a * u' 2%nat)%R | 2 => (- sin a * u' 0%nat + cos a * u' 2%nat)%R
    | 1 => (cos a * u' 1%nat + sin a * u' 3%nat)%R | 3 => (- sin a * u' 1%nat + cos a * u' 3%nat)%R
    | _ => u' i end%nat)) by (intros i Hi; transitivity (v i); [symmetry; exact (A i Hi)|]; transitivity (v' i); [exact (E i Hi)|exact (B i Hi)]).
  pose proof (C 0%nat ltac:(lia)) as E0. pose proof (C 1%nat ltac:(lia)) as E1. pose proof (C 2%nat ltac:(lia)) as E2. pose proof (C 3%nat ltac:(lia)) as E3.
  pose proof (C 4%nat ltac:(lia)) as E4. pose proof (C 5%nat ltac:(lia)) as E5. pose proof (C 6%nat ltac:(lia)) as E6. cbv beta iota in *.
  destruct (rot2 _ _ _ _ _ E0 E2). destruct (rot2 _ _ _ _ _ E1 E3). intros i Hi. idx7 i Hi; try lra; congruence.
Qed.
Lemma rolled_back a u v : rolled (- a) u v -> rolled a v u.
Proof.
  intros H i Hi. assert (P := sin2_cos2 a). unfold Rsqr in P.
  assert (E : forall k, (k < 7)%nat -> v k = (match k with
    | 0 => (cos a * u 0%nat - sin a * u 2%nat)%R | 2 => (sin a * u 0%nat + cos a * u 2%nat)%R
    | 1 => (cos a * u 1%nat - sin a * u 3%nat)%R | 3 => (sin a * u 1%nat + cos a * u 3%nat)%R
    | _ => u k end%nat)).
  { intros k Hk. rewrite (H k Hk), cos_neg, sin_neg. idx7 k Hk; ring. }
  rewrite ?(E 0%nat), ?(E 1%nat), ?(E 2%nat), ?(E 3%nat), ?(E 4%nat), ?(E 5%nat), ?(E 6%nat) by lia. idx7 i Hi.
  - transitivity ((sin a * sin a + cos a * cos a) * u 0%nat); [rewrite P|]; ring.
  - transitivity ((sin a * sin a + cos a * cos a) * u 1%nat); [rewrite P|]; ring.
  - transitivity ((sin a * sin a + cos a * cos a) * u 2%nat); [rewrite P|]; ring.
  - transitivity ((sin a * sin a + cos a * cos a) * u 3%nat); [rewrite P|]; ring.
  - symmetry. apply E. lia.
  - symmetry. apply E. lia.
  - symmetry. apply E. lia.
Qed.
(** Upright or tipped over. *)
Definition tipped (b : bool) (u v : vec) : Prop := if b then rolled (PI / 2) u v else veq 7 u v.
Definition set_in (num : double -> R) (c : tcfg) (b : bool) (u v : vec) : Prop := exists x, laid num c u x /\ tipped b x v.
Lemma laid_veq num c u v v' : laid num c u v -> veq 7 v v' -> laid num c u v'.
Proof.
  intros H E. unfold laid in *. cbv zeta in *. rewrite <- (E 0%nat), <- (E 1%nat), <- (E 2%nat), <- (E 3%nat), <- (E 4%nat), <- (E 5%nat), <- (E 6%nat) by lia. exact H.
Qed.
Lemma fine_set num c b : fine (set_in num c b).
Proof.
  destruct (fine_laid num c) as [F1 F2]. split.
  - intros u v v' (x & X1 & X2) (y & Y1 & Y2). assert (E := F1 _ _ _ X1 Y1). destruct b; cbn [tipped] in *.
    + apply (rolled_fun (PI / 2) y); [exact (rolled_veq _ _ _ _ E X2)|exact Y2].
    + rewrite <- X2, <- Y2. exact E.
  - intros u u' v v' (x & X1 & X2) (y & Y1 & Y2) E. apply (F2 _ _ _ _ X1 Y1). destruct b; cbn [tipped] in *.
    + exact (rolled_inj _ _ _ _ _ X2 Y2 E).
    + rewrite X2, Y2. exact E.
Qed.
Lemma fringe_none num c u v : real_at num c "fringe_x" 0 = 0 -> real_at num c "fringe_y" 0 = 0 -> fringe num c u v -> veq 7 u v.
Proof.
  intros X Y H. unfold fringe in H. rewrite X, Y in H. intros i Hi. rewrite (H i Hi). idx7 i Hi; lra.
Qed.
Lemma passes_in A l u u' v : veq 7 u u' -> passes [Along A l] u v -> passes [Along A l] u' v.
Proof. intros E (x & u1 & M & X0 & X1 & P). exists x, u1. split; [exact M|]. split; [rewrite X0; exact E|]. split; assumption. Qed.
Lemma passes_out l u v v' : veq 7 v v' -> passes l u v -> passes l u v'.
Proof.
  revert u. induction l as [|g l IH]; intros u E H; cbn [passes] in *; [rewrite H; exact E|].
  destruct g as [A len|r].
  - destruct H as (x & u1 & M & S0 & S1 & P). exists x, u1. auto.
  - destruct H as (u1 & R1 & P). exists u1. auto.
Qed.

Section Place.
Variables (w : world) (c : tcfg) (ref p : particle) (kx pace : R).
Notation num := (w_num w).
Hypotheses (HP : moving p) (HE : 0 < p_Es ref) (HI : facing num c) (HX : real_at num c "fringe_x" 0 = 0) (HY : real_at num c "fringe_y" 0 = 0).
Definition inner : mat :=
  let L := real_at num c "L" 0 * 1000 in
  let h := angle_of w c "phi" / L in
  let b := beta_of p * beta_of p * gamma_of p * (p_Es ref / 1000000) in
  deflecting (kx * (h * h)) (real_at num c "spher" 0 * (h * h)) h b (pace * wavenumber p) (gamma_of p).
Lemma deflector_like : like (set_in num c (vertical c)) (deflector w c ref p kx pace) inner 0 0 0 (real_at num c "L" 0 * 1000).
Proof.
  intros u v H. unfold deflector in H. cbv zeta in H. fold inner in H.
  destruct H as (u1 & R1 & H). apply passes_app in H as (v1 & P & (v2 & R2 & P2)). cbn [passes] in P2.
  apply (facing_framed _ _ _ _ HP HE _ _ _ HI) in R1. apply (facing_framed _ _ _ _ HP HE _ _ _ HI) in R2.
  apply passes_app in P as (u2 & Pt & P). apply passes_app in P as (v3 & P & Pt').
  destruct P as (u3 & Fr1 & x & u4 & M & X0 & X1 & u5 & Fr2 & P). cbn [passes] in P.
  apply (fringe_none num c _ _ HX HY) in Fr1. apply (fringe_none num c _ _ HX HY) in Fr2.
  assert (L1 : laid num c u u1) by exact R1.
  assert (L2 : laid num c v v1).
  { assert (Z : laid num c v2 v1) by exact R2. unfold laid in *. cbv zeta in *. rewrite <- !(P2 0%nat), <- !(P2 1%nat), <- !(P2 2%nat), <- !(P2 3%nat), <- !(P2 4%nat), <- !(P2 5%nat), <- !(P2 6%nat) by lia. exact Z. }
  exists u2, v3. split; [|split].
  - exists u1. split; [exact L1|]. unfold tip in Pt. destruct (vertical c); cbn [tipped passes] in *; [|exact Pt].
    destruct Pt as (y & Y1 & Y2). unfold rolled in *. rewrite <- Y2. exact Y1.
  - assert (Q : passes [Along inner (real_at num c "L" 0 * 1000)] u2 v3).
    { exists x, u4. split; [exact M|]. split; [rewrite X0; symmetry; exact Fr1|]. split; [exact X1|]. cbn [passes]. rewrite Fr2. exact P. }
    destruct (along_core inner (real_at num c "L" 0 * 1000) u2 v3 Q) as (a & b & A & B & C).
    apply (core_veq _ _ _ _ _ a); [symmetry; exact A|]. apply (passes_out _ _ b); [symmetry; exact C|exact B].
  - exists v1. split; [exact L2|]. unfold tip in Pt'. destruct (vertical c); cbn [tipped passes] in *; [|symmetry; exact Pt'].
    destruct Pt' as (y & Y1 & Y2). apply rolled_back. unfold rolled in *. rewrite <- Y2. exact Y1.
Qed.
End Place.

(** ** In a machine *)
Section Moment.
Variable w : world.
Notation num := (w_num w).
Notation kx c q := (1 - real_at num c "spher" 0 + gamma_of q * gamma_of q).
Notation pc q := (gamma_of q / (1 + gamma_of q)).
(** All there is to know of one step. *)
Definition epass (ec : tcfg) (s s' : mstate) : Prop :=
  let l := real_at num ec "L" 0 in
  aligned s' /\ List.length (ms_real s') = List.length (ms_real s) /\ ms_pos s' = ms_pos s + l /\
  later (ms_ref s) (ms_ref s') (wavenumber (ms_ref s) * (l * 1000)) /\
  forall j q v S, nth_error (ms_real s) j = Some q -> nth_error (ms_m0 s) j = Some v -> nth_error (ms_m1 s) j = Some S ->
  exists q' T v' S',
    nth_error (ms_real s') j = Some q' /\ nth_error (ms_tm s') j = Some T /\ nth_error (ms_m0 s') j = Some v' /\ nth_error (ms_m1 s') j = Some S' /\
    transported T v S v' S' /\ later q q' (wavenumber q * (l * 1000)) /\ affine T /\
    (alike (ms_ref s) q -> forall u, unit_last u -> passes (deflector w ec (ms_ref s) q (kx ec q) (pc q)) u (mapp 7 T u)).
Lemma electric_pass ec s f : sane w -> goes_through w ec s f -> is_a "edipole" ec ->
  moving (ms_ref s) -> Forall moving (ms_real s) -> proper_deflector w ec (ms_ref s) -> symmetric num ec -> epass ec s f.
Proof.
  intros W G Hk HR HRs HPD SY. assert (EM := electric_motion w ec s f W G Hk HR HRs HPD SY).
  destruct G as (c & m & es & us & i & st & p & f0 & Hm & He & HQ & HS & Hi & Es & A & HP & Hf & Ef). subst s f.
  assert (HS' : smooth (fun _ => aligned) strips_to_some m us).
  { eapply smooth_weak; [|exact HS]. intros r s0 [_ X]. exact X. }
  destruct (stays_aligned w W c m es us st _ _ p Hm He HQ HS' A HP) as [_ A']. rewrite Hf in A'.
  assert (HX : extent num ec (real_at num ec "L" 0)).
  { split; [|auto]. intros X. exfalso. apply Exists_exists in X as (t & T1 & T2). rewrite (is_a_inj _ _ _ T2 Hk) in T1. cbn [In] in T1. intuition discriminate. }
  destruct (moment_advance w false c m es us i ec st p f0 _ W Hm He HQ HS Hi (or_intror Hk) HX A HR HRs HP Hf) as (P1 & P2 & P3).
  destruct (one_step w false c m es us i ec st p 1 W Hm He HQ HS Hi A eq_refl HP) as (k & d0 & Hk' & HC & HE).
  assert (K : k = KEDipole).
  { assert (E := is_a_inj _ _ _ Hk' Hk). destruct k; cbn [mkind_name] in E; try discriminate. reflexivity. }
  subst k. rewrite Hf in HE. symmetry in HE. apply rbind_ok in HE as (s' & HA & HE). injection HE as <-. cbn [st_body] in *.
  destruct (ctor_data w _ _ _ HC) as (C1 & C2 & C3). assert (F := ctor_fresh w _ _ _ HC).
  destruct (advance_of w KEDipole ec d0 false (st_body st)) as [d' r] eqn:EA. cbn [snd] in HA. subst r. cbn [advance_of] in EA.
  destruct (base_does w KEDipole ec d0 false (st_body st) d' s' F C1 A EA) as (g & S1 & _ & _ & E & S2).
  split; [exact A'|]. split; [rewrite E; apply map_length|]. split; [rewrite P1; ring|]. split; [rewrite Rmult_1_l in P2; exact P2|].
  intros j q v S Hq Hv HSs.
  destruct (P3 j q v Hq Hv) as (q' & v2 & Q1 & Q2 & extra & Q3 & _ & Q5). rewrite Rmult_1_l in Q3.
  rewrite Q5, Rplus_0_r in Q3 by (intros X; discriminate (is_a_inj _ _ _ X Hk)).
  destruct (S2 j q v S Hq Hv HSs) as (T & X & T1 & T2 & T3 & T4 & T5). unfold applied in T2. subst X.
  exists q', T, (mapp 7 T v), (sandwich T S). repeat (split; [assumption|]). split; [apply carried; split; reflexivity|]. split; [exact Q3|].
  split; [apply (affine_setup w KEDipole d0 ec _ g _ _ _ ltac:(discriminate) S1 T1 affine_id)|]. intros AL. destruct (EM j q Hq AL) as (T' & E1 & E2). rewrite T3 in E1. apply some_eq in E1. subst T'. exact E2.
Qed.
Lemma later_alike p p' x q q' y : later p p' x -> later q q' y -> alike p q -> alike p' q'.
Proof.
  intros ((A1 & A2 & A3 & A4) & A5 & _) ((B1 & B2 & B3 & B4) & B5 & _) (C1 & C2 & C3 & C4). unfold alike. repeat split; congruence.
Qed.
Lemma later_proper ec ref ref' x : later ref ref' x -> proper_deflector w ec ref -> proper_deflector w ec ref'.
Proof.
  destruct ref, ref'. intros ((A1 & A2 & A3 & A4) & A5 & _). cbn in A1, A2, A3, A4, A5. subst. unfold proper_deflector. exact (fun H => H).
Qed.
Lemma deflector_same ec ref p ref' p' x y k r : later ref ref' x -> later p p' y -> deflector w ec ref' p' k r = deflector w ec ref p k r.
Proof.
  destruct ref, ref', p, p'. intros ((A1 & A2 & A3 & A4) & A5 & _) ((B1 & B2 & B3 & B4) & B5 & _). cbn in A1, A2, A3, A4, A5, B1, B2, B3, B4, B5. subst. reflexivity.
Qed.
Lemma gamma_same p p' x : later p p' x -> gamma_of p' = gamma_of p.
Proof. destruct p, p'. intros ((A1 & A2 & A3 & A4) & A5 & _). cbn in A1, A2, A3, A4, A5. subst. reflexivity. Qed.
Section Parts.
Variables ec ea eb : tcfg.
Hypothesis HH : deflector_halves w ec ea eb.
Lemma part_same c' : c' = ea \/ c' = eb -> forall n, ~ In n ["name"; "L"; "phi"] -> tfind n c' = tfind n ec.
Proof. intros [-> | ->] n Hn; apply (proj1 (proj2 HH) n Hn). Qed.
Lemma part_at c' : c' = ea \/ c' = eb -> forall n d, ~ In n ["name"; "L"; "phi"] -> real_at num c' n d = real_at num ec n d.
Proof. intros P n d Hn. apply same_find, (part_same c' P n Hn). Qed.
Ltac other := clear; cbn; intuition discriminate.
Lemma part_kind c' : c' = ea \/ c' = eb -> is_a "edipole" c'.
Proof. intros P. apply (same_is ec c'); [apply (part_same c' P); other|exact (proj1 HH)]. Qed.
Lemma part_length c' : c' = ea \/ c' = eb -> real_at num c' "L" 0 <> 0 /\ real_at num c' "phi" 0 * real_at num ec "L" 0 = real_at num ec "phi" 0 * real_at num c' "L" 0.
Proof. destruct HH as (_ & _ & _ & _ & _ & _ & A & B & C & D). intros [-> | ->]; auto. Qed.
Lemma part_proper c' ref : c' = ea \/ c' = eb -> proper_deflector w ec ref -> proper_deflector w c' ref.
Proof.
  intros P (A & B & C & D). destruct (part_length c' P) as [L1 L2]. split; [exact L1|]. split.
  - intros Z. rewrite Z, Rmult_0_l in L2. symmetry in L2. apply Rmult_integral in L2. tauto.
  - split.
    + intros fit F Z. rewrite (part_at c' P "beta") by other. apply (C fit); [|exact Z]. apply (same_flag w ec c' "HdipoleFitMode"); [apply (part_same c' P); other|exact F].
    + rewrite (part_at c' P "spher") by other. exact D.
Qed.
Lemma part_symmetric c' : c' = ea \/ c' = eb -> symmetric num ec -> symmetric num c'.
Proof. intros P. unfold symmetric. rewrite (part_at c' P "asym_fac") by other. auto. Qed.
Lemma part_like c' ref p r : c' = ea \/ c' = eb -> moving p -> 0 < p_Es ref -> real_at num ec "L" 0 <> 0 ->
  like (set_in num ec (vertical ec)) (deflector w c' ref p (kx c' p) r) (inner w ec ref p (kx ec p) r) 0 0 0 (real_at num c' "L" 0 * 1000).
Proof.
  intros P HP HE L0. destruct (part_length c' P) as [L1 L2]. destruct HH as (_ & _ & _ & HF & HX & HY & _).
  assert (EH : angle_of w c' "phi" / (real_at num c' "L" 0 * 1000) = angle_of w ec "phi" / (real_at num ec "L" 0 * 1000)).
  { unfold angle_of. apply (Rmult_eq_reg_r (real_at num c' "L" 0 * real_at num ec "L" 0)); [|apply Rmult_integral_contrapositive_currified; auto].
    transitivity (real_at num c' "phi" 0 * real_at num ec "L" 0 * (PI / 180 / 1000)); [field; auto|]. rewrite L2. field. auto. }
  assert (EI : inner w ec ref p (kx ec p) r = inner w c' ref p (kx c' p) r).
  { unfold inner. cbv zeta. rewrite EH. rewrite !(part_at c' P "spher") by other. reflexivity. }
  assert (EV : vertical c' = vertical ec). { unfold vertical, num_at. rewrite (part_same c' P "ver") by other. reflexivity. }
  assert (HF' : facing num c'). { unfold facing. rewrite !(part_at c' P "pitch"), !(part_at c' P "yaw") by other. exact HF. }
  rewrite EI. intros u v H. destruct (deflector_like w c' ref p (kx c' p) r HP HE HF') with (u := u) (v := v) as (x & y & X & C & Y).
  - rewrite (part_at c' P "fringe_x") by other. exact HX.
  - rewrite (part_at c' P "fringe_y") by other. exact HY.
  - exact H.
  - exists x, y. rewrite EV in X, Y. unfold set_in, laid in *. rewrite !(part_at c' P "roll"), !(part_at c' P "dx"), !(part_at c' P "dy") in X, Y by other. auto.
Qed.
Lemma parts_go ref p r : moving p -> 0 < p_Es ref -> real_at num ec "L" 0 <> 0 ->
  forall u v z z', passes (deflector w ea ref p (kx ea p) r) u v -> passes (deflector w eb ref p (kx eb p) r) v z ->
    passes (deflector w ec ref p (kx ec p) r) u z' -> veq 7 z' z.
Proof.
  intros HP HE L0 u v z z' Pa Pb Pc.
  assert (CA := part_like ea ref p r (or_introl eq_refl) HP HE L0). assert (CB := part_like eb ref p r (or_intror eq_refl) HP HE L0).
  destruct HH as (_ & _ & EL & HF & HX & HY & _). cbv beta zeta in EL.
  assert (CC := deflector_like w ec ref p (kx ec p) r HP HE HF HX HY). rewrite EL, Rmult_plus_distr_r in CC.
  exact (like_cut _ _ _ _ _ _ _ _ _ _ (fine_set num ec (vertical ec)) CC CA CB u v z z' Pa Pb Pc).
Qed.
End Parts.
Theorem electric_halves ec ea eb s f f1 f2 : sane w -> deflector_halves w ec ea eb -> proper_deflector w ec (ms_ref s) -> symmetric num ec ->
  moving (ms_ref s) -> Forall moving (ms_real s) ->
  goes_through w ec s f -> goes_through w ea s f1 -> goes_through w eb f1 f2 ->
  ms_pos f2 = ms_pos f /\ same_particle (ms_ref f) (ms_ref f2) /\ Forall2 same_particle (ms_real f) (ms_real f2) /\
  forall j q, nth_error (ms_real s) j = Some q -> alike (ms_ref s) q -> same_at j f f2 /\
  forall T Ta Tb, nth_error (ms_tm f) j = Some T -> nth_error (ms_tm f1) j = Some Ta -> nth_error (ms_tm f2) j = Some Tb ->
    meq 7 T (mmul 7 Tb Ta).
Proof.
  intros W HH PD SY HR HRs Gc Ga Gb.
  assert (A0 : aligned s) by (destruct Gc as (? & ? & ? & ? & ? & ? & ? & ? & _ & _ & _ & _ & _ & _ & X & _); exact X).
  assert (EL := proj1 (proj2 (proj2 HH))). cbv beta zeta in EL.
  assert (Pc := electric_pass _ _ _ W Gc (proj1 HH) HR HRs PD SY).
  assert (Pa := electric_pass _ _ _ W Ga (part_kind _ _ _ HH ea (or_introl eq_refl)) HR HRs (part_proper _ _ _ HH ea _ (or_introl eq_refl) PD)
    (part_symmetric _ _ _ HH ea (or_introl eq_refl) SY)).
  destruct Pa as (A1 & N1 & O1 & R1 & Q1). cbv beta zeta in *.
  assert (HR1 : moving (ms_ref f1)) by exact (later_moving _ _ _ R1 HR).
  assert (I : forall j, (j < List.length (ms_real s))%nat -> exists q v S, nth_error (ms_real s) j = Some q /\ nth_error (ms_m0 s) j = Some v /\ nth_error (ms_m1 s) j = Some S).
  { intros j Hj. destruct A0 as (_ & L1 & L2 & _).
    destruct (nth_ex (ms_m0 s) j (List.length (ms_real s)) ltac:(congruence) Hj) as [v Hv].
    destruct (nth_ex (ms_m1 s) j (List.length (ms_real s)) ltac:(congruence) Hj) as [S Hs].
    destruct (nth_ex (ms_real s) j (List.length (ms_real s)) eq_refl Hj) as [q Hq]. exists q, v, S. auto. }
  assert (HRs1 : Forall moving (ms_real f1)).
  { apply Forall_forall. intros q1 H1. apply In_nth_error in H1 as [j H1]. assert (Hj := nth_lt _ _ _ H1). rewrite N1 in Hj.
    destruct (I j Hj) as (q & v & S & Hq & Hv & Hs). destruct (Q1 j q v S Hq Hv Hs) as (q' & T & v' & S' & X1 & _ & _ & _ & _ & X2 & _).
    rewrite X1 in H1. apply some_eq in H1. subst q'. eapply later_moving; [exact X2|]. rewrite Forall_forall in HRs. apply HRs. exact (nth_error_In _ _ Hq). }
  assert (Pb := electric_pass _ _ _ W Gb (part_kind _ _ _ HH eb (or_intror eq_refl)) HR1 HRs1
    (later_proper eb _ _ _ R1 (part_proper _ _ _ HH eb _ (or_intror eq_refl) PD)) (part_symmetric _ _ _ HH eb (or_intror eq_refl) SY)).
  destruct Pb as (A2 & N2 & O2 & R2 & Q2). destruct Pc as (A3 & N3 & O3 & R3 & Q3). cbv beta zeta in *. rewrite EL in O3, R3.
  assert (K : forall j q v S, nth_error (ms_real s) j = Some q -> nth_error (ms_m0 s) j = Some v -> nth_error (ms_m1 s) j = Some S ->
    exists q2 q3 v2 v3 S2 S3 T Ta Tb,
    nth_error (ms_real f2) j = Some q2 /\ nth_error (ms_real f) j = Some q3 /\ same_particle q3 q2 /\
    nth_error (ms_m0 f2) j = Some v2 /\ nth_error (ms_m0 f) j = Some v3 /\
    nth_error (ms_m1 f2) j = Some S2 /\ nth_error (ms_m1 f) j = Some S3 /\
    nth_error (ms_tm f) j = Some T /\ nth_error (ms_tm f1) j = Some Ta /\ nth_error (ms_tm f2) j = Some Tb /\
    (alike (ms_ref s) q -> veq 7 v3 v2 /\ meq 7 S3 S2 /\ meq 7 T (mmul 7 Tb Ta))).
  { intros j q v S Hq Hv Hs.
    destruct (Q3 j q v S Hq Hv Hs) as (q3 & T & v3 & S3 & C1 & C2 & C3 & C4 & C5 & C6 & C7 & C8).
    destruct (Q1 j q v S Hq Hv Hs) as (q1 & Ta & v1 & S1 & E1 & E2 & E3 & E4 & E5 & E6 & E7 & E8).
    destruct (Q2 j q1 v1 S1 E1 E3 E4) as (q2 & Tb & v2 & S2 & F1 & F2 & F3 & F4 & F5 & F6 & F7 & F8).
    assert (MQ : moving q) by (rewrite Forall_forall in HRs; apply HRs; exact (nth_error_In _ _ Hq)).
    exists q2, q3, v2, v3, S2, S3, T, Ta, Tb. split; [exact F1|]. split; [exact C1|]. split.
    { apply (later_same _ _ _ _ _ _ E6 F6). rewrite (later_wave _ _ _ E6).
      replace (wavenumber q * (real_at num ea "L" 0 * 1000) + wavenumber q * (real_at num eb "L" 0 * 1000)) with
        (wavenumber q * (real_at num ec "L" 0 * 1000)) by (rewrite EL; ring). exact C6. }
    repeat (split; [assumption|]). intros AL.
    specialize (C8 AL). specialize (E8 AL). specialize (F8 (later_alike _ _ _ _ _ _ R1 E6 AL)).
    rewrite (deflector_same _ _ _ _ _ _ _ _ _ R1 E6), (gamma_same _ _ _ E6) in F8.
    assert (ET : meq 7 T (mmul 7 Tb Ta)).
    { apply agree_meq. intros u Hu. rewrite mapp_mmul.
      apply (parts_go ec ea eb HH (ms_ref s) q (pc q) MQ (proj1 HR) (proj1 PD) u (mapp 7 Ta u)); auto. apply F8. apply (unit_app _ _ E7 Hu). }
    apply carried in C5 as [C5 C5']. apply carried in E5 as [E5 E5']. apply carried in F5 as [F5 F5'].
    split; [|split; [|exact ET]].
    { rewrite C5, F5, E5, ET. apply mapp_mmul. }
    { rewrite C5', F5'. unfold sandwich, msize. rewrite E5'. unfold sandwich, msize. rewrite ET, mtr_mmul. rewrite !mmul_assoc. reflexivity. } }
  split; [rewrite O2, O1, O3; ring|]. split.
  { apply (later_same _ _ _ _ _ _ R1 R2). rewrite (later_wave _ _ _ R1).
    replace (wavenumber (ms_ref s) * (real_at num ea "L" 0 * 1000) + wavenumber (ms_ref s) * (real_at num eb "L" 0 * 1000)) with
      (wavenumber (ms_ref s) * ((real_at num ea "L" 0 + real_at num eb "L" 0) * 1000)) by ring. exact R3. }
  split.
  { apply forall2_nth; [lia|]. intros j Hj. destruct (I j ltac:(lia)) as (q & v & S & Hq & Hv & Hs).
    destruct (K j q v S Hq Hv Hs) as (q2 & q3 & _ & _ & _ & _ & _ & _ & _ & X1 & X2 & X3 & _). exists q3, q2. auto. }
  intros j q Hq AL. destruct (I j (nth_lt _ _ _ Hq)) as (q0 & v & S & Hq0 & Hv & Hs). rewrite Hq in Hq0. apply some_eq in Hq0. subst q0.
  destruct (K j q v S Hq Hv Hs) as (q2 & q3 & v2 & v3 & S2 & S3 & T & Ta & Tb & X1 & X2 & X3 & X4 & X5 & X6 & X7 & X8 & X9 & X10 & X11).
  destruct (X11 AL) as (Y1 & Y2 & Y3). split.
  - exists v3, v2, S3, S2. auto 10.
  - intros T' Ta' Tb' H1 H2 H3. rewrite X8 in H1. rewrite X9 in H2. rewrite X10 in H3. apply some_eq in H1, H2, H3. subst. exact Y3.
Qed.
End Moment.
