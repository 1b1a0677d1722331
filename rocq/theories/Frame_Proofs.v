(** Proofs about misplaced elements. *)
From Coq Require Import Reals List String Bool NArith ZArith Arith Lia Lra.
From Verif Require Import SMap SMap_Proofs Dbl Config_Spec Mat Mat_Proofs Minv Minv_Proofs Machine_Model Machine_Spec Machine_Proofs
  Machine2_Proofs Machine4_Proofs Linear_Model Linear_Spec Linear_Proofs Linear2_Proofs Linear3_Proofs.
From Verif Require Import Moment_Model Moment_Spec Motion_Spec Round_Spec Moment_Proofs Moment2_Proofs Moment3_Proofs Moment4_Proofs
  Moment5_Proofs Moment6_Proofs Motion_Proofs Motion2_Proofs Motion3_Proofs Motion4_Proofs Motion5_Proofs Round_Proofs Round2_Proofs Round3_Proofs Round4_Proofs
  Frame_Spec.
Import ListNotations.
Open Scope R_scope.
Open Scope string_scope.
Open Scope list_scope.

(** ** Inverse matrices *)
Definition inv2 (A B : mat) : Prop := meq 7 (mmul 7 A B) mid /\ meq 7 (mmul 7 B A) mid.
Lemma inv2_sym A B : inv2 A B -> inv2 B A. Proof. unfold inv2. tauto. Qed.
Lemma inv2_mul A A' B B' : inv2 A A' -> inv2 B B' -> inv2 (mmul 7 A B) (mmul 7 B' A').
Proof.
  intros [H1 H2] [H3 H4]. split.
  - rewrite <- (mmul_assoc 7 A B), (mmul_assoc 7 B B' A'), H3, mid_l. exact H1.
  - rewrite <- (mmul_assoc 7 B' A'), (mmul_assoc 7 A' A B), H2, mid_l. exact H4.
Qed.
Lemma inverse_inv2 A B : inverse A = Ok B -> inv2 A B.
Proof. intros H. apply inverse_ok in H as [H1 H2]. split; auto. Qed.

(** ** Frames *)
Lemma dist_one k x y z : 0 < k -> - (x / k) + z = - (y / k) + z -> x = y.
Proof.
  intros K H. assert (x / k = y / k) as E by lra. apply (f_equal (fun t => t * k)) in E. unfold Rdiv in E.
  rewrite !Rmult_assoc, Rinv_l, !Rmult_1_r in E by lra. exact E.
Qed.
Lemma div_one b x y : b <> 0 -> x / b + 1 = y / b + 1 -> x = y.
Proof.
  intros K H. assert (x / b = y / b) as E by lra. apply (f_equal (fun t => t * b)) in E. unfold Rdiv in E.
  rewrite !Rmult_assoc, Rinv_l, !Rmult_1_r in E by auto. exact E.
Qed.
Lemma frame_b ref p : moving p -> 0 < p_Es ref -> beta_of p * beta_of p * gamma_of p * (p_Es ref / 1000000) <> 0.
Proof.
  intros HP HE. destruct (moving_facts p HP) as (G & B & _ & K & _). apply Rgt_not_eq.
  repeat apply Rmult_lt_0_compat; try lra.
Qed.
Lemma framed_one num c z ref p v u u' : moving p -> 0 < p_Es ref -> framed num c z ref p v u -> framed num c z ref p v u' -> veq 7 u u'.
Proof.
  intros HP HE (A1 & A2 & A3) (B1 & B2 & B3). rewrite A1 in B1. rewrite A2 in B2.
  assert (NB := frame_b ref p HP HE). destruct (moving_facts p HP) as (G & B & _ & K & _).
  injection B1 as E0 E2 E4. injection B2 as E1 E3 E5. apply dist_one in E4; auto. apply div_one in E5; auto.
  intros i Hi. idx7 i Hi; auto. congruence.
Qed.
Lemma framed_veq num c z ref p v v' u u' : veq 7 v v' -> veq 7 u u' -> framed num c z ref p v u -> framed num c z ref p v' u'.
Proof.
  intros V U. unfold framed. rewrite <- (V 0%nat), <- (V 1%nat), <- (V 2%nat), <- (V 3%nat), <- (V 4%nat), <- (V 5%nat), <- (V 6%nat) by lia.
  rewrite <- (U 0%nat), <- (U 1%nat), <- (U 2%nat), <- (U 3%nat), <- (U 4%nat), <- (U 5%nat), <- (U 6%nat) by lia. auto.
Qed.
(** Affine maps that agree on vectors ending in 1. *)
Definition e6 (j : nat) : vec := fun i => if Nat.eqb i 6 then 1 else if Nat.eqb i j then 1 else 0.
Lemma agree_meq A B : (forall x, unit_last x -> veq 7 (mapp 7 A x) (mapp 7 B x)) -> meq 7 A B.
Proof.
  intros H i j Hi Hj. assert (U : forall j, unit_last (e6 j)) by (intros; reflexivity).
  assert (E6 : A i 6%nat = B i 6%nat).
  { pose proof (H (e6 6) (U _) i Hi) as X. unfold mapp, e6 in X. cbn in X. lra. }
  pose proof (H (e6 j) (U _) i Hi) as X. unfold mapp, e6 in X. idx7 j Hj; cbn in X; lra.
Qed.
(** Covariance matrices as forms. *)
Definition unit_at (i : nat) : vec := fun k => if Nat.eqb k i then 1 else 0.
Lemma dot_unit i u : (i < 7)%nat -> dot 7 (unit_at i) u = u i.
Proof.
  intros Hi. unfold dot, unit_at. rewrite (sumn_single 7 i); auto.
  - rewrite Nat.eqb_refl. ring.
  - intros k Hk N. apply Nat.eqb_neq in N. rewrite N. ring.
Qed.
Lemma app_unit S j i : (j < 7)%nat -> mapp 7 S (unit_at j) i = S i j.
Proof.
  intros Hj. unfold mapp, unit_at. rewrite (sumn_single 7 j); auto.
  - rewrite Nat.eqb_refl. ring.
  - intros k Hk N. apply Nat.eqb_neq in N. rewrite N. ring.
Qed.
Lemma form_meq S S' : (forall a b, dot 7 a (mapp 7 S b) = dot 7 a (mapp 7 S' b)) -> meq 7 S S'.
Proof.
  intros H i j Hi Hj. pose proof (H (unit_at i) (unit_at j)) as X. rewrite !dot_unit, !app_unit in X by auto. exact X.
Qed.
Lemma dot_meq a b S S' : meq 7 S S' -> dot 7 a (mapp 7 S b) = dot 7 a (mapp 7 S' b).
Proof. intros H. apply dot_veq; [reflexivity|]. rewrite H. reflexivity. Qed.
Lemma carried T v S v' S' : transported T v S v' S' <-> veq 7 v' (mapp 7 T v) /\ meq 7 S' (sandwich T S).
Proof.
  destruct (moved T v S) as [_ M]. split; intros [H1 H2]; (split; [exact H1|]).
  - apply form_meq. intros a b. rewrite H2, M. reflexivity.
  - intros a b. rewrite (dot_meq _ _ _ _ H2). apply M.
Qed.

Section W.
Variable w : world.
Notation num := (w_num w).

(** Everything about the two matrices of a misplaced element. *)
Lemma frame_all c len ref p M IM : moving p -> 0 < p_Es ref ->
  get_misalign (sh_at w c) len (recalc ref) (recalc p) = Ok (M, IM) ->
  affine M /\ (forall u, unit_last u -> framed num c (- (len * 1000) / 2) ref p u (mapp 7 M u)) /\
  exists G, affine G /\ inv2 IM G /\ forall u, unit_last u -> framed num c (len * 1000 / 2) ref p u (mapp 7 G u).
Proof.
  intros HP HE H. destruct (frame_ok w c len ref p M IM HP HE H) as [F1 F2].
  assert (AM : affine M).
  { apply misalign_affine in H. apply H. }
  split; [exact AM|]. split; [intros u Hu; apply F1; exact Hu|].
  assert (X : exists G, affine G /\ inv2 IM G).
  { unfold get_misalign in H.
    apply rbind_ok in H as (si & H1 & H). apply rbind_ok in H as (ti & H2 & H). apply rbind_ok in H as (ri & H3 & H).
    apply rbind_ok in H as (ti' & H4 & H).
    apply (f_equal (fun r => match r with Ok x => x | Throw _ => (M, IM) end)) in H. apply pair_eq in H as [_ HB]. unfold msize in HB.
    set (scl := scl_mat (recalc ref) (recalc p)) in *. set (sh := sh_at w c) in *.
    set (RO := rot_mat (sh_dx sh) (sh_dy sh) (sh_pitch sh) (sh_yaw sh) (sh_roll sh)) in *.
    set (T' := shift_mat (len / 2 * MtoMM)) in *.
    assert (AS : affine scl) by (unfold scl, scl_mat; repeat (apply affine_set; [unfold PS_S, PS_PS; lia|]); apply affine_id).
    assert (AT : affine T') by (unfold T', shift_mat; repeat (apply affine_set; [unfold PS_S, PS_PS; lia|]); apply affine_id).
    assert (AR : affine RO).
    { unfold RO, rot_mat. cbv zeta. apply affine_mul; repeat (apply affine_set; [lia|]); apply affine_id. }
    assert (I : forall A B, affine A -> inverse A = Ok B -> affine B).
    { intros A B HA' HB'. apply (affine_inv A B HA'). unfold inverse in HB'. destruct (minv msize A) as [Y|]; [|discriminate].
      apply (f_equal (fun r => match r with Ok x => Some x | Throw _ => None end)) in HB'. exact HB'. }
    pose proof (I _ _ AS H1) as AI. pose proof (I _ _ AT H4) as ATI.
    apply inverse_inv2 in H1, H3, H4.
    exists (mmul 7 (mmul 7 (mmul 7 (mmul 7 si ti') RO) T') scl). split; [repeat apply affine_mul; auto|].
    rewrite <- HB. apply (inv2_mul si scl); [apply inv2_sym; exact H1|].
    apply (inv2_mul ti' T'); [apply inv2_sym; exact H4|]. apply (inv2_mul ri RO); [apply inv2_sym; exact H3|].
    apply (inv2_mul T' ti'); auto. }
  destruct X as (G & AG & IG). exists G. split; [exact AG|]. split; [exact IG|]. intros u Hu.
  eapply framed_veq; [|reflexivity|apply (F2 (mapp 7 G u))].
  - rewrite <- mapp_mmul, (proj1 IG). apply mid_app.
  - rewrite last_one by auto. exact Hu.
Qed.

(** ** Entries that differ in their placing only read the same *)
Section Same.
Variables c c' : tcfg.
Hypothesis H : same_else c c'.
Ltac other := apply H; unfold placing; cbn [In]; intuition discriminate.
Lemma num_of_same n : ~ In n placing -> num_of w c n = num_of w c' n.
Proof. intros N. unfold num_of, get_num. rewrite (H n N). reflexivity. Qed.
Lemma num_def_same n d : ~ In n placing -> num_def w c n d = num_def w c' n d.
Proof. intros N. unfold num_def. rewrite (H n N). reflexivity. Qed.
Lemma get_num_same n : ~ In n placing -> get_num c n = get_num c' n.
Proof. intros N. unfold get_num. rewrite (H n N). reflexivity. Qed.
Lemma is_one_same n d : ~ In n placing -> is_one c n d = is_one c' n d.
Proof. intros N. unfold is_one. rewrite (H n N). reflexivity. Qed.
Lemma get_flag_same n d : ~ In n placing -> get_flag w c n d = get_flag w c' n d.
Proof. intros N. unfold get_flag, get_num, get_str. rewrite (H n N). reflexivity. Qed.
Lemma is_a_same t : is_a t c -> is_a t c'.
Proof. unfold is_a. rewrite (H "type"); [auto|]. cbn; intuition discriminate. Qed.
Lemma curve_loop_same cv cv' r k : same_else cv cv' -> forall n prev, curve_loop w c cv r k n prev = curve_loop w c' cv' r k n prev.
Proof.
  intros HV. induction k as [|k IH]; intros n prev; [reflexivity|]. cbn [curve_loop].
  assert (E : get_vec cv ("curve" ++ dec n) = get_vec cv' ("curve" ++ dec n)).
  { unfold get_vec. rewrite (HV ("curve" ++ dec n)%string); [reflexivity|]. cbn [placing In String.append]. intuition discriminate. }
  rewrite E, (num_def_same ("scl_fac" ++ dec n)) by (cbn [placing In String.append]; intuition discriminate).
  destruct (get_vec cv' _); [|reflexivity].
  match goal with |- rbind ?X _ = rbind ?X _ => destruct X; [|reflexivity] end. cbn [rbind]. rewrite IH. reflexivity.
Qed.
Lemma get_curves_same n : get_curves w c n = get_curves w c' n.
Proof.
  unfold get_curves, get_str, get_str_def.
  rewrite (H "use_range"), (H "CurveFile"), (H "Eng_Data_Dir") by (cbn; intuition discriminate).
  destruct (tfind "CurveFile" c') as [[]|]; cbn [rbind]; try (apply curve_loop_same; exact H).
  destruct (w_readcfg w _); cbn [rbind]; [|reflexivity]. apply curve_loop_same. intros n' _. reflexivity.
Qed.
Definition plain_kind (k : mkind) : Prop := In k [KQuad; KSolenoid; KEQuad; KSBend; KEDipole].
Lemma setup_same k d ref : plain_kind k -> setup w k d c ref = setup w k d c' ref.
Proof.
  intros HK. cbn [plain_kind In] in HK. decompose [or] HK; try contradiction; subst k; cbn [setup].
  1: unfold setup_quad. 2: unfold setup_solenoid. 3: unfold setup_equad. 4: unfold setup_sbend. 5: unfold setup_edipole.
  1-3: rewrite ?(num_of_same "L"), ?(num_of_same "B2"), ?(num_of_same "B"), ?(num_of_same "V"), ?(num_of_same "radius"),
    (get_flag_same "ncurve") by (cbn; intuition discriminate).
  1-3: destruct (num_of w c' "L"); cbn [rbind]; [|reflexivity]; destruct (get_flag w c' "ncurve" 0) as [n|]; cbn [rbind]; [|reflexivity];
    rewrite (get_curves_same n); reflexivity.
  - rewrite (num_of_same "L"), (num_of_same "phi"), (num_of_same "phi1"), (num_of_same "phi2"), (num_of_same "bg"), (num_def_same "K")
      by (cbn; intuition discriminate). reflexivity.
  - rewrite (get_num_same "ver"), (num_of_same "L"), (num_of_same "phi"), (num_of_same "spher"), (get_flag_same "HdipoleFitMode"),
      (num_def_same "fringe_x"), (num_def_same "fringe_y"), (num_def_same "asym_fac") by (cbn; intuition discriminate).
    destruct (get_num c' "ver"); cbn [rbind]; [|reflexivity]. destruct (num_of w c' "L"); cbn [rbind]; [|reflexivity].
    destruct (num_of w c' "phi"); cbn [rbind]; [|reflexivity]. destruct (num_of w c' "spher"); cbn [rbind]; [|reflexivity].
    destruct (get_flag w c' "HdipoleFitMode" 1); cbn [rbind]; [|reflexivity]. rewrite (num_def_same "beta") by (cbn; intuition discriminate).
    reflexivity.
Qed.
Lemma advance_sext_same d r s : advance_sext w c d r s = advance_sext w c' d r s.
Proof.
  unfold advance_sext, sext_cell. rewrite (num_of_same "B3"), (num_of_same "L"), (H "step"), (is_one_same "thinlens"), (is_one_same "dstkick")
    by (cbn; intuition discriminate). reflexivity.
Qed.
End Same.

(** The matrix of a charge state is made from one that does not depend on the
    placing. *)
Lemma num_of_len c l : num_of w c "L" = Ok l -> real_at num c "L" 0 = l.
Proof. unfold num_of, get_num, real_at, num_at. destruct (tfind "L" c) as [[]|]; cbn [rbind]; congruence. Qed.
Ltac okf H := apply (f_equal (fun r => match r with Ok x => x | Throw _ => (fun _ T => (T, None)) end)) in H; cbv beta iota in H; subst.
Lemma setup_split k d d' c ref f f' : plain_kind k -> md_fit d = md_fit d' -> md_len d = real_at num c "L" 0 ->
  setup w k d c ref = Ok f -> setup w k d' c ref = Ok f' ->
  forall p T0 T1 T2, f p T0 = (T1, None) -> f' p T0 = (T2, None) ->
  (T1 = mid /\ T2 = mid /\ md_len d = 0) \/ exists B, misaligned d ref p B = (T1, None) /\ misaligned d' ref p B = (T2, None).
Proof.
  intros HK HF HL H1 H2 p T0 T1 T2 E1 E2.
  cbn [plain_kind In] in HK. decompose [or] HK; try contradiction; subst k; cbn [setup] in H1, H2.
  - unfold setup_quad in H1, H2. destruct (num_of w c "L") as [l|]; cbn [rbind] in H1, H2; [|discriminate].
    destruct (get_flag w c "ncurve" 0) as [n|]; cbn [rbind] in H1, H2; [|discriminate]. destruct (negb (N.eqb n 0)).
    + destruct (get_curves w c n) as [cvs|]; cbn [rbind] in H1, H2; [|discriminate]. okf H1. okf H2. cbv beta in E1, E2. eauto.
    + destruct (num_of w c "B2"); cbn [rbind] in H1, H2; [|discriminate]. okf H1. okf H2. cbv beta zeta in E1, E2. eauto.
  - unfold setup_solenoid in H1, H2. destruct (num_of w c "L") as [l|]; cbn [rbind] in H1, H2; [|discriminate].
    destruct (get_flag w c "ncurve" 0) as [n|]; cbn [rbind] in H1, H2; [|discriminate]. destruct (negb (N.eqb n 0)).
    + destruct (get_curves w c n) as [cvs|]; cbn [rbind] in H1, H2; [|discriminate]. okf H1. okf H2. cbv beta in E1, E2. eauto.
    + destruct (num_of w c "B"); cbn [rbind] in H1, H2; [|discriminate]. okf H1. okf H2. cbv beta zeta in E1, E2. eauto.
  - unfold setup_equad in H1, H2. destruct (num_of w c "L") as [l|]; cbn [rbind] in H1, H2; [|discriminate].
    destruct (get_flag w c "ncurve" 0) as [n|]; cbn [rbind] in H1, H2; [|discriminate]. destruct (negb (N.eqb n 0)).
    + destruct (get_curves w c n) as [cvs|]; cbn [rbind] in H1, H2; [|discriminate]. okf H1. okf H2. cbv beta in E1, E2. eauto.
    + destruct (num_of w c "V"); cbn [rbind] in H1, H2; [|discriminate]. destruct (num_of w c "radius"); cbn [rbind] in H1, H2; [|discriminate].
      okf H1. okf H2. cbv beta zeta in E1, E2. eauto.
  - unfold setup_sbend in H1, H2. destruct (num_of w c "L") as [l|] eqn:EL; cbn [rbind] in H1, H2; [|discriminate].
    destruct (num_of w c "phi"); cbn [rbind] in H1, H2; [|discriminate]. destruct (num_of w c "phi1"); cbn [rbind] in H1, H2; [|discriminate].
    destruct (num_of w c "phi2"); cbn [rbind] in H1, H2; [|discriminate]. okf H1. okf H2. cbv beta zeta in E1, E2. rewrite <- HF in E2.
    destruct (Req_EM_T (l * MtoMM) 0) as [Z|].
    + left. apply pair_eq in E1 as [<- _]. apply pair_eq in E2 as [<- _]. split; [auto|]. split; [auto|].
      apply num_of_len in EL. rewrite HL, EL. unfold MtoMM in Z. lra.
    + right. destruct (N.eqb (md_fit d) 0); [|eauto]. destruct (num_of w c "bg"); [|discriminate]. eauto.
  - unfold setup_edipole in H1, H2. destruct (get_num c "ver"); cbn [rbind] in H1, H2; [|discriminate].
    destruct (num_of w c "L") as [l|] eqn:EL; cbn [rbind] in H1, H2; [|discriminate].
    destruct (num_of w c "phi"); cbn [rbind] in H1, H2; [|discriminate]. destruct (num_of w c "spher"); cbn [rbind] in H1, H2; [|discriminate].
    destruct (get_flag w c "HdipoleFitMode" 1) as [fit|]; cbn [rbind] in H1, H2; [|discriminate].
    destruct (negb _); [discriminate|]. okf H1. okf H2. cbv beta zeta in E1, E2.
    destruct (Req_EM_T (l * MtoMM) 0) as [Z|].
    + left. apply pair_eq in E1 as [<- _]. apply pair_eq in E2 as [<- _]. split; [auto|]. split; [auto|].
      apply num_of_len in EL. rewrite HL, EL. unfold MtoMM in Z. lra.
    + right. eauto.
Qed.

(** ** What a misplaced element does: it acts on the beam as it sees it *)
(** [act] respects equality of the entries that count. *)
Definition steady (act : vec -> mat -> vec * mat) : Prop := forall v v' S S', veq 7 v v' -> meq 7 S S' ->
  veq 7 (fst (act v S)) (fst (act v' S')) /\ meq 7 (snd (act v S)) (snd (act v' S')).
Lemma steady_T B : steady (fun v S => (mapp 7 B v, sandwich B S)).
Proof. intros v v' S S' V E. cbn [fst snd]. split; [rewrite V; reflexivity|]. apply sandwich_meq; [reflexivity|exact E]. Qed.
Definition done_by (act : vec -> mat -> vec * mat) (M IM : mat) (v : vec) (S : mat) (v' : vec) (S' : mat) : Prop :=
  veq 7 v' (mapp 7 IM (fst (act (mapp 7 M v) (sandwich M S)))) /\ meq 7 S' (sandwich IM (snd (act (mapp 7 M v) (sandwich M S)))).
Lemma done_T T M IM B v S : meq 7 T (mmul 7 IM (mmul 7 B M)) ->
  done_by (fun v S => (mapp 7 B v, sandwich B S)) M IM v S (mapp 7 T v) (sandwich T S).
Proof.
  intros E. split; cbn [fst snd].
  - rewrite E, !mapp_mmul. reflexivity.
  - rewrite !sandwich_twice. apply sandwich_meq; [|reflexivity]. rewrite E, mmul_assoc. reflexivity.
Qed.
Lemma misalign_zero sh ref p M IM : get_misalign sh 0 ref p = Ok (M, IM) -> meq 7 (mmul 7 IM M) mid.
Proof.
  intros H. unfold get_misalign in H. replace (- 0 / 2 * MtoMM) with (0 / 2 * MtoMM) in H by (unfold Rdiv; ring).
  apply rbind_ok in H as (si & H1 & H). apply rbind_ok in H as (ti & H2 & H). apply rbind_ok in H as (ri & H3 & H).
  apply rbind_ok in H as (ti' & H4 & H).
  apply (f_equal (fun r => match r with Ok x => x | Throw _ => (M, IM) end)) in H. apply pair_eq in H as [HA HB]. unfold msize in HA, HB.
  rewrite <- HA, <- HB. clear HA HB. rewrite H2 in H4. apply (f_equal (fun r => match r with Ok x => x | Throw _ => ti end)) in H4. subst ti'.
  apply inverse_ok in H1 as [H1 H1'], H2 as [H2 H2'], H3 as [H3 H3'].
  set (scl := scl_mat ref p) in *. set (T := shift_mat (0 / 2 * MtoMM)) in *. set (R := rot_mat _ _ _ _ _) in *.
  rewrite <- !mmul_assoc. rewrite (mmul_assoc 7 scl si), H1', mid_l. rewrite (mmul_assoc 7 T ti), H2', mid_l.
  rewrite (mmul_assoc 7 ri R), H3, mid_l. rewrite (mmul_assoc 7 ti T), H2, mid_l. exact H1.
Qed.

Lemma flat_sandwich A S : affine A -> flat S -> flat (sandwich A S).
Proof.
  intros HA F i Hi. unfold sandwich, msize. split.
  - unfold mmul at 1. unfold mtr. rewrite (sumn_ext _ _ (fun k => A 6%nat k * mmul 7 A S i k)) by (intros; ring). rewrite affine_row by auto.
    unfold mmul. rewrite (sumn_ext _ _ (fun _ => 0)); [apply sumn_0|]. intros k Hk. destruct (F k Hk) as [-> _]. ring.
  - unfold mmul at 1. rewrite (sumn_ext _ _ (fun _ => 0)); [apply sumn_0|]. intros k Hk. unfold mmul. rewrite affine_row by auto.
    destruct (F k Hk) as [_ ->]. ring.
Qed.
(** ** Sextupoles *)
Lemma sext_steps_same n dL K tl dk p : forall v v' m m' T tm tm', veq 7 v v' -> meq 7 m m' ->
  let '(a, b, _) := sext_steps n dL K tl dk p v m T tm in let '(a', b', _) := sext_steps n dL K tl dk p v' m' T tm' in
  veq 7 a a' /\ meq 7 b b'.
Proof.
  induction n as [|n IH]; intros v v' m m' T tm tm' V M; cbn [sext_steps]; [auto|]. cbv zeta. unfold PS_X, PS_Y.
  rewrite <- (V 0%nat), <- (V 2%nat), <- (M 0%nat 0%nat), <- (M 2%nat 2%nat), <- (M 0%nat 2%nat) by lia.
  apply IH; [apply mapp_proper; [reflexivity|exact V]|]. apply sandwich_meq; [reflexivity|exact M].
Qed.
Lemma sext_does c d s s' : aligned s -> advance_sext w c d false s = Ok s' ->
  ms_pos s' = ms_pos s + md_len d /\ ms_ref s' = stepped false (md_len d) (recalc (ms_ref s)) /\
  ms_real s' = map (fun p => stepped false (md_len d) (recalc p)) (ms_real s) /\
  exists B3 l st, num_of w c "B3" = Ok B3 /\ num_of w c "L" = Ok l /\
    match tfind "step" c with Some (TNum x) => cast_int x | _ => Ok 1%Z end = Ok st /\
    forall j p v m, nth_error (ms_real s) j = Some p -> nth_error (ms_m0 s) j = Some v -> nth_error (ms_m1 s) j = Some m ->
    exists v' m' t, sext_cell c d (recalc (ms_ref s)) B3 (l * MtoMM / IZR st) st (recalc p) v m = Ok (v', m', t) /\
      nth_error (ms_m0 s') j = Some v' /\ nth_error (ms_m1 s') j = Some m'.
Proof.
  intros A H. unfold advance_sext in H. apply rbind_ok in H as (B3 & H1 & H). apply rbind_ok in H as (l & H2 & H).
  apply rbind_ok in H as (st & H3 & H). cbv zeta in H. destruct (_ || _)%bool; [discriminate|].
  apply rbind_ok in H as (cs & H4 & H). apply rbind_ok in H as (m0 & H5 & H). apply rbind_ok in H as (m1 & H6 & H).
  apply rbind_ok in H as (tm & H7 & H). apply calc_keeps in H as (K1 & K2 & K3 & K4 & K5 & K6). cbn [ms_pos ms_ref ms_real ms_m0 ms_m1 ms_tm] in *.
  split; [exact K1|]. split; [rewrite K2; reflexivity|]. split.
  { rewrite K3. cbn [ms_recalc ms_real]. rewrite !map_map. reflexivity. }
  exists B3, l, st. repeat (split; [assumption|]). intros j p v m Hp Hv Hm.
  assert (HC : nth_error (cells (ms_real (ms_recalc s)) (ms_m0 (ms_recalc s)) (ms_m1 (ms_recalc s))) j = Some (recalc p, (v, m))).
  { unfold cells. apply nth_combine; [|apply nth_combine; auto]. change (ms_real (ms_recalc s)) with (map recalc (ms_real s)). apply map_nth_error; auto. }
  destruct (rmap_nth _ _ _ _ _ H4 HC) as ([[v' m'] t] & C1 & C2). exists v', m', t. split; [exact C2|]. rewrite K4, K5.
  split; [exact (over_nth _ _ _ _ _ _ _ H5 C1 Hv)|exact (over_nth _ _ _ _ _ _ _ H6 C1 Hm)].
Qed.

(** ** Two elements that differ in their placing *)
Lemma placeable_kind k c : is_a (mkind_name k) c -> placeable c -> plain_kind k \/ k = KSext.
Proof.
  intros H D. apply Exists_exists in D as (t & D1 & D2). assert (E := is_a_inj _ _ _ H D2). rewrite <- E in D1.
  unfold plain_kind. destruct k; cbn [In mkind_name] in *; intuition discriminate.
Qed.
Lemma fit_same k c c' d d' : plain_kind k -> same_else c c' -> mom_ctor w k c = Ok d -> mom_ctor w k c' = Ok d' -> md_fit d = md_fit d'.
Proof.
  intros HK H. unfold mom_ctor. cbv zeta. cbn [plain_kind In] in HK. decompose [or] HK; try contradiction; subst k;
    try (intros H1 H2; injection H1 as <-; injection H2 as <-; reflexivity).
  rewrite (get_flag_same c c' H "HdipoleFitMode") by (cbn; intuition discriminate).
  intros H1 H2. apply rbind_ok in H1 as (x & Hx & H1). apply rbind_ok in H2 as (y & Hy & H2).
  destruct (_ || _)%bool in H1; [|discriminate]. destruct (_ || _)%bool in H2; [|discriminate].
  injection H1 as <-. injection H2 as <-. cbn [md_fit]. congruence.
Qed.
(** What the element does besides moving the beam, and one charge state. *)
Definition finished (k : mkind) (len : R) (s s' : mstate) : Prop :=
  ms_pos s' = ms_pos s + len /\ ms_ref s' = stepped false len (recalc (ms_ref s)) /\
  (k <> KSBend -> ms_real s' = map (fun p => stepped false len (recalc p)) (ms_real s)) /\
  (k = KSBend -> forall j p v v', nth_error (ms_real s) j = Some p -> nth_error (ms_m0 s) j = Some v -> nth_error (ms_m0 s') j = Some v' ->
       nth_error (ms_real s') j = Some (add_phis (recalc p) (p_K (recalc p) * len * 1000 + (v' PS_S - v PS_S)))).
Lemma placed_pair k c c' d d' s s' f f' a a' : plain_kind k \/ k = KSext -> same_else c c' ->
  mom_ctor w k c = Ok d -> mom_ctor w k c' = Ok d' -> aligned s -> aligned s' ->
  ms_ref s' = ms_ref s -> ms_real s' = ms_real s -> 0 < p_Es (ms_ref s) ->
  advance_of w k c d false s = (a, Ok f) -> advance_of w k c' d' false s' = (a', Ok f') ->
  let len := real_at num c "L" 0 in
  finished k len s f /\ finished k len s' f' /\
  forall j q v S v' S', moving q -> nth_error (ms_real s) j = Some q ->
    nth_error (ms_m0 s) j = Some v -> nth_error (ms_m1 s) j = Some S ->
    nth_error (ms_m0 s') j = Some v' -> nth_error (ms_m1 s') j = Some S' ->
    exists M IM M' IM' act v1 S1 v2 S2, steady act /\
      get_misalign (sh_at w c) len (recalc (ms_ref s)) (recalc q) = Ok (M, IM) /\
      get_misalign (sh_at w c') len (recalc (ms_ref s)) (recalc q) = Ok (M', IM') /\
      nth_error (ms_m0 f) j = Some v1 /\ nth_error (ms_m1 f) j = Some S1 /\
      nth_error (ms_m0 f') j = Some v2 /\ nth_error (ms_m1 f') j = Some S2 /\
      done_by act M IM v S v1 S1 /\ done_by act M' IM' v' S' v2 S2 /\
      (unit_last v' -> flat S' -> unit_last v2 /\ flat S2).
Proof.
  intros HK HE HC HC' A A' Hr Hp HES EA EA' len.
  destruct (ctor_data w _ _ _ HC) as (C1 & C2 & C3). destruct (ctor_data w _ _ _ HC') as (D1 & D2 & D3).
  assert (F := ctor_fresh w _ _ _ HC). assert (F' := ctor_fresh w _ _ _ HC').
  assert (L1 : md_len d = len).
  { rewrite C3. destruct HK as [HK| ->]; [cbn [plain_kind In] in HK; decompose [or] HK; try contradiction; subst k; reflexivity|reflexivity]. }
  assert (LL : real_at num c' "L" 0 = len).
  { unfold len, real_at, num_at. rewrite (HE "L") by (cbn; intuition discriminate). reflexivity. }
  assert (L2 : md_len d' = len).
  { rewrite D3. destruct HK as [HK| ->]; [cbn [plain_kind In] in HK; decompose [or] HK; try contradiction; subst k; exact LL|exact LL]. }
  destruct HK as [HK| ->].
  - assert (X : forall c d s f a, fresh d -> md_tm d = [] -> aligned s -> md_len d = len -> advance_of w k c d false s = (a, Ok f) ->
      exists g, setup w k d c (recalc (ms_ref s)) = Ok g /\ finished k len s f /\ cell_done g false s f).
    { clear - HK. clearbody len. clear c. intros c d s f a F T A L E. assert (B : k = KSBend \/ advance_base w k c d false s = (a, Ok f)).
      { cbn [plain_kind In] in HK. decompose [or] HK; try contradiction; subst k; auto. }
      destruct B as [->|B].
      - cbn [advance_of] in E. destruct (sbend_does w c d false s a f F T A E) as (g & G1 & G3 & G4 & G5 & G2). exists g.
        split; [exact G1|]. split; [|exact G2]. rewrite L in *. split; [exact G3|]. split; [exact G4|]. split; [congruence|intros _; exact G5].
      - destruct (base_does w k c d false s a f F T A B) as (g & G1 & G3 & G4 & G5 & G2). exists g.
        split; [exact G1|]. split; [|exact G2]. rewrite L in *. split; [exact G3|]. split; [exact G4|]. split; [intros _; exact G5|].
        intros Hk. subst k. cbn [advance_of] in E. destruct (sbend_does w c d false s a f F T A E) as (g' & _ & _ & _ & G6 & _). rewrite L in *. exact G6. }
    destruct (X _ _ _ _ _ F C1 A L1 EA) as (g & G1 & G2 & G3). destruct (X _ _ _ _ _ F' D1 A' L2 EA') as (g' & G1' & G2' & G3').
    split; [exact G2|]. split; [exact G2'|]. intros j q v S v' S' Mq Hq Hv HS Hv' HS'.
    destruct (G3 j q v S Hq Hv HS) as (T & T' & T1 & T2 & _ & T4 & T5). unfold applied in T2. subst T'.
    rewrite <- Hp in Hq. destruct (G3' j q v' S' Hq Hv' HS') as (U & U' & U1 & U2 & _ & U4 & U5). unfold applied in U2. subst U'.
    destruct (misalign_runs (sh_at w c) len (ms_ref s) q Mq HES) as (M & IM & HM).
    destruct (misalign_runs (sh_at w c') len (ms_ref s) q Mq HES) as (M' & IM' & HM').
    rewrite Hr in G1'. rewrite <- (setup_same c c' HE k d' _ HK) in G1'.
    assert (L1' : md_len d = real_at num c "L" 0) by exact L1.
    assert (Y : exists B, meq 7 T (mmul 7 IM (mmul 7 B M)) /\ meq 7 U (mmul 7 IM' (mmul 7 B M'))).
    { destruct (setup_split k d d' c _ g g' HK (fit_same k c c' d d' HK HE HC HC') L1' G1 G1' _ _ _ _ T1 U1) as [(-> & -> & Z)|(B & B1 & B2)].
      - exists mid. rewrite L1 in Z. rewrite Z in HM, HM'. apply misalign_zero in HM, HM'. rewrite !mid_l, HM, HM'. split; reflexivity.
      - exists B. unfold misaligned in B1, B2. rewrite C2, L1, HM in B1. rewrite D2, L2, HM' in B2.
        apply pair_eq in B1 as [<- _]. apply pair_eq in B2 as [<- _]. split; reflexivity. }
    destruct Y as (B & Y1 & Y2). exists M, IM, M', IM', (fun v S => (mapp 7 B v, sandwich B S)).
    do 4 eexists. split; [apply steady_T|]. split; [exact HM|]. split; [exact HM'|]. split; [exact T4|]. split; [exact T5|]. split; [exact U4|].
    split; [exact U5|]. split; [apply done_T; auto|]. split; [apply done_T; auto|].
    assert (AU : affine U).
    { assert (X2 := P_setup w affine affine_id affine_mul affine_inv affine_set affine_ver k d' c (recalc (ms_ref s)) g').
      specialize (X2 ltac:(intros ->; cbn [plain_kind In] in HK; intuition discriminate) G1' (recalc q) mid affine_id). rewrite U1 in X2. exact X2. }
    intros HV HF. split; [apply unit_app; auto|apply flat_sandwich; auto].
  - cbn [advance_of] in EA, EA'. apply pair_eq in EA as [_ EA]. apply pair_eq in EA' as [_ EA'].
    destruct (sext_does c d s f A EA) as (P1 & P2 & P3 & B3 & l & st & Q1 & Q2 & Q3 & Q4).
    destruct (sext_does c' d' s' f' A' EA') as (P1' & P2' & P3' & B3' & l' & st' & Q1' & Q2' & Q3' & Q4').
    rewrite L1 in *. rewrite L2 in *.
    split; [split; [exact P1|split; [exact P2|split; [intros _; exact P3|discriminate]]]|]. split; [split; [exact P1'|split; [exact P2'|split; [intros _; exact P3'|discriminate]]]|].
    rewrite <- (num_of_same c c' HE "B3") in Q1' by (cbn; intuition discriminate).
    rewrite <- (num_of_same c c' HE "L") in Q2' by (cbn; intuition discriminate).
    rewrite <- (HE "step") in Q3' by (cbn; intuition discriminate).
    assert (B3' = B3) as -> by congruence. assert (l' = l) as -> by congruence. assert (st' = st) as -> by congruence.
    intros j q v S v' S' Mq Hq Hv HS Hv' HS'.
    destruct (Q4 j q v S Hq Hv HS) as (v1 & S1 & t & R1 & R2 & R3).
    rewrite <- Hp in Hq. destruct (Q4' j q v' S' Hq Hv' HS') as (v2 & S2 & t' & R1' & R2' & R3').
    rewrite Hr in R1'. unfold sext_cell in R1, R1'. rewrite C2, L1 in R1. rewrite D2, L2 in R1'.
    rewrite <- (is_one_same c c' HE "thinlens"), <- (is_one_same c c' HE "dstkick") in R1' by (cbn; intuition discriminate).
    apply rbind_ok in R1 as ([M IM] & HM & R1). apply rbind_ok in R1' as ([M' IM'] & HM' & R1').
    set (steps := sext_steps (Z.to_nat st) (l * MtoMM / IZR st) (B3 / brho (recalc q) / cube MtoMM) (is_one c "thinlens" false) (is_one c "dstkick" true) (recalc q)) in *.
    exists M, IM, M', IM', (fun v S => (fst (fst (steps v S mid mid)), snd (fst (steps v S mid mid)))), v1, S1, v2, S2.
    split.
    { intros x x' Y Y' E1 E2. cbn [fst snd]. pose proof (sext_steps_same (Z.to_nat st) (l * MtoMM / IZR st) (B3 / brho (recalc q) / cube MtoMM)
        (is_one c "thinlens" false) (is_one c "dstkick" true) (recalc q) x x' Y Y' mid mid mid E1 E2) as E. fold steps in E.
      destruct (steps x Y mid mid) as [[? ?] ?]. destruct (steps x' Y' mid mid) as [[? ?] ?]. exact E. }
    split; [exact HM|]. split; [exact HM'|]. repeat (split; [assumption|]). unfold done_by. cbn [fst snd].
    destruct (steps (mapp msize M v) _ mid mid) as [[x y] z] eqn:E. destruct (steps (mapp msize M' v') _ mid mid) as [[x' y'] z'] eqn:E'.
    apply (f_equal (fun r => match r with Ok x => fst x | Throw _ => (v1, S1) end)) in R1. apply pair_eq in R1 as [<- <-].
    apply (f_equal (fun r => match r with Ok x => fst x | Throw _ => (v2, S2) end)) in R1'. apply pair_eq in R1' as [<- <-].
    change msize with 7%nat in E, E'. rewrite E, E'. cbn [fst snd]. split; [split; reflexivity|]. split; [split; reflexivity|].
    apply misalign_affine in HM' as [AM AI]. intros HV HF.
    destruct (sext_steps_inv affine unit_last flat affine_id affine_mul affine_set unit_app flat_sandwich _ _ _ _ _ _ _ _ _ _ _ _ _ affine_id (unit_app _ _ AM HV) (flat_sandwich _ _ AM HF) E') as [HV' HF'].
    split; [apply unit_app; auto|apply flat_sandwich; auto].
Qed.

(** ** From the machines *)
Lemma through_step ec s s' : sane w -> goes_through w ec s s' -> aligned s /\
  exists k d a, is_a (mkind_name k) ec /\ mom_ctor w k ec = Ok d /\ advance_of w k ec d false s = (a, Ok s').
Proof.
  intros W (c & m & es & us & i & st & p & f & H1 & H2 & H3 & H4 & H5 & H6 & A & H7 & H8 & H9). split; [exact A|].
  rewrite <- H6 in A. destruct (one_step w false c m es us i ec st p 1 W H1 H2 H3 H4 H5 A eq_refl H7) as (k & d0 & Hk & HC & HE).
  rewrite H8 in HE. symmetry in HE. apply rbind_ok in HE as (s1 & HA & HE).
  apply (f_equal (fun r => match r with Ok x => st_body x | Throw _ => s1 end)) in HE. cbn [st_body] in HE.
  rewrite <- H9, <- HE. exists k, d0. rewrite H6 in HA. destruct (advance_of w k ec d0 false s) as [a r] eqn:EA. exists a.
  cbn [snd] in HA. rewrite HA. auto.
Qed.
Lemma kind_one k k' c : is_a (mkind_name k) c -> is_a (mkind_name k') c -> k = k'.
Proof. intros H H'. assert (E := is_a_inj _ _ _ H H'). destruct k, k'; try discriminate; reflexivity. Qed.
Lemma moving_in ps j q : Forall moving ps -> nth_error ps j = Some q -> moving q.
Proof. intros H Hq. rewrite Forall_forall in H. apply H. eapply nth_error_In; eauto. Qed.

Lemma only_frame ec ec' s s' f f' : sane w -> goes_through w ec s f -> goes_through w ec' s' f' ->
  same_else ec ec' -> placeable ec -> same_moving s s' ->
  let L := real_at num ec "L" 0 * 1000 in
  look_alike num ec ec' (- L / 2) (ms_ref s) (ms_real s) s s' ->
  look_alike num ec ec' (L / 2) (ms_ref s) (ms_real s) f f' /\
  ms_pos f - ms_pos s = ms_pos f' - ms_pos s' /\ ms_ref f' = ms_ref f /\ (~ is_a "sbend" ec -> ms_real f' = ms_real f).
Proof.
  intros W G G' HE HP (Er & Ep & Mr & Mp) L HL.
  destruct (through_step _ _ _ W G) as (A & k & d & a & Hk & HC & EA). destruct (through_step _ _ _ W G') as (A' & k' & d' & a' & Hk' & HC' & EA').
  assert (k' = k) as -> by (eapply kind_one; [exact Hk'|]; apply (is_a_same ec ec' HE); exact Hk).
  assert (ES : 0 < p_Es (ms_ref s)) by apply Mr.
  destruct (placed_pair k ec ec' d d' s s' f f' a a' (placeable_kind _ _ Hk HP) HE HC HC' A A' Er Ep ES EA EA') as (F1 & F2 & FC).
  destruct F1 as (P1 & P2 & P3 & _). destruct F2 as (P1' & P2' & P3' & _).
  split; [|split; [rewrite P1, P1'; ring|split; [rewrite P2, P2', Er; reflexivity|]]].
  2:{ intros N. assert (k <> KSBend) as NK by (intros ->; apply N; exact Hk). rewrite P3, P3', Ep by exact NK. reflexivity. }
  intros j q v1 S1 v2 S2 Hq Hv1 HS1 Hv2 HS2.
  assert (Mq := moving_in _ _ _ Mp Hq). assert (Hj := nth_lt _ _ _ Hq).
  destruct A as (_ & A1 & A2 & _). destruct A' as (_ & A1' & A2' & _). rewrite Ep in A1', A2'.
  destruct (nth_ex (ms_m0 s) j _ A1 Hj) as [v Hv]. destruct (nth_ex (ms_m1 s) j _ A2 Hj) as [S HS].
  destruct (nth_ex (ms_m0 s') j _ A1' Hj) as [v' Hv']. destruct (nth_ex (ms_m1 s') j _ A2' Hj) as [S' HS'].
  destruct (FC j q v S v' S' Mq Hq Hv HS Hv' HS') as (M & IM & M' & IM' & act & x1 & X1 & x2 & X2 & HA & HM & HM' & Y1 & Y2 & Y3 & Y4 & D1 & D2 & _).
  rewrite Hv1 in Y1. rewrite HS1 in Y2. rewrite Hv2 in Y3. rewrite HS2 in Y4. apply some_eq in Y1, Y2, Y3, Y4. subst x1 X1 x2 X2.
  destruct (HL j q v S v' S' Hq Hv HS Hv' HS') as (u & U & (E & AE & FE & TE) & (E' & AE' & FE' & TE')).
  destruct (frame_all _ _ _ _ _ _ Mq ES HM) as (AM & FM & B & AB & IB & FB).
  destruct (frame_all _ _ _ _ _ _ Mq ES HM') as (AM' & FM' & B' & AB' & IB' & FB').
  assert (EM : meq 7 E M) by (apply agree_meq; intros x Hx; eapply framed_one; [exact Mq|exact ES|apply FE; exact Hx|apply FM; exact Hx]).
  assert (EM' : meq 7 E' M') by (apply agree_meq; intros x Hx; eapply framed_one; [exact Mq|exact ES|apply FE'; exact Hx|apply FM'; exact Hx]).
  apply carried in TE as [T1 T2]. apply carried in TE' as [T1' T2'].
  assert (V1 : veq 7 (mapp 7 M v) u) by (rewrite T1, EM; reflexivity). assert (V2 : veq 7 (mapp 7 M' v') u) by (rewrite T1', EM'; reflexivity).
  assert (Z1 : meq 7 (sandwich M S) U) by (rewrite T2; apply sandwich_meq; [symmetry; exact EM|reflexivity]).
  assert (Z2 : meq 7 (sandwich M' S') U) by (rewrite T2'; apply sandwich_meq; [symmetry; exact EM'|reflexivity]).
  destruct (HA _ _ _ _ V1 Z1) as [Q1 Q2]. destruct (HA _ _ _ _ V2 Z2) as [R1 R2].
  destruct D1 as [D1 D1']. destruct D2 as [D2 D2'].
  exists (fst (act u U)), (snd (act u U)). split; [exists B|exists B']; (split; [assumption|]); (split; [assumption|]); apply carried; split.
  - rewrite D1, Q1, <- mapp_mmul, (proj2 IB). symmetry. apply mid_app.
  - rewrite (sandwich_meq B B _ _ ltac:(reflexivity) D1'). rewrite sandwich_back by apply IB. symmetry. exact Q2.
  - rewrite D2, R1, <- mapp_mmul, (proj2 IB'). symmetry. apply mid_app.
  - rewrite (sandwich_meq B' B' _ _ ltac:(reflexivity) D2'). rewrite sandwich_back by apply IB'. symmetry. exact R2.
Qed.

Lemma through_lengths k ec d s f a : sane w -> plain_kind k \/ k = KSext -> mom_ctor w k ec = Ok d -> aligned s ->
  advance_of w k ec d false s = (a, Ok f) ->
  aligned f /\ List.length (ms_real f) = List.length (ms_real s).
Proof.
  intros W HK HC A EA.
  assert (KN : k <> KStripper /\ k <> KSource /\ k <> KRFCavity).
  { destruct HK as [HK| ->]; [|repeat split; discriminate]. cbn [plain_kind In] in HK. decompose [or] HK; try contradiction; subst k; repeat split; discriminate. }
  destruct KN as (K1 & K2 & K3).
  assert (SH : shaped k ec d) by (eapply ctor_ok; [|exact HC]; intros; contradiction).
  split; [exact (proj1 (advance_ok w W _ _ _ _ _ _ _ SH A EA))|].
  assert (KR : Forall2 (fun _ _ => True) (ms_real s) (ms_real f)).
  { refine (proj2 (proj2 (step_kept w (fun _ _ => True) _ _ _ _ _ _ k ec d false s a f K2 K1 _ SH (ctor_noted w (fun _ _ => True) _ _ _ HC) EA))); auto.
    intros; contradiction. }
  symmetry. apply (Forall2_len _ _ _ KR).
Qed.

(** ** Displaced elements *)
Definition back_by (x y : R) : mat := mset (mset mid 0 6 (- x)) 2 6 (- y).
Lemma back_by_affine x y : affine (back_by x y).
Proof. unfold back_by. repeat (apply affine_set; [lia|]). apply affine_id. Qed.
Lemma back_by_at x y v : veq 7 (mapp 7 (back_by x y) v)
  (fun i => match i with 0 => (v 0%nat - x * v 6%nat)%R | 2 => (v 2%nat - y * v 6%nat)%R | _ => v i end%nat).
Proof. intros i Hi. unfold back_by. idx7 i Hi; cbv [mapp sumn mset mid Nat.eqb andb]; ring. Qed.
Lemma back_by_flat x y S : flat S -> meq 7 (sandwich (back_by x y) S) S.
Proof.
  intros F. apply form_meq. intros a b. destruct (moved (back_by x y) (fun _ => 0) S) as [_ ->].
  pose proof (F 0%nat ltac:(lia)) as F0. pose proof (F 1%nat ltac:(lia)) as F1. pose proof (F 2%nat ltac:(lia)) as F2.
  pose proof (F 3%nat ltac:(lia)) as F3. pose proof (F 4%nat ltac:(lia)) as F4. pose proof (F 5%nat ltac:(lia)) as F5.
  pose proof (F 6%nat ltac:(lia)) as F6. destruct F0, F1, F2, F3, F4, F5, F6.
  unfold dot, mapp, back_by. cbv [sumn mtr mset mid Nat.eqb andb].
  repeat match goal with X : S _ _ = 0 |- _ => rewrite X; clear X end. ring.
Qed.
Lemma framed_shift c c' z ref p x y v v' u : same_angles num c c' -> x = (real_at num c' "dx" 0 - real_at num c "dx" 0) * 1000 ->
  y = (real_at num c' "dy" 0 - real_at num c "dy" 0) * 1000 ->
  (forall i, (i < 7)%nat -> v i = match i with 0 => (v' 0%nat - x)%R | 2 => (v' 2%nat - y)%R | _ => v' i end%nat) ->
  framed num c z ref p v u -> framed num c' z ref p v' u.
Proof.
  intros HA -> -> HV. unfold same_angles in HA. inversion HA as [|? ? E1 HA1]; subst. inversion HA1 as [|? ? E2 HA2]; subst. inversion HA2 as [|? ? E3 _]; subst.
  unfold framed. rewrite <- E1, <- E2, <- E3.
  rewrite (HV 0%nat), (HV 1%nat), (HV 2%nat), (HV 3%nat), (HV 4%nat), (HV 5%nat), (HV 6%nat) by lia.
  replace (v' 0%nat - (real_at num c' "dx" 0 - real_at num c "dx" 0) * 1000 - real_at num c "dx" 0 * 1000) with (v' 0%nat - real_at num c' "dx" 0 * 1000) by ring.
  replace (v' 2%nat - (real_at num c' "dy" 0 - real_at num c "dy" 0) * 1000 - real_at num c "dy" 0 * 1000) with (v' 2%nat - real_at num c' "dy" 0 * 1000) by ring.
  auto.
Qed.
Lemma shift_frame c c' z ref p x y F : same_angles num c c' -> x = (real_at num c' "dx" 0 - real_at num c "dx" 0) * 1000 ->
  y = (real_at num c' "dy" 0 - real_at num c "dy" 0) * 1000 -> affine F -> (forall u, unit_last u -> framed num c z ref p u (mapp 7 F u)) ->
  affine (mmul 7 F (back_by x y)) /\ forall u, unit_last u -> framed num c' z ref p u (mapp 7 (mmul 7 F (back_by x y)) u).
Proof.
  intros HA HX HY AF HF. split; [apply affine_mul; auto; apply back_by_affine|]. intros u Hu.
  assert (B := back_by_at x y u).
  eapply framed_veq; [reflexivity|symmetry; apply mapp_mmul|].
  eapply (framed_shift c c' z ref p x y (mapp 7 (back_by x y) u)); auto.
  - intros i Hi. rewrite (B i Hi). unfold unit_last in Hu. rewrite Hu. destruct i as [|[|[|]]]; auto; ring.
  - apply HF. unfold unit_last. rewrite last_one by apply back_by_affine. exact Hu.
Qed.
Lemma displaced_back x y s s' j v S v' S' : displaced x y s s' -> nth_error (ms_m0 s) j = Some v -> nth_error (ms_m1 s) j = Some S ->
  nth_error (ms_m0 s') j = Some v' -> nth_error (ms_m1 s') j = Some S' -> unit_last v -> flat S ->
  unit_last v' /\ flat S' /\ veq 7 v (mapp 7 (back_by x y) v') /\ meq 7 S (sandwich (back_by x y) S').
Proof.
  intros D H1 H2 H3 H4 HV HF. destruct (D j v S v' S' H1 H2 H3 H4) as [E V].
  assert (V6 : unit_last v') by (unfold unit_last; rewrite (V 6%nat) by lia; exact HV).
  assert (F' : flat S').
  { intros i Hi. rewrite <- !E by lia. apply HF; auto. }
  split; [exact V6|]. split; [exact F'|]. split.
  - rewrite back_by_at. intros i Hi. unfold unit_last in V6. rewrite V6.
    idx7 i Hi; rewrite ?(V 0%nat), ?(V 2%nat) by lia; try ring; symmetry; apply V; lia.
  - rewrite back_by_flat by auto. exact E.
Qed.
Lemma nth_forall {A} (P : A -> Prop) l j a : Forall P l -> nth_error l j = Some a -> P a.
Proof. intros F H. rewrite Forall_forall in F. apply F. eapply nth_error_In; eauto. Qed.

Lemma shift_moves ec ec' s s' f f' : sane w -> goes_through w ec s f -> goes_through w ec' s' f' ->
  same_else ec ec' -> same_angles num ec ec' -> placeable ec -> same_moving s s' ->
  Forall unit_last (ms_m0 s) -> Forall flat (ms_m1 s) ->
  let x := (real_at num ec' "dx" 0 - real_at num ec "dx" 0) * 1000 in
  let y := (real_at num ec' "dy" 0 - real_at num ec "dy" 0) * 1000 in
  displaced x y s s' -> displaced x y f f' /\ ms_ref f' = ms_ref f /\ ms_real f' = ms_real f.
Proof.
  intros W G G' HE HA HP HM HU HFl x y HD. assert (HM' := HM). destruct HM' as (Er & Ep & Mr & Mp).
  destruct (through_step _ _ _ W G) as (A & k & d & a & Hk & HC & EA). destruct (through_step _ _ _ W G') as (A' & k' & d' & a' & Hk' & HC' & EA').
  assert (k' = k) as -> by (eapply kind_one; [exact Hk'|]; apply (is_a_same ec ec' HE); exact Hk).
  assert (ES : 0 < p_Es (ms_ref s)) by apply Mr. assert (PK := placeable_kind _ _ Hk HP).
  destruct (placed_pair k ec ec' d d' s s' f f' a a' PK HE HC HC' A A' Er Ep ES EA EA') as (F1 & F2 & FC).
  destruct F1 as (P1 & P2 & P3 & P4). destruct F2 as (P1' & P2' & P3' & P4').
  destruct (through_lengths _ _ _ _ _ _ W PK HC A EA) as [AF LF]. destruct (through_lengths _ _ _ _ _ _ W PK HC' A' EA') as [AF' LF'].
  assert (Z : forall j q, nth_error (ms_real s) j = Some q -> exists v v' S S' v1 v2 S1 S2,
    nth_error (ms_m0 s) j = Some v /\ nth_error (ms_m0 s') j = Some v' /\ nth_error (ms_m1 s) j = Some S /\ nth_error (ms_m1 s') j = Some S' /\
    nth_error (ms_m0 f) j = Some v1 /\ nth_error (ms_m0 f') j = Some v2 /\ nth_error (ms_m1 f) j = Some S1 /\ nth_error (ms_m1 f') j = Some S2 /\
    meq 7 S1 S2 /\ veq 7 v2 (fun i => match i with 0 => (v1 0%nat + x)%R | 2 => (v1 2%nat + y)%R | _ => v1 i end%nat)).
  { intros j q Hq. assert (Mq := moving_in _ _ _ Mp Hq). assert (Hj := nth_lt _ _ _ Hq).
    assert (A2 := A). assert (A2' := A'). destruct A2 as (_ & A1 & A2 & _). destruct A2' as (_ & A1' & A2' & _). rewrite Ep in A1', A2'.
    destruct (nth_ex (ms_m0 s) j _ A1 Hj) as [v Hv]. destruct (nth_ex (ms_m1 s) j _ A2 Hj) as [S HS].
    destruct (nth_ex (ms_m0 s') j _ A1' Hj) as [v' Hv']. destruct (nth_ex (ms_m1 s') j _ A2' Hj) as [S' HS'].
    destruct (FC j q v S v' S' Mq Hq Hv HS Hv' HS') as (M & IM & M' & IM' & act & v1 & S1 & v2 & S2 & HS0 & HMM & HMM' & Y1 & Y2 & Y3 & Y4 & D1 & D2 & D3).
    exists v, v', S, S', v1, v2, S1, S2. do 8 (split; [assumption|]).
    destruct (displaced_back _ _ _ _ _ _ _ _ _ HD Hv HS Hv' HS' (nth_forall _ _ _ _ HU Hv) (nth_forall _ _ _ _ HFl HS)) as (V6 & FS' & VB & SB).
    destruct (D3 V6 FS') as [V6' FS2].
    destruct (frame_all _ _ _ _ _ _ Mq ES HMM) as (AM & FM & B & AB & IB & FB).
    destruct (frame_all _ _ _ _ _ _ Mq ES HMM') as (AM' & FM' & B' & AB' & IB' & FB').
    assert (EM : meq 7 M' (mmul 7 M (back_by x y))).
    { destruct (shift_frame ec ec' _ _ _ x y M HA eq_refl eq_refl AM FM) as [_ X].
      apply agree_meq. intros u Hu. eapply framed_one; [exact Mq|exact ES|apply FM'; exact Hu|apply X; exact Hu]. }
    assert (EB : meq 7 B' (mmul 7 B (back_by x y))).
    { destruct (shift_frame ec ec' _ _ _ x y B HA eq_refl eq_refl AB FB) as [_ X].
      apply agree_meq. intros u Hu. eapply framed_one; [exact Mq|exact ES|apply FB'; exact Hu|apply X; exact Hu]. }
    assert (X1 : veq 7 (mapp 7 M v) (mapp 7 M' v')) by (rewrite EM, mapp_mmul, VB; reflexivity).
    assert (X2 : meq 7 (sandwich M S) (sandwich M' S')).
    { rewrite (sandwich_meq M M _ _ ltac:(reflexivity) SB), sandwich_twice. apply sandwich_meq; [symmetry; exact EM|reflexivity]. }
    destruct (HS0 _ _ _ _ X1 X2) as [Q1 Q2]. destruct D1 as [D1 D1']. destruct D2 as [D2 D2'].
    set (u := fst (act (mapp 7 M v) (sandwich M S))) in *. set (u' := fst (act (mapp 7 M' v') (sandwich M' S'))) in *.
    set (U := snd (act (mapp 7 M v) (sandwich M S))) in *. set (U' := snd (act (mapp 7 M' v') (sandwich M' S'))) in *.
    assert (V1 : veq 7 v1 (mapp 7 (back_by x y) v2)).
    { rewrite D1, Q1. rewrite <- (mid_app 7 u'). rewrite <- (proj2 IB'). rewrite (mapp_mmul 7 B' IM'), <- D2. rewrite EB, (mapp_mmul 7 B).
      rewrite <- mapp_mmul, (proj1 IB). apply mid_app. }
    assert (S12 : meq 7 S1 S2).
    { rewrite D1', (sandwich_meq IM IM _ _ ltac:(reflexivity) Q2).
      rewrite (sandwich_meq IM IM U' (sandwich B' S2)); [|reflexivity|].
      - rewrite (sandwich_meq IM IM (sandwich B' S2) (sandwich (mmul 7 B (back_by x y)) S2)); [|reflexivity|apply sandwich_meq; [exact EB|reflexivity]].
        rewrite sandwich_twice. rewrite (sandwich_meq _ (back_by x y) S2 S2); [apply back_by_flat; exact FS2| |reflexivity].
        rewrite (mmul_assoc 7 IM B), (proj1 IB). apply mid_l.
      - rewrite (sandwich_meq B' B' _ _ ltac:(reflexivity) D2'). rewrite sandwich_back by apply IB'. reflexivity. }
    split; [exact S12|]. rewrite back_by_at in V1. unfold unit_last in V6'. rewrite V6' in V1. intros i Hi.
    rewrite ?(V1 0%nat), ?(V1 2%nat) by lia. destruct i as [|[|[|i]]]; try ring; symmetry; apply (V1 _ Hi). }
  split.
  - intros j v1 S1 v2 S2 H1 H2 H3 H4. assert (Hj := nth_lt _ _ _ H1). destruct AF as (_ & AF & _). rewrite AF, LF in Hj.
    destruct (nth_ex (ms_real s) j _ eq_refl Hj) as [q Hq].
    destruct (Z j q Hq) as (v & v' & S & S' & v3 & v4 & S3 & S4 & _ & _ & _ & _ & Z1 & Z2 & Z3 & Z4 & Z5).
    rewrite H1 in Z1. rewrite H2 in Z3. rewrite H3 in Z2. rewrite H4 in Z4. apply some_eq in Z1, Z2, Z3, Z4. subst. exact Z5.
  - split; [rewrite P2, P2', Er; reflexivity|].
    assert (B : k = KSBend \/ k <> KSBend) by (destruct k; auto; right; discriminate). destruct B as [B|B].
    + apply list_ext. intros j. destruct (nth_error (ms_real s) j) as [q|] eqn:Hq.
      * destruct (Z j q Hq) as (v & v' & S & S' & v3 & v4 & S3 & S4 & Z6 & Z7 & Z8 & Z9 & Z1 & Z2 & Z3 & Z4 & Z5 & Z5').
        rewrite (P4 B j q v v3 Hq Z6 Z1). rewrite <- Ep in Hq. rewrite (P4' B j q v' v4 Hq Z7 Z2). unfold PS_S. rewrite (Z5' 4%nat) by lia.
        destruct (HD j v S v' S' Z6 Z8 Z7 Z9) as [_ V]. rewrite (V 4%nat) by lia. reflexivity.
      * apply nth_error_None in Hq. rewrite !(proj2 (nth_error_None _ _)); [reflexivity| |]; rewrite ?LF, ?LF', ?Ep; auto.
    + rewrite P3, P3', Ep by exact B. reflexivity.
Qed.

(** ** Elements placed well *)
Lemma turned_zero a : turned 0 0 0 a = a.
Proof. destruct a as [[x y] z]. unfold turned. rewrite cos_0, sin_0. f_equal; [f_equal|]; ring. Qed.
Lemma framed_well c z ref p v u : moving p -> 0 < p_Es ref -> placed_well num c -> framed num c z ref p v u -> veq 7 u v.
Proof.
  intros HP HE HW (F1 & F2 & F3). unfold placed_well, placing in HW. inversion HW as [|? ? E1 W1]; subst. inversion W1 as [|? ? E2 W2]; subst.
  inversion W2 as [|? ? E3 W3]; subst. inversion W3 as [|? ? E4 W4]; subst. inversion W4 as [|? ? E5 _]; subst.
  rewrite E1, E2, E3, E4, E5, turned_zero in F1. rewrite E3, E4, E5, turned_zero in F2. rewrite Rmult_0_l, !Rminus_0_r in F1.
  assert (NB := frame_b ref p HP HE). destruct (moving_facts p HP) as (G & B & _ & K & _).
  injection F1 as X0 X2 X4. injection F2 as X1 X3 X5. apply dist_one in X4; auto. apply div_one in X5; auto.
  intros i Hi. idx7 i Hi; auto.
Qed.
Definition eases (g : leg) : Prop := match g with Along _ _ => True | Via r => forall u u2 a, veq 7 u u2 -> r u a -> r u2 a end.
Lemma passes_from l : Forall eases l -> forall u u2 a, veq 7 u u2 -> passes l u a -> passes l u2 a.
Proof.
  destruct l as [|g l]; intros H u u2 a E; cbn [passes]; [rewrite E; auto|]. inversion H as [|? ? H1 H2]; subst. destruct g as [A len|r].
  - intros (x & u1 & X1 & X2 & X3 & X4). exists x, u1. rewrite X2. auto.
  - intros (u1 & X1 & X2). exists u1. split; [eapply H1; eauto|exact X2].
Qed.
Lemma passes_last l (r : vec -> vec -> Prop) : (forall u u', r u u' -> veq 7 u u') -> forall u a, passes (l ++ [Via r]) u a -> passes l u a.
Proof.
  intros Hr. induction l as [|g l IH]; intros u a; cbn [app passes].
  - intros (u1 & X1 & X2). rewrite <- X2. apply Hr; exact X1.
  - destruct g as [A len|r'].
    + intros (x & u1 & X1 & X2 & X3 & X4). exists x, u1. auto.
    + intros (u1 & X1 & X2). exists u1. auto.
Qed.
Lemma inside_bare c z z' ref p l u a : moving p -> 0 < p_Es ref -> placed_well num c -> Forall eases l ->
  passes (Via (framed num c z ref p) :: l ++ [Via (fun u v => framed num c z' ref p v u)]) u a -> passes l u a.
Proof.
  intros HP HE HW HL (u1 & X1 & X2). apply framed_well in X1; auto. apply passes_last in X2.
  - eapply passes_from; eauto.
  - intros x x' X. eapply framed_well; eauto.
Qed.
Lemma edge_eases h a : eases (Via (edge h a)).
Proof.
  intros u u2 b E. unfold edge. intros H i Hi. rewrite (H i Hi). rewrite (E 0%nat), (E 1%nat), (E 2%nat), (E 3%nat) by lia.
  destruct i as [|[|[|[|i]]]]; auto; apply E; lia.
Qed.
Lemma course_bare c ref p legs : moving p -> 0 < p_Es ref -> placed_well num c -> steerable c -> course w c ref p legs ->
  exists legs', bare_course w c ref p legs' /\ forall u a, passes legs u a -> passes legs' u a.
Proof.
  intros HP HE HW HS HC. assert (ST : forall A L l, Forall eases (stretches A L l)).
  { intros. unfold stretches. apply Forall_forall. intros g Hg. apply in_map_iff in Hg as (b & <- & _). exact I. }
  destruct HC as [Hk|Hk|l Hk HF|l Hk HF|l Hk HF|Hk|fit Hk HF|l M Hk _ _];
    try (exfalso; apply Exists_exists in HS as (t & T1 & T2); 
         repeat match goal with H : _ \/ _ |- _ => destruct H end; try contradiction;
         cbn [In] in T1; match goal with H : is_a ?n c |- _ => assert (E := is_a_inj _ _ _ H T2); subst t end; intuition discriminate).
  - eexists. split; [apply (b_quad w c ref p l); auto|]. intros u a. apply inside_bare; auto.
  - eexists. split; [apply (b_equad w c ref p l); auto|]. intros u a. apply inside_bare; auto.
  - eexists. split; [apply (b_sol w c ref p l); auto|]. intros u a. apply inside_bare; auto.
  - eexists. split; [apply (b_trim w c ref p); auto|]. intros u a (u1 & X1 & X2). exists u1. split; [exact X1|].
    eapply (inside_bare c 0 0 ref p [Via (kicked w c ref p)]); auto. constructor; [|constructor].
    intros x x2 b E. unfold kicked. intros H i Hi. rewrite (H i Hi). rewrite (E 1%nat), (E 3%nat), (E 6%nat) by lia.
    destruct i as [|[|[|[|i]]]]; auto; apply E; lia.
  - eexists. split; [apply (b_bend w c ref p fit); auto|]. intros u a. destruct (Req_EM_T _ 0); [auto|]. apply inside_bare; auto.
    unfold sector. cbv zeta. constructor; [apply edge_eases|]. constructor; [exact I|]. constructor; [apply edge_eases|constructor].
Qed.
Lemma well_placed ec s f : sane w -> goes_through w ec s f -> steerable ec -> proper_magnet num ec -> placed_well num ec ->
  moving (ms_ref s) -> Forall moving (ms_real s) ->
  forall j q v S, nth_error (ms_real s) j = Some q -> nth_error (ms_m0 s) j = Some v -> nth_error (ms_m1 s) j = Some S ->
  exists T v' S' legs,
    nth_error (ms_tm f) j = Some T /\ nth_error (ms_m0 f) j = Some v' /\ nth_error (ms_m1 f) j = Some S' /\ transported T v S v' S' /\
    bare_course w ec (ms_ref s) q legs /\ forall u, unit_last u -> passes legs u (mapp 7 T u).
Proof.
  intros W (c & m & es & us & i & st & p & f0 & H1 & H2 & H3 & H4 & H5 & H6 & A & H7 & H8 & H9) HS HPM HW HR HRs j q v S Hq Hv HSS.
  subst s f. assert (HD : described ec).
  { apply Exists_exists in HS as (t & T1 & T2). apply Exists_exists. exists t. split; [|exact T2]. cbn [In] in *. tauto. }
  destruct (moment_motion w c m es us i ec st p f0 W H1 H2 H3 H4 H5 HD HPM A HR HRs H7 H8 j q v S Hq Hv HSS) as (T & v' & S' & legs & X1 & X2 & X3 & X4 & X5 & X6).
  destruct (course_bare ec (ms_ref (st_body st)) q legs (moving_in _ _ _ HRs Hq) (proj1 HR) HW HS X5) as (legs' & L1 & L2).
  exists T, v', S', legs'. repeat (split; [assumption|]). auto.
Qed.
End W.

(** ** An example *)
Definition lens_at (set : list (string * tval)) : tcfg :=
  TCfg ([("B2", TNum done); ("L", TNum done)] ++ set ++ [("name", TStr "q"); ("type", TStr "quadrupole")]) [].
Lemma lens_goes a set s : (set = [] \/ set = [("dx", TNum done)] \/ set = [("dx", TNum done); ("dy", TNum done)]) -> aligned s -> moving (ms_ref s) -> Forall moving (ms_real s) ->
  exists f, goes_through (world0 one_num a) (lens_at set) s f.
Proof.
  intros HS A HR HRs.
  assert (X : exists m, new_machine (moment_reg (world0 one_num a)) (mconf [lens_at set]) = Ok m /\ tfind "elements" (mconf [lens_at set]) = Some (TCfgs [lens_at set]) /\
    Forall strips_to_some [lens_at set] /\ described (lens_at set) /\ equipped (world0 one_num a) (lens_at set)).
  { decompose [or] HS; subst set; (eexists; split; [reflexivity|]; split; [reflexivity|]; split; [repeat constructor; unfold strips_to_some; discriminate|];
      split; [apply Exists_exists; eexists; (split; [|reflexivity]); cbn; tauto|];
      split; [intros _; split; [repeat constructor; discriminate|reflexivity]|repeat split; discriminate]). }
  destruct X as (m & X1 & X2 & X3 & X4 & X5).
  destruct (moment_completes (world0 one_num a) false (mconf [lens_at set]) m [lens_at set] [] 0 (lens_at set) (mkSt 0 false s)
    (world0_sane one_num a) X1 X2 X3 I eq_refl X4 X5 ltac:(discriminate) A HR HRs) as (p & f & P1 & P2).
  exists (st_body f), (mconf [lens_at set]), m, [lens_at set], [], 0%nat, (mkSt 0 false s), p, f.
  split; [exact X1|]. split; [exact X2|]. split; [exact X3|]. split; [exact I|]. split; [reflexivity|]. split; [reflexivity|]. split; [exact A|].
  split; [exact P1|]. split; [exact P2|reflexivity].
Qed.
(** The beam seen from elsewhere. *)
Definition moved_state (F : mat) (s : mstate) : mstate :=
  mkMS (ms_pos s) (ms_ref s) (ms_real s) (map (mapp 7 F) (ms_m0 s)) (map (sandwich F) (ms_m1 s)) (ms_tm s) (ms_env0 s) (ms_rms s) (ms_env1 s) (ms_phi0 s).
Lemma moved_aligned F s : aligned s -> aligned (moved_state F s).
Proof. unfold aligned, moved_state. cbn [ms_real ms_m0 ms_m1 ms_tm]. rewrite !map_length. auto. Qed.
Definition over_by (x y : R) : mat := back_by (- x) (- y).
Lemma moved_displaced x y s : Forall unit_last (ms_m0 s) -> Forall flat (ms_m1 s) -> displaced x y s (moved_state (over_by x y) s).
Proof.
  intros U F j v S v' S' H1 H2 H3 H4. cbn [moved_state ms_m0 ms_m1] in H3, H4.
  rewrite (map_nth_error _ _ _ H1) in H3. rewrite (map_nth_error _ _ _ H2) in H4. apply some_eq in H3, H4. subst v' S'.
  assert (HU := nth_forall _ _ _ _ U H1). assert (HF := nth_forall _ _ _ _ F H2). unfold unit_last in HU.
  split; [symmetry; apply back_by_flat; exact HF|]. unfold over_by. rewrite back_by_at, HU. intros i Hi. destruct i as [|[|[|i]]]; auto; ring.
Qed.
Definition beam0 : mstate :=
  let s := state0 2 in mkMS (ms_pos s) (ms_ref s) (ms_real s) (ms_m0 s) (repeat (mset mid 6 6 0) 2) (ms_tm s) (ms_env0 s) (ms_rms s) (ms_env1 s) (ms_phi0 s).
Lemma beam0_facts : aligned beam0 /\ moving (ms_ref beam0) /\ Forall moving (ms_real beam0) /\ Forall unit_last (ms_m0 beam0) /\ Forall flat (ms_m1 beam0).
Proof.
  split; [repeat split; discriminate|]. split; [apply (state0_moving 2)|]. split; [apply (state0_moving 2)|].
  split; [repeat constructor|]. repeat constructor; destruct i as [|[|[|[|[|[|[|i]]]]]]]; try reflexivity; lia.
Qed.

Lemma lens_at_else set set' : Forall (fun x => In (fst x) placing) set -> Forall (fun x => In (fst x) placing) set' -> same_else (lens_at set) (lens_at set').
Proof.
  intros H H' n N.
  assert (X : forall l r : list (string * tval), Forall (fun x => In (fst x) placing) l -> sfind n (l ++ r) = sfind n r).
  { intros l r. induction 1 as [|[k v] l HK HL IH]; cbn [app sfind]; [reflexivity|]. destruct (String.eqb_spec n k) as [->|]; [contradiction|exact IH]. }
  unfold lens_at, tfind, town, touter. cbn [app sfind]. rewrite !X by auto. reflexivity.
Qed.
Lemma shift_looks w ec ec' s s' : let num := w_num w in same_angles num ec ec' -> same_moving s s' ->
  Forall unit_last (ms_m0 s) -> Forall flat (ms_m1 s) ->
  displaced ((real_at num ec' "dx" 0 - real_at num ec "dx" 0) * 1000) ((real_at num ec' "dy" 0 - real_at num ec "dy" 0) * 1000) s s' ->
  look_alike num ec ec' (- (real_at num ec "L" 0 * 1000) / 2) (ms_ref s) (ms_real s) s s'.
Proof.
  intros num HA (Er & Ep & Mr & Mp) HU HF HD j q v S v' S' Hq Hv HS Hv' HS'. assert (Mq := moving_in _ _ _ Mp Hq).
  destruct (misalign_runs (sh_at w ec) (real_at num ec "L" 0) (ms_ref s) q Mq (proj1 Mr)) as (M & IM & HM).
  destruct (frame_all _ _ _ _ _ _ _ Mq (proj1 Mr) HM) as (AM & FM & _).
  destruct (shift_frame w ec ec' _ _ _ _ _ M HA eq_refl eq_refl AM FM) as [AX FX].
  destruct (displaced_back _ _ _ _ _ _ _ _ _ HD Hv HS Hv' HS' (nth_forall _ _ _ _ HU Hv) (nth_forall _ _ _ _ HF HS)) as (V6 & FS' & VB & SB).
  exists (mapp 7 M v), (sandwich M S). split; [exists M|eexists].
  - split; [exact AM|]. split; [exact FM|]. apply moved.
  - split; [exact AX|]. split; [exact FX|]. apply carried. split; [symmetry; etransitivity; [apply mapp_mmul|symmetry; apply mapp_proper; [reflexivity|exact VB]]|].
    rewrite <- sandwich_twice. apply sandwich_meq; [reflexivity|exact SB].
Qed.
