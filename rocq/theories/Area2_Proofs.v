(** Straight elements leave the emittance of each plane alone. *)
From Coq Require Import Reals List String Bool NArith ZArith Arith Lia Lra.
From Verif Require Import SMap SMap_Proofs Dbl Config_Spec Mat Mat_Proofs Minv Minv_Proofs Machine_Model Machine_Spec Machine_Proofs
  Machine2_Proofs Linear_Model Linear_Spec Linear_Proofs Linear2_Proofs Linear3_Proofs.
From Verif Require Import Moment_Model Moment_Spec Motion_Spec Moment_Proofs Moment2_Proofs Moment3_Proofs Moment4_Proofs
  Moment5_Proofs Moment6_Proofs Motion_Proofs Motion2_Proofs Motion3_Proofs Motion4_Proofs Frame_Proofs Area_Spec Area_Proofs.
Import ListNotations.
Open Scope R_scope.
Open Scope string_scope.
Open Scope list_scope.

(** ** Coordinates of two particles, mixed *)
Definition plane (k i : nat) : bool := (Nat.eqb i k || Nat.eqb i (k + 1))%bool.
Definition mix (k : nat) (u v : vec) : vec := fun i => if plane k i then u i else v i.
Definition apart (k : nat) (A : mat) : Prop := forall i j, (i < 7)%nat -> (j < 6)%nat -> plane k i <> plane k j -> A i j = 0.
Definition separates (k : nat) (g : leg) : Prop :=
  match g with
  | Along A _ => apart k A /\ still A 6
  | Via r => forall u v u' v', r u u' -> r v v' -> unit_last u -> unit_last v ->
               unit_last u' /\ unit_last v' /\ r (mix k u v) (mix k u' v')
  end.
Lemma mix_veq k u v u' v' : veq 7 u u' -> veq 7 v v' -> veq 7 (mix k u v) (mix k u' v').
Proof. intros U V i Hi. unfold mix. rewrite U, V by auto. reflexivity. Qed.
Lemma mapp_mix k A u v i : (k = 0 \/ k = 2)%nat -> (i < 7)%nat -> apart k A -> u 6%nat = v 6%nat ->
  mapp 7 A (mix k u v) i = if plane k i then mapp 7 A u i else mapp 7 A v i.
Proof.
  intros HK Hi HA E.
  assert (T : forall j, (j < 7)%nat -> A i j * mix k u v j = if plane k i then A i j * u j else A i j * v j).
  { intros j Hj. destruct (Nat.eq_dec j 6) as [->|N].
    - unfold mix. assert (plane k 6 = false) as -> by (destruct HK as [-> | ->]; reflexivity). rewrite E. destruct (plane k i); reflexivity.
    - unfold mix. destruct (plane k i) eqn:Pi; destruct (plane k j) eqn:Pj; try reflexivity;
        rewrite (HA i j) by (try lia; congruence); ring. }
  unfold mapp. destruct (plane k i); apply sumn_ext; exact T.
Qed.
Lemma passes_mix k l : (k = 0 \/ k = 2)%nat -> Forall (separates k) l -> forall u v u' v', unit_last u -> unit_last v ->
  passes l u u' -> passes l v v' -> passes l (mix k u v) (mix k u' v').
Proof.
  intros HK. induction 1 as [|g l Hg Hl IH]; intros u v u' v' U V P Q.
  - cbn [passes] in *. apply mix_veq; auto.
  - destruct g as [A len|r]; cbn [passes] in *.
    + destruct P as (x & u1 & M1 & S1 & E1 & P), Q as (y & v1 & M2 & S2 & E2 & Q). destruct Hg as [HA H6].
      assert (X6 : forall s, x s 6%nat = 1) by (intros s; rewrite (still_const A x 6 M1 ltac:(lia) H6), (S1 6%nat) by lia; exact U).
      assert (Y6 : forall s, y s 6%nat = 1) by (intros s; rewrite (still_const A y 6 M2 ltac:(lia) H6), (S2 6%nat) by lia; exact V).
      exists (fun s => mix k (x s) (y s)), (mix k u1 v1). split; [|split; [|split]].
      * intros s i Hi. rewrite mapp_mix by (auto; congruence). unfold mix. destruct (plane k i); auto.
      * apply mix_veq; auto.
      * apply mix_veq; auto.
      * apply IH; auto; unfold unit_last; [rewrite <- (E1 6%nat) by lia|rewrite <- (E2 6%nat) by lia]; auto.
    + destruct P as (u1 & R1 & P), Q as (v1 & R2 & Q). destruct (Hg _ _ _ _ R1 R2 U V) as (U1 & V1 & R3).
      exists (mix k u1 v1). split; auto.
Qed.

(** ** The legs *)
Ltac planes2 HK := destruct HK as [-> | ->].
Lemma coasting_apart k kx ky p : (k = 0 \/ k = 2)%nat -> apart k (coasting kx ky p) /\ still (coasting kx ky p) 6.
Proof.
  intros HK. split.
  - intros i j Hi Hj N. assert (Hj' : (j < 7)%nat) by lia.
    planes2 HK; idx7 i Hi; idx7 j Hj'; try reflexivity; try lia; cbn in N; congruence.
  - intros j Hj. idx7 j Hj; reflexivity.
Qed.
Lemma stretches_apart k A L l : (forall b, apart k (A b) /\ still (A b) 6) -> Forall (separates k) (stretches A L l).
Proof. intros H. unfold stretches. apply Forall_forall. intros g Hg. apply in_map_iff in Hg as (b & <- & _). apply H. Qed.
Lemma kicked_apart k w c ref p : (k = 0 \/ k = 2)%nat -> separates k (Via (kicked w c ref p)).
Proof.
  intros HK u v u' v' R1 R2 U V. unfold unit_last in *. split; [rewrite (R1 6%nat) by lia; exact U|]. split; [rewrite (R2 6%nat) by lia; exact V|].
  unfold kicked in *. intros i Hi. planes2 HK; idx7 i Hi; cbn; rewrite ?(R1 0%nat), ?(R1 1%nat), ?(R1 2%nat), ?(R1 3%nat), ?(R1 4%nat), ?(R1 5%nat), ?(R1 6%nat),
    ?(R2 0%nat), ?(R2 1%nat), ?(R2 2%nat), ?(R2 3%nat), ?(R2 4%nat), ?(R2 5%nat), ?(R2 6%nat) by lia; rewrite ?U, ?V; try reflexivity.
Qed.
Lemma rolled_apart k : (k = 0 \/ k = 2)%nat -> separates k (Via (rolled 0)).
Proof.
  intros HK u v u' v' R1 R2 U V. unfold unit_last in *. split; [rewrite (R1 6%nat) by lia; exact U|]. split; [rewrite (R2 6%nat) by lia; exact V|].
  unfold rolled in *. intros i Hi. rewrite cos_0, sin_0 in *. planes2 HK; idx7 i Hi; cbn; rewrite ?(R1 0%nat), ?(R1 1%nat), ?(R1 2%nat), ?(R1 3%nat), ?(R1 4%nat), ?(R1 5%nat), ?(R1 6%nat),
    ?(R2 0%nat), ?(R2 1%nat), ?(R2 2%nat), ?(R2 3%nat), ?(R2 4%nat), ?(R2 5%nat), ?(R2 6%nat) by lia; ring.
Qed.
Section Upright.
Variables (num : double -> R) (c : tcfg) (ref p : particle).
Hypotheses (HP : moving p) (HE : 0 < p_Es ref) (HF : facing num c) (HR : real_at num c "roll" 0 = 0).
Lemma upright_framed z u v : framed num c z ref p u v <->
  veq 7 v (fun i => match i with 0 => (u 0%nat - real_at num c "dx" 0 * 1000)%R | 2 => (u 2%nat - real_at num c "dy" 0 * 1000)%R | _ => u i end%nat).
Proof.
  split.
  - intros H. apply facing_framed in H; auto. cbv zeta in H. rewrite HR, cos_0, sin_0 in H.
    destruct H as (H0 & H2 & H1 & H3 & H4 & H5 & H6). intros i Hi. idx7 i Hi; lra.
  - intros H. destruct HF as [F1 F2]. unfold framed. rewrite F1, F2, HR. unfold turned. rewrite cos_0, sin_0.
    rewrite (H 0%nat), (H 1%nat), (H 2%nat), (H 3%nat), (H 4%nat), (H 5%nat), (H 6%nat) by lia.
    repeat split; f_equal; [f_equal| |f_equal|]; ring.
Qed.
Lemma framed_apart k z : (k = 0 \/ k = 2)%nat -> separates k (Via (framed num c z ref p)).
Proof.
  intros HK u v u' v' R1 R2 U V. apply upright_framed in R1, R2. unfold unit_last in *.
  split; [rewrite (R1 6%nat) by lia; exact U|]. split; [rewrite (R2 6%nat) by lia; exact V|]. apply upright_framed.
  intros i Hi. planes2 HK; idx7 i Hi; cbn; rewrite ?(R1 0%nat), ?(R1 1%nat), ?(R1 2%nat), ?(R1 3%nat), ?(R1 4%nat), ?(R1 5%nat), ?(R1 6%nat),
    ?(R2 0%nat), ?(R2 1%nat), ?(R2 2%nat), ?(R2 3%nat), ?(R2 4%nat), ?(R2 5%nat), ?(R2 6%nat) by lia; reflexivity.
Qed.
Lemma unframed_apart k z : (k = 0 \/ k = 2)%nat -> separates k (Via (fun u v => framed num c z ref p v u)).
Proof.
  intros HK u v u' v' R1 R2 U V. apply upright_framed in R1, R2. unfold unit_last in *.
  split; [rewrite <- U; symmetry; exact (R1 6%nat ltac:(lia))|]. split; [rewrite <- V; symmetry; exact (R2 6%nat ltac:(lia))|]. apply upright_framed.
  intros i Hi. planes2 HK; idx7 i Hi; cbn; rewrite ?(R1 0%nat), ?(R1 1%nat), ?(R1 2%nat), ?(R1 3%nat), ?(R1 4%nat), ?(R1 5%nat), ?(R1 6%nat),
    ?(R2 0%nat), ?(R2 1%nat), ?(R2 2%nat), ?(R2 3%nat), ?(R2 4%nat), ?(R2 5%nat), ?(R2 6%nat) by lia; reflexivity.
Qed.
End Upright.
Lemma course_apart k w c ref p legs : (k = 0 \/ k = 2)%nat -> moving p -> 0 < p_Es ref -> straight c -> upright (w_num w) c ->
  course w c ref p legs -> Forall (separates k) legs.
Proof.
  intros HK HP HE HS (HF & HR & HX) H.
  assert (NS : forall t, is_a t c -> In t ["solenoid"; "sbend"; "tmatrix"] -> False).
  { intros t Ht HI. apply Exists_exists in HS as (t' & T1 & T2). rewrite (is_a_inj _ _ _ Ht T2) in HI. cbn [In] in *. intuition congruence. }
  assert (IN : forall z1 z2 l, Forall (separates k) l ->
    Forall (separates k) (Via (framed (w_num w) c z1 ref p) :: l ++ [Via (fun u v => framed (w_num w) c z2 ref p v u)])).
  { intros z1 z2 l Hl. constructor; [apply framed_apart; auto|]. apply Forall_app. split; auto. constructor; [|constructor].
    apply unframed_apart; auto. }
  destruct H.
  - constructor.
  - constructor; [apply coasting_apart; auto|constructor].
  - apply IN, stretches_apart. intros. apply coasting_apart; auto.
  - apply IN, stretches_apart. intros. apply coasting_apart; auto.
  - destruct (NS _ H); cbn; auto.
  - constructor.
    + unfold angle_of. rewrite HX. replace (0 * PI / 180) with 0 by lra. apply rolled_apart; auto.
    + apply (IN 0 0 [Via (kicked w c ref p)]). constructor; [|constructor]. apply kicked_apart; auto.
  - destruct (NS _ H); cbn; auto.
  - destruct (NS _ H); cbn; auto.
Qed.

(** ** Matrices *)
Definition eye (j : nat) : vec := fun i => if Nat.eqb i 6 then 1 else if Nat.eqb i j then 1 else 0.
Definition origin : vec := fun i => if Nat.eqb i 6 then 1 else 0.
Lemma eye_col T i j : (j < 6)%nat -> mapp 7 T (eye j) i = T i j + T i 6%nat.
Proof.
  intros Hj. unfold mapp, eye. assert (Hj' : (j < 7)%nat) by lia. idx7 j Hj'; cbn; try lia; ring.
Qed.
Lemma origin_col T i : mapp 7 T origin i = T i 6%nat.
Proof. unfold mapp, origin. cbn. ring. Qed.
Lemma separate_matrix k l T : (k = 0 \/ k = 2)%nat -> Forall (separates k) l ->
  (forall u a b, passes l u a -> passes l u b -> veq 7 a b) -> (forall u, unit_last u -> passes l u (mapp 7 T u)) -> apart k T.
Proof.
  intros HK HS U P i j Hi Hj N.
  assert (O : unit_last origin) by reflexivity. assert (J : unit_last (eye j)) by reflexivity.
  destruct (plane k i) eqn:Pi.
  - assert (Pj : plane k j = false) by (destruct (plane k j); congruence).
    assert (X := passes_mix k l HK HS origin (eye j) _ _ O J (P _ O) (P _ J)).
    assert (E : mix k origin (eye j) = eye j).
    { apply FunctionalExtensionality.functional_extensionality. intros x. unfold mix, origin, eye. destruct (plane k x) eqn:Px; [|reflexivity].
      destruct (Nat.eqb x 6); [reflexivity|]. destruct (Nat.eqb_spec x j) as [->|]; [congruence|reflexivity]. }
    rewrite E in X. assert (Y := U _ _ _ X (P _ J) i Hi). unfold mix in Y. rewrite Pi, origin_col, eye_col in Y by auto. lra.
  - assert (Pj : plane k j = true) by (destruct (plane k j); congruence).
    assert (X := passes_mix k l HK HS (eye j) origin _ _ J O (P _ J) (P _ O)).
    assert (E : mix k (eye j) origin = eye j).
    { apply FunctionalExtensionality.functional_extensionality. intros x. unfold mix, origin, eye. destruct (plane k x) eqn:Px; [reflexivity|].
      destruct (Nat.eqb x 6); [reflexivity|]. destruct (Nat.eqb_spec x j) as [->|]; [congruence|reflexivity]. }
    rewrite E in X. assert (Y := U _ _ _ X (P _ J) i Hi). unfold mix in Y. rewrite Pi, origin_col, eye_col in Y by auto. lra.
Qed.
Lemma sandwich_entry T v S v' S' i j : transported T v S v' S' -> (i < 7)%nat -> (j < 7)%nat ->
  S' i j = sumn 7 (fun k => T i k * sumn 7 (fun l => S k l * T j l)).
Proof.
  intros [_ H] Hi Hj. specialize (H (unit_at i) (unit_at j)). rewrite dot_unit, app_unit in H by auto. rewrite H. unfold dot.
  apply sumn_ext. intros k Hk. rewrite app_unit by auto. unfold mtr at 1. f_equal. unfold mapp at 1.
  apply sumn_ext. intros l Hl. rewrite app_unit by auto. reflexivity.
Qed.
Lemma plane_emittance k T v S v' S' : (k = 0 \/ k = 2)%nat -> apart k T ->
  T k k * T (k + 1)%nat (k + 1)%nat - T k (k + 1)%nat * T (k + 1)%nat k = 1 ->
  transported T v S v' S' -> seventh_fixed S -> emittance2 S' k = emittance2 S k.
Proof.
  intros HK HA HD HT HS. unfold emittance2.
  rewrite (sandwich_entry T v S v' S' k k HT), (sandwich_entry T v S v' S' k (k + 1) HT), (sandwich_entry T v S v' S' (k + 1) k HT),
    (sandwich_entry T v S v' S' (k + 1) (k + 1) HT) by (planes2 HK; lia).
  assert (G : forall i j, (i < 7)%nat -> (j < 7)%nat -> plane k i = true -> plane k j = true ->
    sumn 7 (fun a => T i a * sumn 7 (fun l => S a l * T j l)) =
    T i k * (S k k * T j k + S k (k + 1)%nat * T j (k + 1)%nat) + T i (k + 1)%nat * (S (k + 1)%nat k * T j k + S (k + 1)%nat (k + 1)%nat * T j (k + 1)%nat)).
  { intros i j Hi Hj Pi Pj.
    assert (Z : forall a l, (a < 6)%nat -> (l < 7)%nat -> plane k a = false -> plane k l = true -> T l a = 0)
      by (intros a l Ha Hl Pa Pl; apply (HA l a); auto; congruence).
    cbn [sumn]. pose proof (proj1 (HS 0%nat ltac:(lia))) as S0. pose proof (proj1 (HS 1%nat ltac:(lia))) as S1. pose proof (proj1 (HS 2%nat ltac:(lia))) as S2.
    pose proof (proj1 (HS 3%nat ltac:(lia))) as S3. pose proof (proj1 (HS 4%nat ltac:(lia))) as S4. pose proof (proj1 (HS 5%nat ltac:(lia))) as S5.
    assert (S6 : forall l, (l < 7)%nat -> S 6%nat l = 0) by (intros l Hl; apply HS; auto).
    rewrite S0, S1, S2, S3, S4, S5, !S6 by lia.
    planes2 HK; cbn [Nat.add].
    - rewrite (Z 2%nat i), (Z 3%nat i), (Z 4%nat i), (Z 5%nat i), (Z 2%nat j), (Z 3%nat j), (Z 4%nat j), (Z 5%nat j) by (auto; lia). ring.
    - rewrite (Z 0%nat i), (Z 1%nat i), (Z 4%nat i), (Z 5%nat i), (Z 0%nat j), (Z 1%nat j), (Z 4%nat j), (Z 5%nat j) by (auto; lia). ring. }
  assert (P1 : plane k k = true) by (planes2 HK; reflexivity). assert (P2 : plane k (k + 1) = true) by (planes2 HK; reflexivity).
  rewrite !G by (auto; planes2 HK; lia).
  set (a := T k k) in *. set (b := T k (k + 1)%nat) in *. set (c := T (k + 1)%nat k) in *. set (d := T (k + 1)%nat (k + 1)%nat) in *.
  transitivity ((a * d - b * c) * (a * d - b * c) * (S k k * S (k + 1)%nat (k + 1)%nat - S k (k + 1)%nat * S (k + 1)%nat k)); [ring|].
  rewrite HD. ring.
Qed.

Section Moment.
Variable w : world.
Theorem moment_emittance c m es us i ec st p f : sane w ->
  new_machine (moment_reg w) c = Ok m -> tfind "elements" c = Some (TCfgs es) ->
  Forall strips_to_some es -> smooth (fun r s => r = false /\ aligned s) strips_to_some m us ->
  nth_error (entries m es us) i = Some ec -> straight ec -> proper_magnet (w_num w) ec -> upright (w_num w) ec ->
  let s := st_body st in
  aligned s -> moving (ms_ref s) -> Forall moving (ms_real s) ->
  propagate (uses m us) st (N.of_nat i) 1 = Some p -> pr_end p = Ok f ->
  forall j S k, nth_error (ms_m1 s) j = Some S -> seventh_fixed S -> (k = 0 \/ k = 2)%nat ->
  exists T S', nth_error (ms_tm (st_body f)) j = Some T /\ nth_error (ms_m1 (st_body f)) j = Some S' /\
    det2 T k = 1 /\ emittance2 S' k = emittance2 S k.
Proof.
  intros W Hm He HQ HS Hi HD HPM HU s A HR HRs HP Hf j S k Hs H7 HK.
  assert (A' := A). destruct A' as (_ & L1 & L2 & _).
  assert (Lj : (j < List.length (ms_real s))%nat) by (rewrite <- L2; exact (nth_lt _ _ _ Hs)).
  destruct (nth_ex (ms_m0 s) j (List.length (ms_real s)) ltac:(congruence) Lj) as [v Hv].
  destruct (nth_ex (ms_real s) j (List.length (ms_real s)) eq_refl Lj) as [q Hq].
  assert (DD : described ec).
  { apply Exists_exists in HD as (t & D1 & D2). apply Exists_exists. exists t. split; auto. cbn [In] in *. tauto. }
  assert (NT : ~ is_a "tmatrix" ec).
  { intros X. apply Exists_exists in HD as (t & D1 & D2). rewrite <- (is_a_inj _ _ _ X D2) in D1. cbn [In] in D1. intuition discriminate. }
  destruct (moment_motion w c m es us i ec st p f W Hm He HQ HS Hi DD HPM A HR HRs HP Hf j q v S Hq Hv Hs)
    as (T & v' & S' & legs & HT & _ & HS' & HTr & HC & HL).
  assert (HQq : moving q) by (rewrite Forall_forall in HRs; apply HRs; apply nth_error_In in Hq; exact Hq).
  assert (HE : 0 < p_Es (ms_ref s)) by apply HR.
  assert (UQ := course_one w ec (ms_ref s) q legs HQq HE HC).
  assert (AP : forall k, (k = 0 \/ k = 2)%nat -> apart k T).
  { intros k' HK'. apply (separate_matrix k' legs T HK'); auto. apply (course_apart k' w ec (ms_ref s) q); auto. }
  assert (KT : keeps_transverse_areas T).
  { apply (legs_transverse legs); auto. apply (course_flat w ec (ms_ref s) q); auto. apply HU. }
  assert (DT : T k k * T (k + 1)%nat (k + 1)%nat - T k (k + 1)%nat * T (k + 1)%nat k = 1).
  { assert (X := KT origin (eye k) (eye (k + 1)) eq_refl eq_refl eq_refl).
    assert (A0 := AP 0%nat (or_introl eq_refl)). assert (A2 := AP 2%nat (or_intror eq_refl)).
    planes2 HK; cbn [Nat.add] in *; specialize (X eq_refl eq_refl); unfold area in X; rewrite !eye_col, !origin_col in X by lia.
    - rewrite (A0 2%nat 0%nat), (A0 2%nat 1%nat), (A0 3%nat 0%nat), (A0 3%nat 1%nat) in X by (try lia; discriminate).
      unfold eye, origin in X. cbn in X. lra.
    - rewrite (A2 0%nat 2%nat), (A2 0%nat 3%nat), (A2 1%nat 2%nat), (A2 1%nat 3%nat) in X by (try lia; discriminate).
      unfold eye, origin in X. cbn in X. lra. }
  exists T, S'. split; auto. split; auto. split.
  - unfold det2. replace (Datatypes.S k) with (k + 1)%nat by lia. exact DT.
  - exact (plane_emittance k T v S v' S' HK (AP k HK) DT HTr H7).
Qed.
End Moment.
