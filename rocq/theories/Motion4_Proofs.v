(** Courses lead to one place only, and elements that have all they need do their
    work. *)
From Coq Require Import Reals List String Bool NArith ZArith Arith Lia Lra.
From Verif Require Import SMap SMap_Proofs Dbl Config_Spec Mat Mat_Proofs Minv Minv_Proofs Machine_Model Machine_Spec Machine_Proofs
  Machine2_Proofs Linear_Model Linear_Spec Linear_Proofs Linear2_Proofs Linear3_Proofs.
From Verif Require Import Moment_Model Moment_Spec Motion_Spec Moment_Proofs Moment2_Proofs Moment3_Proofs Moment4_Proofs
  Moment5_Proofs Moment6_Proofs Motion_Proofs Motion2_Proofs Motion3_Proofs.
Import ListNotations.
Open Scope R_scope.
Open Scope string_scope.
Open Scope list_scope.

(** ** Uniqueness *)
Definition functional (r : vec -> vec -> Prop) : Prop := forall u u2 a b, veq 7 u u2 -> r u a -> r u2 b -> veq 7 a b.
Definition steers (g : leg) : Prop := match g with Along _ _ => True | Via r => functional r end.
Lemma passes_one l : Forall steers l -> forall u u2 a b, veq 7 u u2 -> passes l u a -> passes l u2 b -> veq 7 a b.
Proof.
  induction 1 as [|g l Hg Hl IH]; intros u u2 a b E Ha Hb.
  - cbn [passes] in *. rewrite <- Ha, <- Hb. exact E.
  - destruct g as [A len|r]; cbn [passes] in *.
    + destruct Ha as (x & u1 & M1 & S1 & E1 & Ha). destruct Hb as (y & u3 & M2 & S2 & E2 & Hb).
      refine (IH u1 u3 a b _ Ha Hb). rewrite <- E1, <- E2. apply (motion_unique 7 A x y M1 M2). rewrite S1, S2. exact E.
    + destruct Ha as (u1 & R1 & Ha). destruct Hb as (u3 & R2 & Hb). exact (IH u1 u3 a b (Hg _ _ _ _ E R1 R2) Ha Hb).
Qed.
Lemma rot2 t x y x' y' : cos t * x + sin t * y = cos t * x' + sin t * y' -> - sin t * x + cos t * y = - sin t * x' + cos t * y' ->
  x = x' /\ y = y'.
Proof.
  intros H1 H2. assert (P := sin2_cos2 t). unfold Rsqr in P. split.
  - replace x with ((sin t * sin t + cos t * cos t) * x) by (rewrite P; ring).
    replace x' with ((sin t * sin t + cos t * cos t) * x') by (rewrite P; ring).
    replace ((sin t * sin t + cos t * cos t) * x) with (cos t * (cos t * x + sin t * y) - sin t * (- sin t * x + cos t * y)) by ring.
    rewrite H1, H2. ring.
  - replace y with ((sin t * sin t + cos t * cos t) * y) by (rewrite P; ring).
    replace y' with ((sin t * sin t + cos t * cos t) * y') by (rewrite P; ring).
    replace ((sin t * sin t + cos t * cos t) * y) with (sin t * (cos t * x + sin t * y) + cos t * (- sin t * x + cos t * y)) by ring.
    rewrite H1, H2. ring.
Qed.
Lemma turned_inj p y r a b : turned p y r a = turned p y r b -> a = b.
Proof.
  destruct a as [[a1 a2] a3], b as [[b1 b2] b3]. unfold turned. intros H. injection H as H1 H2 H3.
  destruct (rot2 _ _ _ _ _ H1 H2) as [G1 G2].
  destruct (rot2 _ _ _ _ _ G1 H3) as [F1 F2]. destruct (rot2 _ _ _ _ _ G2 F2) as [E1 E2]. congruence.
Qed.
Lemma tuple3 {A B C} (a a' : A) (b b' : B) (c c' : C) : (a, b, c) = (a', b', c') -> a = a' /\ b = b' /\ c = c'.
Proof. intros H. inversion H; auto. Qed.
Section Framed.
Variables (num : double -> R) (c : tcfg) (ref p : particle).
Hypotheses (HP : moving p) (HE : 0 < p_Es ref).
Lemma b_pos : 0 < beta_of p * beta_of p * gamma_of p * (p_Es ref / 1000000).
Proof. destruct (moving_facts p HP) as (G & B & _). apply Rmult_lt_0_compat; [|lra]. apply Rmult_lt_0_compat; nra. Qed.
Lemma k_pos : 0 < wavenumber p. Proof. destruct (moving_facts p HP) as (_ & _ & _ & K & _). exact K. Qed.
Lemma undist x y z : - (x / wavenumber p) + z = - (y / wavenumber p) + z -> x = y.
Proof.
  intros H. assert (K := k_pos). assert (E : x / wavenumber p = y / wavenumber p) by lra.
  apply (Rmult_eq_reg_r (/ wavenumber p)); [exact E|]. apply Rinv_neq_0_compat. lra.
Qed.
Lemma undev x y : let b := beta_of p * beta_of p * gamma_of p * (p_Es ref / 1000000) in x / b + 1 = y / b + 1 -> x = y.
Proof.
  intros b H. assert (K := b_pos). fold b in K. assert (E : x / b = y / b) by lra.
  apply (Rmult_eq_reg_r (/ b)); [exact E|]. apply Rinv_neq_0_compat. lra.
Qed.
Lemma framed_in z : functional (framed num c z ref p).
Proof.
  intros v v2 a b E (A1 & A2 & A3) (B1 & B2 & B3).
  rewrite <- !(E 0%nat), <- !(E 2%nat), <- !(E 4%nat) in B1 by lia. rewrite <- !(E 1%nat), <- !(E 3%nat), <- !(E 5%nat) in B2 by lia.
  rewrite A1 in B1. rewrite A2 in B2. apply tuple3 in B1 as (C1 & C2 & C3). apply tuple3 in B2 as (D1 & D2 & D3).
  apply undist in C3. apply undev in D3. rewrite <- (E 6%nat) in B3 by lia.
  intros i Hi. idx7 i Hi; congruence.
Qed.
Lemma framed_out z : functional (fun u v => framed num c z ref p v u).
Proof.
  intros u u2 a b E (A1 & A2 & A3) (B1 & B2 & B3).
  rewrite <- !(E 0%nat), <- !(E 2%nat), <- !(E 4%nat) in B1 by lia. rewrite <- !(E 1%nat), <- !(E 3%nat), <- !(E 5%nat) in B2 by lia.
  rewrite <- A1 in B1. rewrite <- A2 in B2. apply turned_inj in B1. apply turned_inj in B2.
  apply tuple3 in B1 as (C1 & C2 & C3). apply tuple3 in B2 as (D1 & D2 & D3).
  apply undist in C3. apply undev in D3. rewrite <- (E 6%nat) in B3 by lia.
  intros i Hi. idx7 i Hi; try congruence; lra.
Qed.
End Framed.
Lemma fun_veq (f : vec -> vec) : (forall u v, veq 7 u v -> veq 7 (f u) (f v)) -> functional (fun u u' => veq 7 u' (f u)).
Proof. intros H u u2 a b E Ha Hb. rewrite Ha, Hb. apply H, E. Qed.
Lemma stretches_steer A L l : Forall steers (stretches A L l).
Proof. unfold stretches. apply Forall_forall. intros g H. apply in_map_iff in H as (b & <- & _). exact I. Qed.
Ltac coords := apply fun_veq; let u := fresh "u" in let v := fresh "v" in let E := fresh "E" in let i := fresh "i" in let Hi := fresh "Hi" in
  intros u v E i Hi; assert (E' : forall k, (k < 7)%nat -> u k = v k) by exact E;
  idx7 i Hi; rewrite ?(E' 0%nat), ?(E' 1%nat), ?(E' 2%nat), ?(E' 3%nat), ?(E' 4%nat), ?(E' 5%nat), ?(E' 6%nat) by lia; reflexivity.
Lemma course_one w c ref p legs : moving p -> 0 < p_Es ref -> course w c ref p legs ->
  forall u a b, passes legs u a -> passes legs u b -> veq 7 a b.
Proof.
  intros HP HE H u a b. apply passes_one; [|reflexivity].
  assert (IN : forall z1 z2 l, Forall steers l ->
    Forall steers (Via (framed (w_num w) c z1 ref p) :: l ++ [Via (fun u v => framed (w_num w) c z2 ref p v u)])).
  { intros z1 z2 l Hl. constructor; [apply framed_in; auto|]. apply Forall_app. split; auto. constructor; [|constructor].
    apply framed_out; auto. }
  destruct H.
  - constructor.
  - constructor; [exact I|constructor].
  - apply IN, stretches_steer.
  - apply IN, stretches_steer.
  - apply IN, stretches_steer.
  - constructor; [unfold rolled; coords|]. apply (IN 0 0 [Via (kicked w c ref p)]). constructor; [|constructor].
    unfold kicked. coords.
  - destruct (Req_EM_T _ _); [constructor|]. apply IN. unfold sector. constructor; [unfold edge; coords|].
    constructor; [exact I|]. constructor; [unfold edge; coords|constructor].
  - constructor; [|constructor]. apply fun_veq. intros u' v E. rewrite E. reflexivity.
Qed.

(** ** The way back *)
Definition unsteers (g : leg) : Prop := match g with Along _ _ => True | Via r => functional (fun u v => r v u) end.
Lemma dlim_shift f s a l : derivable_pt_lim f (s + a) l -> derivable_pt_lim (fun s => f (s + a)) s l.
Proof.
  intros H eps He. destruct (H eps He) as [d Hd]. exists d. intros h H1 H2. replace (s + h + a) with (s + a + h) by ring. apply Hd; auto.
Qed.
Lemma moves_shift A x a : moves A x -> moves A (fun s => x (s + a)).
Proof.
  intros H s i Hi. eapply dlim_eq; [apply (dlim_shift (fun s => x s i)); apply H, Hi|reflexivity].
Qed.
Lemma passes_back l : Forall unsteers l -> forall u u2 a b, veq 7 a b -> passes l u a -> passes l u2 b -> veq 7 u u2.
Proof.
  induction 1 as [|g l Hg Hl IH]; intros u u2 a b E Ha Hb.
  - cbn [passes] in *. rewrite Ha, Hb. exact E.
  - destruct g as [A len|r]; cbn [passes] in *.
    + destruct Ha as (x & u1 & M1 & S1 & E1 & Ha). destruct Hb as (y & u3 & M2 & S2 & E2 & Hb).
      assert (E3 := IH _ _ _ _ E Ha Hb). rewrite <- S1, <- S2.
      pose proof (motion_unique 7 A _ _ (moves_shift A x len M1) (moves_shift A y len M2)) as U.
      cbv beta in U. rewrite Rplus_0_l in U. assert (E4 : veq 7 (x len) (y len)) by (rewrite E1, E2; exact E3).
      specialize (U E4 (- len)). replace (- len + len) with 0 in U by ring. exact U.
    + destruct Ha as (u1 & R1 & Ha). destruct Hb as (u3 & R2 & Hb). exact (Hg _ _ _ _ (IH _ _ _ _ E Ha Hb) R1 R2).
Qed.
Lemma stretches_unsteer A L l : Forall unsteers (stretches A L l).
Proof. unfold stretches. apply Forall_forall. intros g H. apply in_map_iff in H as (b & <- & _). exact I. Qed.
Lemma rolled_back a : functional (fun u v => rolled a v u).
Proof.
  intros u u2 x y E Ha Hb i Hi.
  assert (H := fun k Hk => eq_trans (eq_sym (Ha k Hk)) (eq_trans (E k Hk) (Hb k Hk))). cbv beta in H.
  destruct (rot2 a (x 0%nat) (x 2%nat) (y 0%nat) (y 2%nat) (H 0%nat ltac:(lia)) (H 2%nat ltac:(lia))) as [X0 X2].
  destruct (rot2 a (x 1%nat) (x 3%nat) (y 1%nat) (y 3%nat) (H 1%nat ltac:(lia)) (H 3%nat ltac:(lia))) as [X1 X3].
  assert (X4 := H 4%nat ltac:(lia)). assert (X5 := H 5%nat ltac:(lia)). assert (X6 := H 6%nat ltac:(lia)).
  cbv beta iota in *. idx7 i Hi; auto.
Qed.
Lemma kicked_back w c ref p : functional (fun u v => kicked w c ref p v u).
Proof.
  intros u u2 x y E Ha Hb i Hi.
  assert (H := fun k Hk => eq_trans (eq_sym (Ha k Hk)) (eq_trans (E k Hk) (Hb k Hk))). cbv beta in H.
  assert (X6 := H 6%nat ltac:(lia)). cbv beta iota in X6.
  assert (X1 := H 1%nat ltac:(lia)). assert (X3 := H 3%nat ltac:(lia)). cbv beta iota in X1, X3. rewrite X6 in X1, X3.
  assert (X0 := H 0%nat ltac:(lia)). assert (X2 := H 2%nat ltac:(lia)). assert (X4 := H 4%nat ltac:(lia)). assert (X5 := H 5%nat ltac:(lia)).
  cbv beta iota in *. idx7 i Hi; auto; lra.
Qed.
Lemma edge_back h a : functional (fun u v => edge h a v u).
Proof.
  intros u u2 x y E Ha Hb i Hi.
  assert (H := fun k Hk => eq_trans (eq_sym (Ha k Hk)) (eq_trans (E k Hk) (Hb k Hk))). cbv beta in H.
  assert (X0 := H 0%nat ltac:(lia)). assert (X2 := H 2%nat ltac:(lia)). cbv beta iota in X0, X2.
  assert (X1 := H 1%nat ltac:(lia)). assert (X3 := H 3%nat ltac:(lia)). cbv beta iota in X1, X3. rewrite X0 in X1. rewrite X2 in X3.
  assert (X6 := H 6%nat ltac:(lia)). assert (X4 := H 4%nat ltac:(lia)). assert (X5 := H 5%nat ltac:(lia)).
  cbv beta iota in *. idx7 i Hi; auto; lra.
Qed.
Lemma course_back w c ref p legs : moving p -> 0 < p_Es ref -> ~ is_a "tmatrix" c -> course w c ref p legs ->
  forall u u2 a, passes legs u a -> passes legs u2 a -> veq 7 u u2.
Proof.
  intros HP HE HN H u u2 a. apply passes_back; [|reflexivity].
  assert (IN : forall z1 z2 l, Forall unsteers l ->
    Forall unsteers (Via (framed (w_num w) c z1 ref p) :: l ++ [Via (fun u v => framed (w_num w) c z2 ref p v u)])).
  { intros z1 z2 l Hl. constructor; [apply framed_out; auto|]. apply Forall_app. split; auto. constructor; [|constructor].
    apply framed_in; auto. }
  destruct H.
  - constructor.
  - constructor; [exact I|constructor].
  - apply IN, stretches_unsteer.
  - apply IN, stretches_unsteer.
  - apply IN, stretches_unsteer.
  - constructor; [apply rolled_back|]. apply (IN 0 0 [Via (kicked w c ref p)]). constructor; [|constructor]. apply kicked_back.
  - destruct (Req_EM_T _ _); [constructor|]. apply IN. unfold sector. constructor; [apply edge_back|].
    constructor; [exact I|]. constructor; [apply edge_back|constructor].
  - contradiction.
Qed.

(** ** Invertible matrices *)
Definition inj (A : mat) : Prop := forall v, veq 7 (mapp 7 A v) (fun _ => 0) -> veq 7 v (fun _ => 0).
Lemma inj_inverse A : inj A -> exists X, inverse A = Ok X.
Proof.
  intros H. unfold inverse. destruct (minv msize A) as [X|] eqn:E; [eauto|]. exfalso.
  apply minv_none in E as (v & V1 & V2). exact (V2 (H v V1)).
Qed.
Lemma goes_inj w c ref p T : moving p -> 0 < p_Es ref -> ~ is_a "tmatrix" c -> affine T -> goes w c ref p T -> inj T.
Proof.
  intros HP HE HN HA (l & L1 & L2) v Hv.
  set (e := fun i : nat => if Nat.eqb i 6 then 1 else 0).
  assert (V6 : v 6%nat = 0) by (rewrite <- (last_one T v HA); apply Hv; lia).
  assert (P1 := L2 e eq_refl).
  assert (P2 : passes l (fun i => e i + v i) (mapp 7 T (fun i => e i + v i))) by (apply L2; unfold unit_last; cbn; rewrite V6; unfold e; cbn; ring).
  assert (E : veq 7 (mapp 7 T (fun i => e i + v i)) (mapp 7 T e)).
  { intros i Hi. rewrite <- (Rplus_0_r (mapp 7 T e i)). rewrite <- (Hv i Hi). unfold mapp. rewrite <- sumn_plus. apply sumn_ext. intros. ring. }
  assert (Q : veq 7 e (fun i => e i + v i)).
  { apply (course_back w c ref p l HP HE HN L1 _ _ (mapp 7 T e)); [exact P1|].
    exact (passes_veq l _ _ _ E P2). }
  intros i Hi. specialize (Q i Hi). cbv beta in Q. lra.
Qed.
