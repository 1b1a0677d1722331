(** Motion preserves areas in phase space. *)
From Coq Require Import Reals List String Bool NArith ZArith Arith Lia Lra.
From Verif Require Import SMap SMap_Proofs Dbl Config_Spec Mat Mat_Proofs Minv Minv_Proofs Machine_Model Machine_Spec Machine_Proofs
  Machine2_Proofs Linear_Model Linear_Spec Linear_Proofs Linear2_Proofs Linear3_Proofs.
From Verif Require Import Moment_Model Moment_Spec Motion_Spec Moment_Proofs Moment2_Proofs Moment3_Proofs Moment4_Proofs
  Moment5_Proofs Moment6_Proofs Motion_Proofs Motion2_Proofs Motion3_Proofs Motion4_Proofs Frame_Proofs Area_Spec.
Import ListNotations.
Open Scope R_scope.
Open Scope string_scope.
Open Scope list_scope.

(** ** Areas along the way *)
Definition form (c : R) (a b : vec) : R :=
  a 0%nat * b 1%nat - a 1%nat * b 0%nat + (a 2%nat * b 3%nat - a 3%nat * b 2%nat) - c * (a 4%nat * b 5%nat - a 5%nat * b 4%nat).
Lemma veq_sym n u v : veq n u v -> veq n v u. Proof. intros H i Hi. symmetry. auto. Qed.
Definition vminus (u v : vec) : vec := fun i => u i - v i.
Lemma area_form c u0 u1 u2 : area c u0 u1 u2 = form c (vminus u1 u0) (vminus u2 u0).
Proof. reflexivity. Qed.
(** [fl]: only particles of one energy. *)
Definition Inv (c : R) (fl : bool) (e : R) (u0 u1 u2 : vec) : Prop :=
  unit_last u0 /\ unit_last u1 /\ unit_last u2 /\
  (fl = true -> u1 5%nat = u0 5%nat /\ u2 5%nat = u0 5%nat) /\ area c u0 u1 u2 = e.
Definition still (A : mat) (i : nat) : Prop := forall j, (j < 7)%nat -> A i j = 0.
Definition generates (c : R) (fl : bool) (A : mat) : Prop :=
  still A 5 /\ still A 6 /\
  forall a b : vec, a 6%nat = 0 -> b 6%nat = 0 -> (fl = true -> a 5%nat = 0 /\ b 5%nat = 0) ->
    form c (mapp 7 A a) b + form c a (mapp 7 A b) = 0.
Definition keeps (c : R) (fl : bool) (g : leg) : Prop :=
  match g with
  | Along A _ => generates c fl A
  | Via r => forall e u0 u1 u2 v0 v1 v2, r u0 v0 -> r u1 v1 -> r u2 v2 -> Inv c fl e u0 u1 u2 -> Inv c fl e v0 v1 v2
  end.
Lemma constant f : (forall s, derivable_pt_lim f s 0) -> forall s, f s = f 0.
Proof.
  intros H s. destruct (Rtotal_order s 0) as [L|[->|L]]; [|reflexivity|].
  - destruct (MVT_cor2 f (fun _ => 0) s 0 L (fun c _ => H c)) as (c & Hc & _). lra.
  - destruct (MVT_cor2 f (fun _ => 0) 0 s L (fun c _ => H c)) as (c & Hc & _). lra.
Qed.
Lemma still_const A x i : moves A x -> (i < 7)%nat -> still A i -> forall s, x s i = x 0 i.
Proof.
  intros M Hi HA. apply (constant (fun s => x s i)). intros s. eapply dlim_eq; [apply M, Hi|].
  unfold mapp. rewrite (sumn_ext _ _ (fun _ => 0)); [apply sumn_0|]. intros k Hk. rewrite HA by auto. ring.
Qed.
Lemma mapp_minus A u v i : mapp 7 A (vminus u v) i = mapp 7 A u i - mapp 7 A v i.
Proof. unfold mapp, vminus. cbn [sumn]. ring. Qed.
Lemma dlim_prod f g s a b : derivable_pt_lim f s a -> derivable_pt_lim g s b -> derivable_pt_lim (fun s => f s * g s) s (a * g s + f s * b).
Proof. apply derivable_pt_lim_mult. Qed.
Lemma form_deriv c x y s x' y' :
  (forall i, (i < 7)%nat -> derivable_pt_lim (fun s => x s i) s (x' i)) ->
  (forall i, (i < 7)%nat -> derivable_pt_lim (fun s => y s i) s (y' i)) ->
  derivable_pt_lim (fun s => form c (x s) (y s)) s (form c x' (y s) + form c (x s) y').
Proof.
  intros X Y. unfold form.
  assert (P : forall i j, (i < 7)%nat -> (j < 7)%nat ->
    derivable_pt_lim (fun s => x s i * y s j - x s j * y s i) s (x' i * y s j + x s i * y' j - (x' j * y s i + x s j * y' i))).
  { intros i j Hi Hj. apply (derivable_pt_lim_minus (fun s => x s i * y s j) (fun s => x s j * y s i)); apply dlim_prod; auto. }
  eapply dlim_eq.
  - apply (derivable_pt_lim_minus (fun s => x s 0%nat * y s 1%nat - x s 1%nat * y s 0%nat + (x s 2%nat * y s 3%nat - x s 3%nat * y s 2%nat))
             (fun s => c * (x s 4%nat * y s 5%nat - x s 5%nat * y s 4%nat))).
    + apply (derivable_pt_lim_plus (fun s => x s 0%nat * y s 1%nat - x s 1%nat * y s 0%nat) (fun s => x s 2%nat * y s 3%nat - x s 3%nat * y s 2%nat)); apply P; lia.
    + apply derivable_pt_lim_scal. apply (P 4%nat 5%nat); lia.
  - ring.
Qed.
Lemma form_ext c a b a' b' : veq 7 a a' -> veq 7 b b' -> form c a b = form c a' b'.
Proof.
  intros A B. unfold form. rewrite (A 0%nat), (A 1%nat), (A 2%nat), (A 3%nat), (A 4%nat), (A 5%nat) by lia.
  rewrite (B 0%nat), (B 1%nat), (B 2%nat), (B 3%nat), (B 4%nat), (B 5%nat) by lia. reflexivity.
Qed.
Lemma minus_veq a b a' b' : veq 7 a a' -> veq 7 b b' -> veq 7 (vminus a b) (vminus a' b').
Proof. intros A B i Hi. unfold vminus. rewrite A, B by auto. reflexivity. Qed.
Lemma Inv_veq c fl e u0 u1 u2 v0 v1 v2 : veq 7 u0 v0 -> veq 7 u1 v1 -> veq 7 u2 v2 -> Inv c fl e u0 u1 u2 -> Inv c fl e v0 v1 v2.
Proof.
  intros E0 E1 E2 (U0 & U1 & U2 & F & A). unfold unit_last in *.
  repeat split; unfold unit_last; try (rewrite <- (E0 6%nat) by lia); try (rewrite <- (E1 6%nat) by lia); try (rewrite <- (E2 6%nat) by lia); auto.
  - rewrite <- (E0 5%nat), <- (E1 5%nat) by lia. apply F; auto.
  - rewrite <- (E0 5%nat), <- (E2 5%nat) by lia. apply F; auto.
  - rewrite <- A, !area_form. symmetry. apply form_ext; apply minus_veq; auto.
Qed.
Lemma along_inv c fl e A len x0 x1 x2 : generates c fl A -> moves A x0 -> moves A x1 -> moves A x2 ->
  Inv c fl e (x0 0) (x1 0) (x2 0) -> Inv c fl e (x0 len) (x1 len) (x2 len).
Proof.
  intros (S5 & S6 & G) M0 M1 M2 (U0 & U1 & U2 & F & E). unfold unit_last in *.
  assert (K6 : forall x, moves A x -> forall s, x s 6%nat = x 0 6%nat) by (intros; apply (still_const A); auto).
  assert (K5 : forall x, moves A x -> forall s, x s 5%nat = x 0 5%nat) by (intros; apply (still_const A); auto).
  repeat split; unfold unit_last; try (rewrite K6; auto; fail); try (rewrite (K5 x0 M0), ?(K5 x1 M1), ?(K5 x2 M2); apply F; auto).
  rewrite <- E, !area_form.
  apply (constant (fun s => form c (vminus (x1 s) (x0 s)) (vminus (x2 s) (x0 s)))). intros s.
  eapply dlim_eq.
  - apply (form_deriv c (fun s => vminus (x1 s) (x0 s)) (fun s => vminus (x2 s) (x0 s)) s
             (mapp 7 A (vminus (x1 s) (x0 s))) (mapp 7 A (vminus (x2 s) (x0 s))));
      intros i Hi; rewrite mapp_minus; unfold vminus; apply dlim_minus; auto.
  - apply G; unfold vminus.
    + rewrite (K6 x0 M0), (K6 x1 M1). lra.
    + rewrite (K6 x0 M0), (K6 x2 M2). lra.
    + intros H. destruct (F H) as [F1 F2]. rewrite (K5 x0 M0), (K5 x1 M1), (K5 x2 M2). split; lra.
Qed.
Lemma passes_inv c fl l : Forall (keeps c fl) l -> forall e u0 u1 u2 v0 v1 v2,
  passes l u0 v0 -> passes l u1 v1 -> passes l u2 v2 -> Inv c fl e u0 u1 u2 -> Inv c fl e v0 v1 v2.
Proof.
  induction 1 as [|g l Hg Hl IH]; intros e u0 u1 u2 v0 v1 v2 P0 P1 P2 HI.
  - cbn [passes] in *. exact (Inv_veq _ _ _ _ _ _ _ _ _ P0 P1 P2 HI).
  - destruct g as [A len|r]; cbn [passes] in *.
    + destruct P0 as (x0 & w0 & M0 & S0 & E0 & P0), P1 as (x1 & w1 & M1 & S1 & E1 & P1), P2 as (x2 & w2 & M2 & S2 & E2 & P2).
      refine (IH e w0 w1 w2 v0 v1 v2 P0 P1 P2 _). apply (Inv_veq _ _ _ _ _ _ _ _ _ E0 E1 E2).
      apply (along_inv c fl e A len x0 x1 x2 Hg M0 M1 M2).
      refine (Inv_veq _ _ _ _ _ _ _ _ _ _ _ _ HI); symmetry; assumption.
    + destruct P0 as (w0 & R0 & P0), P1 as (w1 & R1 & P1), P2 as (w2 & R2 & P2).
      exact (IH e w0 w1 w2 v0 v1 v2 P0 P1 P2 (Hg e _ _ _ _ _ _ R0 R1 R2 HI)).
Qed.

(** ** The legs *)
Ltac gen := split; [intros j Hj; idx7 j Hj; reflexivity|]; split; [intros j Hj; idx7 j Hj; reflexivity|].
Lemma coasting_gen c fl k p : generates c fl (coasting k (- k) p).
Proof. gen. intros a b A6 B6 _. unfold form, mapp. cbv [sumn coasting focusing]. rewrite A6, B6. ring. Qed.
Lemma drifting_gen c fl p : generates c fl (coasting 0 0 p).
Proof. gen. intros a b A6 B6 _. unfold form, mapp. cbv [sumn coasting focusing]. rewrite A6, B6. ring. Qed.
Lemma spiralling_gen c fl k p : generates c fl (spiralling k p).
Proof. gen. intros a b A6 B6 _. unfold form, mapp. cbv [sumn spiralling larmor]. rewrite A6, B6. ring. Qed.
Lemma bending_gen c kx ky h b d dv kphi g : h / b = c * (kphi * h) -> generates c false (bending kx ky h b d dv kphi g).
Proof.
  intros E. gen. intros x y A6 B6 _. unfold form, mapp. cbv [sumn bending focusing]. rewrite A6, B6, E. ring.
Qed.
Lemma bending_flat kx ky h b d dv kphi g : generates 0 true (bending kx ky h b d dv kphi g).
Proof.
  gen. intros x y A6 B6 F. destruct (F eq_refl) as [A5 B5]. unfold form, mapp. cbv [sumn bending focusing]. rewrite A6, B6, A5, B5. ring.
Qed.
(** Maps that change coordinates one by one. *)
Lemma rolled_keeps c fl a : keeps c fl (Via (rolled a)).
Proof.
  intros e u0 u1 u2 v0 v1 v2 R0 R1 R2 HI.
  refine (Inv_veq _ _ _ _ _ _ _ _ _ (veq_sym 7 _ _ R0) (veq_sym 7 _ _ R1) (veq_sym 7 _ _ R2) _).
  destruct HI as (U0 & U1 & U2 & F & E). unfold unit_last in *. repeat split; unfold unit_last; auto; try (apply F; auto).
  rewrite <- E. unfold area. assert (P := sin2_cos2 a). unfold Rsqr in P.
  transitivity ((sin a * sin a + cos a * cos a) * ((u1 0%nat - u0 0%nat) * (u2 1%nat - u0 1%nat) - (u1 1%nat - u0 1%nat) * (u2 0%nat - u0 0%nat) +
     ((u1 2%nat - u0 2%nat) * (u2 3%nat - u0 3%nat) - (u1 3%nat - u0 3%nat) * (u2 2%nat - u0 2%nat)))
     - c * ((u1 4%nat - u0 4%nat) * (u2 5%nat - u0 5%nat) - (u1 5%nat - u0 5%nat) * (u2 4%nat - u0 4%nat))); [ring|rewrite P; ring].
Qed.
Lemma kicked_keeps c fl w cf ref p : keeps c fl (Via (kicked w cf ref p)).
Proof.
  intros e u0 u1 u2 v0 v1 v2 R0 R1 R2 HI.
  refine (Inv_veq _ _ _ _ _ _ _ _ _ (veq_sym 7 _ _ R0) (veq_sym 7 _ _ R1) (veq_sym 7 _ _ R2) _).
  destruct HI as (U0 & U1 & U2 & F & E). unfold unit_last in *. repeat split; unfold unit_last; auto; try (apply F; auto).
  rewrite <- E. unfold area. rewrite U0, U1, U2. ring.
Qed.
Lemma edge_keeps c fl h a : keeps c fl (Via (edge h a)).
Proof.
  intros e u0 u1 u2 v0 v1 v2 R0 R1 R2 HI.
  refine (Inv_veq _ _ _ _ _ _ _ _ _ (veq_sym 7 _ _ R0) (veq_sym 7 _ _ R1) (veq_sym 7 _ _ R2) _).
  destruct HI as (U0 & U1 & U2 & F & E). unfold unit_last in *. repeat split; unfold unit_last; auto; try (apply F; auto).
  rewrite <- E. unfold area. ring.
Qed.
(** Rotations keep scalar products. *)
Definition dot3 (a b : R * R * R) : R := let '(x, y, z) := a in let '(x', y', z') := b in x * x' + y * y' + z * z'.
Definition sub3 (a b : R * R * R) : R * R * R := let '(x, y, z) := a in let '(x', y', z') := b in (x - x', y - y', z - z').
Lemma turned_sub p y r a b : turned p y r (sub3 a b) = sub3 (turned p y r a) (turned p y r b).
Proof. destruct a as [[a1 a2] a3], b as [[b1 b2] b3]. cbn. f_equal; [f_equal|]; ring. Qed.
Lemma rot_dot t x y x' y' : (cos t * x + sin t * y) * (cos t * x' + sin t * y') + (- sin t * x + cos t * y) * (- sin t * x' + cos t * y') = x * x' + y * y'.
Proof.
  assert (P := sin2_cos2 t). unfold Rsqr in P. transitivity ((sin t * sin t + cos t * cos t) * (x * x' + y * y')); [ring|rewrite P; ring].
Qed.
Lemma turned_dot p y r a b : dot3 (turned p y r a) (turned p y r b) = dot3 a b.
Proof.
  destruct a as [[a1 a2] a3], b as [[b1 b2] b3]. unfold turned, dot3. cbv beta iota.
  rewrite (rot_dot r). set (p2 := cos p * a2 + sin p * a3). set (p3 := - sin p * a2 + cos p * a3).
  set (q2 := cos p * b2 + sin p * b3). set (q3 := - sin p * b2 + cos p * b3).
  assert (E := rot_dot y a1 p3 b1 q3). assert (E2 := rot_dot p a2 a3 b2 b3). fold p2 p3 q2 q3 in E2. lra.
Qed.
Section Framed.
Variables (num : double -> R) (cf : tcfg) (ref p : particle).
Hypotheses (HP : moving p) (HE : 0 < p_Es ref).
Notation K := (wavenumber p).
Notation b := (momentum_unit ref p).
Let place (v : vec) (z : R) : R * R * R := (v 0%nat - real_at num cf "dx" 0 * 1000, v 2%nat - real_at num cf "dy" 0 * 1000, - (v 4%nat / K) + z).
Let speed (v : vec) : R * R * R := (v 1%nat, v 3%nat, v 5%nat / b + 1).
Lemma area_places dx dy z u0 u1 u2 : let place (v : vec) := (v 0%nat - dx, v 2%nat - dy, - (v 4%nat / K) + z) in
  area (canonical ref p) u0 u1 u2 = dot3 (sub3 (place u1) (place u0)) (sub3 (speed u2) (speed u0))
                                  - dot3 (sub3 (speed u1) (speed u0)) (sub3 (place u2) (place u0)).
Proof.
  intros pl. assert (KP := k_pos p HP). assert (BP := b_pos ref p HP HE). fold (momentum_unit ref p) in BP.
  unfold area, canonical, pl, speed, dot3, sub3. field. lra.
Qed.
Lemma framed_area z u0 u1 u2 v0 v1 v2 : framed num cf z ref p u0 v0 -> framed num cf z ref p u1 v1 -> framed num cf z ref p u2 v2 ->
  area (canonical ref p) u0 u1 u2 = area (canonical ref p) v0 v1 v2.
Proof.
  intros (A0 & B0 & _) (A1 & B1 & _) (A2 & B2 & _). fold (momentum_unit ref p) in B0, B1, B2.
  set (pt := real_at num cf "pitch" 0) in *. set (yw := real_at num cf "yaw" 0) in *. set (rl := real_at num cf "roll" 0) in *.
  rewrite (area_places (real_at num cf "dx" 0 * 1000) (real_at num cf "dy" 0 * 1000) z), (area_places 0 0 z v0). cbv zeta.
  rewrite !Rminus_0_r. unfold speed at 1 2 3 4. rewrite <- (turned_dot pt yw rl), <- (turned_dot pt yw rl (sub3 (speed u1) (speed u0))).
  unfold speed. rewrite !turned_sub, A0, A1, A2, B0, B1, B2. reflexivity.
Qed.
Lemma framed_keeps z : keeps (canonical ref p) false (Via (framed num cf z ref p)).
Proof.
  intros e u0 u1 u2 v0 v1 v2 R0 R1 R2 (U0 & U1 & U2 & F & E). unfold unit_last in *.
  repeat split; unfold unit_last; try discriminate; try (rewrite <- U0 || rewrite <- U1 || rewrite <- U2).
  - apply R0. - rewrite U0, <- U1. apply R1. - rewrite U0, <- U2. apply R2.
  - rewrite <- E. symmetry. exact (framed_area z _ _ _ _ _ _ R0 R1 R2).
Qed.
Lemma unframed_keeps z : keeps (canonical ref p) false (Via (fun u v => framed num cf z ref p v u)).
Proof.
  intros e u0 u1 u2 v0 v1 v2 R0 R1 R2 (U0 & U1 & U2 & F & E). unfold unit_last in *.
  repeat split; unfold unit_last; try discriminate.
  - rewrite <- U0. symmetry. apply R0. - rewrite <- U1. symmetry. apply R1. - rewrite <- U2. symmetry. apply R2.
  - rewrite <- E. exact (framed_area z _ _ _ _ _ _ R0 R1 R2).
Qed.
(** Without pitch and yaw, energies and phases stay. *)
Lemma facing_framed z u v : facing num cf -> framed num cf z ref p u v ->
  let a := real_at num cf "roll" 0 in let x := u 0%nat - real_at num cf "dx" 0 * 1000 in let y := u 2%nat - real_at num cf "dy" 0 * 1000 in
  v 0%nat = cos a * x + sin a * y /\ v 2%nat = - sin a * x + cos a * y /\
  v 1%nat = cos a * u 1%nat + sin a * u 3%nat /\ v 3%nat = - sin a * u 1%nat + cos a * u 3%nat /\
  v 4%nat = u 4%nat /\ v 5%nat = u 5%nat /\ v 6%nat = u 6%nat.
Proof.
  intros [P Y] (A & B & C). cbv zeta. rewrite P, Y in A, B. cbn [turned] in A, B. unfold turned in A, B. rewrite cos_0, sin_0 in A, B.
  apply tuple3 in A as (A1 & A2 & A3). apply tuple3 in B as (B1 & B2 & B3).
  rewrite <- A1, <- A2, <- B1, <- B2. repeat split; try ring; auto.
  - apply (undist p HP _ _ z). rewrite <- A3. ring.
  - apply (undev ref p HP HE). rewrite <- B3. ring.
Qed.
Lemma facing_area z u0 u1 u2 v0 v1 v2 : facing num cf -> framed num cf z ref p u0 v0 -> framed num cf z ref p u1 v1 -> framed num cf z ref p u2 v2 ->
  area 0 u0 u1 u2 = area 0 v0 v1 v2.
Proof.
  intros HF R0 R1 R2. apply facing_framed in R0; auto. apply facing_framed in R1; auto. apply facing_framed in R2; auto.
  cbv zeta in R0, R1, R2. set (a := real_at num cf "roll" 0) in *.
  destruct R0 as (X0 & Y0 & P0 & Q0 & _), R1 as (X1 & Y1 & P1 & Q1 & _), R2 as (X2 & Y2 & P2 & Q2 & _).
  unfold area. rewrite X0, X1, X2, Y0, Y1, Y2, P0, P1, P2, Q0, Q1, Q2. assert (P := sin2_cos2 a). unfold Rsqr in P.
  symmetry. transitivity ((sin a * sin a + cos a * cos a) * ((u1 0%nat - u0 0%nat) * (u2 1%nat - u0 1%nat) - (u1 1%nat - u0 1%nat) * (u2 0%nat - u0 0%nat) +
     ((u1 2%nat - u0 2%nat) * (u2 3%nat - u0 3%nat) - (u1 3%nat - u0 3%nat) * (u2 2%nat - u0 2%nat)))); [ring|rewrite P; ring].
Qed.
Lemma facing_keeps z : facing num cf -> keeps 0 true (Via (framed num cf z ref p)).
Proof.
  intros HF e u0 u1 u2 v0 v1 v2 R0 R1 R2 (U0 & U1 & U2 & F & E). unfold unit_last in *.
  assert (A := facing_area z _ _ _ _ _ _ HF R0 R1 R2).
  apply facing_framed in R0; auto. apply facing_framed in R1; auto. apply facing_framed in R2; auto. cbv zeta in R0, R1, R2.
  destruct R0 as (_ & _ & _ & _ & _ & E0 & S0), R1 as (_ & _ & _ & _ & _ & E1 & S1), R2 as (_ & _ & _ & _ & _ & E2 & S2).
  repeat split; unfold unit_last; try congruence; try (rewrite E0, ?E1, ?E2; apply F; auto).
Qed.
Lemma unfacing_keeps z : facing num cf -> keeps 0 true (Via (fun u v => framed num cf z ref p v u)).
Proof.
  intros HF e u0 u1 u2 v0 v1 v2 R0 R1 R2 (U0 & U1 & U2 & F & E). unfold unit_last in *.
  assert (A := facing_area z _ _ _ _ _ _ HF R0 R1 R2).
  apply facing_framed in R0; auto. apply facing_framed in R1; auto. apply facing_framed in R2; auto. cbv zeta in R0, R1, R2.
  destruct R0 as (_ & _ & _ & _ & _ & E0 & S0), R1 as (_ & _ & _ & _ & _ & E1 & S1), R2 as (_ & _ & _ & _ & _ & E2 & S2).
  repeat split; unfold unit_last; try congruence; try (rewrite <- E0, <- ?E1, <- ?E2; apply F; auto).
Qed.
End Framed.

(** ** Courses *)
Lemma stretches_keep c fl A L l : (forall b, generates c fl (A b)) -> Forall (keeps c fl) (stretches A L l).
Proof. intros H. unfold stretches. apply Forall_forall. intros g Hg. apply in_map_iff in Hg as (b & <- & _). apply H. Qed.
Lemma course_keeps w c ref p legs : moving p -> 0 < p_Es ref -> ~ is_a "tmatrix" c -> (is_a "sbend" c -> made_for w c ref p) ->
  course w c ref p legs -> Forall (keeps (canonical ref p) false) legs.
Proof.
  intros HP HE HN HB H.
  assert (IN : forall z1 z2 l, Forall (keeps (canonical ref p) false) l ->
    Forall (keeps (canonical ref p) false) (Via (framed (w_num w) c z1 ref p) :: l ++ [Via (fun u v => framed (w_num w) c z2 ref p v u)])).
  { intros z1 z2 l Hl. constructor; [apply framed_keeps; auto|]. apply Forall_app. split; auto. constructor; [|constructor].
    apply unframed_keeps; auto. }
  destruct H.
  - constructor.
  - constructor; [apply drifting_gen|constructor].
  - apply IN, stretches_keep. intros. apply coasting_gen.
  - apply IN, stretches_keep. intros. apply coasting_gen.
  - apply IN, stretches_keep. intros. apply spiralling_gen.
  - constructor; [apply rolled_keeps|]. apply (IN 0 0 [Via (kicked w c ref p)]). constructor; [|constructor]. apply kicked_keeps.
  - destruct (Req_EM_T _ _); [constructor|]. apply IN. unfold sector. constructor; [apply edge_keeps|].
    constructor; [|constructor; [apply edge_keeps|constructor]]. cbn [keeps]. apply bending_gen.
    destruct (HB H) as [HF HG]. rewrite <- (HG _ H0). fold (beta_of p).
    assert (KP := k_pos p HP). assert (BP := b_pos ref p HP HE). destruct (moving_facts p HP) as (G1 & B1 & L1 & _).
    unfold canonical, momentum_unit, wavenumber in *. assert (WL : wavelength ref = wavelength p) by (unfold wavelength; congruence).
    rewrite WL. field. pose proof PI_RGT_0. repeat split; lra.
  - contradiction.
Qed.
Lemma course_flat w c ref p legs : moving p -> 0 < p_Es ref -> ~ is_a "tmatrix" c -> facing (w_num w) c ->
  course w c ref p legs -> Forall (keeps 0 true) legs.
Proof.
  intros HP HE HN HF H.
  assert (IN : forall z1 z2 l, Forall (keeps 0 true) l ->
    Forall (keeps 0 true) (Via (framed (w_num w) c z1 ref p) :: l ++ [Via (fun u v => framed (w_num w) c z2 ref p v u)])).
  { intros z1 z2 l Hl. constructor; [apply facing_keeps; auto|]. apply Forall_app. split; auto. constructor; [|constructor].
    apply unfacing_keeps; auto. }
  destruct H.
  - constructor.
  - constructor; [apply drifting_gen|constructor].
  - apply IN, stretches_keep. intros. apply coasting_gen.
  - apply IN, stretches_keep. intros. apply coasting_gen.
  - apply IN, stretches_keep. intros. apply spiralling_gen.
  - constructor; [apply rolled_keeps|]. apply (IN 0 0 [Via (kicked w c ref p)]). constructor; [|constructor]. apply kicked_keeps.
  - destruct (Req_EM_T _ _); [constructor|]. apply IN. unfold sector. constructor; [apply edge_keeps|].
    constructor; [|constructor; [apply edge_keeps|constructor]]. cbn [keeps]. apply bending_flat.
  - contradiction.
Qed.
Lemma legs_areas c legs T : Forall (keeps c false) legs -> (forall u, unit_last u -> passes legs u (mapp 7 T u)) -> keeps_areas c T.
Proof.
  intros K P u0 u1 u2 U0 U1 U2.
  refine (proj2 (proj2 (proj2 (proj2 (passes_inv c false legs K _ u0 u1 u2 _ _ _ (P _ U0) (P _ U1) (P _ U2) _))))).
  repeat split; auto; discriminate.
Qed.
Lemma legs_transverse legs T : Forall (keeps 0 true) legs -> (forall u, unit_last u -> passes legs u (mapp 7 T u)) -> keeps_transverse_areas T.
Proof.
  intros K P u0 u1 u2 U0 U1 U2 E1 E2.
  refine (proj2 (proj2 (proj2 (proj2 (passes_inv 0 true legs K _ u0 u1 u2 _ _ _ (P _ U0) (P _ U1) (P _ U2) _))))).
  repeat split; auto.
Qed.

Section Moment.
Variable w : world.
Theorem moment_areas c m es us i ec st p f : sane w ->
  new_machine (moment_reg w) c = Ok m -> tfind "elements" c = Some (TCfgs es) ->
  Forall strips_to_some es -> smooth (fun r s => r = false /\ aligned s) strips_to_some m us ->
  nth_error (entries m es us) i = Some ec -> described ec -> proper_magnet (w_num w) ec -> ~ is_a "tmatrix" ec ->
  let s := st_body st in
  aligned s -> moving (ms_ref s) -> Forall moving (ms_real s) ->
  propagate (uses m us) st (N.of_nat i) 1 = Some p -> pr_end p = Ok f ->
  forall j q, nth_error (ms_real s) j = Some q ->
  exists T, nth_error (ms_tm (st_body f)) j = Some T /\
    ((is_a "sbend" ec -> made_for w ec (ms_ref s) q) -> keeps_areas (canonical (ms_ref s) q) T) /\
    (facing (w_num w) ec -> keeps_transverse_areas T).
Proof.
  intros W Hm He HQ HS Hi HD HPM HN s A HR HRs HP Hf j q Hq.
  destruct (A) as (_ & L1 & L2 & _).
  destruct (nth_ex (ms_m0 s) j (List.length (ms_real s)) ltac:(congruence) (nth_lt _ _ _ Hq)) as [v Hv].
  destruct (nth_ex (ms_m1 s) j (List.length (ms_real s)) ltac:(congruence) (nth_lt _ _ _ Hq)) as [S Hs].
  destruct (moment_motion w c m es us i ec st p f W Hm He HQ HS Hi HD HPM A HR HRs HP Hf j q v S Hq Hv Hs)
    as (T & v' & S' & legs & HT & _ & _ & _ & HC & HL).
  assert (HQq : moving q) by (rewrite Forall_forall in HRs; apply HRs; apply nth_error_In in Hq; exact Hq).
  exists T. split; [exact HT|]. split.
  - intros MF. apply (legs_areas _ legs); auto. apply (course_keeps w ec); auto. apply HR.
  - intros FC. apply (legs_transverse legs); auto. apply (course_flat w ec (ms_ref s) q); auto. apply HR.
Qed.
End Moment.
