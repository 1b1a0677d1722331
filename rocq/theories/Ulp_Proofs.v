(** Rounding errors of sums of products. *)
From Coq Require Import Reals List ZArith Arith Bool Lia Lra Floats.SpecFloat.
From Flocq Require Import Core IEEE754.BinarySingleNaN Relative Plus_error.
From Verif Require Import Dbl Number_Spec Number_Proofs Bits_Model Bits_Spec Bits_Proofs Ulp_Spec.
Import ListNotations.
Open Scope R_scope.

Lemma u_pos : 0 < u_round. Proof. apply powerRZ_lt. lra. Qed.
Lemma tiny_pos : 0 < u_tiny. Proof. apply powerRZ_lt. lra. Qed.
Lemma u_half : / 2 * bpow radix2 (-53 + 1) = u_round.
Proof.
  unfold u_round. change (-53 + 1)%Z with (-52)%Z. change (-53)%Z with (-1 + -52)%Z.
  rewrite powerRZ_add by lra. rewrite bpow_powerRZ. change (IZR radix2) with 2. f_equal. unfold powerRZ. simpl. lra.
Qed.
Lemma tiny_half : / 2 * bpow radix2 (-1074) = u_tiny.
Proof.
  unfold u_tiny. change (-1075)%Z with (-1 + -1074)%Z.
  rewrite powerRZ_add by lra. rewrite bpow_powerRZ. change (IZR radix2) with 2. f_equal. unfold powerRZ. simpl. lra.
Qed.
Lemma as_b64 x : well_formed x -> exists a : b64, x = B2SF a.
Proof. intros W. exists (SF2B x W). symmetry. apply B2SF_SF2B. Qed.
Lemma B2SF_wf (a : b64) : well_formed (B2SF a).
Proof. destruct a; try reflexivity. simpl. assumption. Qed.
Lemma add_wf x y : well_formed x -> well_formed y -> well_formed (dadd x y).
Proof. intros X Y. destruct (as_b64 x X) as [a ->], (as_b64 y Y) as [b ->]. rewrite add_same. apply B2SF_wf. Qed.
Lemma mul_wf x y : well_formed x -> well_formed y -> well_formed (dmul x y).
Proof. intros X Y. destruct (as_b64 x X) as [a ->], (as_b64 y Y) as [b ->]. rewrite mul_same. apply B2SF_wf. Qed.
Lemma zero_wf : well_formed dzero. Proof. reflexivity. Qed.
Lemma add_finite x y : is_finite (dadd x y) = true -> is_finite x = true /\ is_finite y = true.
Proof. destruct x as [|[]| |], y as [|[]| |]; simpl; auto; discriminate. Qed.
Lemma mul_finite x y : is_finite (dmul x y) = true -> is_finite x = true /\ is_finite y = true.
Proof. destruct x as [|[]| |], y as [|[]| |]; simpl; auto; discriminate. Qed.
Lemma fexp_FLT' : forall e, fexp e = FLT_exp (-1074) 53 e.
Proof. intros e. reflexivity. Qed.
Lemma add_error x y : well_formed x -> well_formed y -> is_finite (dadd x y) = true ->
  exists d, Rabs d <= u_round /\ dval (dadd x y) = (dval x + dval y) * (1 + d).
Proof.
  intros X Y F. destruct (add_finite x y F) as [Fx Fy].
  pose proof (format_dval x X Fx) as Gx. pose proof (format_dval y Y Fy) as Gy.
  destruct (as_b64 x X) as [a ->], (as_b64 y Y) as [b ->]. rewrite !dval_SF2R in *.
  rewrite finite_SF, is_finite_SF_B2SF in Fx, Fy. rewrite add_same in *. rewrite !SF2R_B2SF in *.
  rewrite finite_SF, is_finite_SF_B2SF in F.
  pose proof (Bplus_correct dprec demax _ _ mode_NE a b Fx Fy) as C.
  destruct (Rlt_bool _ _) eqn:E.
  - destruct C as (C & _). rewrite C.
    destruct (FLT_plus_error_N_ex radix2 (3 - demax - dprec) dprec (fun z => negb (Z.even z)) _ _ Gx Gy) as (d & D1 & D2).
    exists d. split; [|exact D2]. eapply Rle_trans; [exact D1|]. unfold u_ro. change (-dprec + 1)%Z with (-53 + 1)%Z. rewrite u_half.
    pose proof u_pos. apply Rmult_le_reg_r with (1 + u_round); [lra|]. unfold Rdiv. rewrite Rmult_assoc, Rinv_l by lra. nra.
  - exfalso. destruct C as (C & _). destruct (Bplus mode_NE a b); simpl in *; try discriminate;
      destruct (B2R _ + _); discriminate.
Qed.
Lemma mul_error x y : well_formed x -> well_formed y -> is_finite (dmul x y) = true ->
  exists d t, Rabs d <= u_round /\ Rabs t <= u_tiny /\ dval (dmul x y) = dval x * dval y * (1 + d) + t.
Proof.
  intros X Y F. destruct (mul_finite x y F) as [Fx Fy].
  destruct (as_b64 x X) as [a ->], (as_b64 y Y) as [b ->]. rewrite !dval_SF2R in *. rewrite mul_same in *. rewrite !SF2R_B2SF in *.
  rewrite finite_SF, is_finite_SF_B2SF in F.
  pose proof (Bmult_correct dprec demax _ _ mode_NE a b) as C.
  destruct (Rlt_bool _ _) eqn:E.
  - destruct C as (C & _). rewrite C.
    destruct (error_N_FLT radix2 (3 - demax - dprec) dprec eq_refl (fun z => negb (Z.even z)) (B2R a * B2R b)) as (d & t & D1 & D2 & _ & D3).
    exists d, t. change (-dprec + 1)%Z with (-53 + 1)%Z in D1. rewrite u_half in D1.
    change (3 - demax - dprec)%Z with (-1074)%Z in D2. rewrite tiny_half in D2. auto.
  - exfalso. destruct (Bmult mode_NE a b); simpl in *; discriminate.
Qed.

(** ** Sums of products *)
Lemma rsum_ext n f g : (forall k, (k < n)%nat -> f k = g k) -> rsum n f = rsum n g.
Proof. induction n as [|n IH]; intros H; [reflexivity|]. simpl. rewrite IH, H; auto. Qed.
Lemma rsum_le n f g : (forall k, (k < n)%nat -> f k <= g k) -> rsum n f <= rsum n g.
Proof.
  induction n as [|n IH]; intros H; [simpl; lra|]. simpl. apply Rplus_le_compat; auto.
Qed.
Lemma rsum_abs n f : Rabs (rsum n f) <= rsum n (fun k => Rabs (f k)).
Proof.
  induction n as [|n IH]; simpl; [rewrite Rabs_R0; lra|]. eapply Rle_trans; [apply Rabs_triang|]. lra.
Qed.
Lemma rsum_pos n f : (forall k, (k < n)%nat -> 0 <= f k) -> 0 <= rsum n f.
Proof. induction n as [|n IH]; intros H; simpl; [lra|]. apply Rplus_le_le_0_compat; auto. Qed.
Lemma rsum_plus n f g : rsum n (fun k => f k + g k) = rsum n f + rsum n g.
Proof. induction n as [|n IH]; simpl; [lra|]. rewrite IH. ring. Qed.
Lemma rsum_scal n c f : rsum n (fun k => c * f k) = c * rsum n f.
Proof. induction n as [|n IH]; simpl; [lra|]. rewrite IH. ring. Qed.
Lemma gamma_0 n : 0 <= gamma n.
Proof. unfold gamma. pose proof (pow_R1_Rle (1 + u_round) (S n)). pose proof u_pos. lra. Qed.
Lemma gamma_step n : 1 + gamma (S n) = (1 + gamma n) * (1 + u_round).
Proof. unfold gamma. simpl. ring. Qed.
Lemma lost_0 n : 0 <= lost n.
Proof.
  unfold lost. pose proof (pos_INR n). pose proof tiny_pos. pose proof (pow_R1_Rle (1 + u_round) n). pose proof u_pos.
  apply Rmult_le_pos; [apply Rmult_le_pos|]; lra.
Qed.

Lemma dot_step n a b : fdot (S n) a b = dadd (fdot n a b) (dmul (a n) (b n)).
Proof. unfold fdot. rewrite seq_S, fold_left_app. reflexivity. Qed.
Lemma dot_wf n a b : well_formed_vec n a -> well_formed_vec n b -> well_formed (fdot n a b).
Proof.
  induction n as [|n IH]; intros A B; [reflexivity|]. rewrite dot_step. apply add_wf.
  - apply IH; intros i Hi; [apply A|apply B]; lia.
  - apply mul_wf; [apply A|apply B]; lia.
Qed.
Lemma dot_error n a b : well_formed_vec n a -> well_formed_vec n b -> is_finite (fdot n a b) = true ->
  Rabs (dval (fdot n a b) - rsum n (fun k => dval (a k) * dval (b k))) <=
  gamma n * rsum n (fun k => Rabs (dval (a k) * dval (b k))) + lost n.
Proof.
  induction n as [|n IH]; intros A B F.
  - simpl. unfold lost. simpl. rewrite Rminus_0_r, Rabs_R0. lra.
  - assert (A' : well_formed_vec n a) by (intros i Hi; apply A; lia).
    assert (B' : well_formed_vec n b) by (intros i Hi; apply B; lia).
    rewrite dot_step in *.
    assert (WP : well_formed (dmul (a n) (b n))) by (apply mul_wf; [apply A|apply B]; lia).
    destruct (add_finite _ _ F) as [F1 F2]. specialize (IH A' B' F1).
    destruct (add_error _ _ (dot_wf n a b A' B') WP F) as (d & D & ->).
    destruct (mul_error (a n) (b n)) as (d' & t & D' & T & ->); [apply A; lia|apply B; lia|exact F2|].
    cbn [rsum]. set (P := rsum n _) in *. set (Q := rsum n (fun k => Rabs (dval (a k) * dval (b k)))) in *. set (z := dval (fdot n a b)) in *.
    set (c := dval (a n) * dval (b n)) in *.
    assert (PQ : Rabs P <= Q) by apply rsum_abs.
    replace ((z + (c * (1 + d') + t)) * (1 + d) - (P + c)) with
      ((z - P) * (1 + d) + P * d + c * ((1 + d') * (1 + d) - 1) + t * (1 + d)) by ring.
    pose proof u_pos as U. pose proof tiny_pos as TP. pose proof (gamma_0 n) as G0. pose proof (lost_0 n) as L0.
    assert (D1 : Rabs (1 + d) <= 1 + u_round) by (apply Rabs_le; apply Rabs_le_inv in D; lra).
    assert (D2 : Rabs ((1 + d') * (1 + d) - 1) <= (1 + u_round) * (1 + u_round) - 1).
    { replace ((1 + d') * (1 + d) - 1) with (d' * (1 + d) + d) by ring. eapply Rle_trans; [apply Rabs_triang|].
      rewrite Rabs_mult. pose proof (Rabs_pos d'). pose proof (Rabs_pos (1 + d)). nra. }
    pose proof (Rabs_pos c) as C0. pose proof (Rabs_pos (z - P)) as Z0. pose proof (Rabs_pos P) as P0. pose proof (Rabs_pos t) as T0.
    eapply Rle_trans; [apply Rabs_triang|]. eapply Rle_trans; [apply Rplus_le_compat; [|apply Rle_refl]; apply Rabs_triang|].
    eapply Rle_trans; [apply Rplus_le_compat; [|apply Rle_refl]; apply Rplus_le_compat; [|apply Rle_refl]; apply Rabs_triang|].
    rewrite !Rabs_mult.
    assert (E1 : Rabs (z - P) * Rabs (1 + d) <= (gamma n * Q + lost n) * (1 + u_round)).
    { apply Rmult_le_compat; auto. apply Rabs_pos. }
    assert (E2 : Rabs P * Rabs d <= Q * u_round) by (apply Rmult_le_compat; auto; apply Rabs_pos).
    assert (E3 : Rabs c * Rabs ((1 + d') * (1 + d) - 1) <= Rabs c * gamma (S n)).
    { apply Rmult_le_compat_l; auto. eapply Rle_trans; [exact D2|]. unfold gamma. simpl.
      pose proof (pow_R1_Rle (1 + u_round) n). assert (1 <= (1 + u_round) ^ n) by (apply H; lra). nra. }
    assert (E4 : Rabs t * Rabs (1 + d) <= u_tiny * (1 + u_round)) by (apply Rmult_le_compat; auto; apply Rabs_pos).
    assert (LS : lost n * (1 + u_round) + u_tiny * (1 + u_round) <= lost (S n)).
    { unfold lost. rewrite S_INR. cbn [pow].
      assert (1 <= (1 + u_round) ^ n) by (apply pow_R1_Rle; lra). pose proof (pos_INR n).
      replace ((INR n + 1) * u_tiny * ((1 + u_round) * (1 + u_round) ^ n)) with
        (INR n * u_tiny * (1 + u_round) ^ n * (1 + u_round) + u_tiny * (1 + u_round) * (1 + u_round) ^ n) by ring.
      apply Rplus_le_compat_l. rewrite <- (Rmult_1_r (u_tiny * (1 + u_round))) at 1. apply Rmult_le_compat_l; auto.
      apply Rmult_le_pos; lra. }
    assert (CC : Rabs (dval (a n)) * Rabs (dval (b n)) = Rabs c) by (symmetry; apply Rabs_mult). rewrite ?CC.
    replace (dval (a n) * dval (b n)) with c by reflexivity.
    assert (GS : gamma (S n) = gamma n * (1 + u_round) + u_round) by (pose proof (gamma_step n); lra).
    assert (Q0 : 0 <= Q) by lra.
    replace (gamma (S n) * (Q + Rabs c)) with (gamma n * Q * (1 + u_round) + Q * u_round + Rabs c * gamma (S n)) by (rewrite GS; ring).
    rewrite (Rmult_plus_distr_r (gamma n * Q)) in E1. lra.
Qed.

(** ** Vectors and covariances *)
Lemma exact_vec_ext n T x y i : (forall k, (k < n)%nat -> x k = y k) -> exact_vec n T x i = exact_vec n T y i.
Proof. intros H. apply rsum_ext. intros k Hk. rewrite H; auto. Qed.
Lemma vec_error n T v i : (i < n)%nat -> well_formed_mat n T -> well_formed_vec n v -> is_finite (fapp n T v i) = true ->
  Rabs (dval (fapp n T v i) - exact_vec n T (fun k => dval (v k)) i) <=
  gamma n * abs_vec n T (fun k => Rabs (dval (v k))) i + lost n.
Proof.
  intros Hi W V F. unfold abs_vec. erewrite (rsum_ext n (fun k => Rabs _ * Rabs _)); [|intros; symmetry; apply Rabs_mult].
  apply dot_error; auto. intros k Hk. apply W; auto.
Qed.
Lemma dot_args_finite n a b : is_finite (fdot n a b) = true -> forall k, (k < n)%nat -> is_finite (a k) = true /\ is_finite (b k) = true.
Proof.
  induction n as [|n IH]; intros F k Hk; [lia|]. rewrite dot_step in F. destruct (add_finite _ _ F) as [F1 F2].
  destruct (Nat.eq_dec k n) as [->|N]; [apply mul_finite; auto|apply IH; auto; lia].
Qed.
Lemma cov_error_bound n T M i j : (i < n)%nat -> (j < n)%nat -> well_formed_mat n T -> well_formed_mat n M ->
  is_finite (fmul n (fmul n T M) (ftr T) i j) = true ->
  Rabs (dval (fmul n (fmul n T M) (ftr T) i j) - exact_cov n T M i j) <= cov_error n T M i j.
Proof.
  intros Hi Hj W V F. set (S := fmul n T M). change (is_finite (fdot n (S i) (T j)) = true) in F.
  change (fmul n S (ftr T) i j) with (fdot n (S i) (T j)).
  assert (WS : well_formed_vec n (S i)).
  { intros l Hl. apply dot_wf; intros k Hk; [apply W|apply V]; auto. }
  assert (WT : well_formed_vec n (T j)) by (intros k Hk; apply W; auto).
  pose proof (dot_error n (S i) (T j) WS WT F) as E.
  assert (ES : forall l, (l < n)%nat -> Rabs (dval (S i l) - rsum n (fun k => dval (T i k) * dval (M k l))) <=
    gamma n * rsum n (fun k => Rabs (dval (T i k) * dval (M k l))) + lost n).
  { intros l Hl. apply dot_error.
    - intros k Hk. apply W; auto.
    - intros k Hk. apply V; auto.
    - apply (dot_args_finite n (S i) (T j) F l Hl). }
  pose proof (gamma_0 n) as G. pose proof (lost_0 n) as L.
  set (X := fun l => rsum n (fun k => dval (T i k) * dval (M k l))) in *.
  set (A := fun l => rsum n (fun k => Rabs (dval (T i k) * dval (M k l)))) in *.
  assert (XA : forall l, Rabs (X l) <= A l) by (intros l; apply rsum_abs).
  assert (SA : rsum n (fun l => Rabs (dval (S i l) * dval (T j l))) <=
    (1 + gamma n) * abs_cov n T M i j + lost n * rsum n (fun l => Rabs (dval (T j l)))).
  { unfold abs_cov. rewrite <- !rsum_scal, <- rsum_plus. apply rsum_le. intros l Hl. rewrite Rabs_mult.
    fold (A l). rewrite <- Rmult_assoc, <- Rmult_plus_distr_r. apply Rmult_le_compat_r; [apply Rabs_pos|].
    specialize (ES l Hl). fold (X l) (A l) in ES. specialize (XA l).
    replace (dval (S i l)) with ((dval (S i l) - X l) + X l) by ring. eapply Rle_trans; [apply Rabs_triang|]. lra. }
  assert (SX : Rabs (rsum n (fun l => dval (S i l) * dval (T j l)) - exact_cov n T M i j) <=
    gamma n * abs_cov n T M i j + lost n * rsum n (fun l => Rabs (dval (T j l)))).
  { unfold exact_cov, abs_cov. replace (rsum n (fun l => dval (S i l) * dval (T j l)) - _) with
      (rsum n (fun l => (dval (S i l) - X l) * dval (T j l))).
    - eapply Rle_trans; [apply rsum_abs|]. rewrite <- !rsum_scal, <- rsum_plus. apply rsum_le. intros l Hl. rewrite Rabs_mult.
      fold (A l). rewrite <- Rmult_assoc, <- Rmult_plus_distr_r. apply Rmult_le_compat_r; [apply Rabs_pos|]. apply ES; auto.
    - fold X. unfold Rminus. rewrite <- (Rmult_1_l (rsum n (fun l => rsum n _ * _))), <- Ropp_mult_distr_l_reverse.
      change (rsum n (fun l => rsum n (fun k => dval (T i k) * dval (M k l)) * dval (T j l))) with (rsum n (fun l => X l * dval (T j l))).
      rewrite <- rsum_scal, <- rsum_plus. apply rsum_ext. intros. ring. }
  unfold cov_error. set (B := abs_cov n T M i j) in *. set (Y := rsum n (fun l => Rabs (dval (T j l)))) in *.
  set (s := rsum n (fun l => dval (S i l) * dval (T j l))) in *. set (x := exact_cov n T M i j) in *.
  replace (dval (fdot n (S i) (T j)) - x) with ((dval (fdot n (S i) (T j)) - s) + (s - x)) by ring.
  eapply Rle_trans; [apply Rabs_triang|].
  assert (GG : gamma n * rsum n (fun l => Rabs (dval (S i l) * dval (T j l))) <= gamma n * ((1 + gamma n) * B + lost n * Y))
    by (apply Rmult_le_compat_l; auto).
  replace (((1 + gamma n) ^ 2 - 1) * B + lost n * (1 + (1 + gamma n) * Y)) with
    (gamma n * ((1 + gamma n) * B + lost n * Y) + lost n + (gamma n * B + lost n * Y)) by ring. lra.
Qed.
Lemma rsum_0 n : rsum n (fun _ => 0) = 0.
Proof. induction n as [|n IH]; simpl; lra. Qed.
Lemma rsum_swap n m f : rsum n (fun k => rsum m (fun l => f k l)) = rsum m (fun l => rsum n (fun k => f k l)).
Proof.
  induction n as [|n IH]; simpl; [symmetry; apply rsum_0|]. rewrite IH, <- rsum_plus. reflexivity.
Qed.
Lemma exact_sym n T M i j : (forall k l, (k < n)%nat -> (l < n)%nat -> M k l = M l k) -> exact_cov n T M i j = exact_cov n T M j i.
Proof.
  intros H. unfold exact_cov.
  assert (E : forall i j, rsum n (fun l => rsum n (fun k => dval (T i k) * dval (M k l)) * dval (T j l)) =
    rsum n (fun l => rsum n (fun k => dval (T j l) * (dval (T i k) * dval (M k l))))).
  { intros a b. apply rsum_ext. intros l Hl. rewrite rsum_scal. ring. }
  rewrite !E, rsum_swap. apply rsum_ext. intros k Hk. apply rsum_ext. intros l Hl. rewrite (H k l) by auto. ring.
Qed.
Lemma sum_seq f n : rsum n f = fold_right Rplus 0 (map f (seq 0 n)).
Proof.
  induction n as [|n IH]; [reflexivity|]. rewrite seq_S, map_app, fold_right_app. simpl. rewrite IH.
  generalize (map f (seq 0 n)). intros l. induction l as [|x l IHl]; simpl; [ring|]. rewrite <- IHl. ring.
Qed.
Lemma exact_var T M i : covariance_of_doubles M -> 0 <= exact_cov 7 T M i i.
Proof.
  intros [H P]. specialize (P (fun k => dval (T i k))).
  replace (exact_cov 7 T M i i) with (fold_right Rplus 0
    (map (fun k => fold_right Rplus 0 (map (fun l => dval (T i k) * dval (M k l) * dval (T i l)) (seq 0 7))) (seq 0 7))); [exact P|].
  rewrite <- sum_seq. unfold exact_cov.
  rewrite (rsum_ext 7 _ (fun k => rsum 7 (fun l => dval (T i k) * dval (M k l) * dval (T i l)))) by (intros; symmetry; apply sum_seq).
  rewrite rsum_swap. apply rsum_ext. intros l Hl. rewrite (Rmult_comm (rsum 7 _)), <- rsum_scal. apply rsum_ext. intros. ring.
Qed.
Lemma cov_wf M : covariance_of_doubles M -> well_formed_mat 7 M.
Proof. intros [H _] i j Hi Hj. apply (H i j Hi Hj). Qed.

(** ** Elements *)
Lemma step_forall2 (P : fcell -> fcell -> Prop) e s :
  (forall c, P c (fcell_step e (frecalc (f_ref s)) (frecalc_cell c))) -> Forall2 P (f_cells s) (f_cells (fadvance e s)).
Proof.
  intros H. rewrite cells_step. set (r := frecalc (f_ref s)) in *. clearbody r.
  induction (f_cells s); constructor; auto.
Qed.
Lemma step_m0 e r c : c_m0 (fcell_step e r (frecalc_cell c)) = fapp 7 (c_tm (fcell_step e r (frecalc_cell c))) (c_m0 c).
Proof. reflexivity. Qed.
Lemma step_m1 e r c : c_m1 (fcell_step e r (frecalc_cell c)) =
  fmul 7 (fmul 7 (c_tm (fcell_step e r (frecalc_cell c))) (c_m1 c)) (ftr (c_tm (fcell_step e r (frecalc_cell c)))).
Proof. reflexivity. Qed.
Lemma centroid_error e s : Forall2 (fun c d =>
    well_formed_vec 7 (c_m0 c) -> well_formed_mat 7 (c_tm d) -> forall i, (i < 7)%nat -> is_finite (c_m0 d i) = true ->
    Rabs (dval (c_m0 d i) - exact_vec 7 (c_tm d) (fun k => dval (c_m0 c k)) i) <=
      gamma 7 * abs_vec 7 (c_tm d) (fun k => Rabs (dval (c_m0 c k))) i + lost 7) (f_cells s) (f_cells (fadvance e s)).
Proof.
  apply step_forall2. intros c V T i Hi F. rewrite step_m0 in *. set (Tm := c_tm _) in *. clearbody Tm.
  exact (vec_error 7 Tm (c_m0 c) i Hi T V F).
Qed.
Lemma covariance_error e s : Forall2 (fun c d =>
    well_formed_mat 7 (c_m1 c) -> well_formed_mat 7 (c_tm d) -> forall i j, (i < 7)%nat -> (j < 7)%nat -> is_finite (c_m1 d i j) = true ->
    Rabs (dval (c_m1 d i j) - exact_cov 7 (c_tm d) (c_m1 c) i j) <= cov_error 7 (c_tm d) (c_m1 c) i j)
  (f_cells s) (f_cells (fadvance e s)).
Proof.
  apply step_forall2. intros c V T i j Hi Hj F. rewrite !step_m1 in *.
  set (Tm := c_tm _) in *. clearbody Tm. exact (cov_error_bound 7 Tm (c_m1 c) i j Hi Hj T V F).
Qed.
Lemma variance_near e s : Forall2 (fun c d =>
    covariance_of_doubles (c_m1 c) -> well_formed_mat 7 (c_tm d) -> forall i, (i < 7)%nat -> is_finite (c_m1 d i i) = true ->
    - cov_error 7 (c_tm d) (c_m1 c) i i <= dval (c_m1 d i i)) (f_cells s) (f_cells (fadvance e s)).
Proof.
  apply step_forall2. intros c V T i Hi F. rewrite !step_m1 in *.
  set (Tm := c_tm _) in *. clearbody Tm.
  pose proof (cov_error_bound 7 Tm (c_m1 c) i i Hi Hi T (cov_wf _ V) F) as E. pose proof (exact_var Tm (c_m1 c) i V).
  apply Rabs_le_inv in E. lra.
Qed.
Lemma symmetric_near e s : Forall2 (fun c d =>
    covariance_of_doubles (c_m1 c) -> well_formed_mat 7 (c_tm d) -> forall i j, (i < 7)%nat -> (j < 7)%nat ->
    is_finite (c_m1 d i j) = true -> is_finite (c_m1 d j i) = true ->
    Rabs (dval (c_m1 d i j) - dval (c_m1 d j i)) <= cov_error 7 (c_tm d) (c_m1 c) i j + cov_error 7 (c_tm d) (c_m1 c) j i)
  (f_cells s) (f_cells (fadvance e s)).
Proof.
  apply step_forall2. intros c V T i j Hi Hj F G. rewrite !step_m1 in *.
  set (Tm := c_tm _) in *. clearbody Tm.
  pose proof (cov_error_bound 7 Tm (c_m1 c) i j Hi Hj T (cov_wf _ V) F) as E.
  pose proof (cov_error_bound 7 Tm (c_m1 c) j i Hj Hi T (cov_wf _ V) G) as E'.
  rewrite (exact_sym 7 Tm (c_m1 c) j i) in E' by (intros; apply V; auto).
  apply Rabs_le_inv in E. apply Rabs_le_inv in E'. apply Rabs_le. lra.
Qed.

(** ** Lines *)
Lemma line_error n Ts : forall v x X c y, (0 < n)%nat -> Forall (well_formed_mat n) Ts -> well_formed_vec n v -> 0 <= c ->
  (forall k, (k < n)%nat -> 0 <= y k) ->
  (forall k, (k < n)%nat -> Rabs (x k) <= X k) ->
  (forall k, (k < n)%nat -> is_finite (v k) = true -> Rabs (dval (v k) - x k) <= c * X k + y k) ->
  forall i, (i < n)%nat -> is_finite (fold_left (fun v T => fapp n T v) Ts v i) = true ->
  Rabs (dval (fold_left (fun v T => fapp n T v) Ts v i) - exact_line n Ts x i) <=
  ((1 + c) * (1 + gamma n) ^ List.length Ts - 1) * abs_line n Ts X i + small_line n Ts y i.
Proof.
  induction Ts as [|T Ts IH]; intros v x X c y N W V C Y0 HX HE i Hi F.
  - cbn [fold_left exact_line abs_line small_line List.length pow] in *. replace ((1 + c) * 1 - 1) with c by ring. auto.
  - apply Forall_cons_iff in W as [WT W]. cbn [fold_left exact_line abs_line small_line List.length] in *.
    pose proof (gamma_0 n) as G. pose proof (lost_0 n) as L.
    replace ((1 + c) * (1 + gamma n) ^ Datatypes.S (List.length Ts)) with
      ((1 + ((1 + c) * (1 + gamma n) - 1)) * (1 + gamma n) ^ List.length Ts) by (cbn [pow]; ring).
    apply (IH (fapp n T v)); auto.
    + intros k Hk. apply dot_wf; auto. intros l Hl. apply WT; auto.
    + nra.
    + intros k Hk. apply Rplus_le_le_0_compat; auto. apply Rmult_le_pos; [lra|]. apply rsum_pos. intros l Hl.
      apply Rmult_le_pos; [apply Rabs_pos|auto].
    + intros k Hk. eapply Rle_trans; [apply rsum_abs|]. apply rsum_le. intros l Hl. rewrite Rabs_mult.
      apply Rmult_le_compat_l; [apply Rabs_pos|auto].
    + intros k Hk Fk.
      assert (Fv : forall l, (l < n)%nat -> is_finite (v l) = true) by (intros l Hl; apply (dot_args_finite n (T k) v Fk l Hl)).
      pose proof (vec_error n T v k Hk WT V Fk) as E.
      assert (E1 : Rabs (exact_vec n T (fun k => dval (v k)) k - exact_vec n T x k) <= c * abs_vec n T X k + abs_vec n T y k).
      { unfold exact_vec, abs_vec. replace (rsum n _ - rsum n _) with (rsum n (fun l => dval (T k l) * (dval (v l) - x l))).
        - eapply Rle_trans; [apply rsum_abs|]. rewrite <- rsum_scal, <- rsum_plus. apply rsum_le. intros l Hl. rewrite Rabs_mult.
          specialize (HE l Hl (Fv l Hl)). pose proof (Rabs_pos (dval (T k l))). nra.
        - unfold Rminus at 2. replace (- rsum n (fun l => dval (T k l) * x l)) with (-1 * rsum n (fun l => dval (T k l) * x l)) by ring.
          rewrite <- rsum_scal, <- rsum_plus. apply rsum_ext. intros. ring. }
      assert (E2 : abs_vec n T (fun k => Rabs (dval (v k))) k <= (1 + c) * abs_vec n T X k + abs_vec n T y k).
      { unfold abs_vec. rewrite <- rsum_scal, <- rsum_plus. apply rsum_le. intros l Hl.
        specialize (HE l Hl (Fv l Hl)). specialize (HX l Hl). pose proof (Rabs_pos (dval (T k l))).
        assert (Rabs (dval (v l)) <= (1 + c) * X l + y l).
        { replace (dval (v l)) with (dval (v l) - x l + x l) by ring. eapply Rle_trans; [apply Rabs_triang|]. lra. }
        nra. }
      replace (dval (fapp n T v k) - exact_vec n T x k) with
        ((dval (fapp n T v k) - exact_vec n T (fun k => dval (v k)) k) + (exact_vec n T (fun k => dval (v k)) k - exact_vec n T x k)) by ring.
      eapply Rle_trans; [apply Rabs_triang|].
      set (a := abs_vec n T X k) in *. set (b := abs_vec n T y k) in *. set (d := abs_vec n T _ k) in *.
      assert (gamma n * d <= gamma n * ((1 + c) * a + b)) by (apply Rmult_le_compat_l; auto).
      replace (((1 + c) * (1 + gamma n) - 1) * a + ((1 + gamma n) * b + lost n)) with
        (gamma n * ((1 + c) * a + b) + lost n + (c * a + b)) by ring. lra.
Qed.
Lemma lin_state es : forall s, fl_state (fold_left (fun s e => lin_advance e s) es s) = fold_left (fun v T => fapp 6 T v) (map snd es) (fl_state s).
Proof. induction es as [|e es IH]; intros s; [reflexivity|]. apply (IH (lin_advance e s)). Qed.
Lemma vector_line es s i : Forall (fun e => well_formed_mat 6 (snd e)) es -> well_formed_vec 6 (fl_state s) -> (i < 6)%nat ->
  is_finite (fl_state (fold_left (fun s e => lin_advance e s) es s) i) = true ->
  Rabs (dval (fl_state (fold_left (fun s e => lin_advance e s) es s) i) - exact_line 6 (map snd es) (fun k => dval (fl_state s k)) i) <=
  ((1 + u_round) ^ (7 * List.length es) - 1) * abs_line 6 (map snd es) (fun k => Rabs (dval (fl_state s k))) i +
  small_line 6 (map snd es) (fun _ => 0) i.
Proof.
  intros W V Hi F. rewrite lin_state in *.
  replace ((1 + u_round) ^ (7 * List.length es)) with ((1 + 0) * (1 + gamma 6) ^ List.length (map snd es)).
  - apply line_error; auto; try lia; try lra.
    + apply Forall_map. exact W.
    + intros; lra.
    + intros; lra.
    + intros k Hk Fk. rewrite Rminus_diag_eq, Rabs_R0 by reflexivity. lra.
  - rewrite pow_mult, map_length, Rplus_0_r, Rmult_1_l. f_equal. unfold gamma. ring.
Qed.
Lemma sum_error l : forall p x c, well_formed p -> Forall well_formed l -> 0 <= c -> (is_finite p = true -> Rabs (dval p - x) <= c) ->
  is_finite (fold_left dadd l p) = true ->
  Rabs (dval (fold_left dadd l p) - (x + rlist l)) <=
  c * (1 + u_round) ^ List.length l + ((1 + u_round) ^ List.length l - 1) * (Rabs x + rlist_abs l).
Proof.
  induction l as [|e l IH]; intros p x c W WL C E F.
  - simpl in *. rewrite Rplus_0_r. specialize (E F). lra.
  - apply Forall_cons_iff in WL as [We WL]. cbn [fold_left List.length rlist rlist_abs fold_right] in *. fold (rlist l) (rlist_abs l).
    pose proof u_pos as U.
    specialize (IH (dadd p e) (x + dval e) (c * (1 + u_round) + u_round * (Rabs x + Rabs (dval e))) (add_wf _ _ W We) WL).
    assert (P : 1 <= (1 + u_round) ^ List.length l) by (apply pow_R1_Rle; lra).
    assert (B : 0 <= rlist_abs l) by (clear; induction l; simpl; [lra|]; fold (rlist_abs l); pose proof (Rabs_pos (dval a)); lra).
    pose proof (Rabs_pos x) as X0. pose proof (Rabs_pos (dval e)) as E0.
    rewrite <- Rplus_assoc. eapply Rle_trans; [apply IH; auto|].
    + apply Rplus_le_le_0_compat; [nra|]. nra.
    + intros Fe. destruct (add_finite _ _ Fe) as [Fp _]. specialize (E Fp).
      destruct (add_error p e W We Fe) as (d & D & ->).
      replace ((dval p + dval e) * (1 + d) - (x + dval e)) with ((dval p - x) * (1 + d) + (x + dval e) * d) by ring.
      eapply Rle_trans; [apply Rabs_triang|]. rewrite !Rabs_mult.
      assert (Rabs (1 + d) <= 1 + u_round) by (apply Rabs_le; apply Rabs_le_inv in D; lra).
      assert (Rabs (x + dval e) <= Rabs x + Rabs (dval e)) by apply Rabs_triang.
      apply Rplus_le_compat; [apply Rmult_le_compat; auto; apply Rabs_pos|].
      rewrite Rmult_comm. apply Rmult_le_compat; auto; apply Rabs_pos.
    + assert (T : Rabs (x + dval e) <= Rabs x + Rabs (dval e)) by apply Rabs_triang.
      cbn [pow]. set (q := (1 + u_round) ^ List.length l) in *.
      assert ((q - 1) * Rabs (x + dval e) <= (q - 1) * (Rabs x + Rabs (dval e))) by (apply Rmult_le_compat_l; lra).
      assert (0 <= u_round * q * rlist_abs l) by (apply Rmult_le_pos; [apply Rmult_le_pos|]; lra).
      nra.
Qed.
Lemma run_pos es : forall s, f_pos (frun es s) = fold_left dadd (map e_len es) (f_pos s).
Proof. induction es as [|e es IH]; intros s; [reflexivity|]. apply (IH (fadvance e s)). Qed.
Lemma position_error es s : well_formed (f_pos s) -> Forall (fun e => well_formed (e_len e)) es -> is_finite (f_pos (frun es s)) = true ->
  Rabs (dval (f_pos (frun es s)) - (dval (f_pos s) + rlist (map e_len es))) <=
  ((1 + u_round) ^ List.length es - 1) * (Rabs (dval (f_pos s)) + rlist_abs (map e_len es)).
Proof.
  intros W WL F. rewrite run_pos in *. rewrite <- (map_length e_len es).
  pose proof (sum_error (map e_len es) (f_pos s) (dval (f_pos s)) 0 W) as E.
  rewrite Rmult_0_l, Rplus_0_l in E. apply E; auto; try lra.
  - apply Forall_map. exact WL.
  - intros _. rewrite Rminus_diag_eq, Rabs_R0 by reflexivity. lra.
Qed.

(** ** Sizes *)
Lemma u_value : u_round = / 9007199254740992.
Proof. unfold u_round, powerRZ. f_equal. replace (Pos.to_nat 53) with 53%nat by reflexivity. lra. Qed.
Lemma sizes : gamma 7 < / 10 ^ 15 /\ (1 + gamma 7) ^ 2 - 1 < 2 / 10 ^ 15 /\ lost 7 < / 10 ^ 300.
Proof.
  assert (U0 : 0 < u_round) by apply u_pos.
  assert (U1 : u_round < / 9000000000000000) by (rewrite u_value; apply Rinv_lt_contravar; lra).
  set (u := u_round) in *. assert (U2 : u < / 1000) by lra.
  assert (P2 : (1 + u) ^ 2 <= 1 + 21 / 10 * u) by nra.
  assert (Q2 : 0 <= (1 + u) ^ 2) by nra.
  assert (P4 : (1 + u) ^ 4 <= 1 + 43 / 10 * u).
  { replace ((1 + u) ^ 4) with ((1 + u) ^ 2 * (1 + u) ^ 2) by ring.
    apply Rle_trans with ((1 + 21 / 10 * u) * (1 + 21 / 10 * u)); [apply Rmult_le_compat; auto|nra]. }
  assert (Q4 : 0 <= (1 + u) ^ 4) by (apply pow_le; lra).
  assert (P8 : (1 + u) ^ 8 <= 1 + 87 / 10 * u).
  { replace ((1 + u) ^ 8) with ((1 + u) ^ 4 * (1 + u) ^ 4) by ring.
    apply Rle_trans with ((1 + 43 / 10 * u) * (1 + 43 / 10 * u)); [apply Rmult_le_compat; auto|nra]. }
  assert (Q8 : 0 <= (1 + u) ^ 8) by (apply pow_le; lra).
  unfold gamma. fold u. split; [lra|]. split.
  - replace ((1 + ((1 + u) ^ 8 - 1)) ^ 2) with ((1 + u) ^ 8 * (1 + u) ^ 8) by ring.
    assert ((1 + u) ^ 8 * (1 + u) ^ 8 <= (1 + 87 / 10 * u) * (1 + 87 / 10 * u)) by (apply Rmult_le_compat; auto). nra.
  - unfold lost. fold u. assert (P7 : (1 + u) ^ 7 <= 2).
    { replace ((1 + u) ^ 7) with ((1 + u) ^ 4 * (1 + u) ^ 2 * (1 + u)) by ring.
      assert ((1 + u) ^ 4 * (1 + u) ^ 2 <= (1 + 43 / 10 * u) * (1 + 21 / 10 * u)) by (apply Rmult_le_compat; auto). nra. }
    assert (T : u_tiny <= / 10 ^ 302).
    { unfold u_tiny. change (-1075)%Z with (- (1075))%Z. unfold powerRZ. change (Z.opp 1075) with (Zneg 1075). cbv iota.
      apply Rinv_le_contravar; [apply pow_lt; lra|]. replace (Pos.to_nat 1075) with 1075%nat by reflexivity.
      rewrite !pow_IZR. apply IZR_le. vm_compute. discriminate. }
    assert (T0 : 0 < u_tiny) by apply tiny_pos.
    assert (D : 0 < / 10 ^ 302) by (apply Rinv_0_lt_compat, pow_lt; lra).
    replace (INR 7) with 7 by (simpl; ring).
    assert (B : 7 * u_tiny * (1 + u) ^ 7 <= 7 * / 10 ^ 302 * 2).
    { apply Rmult_le_compat; try lra. apply pow_le. lra. }
    assert (X : / 10 ^ 300 = 100 * / 10 ^ 302).
    { replace (10 ^ 302) with (100 * 10 ^ 300) by (change 302%nat with (2 + 300)%nat; rewrite pow_add; ring).
      field. }
    rewrite X. nra.
Qed.

(** ** Examples *)
Definition ulp_ex : fstate := w_state half_mega (fun _ => w_1) w_mix.
Lemma all_wf (M : fmat) : forallb (fun i => forallb (fun j => valid_binary dprec demax (M i j)) (seq 0 7)) (seq 0 7) = true ->
  well_formed_mat 7 M.
Proof.
  intros H i j Hi Hj. rewrite forallb_forall in H. specialize (H i ltac:(apply in_seq; lia)). rewrite forallb_forall in H.
  apply (H j). apply in_seq. lia.
Qed.
