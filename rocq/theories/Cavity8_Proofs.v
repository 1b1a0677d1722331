(** Cavities without field: proofs. *)
From Coq Require Import Reals List String Bool NArith ZArith Arith Lia Lra.
From Verif Require Import SMap Dbl Config_Spec Mat Mat_Proofs Machine_Model Machine_Spec Machine_Proofs.
From Verif Require Import Moment_Model Moment_Spec Motion_Spec Moment_Proofs Moment2_Proofs Moment3_Proofs Moment6_Proofs Motion_Proofs Motion2_Proofs Motion3_Proofs Frame_Spec Frame_Proofs.
From Verif Require Import Cavity_Model Cavity_Spec Cavity2_Spec Cavity_Proofs Cavity2_Proofs Cavity3_Proofs Cavity4_Proofs Cavity5_Proofs Cavity6_Proofs Cavity7_Proofs.
Import ListNotations.
Open Scope R_scope.
Open Scope string_scope.
Open Scope list_scope.

(** ** Energy and phase *)
Lemma boost_idle Z Es lam dz W k : Es <= W -> sqrt (1 - 1 / sqr (W / Es)) <> 0 -> k = 2 * PI / (sqrt (1 - 1 / sqr (W / Es)) * lam) ->
  forall l F, fold_left (fun x EE => boost_step Z Es 0 lam dz EE x) l (Some (F, W, Some k)) = Some (F + INR (List.length l) * (k * dz), W, Some k).
Proof.
  intros HE HB HK. induction l as [|EE l IH]; intros F.
  - simpl. f_equal. f_equal. f_equal. ring.
  - cbn [fold_left boost_step].
    replace (W + Z * 0 * (fst EE + snd EE) / 2 * cos ((F + (F + k * dz)) / 2) * dz / MtoMM) with W by (unfold Rdiv; ring).
    destruct (Rlt_dec (W - Es) 0) as [X|X]; [exfalso; lra|]. destruct (Req_EM_T _ 0) as [Y|Y]; [contradiction|]. rewrite <- HK, IH.
    cbn [List.length]. rewrite S_INR. f_equal. f_equal. f_equal. ring.
Qed.
Lemma pairs_length {A} (l : list A) : List.length (combine l (tl l)) = (List.length l - 1)%nat.
Proof. rewrite combine_length. destruct l as [|a l]; [reflexivity|]. cbn [tl List.length]. lia. Qed.
Lemma moving_beta p : moving p -> p_beta (recalc p) <> 0.
Proof. intros M. rewrite (recalc_beta p M). destruct (moving_facts p M) as (_ & B & _). lra. Qed.
Lemma moving_sqrt p : moving p -> sqrt (1 - 1 / sqr ((p_Es p + p_Ek p) / p_Es p)) = p_beta (recalc p).
Proof.
  intros (M1 & _). unfold recalc. cbn [p_beta]. destruct (Req_EM_T (p_Es p) 0); [lra|]. unfold sqr. reflexivity.
Qed.
Lemma boost_off a cv p F o : moving p -> boost a cv (recalc p) (p_Es p + p_Ek p) F 0 = Ok o -> cv_f cv <> 0 /\
  o = Some (p_Es p + p_Ek p, F + 2 * PI / (p_beta (recalc p) * cav_lambda cv) * table_length cv).
Proof.
  intros M. assert (NB := moving_beta p M). assert (SQ := moving_sqrt p M). destruct M as (M1 & M2 & M3 & M4).
  unfold boost. cbv zeta. destruct (_ && _)%bool; [discriminate|]. destruct (Nat.eqb _ 0) eqn:N0; [discriminate|].
  destruct (Rle_dec _ 0); [discriminate|]. destruct (Req_EM_T (cv_f cv) 0) as [|NF]; [discriminate|]. intros H. split; [exact NF|].
  apply (f_equal (fun r => match r with Ok x => x | Throw _ => o end)) in H. rewrite <- H. clear H.
  destruct (Req_EM_T (p_beta (recalc p)) 0); [contradiction|].
  replace (2 * PI * cv_f cv / (p_beta (recalc p) * C0 * MtoMM)) with (2 * PI / (p_beta (recalc p) * cav_lambda cv)).
  2:{ unfold cav_lambda, C0, MtoMM. field. repeat split; auto; lra. }
  set (k := 2 * PI / _). unfold boost_loop. change (p_Es (recalc p)) with (p_Es p).
  rewrite (boost_idle _ (p_Es p) _ _ (p_Es p + p_Ek p) k); [|lra|rewrite SQ; exact NB|rewrite SQ; reflexivity].
  rewrite pairs_length, map_length. f_equal. f_equal. f_equal.
  apply Nat.eqb_neq in N0. unfold table_length. rewrite last_nth by (destruct (cv_data cv); [simpl in N0; lia|discriminate]).
  destruct (cv_data cv) as [|r0 rows] eqn:ED; [simpl in N0; lia|]. cbn [nth hd].
  destruct rows as [|r1 rows].
  - cbn [last List.length Nat.sub INR]. ring.
  - replace (List.length (r0 :: r1 :: rows) - 1)%nat with (S (List.length rows)) by (simpl; lia).
    set (d := fst _ - fst _). assert (INR (S (List.length rows)) <> 0) by (apply not_0_INR; lia). field. auto.
Qed.
Lemma later_idem p x : recalc (later p x) = later (recalc p) x.
Proof. reflexivity. Qed.
Lemma boosted_off p cv : moving p -> cv_f cv <> 0 ->
  boosted (recalc p) (p_Es p + p_Ek p) (2 * PI / (p_beta (recalc p) * cav_lambda cv) * table_length cv) (cv_f cv / p_freq p) =
  recalc (later p (wavenumber p * table_length cv)).
Proof.
  intros M NF. assert (NB := moving_beta p M). rewrite <- (recalc_K p M).
  destruct M as (M1 & M2 & M3 & M4). unfold boosted. rewrite later_idem.
  assert (E : recalc (set_Ek (recalc p) (p_Es p + p_Ek p - p_Es (recalc p))) = recalc p).
  { unfold recalc, set_Ek. cbn [p_Z p_Q p_Es p_freq p_phis p_Ek]. replace (p_Es p + p_Ek p - p_Es p) with (p_Ek p) by ring. reflexivity. }
  rewrite E. unfold add_phis, later. f_equal. unfold recalc at 1 3 4. cbn [p_phis p_K]. f_equal.
  unfold cav_lambda, C0, MtoMM. unfold recalc in NB. cbn [p_beta] in NB. cbn [p_beta recalc]. field. repeat split; auto; lra.
Qed.

(** ** Matrices *)
Lemma two_id i j k l : i <> j -> k <> l -> meq 7 (two_at i j 0 k l 0) mid.
Proof.
  intros H1 H2 a b Ha Hb. unfold two_at, mset, mid. destruct (Nat.eqb_spec a k), (Nat.eqb_spec b l); cbn [andb]; subst.
  - destruct (Nat.eqb_spec k l); [contradiction|reflexivity].
  - destruct (Nat.eqb_spec k i), (Nat.eqb_spec b j); cbn [andb]; subst; try reflexivity. destruct (Nat.eqb_spec i j); [contradiction|reflexivity].
  - destruct (Nat.eqb_spec a i), (Nat.eqb_spec l j); cbn [andb]; subst; try reflexivity. destruct (Nat.eqb_spec i j); [contradiction|reflexivity].
  - destruct (Nat.eqb_spec a i), (Nat.eqb_spec b j); cbn [andb]; subst; try reflexivity. destruct (Nat.eqb_spec i j); [contradiction|reflexivity].
Qed.
Lemma one_id i j : i <> j -> meq 7 (one_at i j 0) mid.
Proof.
  intros H1 a b Ha Hb. unfold one_at, mset, mid. destruct (Nat.eqb_spec a i), (Nat.eqb_spec b j); cbn [andb]; subst; try reflexivity.
  destruct (Nat.eqb_spec i j); [contradiction|reflexivity].
Qed.
Lemma diag_id : meq 7 (two_at 1 1 1 3 3 1) mid.
Proof. intros i j Hi Hj. unfold two_at, mset, mid. idx7 i Hi; idx7 j Hj; reflexivity. Qed.
Lemma drift_add a b : meq 7 (mmul 7 (two_at 0 1 a 2 3 a) (two_at 0 1 b 2 3 b)) (two_at 0 1 (b + a) 2 3 (b + a)).
Proof.
  intros i j Hi Hj. unfold mmul, two_at, mset, mid. cbn [sumn]. idx7 i Hi; idx7 j Hj; cbn [Nat.eqb andb]; ring.
Qed.
Lemma slip_add a b : meq 7 (mmul 7 (one_at 4 5 a) (one_at 4 5 b)) (one_at 4 5 (b + a)).
Proof.
  intros i j Hi Hj. unfold mmul, one_at, mset, mid. cbn [sumn]. idx7 i Hi; idx7 j Hj; cbn [Nat.eqb andb]; ring.
Qed.
Lemma e_off Z beta gamma T S F : e_kick Z 0 beta gamma T S F = 0.
Proof. unfold e_kick, Rdiv. ring. Qed.
Lemma h_off Z beta gamma T S F : h_kick Z 0 beta gamma T S F = 0.
Proof. unfold h_kick, Rdiv. ring. Qed.
Lemma fdiv_off x y r : x = 0 -> fdiv x y = Ok r -> r = 0.
Proof. unfold fdiv. intros ->. destruct (Req_EM_T y 0); [discriminate|]. intros [= <-]. unfold Rdiv. ring. Qed.

Lemma div_same x : x <> 0 -> x / x = 1.
Proof. intros. field. auto. Qed.

Section Off.
Variable cv : cavity.
Variable p : particle.
Variable W : R.
Notation gamma := (W / p_Es p).
Variable beta : R.
Hypothesis HB : Cavity_Model.beta_of gamma = Ok beta.
Hypothesis NB : beta * gamma <> 0.
Definition unit_slip : R := - 2 * PI / cav_lambda cv * (1 / cube (beta * gamma) * MeVtoeV / p_Es p).
Definition drifted (l : list rawp) : R := fold_right Rplus 0 (map r_len (filter (fun P => String.eqb (r_type P) "drift") l)).
Definition idle (L : R) (g : gen) : Prop :=
  g_W g = W /\ g_gamma g = gamma /\ g_beta g = beta /\
  meq 7 (g_Mt g) (two_at 0 1 L 2 3 L) /\ meq 7 (g_Ml g) (one_at 4 5 (unit_slip * L)).
Lemma idle_on L g P : idle L g -> meq 7 P mid -> idle L (on_trans g P).
Proof.
  intros (H1 & H2 & H3 & H4 & H5) HP. unfold on_trans. repeat split; cbn [g_W g_gamma g_beta g_Mt g_Ml]; auto.
  change msize with 7%nat. rewrite HP, mid_l. exact H4.
Qed.
Lemma gen_idle_step P g g' L : idle L g -> gen_step cv p 0 P g = Ok g' -> idle (L + drifted [P]) g'.
Proof.
  intros I H. unfold gen_step in H. cbv zeta in H.
  assert (E0 : r_E0 P * 0 = 0) by ring. rewrite E0 in H.
  destruct (String.eqb (r_type P) "drift") eqn:ED.
  { unfold drifted. cbn [filter]. rewrite ED. cbn [map fold_right]. rewrite Rplus_0_r.
    apply (f_equal (fun r => match r with Ok x => x | Throw _ => g' end)) in H. rewrite <- H. clear H. destruct I as (H1 & H2 & H3 & H4 & H5).
    repeat split; cbn [g_W g_gamma g_beta g_Mt g_Ml]; auto; change msize with 7%nat.
    - rewrite H4, drift_add. reflexivity.
    - rewrite H5, slip_add. rewrite H2, H3. apply eq_meq. f_equal. unfold unit_slip, Rdiv. ring. }
  assert (ZL : L + drifted [P] = L) by (unfold drifted; cbn [filter]; rewrite ED; simpl; ring). rewrite ZL. clear ZL.
  assert (FO : forall lvl (kick : R -> R -> R) sy, (forall T Sf, kick T Sf = 0) ->
    (if N.ltb (cv_mp cv) lvl then Ok g else
      rbind (rbind (fit_pow (g_k g) (r_T P)) (fun T => rbind (fit_pow (g_k g) (r_S P)) (fun S => Ok (T, S)))) (fun '(T, Sf) =>
      rbind (fdiv (kick T Sf) (cv_Rm cv)) (fun k => Ok (on_trans g (two_at 1 0 k 3 2 (sy * k)))))) = Ok g' -> idle L g').
  { clear H. intros lvl kick sy HK Hf. destruct (N.ltb _ _); [injection Hf as <-; exact I|]. apply rbind_ok in Hf as ([T Sf] & _ & Hf). apply rbind_ok in Hf as (k & Hk & Hf).
    apply fdiv_off in Hk; [|apply HK]. subst k. apply (f_equal (fun r => match r with Ok x => x | Throw _ => g' end)) in Hf. rewrite <- Hf.
    apply idle_on; [exact I|]. rewrite Rmult_0_r. apply two_id; discriminate. }
  assert (DI : forall (kick : R -> R -> R), (forall T Sf, kick T Sf = 0) ->
    (if N.ltb (cv_mp cv) 1 then Ok g else
      rbind (rbind (fit_pow (g_k g) (r_T P)) (fun T => rbind (fit_pow (g_k g) (r_S P)) (fun S => Ok (T, S)))) (fun '(T, Sf) =>
      Ok (on_trans g (one_at 3 6 (kick T Sf))))) = Ok g' -> idle L g').
  { clear H. intros kick HK Hf. destruct (N.ltb _ _); [injection Hf as <-; exact I|]. apply rbind_ok in Hf as ([T Sf] & _ & Hf).
    apply (f_equal (fun r => match r with Ok x => x | Throw _ => g' end)) in Hf. rewrite <- Hf.
    apply idle_on; [exact I|]. rewrite HK. apply one_id; discriminate. }
  destruct (String.eqb (r_type P) "EFocus"); [refine (FO _ _ _ _ H); intros; apply e_off|].
  destruct (String.eqb (r_type P) "EDipole"); [refine (DI _ _ H); intros; apply e_off|].
  destruct (String.eqb (r_type P) "EQuad"); [refine (FO _ _ _ _ H); intros; apply e_off|].
  destruct (String.eqb (r_type P) "HMono"); [refine (FO _ _ _ _ H); intros; apply h_off|].
  destruct (String.eqb (r_type P) "HDipole"); [refine (DI _ _ H); intros; apply h_off|].
  destruct (String.eqb (r_type P) "HQuad"); [refine (FO _ _ _ _ H); intros; apply h_off|].
  destruct (String.eqb (r_type P) "AccGap"); [|discriminate].
  apply rbind_ok in H as ([T Sf] & _ & H). destruct I as (H1 & H2 & H3 & H4 & H5).
  replace (g_W g + p_Z p * 0 * MeVtoeV * T * cos (g_Fy g) - p_Z p * 0 * MeVtoeV * Sf * sin (g_Fy g)) with W in H by (rewrite H1; ring).
  rewrite HB in H. cbn [rbind] in H. apply (f_equal (fun r => match r with Ok x => x | Throw _ => g' end)) in H. rewrite <- H. clear H.
  repeat split; cbn [g_W g_gamma g_beta g_Mt g_Ml]; change msize with 7%nat.
  - rewrite H2, H3. rewrite div_same by exact NB.
    rewrite diag_id, mid_l. exact H4.
  - replace (- p_Z p * 0 * T * sin (g_Fy g) - p_Z p * 0 * Sf * cos (g_Fy g)) with 0 by ring.
    rewrite one_id, mid_l by discriminate. exact H5.
Qed.
Lemma drifted_cons P l : drifted (P :: l) = drifted [P] + drifted l.
Proof. unfold drifted. cbn [filter]. destruct (String.eqb _ _); cbn [map fold_right]; ring. Qed.
Lemma gen_idle l : forall g g' L, idle L g -> gen_loop cv p 0 l g = Ok g' -> idle (L + drifted l) g'.
Proof.
  induction l as [|P l IH]; intros g g' L I H; cbn [gen_loop] in H.
  - injection H as <-. unfold drifted. cbn [filter map fold_right]. rewrite Rplus_0_r. exact I.
  - apply rbind_ok in H as (g1 & H1 & H). assert (I1 := gen_idle_step _ _ _ _ I H1). apply IH with (L := L + drifted [P]) in H; [|exact I1].
    rewrite drifted_cons, <- Rplus_assoc. exact H.
Qed.
(** *** Two gaps *)
Definition idle2 (L : R) (x : two) : Prop :=
  h_beta x = beta /\ h_gamma x = gamma /\ meq 7 (h_Mt x) (two_at 0 1 L 2 3 L).
Lemma idle2_on L x P : idle2 L x -> meq 7 P mid -> idle2 L (on_two x P).
Proof.
  intros (H1 & H2 & H3) HP. unfold on_two. repeat split; cbn [h_beta h_gamma h_Mt]; auto.
  change msize with 7%nat. rewrite HP, mid_l. exact H3.
Qed.
Variables b g : nat -> R.
Hypothesis Hb : forall i, b i = beta.
Hypothesis Hg : forall i, g i = gamma.
Lemma two_idle_step Rm s P l x x' L : idle2 L x -> (r_type P = "AccGap" -> l_Accel l = 1) ->
  two_step cv p 0 Rm b g s P l x = Ok x' -> idle2 (L + drifted [P]) x'.
Proof.
  intros I HA H. unfold two_step in H. cbv zeta in H.
  assert (E0 : l_E0 l * 0 = 0) by ring. rewrite E0 in H.
  destruct (String.eqb (r_type P) "drift") eqn:ED.
  { unfold drifted. cbn [filter]. rewrite ED. cbn [map fold_right]. rewrite Rplus_0_r.
    apply (f_equal (fun r => match r with Ok x => x | Throw _ => x' end)) in H. rewrite <- H. clear H. destruct I as (H1 & H2 & H3).
    repeat split; cbn [h_beta h_gamma h_Mt]; auto. change msize with 7%nat. rewrite H3, drift_add. reflexivity. }
  assert (ZL : L + drifted [P] = L) by (unfold drifted; cbn [filter]; rewrite ED; simpl; ring). rewrite ZL. clear ZL.
  rewrite !e_off, !h_off in H. replace (0 / Rm) with 0 in H by (unfold Rdiv; ring). rewrite !Rmult_0_r in H.
  assert (FO : forall lvl, (if N.ltb (cv_mp cv) lvl then Ok x else Ok (on_two x (two_at 1 0 0 3 2 0))) = Ok x' -> idle2 L x').
  { clear H. intros lvl Hf. destruct (N.ltb _ _); [injection Hf as <-; exact I|]. apply (f_equal (fun r => match r with Ok x => x | Throw _ => x' end)) in Hf.
    rewrite <- Hf. apply idle2_on; [exact I|]. apply two_id; discriminate. }
  assert (DI : (if N.ltb (cv_mp cv) 1 then Ok x else Ok (on_two x (one_at 3 6 0))) = Ok x' -> idle2 L x').
  { clear H. intros Hf. destruct (N.ltb _ _); [injection Hf as <-; exact I|]. apply (f_equal (fun r => match r with Ok x => x | Throw _ => x' end)) in Hf.
    rewrite <- Hf. apply idle2_on; [exact I|]. apply one_id; discriminate. }
  destruct (String.eqb (r_type P) "EFocus1"); [exact (FO _ H)|].
  destruct (String.eqb (r_type P) "EFocus2"); [exact (FO _ H)|].
  destruct (String.eqb (r_type P) "EDipole"); [exact (DI H)|].
  destruct (String.eqb (r_type P) "EQuad"); [exact (FO _ H)|].
  destruct (String.eqb (r_type P) "HMono"); [exact (FO _ H)|].
  destruct (String.eqb (r_type P) "HDipole"); [exact (DI H)|].
  destruct (String.eqb (r_type P) "HQuad").
  { destruct (N.ltb _ _); [injection H as <-; exact I|]. destruct (Req_EM_T _ 0); [discriminate|].
    apply (f_equal (fun r => match r with Ok x => x | Throw _ => x' end)) in H. rewrite <- H. clear H. destruct I as (H1 & H2 & H3).
    repeat split; cbn [h_beta h_gamma h_Mt].
    - rewrite !Hb. field.
    - rewrite !Hg. set (y := W / p_Es p). field.
    - change msize with 7%nat. rewrite Ropp_0, two_id, mid_l by discriminate. exact H3. }
  destruct (String.eqb_spec (r_type P) "AccGap") as [EA|]; [|discriminate].
  destruct (Nat.ltb _ _); [discriminate|].
  apply (f_equal (fun r => match r with Ok x => x | Throw _ => x' end)) in H. rewrite <- H. clear H. destruct I as (H1 & H2 & H3).
  repeat split; cbn [h_beta h_gamma h_Mt]; auto. change msize with 7%nat. rewrite (HA EA), diag_id, mid_l. exact H3.
Qed.
Lemma two_idle Rm l : forall s x x' L, idle2 L x -> Forall (fun '(P, t) => r_type P = "AccGap" -> l_Accel t = 1) l ->
  two_loop cv p 0 Rm b g s l x = Ok x' -> idle2 (L + drifted (map fst l)) x'.
Proof.
  induction l as [|[P t] l IH]; intros s x x' L I HF H; cbn [two_loop] in H.
  - injection H as <-. unfold drifted. cbn [map filter fold_right]. rewrite Rplus_0_r. exact I.
  - inversion HF as [|? ? HA HF']; subst. apply rbind_ok in H as (x1 & H1 & H). assert (I1 := two_idle_step _ _ _ _ _ _ _ I HA H1).
    apply IH with (L := L + drifted [P]) in H; auto. cbn [map fst]. rewrite drifted_cons, <- Rplus_assoc. exact H.
Qed.
Lemma params_one k : forall l s lines, params_loop cv b g k s l = Ok lines ->
  List.length lines = List.length l /\ Forall (fun '(P, t) => r_type P = "AccGap" -> l_Accel t = 1) (combine l lines).
Proof.
  induction l as [|P l IH]; intros s lines H; cbn [params_loop] in H.
  - injection H as <-. split; [reflexivity|constructor].
  - apply rbind_ok in H as (x & H1 & H). apply rbind_ok in H as (r & H2 & H). injection H as <-. apply IH in H2 as [L2 F2].
    split; [simpl; congruence|]. cbn [combine]. constructor; [|exact F2]. intros EA. unfold params_step in H1. cbv zeta in H1. rewrite EA in H1.
    cbn [String.eqb Ascii.eqb Bool.eqb] in H1. rewrite !Hb, !Hg in H1. apply (f_equal (fun r => match r with Ok x => x | Throw _ => x end)) in H1. rewrite <- H1.
    cbn [l_Accel]. destruct (Rlt_dec _ 0); apply div_same; exact NB.
Qed.
End Off.

Lemma facts_off cv label beta K gap t : trans_facts cv label beta K gap 0 = Ok t -> t_V0 t = 0.
Proof.
  assert (C : rbind (cal_transfac (cv_axis cv) 2 gap K true) (fun t => Ok (scale_V0 0 t)) = Ok t -> t_V0 t = 0).
  { intros H. apply rbind_ok in H as (x & _ & H). injection H as <-. cbn. ring. }
  unfold trans_facts. cbv zeta. destruct (cv_force cv); [exact C|]. destruct (fit_range label) as [[lo hi]|]; [|discriminate].
  destruct (Rlt_dec beta lo); [exact C|]. destruct (Rlt_dec hi beta); [exact C|]. destruct (fitted label gap beta); [|discriminate].
  intros H. injection H as <-. cbn. ring.
Qed.
Lemma gap_off dis W p F k lam t W' F' : t_V0 t = 0 -> eval_gap dis W p F k lam t = Ok (W', F') -> W' = W.
Proof.
  intros H0 H. unfold eval_gap in H. cbv zeta in H. rewrite H0 in H. apply rbind_ok in H as (b & _ & H). apply rbind_ok in H as (x & _ & H).
  injection H as <- _. ring.
Qed.
Lemma kick_off p t a : t_V0 t = 0 -> meq 7 (lon_kick p t a) mid.
Proof. intros H. unfold lon_kick. rewrite H. replace (_ - _) with 0 by ring. apply one_id. discriminate. Qed.

(** The matrix before the frequency jump. *)
Definition idle_matrix (cv : cavity) (p : particle) (W beta : R) : mat :=
  mset (two_at 0 1 (drifts_length cv) 2 3 (drifts_length cv)) 4 5 (unit_slip cv p W beta * lon_length cv).
Lemma join_idle A B x y : meq 7 A (two_at 0 1 x 2 3 x) -> meq 7 B (one_at 4 5 y) -> meq 7 (join A B) (mset (two_at 0 1 x 2 3 x) 4 5 y).
Proof.
  intros HA HB i j Hi Hj. unfold join, mset at 1 2 3 4. rewrite !HB by lia.
  idx7 i Hi; idx7 j Hj; cbn [Nat.eqb andb]; try rewrite HA by lia; reflexivity.
Qed.
Section M.
Variable w : world.
Lemma gen_off cv p F E M : cv_cavi cv = 0%nat -> gen_matrix w cv p 0 F E = Ok M ->
  exists beta, Cavity_Model.beta_of ((E + p_Es p) / p_Es p) = Ok beta /\ meq 7 M (idle_matrix cv p (E + p_Es p) beta).
Proof.
  intros HC H. unfold gen_matrix in H. cbv zeta in H. apply rbind_ok in H as (beta & Hb & H). exists beta. split; [exact Hb|].
  destruct (_ && _)%bool; [discriminate|]. apply rbind_ok in H as (g & H1 & H).
  apply (f_equal (fun r => match r with Ok x => x | Throw _ => M end)) in H. rewrite <- H. clear H.
  apply (gen_idle cv p (E + p_Es p) beta Hb (bg_nonzero _ _ Hb) _ _ _ 0) in H1.
  - destruct H1 as (_ & _ & _ & H4 & H5). unfold idle_matrix, lon_length. rewrite HC. cbn [Nat.eqb]. rewrite Rplus_0_l in H4, H5.
    apply join_idle; [exact H4|exact H5].
  - repeat split; cbn [g_W g_gamma g_beta g_Mt g_Ml].
    + symmetry. apply two_id; discriminate.
    + rewrite Rmult_0_r. symmetry. apply one_id; discriminate.
Qed.
Lemma two_off cv label Rm p F E M : cv_cavi cv <> 0%nat -> cav_matrix w cv label Rm p 0 F E = Ok M ->
  exists beta, Cavity_Model.beta_of ((E + p_Es p) / p_Es p) = Ok beta /\ meq 7 M (idle_matrix cv p (E + p_Es p) beta).
Proof.
  intros HC. unfold cav_matrix. cbv zeta. destruct (Nat.eqb _ 0) eqn:N0; [discriminate|]. intros H.
  apply rbind_ok in H as (b0 & B0 & H). exists b0. split; [exact B0|]. assert (NB := bg_nonzero _ _ B0).
  apply rbind_ok in H as (t0 & T0 & H). apply facts_off in T0. apply rbind_ok in H as ([W1 F1] & G1 & H). apply gap_off in G1; [|exact T0]. subst W1.
  rewrite B0 in H. cbn [rbind] in H. apply rbind_ok in H as (t1 & T1 & H). apply facts_off in T1.
  apply rbind_ok in H as ([W2 F2] & G2 & H). apply gap_off in G2; [|exact T1]. subst W2. rewrite B0 in H. cbn [rbind] in H.
  apply rbind_ok in H as (lines & HL & H).
  set (W := E + p_Es p) in *. set (b := tab3 b0 b0 b0) in *. set (g := tab3 (W / p_Es p) (W / p_Es p) (W / p_Es p)) in *.
  assert (Eb : forall i, b i = b0) by (intros [|[|i]]; reflexivity). assert (Eg : forall i, g i = W / p_Es p) by (intros [|[|i]]; reflexivity).
  set (dis := (fst _ - fst _) / 2) in H.
  assert (ED : 2 * dis = table_length cv).
  { unfold dis, table_length. apply Nat.eqb_neq in N0. rewrite last_nth by (destruct (cv_data cv); [simpl in N0; lia|discriminate]).
    destruct (cv_data cv) as [|r0 rows]; [simpl in N0; lia|]. cbn [nth hd]. field. }
  clearbody dis. unfold two_gap_matrix in H. cbv zeta in H. unfold cav_params in HL. destruct (cv_data cv) as [|[z0 e0] rows] eqn:EZ; [discriminate|].
  apply rbind_ok in H as (x & H1 & H). apply (f_equal (fun r => match r with Ok x => x | Throw _ => M end)) in H. rewrite <- H. clear H.
  assert (HL' : params_loop cv b g (tab3 ((2 * PI / (b0 * cav_lambda cv) + 2 * PI / (b0 * cav_lambda cv)) / 2)
    ((2 * PI / (b0 * cav_lambda cv) + 2 * PI / (b0 * cav_lambda cv)) / 2) 0) z0 (cv_lat cv) = Ok lines) by (destruct (cv_lat cv); [discriminate|exact HL]).
  destruct (params_one cv p W b0 NB b g Eb Eg _ _ _ _ HL') as [LL FL].
  apply (two_idle cv p W b0 b g Eb Eg _ _ _ _ _ 0) in H1.
  - destruct H1 as (_ & _ & H3). unfold idle_matrix, lon_length. rewrite (proj2 (Nat.eqb_neq _ _) HC).
    assert (EF : map fst (combine (cv_lat cv) lines) = cv_lat cv).
    { clear - LL. revert lines LL. induction (cv_lat cv) as [|P l IH]; intros [|t lines] LL; try discriminate; [reflexivity|]. simpl in *. f_equal. apply IH. lia. }
    rewrite EF, Rplus_0_l in H3. apply join_idle; [exact H3|].
    change msize with 7%nat. rewrite !kick_off by (cbn; assumption). rewrite mid_l.
    unfold lon_drift. rewrite mid_l, !slip_add. apply eq_meq. f_equal. cbn [t_Ecen]. rewrite !Eb, !Eg, <- ED. unfold unit_slip, Rdiv. ring.
  - repeat split; cbn [h_beta h_gamma h_Mt]; auto. symmetry. apply two_id; discriminate.
  - exact FL.
Qed.
End M.

Section T.
Variable w : world.
Variable files : cavfiles.
Notation w' := (with_cavities w files).
Variable ec : tcfg.
Variable cv : cavity.
Hypothesis HL : load_cavity w files ec = Ok cv.
Hypothesis HU : unpowered (w_num w) ec.
Lemma scl_off : num_of w ec "scl_fac" = Ok 0.
Proof. destruct HU as (x & H1 & H2). unfold num_of, get_num. rewrite H1. cbn [rbind]. rewrite H2. reflexivity. Qed.
Definition onward (q : particle) : particle := recalc (later q (wavenumber q * table_length cv)).
Lemma ref_off q q' phi : moving q -> w_cav_ref w' ec (recalc q) = Ok (q', phi) -> q' = onward q.
Proof.
  intros M H. cbn [w_cav_ref with_cavities] in H. rewrite HL in H. cbn [rbind] in H.
  apply long_inv in H as (W & F & F' & scl & _ & H2 & _ & _ & H5 & ->). rewrite scl_off in H2. injection H2 as <-.
  change (p_W (recalc q)) with (p_Es q + p_Ek q) in H5. apply boost_off in H5 as [NF H5]; [|exact M]. apply some_eq in H5. apply pair_eq in H5 as [-> ->].
  match goal with |- boosted _ _ ?d _ = _ => replace d with (2 * PI / (p_beta (recalc q) * cav_lambda cv) * table_length cv) by ring end.
  change (p_freq (recalc q)) with (p_freq q). apply boosted_off; auto.
Qed.
Lemma coast_jump q beta : moving q -> cv_f cv <> 0 -> Cavity_Model.beta_of ((p_Ek q + p_Es q) / p_Es q) = Ok beta ->
  forall i j, (i < 7)%nat -> (j < 7)%nat ->
  idle_matrix cv q (p_Ek q + p_Es q) beta i j * (if Nat.eqb j 4 then cv_f cv / p_freq q else 1) / (if Nat.eqb i 4 then cv_f cv / p_freq q else 1) =
  coast (drifts_length cv) (lon_length cv) q i j.
Proof.
  intros M NF HB. assert (SB : beta = Motion_Spec.beta_of q /\ (p_Ek q + p_Es q) / p_Es q = gamma_of q).
  { assert (EG : (p_Ek q + p_Es q) / p_Es q = gamma_of q). { destruct (moving_facts q M) as (_ & _ & _ & _ & G). rewrite G. f_equal. ring. }
    split; [|exact EG]. unfold Cavity_Model.beta_of in HB. destruct (Rlt_dec _ _); [|discriminate]. injection HB as <-. rewrite EG. reflexivity. }
  destruct SB as [-> EG]. destruct (moving_facts q M) as (G & B & _). destruct M as (M1 & M2 & M3 & M4).
  assert (NM : cv_f cv / p_freq q <> 0) by (apply Rmult_integral_contrapositive_currified; [auto|apply Rinv_neq_0_compat; lra]).
  assert (ES : unit_slip cv q (p_Ek q + p_Es q) (Motion_Spec.beta_of q) / (cv_f cv / p_freq q) = slip q).
  { unfold unit_slip. rewrite EG. unfold slip, wavelength, cav_lambda, cube, C0, MtoMM, MeVtoeV, lightspeed. field. repeat split; auto; lra. }
  intros i j Hi Hj. unfold idle_matrix, coast, two_at, mset, mid.
  idx7 i Hi; idx7 j Hj; cbn [Nat.eqb andb]; try (field; fail); try (field; repeat split; auto; lra).
  rewrite <- ES. field. repeat split; auto; lra.
Qed.
Lemma one_off q phi T M0 q' : moving q -> w_cav_one w' ec phi (recalc q) M0 = (T, Ok q') ->
  q' = onward q /\ meq 7 T (coast (drifts_length cv) (lon_length cv) q).
Proof.
  intros M H. cbn [w_cav_one with_cavities] in H. rewrite HL in H. assert (HS := f_equal snd H). apply (f_equal fst) in H. cbn [fst snd] in H, HS.
  apply init_inv in HS as (label & Rm & W & F & F' & scl & X & H1 & H2 & _ & _ & H5 & H6 & H7 & H8). rewrite H in H8. rewrite scl_off in H2. injection H2 as <-.
  replace (p_Ek (recalc q) + p_Es (recalc q)) with (p_Es q + p_Ek q) in H5 by (cbn; ring).
  apply boost_off in H5 as [NF H5]; [|exact M]. apply some_eq in H5. apply pair_eq in H5 as [-> ->].
  assert (Eq' : q' = onward q).
  { rewrite H6. match goal with |- boosted _ _ ?d _ = _ => replace d with (2 * PI / (p_beta (recalc q) * cav_lambda cv) * table_length cv) by ring end.
    change (p_freq (recalc q)) with (p_freq q). apply boosted_off; auto. }
  split; [exact Eq'|].
  assert (XM : exists beta, Cavity_Model.beta_of ((p_Ek q + p_Es q) / p_Es q) = Ok beta /\ meq 7 X (idle_matrix cv q (p_Ek q + p_Es q) beta)).
  { assert (XE : exists beta, Cavity_Model.beta_of ((p_Ek (recalc q) + p_Es q') / p_Es q') = Ok beta /\ meq 7 X (idle_matrix cv q' (p_Ek (recalc q) + p_Es q') beta)).
    { destruct (cv_cavi cv) eqn:EC; cbn [Nat.ltb Nat.leb] in H7.
      - eapply gen_off; eauto.
      - eapply two_off; [congruence|exact H7]. }
    rewrite Eq' in XE. exact XE. }
  destruct XM as (beta & B1 & B2).
  assert (NM : cv_f cv / p_freq q <> 0).
  { destruct M as (_ & _ & M3 & _). apply Rmult_integral_contrapositive_currified; [auto|apply Rinv_neq_0_compat; lra]. }
  intros i j Hi Hj. rewrite H8. change (p_freq (recalc q)) with (p_freq q). rewrite jump_entry by auto. rewrite (B2 i j Hi Hj). apply coast_jump; auto.
Qed.

Hypothesis PF : proper_files files.
Hypothesis HR : forall f, w_readcfg w f <> Throw BadIndex.
Lemma cavity_off s f : goes_through w' ec s f -> is_a "rfcavity" ec -> moving (ms_ref s) -> Forall moving (ms_real s) ->
  ms_ref f = onward (ms_ref s) /\ ms_real f = map onward (ms_real s) /\
  (placed_well (w_num w) ec -> forall j q, nth_error (ms_real s) j = Some q ->
    exists Tm, nth_error (ms_tm f) j = Some Tm /\
      forall i k, (i < 7)%nat -> (k < 7)%nat -> ~ shift_entry i k -> Tm i k = coast (drifts_length cv) (lon_length cv) q i k).
Proof.
  intros G HK MR MV. assert (SN := with_sane w files PF HR).
  destruct (cavity_does w' ec s f SN G HK) as (_ & LR & ref & phi & C1 & C2 & C3).
  destruct (through_step w' _ _ _ SN G) as (A & _). destruct A as (_ & A1 & A2 & _).
  assert (X : forall j q, nth_error (ms_real s) j = Some q -> exists v S, nth_error (ms_m0 s) j = Some v /\ nth_error (ms_m1 s) j = Some S).
  { intros j q Hq. assert (Hj := nth_lt _ _ _ Hq). destruct (nth_ex (ms_m0 s) j _ A1 Hj) as [v ?]. destruct (nth_ex (ms_m1 s) j _ A2 Hj) as [S ?]. eauto. }
  split; [|split].
  - rewrite C2. rewrite (ref_off _ _ _ MR C1). reflexivity.
  - apply list_ext. intros j. destruct (nth_error (ms_real s) j) as [q|] eqn:Hq.
    + destruct (X j q Hq) as (v & S & Hv & HS). destruct (C3 j q v S Hq Hv HS) as (T & q' & Tm & v' & S' & D1 & D2 & _).
      rewrite D2. rewrite (map_nth_error onward _ _ Hq). f_equal.
      assert (Mq := moving_in _ _ _ MV Hq). destruct (one_off _ _ _ _ _ Mq D1) as [-> _]. reflexivity.
    + rewrite nth_error_map, Hq. simpl. apply nth_error_None. apply nth_error_None in Hq. lia.
  - intros HP j q Hq. destruct (X j q Hq) as (v & S & Hv & HS). destruct (C3 j q v S Hq Hv HS) as (T & q' & Tm & v' & S' & D1 & _ & D3 & _ & _ & _ & _ & D8).
    exists Tm. split; [exact D3|]. intros i k Hi Hk HN. rewrite (proj2 (D8 HP) i k Hi Hk HN).
    assert (Mq := moving_in _ _ _ MV Hq). apply (one_off _ _ _ _ _ Mq D1); auto.
Qed.
End T.
