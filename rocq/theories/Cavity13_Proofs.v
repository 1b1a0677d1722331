(** Cavities with two gaps: motion and matrix. *)
From Coq Require Import Reals List String Bool NArith ZArith Lia Lra.
From Verif Require Import SMap Dbl Config_Spec Mat Mat_Proofs Machine_Model Moment_Model Moment_Spec Moment_Proofs
  Cavity_Model Cavity_Spec Cavity2_Spec Cavity_Proofs Cavity2_Proofs Cavity3_Proofs Cavity3_Spec Cavity4_Spec Cavity11_Proofs.
Import ListNotations.
Open Scope R_scope.
Open Scope string_scope.
Open Scope list_scope.

Lemma ok_in A (a b : A) : Ok a = Ok b -> a = b.
Proof. intros [=]. assumption. Qed.
Section Cavity.
Variables (cv : cavity) (p : particle) (scl Rm : R) (x : ways) (k : nat -> R).
Hypothesis Es0 : 0 < p_Es p.
Definition bt : nat -> R := tab3 (beta_at p (e0 x)) (beta_at p (e1 x)) (beta_at p (e2 x)).
Definition gt : nat -> R := tab3 (gamma_at p (e0 x)) (gamma_at p (e1 x)) (gamma_at p (e2 x)).
Definition kt : nat -> R := tab3 (mean_wave cv p x 0) (mean_wave cv p x 1) 0.
Hypothesis W0 : forall i, (i < 3)%nat -> beta_of (energy_in x i / p_Es p) = Ok (bt i).

Definition at2 (h : place) (t : two) : Prop :=
  h_seg t = passed h /\ h_Fy t = phase h /\ h_beta t = vel h /\ h_gamma t = gam h /\ h_k t = wave_at cv p (energy_in x (passed h)).

Lemma au : AU = 931.49432.
Proof. unfold AU, MeVtoeV. lra. Qed.
Lemma ek b g T S' F V : e_kick (p_Z p) V b g T S' F = p_Z p * V * (T * cos F - S' * sin F) / (b ^ 2 * g * 931.49432).
Proof.
  unfold e_kick, sqr. rewrite au. replace (b ^ 2) with (b * b) by ring. unfold Rdiv. rewrite !Rinv_mult, Rinv_1. ring.
Qed.
Lemma hk b g T S' F V : h_kick (p_Z p) V b g T S' F = 4 * PI * 1e-7 * 299792458 * (p_Z p * V) * (T * sin F + S' * cos F) / (b * g * 931.49432).
Proof.
  unfold h_kick, MU0, C0. rewrite au, cos_plus, sin_plus, cos_PI2, sin_PI2.
  unfold Rdiv. rewrite !Rinv_mult, Rinv_1. ring.
Qed.

(** The lines of the multipoles. *)
Definition mline (P : rawp) (s : R) (n1 n2 : string) (f : R * R -> R * R) : res tlm :=
  rbind (if (if Rlt_dec s 0 then true else false) then rbind (transit_multipole cv n1 (kt 0%nat)) (fun x => Ok (f x))
         else transit_multipole cv n2 (kt 1%nat)) (fun '(T, Sf) => Ok (mkTlm (r_E0 P) T Sf 0)).
Lemma line_e P s n1 n2 l : n1 = ("CaviMlp_" ++ twin (r_type P))%string -> n2 = ("CaviMlp_" ++ r_type P)%string ->
  mline P s n1 n2 (fun '(T, Sf) => (T, - Sf)) = Ok l ->
  forall b g F, e_kick (p_Z p) (l_E0 l * scl) b g (l_T l) (l_S l) F = e_strength cv p scl x P b g (is_ahead s) F.
Proof.
  intros -> -> H b g F. rewrite ek. unfold mline in H. fold (is_ahead s) in H. unfold e_strength, e_field, factors, qV.
  destruct (is_ahead s).
  - change (kt 0%nat) with (mean_wave cv p x 0) in H. destruct (transit_multipole _ _ _) as [[T S']|]; [|discriminate].
    cbn [rbind] in H. injection H as <-. cbn [l_E0 l_T l_S]. rewrite cos_neg, sin_neg. unfold Rdiv. ring.
  - change (kt 1%nat) with (mean_wave cv p x 1) in H. destruct (transit_multipole _ _ _) as [[T S']|]; [|discriminate].
    cbn [rbind] in H. injection H as <-. cbn [l_E0 l_T l_S]. unfold Rdiv. ring.
Qed.
Lemma line_h P s n1 n2 l : n1 = ("CaviMlp_" ++ twin (r_type P))%string -> n2 = ("CaviMlp_" ++ r_type P)%string ->
  mline P s n1 n2 (fun '(T, Sf) => (- T, Sf)) = Ok l ->
  forall b g F, h_kick (p_Z p) (l_E0 l * scl) b g (l_T l) (l_S l) F = h_strength cv p scl x P b g (is_ahead s) F.
Proof.
  intros -> -> H b g F. rewrite hk. unfold mline in H. fold (is_ahead s) in H. unfold h_strength, h_field, factors, qV.
  destruct (is_ahead s).
  - change (kt 0%nat) with (mean_wave cv p x 0) in H. destruct (transit_multipole _ _ _) as [[T S']|]; [|discriminate].
    cbn [rbind] in H. injection H as <-. cbn [l_E0 l_T l_S]. rewrite cos_neg, sin_neg. unfold Rdiv. ring.
  - change (kt 1%nat) with (mean_wave cv p x 1) in H. destruct (transit_multipole _ _ _) as [[T S']|]; [|discriminate].
    cbn [rbind] in H. injection H as <-. cbn [l_E0 l_T l_S]. unfold Rdiv. ring.
Qed.

Lemma step2 v P s h t r t' l : at2 h t -> ray_of (h_Mt t) v r ->
  params_step cv bt gt kt s P = Ok l -> two_step cv p scl Rm bt gt s P l t = Ok t' ->
  at2 (next_place cv p x P (is_ahead s) h) t' /\ ray_of (h_Mt t') v (through2 cv p scl Rm x P (is_ahead s) h r).
Proof.
  intros (A1 & A2 & A3 & A4 & A5) Rr L H. unfold params_step in L. unfold two_step in H. cbv zeta in L, H.
  unfold next_place, through2. cbv zeta.
  assert (AT : at2 h t) by (repeat split; assumption).
  assert (ON : forall Q r', (forall u, u 0%nat = Cavity3_Spec.x r -> u 1%nat = x' r -> u 2%nat = y r -> u 3%nat = y' r -> u 6%nat = 1 -> ray_of Q u r') ->
    at2 h (on_two t Q) /\ ray_of (h_Mt (on_two t Q)) v r').
  { intros Q r' HQ. split; [exact AT|]. cbn [on_two h_Mt]. apply (ray_mul _ _ _ r); assumption. }
  assert (MP : forall (lvl : N) n1 n2 f, (if N.ltb (cv_mp cv) lvl then Ok (mkTlm (r_E0 P) 0 0 0) else mline P s n1 n2 f) = Ok l ->
     N.leb lvl (cv_mp cv) = true -> mline P s n1 n2 f = Ok l).
  { intros lvl n1 n2 f HH E. rewrite N.ltb_antisym, E in HH. exact HH. }
  assert (FO : forall lvl kk q sy, (N.leb lvl (cv_mp cv) = true -> kk = q) -> (if N.ltb (cv_mp cv) lvl then Ok t else Ok (on_two t (two_at 1 0 (kk / Rm) 3 2 (sy * (kk / Rm))))) = Ok t' ->
     at2 h t' /\ ray_of (h_Mt t') v (if N.leb lvl (cv_mp cv) then lens_by (q / Rm) (sy * (q / Rm)) r else r)).
  { intros lvl kk q sy KQ HH. rewrite N.ltb_antisym in HH. destruct (N.leb lvl (cv_mp cv)); cbn [negb] in HH; injection HH as <-; [|split; assumption]. rewrite (KQ eq_refl).
    apply ON. intros. apply ray_lens; assumption. }
  assert (DI : forall kk q, (N.leb 1 (cv_mp cv) = true -> kk = q) -> (if N.ltb (cv_mp cv) 1 then Ok t else Ok (on_two t (one_at 3 6 kk))) = Ok t' ->
     at2 h t' /\ ray_of (h_Mt t') v (if N.leb 1 (cv_mp cv) then kick_by q r else r)).
  { intros kk q KQ HH. rewrite N.ltb_antisym in HH. destruct (N.leb 1 (cv_mp cv)); cbn [negb] in HH; injection HH as <-; [|split; assumption]. rewrite (KQ eq_refl).
    apply ON. intros. apply ray_kick; assumption. }
  assert (M1 : forall z, -1 * z = - z) by (intros; ring). assert (P1 : forall z, 1 * z = z) by (intros; ring).
  assert (NE : forall a b, String.eqb (r_type P) a = true -> String.eqb a b = false -> String.eqb (r_type P) b = false).
  { intros a b E1 E2. apply String.eqb_eq in E1. rewrite E1. exact E2. }
  assert (TY : forall a, String.eqb (r_type P) a = true -> r_type P = a) by (intros a E; apply String.eqb_eq; exact E).
  rewrite <- A2, <- A3, <- A4.
  destruct (String.eqb (r_type P) "drift") eqn:T0.
  { injection H as <-. rewrite A5. split; [repeat split; assumption|]. cbn [h_Mt]. apply (ray_mul _ _ _ r); [exact Rr|]. intros. apply ray_drift; assumption. }
  destruct (String.eqb (r_type P) "EFocus1") eqn:T1.
  { rewrite (NE _ "HQuad" T1 eq_refl), (NE _ "AccGap" T1 eq_refl). cbn [orb].
    apply (FO 0%N _ (e_strength cv p scl x P (h_beta t) (h_gamma t) (is_ahead s) (h_Fy t)) 1) in H.
    - rewrite P1 in H. destruct (cv_mp cv); exact H.
    - intros LV. apply (line_e P s "CaviMlp_EFocus2" "CaviMlp_EFocus1"); [rewrite (TY _ T1); reflexivity|rewrite (TY _ T1); reflexivity|].
      apply (MP 0%N); [exact L|exact LV]. }
  destruct (String.eqb (r_type P) "EFocus2") eqn:T2.
  { rewrite (NE _ "HQuad" T2 eq_refl), (NE _ "AccGap" T2 eq_refl). cbn [orb].
    apply (FO 0%N _ (e_strength cv p scl x P (h_beta t) (h_gamma t) (is_ahead s) (h_Fy t)) 1) in H.
    - rewrite P1 in H. destruct (cv_mp cv); exact H.
    - intros LV. apply (line_e P s "CaviMlp_EFocus1" "CaviMlp_EFocus2"); [rewrite (TY _ T2); reflexivity|rewrite (TY _ T2); reflexivity|].
      apply (MP 0%N); [exact L|exact LV]. }
  cbn [orb].
  destruct (String.eqb (r_type P) "EDipole") eqn:T3.
  { rewrite (NE _ "HQuad" T3 eq_refl), (NE _ "AccGap" T3 eq_refl). revert H. apply DI. intros LV.
    apply (line_e P s "CaviMlp_EDipole" "CaviMlp_EDipole"); [rewrite (TY _ T3); reflexivity|rewrite (TY _ T3); reflexivity|].
    apply (MP 1%N); [exact L|exact LV]. }
  destruct (String.eqb (r_type P) "EQuad") eqn:T4.
  { rewrite (NE _ "HQuad" T4 eq_refl), (NE _ "AccGap" T4 eq_refl). rewrite <- M1. revert H. apply FO. intros LV.
    apply (line_e P s "CaviMlp_EQuad" "CaviMlp_EQuad"); [rewrite (TY _ T4); reflexivity|rewrite (TY _ T4); reflexivity|].
    apply (MP 2%N); [exact L|exact LV]. }
  destruct (String.eqb (r_type P) "HMono") eqn:T5.
  { rewrite (NE _ "HQuad" T5 eq_refl), (NE _ "AccGap" T5 eq_refl).
    apply (FO 2%N _ (h_strength cv p scl x P (h_beta t) (h_gamma t) (is_ahead s) (h_Fy t)) 1) in H; [rewrite P1 in H; exact H|]. intros LV.
    apply (line_h P s "CaviMlp_HMono" "CaviMlp_HMono"); [rewrite (TY _ T5); reflexivity|rewrite (TY _ T5); reflexivity|].
    apply (MP 2%N); [exact L|exact LV]. }
  destruct (String.eqb (r_type P) "HDipole") eqn:T6.
  { rewrite (NE _ "HQuad" T6 eq_refl), (NE _ "AccGap" T6 eq_refl). revert H. apply DI. intros LV.
    apply (line_h P s "CaviMlp_HDipole" "CaviMlp_HDipole"); [rewrite (TY _ T6); reflexivity|rewrite (TY _ T6); reflexivity|].
    apply (MP 1%N); [exact L|exact LV]. }
  destruct (String.eqb (r_type P) "HQuad") eqn:T7.
  { rewrite N.ltb_antisym in H. destruct (N.leb 2 (cv_mp cv)) eqn:LV; cbn [negb] in H; [|injection H as <-; split; assumption].
    destruct (Req_EM_T _ 0) as [|NZ]; [discriminate|]. apply ok_in in H. subst t'. set (i := if Rlt_dec s 0 then 0%nat else 1%nat) in *.
    assert (EB : (bt i + bt (S i)) / 2 = mean_of x (beta_at p) (is_ahead s)).
    { unfold i, is_ahead, mean_of. destruct (Rlt_dec s 0); reflexivity. }
    assert (EG : (gt i + gt (S i)) / 2 = mean_of x (gamma_at p) (is_ahead s)).
    { unfold i, is_ahead, mean_of. destruct (Rlt_dec s 0); reflexivity. }
    rewrite EB, EG. split; [repeat split; assumption|]. cbn [h_Mt]. apply (ray_mul _ _ _ r); [exact Rr|]. intros.
    rewrite (line_h P s "CaviMlp_HQuad" "CaviMlp_HQuad" l); [apply ray_lens; assumption|rewrite (TY _ T7); reflexivity|rewrite (TY _ T7); reflexivity|].
    apply (MP 2%N); [exact L|exact LV]. }
  destruct (String.eqb (r_type P) "AccGap") eqn:T8; [|discriminate].
  destruct (Nat.ltb 2 (S (h_seg t))) eqn:SG; [discriminate|]. apply Nat.ltb_ge in SG. injection H as <-. rewrite A1 in *.
  assert (EB : bt (S (passed h)) = beta_at p (energy_in x (S (passed h))) /\ gt (S (passed h)) = gamma_at p (energy_in x (S (passed h)))).
  { destruct (passed h) as [|[|n]]; [split; reflexivity|split; reflexivity|lia]. }
  destruct EB as [EB EG]. split.
  - unfold at2. cbn [h_seg passed h_Fy phase h_beta h_gamma vel gam h_k]. repeat split; try assumption.
    apply k_model; [exact Es0|]. apply W0. lia.
  - cbn [h_Mt]. apply (ray_mul _ _ _ r); [exact Rr|]. intros.
    replace (l_Accel l) with (if is_ahead s then momentum_at p (e0 x) / momentum_at p (e1 x) else momentum_at p (e1 x) / momentum_at p (e2 x)).
    + apply ray_damp; assumption.
    + injection L as <-. cbn [l_Accel]. unfold is_ahead. destruct (Rlt_dec s 0); reflexivity.
Qed.
Lemma loop2 v : forall l s h t r t' ls, at2 h t -> ray_of (h_Mt t) v r ->
  params_loop cv bt gt kt s l = Ok ls -> two_loop cv p scl Rm bt gt s (combine l ls) t = Ok t' ->
  ray_of (h_Mt t') v (through2_all cv p scl Rm x l s h r).
Proof.
  induction l as [|P l IH]; intros s h t r t' ls A Rr L H; cbn [params_loop] in L.
  - injection L as <-. cbn [combine two_loop] in H. injection H as <-. exact Rr.
  - apply rbind_ok in L as (l1 & L1 & L). apply rbind_ok in L as (l2 & L2 & L). injection L as <-.
    cbn [combine two_loop] in H. apply rbind_ok in H as (t1 & H1 & H).
    destruct (step2 v P _ h t r t1 l1 A Rr L1 H1) as [A' R'].
    exact (IH _ _ _ _ _ _ A' R' L2 H).
Qed.

(** The determinants. *)
Definition shrink (a : bool) : R := if a then momentum_at p (e0 x) / momentum_at p (e1 x) else momentum_at p (e1 x) / momentum_at p (e2 x).
Lemma det_step z P s l t t' : params_step cv bt gt kt s P = Ok l -> two_step cv p scl Rm bt gt s P l t = Ok t' -> fair z (h_Mt t) ->
  fair ((if String.eqb (r_type P) "AccGap" then shrink (is_ahead s) else 1) * z) (h_Mt t').
Proof.
  intros L H G. unfold two_step in H. cbv zeta in H. unfold params_step in L. cbv zeta in L.
  assert (MU : forall M, fair 1 M -> fair (1 * z) (mmul msize M (h_Mt t))) by (intros M HM; apply fair_mul; assumption).
  assert (ST : fair (1 * z) (h_Mt t)) by (rewrite Rmult_1_l; exact G).
  assert (NE : forall a, String.eqb (r_type P) a = true -> String.eqb a "AccGap" = false -> String.eqb (r_type P) "AccGap" = false).
  { intros a E1 E2. apply String.eqb_eq in E1. rewrite E1. exact E2. }
  destruct (String.eqb (r_type P) "drift") eqn:T0. { rewrite (NE _ T0 eq_refl). apply ok_in in H; subst t'. apply MU, fair_drift. }
  assert (FO : forall lvl kick sy, (if N.ltb (cv_mp cv) lvl then Ok t else Ok (on_two t (two_at 1 0 (kick / Rm) 3 2 (sy * (kick / Rm))))) = Ok t' -> fair (1 * z) (h_Mt t')).
  { clear H. intros lvl kick sy. destruct (N.ltb (cv_mp cv) lvl); intros HH; apply ok_in in HH; subst t'; [exact ST|]. apply MU, fair_kick. }
  assert (DI : forall kick, (if N.ltb (cv_mp cv) 1 then Ok t else Ok (on_two t (one_at 3 6 kick))) = Ok t' -> fair (1 * z) (h_Mt t')).
  { clear H L. intros kick. destruct (N.ltb (cv_mp cv) 1); intros HH; apply ok_in in HH; subst t'; [exact ST|]. apply MU, fair_dipole. }
  destruct (String.eqb (r_type P) "EFocus1") eqn:T1. { rewrite (NE _ T1 eq_refl). revert H. apply FO. }
  destruct (String.eqb (r_type P) "EFocus2") eqn:T2. { rewrite (NE _ T2 eq_refl). revert H. apply FO. }
  destruct (String.eqb (r_type P) "EDipole") eqn:T3. { rewrite (NE _ T3 eq_refl). revert H. apply DI. }
  destruct (String.eqb (r_type P) "EQuad") eqn:T4. { rewrite (NE _ T4 eq_refl). revert H. apply FO. }
  destruct (String.eqb (r_type P) "HMono") eqn:T5. { rewrite (NE _ T5 eq_refl). revert H. apply FO. }
  destruct (String.eqb (r_type P) "HDipole") eqn:T6. { rewrite (NE _ T6 eq_refl). revert H. apply DI. }
  destruct (String.eqb (r_type P) "HQuad") eqn:T7.
  { rewrite (NE _ T7 eq_refl). destruct (N.ltb (cv_mp cv) 2); [apply ok_in in H; subst t'; exact ST|]. destruct (Req_EM_T _ 0); [discriminate|]. apply ok_in in H; subst t'. apply MU, fair_kick. }
  destruct (String.eqb (r_type P) "AccGap"); [|discriminate]. destruct (Nat.ltb 2 _); [discriminate|]. apply ok_in in H. apply ok_in in L. subst t' l.
  cbn [h_Mt l_Accel]. apply fair_mul; [|exact G]. unfold shrink, is_ahead. destruct (Rlt_dec s 0); apply fair_gap.
Qed.
Lemma det_loop : forall l z s t t' ls, params_loop cv bt gt kt s l = Ok ls -> two_loop cv p scl Rm bt gt s (combine l ls) t = Ok t' -> fair z (h_Mt t) ->
  fair (fold_right Rmult 1 (map shrink (gap_halves l s)) * z) (h_Mt t').
Proof.
  induction l as [|P l IH]; intros z s t t' ls L H G; cbn [params_loop] in L.
  - injection L as <-. cbn [combine two_loop] in H. injection H as <-. cbn [gap_halves map fold_right]. rewrite Rmult_1_l. exact G.
  - apply rbind_ok in L as (l1 & L1 & L). apply rbind_ok in L as (l2 & L2 & L). injection L as <-.
    cbn [combine two_loop] in H. apply rbind_ok in H as (t1 & H1 & H).
    pose proof (det_step _ _ _ _ _ _ L1 H1 G) as G'. pose proof (IH _ _ _ _ _ L2 H G') as G2.
    cbn [gap_halves]. destruct (String.eqb (r_type P) "AccGap"); cbn [app map fold_right].
    + replace (shrink (is_ahead (s + r_len P)) * fold_right Rmult 1 (map shrink (gap_halves l (s + r_len P))) * z) with
        (fold_right Rmult 1 (map shrink (gap_halves l (s + r_len P))) * (shrink (is_ahead (s + r_len P)) * z)) by ring. exact G2.
    + rewrite Rmult_1_l in G2. exact G2.
Qed.
End Cavity.

(** ** The matrix *)
Lemma slide_eq cv p W b L : beta_of (W / p_Es p) = Ok b -> 0 < p_Es p ->
  - 2 * PI / cav_lambda cv * (1 / cube (b * (W / p_Es p)) * MeVtoeV / p_Es p * L) =
  - (2 * PI / (299792458 * 1000 / cv_f cv) * (L * 1000000 / (p_Es p * momentum_at p W ^ 3))).
Proof.
  intros Hb E. pose proof (bg_nonzero _ _ Hb) as NZ. destruct (beta_model p E _ _ Hb) as (-> & _).
  unfold momentum_at, gamma_at. set (z := beta_at p W * (W / p_Es p)) in *. rewrite lambda_eq. unfold cube, MeVtoeV.
  unfold Rdiv. replace (z ^ 3) with (z * z * z) by ring. rewrite !Rinv_mult. ring.
Qed.
Lemma gap_eq cv p dis W0 Fy0 k t W1 F1 : eval_gap dis W0 p Fy0 k (cav_lambda cv) t = Ok (W1, F1) -> 0 < p_Es p ->
  let a := Fy0 + k * t_Ecen t in
  W1 = W0 + 1000000 * gain p t a /\
  F1 = a + wave_at cv p W1 * (dis - t_Ecen t) + p_Z p * t_V0 t * k * (t_Tp t * sin a + t_Sp t * cos a) / (2 * ((W0 - p_Es p) / 1000000)).
Proof.
  intros H E a. unfold eval_gap in H. cbv zeta in H. fold a in H. apply rbind_ok in H as (b & Hb & H). apply rbind_ok in H as (x & Hx & H).
  apply ok_in in H. injection H as <- <-. split; [unfold gain, MeVtoeV; ring|].
  rewrite (k_model cv p E _ _ Hb). unfold fdiv in Hx. destruct (Req_EM_T _ 0); [discriminate|]. apply ok_in in Hx. subst x.
  unfold MeVtoeV. fold a. f_equal. unfold Rdiv. rewrite (Rmult_assoc 2). reflexivity.
Qed.
Lemma cav_good w cv label Rm p scl Fy0 Ek0 M : cav_matrix w cv label Rm p scl Fy0 Ek0 = Ok M -> 0 < p_Es p ->
  exists x, e0 x = Ek0 + p_Es p /\ f0 x = Fy0 /\ on_its_way cv p scl label (table_length cv / 2) x /\ momentum_at p (e1 x) <> 0 /\
    (forall r u1 u2, let r' := through2_all cv p scl Rm x (cv_lat cv) (fst (hd (0, 0) (cv_data cv))) (at_entry p x) r in
      mapp msize M (ray_vec r u1 u2) 0%nat = Cavity3_Spec.x r' /\ mapp msize M (ray_vec r u1 u2) 1%nat = x' r' /\
      mapp msize M (ray_vec r u1 u2) 2%nat = y r' /\ mapp msize M (ray_vec r u1 u2) 3%nat = y' r') /\
    (forall a b, (M 4%nat 4%nat * a + M 4%nat 5%nat * b, M 5%nat 4%nat * a + M 5%nat 5%nat * b) = deviations cv p x (table_length cv / 2) (a, b)) /\
    (let z := fold_right Rmult 1 (map (shrink p x) (gap_halves (cv_lat cv) (fst (hd (0, 0) (cv_data cv))))) in
     det_at M 0 = z /\ det_at M 2 = z).
Proof.
  intros H Es0. unfold cav_matrix in H. cbv zeta in H. destruct (Nat.eqb _ 0) eqn:NN; [discriminate|].
  assert (LEN : (fst (nth (List.length (cv_data cv) - 1) (cv_data cv) (0, 0)) - fst (nth 0 (cv_data cv) (0, 0))) / 2 = table_length cv / 2).
  { unfold table_length. rewrite <- last_nth. destruct (cv_data cv) as [|? ?]; reflexivity. }
  rewrite LEN in H. clear LEN. set (dis := table_length cv / 2) in *.
  apply rbind_ok in H as (b0 & B0 & H). apply rbind_ok in H as (t0 & T0 & H). apply rbind_ok in H as ([W1 F1] & E1 & H).
  apply rbind_ok in H as (b1 & B1 & H). apply rbind_ok in H as (t1 & T1 & H). apply rbind_ok in H as ([W2 F2] & E2 & H).
  apply rbind_ok in H as (b2 & B2 & H). apply rbind_ok in H as (ls & L & H).
  set (W0 := Ek0 + p_Es p) in *. exists (mkWays W0 W1 W2 t0 t1 Fy0 F1). set (x := mkWays W0 W1 W2 t0 t1 Fy0 F1).
  rewrite (k_model cv p Es0 _ _ B0), (k_model cv p Es0 _ _ B1), (k_model cv p Es0 _ _ B2) in *.
  assert (Hb0 := proj1 (beta_model p Es0 _ _ B0)). assert (Hb1 := proj1 (beta_model p Es0 _ _ B1)). assert (Hb2 := proj1 (beta_model p Es0 _ _ B2)).
  destruct (gap_eq cv p dis _ _ _ _ _ _ E1 Es0) as [G1 G2]. destruct (gap_eq cv p dis _ _ _ _ _ _ E2 Es0) as [G3 _].
  split; [reflexivity|]. split; [reflexivity|]. split.
  { unfold on_its_way. cbn [x e0 e1 e2 f0 f1 gap1 gap2]. rewrite <- Hb0, <- Hb1. repeat split; assumption. }
  split. { unfold momentum_at, gamma_at. cbn [x e1]. rewrite <- Hb1. apply bg_nonzero. exact B1. }
  assert (BT : tab3 b0 b1 b2 = bt p x) by (unfold bt; cbn [x e0 e1 e2]; rewrite <- Hb0, <- Hb1, <- Hb2; reflexivity).
  change (tab3 (W0 / p_Es p) (W1 / p_Es p) (W2 / p_Es p)) with (gt p x) in *.
  change (tab3 ((wave_at cv p W0 + wave_at cv p W1) / 2) ((wave_at cv p W1 + wave_at cv p W2) / 2) 0) with (kt cv p x) in *.
  rewrite BT in *.
  assert (BW : forall i, (i < 3)%nat -> beta_of (energy_in x i / p_Es p) = Ok (bt p x i)).
  { rewrite <- BT. intros [|[|[|i]]] Hi; [exact B0|exact B1|exact B2|lia]. }
  unfold cav_params in L. unfold two_gap_matrix in H. cbv zeta in H. destruct (cv_data cv) as [|[z0 ez] rows] eqn:ED; [discriminate NN|].
  apply rbind_ok in H as (t' & H1 & H). apply ok_in in H. subst M. cbn [hd fst].
  assert (PL : params_loop cv (bt p x) (gt p x) (kt cv p x) z0 (cv_lat cv) = Ok ls) by (destruct (cv_lat cv); [discriminate|exact L]).
  assert (K0 : 2 * PI / (bt p x 0 * cav_lambda cv) = wave_at cv p W0) by (apply k_model; [exact Es0|exact (BW 0%nat ltac:(lia))]).
  assert (K1 : 2 * PI / (bt p x 1 * cav_lambda cv) = wave_at cv p W1) by (apply k_model; [exact Es0|exact (BW 1%nat ltac:(lia))]).
  assert (K2 : 2 * PI / (bt p x 2 * cav_lambda cv) = wave_at cv p W2) by (apply k_model; [exact Es0|exact (BW 2%nat ltac:(lia))]).
  rewrite K0 in *. rewrite K1, K2.
  set (st := mkTwo _ _ _ _ _ _) in H1.
  split; [|split].
  - intros r u1 u2. set (r' := through2_all _ _ _ _ _ _ _ _ _).
    assert (RR : ray_of (h_Mt t') (ray_vec r u1 u2) r').
    { apply (loop2 cv p scl Rm x Es0 BW (ray_vec r u1 u2) _ z0 (at_entry p x) st r t' ls); [| |exact PL|exact H1].
      - repeat split.
      - cbn [st h_Mt]. unfold ray_of. pose proof (mid_app msize (ray_vec r u1 u2)) as E. unfold msize in *.
        rewrite (E 0%nat), (E 1%nat), (E 2%nat), (E 3%nat), (E 6%nat) by lia. repeat split. }
    destruct RR as (R0 & R1 & R2 & R3 & _). repeat split; assumption.
  - intros a b. unfold lon_kick, lon_drift. cbn [t_Ecen t_T t_S t_V0 tab3].
    match goal with |- context [join ?A ?B] => set (N := B); change (join A N 4%nat 4%nat) with (N 4%nat 4%nat);
      change (join A N 4%nat 5%nat) with (N 4%nat 5%nat); change (join A N 5%nat 4%nat) with (N 5%nat 4%nat); change (join A N 5%nat 5%nat) with (N 5%nat 5%nat) end.
    unfold N. clear N.
    match goal with |- context [mmul msize (one_at 4 5 ?z) ?M] => destruct (row_drift z M) as (-> & -> & -> & ->) end.
    match goal with |- context [mmul msize (one_at 5 4 ?z) ?M] => destruct (row_gap z M) as (-> & -> & -> & ->) end.
    match goal with |- context [mmul msize (one_at 4 5 ?z) ?M] => destruct (row_drift z M) as (-> & -> & -> & ->) end.
    match goal with |- context [mmul msize (one_at 5 4 ?z) ?M] => destruct (row_gap z M) as (-> & -> & -> & ->) end.
    rewrite (slide_eq cv p W2 _ _ (BW 2%nat ltac:(lia)) Es0). rewrite (slide_eq cv p W1 _ _ (BW 1%nat ltac:(lia)) Es0).
    rewrite (slide_eq cv p W0 _ _ (BW 0%nat ltac:(lia)) Es0).
    replace (dis + (t_Ecen t0 - dis)) with (t_Ecen t0) by ring.
    replace (0.5 * (wave_at cv p W0 + wave_at cv p W1)) with (mean_wave cv p x 0) by (unfold mean_wave; cbn [x energy_in e0 e1 e2]; lra).
    replace (0.5 * (wave_at cv p W1 + wave_at cv p W2)) with (mean_wave cv p x 1) by (unfold mean_wave; cbn [x energy_in e0 e1 e2]; lra).
    replace (- p_Z p * t_V0 t0 * t_T t0 * sin (Fy0 + mean_wave cv p x 0 * t_Ecen t0) - p_Z p * t_V0 t0 * t_S t0 * cos (Fy0 + mean_wave cv p x 0 * t_Ecen t0))
      with (slope p t0 (Fy0 + mean_wave cv p x 0 * t_Ecen t0)) by (unfold slope; ring).
    replace (- p_Z p * t_V0 t1 * t_T t1 * sin (F1 + mean_wave cv p x 1 * t_Ecen t1) - p_Z p * t_V0 t1 * t_S t1 * cos (F1 + mean_wave cv p x 1 * t_Ecen t1))
      with (slope p t1 (F1 + mean_wave cv p x 1 * t_Ecen t1)) by (unfold slope; ring).
    unfold deviations, slide, push. cbn [fst snd x e0 e1 e2 f0 f1 gap1 gap2]. fold x.
    set (q0 := 2 * PI / _ * (t_Ecen t0 * _ / _)). set (q1 := 2 * PI / _ * ((t_Ecen t1 - (t_Ecen t0 - dis)) * _ / _)). set (q2 := 2 * PI / _ * ((dis - t_Ecen t1) * _ / _)).
    set (k0 := slope p t0 _). set (k1 := slope p t1 _). unfold one_at, mset, mid. cbn [Nat.eqb andb]. f_equal; ring.
  - pose proof (det_loop cv p scl Rm x (cv_lat cv) 1 z0 st t' ls PL H1 fair_id) as D. rewrite Rmult_1_r in D.
    match goal with |- context [join ?A ?B] => destruct (det_join_x A B) as (-> & -> & _) end. destruct D as (_ & D1 & D2). split; assumption.
Qed.

(** ** The matrix of the element *)
Section Element.
Variables (w : world) (files : cavfiles) (c : tcfg) (phi : R) (p : particle) (T : mat) (p' : particle) (cv : cavity) (scl Rm : R) (label : nat).
Hypothesis H : snd (w_cav_one (with_cavities w files) c phi p T) = Ok p'.
Hypothesis Hcv : load_cavity w files c = Ok cv.
Hypothesis Hkind : In (cv_cavi cv, (label, Rm)) two_gaps.
Hypothesis Hscl : num_of w c "scl_fac" = Ok scl.
Hypothesis Es0 : 0 < p_Es p.
Hypothesis fc0 : cv_f cv <> 0.
Let n := cv_f cv / p_freq p.
Lemma element2_matrix : exists M q, cav_matrix w cv label Rm q scl (n * p_phis p + phi) (p_Ek p) = Ok M /\ p_Es q = p_Es p /\ p_Z q = p_Z p /\
  p_freq p <> 0 /\ fst (w_cav_one (with_cavities w files) c phi p T) = freq_jump n M.
Proof.
  assert (LB : label_of (cv_cavi cv) = Ok (label, Rm) /\ Nat.ltb 0 (cv_cavi cv) = true).
  { unfold two_gaps in Hkind. cbn [In] in Hkind. destruct Hkind as [E|[E|[E|[E|[E|[]]]]]]; injection E as <- <- <-; split; reflexivity. }
  destruct LB as [LB LT]. revert H. cbn [w_cav_one with_cavities]. rewrite Hcv. unfold init_cav. rewrite LB, LT. cbn [rbind].
  destruct (Req_EM_T (p_freq p) 0) as [|F0]; [discriminate|]. rewrite Hscl. cbn [rbind].
  destruct (boost _ _ _ _ _ _) as [[[W' Fo]|]|e]; cbn [rbind]; try discriminate.
  set (q := boosted p W' _ _). fold n.
  destruct (cav_matrix w cv label Rm q scl (n * p_phis p + phi) (p_Ek p)) as [M|e] eqn:G; cbn [rbind snd fst]; [|discriminate]. intros _.
  exists M, q. repeat split; auto.
Qed.
Lemma same_motion2 q : p_Es q = p_Es p -> p_Z q = p_Z p ->
  (forall len x, on_its_way cv q scl label len x <-> on_its_way cv p scl label len x) /\
  (forall x l s h r, through2_all cv q scl Rm x l s h r = through2_all cv p scl Rm x l s h r) /\
  (forall x, at_entry q x = at_entry p x) /\ (forall x len d, deviations cv q x len d = deviations cv p x len d) /\
  (forall x a, shrink q x a = shrink p x a).
Proof.
  intros E1 E2.
  assert (B : forall W, beta_at q W = beta_at p W) by (intros; unfold beta_at; rewrite E1; reflexivity).
  assert (G : forall W, gamma_at q W = gamma_at p W) by (intros; unfold gamma_at; rewrite E1; reflexivity).
  assert (K : forall W, wave_at cv q W = wave_at cv p W) by (intros; unfold wave_at; rewrite B; reflexivity).
  assert (M : forall W, momentum_at q W = momentum_at p W) by (intros; unfold momentum_at; rewrite B, G; reflexivity).
  assert (MW : forall x i, mean_wave cv q x i = mean_wave cv p x i) by (intros; unfold mean_wave; rewrite !K; reflexivity).
  assert (MO : forall x a, mean_of x (beta_at q) a = mean_of x (beta_at p) a /\ mean_of x (gamma_at q) a = mean_of x (gamma_at p) a).
  { intros. unfold mean_of. rewrite !B, !G. split; reflexivity. }
  split; [|split; [|split; [|split]]].
  - intros len x. unfold on_its_way, gain. rewrite !K, !B, E1, E2. reflexivity.
  - intros x l. induction l as [|P l IH]; intros s h r; cbn [through2_all]; [reflexivity|].
    assert (N : next_place cv q x P (is_ahead (s + r_len P)) h = next_place cv p x P (is_ahead (s + r_len P)) h).
    { unfold next_place. rewrite K, B, G. destruct (MO x (is_ahead (s + r_len P))) as [-> ->]. reflexivity. }
    assert (Th : through2 cv q scl Rm x P (is_ahead (s + r_len P)) h r = through2 cv p scl Rm x P (is_ahead (s + r_len P)) h r).
    { unfold through2, e_strength, h_strength, e_field, h_field, qV. rewrite !MW, !M, E2. destruct (MO x (is_ahead (s + r_len P))) as [-> ->]. reflexivity. }
    rewrite N, Th. apply IH.
  - intros x. unfold at_entry. rewrite B, G. reflexivity.
  - intros x len d. unfold deviations, slide, push, slope. rewrite !MW, !M, E1, E2. reflexivity.
  - intros x a. unfold shrink. rewrite !M. reflexivity.
Qed.
Theorem element_two_gaps : let M := fst (w_cav_one (with_cavities w files) c phi p T) in
  exists x, e0 x = p_Ek p + p_Es p /\ f0 x = n * p_phis p + phi /\ on_its_way cv p scl label (table_length cv / 2) x /\
    (forall r u1 u2, let r' := through2_all cv p scl Rm x (cv_lat cv) (fst (hd (0, 0) (cv_data cv))) (at_entry p x) r in
      mapp msize M (ray_vec r u1 u2) 0%nat = Cavity3_Spec.x r' /\ mapp msize M (ray_vec r u1 u2) 1%nat = x' r' /\
      mapp msize M (ray_vec r u1 u2) 2%nat = y r' /\ mapp msize M (ray_vec r u1 u2) 3%nat = y' r') /\
    (forall a b, (n * (M 4%nat 4%nat * a + M 4%nat 5%nat * b), M 5%nat 4%nat * a + M 5%nat 5%nat * b) = deviations cv p x (table_length cv / 2) (n * a, b)) /\
    (gap_halves (cv_lat cv) (fst (hd (0, 0) (cv_data cv))) = [true; false] ->
     det_at M 0 = momentum_at p (e0 x) / momentum_at p (e2 x) /\ det_at M 2 = momentum_at p (e0 x) / momentum_at p (e2 x)).
Proof.
  intros M. destruct element2_matrix as (M0 & q & G & E1 & E2 & F0 & EM).
  assert (N0 : n <> 0). { unfold n, Rdiv. apply Rmult_integral_contrapositive. split; [exact fc0|apply Rinv_neq_0_compat; exact F0]. }
  assert (Es1 : 0 < p_Es q) by (rewrite E1; exact Es0).
  destruct (same_motion2 q E1 E2) as (S1 & S2 & S3 & S4 & S5).
  destruct (cav_good _ _ _ _ _ _ _ _ _ G Es1) as (x & X1 & X2 & X3 & NM & X4 & X5 & X6). rewrite E1 in X1.
  exists x. split; [exact X1|]. split; [exact X2|]. split; [apply S1; exact X3|].
  assert (J : forall r u1 u2 i, (i < 4)%nat -> mapp msize M (ray_vec r u1 u2) i = mapp msize M0 (ray_vec r (n * u1) u2) i).
  { intros r u1 u2 i Hi. unfold M. rewrite EM. unfold mapp. apply sumn_ext. intros j Hj. unfold msize in Hj. rewrite jump_entry by (auto; lia).
    destruct (Nat.eqb_spec i 4); [lia|]. idx7 j Hj; cbn [Nat.eqb]; unfold ray_vec; cbn [nth]; field. }
  split; [|split].
  - intros r u1 u2 r'. rewrite !J by lia. unfold r'. rewrite <- S2, <- S3. apply X4.
  - intros a b. rewrite <- S4, <- X5. unfold M. rewrite EM. rewrite !jump_entry by (auto; lia). cbn [Nat.eqb]. f_equal; field; exact N0.
  - intros GH. cbv zeta in X6. rewrite GH in X6. cbn [map fold_right] in X6. rewrite !S5 in X6.
    assert (D : shrink p x true * (shrink p x false * 1) = momentum_at p (e0 x) / momentum_at p (e2 x)).
    { unfold shrink. assert (EQ : momentum_at q (e1 x) = momentum_at p (e1 x)) by (unfold momentum_at, gamma_at, beta_at; rewrite E1; reflexivity). rewrite EQ in NM.
      unfold Rdiv. rewrite Rmult_1_r. transitivity (momentum_at p (e0 x) * (/ momentum_at p (e1 x) * momentum_at p (e1 x)) * / momentum_at p (e2 x)); [ring|].
      rewrite Rinv_l by exact NM. ring. }
    rewrite D in X6. unfold M. rewrite EM. rewrite <- (proj1 X6) at 1. rewrite <- (proj2 X6).
    unfold det_at. rewrite !jump_entry by (auto; lia). cbn [Nat.eqb Nat.add]. split; field.
Qed.
End Element.
