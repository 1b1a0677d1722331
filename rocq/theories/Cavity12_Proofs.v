(** A Generic cavity whose gap and quadrupole do something. *)
From Coq Require Import Reals List String Bool NArith ZArith Lia Lra Psatz.
From Verif Require Import SMap Dbl Config_Spec Mat Machine_Model Machine_Spec Machine_Proofs Machine2_Proofs Machine3_Proofs Machine4_Proofs Util_Model Moment_Model
  Moment_Spec Moment_Proofs Moment2_Proofs Moment3_Proofs Moment4_Proofs Moment5_Proofs Moment6_Proofs Cavity_Model Cavity_Spec Cavity_Proofs Cavity2_Proofs
  Cavity3_Proofs Cavity4_Proofs.
From Verif Require Import Cavity5_Proofs Cavity3_Spec.
Import ListNotations.
Open Scope R_scope.
Open Scope string_scope.
Open Scope list_scope.
Definition attr4 : list double := repeat dzero 9 ++ [done] ++ repeat dzero 13.
Definition piece4 (t : string) : tcfg := TCfg [("L", TNum dzero); ("V0", TNum done); ("attr", TVec attr4); ("type", TStr t)] [].
Definition files4 : cavfiles := files_of (Some (data_of [piece0; piece4 "EQuad"; piece4 "AccGap"; piece0] ez4)).
Definition Ts4 : list R := repeat 0 9 ++ [1].
Definition loaded4 : cavity :=
  mkCav 0 1 (1 * PI / 180) 1 (negb (Reqb 0 0)) 2 0
    [mkRaw "drift" 1 0 [] []; mkRaw "EQuad" 0 1 Ts4 (repeat 0 10); mkRaw "AccGap" 0 1 Ts4 (repeat 0 10); mkRaw "drift" 1 0 [] []]
    [(0, 1); (1, 1)] [[0; 1]; [1; 1]] [] [0; 0; 0] None None None None.
Lemma load4 a : load_cavity (world0 num01 a) files4 cavity2 = Ok loaded4.
Proof. reflexivity. Qed.


Lemma fitT k : fit_pow k Ts4 = Ok 1.
Proof. unfold fit_pow. rewrite fit_poly by discriminate. f_equal. unfold Ts4. cbn [repeat rev app poly]. ring. Qed.
Definition b4 : R := sqrt (1 - 1 / sqr 2).
Definition phi4 : R := - (2 * PI / (b4 * cav_lambda loaded4)).
Lemma through4 a p E F scl : enters loaded4 p E -> exists E' F', boost a loaded4 p E F scl = Ok (Some (E', F')).
Proof.
  intros En. do 2 eexists. apply (proj1 (boost_tracks a loaded4 p E F scl En)). intros x y H. destruct H.
Qed.
Lemma beta4 x : 1 < x -> exists b, beta_of x = Ok b.
Proof. intros H. unfold beta_of. destruct (Rlt_dec _ _) as [L|L]; [eauto|]. exfalso. apply L. unfold sqr. nra. Qed.
Lemma drift4 q g : gen_step loaded4 q 1 (mkRaw "drift" 1 0 [] []) g = Ok (mkGen (g_W g) (g_gamma g) (g_beta g) (g_Fy g + g_k g * 1) (g_k g)
  (mmul msize (two_at 0 1 1 2 3 1) (g_Mt g)) (mmul msize (one_at 4 5 (- 2 * PI / cav_lambda loaded4 * (1 / cube (g_beta g * g_gamma g) * MeVtoeV / p_Es q * 1))) (g_Ml g))).
Proof. reflexivity. Qed.
Lemma quad4 q g : exists P, gen_step loaded4 q 1 (mkRaw "EQuad" 0 1 Ts4 (repeat 0 10)) g = Ok (on_trans g P).
Proof.
  unfold gen_step. cbn [r_type r_T r_S]. change (String.eqb "EQuad" "drift") with false. rewrite fitT, fit0. cbn [rbind].
  change (String.eqb "EQuad" "EFocus") with false. change (String.eqb "EQuad" "EDipole") with false. change (String.eqb "EQuad" "EQuad") with true.
  change (N.ltb (cv_mp loaded4) 2) with false. cbv iota. unfold fdiv. change (cv_Rm loaded4) with 1. destruct (Req_EM_T 1 0); [lra|]. cbn [rbind]. eauto.
Qed.
Lemma gap4 q g : p_Es q = 1 -> p_Z q = 1 -> g_Fy g = 0 -> 1 < g_W g -> exists g', gen_step loaded4 q 1 (mkRaw "AccGap" 0 1 Ts4 (repeat 0 10)) g = Ok g'.
Proof.
  intros E1 E2 E3 E4. unfold gen_step. cbn [r_type r_T r_S]. change (String.eqb "AccGap" "drift") with false. rewrite fitT, fit0. cbn [rbind].
  change (String.eqb "AccGap" "EFocus") with false. change (String.eqb "AccGap" "EDipole") with false. change (String.eqb "AccGap" "EQuad") with false.
  change (String.eqb "AccGap" "HMono") with false. change (String.eqb "AccGap" "HDipole") with false. change (String.eqb "AccGap" "HQuad") with false.
  change (String.eqb "AccGap" "AccGap") with true. cbv iota. rewrite E1, E2, E3, cos_0, sin_0. cbn [r_E0].
  match goal with |- context [beta_of ?x] => destruct (beta4 x) as [b B] end; [unfold MeVtoeV; lra|]. rewrite B. cbn [rbind]. eauto.
Qed.
Lemma matrix4 w q : p_Es q = 1 -> p_Z q = 1 -> exists M, gen_matrix w loaded4 q 1 (1 / 1 * 0 + phi4) 1 = Ok M.
Proof.
  intros E1 E2. unfold gen_matrix. rewrite E1.
  assert (B : beta_of ((1 + 1) / 1) = Ok b4).
  { replace ((1 + 1) / 1) with 2 by field. unfold beta_of, b4. destruct (Rlt_dec _ _) as [L|L]; [reflexivity|]. exfalso. apply L. unfold sqr. lra. }
  rewrite B. cbn [rbind].
  assert (RM : (w_asserts w && negb (if Rlt_dec 0 (cv_Rm loaded4) then true else false))%bool = false).
  { apply andb_false_iff. right. cbn [cv_Rm loaded4]. destruct (Rlt_dec 0 1); [reflexivity|lra]. }
  rewrite RM. change (cv_lat loaded4) with [mkRaw "drift" 1 0 [] []; mkRaw "EQuad" 0 1 Ts4 (repeat 0 10); mkRaw "AccGap" 0 1 Ts4 (repeat 0 10); mkRaw "drift" 1 0 [] []].
  cbn [gen_loop]. rewrite drift4. cbn [rbind]. destruct (quad4 q (mkGen ((1 + 1)) ((1 + 1) / 1) b4 (1 / 1 * 0 + phi4 + 2 * PI / (b4 * cav_lambda loaded4) * 1) (2 * PI / (b4 * cav_lambda loaded4)) (mmul msize (two_at 0 1 1 2 3 1) mid) (mmul msize (one_at 4 5 (- 2 * PI / cav_lambda loaded4 * (1 / cube (b4 * ((1 + 1) / 1)) * MeVtoeV / p_Es q * 1))) mid))) as [P Q].
  cbn [r_len g_W g_gamma g_beta g_Fy g_k g_Mt g_Ml]. rewrite Q. cbn [rbind].
  edestruct (gap4 q) as [g' G]; [exact E1|exact E2| | |rewrite G].
  - cbn [on_trans g_Fy]. unfold phi4. ring.
  - cbn [on_trans g_W]. lra.
  - cbn [rbind]. rewrite drift4. cbn [rbind]. eauto.
Qed.
Lemma one4 a T : exists p', snd (w_cav_one (with_cavities (world0 num01 a) files4) cavity2 phi4 slow T) = Ok p'.
Proof.
  unfold with_cavities. cbn [w_cav_one]. rewrite load4. unfold init_cav.
  cbn [cv_cavi loaded4 label_of rbind]. destruct (Req_EM_T (p_freq slow) 0) as [E|_]; [cbn in E; lra|].
  change (num_of (world0 num01 a) cavity2 "scl_fac") with (Ok 1). cbn [rbind].
  fold loaded4.
  destruct (through4 (w_asserts (world0 num01 a)) slow (p_Ek slow + p_Es slow) (cv_f loaded4 / p_freq slow * p_phis slow + phi4) 1) as (E' & F' & X).
  { unfold enters. pose proof slow_beta. repeat split; auto; cbn; lra. }
  fold Ts4. fold (repeat 0 10). fold loaded4. rewrite X. cbn [rbind]. cbn [Nat.ltb Nat.leb].
  set (q := boosted slow E' _ _). destruct (matrix4 (world0 num01 a) q eq_refl eq_refl) as [M G].
  change (cv_f loaded4 / p_freq slow * p_phis slow + phi4) with (1 / 1 * 0 + phi4). change (p_Ek slow) with 1. rewrite G. cbn [rbind snd]. eauto.
Qed.
Lemma tables4 : int_tables (cv_lat loaded4).
Proof. repeat constructor; discriminate. Qed.
