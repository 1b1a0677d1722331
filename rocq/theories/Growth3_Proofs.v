(** A cavity with emittance growth that a beam goes through, and refutations. *)
From Coq Require Import Reals List String Bool NArith ZArith Arith Lia Lra Psatz.
From Verif Require Import SMap SMap_Proofs Dbl Config_Spec Mat Mat_Proofs Minv Minv_Proofs Machine_Model Machine_Spec Machine_Proofs
  Machine2_Proofs Machine4_Proofs Linear_Model Linear_Spec Linear_Proofs Linear2_Proofs Linear3_Proofs.
From Verif Require Import Moment_Model Moment_Spec Motion_Spec Round_Spec Moment_Proofs Moment2_Proofs Moment3_Proofs Moment4_Proofs
  Moment5_Proofs Moment6_Proofs Motion_Proofs Motion2_Proofs Motion3_Proofs Motion4_Proofs Motion5_Proofs Round_Proofs Round2_Proofs Round3_Proofs
  Round4_Proofs Round5_Proofs Round6_Proofs Frame_Spec Frame_Proofs.
From Verif Require Import Cavity_Model Cavity_Spec Cavity2_Spec Cavity_Proofs Cavity2_Proofs Cavity3_Proofs Cavity4_Proofs Cavity5_Proofs Cavity6_Proofs Cavity8_Proofs Cavity10_Proofs
  Cavity14_Proofs.
From Verif Require Import Growth_Spec Growth_Proofs Growth2_Proofs.
Import ListNotations.
Open Scope R_scope.
Open Scope string_scope.
Open Scope list_scope.

(** A cavity that works for every ion of a beam lets the beam pass. *)
Lemma goes_any w c d0 s ref phi : mom_ctor w KRFCavity c = Ok d0 -> aligned s -> Forall moving (ms_real s) ->
  w_cav_ref w c (recalc (ms_ref s)) = Ok (ref, phi) -> 0 < p_Es ref ->
  (forall q T, In q (ms_real s) -> exists q1 b, snd (w_cav_one w c phi (recalc q) T) = Ok q1 /\ moving b /\ p_beta q1 = p_beta (recalc b) /\ p_gamma q1 = p_gamma (recalc b)) ->
  exists d s1, advance_cav w c d0 false s = (d, Ok s1).
Proof.
  intros HC A MV HR ME HO. assert (F := ctor_fresh w _ _ _ HC). rewrite cav_eq by (apply fresh_miss; auto). unfold cav_miss. cbv zeta.
  assert (A1 := recalc_aligned s A). destruct (note_shape d0 (ms_recalc s)) as (M0 & M1 & M2). set (s' := ms_recalc s) in *.
  change (ms_ref s') with (recalc (ms_ref s)). rewrite HR.
  destruct (cells_all w c (md_len (note_input d0 s')) phi (ms_real s') (md_tm (note_input d0 s'))) as (tm & reals & CC); [congruence| |].
  { intros p Hp. apply in_map_iff in Hp as (q & <- & Hq). unfold cav_cell. set (T0 := mset _ _ _ _).
    destruct (HO q T0 Hq) as (q1 & b & H1 & _). destruct (w_cav_one w _ _ _ _) as [T r]. cbn [snd] in H1. subst r. cbn [rbind snd]. eauto. }
  rewrite CC. destruct (cells_length w _ _ _ _ _ _ _ CC) as [L1 L2].
  match goal with |- context [cav_misalign ?d ref reals] => assert (CM : exists mis, cav_misalign d ref reals = (mis, None)) end.
  { unfold cav_misalign. apply run_all; [cbn [with_tm with_phi md_mis]; congruence|]. intros j p' y Hp' _.
    assert (Hj := nth_lt _ _ _ Hp'). destruct (nth_ex (ms_real s') j _ eq_refl ltac:(rewrite <- L2; exact Hj)) as [p Hp].
    destruct (cells_nth w _ _ _ _ _ _ _ _ _ CC Hp) as (T & p2 & C1 & C2 & C3). rewrite Hp' in C3. apply some_eq in C3. subst p2.
    apply nth_error_In in Hp. apply in_map_iff in Hp as (q & <- & Hq). rewrite Forall_forall in MV. assert (Mq := MV _ Hq).
    assert (X : exists M IM, get_misalign (md_sh d0) (md_len d0) ref p' = Ok (M, IM)).
    { unfold cav_cell in C1. set (T0 := mset _ _ _ _) in C1. destruct (HO q T0 Hq) as (q2 & b & H1 & Mb & Eb & Eg). destruct (w_cav_one w _ _ _ T0) as [T1 r] eqn:W1. apply pair_eq in C1 as [_ C1].
      apply rbind_ok in C1 as (q1 & -> & C1). apply (f_equal (fun r => match r with Ok x => x | Throw _ => p' end)) in C1. rewrite <- C1.
      cbn [snd] in H1. apply (f_equal (fun r => match r with Ok x => x | Throw _ => q1 end)) in H1. subst q2.
      apply (misalign_more _ _ _ _ (recalc q) b); auto; try reflexivity. }
    destruct X as (M & IM & E).
    cbn [with_tm with_phi md_sh md_len]. change (md_sh (note_input d0 s')) with (md_sh d0). change (md_len (note_input d0 s')) with (md_len d0).
    rewrite E. eauto. }
  destruct CM as [mis CM]. rewrite CM.
  assert (LM : List.length mis = List.length (ms_real s')).
  { unfold cav_misalign in CM. assert (Q := run_length _ _ _ _ _ CM). cbn [with_tm with_phi md_mis] in Q. congruence. }
  apply fwd_runs; auto; cbn [with_out with_mis with_tm with_phi md_real_in md_tm md_mis]; rewrite ?map_length; congruence.
Qed.

(** ** The cavity *)
Definition num6 (x : double) : R := match x with SpecFloat.S754_zero _ => 0 | _ => if deq x done then 1 else - acos (1 / 100) * 180 / PI end.
Definition cavity6 (x : double) : tcfg :=
  TCfg [("EmitGrowth", TNum done); ("L", TNum done); ("cavtype", TStr "0.041QWR"); ("f", TNum done); ("forcettfcalc", TNum done); ("name", TStr "c");
        ("phi", TNum x); ("scl_fac", TNum done); ("syncflag", TNum dzero); ("type", TStr "rfcavity")] [].
Definition loaded6 (x : double) : cavity :=
  mkCav 1 1 (num6 x * PI / 180) 0 true 2 1 lat5 [(-3, 1); (-1, 1); (1, 1); (3, 1)] rows5 rows5 [] None None None None.
Lemma load6 a x : load_cavity (world0 num6 a) files5 (cavity6 x) = Ok (loaded6 x).
Proof.
  assert (X : negb (Reqb (num_def (world0 num6 a) (cavity6 x) "forcettfcalc" 0) 0) = true).
  { change (num_def (world0 num6 a) (cavity6 x) "forcettfcalc" 0) with 1. unfold Reqb. destruct (Req_EM_T 1 0); [lra|reflexivity]. }
  unfold load_cavity. rewrite X. reflexivity.
Qed.
(** The matrix does not depend on the phase of the cavity or on the growth. *)
Definition retuned (cv : cavity) (phi : R) (eg : N) : cavity :=
  mkCav (cv_cavi cv) (cv_f cv) phi (cv_Rm cv) (cv_force cv) (cv_mp cv) eg (cv_lat cv) (cv_data cv) (cv_axis cv) (cv_mlp cv) (cv_syn cv)
    (cv_nrm cv) (cv_cx cv) (cv_eklim cv) (cv_nrlim cv).
Lemma params_retuned cv phi eg b g k l : forall s, params_loop (retuned cv phi eg) b g k s l = params_loop cv b g k s l.
Proof.
  induction l as [|P l IH]; intros s; [reflexivity|]. cbn [params_loop].
  change (params_step (retuned cv phi eg) b g k (s + r_len P) P) with (params_step cv b g k (s + r_len P) P).
  destruct (params_step cv b g k _ P); [|reflexivity]. cbn [rbind]. rewrite IH. reflexivity.
Qed.
Lemma two_retuned cv phi eg p scl Rm b g l : forall s x, two_loop (retuned cv phi eg) p scl Rm b g s l x = two_loop cv p scl Rm b g s l x.
Proof.
  induction l as [|[P t] l IH]; intros s x; [reflexivity|]. cbn [two_loop].
  change (two_step (retuned cv phi eg) p scl Rm b g (s + r_len P) P t x) with (two_step cv p scl Rm b g (s + r_len P) P t x).
  destruct (two_step cv p scl Rm b g _ P t x); [|reflexivity]. cbn [rbind]. apply IH.
Qed.
Lemma rbind_same {A B} (r r' : res A) (k k' : A -> res B) : r = r' -> (forall x, k x = k' x) -> rbind r k = rbind r' k'.
Proof. intros <- H. destruct r; [apply H|reflexivity]. Qed.
Lemma matrix_retuned w cv phi eg l Rm p scl F E : cav_matrix w (retuned cv phi eg) l Rm p scl F E = cav_matrix w cv l Rm p scl F E.
Proof.
  unfold cav_matrix. cbv zeta. change (cv_data (retuned cv phi eg)) with (cv_data cv). destruct (Nat.eqb _ 0); [reflexivity|].
  apply rbind_same; [reflexivity|intros b0]. apply rbind_same; [reflexivity|intros t0]. apply rbind_same; [reflexivity|intros [W1 F1]].
  apply rbind_same; [reflexivity|intros b1]. apply rbind_same; [reflexivity|intros t1]. apply rbind_same; [reflexivity|intros [W2 F2]].
  apply rbind_same; [reflexivity|intros b2]. apply rbind_same.
  - unfold cav_params. change (cv_data (retuned cv phi eg)) with (cv_data cv). change (cv_lat (retuned cv phi eg)) with (cv_lat cv).
    destruct (cv_lat cv); [reflexivity|]. destruct (cv_data cv) as [|[z ?] ?]; [reflexivity|]. apply params_retuned.
  - intros lines. unfold two_gap_matrix. change (cv_data (retuned cv phi eg)) with (cv_data cv). change (cv_lat (retuned cv phi eg)) with (cv_lat cv).
    destruct (cv_data cv) as [|[z ?] ?]; [reflexivity|]. cbv zeta. apply rbind_same; [apply two_retuned|reflexivity].
Qed.
Lemma matrix6 w x p Fy0 : p_Es p = 1 -> p_Z p = 1 -> exists M, cav_matrix w (loaded6 x) 41 17 p 1 Fy0 1 = Ok M.
Proof. intros E Z. destruct (matrix5 w p Fy0 E Z) as [M H]. exists M. rewrite <- H. apply (matrix_retuned w loaded5). Qed.
Lemma boost6 a x F : exists E' F', boost a (loaded6 x) slow 2 F 1 = Ok (Some (E', F')) /\ 1 < E'.
Proof. exact (fast_enough a (loaded6 x) slow 2 F 1 (proj1 enough5) (proj2 enough5)). Qed.
Definition world6 (a : bool) : world := with_cavities (world0 num6 a) files5.
Lemma ref6 a x : exists p' phi, w_cav_ref (world6 a) (cavity6 x) slow = Ok (p', phi) /\ p_Es p' = 1.
Proof.
  unfold world6, with_cavities. cbn [w_cav_ref]. rewrite load6. cbn [rbind]. unfold propagate_long.
  change (num_of (world0 num6 a) (cavity6 x) "scl_fac") with (Ok 1). cbn [rbind].
  destruct (Req_EM_T (p_freq slow) 0) as [E|_]; [cbn in E; lra|].
  assert (DP : driven_phase (world0 num6 a) (loaded6 x) (cavity6 x) slow 1 = Ok (num6 x * PI / 180)).
  { unfold driven_phase. change (num_def (world0 num6 a) (cavity6 x) "syncflag" 1) with 0. cbn [cv_cavi loaded6 Nat.eqb rbind].
    destruct (Rle_dec 1 0) as [?|_]; [lra|]. reflexivity. }
  rewrite DP. cbn [rbind]. assert (PW : p_W slow = 2) by (cbn; lra). rewrite PW.
  destruct (boost6 (w_asserts (world0 num6 a)) x (cv_f (loaded6 x) / p_freq slow * p_phis slow + num6 x * PI / 180)) as (E' & F' & X & _).
  rewrite X. cbn [rbind]. do 2 eexists. split; [reflexivity|reflexivity].
Qed.
Lemma one6 a x phi T : exists q1 b, snd (w_cav_one (world6 a) (cavity6 x) phi slow T) = Ok q1 /\ moving b /\ p_beta q1 = p_beta (recalc b) /\ p_gamma q1 = p_gamma (recalc b).
Proof.
  unfold world6, with_cavities. cbn [w_cav_one]. rewrite load6. unfold init_cav.
  change (label_of (cv_cavi (loaded6 x))) with (Ok (41%nat, 17)). cbn [rbind]. destruct (Req_EM_T (p_freq slow) 0) as [E|_]; [cbn in E; lra|].
  change (num_of (world0 num6 a) (cavity6 x) "scl_fac") with (Ok 1). cbn [rbind].
  assert (PE : p_Ek slow + p_Es slow = 2) by (cbn; lra). rewrite PE.
  destruct (boost6 (w_asserts (world0 num6 a)) x (cv_f (loaded6 x) / p_freq slow * p_phis slow + phi)) as (E' & F' & X & L).
  rewrite X. cbn [rbind]. change (Nat.ltb 0 (cv_cavi (loaded6 x))) with true. cbv iota.
  set (q := boosted slow E' _ _). edestruct (matrix6 (world0 num6 a) x q) as [M G]; [reflexivity|reflexivity|].
  change (p_Ek slow) with 1. rewrite G. cbn [rbind snd]. exists q, (set_Ek slow (E' - 1)). split; [reflexivity|]. split; [|split; reflexivity].
  unfold moving. cbn. repeat split; lra.
Qed.
Definition state6 : mstate :=
  mkMS 0 slow [slow] [fun i => if Nat.eqb i 6 then 1 else 0] [mid] [mid] (fun _ => 0) (fun _ => 0) mid 0.
Lemma state6_aligned : aligned state6.
Proof. repeat split; discriminate. Qed.
Lemma slow_moving : moving slow.
Proof. unfold moving. cbn. repeat split; lra. Qed.
Lemma files5_proper : proper_files files5.
Proof.
  split; [intros n rows H; injection H as <-; cbn; lia|]. split; [discriminate|]. split; [intros n l H; injection H as <-; cbn; lia|]. split; discriminate.
Qed.
Lemma world6_sane a : sane (world6 a).
Proof. apply with_sane; [apply files5_proper|discriminate]. Qed.
Lemma through6 a x : exists f, goes_through (world6 a) (cavity6 x) state6 f.
Proof.
  assert (A := state6_aligned).
  assert (X : exists m e d0, new_machine (moment_reg (world6 a)) (mconf [cavity6 x]) = Ok m /\ nth_error (m_elems m) 0 = Some e /\
    el_class e = mom_class (world6 a) KRFCavity /\ el_data e = d0 /\ eb_conf (el_base e) = cavity6 x /\ mom_ctor (world6 a) KRFCavity (cavity6 x) = Ok d0 /\
    nth_error (entries m [cavity6 x] []) 0 = Some (cavity6 x)).
  { do 3 eexists. repeat split; reflexivity. }
  destruct X as (m & e & d0 & X1 & X2 & X3 & X4 & X5 & X6 & X7).
  destruct (ref6 a x) as (ref & phi & R1 & R2).
  destruct (goes_any (world6 a) (cavity6 x) d0 state6 ref phi X6 A) as (d & s1 & E).
  { constructor; [apply slow_moving|constructor]. }
  { exact R1. }
  { rewrite R2. lra. }
  { intros q T [<-|[]]. apply one6. }
  destruct (run_one m (mkSt 0 false state6) 0 e d (mkSt (size_incr 0) false s1) X2) as (p & P1 & P2 & _).
  { rewrite X3. cbn [cl_advance mom_class]. unfold mom_advance. cbn [st_retreat st_body]. rewrite X5, X4. cbn [advance_of]. rewrite E. reflexivity. }
  exists s1, (mconf [cavity6 x]), m, [cavity6 x], [], 0%nat, (mkSt 0 false state6), p, (mkSt (size_incr 0) false s1).
  split; [exact X1|]. split; [reflexivity|]. split; [repeat constructor; unfold strips_to_some; discriminate|]. split; [exact I|].
  split; [exact X7|]. split; [reflexivity|]. split; [exact A|]. split; [exact P1|]. split; [exact P2|reflexivity].
Qed.

(** ** The longitudinal factor can be below one *)
Lemma num6_phi : num6 d361 * PI / 180 = - acos (1 / 100).
Proof. assert (X : num6 d361 = - acos (1 / 100) * 180 / PI) by reflexivity. rewrite X. pose proof PI_neq0. field. lra. Qed.
Definition quick : particle := set_Ek slow 2.
Lemma gamma_of p : p_Es p <> 0 -> p_gamma (recalc p) = (p_Es p + p_Ek p) / p_Es p.
Proof. intros H. unfold recalc. cbn [p_gamma]. destruct (Req_EM_T (p_Es p) 0); [contradiction|reflexivity]. Qed.
Lemma gamma_slow : p_gamma slow = 2.
Proof. unfold slow. rewrite gamma_of; cbn [p_Es p_Ek]; lra. Qed.
Lemma gamma_quick : p_gamma (recalc quick) = 3.
Proof. rewrite gamma_of; unfold quick, set_Ek, slow, recalc; cbn [p_Es p_Ek]; lra. Qed.
Lemma gain_quick : p_W (recalc quick) - p_W slow = 1.
Proof.
  assert (X : p_W (recalc quick) = p_Es quick + p_Ek quick) by reflexivity. assert (Y : p_W slow = 1 + 1) by reflexivity.
  assert (Z : p_Es quick = 1) by reflexivity. assert (T : p_Ek quick = 2) by reflexivity. rewrite X, Y, Z, T. lra.
Qed.
Lemma quick_beta : 0 < p_beta (recalc quick).
Proof.
  assert (X : p_beta (recalc quick) = sqrt (1 - 1 / (p_gamma (recalc quick) * p_gamma (recalc quick)))) by reflexivity.
  rewrite X, gamma_quick. apply sqrt_lt_R0. lra.
Qed.
Lemma mid_six : mid_gamma slow (recalc quick) = 5 / 2.
Proof. unfold mid_gamma. rewrite gamma_slow, gamma_quick. lra. Qed.
Lemma wave_six x : 0 < wave_length (loaded6 x).
Proof. unfold wave_length. change (cv_f (loaded6 x)) with 1. lra. Qed.
Lemma midb_six : 0 < mid_beta slow (recalc quick).
Proof. unfold mid_beta. pose proof slow_beta. pose proof quick_beta. lra. Qed.
Lemma shrinks6 : added_energy (loaded6 d361) slow slow (recalc quick) 1 < 0.
Proof.
  unfold added_energy. cbn [cv_phi loaded6]. rewrite num6_phi, cos_neg, sin_neg, cos_acos by lra. rewrite sin_acos by lra.
  set (s := sqrt _). assert (HS : 9 / 10 < s).
  { unfold s. apply Rsqr_incrst_0; [rewrite Rsqr_sqrt|..]; unfold Rsqr; try lra. apply sqrt_pos. }
  assert (G := mid_six).
  rewrite G. set (k := 2 * PI / (mid_beta slow (recalc quick) * wave_length (loaded6 d361))).
  assert (B := midb_six). assert (WL := wave_six d361).
  assert (K : k <> 0).
  { unfold k, Rdiv. apply Rmult_integral_contrapositive_currified; [pose proof PI_neq0; lra|]. apply Rinv_neq_0_compat, Rmult_integral_contrapositive_currified; lra. }
  assert (V : voltage (loaded6 d361) slow slow (recalc quick) = 100).
  { unfold voltage. cbn [cv_phi loaded6]. rewrite num6_phi, cos_neg, cos_acos by lra. destruct (Rlt_dec _ (1 / 100)) as [_|N]; [|exfalso; lra].
    destruct (Rlt_dec (1 / 100) (1 / 10000)) as [N|_]; [exfalso; lra|]. rewrite gain_quick. change (p_Z slow) with 1. lra. }
  assert (F : focusing (loaded6 d361) slow slow (recalc quick) <> 0).
  { unfold focusing. rewrite V, G. change (p_Z slow) with 1. rewrite Rabs_R1. change (p_Es slow) with 1. unfold Rdiv.
    rewrite gamma_quick. pose proof PI_neq0. pose proof quick_beta. clear k K V G. revert B WL.
    generalize (mid_beta slow (recalc quick)) (wave_length (loaded6 d361)). intros mb wl B WL.
    apply Rmult_integral_contrapositive_currified; [nra|]. apply Rinv_neq_0_compat.
    repeat apply Rmult_integral_contrapositive_currified; try lra; apply pow_nonzero, Rmult_integral_contrapositive_currified; lra. }
  set (q := 2 * _ * _ * _ * _ / _). assert (Q : q <> 0).
  { unfold q. change (p_Es slow) with 1. revert F K. generalize (focusing (loaded6 d361) slow slow (recalc quick)) k. clear. intros F k HF HK.
    replace (2 * F * (5 / 2) ^ 2 * 1 * (1 / k) / (1000000 / ((5 / 2 - 1) * 1))) with (F * / k * (75 / 4000000)) by (field; lra).
    apply Rmult_integral_contrapositive_currified; [|lra]. apply Rmult_integral_contrapositive_currified; [exact HF|apply Rinv_neq_0_compat, HK]. }
  assert (Q2 : 0 < q ^ 2) by (assert (Y := Rsqr_pos_lt _ Q); unfold Rsqr in Y; lra). clearbody q s. assert (Y : (1 / 100) ^ 2 / 8 + 1 * - s / 576 < 0) by lra. nra.
Qed.

Lemma C65_longitudinal_refuted_w : exists w files ec cv ref a b m x gx gy gz,
  load_cavity w files ec = Ok cv /\ cv_eg cv <> 0%N /\ moving a /\ moving b /\
  w_cav_growth (with_cavities w files) ec ref (recalc a) (recalc b) m x = (gx, gy, gz) /\
  (0 < m 1%nat 1%nat /\ 0 < m 3%nat 3%nat /\ 0 < m 4%nat 4%nat /\ 0 < m 5%nat 5%nat) /\ 0 < gz < 1.
Proof.
  set (e := added_energy (loaded6 d361) slow slow (recalc quick) 1). assert (E := shrinks6). fold e in E.
  set (m := fun i j : nat => if Nat.eqb i j then match i with 5%nat => 1 - e | _ => 1 end else 0).
  destruct (growth_factors (loaded6 d361) slow slow (recalc quick) m (1, 0, 1, 0)) as [[gx gy] gz] eqn:GF.
  exists (world0 num6 true), files5, (cavity6 d361), (loaded6 d361), slow, slow, quick, m, (1, 0, 1, 0), gx, gy, gz.
  split; [apply load6|]. split; [discriminate|]. split; [apply slow_moving|]. split; [unfold moving; cbn; repeat split; lra|].
  split; [unfold with_cavities; cbn [w_cav_growth]; rewrite load6; exact GF|].
  split; [cbn; repeat split; lra|].
  destruct (growth_ok _ _ _ _ _ _ _ _ _ _ _ _ GF) as (_ & _ & Z); [cbn; lra|].
  destruct Z as [Z _].
  - cbn. lra.
  - rewrite mid_six. lra.
  - change (p_Es slow) with 1. lra.
  - assert (SQ : sqrt (m 4%nat 4%nat) = 1) by (cbn; apply sqrt_1). rewrite SQ in Z. fold e in Z. change (m 5%nat 5%nat) with (1 - e) in Z.
    destruct Z as [Z1 Z2]; [lra|]. split; [exact Z1|]. destruct (Rlt_dec gz 1) as [L|L]; [exact L|exfalso]. assert (L1 : 1 <= gz) by lra. clear GF. clearbody m e. replace (1 - e + e) with 1 in Z2 by ring. assert (1 <= gz ^ 2) by nra. nra.
Qed.

(** ** Too small a spread of phases *)
Lemma num6_zero : num6 dzero * PI / 180 = 0.
Proof. assert (X : num6 dzero = 0) by reflexivity. rewrite X. lra. Qed.
Lemma focusing6 : focusing (loaded6 dzero) slow slow (recalc quick) <> 0.
Proof.
  assert (V : voltage (loaded6 dzero) slow slow (recalc quick) = 1).
  { unfold voltage. cbn [cv_phi loaded6]. rewrite num6_zero, cos_0. destruct (Rlt_dec _ 1) as [_|N]; [|exfalso; lra].
    destruct (Rlt_dec 1 (1 / 10000)) as [N|_]; [exfalso; lra|]. rewrite gain_quick. change (p_Z slow) with 1. lra. }
  unfold focusing. rewrite V, mid_six, gamma_quick. change (p_Z slow) with 1. rewrite Rabs_R1. change (p_Es slow) with 1. unfold Rdiv.
  pose proof PI_neq0. pose proof quick_beta. pose proof midb_six as B. pose proof (wave_six dzero) as WL. revert B WL.
  generalize (mid_beta slow (recalc quick)) (wave_length (loaded6 dzero)). intros mb wl B WL.
  apply Rmult_integral_contrapositive_currified; [nra|]. apply Rinv_neq_0_compat.
  repeat apply Rmult_integral_contrapositive_currified; try lra; apply pow_nonzero, Rmult_integral_contrapositive_currified; lra.
Qed.
Lemma C65_spread_refuted_w : exists w files ec cv ref a b m x2 y2 gx gy gz,
  load_cavity w files ec = Ok cv /\ cv_eg cv <> 0%N /\ moving a /\ moving b /\
  w_cav_growth (with_cavities w files) ec ref (recalc a) (recalc b) m (x2, 0, y2, 0) = (gx, gy, gz) /\
  (0 < m 1%nat 1%nat /\ 0 < m 3%nat 3%nat /\ 0 < m 4%nat 4%nat /\ 0 < m 5%nat 5%nat /\ 0 < x2) /\
  (exists D, 0 < D /\ variance D (fun d => d) = m 4%nat 4%nat) /\
  forall D, 0 < D -> variance D (fun d => d) = m 4%nat 4%nat ->
    gx ^ 2 * m 1%nat 1%nat < m 1%nat 1%nat + added cv ref (recalc a) (recalc b) D x2.
Proof.
  set (m := fun i j : nat => if Nat.eqb i j then match i with 4%nat => PI ^ 2 / 7 | _ => 1 end else 0).
  assert (PP := PI_RGT_0). assert (P4 := PI_4).
  assert (M44 : m 4%nat 4%nat = PI ^ 2 / 7) by reflexivity. assert (P2 : 0 < PI ^ 2) by (apply pow_lt; exact PP).
  destruct (growth_factors (loaded6 dzero) slow slow (recalc quick) m (1, 0, 1, 0)) as [[gx gy] gz] eqn:GF.
  exists (world0 num6 true), files5, (cavity6 dzero), (loaded6 dzero), slow, slow, quick, m, 1, 1, gx, gy, gz.
  split; [apply load6|]. split; [discriminate|]. split; [apply slow_moving|]. split; [unfold moving; cbn; repeat split; lra|].
  split; [unfold with_cavities; cbn [w_cav_growth]; rewrite load6; exact GF|].
  split; [rewrite M44; cbn; repeat split; lra|].
  split; [exists PI; split; [exact PP|rewrite spread_id; exact (eq_sym M44)]|].
  intros D HD HV. rewrite spread_id, M44 in HV. assert (D = PI) as ->.
  { assert ((D - PI) * (D + PI) = 0) by nra. apply Rmult_integral in H as [H|H]; lra. }
  destruct (growth_ok _ _ _ _ _ _ _ _ _ _ _ _ GF) as (X & _ & _); [rewrite M44; lra|].
  destruct X as [_ X]; [cbn; lra|lra|]. rewrite X. apply Rplus_lt_compat_l. unfold added. cbn [cv_phi loaded6]. rewrite num6_zero.
  assert (F := focusing6). set (f := focusing _ _ _ _) in *. assert (F2 : 0 < f ^ 2) by (assert (Y := Rsqr_pos_lt _ F); unfold Rsqr in Y; lra).
  assert (S7 : sqrt (m 4%nat 4%nat) <> 0). { rewrite M44. assert (0 < sqrt (PI ^ 2 / 7)) by (apply sqrt_lt_R0; lra). lra. }
  assert (A := spread_small _ S7). assert (B := spread_pi).
  assert (C : sqrt (m 4%nat 4%nat) ^ 2 = PI ^ 2 / 7). { rewrite M44. transitivity (sqrt (PI ^ 2 / 7) * sqrt (PI ^ 2 / 7)); [ring|]. apply sqrt_sqrt. lra. }
  rewrite C in A. assert (PI ^ 2 / 7 / 7 < 1 / 2) by nra.
  set (u := variance (sqrt _) _) in *. set (v := variance PI _) in *. clearbody u v f. nra.
Qed.

(** ** The emittances *)
Lemma grow1 g a : 1 <= g -> 0 <= a -> a <= g ^ 2 * a.
Proof. intros. assert (1 <= g ^ 2) by nra. nra. Qed.
Lemma plane_grows (U S' : mat) gx gy gz i : (i = 0 \/ i = 2)%nat -> 1 <= stretch gx gy gz (i + 1) ->
  (forall i k, (i < 7)%nat -> (k < 7)%nat -> S' i k = stretch gx gy gz i * stretch gx gy gz k * U i k) ->
  let area (M : mat) := M i i * M (i + 1)%nat (i + 1)%nat - M i (i + 1)%nat * M (i + 1)%nat i in
  area S' = stretch gx gy gz (i + 1) ^ 2 * area U /\ (0 <= area U -> area U <= area S').
Proof.
  intros [-> | ->] G H area; unfold area; rewrite !H by (cbn; lia); cbn [Nat.add stretch] in *;
    match goal with |- ?A = ?B /\ _ => assert (X : A = B) by ring; split; [exact X|rewrite X; intros PA; apply grow1; assumption] end.
Qed.
Lemma emittance_grows w files ec s f cv : let w' := with_cavities w files in
  sane w' -> goes_through w' ec s f -> is_a "rfcavity" ec -> load_cavity w files ec = Ok cv -> cv_eg cv <> 0%N -> placed_well (w_num w) ec ->
  forall j q v S, nth_error (ms_real s) j = Some q -> nth_error (ms_m0 s) j = Some v -> nth_error (ms_m1 s) j = Some S ->
  exists Tm S', nth_error (ms_tm f) j = Some Tm /\ nth_error (ms_m1 f) j = Some S' /\
    let U := carried_by Tm S in
    forall i, (i = 0 \/ i = 2)%nat -> 0 < U 4%nat 4%nat -> 0 < U (i + 1)%nat (i + 1)%nat -> 0 <= S i i ->
    let area (M : mat) := M i i * M (i + 1)%nat (i + 1)%nat - M i (i + 1)%nat * M (i + 1)%nat i in
    0 <= area U -> area U <= area S'.
Proof.
  intros w' W G HK HL HE HP j q v S Hq Hv HS.
  destruct (cavity_grows w files ec s f cv W G HK HL HE HP j q v S Hq Hv HS) as (q' & Tm & S' & gx & gy & gz & _ & H1 & H2 & H3 & H4).
  exists Tm, S'. split; [exact H1|]. split; [exact H2|]. intros U i Hi U4 Ui Si area. destruct (H4 U4) as (X & Y & _).
  apply (plane_grows U S' gx gy gz i Hi); [|exact H3]. destruct Hi as [-> | ->]; [apply X|apply Y]; assumption.
Qed.
Lemma cavity6_well x : placed_well num6 (cavity6 x).
Proof. unfold placed_well, placing. repeat constructor. Qed.
