(** Fast particles come out; tables that are too narrow; a cavity with two gaps. *)
From Coq Require Import Reals List String Bool NArith ZArith Lia Lra Psatz.
From Verif Require Import SMap Dbl Config_Spec Mat Machine_Model Machine_Spec Machine_Proofs Machine2_Proofs Machine3_Proofs Machine4_Proofs Util_Model Moment_Model
  Moment_Spec Moment_Proofs Moment2_Proofs Moment3_Proofs Moment4_Proofs Moment5_Proofs Moment6_Proofs Cavity_Model Cavity_Spec Cavity_Proofs Cavity2_Proofs
  Cavity3_Proofs Cavity4_Proofs.
From Verif Require Import Cavity5_Proofs Cavity3_Spec.
From Verif Require Import Cavity12_Proofs Cavity13_Proofs Cavity4_Spec.
Import ListNotations.
Open Scope R_scope.
Open Scope string_scope.
Open Scope list_scope.

(** ** Fast particles *)
Lemma track_fast q Es wl h : forall l F E k, Rabs q * total h l < E - Es ->
  forall a b, In (a, b) (track q Es wl h F E k l) -> Es < b.
Proof.
  induction l as [|e l IH]; intros F E k L a b H; [destruct H|]. cbn [track] in H.
  set (E' := E + q * e * cos ((F + (F + k * h)) / 2) * (h / 1000)) in *.
  assert (KB := kick_bound q e ((F + (F + k * h)) / 2) h).
  assert (ED : E' - E = q * e * cos ((F + (F + k * h)) / 2) * (h / 1000)) by (unfold E'; ring). rewrite <- ED in KB.
  assert (TC : total h (e :: l) = Rabs (e * (h / 1000)) + total h l) by reflexivity. rewrite TC, Rmult_plus_distr_l in L.
  assert (L' : Rabs q * total h l < E' - Es). { pose proof (Rle_abs (- (E' - E))) as X. rewrite Rabs_Ropp in X. lra. }
  destruct H as [H|H]; [injection H as <- <-|eapply IH; [exact L'|exact H]].
  pose proof (total_pos h l). pose proof (Rabs_pos q). nra.
Qed.
Lemma in_removelast {A} (x : A) : forall l, In x (removelast l) -> In x l.
Proof.
  induction l as [|y l IH]; [auto|]. destruct l as [|z l]; [intros []|]. intros [->|H]; [left; reflexivity|right; apply IH; exact H].
Qed.
Lemma last_in {A} (d : A) : forall l, l <> [] -> In (last l d) l.
Proof. induction l as [|y l IH]; [congruence|]. intros _. destruct l as [|z l]; [left; reflexivity|right; apply IH; discriminate]. Qed.
Lemma fast_enough a cv p E F scl : enters cv p E -> Rabs (p_Z p * scl) * field_integral cv < E - p_Es p ->
  exists E' F', boost a cv p E F scl = Ok (Some (E', F')) /\ p_Es p < E'.
Proof.
  intros En L. destruct (boost_tracks a cv p E F scl En) as [B _].
  assert (A : forall F' E', In (F', E') (track_in cv p E F scl) -> p_Es p < E') by (apply track_fast; exact L).
  do 2 eexists. split.
  - apply B. intros F' E' H. apply (A F'). apply in_removelast. exact H.
  - cbn [snd]. eapply Rlt_le_trans; [|apply Rmax_r]. destruct (last (track_in cv p E F scl) (F, E)) as [a0 b0] eqn:EL. cbn [snd]. apply (A a0).
    rewrite <- EL. apply last_in. unfold track_in. destruct En as (_ & _ & _ & _ & N).
    destruct (cv_data cv) as [|r1 [|r2 l]]; cbn in N; try lia. cbn. discriminate.
Qed.

(** ** Narrow tables *)
Lemma rwhen_ok A b e (r : res A) x : rwhen b e r = Ok x -> b = false /\ r = Ok x.
Proof. unfold rwhen. destruct b; [discriminate|auto]. Qed.
Lemma wide_rows n (rows : list (list R)) : (Nat.eqb (List.length rows) 0 || negb (forallb (fun r => Nat.leb n (List.length r)) rows))%bool = false -> wide n rows.
Proof.
  intros H. apply orb_false_iff in H. destruct H as [H1 H2]. split.
  - intros ->. discriminate.
  - apply negb_false_iff in H2. rewrite forallb_forall in H2. apply Forall_forall. intros r Hr. apply Nat.leb_le. apply H2. exact Hr.
Qed.
Lemma built_loads w files c x : mom_ctor (with_cavities w files) KRFCavity c = Ok x -> exists cv, load_cavity w files c = Ok cv.
Proof.
  unfold mom_ctor. intros H. repeat (apply rbind_ok in H; destruct H as (?u & ?H & H)).
  match goal with X : rbind (load_cavity w files c) _ = _ |- _ => apply rbind_ok in X; destruct X as (cv & X & _); eauto | X : w_cav_ctor _ _ = _ |- _ => cbn [w_cav_ctor with_cavities] in X; apply rbind_ok in X; destruct X as (cv & X & _); eauto end.
Qed.
Lemma wide_tables w files c x t n : mom_ctor (with_cavities w files) KRFCavity c = Ok x -> tfind "cavtype" c = Some (TStr t) -> In (t, n) named_types ->
  let dir := get_str_def c "Eng_Data_Dir" (w_defpath w) in
  exists axis mlp, cf_table files (dir ++ "/axisData_" ++ n ++ ".txt")%string = Ok axis /\ wide 2 axis /\
    cf_table files (dir ++ "/Multipole" ++ n ++ "/CaviMlp_" ++ n ++ ".txt")%string = Ok mlp /\ wide 7 mlp.
Proof.
  intros H Ht Hn dir. destruct (built_loads _ _ _ _ H) as (cv & L). unfold load_cavity in L.
  apply rbind_ok in L. destruct L as (f & _ & L). apply rbind_ok in L. destruct L as (ph & _ & L). cbv zeta in L.
  apply rbind_ok in L. destruct L as (mp & _ & L). apply rbind_ok in L. destruct L as (eg & _ & L).
  apply rwhen_ok in L. destruct L as [_ L]. apply rwhen_ok in L. destruct L as [_ L].
  unfold get_str at 1 in L. rewrite Ht in L. cbn [rbind] in L.
  assert (CF : exists i, cav_files t = Some (i, ("/axisData_" ++ n ++ ".txt", ("/Multipole" ++ n ++ "/thinlenlon_" ++ n ++ ".txt", "/Multipole" ++ n ++ "/CaviMlp_" ++ n ++ ".txt")))%string).
  { cbn [named_types In] in Hn. destruct Hn as [E|[E|[E|[E|[]]]]]; injection E as <- <-; eexists; reflexivity. }
  destruct CF as [i CF]. rewrite CF in L. fold dir in L.
  apply rbind_ok in L. destruct L as (axis & LA & L). apply rbind_ok in L. destruct L as (mlp & LM & _).
  destruct (cf_table files (dir ++ "/axisData_" ++ n ++ ".txt")%string) as [ax|]; [|discriminate]. apply rwhen_ok in LA. destruct LA as [A1 A2].
  destruct (cf_table files (dir ++ "/Multipole" ++ n ++ "/CaviMlp_" ++ n ++ ".txt")%string) as [ml|]; [|discriminate]. apply rwhen_ok in LM. destruct LM as [M1 M2].
  exists ax, ml. split; [reflexivity|]. split; [apply wide_rows; exact A1|]. split; [reflexivity|]. apply wide_rows. exact M1.
Qed.

(** ** A cavity with two gaps *)
Definition rows5 : list (list R) := map (fun z => z :: repeat 1 7) [-3; -1; 1; 3].
Definition raw5 (t : string) (L : R) : rawp := mkRaw t L 1 [] [].
Definition lat5 : list rawp :=
  [raw5 "drift" 1; raw5 "EFocus1" 0; raw5 "AccGap" 0; raw5 "drift" 4; raw5 "HQuad" 0; raw5 "AccGap" 0; raw5 "drift" 1].
Definition files5 : cavfiles := mkCF (fun _ => Ok rows5) (fun _ => Ok lat5) (fun _ => Ok None).
Definition cavity5 : tcfg :=
  TCfg [("L", TNum done); ("cavtype", TStr "0.041QWR"); ("f", TNum done); ("forcettfcalc", TNum done); ("name", TStr "c");
        ("phi", TNum done); ("scl_fac", TNum done); ("type", TStr "rfcavity")] [].
Definition loaded5 : cavity :=
  mkCav 1 1 (1 * PI / 180) 0 true 2 0 lat5 [(-3, 1); (-1, 1); (1, 1); (3, 1)] rows5 rows5 [] None None None None.
Lemma load5 a : load_cavity (world0 num01 a) files5 cavity5 = Ok loaded5.
Proof.
  assert (X : negb (Reqb (num_def (world0 num01 a) cavity5 "forcettfcalc" 0) 0) = true).
  { change (num_def (world0 num01 a) cavity5 "forcettfcalc" 0) with 1. unfold Reqb. destruct (Req_EM_T 1 0); [lra|reflexivity]. }
  unfold load_cavity. rewrite X. reflexivity.
Qed.
Lemma facts5 b k g : (g = 1 \/ g = 2)%nat -> exists c T, trans_facts loaded5 41 b k g 1 = Ok (mkTTF c T 0 0 0 (2 / 1000000000)) /\ (T = 1 \/ T = -1).
Proof.
  intros G. unfold trans_facts. cbn [cv_force loaded5]. unfold cal_transfac.
  change (Nat.eqb (List.length (cv_axis loaded5)) 0 || negb (forallb (fun r => Nat.ltb (2 - 1) (List.length r)) (cv_axis loaded5)))%bool with false.
  cbv iota zeta. change (List.length (cv_axis loaded5)) with 4%nat. change (4 / 2)%nat with 2%nat. cbn [Nat.eqb].
  cbn [cv_axis loaded5 rows5 map nth firstn fst Nat.sub repeat app pairwise combine tl fold_left INR].
  unfold pairwise. cbn [combine tl fold_left].
  rewrite Rabs_R1. replace (-1 - -3) with 2 by lra. replace (-3 - -3) with 0 by lra.
  replace (0 + (1 + 1) / 2 * (2 / 1)) with 2 by lra. replace (0 + (0 + 2) / 2 * (1 + 1) / 2 * (2 / 1)) with 2 by lra.
  replace (0 - 2 / 2) with (-1) by lra. replace (2 - 2 / 2) with 1 by lra. replace (-1 + 1) with 0 by lra. replace (k * 0 / 2) with 0 by lra.
  rewrite cos_0, sin_0. destruct (Req_EM_T 2 0); [lra|].
  assert (V : 2 / MeVtoeV / MtoMM * 1 = 2 / 1000000000) by (unfold MeVtoeV, MtoMM; lra).
  destruct G as [->| ->]; unfold scale_V0; cbn [Nat.eqb rbind t_Ecen t_T t_Tp t_S t_Sp t_V0]; do 2 eexists; (split; [rewrite V; f_equal; f_equal|]).
  all: try reflexivity; try lra.
Qed.
Lemma eqs (a b : string) : a = b -> String.eqb a b = true.
Proof. intros ->. apply String.eqb_refl. Qed.
Lemma multi5 name k col : get_column name = Ok col -> exists x, transit_multipole loaded5 name k = Ok x.
Proof.
  intros H. unfold transit_multipole. cbn [cv_force loaded5]. rewrite H. cbn [rbind].
  assert (C : (2 <= col <= 8)%nat).
  { unfold get_column in H. repeat match type of H with (if ?b then _ else _) = _ => destruct b; [injection H as <-; lia|] end. discriminate H. }
  assert (D : exists c, col = S (S c) /\ (c <= 6)%nat) by (destruct col as [|[|c]]; [lia|lia|exists c; split; [reflexivity|lia]]).
  destruct D as (c & -> & Hc). unfold cal_transfac.
  assert (X : forall z, nth (S (S c) - 1) (z :: repeat 1 7) 0 = 1) by (intros z; do 7 (destruct c as [|c]; [reflexivity|]); lia).
  assert (Y : (Nat.eqb (List.length (cv_mlp loaded5)) 0 || negb (forallb (fun r => Nat.ltb (S (S c) - 1) (List.length r)) (cv_mlp loaded5)))%bool = false).
  { do 7 (destruct c as [|c]; [reflexivity|]). lia. }
  rewrite Y. cbv iota zeta. change (List.length (cv_mlp loaded5)) with 4%nat. cbn [Nat.eqb].
  change (cv_mlp loaded5) with [-3 :: repeat 1 7; -1 :: repeat 1 7; 1 :: repeat 1 7; 3 :: repeat 1 7]. cbn [map]. rewrite !X. cbn [firstn].
  match goal with |- context [Req_EM_T ?e 0] => assert (E : e = 6) end.
  { unfold pairwise. cbn [map combine tl fold_left nth fst Nat.sub INR]. rewrite Rabs_R1. lra. }
  match goal with |- context [Req_EM_T ?e 0] => destruct (Req_EM_T e 0) as [Q|_] end.
  { rewrite E in Q. lra. }
  cbn [Nat.eqb rbind]. eauto.
Qed.
Lemma gap5 W0 p Fy0 k lam c T : p_Es p = 1 -> p_Z p = 1 -> 1.9 < W0 -> (T = 1 \/ T = -1) ->
  exists W F, eval_gap 3 W0 p Fy0 k lam (mkTTF c T 0 0 0 (2 / 1000000000)) = Ok (W, F) /\ W0 - 0.01 < W.
Proof.
  intros E Z L HT. unfold eval_gap. rewrite E, Z. cbn [t_Ecen t_T t_Tp t_S t_Sp t_V0]. set (a := Fy0 + k * c).
  pose proof (COS_bound a). set (W := _ - _).
  assert (HW : W0 - 0.01 < W). { unfold W, MeVtoeV. destruct HT as [->| ->]; nra. }
  destruct (beta4 (W / 1)) as [b B]; [lra|]. rewrite B. cbn [rbind].
  unfold fdiv. match goal with |- context [Req_EM_T ?e 0] => destruct (Req_EM_T e 0) as [Q|_] end.
  { unfold MeVtoeV in Q. lra. }
  cbn [rbind]. do 2 eexists. split; [reflexivity|exact HW].
Qed.
Lemma beta5 W : 1 < W -> exists b, beta_of (W / 1) = Ok b.
Proof. intros H. apply beta4. lra. Qed.
Lemma matrix5 w p Fy0 : p_Es p = 1 -> p_Z p = 1 -> exists M, cav_matrix w loaded5 41 17 p 1 Fy0 1 = Ok M.
Proof.
  intros E Z. unfold cav_matrix. rewrite E. change (List.length (cv_data loaded5)) with 4%nat. cbn [Nat.eqb Nat.sub].
  assert (D : (fst (nth 3 (cv_data loaded5) (0, 0)) - fst (nth 0 (cv_data loaded5) (0, 0))) / 2 = 3) by (cbn; lra). rewrite D.
  destruct (beta5 (1 + 1)) as [b0 B0]; [lra|]. rewrite B0. cbn [rbind].
  edestruct (facts5 b0) as (c1 & T1 & X1 & S1); [left; reflexivity|]. rewrite X1. cbn [rbind].
  edestruct (gap5 (1 + 1) p) as (W1 & F1 & Y1 & L1); [exact E|exact Z|lra|exact S1|]. rewrite Y1. cbn [rbind].
  destruct (beta5 W1) as [b1 B1]; [lra|]. rewrite B1. cbn [rbind].
  edestruct (facts5 b1) as (c2 & T2 & X2 & S2); [right; reflexivity|]. rewrite X2. cbn [rbind].
  edestruct (gap5 W1 p) as (W2 & F2 & Y2 & L2); [exact E|exact Z|lra|exact S2|]. rewrite Y2. cbn [rbind].
  destruct (beta5 W2) as [b2 B2]; [lra|]. rewrite B2. cbn [rbind].
  set (b := tab3 b0 b1 b2). set (g := tab3 _ _ _). set (k := tab3 _ _ 0).
  assert (P : exists lines, cav_params loaded5 b g k = Ok lines /\ List.length lines = 7%nat).
  { unfold cav_params. change (cv_lat loaded5) with lat5. change (cv_data loaded5) with [(-3, 1); (-1, 1); (1, 1); (3, 1)]. unfold lat5. cbv iota.
    cbn [params_loop]. unfold params_step. cbn [raw5 r_type r_len r_E0 String.eqb Ascii.eqb Bool.eqb].
    change (N.ltb (cv_mp loaded5) 0) with false. change (N.ltb (cv_mp loaded5) 2) with false. cbn [rbind].
    destruct (Rlt_dec (-3 + 1 + 0) 0) as [_|N]; [|lra].
    destruct (multi5 "CaviMlp_EFocus2" (k 0%nat) _ eq_refl) as [[u1 u2] U]. rewrite U. cbn [rbind].
    destruct (Rlt_dec (-3 + 1 + 0 + 0 + 4 + 0) 0) as [N|_]; [lra|].
    destruct (multi5 "CaviMlp_HQuad" (k 1%nat) _ eq_refl) as [[v1 v2] V]. rewrite V. cbn [rbind].
    eexists. split; reflexivity. }
  destruct P as (lines & P & LL). rewrite P. cbn [rbind]. unfold two_gap_matrix.
  change (cv_lat loaded5) with lat5. change (cv_data loaded5) with [(-3, 1); (-1, 1); (1, 1); (3, 1)]. unfold lat5. cbv iota zeta.
  destruct lines as [|l1 [|l2 [|l3 [|l4 [|l5 [|l6 [|l7 [|l8 lines]]]]]]]]; try discriminate. cbn [combine two_loop].
  unfold two_step. cbn [raw5 r_type r_len r_E0 String.eqb Ascii.eqb Bool.eqb].
  change (N.ltb (cv_mp loaded5) 0) with false. change (N.ltb (cv_mp loaded5) 2) with false. cbn [rbind on_two h_seg Nat.ltb Nat.leb].
  destruct (Rlt_dec (-3 + 1 + 0 + 0 + 4 + 0) 0) as [N|_]; [lra|].
  match goal with |- context [Req_EM_T ?e 0] => destruct (Req_EM_T e 0) as [Q|_] end.
  { unfold g in Q. cbn [tab3] in Q. lra. }
  cbn [rbind h_seg Nat.ltb Nat.leb]. eauto.
Qed.
Lemma enough5 : enters loaded5 slow 2 /\ Rabs (p_Z slow * 1) * field_integral loaded5 < 2 - p_Es slow.
Proof.
  split; [apply slow_enters; [cbn; lra|cbn; lia]|].
  change (p_Z slow) with 1. change (p_Es slow) with 1. rewrite Rmult_1_r, Rabs_R1.
  unfold field_integral. cbn.
  assert (ST : step_of [(-3, 1); (-1, 1); (1, 1); (3, 1)] = 2) by (unfold step_of; cbn; lra). rewrite ST, Rabs_pos_eq by lra. lra.
Qed.
Lemma one5 a phi T : exists p', snd (w_cav_one (with_cavities (world0 num01 a) files5) cavity5 phi slow T) = Ok p'.
Proof.
  unfold with_cavities. cbn [w_cav_one]. rewrite load5. unfold init_cav.
  change (label_of (cv_cavi loaded5)) with (Ok (41%nat, 17)). cbn [rbind]. destruct (Req_EM_T (p_freq slow) 0) as [E|_]; [cbn in E; lra|].
  change (num_of (world0 num01 a) cavity5 "scl_fac") with (Ok 1). cbn [rbind].
  assert (PE : p_Ek slow + p_Es slow = 2) by (cbn; lra). rewrite PE.
  destruct (fast_enough (w_asserts (world0 num01 a)) loaded5 slow 2 (cv_f loaded5 / p_freq slow * p_phis slow + phi) 1 (proj1 enough5) (proj2 enough5)) as (E' & F' & X & _).
  rewrite X. cbn [rbind]. change (Nat.ltb 0 (cv_cavi loaded5)) with true. cbv iota.
  set (q := boosted slow E' _ _). edestruct (matrix5 (world0 num01 a) q) as [M G]; [reflexivity|reflexivity|].
  change (p_Ek slow) with 1. rewrite G. cbn [rbind snd]. eauto.
Qed.
Lemma halves5 : gap_halves (cv_lat loaded5) (fst (hd (0, 0) (cv_data loaded5))) = [true; false].
Proof.
  cbn. unfold is_ahead. destruct (Rlt_dec (-3 + 1 + 0 + 0) 0) as [_|N]; [|lra]. destruct (Rlt_dec (-3 + 1 + 0 + 0 + 4 + 0 + 0) 0) as [N|_]; [lra|]. reflexivity.
Qed.
