(** Charge strippers. *)
From Coq Require Import Reals List String Bool NArith ZArith Arith Lia Lra.
From Verif Require Import SMap SMap_Proofs Dbl Config_Spec Mat Mat_Proofs Machine_Model Machine_Spec Machine_Proofs
  Machine2_Proofs Machine4_Proofs Linear_Model Linear_Spec.
From Verif Require Import Moment_Model Moment_Spec Motion_Spec Strip_Spec Moment_Proofs Moment2_Proofs Moment3_Proofs Moment4_Proofs
  Moment5_Proofs Moment6_Proofs Motion_Proofs Motion3_Proofs Motion5_Proofs Round2_Proofs.
Import ListNotations.
Open Scope R_scope.
Open Scope string_scope.
Open Scope list_scope.

(** ** Sums *)
Lemma sum_cells s f : (forall p v m, f (recalc p) v m = f p v m) ->
  rsum (map (fun '(p, (v, m)) => p_Q p * f p v m) (cells (map recalc (ms_real s)) (ms_m0 s) (ms_m1 s))) = sum_states s f.
Proof.
  intros H. rewrite rsum_right. unfold sum_states, cells. generalize (combine (ms_m0 s) (ms_m1 s)). induction (ms_real s) as [|p l IH]; intros [|[v m] x]; simpl; auto.
  rewrite IH, H. reflexivity.
Qed.
Lemma cells_project {A} (g : particle -> A) : forall real (m0 : list vec) (m1 : list mat), List.length m0 = List.length real -> List.length m1 = List.length real ->
  map (fun '(p, (_, _)) => g p) (combine real (combine m0 m1)) = map g real.
Proof.
  induction real as [|p l IH]; intros [|v m0] [|m m1] L0 L1; simpl in *; try discriminate; auto. rewrite IH; auto.
Qed.
Lemma cells_project2 {A} (g : particle -> vec -> A) : forall real (m0 : list vec) (m1 : list mat), List.length m0 = List.length real -> List.length m1 = List.length real ->
  map (fun '(p, (v, _)) => g p v) (combine real (combine m0 m1)) = map (fun '(p, v) => g p v) (combine real m0).
Proof.
  induction real as [|p l IH]; intros [|v m0] [|m m1] L0 L1; simpl in *; try discriminate; auto. rewrite IH; auto.
Qed.
Lemma sum_real s (g : particle -> R) : aligned s -> (forall p, g (recalc p) = g p) ->
  rsum (map (fun p => p_Q p * g p) (map recalc (ms_real s))) = sum_states s (fun p _ _ => g p).
Proof.
  intros (_ & L0 & L1 & _) H. rewrite rsum_right. unfold sum_states.
  cbv beta.
  rewrite (cells_project (fun p => p_Q p * g p)) by auto. rewrite map_map. f_equal. apply map_ext. intros p. rewrite H. reflexivity.
Qed.
Lemma sum_total s : aligned s -> total_charge (map recalc (ms_real s)) = sum_states s (fun _ _ _ => 1).
Proof.
  intros A. rewrite <- (sum_real s (fun _ => 1) A) by auto. unfold total_charge. f_equal. apply map_ext. intros p. ring.
Qed.
Lemma sum_env s i : aligned s ->
  rsum (map (fun '(p, v) => v i * p_Q p) (combine (map recalc (ms_real s)) (ms_m0 s))) = sum_states s (fun _ u _ => u i).
Proof.
  intros (_ & L0 & L1 & _). rewrite rsum_right. unfold sum_states.
  cbv beta.
  rewrite (cells_project2 (fun p (v : vec) => p_Q p * v i)) by auto.
  clear L0 L1. revert s. intros s. generalize (ms_m0 s). induction (ms_real s) as [|p l IH]; intros [|v m0]; simpl; auto. rewrite IH. simpl. ring.
Qed.
Lemma averages_div s f x : sum_states s (fun _ _ _ => 1) <> 0 -> x = sum_states s f / sum_states s (fun _ _ _ => 1) -> averages s f x.
Proof. intros H ->. split; [exact H|]. field. exact H. Qed.
Lemma averages_only s f x y : averages s f x -> averages s f y -> x = y.
Proof. intros [H1 H2] [_ H3]. apply (Rmult_eq_reg_l (sum_states s (fun _ _ _ => 1))); congruence. Qed.

(** ** Growth *)
Lemma growth_inv x y g : growth_rate x y = Ok g -> 0 <= g /\ g * g * x = y.
Proof.
  unfold growth_rate. destruct (Req_EM_T x 0); [discriminate|]. destruct (Rlt_dec (y / x) 0); [discriminate|].
  intros H. apply (f_equal (fun r => match r with Ok a => a | Throw _ => g end)) in H. subst g. split; [apply sqrt_pos|].
  rewrite sqrt_sqrt by lra. field. auto.
Qed.
Lemma grown_at g gx gy M i j : (i < 7)%nat -> (j < 7)%nat ->
  grow2 gx gy (grow1 5 g M) i j = if (Nat.ltb i 6 && Nat.ltb j 6)%bool then dvec gx gy g i * dvec gx gy g j * M i j else M i j.
Proof.
  intros Hi Hj. rewrite grow2_mul, grow1_mul. cbn [fold_left].
  do 7 (destruct i as [|i]; [do 7 (destruct j as [|j]; [rewrite !mulat_at; cbv [fac dvec Nat.eqb andb Nat.ltb Nat.leb]; ring|]); lia|]); lia.
Qed.

Section W.
Variable w : world.
Notation num := (w_num w).
Lemma at_ok l i x : at_ l i = Ok x -> nth_error l i = Some x.
Proof. unfold at_. destruct (nth_error l i); congruence. Qed.
Lemma vec_def_at c n d : vec_def w c n d = match vec_at c n with Some l => map num l | None => d end.
Proof. unfold vec_def, vec_at. destruct (tfind n c) as [[]|]; reflexivity. Qed.
Lemma str_def_at c n d : get_str_def c n d = str_at c n d.
Proof. reflexivity. Qed.
Lemma recalc_beta' p : p_Es p <> 0 -> p_beta (recalc p) = beta_of p.
Proof.
  intros H. unfold beta_of, gamma_of, recalc. cbn [p_beta]. destruct (Req_EM_T (p_Es p) 0); [contradiction|].
  replace ((p_Es p + p_Ek p) / p_Es p) with (1 + p_Ek p / p_Es p) by (field; auto). reflexivity.
Qed.
Lemma gaussian_baron c p z a : 
  charge_stripper (real_at num c "Stripper_IonProton" 92) (real_at num c "Stripper_IonMass" 238) (p_beta (recalc p)) (map num z) = Ok a ->
  List.length a = List.length z /\ forall k y q, nth_error z k = Some y -> nth_error a k = Some q -> baron num c (p_beta (recalc p)) (num y) q.
Proof.
  unfold charge_stripper. destruct (Rle_dec _ 0) as [|NP]; [discriminate|]. unfold stripper_charge. cbv beta zeta iota.
  set (Z := real_at num c "Stripper_IonProton" 92). set (A := real_at num c "Stripper_IonMass" 238).
  set (q1 := Z * _). set (dd := q1 * _). set (mean := q1 * _). destruct (Rle_dec (sqrt dd) 0) as [|ND]; [discriminate|].
  intros H. apply (f_equal (fun r => match r with Ok x => x | Throw _ => a end)) in H. subst a. split; [rewrite !map_length; reflexivity|].
  intros k y q Hy Hq. rewrite (map_nth_error _ _ _ (map_nth_error num _ _ Hy)) in Hq. apply some_eq in Hq. subst q.
  assert (DP : 0 < dd). { destruct (Rlt_dec 0 dd); auto. exfalso. apply ND. rewrite sqrt_neg_0 by lra. lra. }
  unfold baron. cbv zeta. fold Z A. exists (sqrt dd). split; [lra|].
  assert (E1 : Z * (1 - exp (- (83275 / 1000) * p_beta (recalc p) / Rpower Z (447 / 1000))) = q1).
  { unfold q1. do 3 f_equal. unfold Rdiv. ring. }
  rewrite E1. assert (E2 : q1 * (1 - exp (- (12905 / 1000) + 2124 / 10000 * Z - 122 / 100000 * (Z * Z))) = mean) by reflexivity. rewrite E2.
  split; [rewrite sqrt_sqrt by lra; reflexivity|]. unfold gaussian, sqr. rewrite !sqrt_sqrt by lra.
  pose proof PI_RGT_0. assert (0 < sqrt (2 * PI)) by (apply sqrt_lt_R0; lra).
  match goal with |- _ * exp ?x * _ = exp ?y => replace x with y by (field; lra) end. field. lra.
Qed.
Lemma add_xy u l : 0 <= u -> l <> 0 -> sqr (sqrt (u / sqr l) * (1 / 1000)) * (l * l) = u / 1000000.
Proof.
  intros Hu Hl. unfold sqr. assert (0 <= u / (l * l)). { apply Rle_mult_inv_pos; auto. nra. }
  replace (sqrt (u / (l * l)) * (1 / 1000) * (sqrt (u / (l * l)) * (1 / 1000))) with (sqrt (u / (l * l)) * sqrt (u / (l * l)) / 1000000) by field.
  rewrite sqrt_sqrt by auto. field. auto.
Qed.
Lemma add_z a b c : sqr (sqrt (1 / 3) * a / 100 * b * c) = (a / 100 * b * c) * (a / 100 * b * c) / 3.
Proof.
  unfold sqr. replace (sqrt (1 / 3) * a / 100 * b * c * (sqrt (1 / 3) * a / 100 * b * c)) with (sqrt (1 / 3) * sqrt (1 / 3) * ((a / 100 * b * c) * (a / 100 * b * c))) by field.
  rewrite sqrt_sqrt by lra. field.
Qed.

Lemma stripper_does c s s' : aligned s -> advance_stripper w c false s = Ok s' -> stripped num c s s'.
Proof.
  intros A H. unfold advance_stripper in H. apply rbind_ok in H as (s1 & H1 & H).
  apply calc_rms_ok in H1 as (K1 & K2 & K3 & K4 & K5 & _ & _ & K6 & _).
  cbn [ms_recalc ms_pos ms_ref ms_real ms_m0 ms_m1] in *.
  unfold stripper_getmat in H.
  apply rbind_ok in H as (zs & C1 & H). apply get_vec_ok in C1. apply rbind_ok in H as (qs & C2 & H). apply get_vec_ok in C2.
  cbv zeta in H. rewrite str_def_at in H. set (mdl := str_at c "charge_model" "baron") in *.
  destruct (_ && _)%bool eqn:B1 in H; [discriminate|]. destruct (negb (_ || _)%bool) eqn:B2 in H; [discriminate|].
  apply rbind_ok in H as (amount & CA & H). destruct (_ || _)%bool in H; [discriminate|].
  apply rbind_ok in H as (a0 & P0 & H). apply rbind_ok in H as (a1 & P1 & H). apply rbind_ok in H as (a2 & P2 & H).
  apply rbind_ok in H as (b0 & Q0 & H). apply rbind_ok in H as (b1 & Q1 & H). apply rbind_ok in H as (b2 & Q2 & H).
  destruct (Req_EM_T _ 0) as [|TN]; [discriminate|]. destruct (Req_EM_T _ 0) as [|LN]; [discriminate|]. destruct (Rlt_dec _ 0) as [|UN]; [discriminate|].
  apply rbind_ok in H as (g & G1 & H). apply rbind_ok in H as (gx & G2 & H). apply rbind_ok in H as (gy & G3 & H).
  apply at_ok in P0, P1, P2, Q0, Q1, Q2. rewrite vec_def_at in P0, P1, P2, Q0, Q1, Q2.
  rewrite <- !real_at_def in *. rewrite K3 in *. rewrite K4, K5 in *. rewrite K2 in *. rewrite K1 in *.
  rewrite sum_total in * by auto. set (tot := sum_states s (fun _ _ _ => 1)) in *.
  rewrite !grow1_diag in * by lia.
  match type of G1 with growth_rate ?x _ = _ => match x with ?t 5%nat 5%nat => idtac | _ => idtac end end.
  match type of H with context [grow1 5 g ?M] => set (tmp := M) in * end.
  match type of G1 with growth_rate ?x _ = _ => change x with (tmp 5%nat 5%nat) in G1 end.
  apply growth_inv in G1 as [G1 G1'], G2 as [G2 G2'], G3 as [G3 G3'].
  assert (EV : forall i, averages s (fun _ u _ => u i) (ms_env0 s1 i)).
  { intros i. apply averages_div; [exact TN|]. rewrite K6. unfold env0_of. rewrite sum_total, sum_env by auto. reflexivity. }
  assert (PO : pooled s (ms_env0 s1) tmp).
  { intros i j _ _. apply averages_div; [exact TN|]. unfold tmp. rewrite <- sum_cells by auto. reflexivity. }
  apply calc_rms_ok in H as (R1 & R2 & R3 & R4 & R5 & R6 & _). cbn [ms_pos ms_ref ms_real ms_m0 ms_m1 ms_tm] in R1, R2, R3, R4, R5, R6.
  assert (LA : List.length amount = List.length zs /\ forall k z q, nth_error zs k = Some z -> nth_error amount k = Some q -> weighs num c s zs qs k q).
  { unfold weighs. destruct (String.eqb_spec mdl "off") as [EO|NO].
    - cbn [andb] in B1. apply negb_false_iff, Nat.eqb_eq in B1.
      apply (f_equal (fun r => match r with Ok x => x | Throw _ => amount end)) in CA. subst amount. rewrite map_length. split; [auto|].
      intros k z q Hz Hq. left. split; [exact EO|]. split; [auto|].
      destruct (nth_ex qs k _ (eq_sym B1) (nth_lt _ _ _ Hz)) as [y Hy].
      exists y. split; [exact Hy|]. rewrite (map_nth_error num _ _ Hy) in Hq. congruence.
    - cbn [orb] in B2. apply negb_false_iff, String.eqb_eq in B2.
      destruct A as (A1 & _). destruct (ms_real s) as [|p ps] eqn:EP; [congruence|]. cbn [map] in CA.
      destruct (gaussian_baron _ _ _ _ CA) as [L1 L2]. split; [exact L1|]. intros k z q Hz Hq. right. split; [exact B2|].
      exists z, p. split; [exact Hz|]. split; [reflexivity|]. exists (p_beta (recalc p)). split; [apply recalc_beta'|]. eapply L2; eauto. }
  destruct LA as [LA WA].
  assert (LR : List.length (ms_real s') = List.length zs).
  { rewrite R3, map_length, combine_length, map_length. lia. }
  exists zs, qs, (ms_env0 s1), tmp, (grow2 gx gy (grow1 5 g tmp)).
  split; [exact C1|]. split; [exact C2|]. split; [exact R1|].
  split. { rewrite R2. cbv zeta. repeat (split; [reflexivity|]). split; [|apply kinematic_recalc].
    exists a2, b0, b1. repeat (split; [assumption|]). change ((p_Ek (ms_ref s) - a2) * b1 + b0 = b0 + b1 * (p_Ek (ms_ref s) - a2)). ring. }
  split; [intros; apply EV|]. split; [exact PO|].
  split. { exists (dvec gx gy g). split; [|split; [|split]].
    - intros i Hi. destruct i as [|[|[|[|[|[|i]]]]]]; [..|lia]; cbn [dvec added].
      + split; [lra|]. exists 0. split; [reflexivity|ring].
      + split; [exact G2|]. eexists. split; [split; [exact LN|apply add_xy; auto; lra]|]. exact G2'.
      + split; [lra|]. exists 0. split; [reflexivity|ring].
      + split; [exact G3|]. eexists. split; [split; [exact LN|apply add_xy; auto; lra]|]. exact G3'.
      + split; [lra|]. exists 0. split; [reflexivity|ring].
      + split; [exact G1|]. eexists. split; [exists a0, a1, b2; repeat (split; [assumption|]); reflexivity|].
        rewrite G1'. rewrite add_z. unfold sqr. ring.
    - intros i Hi. destruct i as [|[|[|[|[|[|i]]]]]]; [..|lia]; try discriminate; reflexivity.
    - intros i j Hi Hj. rewrite grown_at by lia. rewrite (proj2 (Nat.ltb_lt i 6)), (proj2 (Nat.ltb_lt j 6)) by auto. reflexivity.
    - intros i Hi. rewrite !grown_at by lia. rewrite Nat.ltb_irrefl, andb_false_r. auto. }
  split; [exact LR|]. split; [rewrite R4, map_length, <- R3; exact LR|]. split; [rewrite R5, map_length, <- R3; exact LR|].
  split; [rewrite R6, map_length, <- R3; exact LR|].
  intros k z Hz. destruct (nth_ex amount k _ LA (nth_lt _ _ _ Hz)) as [q Hq].
  assert (HP : exists p, nth_error (ms_real s') k = Some p /\ p = recalc (mkP (num z) q (p_Es (ms_ref s)) 0 0 0 0 (p_freq (ms_ref s)) 0 0
    (rsum (map (fun p => p_Q p * p_phis p) (map recalc (ms_real s))) / tot)
    ((rsum (map (fun p => p_Q p * p_Ek p) (map recalc (ms_real s))) / tot - a2) * b1 + b0))).
  { eexists. split; [|reflexivity]. rewrite R3. erewrite map_nth_error; [|apply nth_combine; [apply map_nth_error; exact Hz|exact Hq]]. reflexivity. }
  destruct HP as (p & HP & EP). rewrite !sum_real in EP by auto.
  assert (N : forall {X} (x : X), nth_error (map (fun _ : particle => x) (ms_real s')) k = Some x) by (intros X x; exact (map_nth_error _ _ _ HP)).
  exists p, (ms_env0 s1), (grow2 gx gy (grow1 5 g tmp)), mid. rewrite R4, R5, R6. rewrite <- R3.
  split; [exact HP|]. split; [apply N|]. split; [apply N|]. split; [apply N|].
  assert (F1 : p_Z p = num z) by (rewrite EP; reflexivity). assert (F2 : p_Q p = q) by (rewrite EP; reflexivity).
  assert (F3 : p_Es p = p_Es (ms_ref s)) by (rewrite EP; reflexivity). assert (F4 : p_freq p = p_freq (ms_ref s)) by (rewrite EP; reflexivity).
  split; [exact F1|]. split; [rewrite F2; eapply WA; eauto|]. split; [exact F3|]. split; [exact F4|].
  split; [apply averages_div; [exact TN|]; rewrite EP; reflexivity|].
  split. { eexists. split; [apply averages_div; [exact TN|reflexivity]|]. exists a2, b0, b1. repeat (split; [assumption|]).
    rewrite EP. unfold recalc at 1. cbn [p_Ek]. fold tot. ring. }
  split; [rewrite EP; apply kinematic_recalc|]. split; [reflexivity|]. split; reflexivity.
Qed.

Lemma at_listed c n l i x : listed num c n l i x -> at_ (vec_def w c n l) i = Ok x.
Proof. unfold listed, at_. rewrite vec_def_at. intros ->. reflexivity. Qed.
Lemma stripper_completes c s : aligned s -> foil_fine num c s -> spread_out s -> exists s', advance_stripper w c false s = Ok s'.
Proof.
  intros A (zs & qs & C1 & C2 & NE & HM & HP & HL & HU) [TN SP]. unfold advance_stripper.
  assert (A' : aligned (ms_recalc s)).
  { destruct A as (A1 & A2 & A3 & A4). unfold aligned, ms_recalc. cbn [ms_real ms_m0 ms_m1 ms_tm]. rewrite !map_length. repeat split; auto.
    destruct (ms_real s); [congruence|discriminate]. }
  destruct (calc_rms_aligned w _ A') as (s1 & H1 & A1). pose proof (calc_rms_ok _ _ _ H1) as (K1 & K2 & K3 & K4 & K5 & _ & _ & K6 & _).
  cbn [ms_recalc ms_pos ms_ref ms_real ms_m0 ms_m1] in *.
  rewrite H1. cbn [rbind]. unfold stripper_getmat. rewrite (proj2 (get_vec_ok _ _ _) C1), (proj2 (get_vec_ok _ _ _) C2). cbn [rbind]. cbv zeta.
  rewrite str_def_at. set (mdl := str_at c "charge_model" "baron") in *.
  assert (B1 : (String.eqb mdl "off" && negb (Nat.eqb (List.length zs) (List.length qs)))%bool = false).
  { destruct HM as [[E L]|[E _]]; rewrite E; [rewrite L, Nat.eqb_refl|]; reflexivity. }
  assert (B2 : negb (String.eqb mdl "off" || String.eqb mdl "baron") = false).
  { destruct HM as [[E _]|[E _]]; rewrite E; reflexivity. }
  rewrite B1, B2. rewrite <- !real_at_def.
  match goal with |- context [rbind (if String.eqb mdl "off" then ?a else ?b) _] =>
    assert (AM : exists amount, (if String.eqb mdl "off" then a else b) = Ok amount /\ List.length amount = List.length zs) end.
  { destruct HM as [[E L]|[E (p & P1 & P2 & P3 & P4)]]; rewrite E.
    - exists (map num qs). split; [reflexivity|]. rewrite map_length; auto.
    - change (String.eqb "baron" "off") with false. cbv iota. rewrite K3. destruct (ms_real s) as [|p0 ps]; [discriminate|].
      apply some_eq in P1. subst p0. cbn [map]. rewrite recalc_beta' by auto. unfold charge_stripper.
      destruct (Rle_dec _ 0); [exfalso; cbv zeta in P3; lra|]. unfold stripper_charge. cbv beta zeta iota.
      match goal with |- context [Rle_dec (sqrt ?x) 0] => assert (X : 0 < sqrt x) end.
      { apply sqrt_lt_R0. eapply Rlt_le_trans; [exact P4|]. right. cbv zeta. set (Z := real_at num c "Stripper_IonProton" 92) in *. unfold sqr.
        match goal with |- context [Rpower ?a ?b] => set (rp := Rpower a b) end.
        replace (- (83275 / 1000) * (beta_of p / rp)) with (- (83275 / 1000) * beta_of p / rp) by (unfold Rdiv; ring).
        set (y := 1 - exp _). replace (Z * y / Z) with y by (field; lra). reflexivity. }
      destruct (Rle_dec _ 0); [lra|]. eexists. split; [reflexivity|]. rewrite !map_length. reflexivity. }
  destruct AM as (amount & EA & LA). rewrite EA. cbn [rbind].
  destruct A1 as (_ & L0 & L1 & _). rewrite L0, L1, Nat.ltb_irrefl. cbn [orb].
  destruct (HP 0%nat ltac:(lia)) as (x0 & y0 & X0 & Y0). destruct (HP 1%nat ltac:(lia)) as (x1 & y1 & X1 & Y1). destruct (HP 2%nat ltac:(lia)) as (x2 & y2 & X2 & Y2).
  rewrite (at_listed _ _ _ _ _ X0), (at_listed _ _ _ _ _ X1), (at_listed _ _ _ _ _ X2), (at_listed _ _ _ _ _ Y0), (at_listed _ _ _ _ _ Y1), (at_listed _ _ _ _ _ Y2).
  cbn [rbind]. rewrite K3, K4, K5. rewrite sum_total by auto. set (tot := sum_states s (fun _ _ _ => 1)) in *.
  destruct (Req_EM_T _ 0); [contradiction|]. destruct (Req_EM_T _ 0); [contradiction|]. destruct (Rlt_dec _ 0); [lra|].
  match goal with |- context [grow1 5 _ ?M] => set (tmp := M) end.
  assert (EV : forall i, averages s (fun _ u _ => u i) (ms_env0 s1 i)).
  { intros i. apply averages_div; [exact TN|]. rewrite K6. unfold env0_of. rewrite sum_total, sum_env by auto. reflexivity. }
  assert (PO : pooled s (ms_env0 s1) tmp).
  { intros i j _ _. apply averages_div; [exact TN|]. unfold tmp. rewrite <- sum_cells by auto. reflexivity. }
  destruct (SP _ _ (fun i _ => EV i) PO) as (M1 & M3 & M5).
  match goal with |- context [growth_rate ?a (?a + _ + _)] => change a with (tmp 5%nat 5%nat) end.
  match goal with |- context [growth_rate ?a ?b] => destruct (growth_some a b) as [g Hg] end; [exact M5| |].
  { match goal with |- 0 <= _ + ?a + ?b => assert (0 <= a) by apply Rle_0_sqr; assert (0 <= b) by apply Rle_0_sqr end. lra. }
  rewrite Hg. cbn [rbind]. rewrite !grow1_diag by lia.
  match goal with |- context [growth_rate (tmp 1%nat 1%nat) ?b] => destruct (growth_some (tmp 1%nat 1%nat) b) as [gx Hx] end; [exact M1| |].
  { match goal with |- 0 <= _ + ?a => assert (0 <= a) by apply Rle_0_sqr end. lra. }
  rewrite Hx. cbn [rbind].
  match goal with |- context [growth_rate (tmp 3%nat 3%nat) ?b] => destruct (growth_some (tmp 3%nat 3%nat) b) as [gy Hy] end; [exact M3| |].
  { match goal with |- 0 <= _ + ?a => assert (0 <= a) by apply Rle_0_sqr end. lra. }
  rewrite Hy. cbn [rbind].
  match goal with |- exists s', calc_rms w ?x = Ok s' => destruct (calc_rms_aligned w x) as (s2 & H2 & _) end; [|eauto].
  unfold aligned. cbn [ms_real ms_m0 ms_m1 ms_tm]. rewrite !map_length. repeat split.
  destruct zs; [congruence|]. destruct amount; [discriminate|]. discriminate.
Qed.

(** What it refuses. *)
Lemma stripper_back c s : aligned s -> advance_stripper w c true s = Throw RuntimeError.
Proof.
  intros (A1 & A2 & A3 & A4). unfold advance_stripper.
  destruct (calc_rms_aligned w (ms_recalc s)) as (s1 & -> & _); [|reflexivity].
  unfold aligned, ms_recalc. cbn [ms_real ms_m0 ms_m1 ms_tm]. rewrite !map_length. repeat split; auto. destruct (ms_real s); [congruence|discriminate].
Qed.
Lemma stripper_refuses c s x : aligned s -> ill_foil c x -> advance_stripper w c false s = Throw x.
Proof.
  intros (A1 & A2 & A3 & A4) H. unfold advance_stripper.
  destruct (calc_rms_aligned w (ms_recalc s)) as (s1 & -> & _).
  { unfold aligned, ms_recalc. cbn [ms_real ms_m0 ms_m1 ms_tm]. rewrite !map_length. repeat split; auto. destruct (ms_real s); [congruence|discriminate]. }
  cbn [rbind]. unfold stripper_getmat. unfold ill_foil in H. unfold vec_at, get_vec in *.
  destruct (tfind "IonChargeStates" c) as [[]|] eqn:E1; try (subst x; reflexivity). cbn [rbind].
  destruct (tfind "NCharge" c) as [[]|] eqn:E2; try (subst x; reflexivity). cbn [rbind]. cbv zeta. rewrite str_def_at.
  destruct H as [-> [(E & N)|[N1 N2]]].
  - rewrite E. cbn [String.eqb Ascii.eqb Bool.eqb andb]. match goal with |- context [Nat.eqb ?a ?b] => destruct (Nat.eqb_spec a b) end; [congruence|reflexivity].
  - apply String.eqb_neq in N1, N2. rewrite N1, N2. reflexivity.
Qed.

(** ** The machine *)
Lemma strip_step (b : bool) c m es us i ec st p max : sane w ->
  new_machine (moment_reg w) c = Ok m -> tfind "elements" c = Some (TCfgs es) ->
  Forall strips_to_some es -> smooth (fun _ => aligned) strips_to_some m us ->
  nth_error (entries m es us) i = Some ec -> is_a "stripper" ec ->
  max = (if b then -1 else 1)%Z -> propagate (uses m us) st (N.of_nat i) max = Some p ->
  pr_end p = rbind (advance_stripper w ec b (st_body st))
                   (fun s' => Ok (mkSt (if b then size_decr (N.of_nat i) else size_incr (N.of_nat i)) b s')).
Proof.
  intros W Hm He HQ HS Hi HT Hmax HP.
  destruct (new_moment w _ _ Hm) as (es0 & H1 & H2 & H3). assert (es0 = es) as -> by congruence.
  set (J := fun (_ : bool) => aligned). set (good := lift w shaped).
  assert (GC : forall t k c d, sfind t (si_elems (mom_info w)) = Some k -> tfind "type" c = Some (TStr t) ->
    strips_to_some c -> cl_ctor k c = Ok d -> good k c d).
  { intros t k c0 d Ht Ht' Hq Hd. apply mom_find in Ht as (q & -> & ->). apply lift_class.
    apply (ctor_ok w). 2: exact Hd. intros ->. apply Hq. exact Ht'. }
  assert (GA : forall t k c c' d s, sfind t (si_elems (mom_info w)) = Some k ->
    good k c' d -> good k c s -> good k c (cl_assign k d s)).
  { intros t k c0 c' d s Ht _ Hs. apply mom_find in Ht as (q & -> & ->). exact Hs. }
  assert (GV : forall t k b d st d' st', sfind t (si_elems (mom_info w)) = Some k -> good k (eb_conf b) d ->
    J (st_retreat st) (st_body st) -> cl_advance k b d st = (d', Ok st') ->
    good k (eb_conf b) d' /\ J (st_retreat st) (st_body st') /\ st_retreat st' = st_retreat st).
  { intros t k b0 d s d' s' Ht Hg HJ Hadv. apply mom_find in Ht as (q & -> & ->). apply lift_class in Hg.
    apply mom_advance_inv in Hadv as (Hadv & Hr & _). apply advance_ok in Hadv as [O1 O2]; auto.
    split; [apply lift_class; eauto|]. split; auto. }
  destruct (new_fit strips_to_some good (mom_info w) GC _ c _ es m H1 (mom_reg_find w) He Hm HQ) as [F0 _].
  pose proof (uses_fit J strips_to_some good (mom_info w) (mom_tidy w) GC GA GV us m es H3 F0 HS) as F.
  destruct (nth_ex (m_elems (uses m us)) i (List.length (entries m es us))) as [e E]; [|eapply nth_lt; eauto|].
  { destruct F as [F _]. auto. }
  destruct (fit_elem _ _ _ _ _ _ F E) as (ec' & k & E1 & E2 & E3 & E4 & _). assert (ec' = ec) as -> by congruence.
  assert (k = KStripper) as ->. { pose proof (is_a_inj _ _ _ E3 HT). destruct k; try discriminate; reflexivity. }
  destruct (run_any (uses m us) st (N.of_nat i) max e (el_data e) (rbind (advance_stripper w ec b (st_body st))
    (fun s' => Ok (mkSt (if b then size_decr (N.of_nat i) else size_incr (N.of_nat i)) b s')))) as (p' & P1 & P2 & _).
  - rewrite Nat2N.id. exact E.
  - rewrite Hmax. destruct b; auto.
  - rewrite E2. cbn [cl_advance mom_class]. unfold mom_advance. cbn [st_retreat st_body st_next]. rewrite E4.
    replace (max <? 0)%Z with b by (rewrite Hmax; destruct b; reflexivity). reflexivity.
  - congruence.
Qed.
End W.

(** ** Examples *)
Definition foil_run (f : tcfg) : list (@use mstate) := [UReconf 2 f; UProp (mkSt 0 false (state0 2)) 0 1].
Lemma foil_runs num a f : (exists zs qs, zs <> [] /\ (f = foil zs qs \/ f = foil_off zs qs)) -> exists m,
  new_machine (moment_reg (world0 num a)) (mconf line2) = Ok m /\ Forall strips_to_some line2 /\
  smooth (fun _ => aligned) strips_to_some m (foil_run f) /\
  nth_error (entries m line2 (foil_run f)) 2 = Some f /\ is_a "stripper" f /\
  forall z, (z = 1 \/ z = -1)%Z -> exists p, propagate (uses m (foil_run f)) (mkSt 0 false (state0 2)) 2 z = Some p.
Proof.
  intros (zs & qs & NE & HF). eexists. split; [reflexivity|]. split; [repeat constructor; unfold strips_to_some; discriminate|].
  assert (Q : strips_to_some f). { intros _. destruct HF as [->| ->]; cbn; congruence. }
  split.
  { split; [exact Q|]. split; [|exact I]. split; [apply state0_aligned|].
    destruct HF as [->| ->]; (eapply run_plain; [reflexivity|reflexivity|right; right; reflexivity|reflexivity|apply state0_aligned]). }
  split; [destruct HF as [->| ->]; reflexivity|]. split; [destruct HF as [->| ->]; reflexivity|].
  intros z Hz. unfold propagate. replace (z =? INT_MIN)%Z with false by (destruct Hz as [->| ->]; reflexivity). eauto.
Qed.
Lemma state0_spread : spread_out (state0 2).
Proof.
  unfold spread_out, pooled, averages, sum_states, state0. cbn [ms_real ms_m0 ms_m1 repeat combine map fold_right].
  assert (Q : forall p, p_Q (recalc p) = p_Q p) by reflexivity. rewrite !Q. cbn [p_Q]. split; [lra|].
  intros v M _ H. assert (X : forall i, (i < 7)%nat -> i <> 6%nat -> 0 < M i i).
  { intros i Hi N. destruct (H i i Hi Hi) as [_ E]. try rewrite !Q in E. cbn [p_Q] in E. unfold mid in E. rewrite Nat.eqb_refl in E.
    apply Nat.eqb_neq in N. rewrite N in E. pose proof (Rle_0_sqr (0 - v i)) as SQ. unfold Rsqr in SQ. lra. }
  repeat split; apply X; lia.
Qed.
Lemma default_foil num c i : vec_at c "Stripper_Para" = None -> vec_at c "Stripper_E0Para" = None -> (i < 3)%nat ->
  exists x y, foil_at num c i x /\ energy_at num c i y.
Proof.
  intros H1 H2 Hi. unfold foil_at, energy_at, listed. rewrite H1, H2. destruct i as [|[|[|i]]]; [..|lia]; do 2 eexists; split; reflexivity.
Qed.
Lemma off_fine num : foil_fine num (foil_off [done; dzero] [done; done]) (state0 2).
Proof.
  exists [done; dzero], [done; done]. split; [reflexivity|]. split; [reflexivity|]. split; [discriminate|]. split; [left; split; reflexivity|].
  split; [intros i Hi; apply default_foil; auto|]. split; [change (5574 / 1000 <> 0); lra|]. change (0 <= 26903 / 10000). lra.
Qed.
Lemma baron_room y : 0 < y -> y <= 8 / 9 -> 0 < 92 * y * (7535 / 100000 + 19 / 100 * y - 2654 / 10000 * (y * y)).
Proof. intros H1 H2. apply Rmult_lt_0_compat; [lra|]. nra. Qed.
Lemma exp_2 : exp 2 <= 9.
Proof. replace 2 with (1 + 1) by ring. rewrite exp_plus. pose proof exp_le_3. pose proof (exp_pos 1). nra. Qed.
Lemma baron_fine num : foil_fine num (foil [done; dzero] []) (state0 2).
Proof.
  exists [done; dzero], []. split; [reflexivity|]. split; [reflexivity|]. split; [discriminate|]. split.
  2:{ split; [intros i Hi; apply default_foil; auto|]. split; [change (5574 / 1000 <> 0); lra|]. change (0 <= 26903 / 10000). lra. }
  right. split; [reflexivity|]. eexists. split; [reflexivity|].
  set (p := recalc _). assert (E1 : p_Es p = 931000000) by reflexivity. assert (E2 : p_Ek p = 1000000) by reflexivity.
  split; [rewrite E1; lra|]. change (real_at num (foil [done; dzero] []) "Stripper_IonProton" 92) with 92. cbv zeta. split; [lra|].
  assert (G : gamma_of p = 932 / 931) by (unfold gamma_of; rewrite E1, E2; lra).
  assert (B : 0 < beta_of p <= 1 / 20).
  { unfold beta_of. rewrite G. split; [apply sqrt_lt_R0; lra|]. rewrite <- (sqrt_square (1 / 20)) by lra. apply sqrt_le_1; lra. }
  assert (P : 3 <= Rpower 92 (447 / 1000)).
  { apply Rle_trans with (Rpower 81 (/ 4)).
    - replace 81 with (Rpower 3 4). { rewrite Rpower_mult. replace (4 * / 4) with 1 by field. rewrite Rpower_1; lra. }
      replace 4 with (INR 4) by (simpl; ring). rewrite Rpower_pow by lra. simpl. ring.
    - apply Rle_trans with (Rpower 92 (/ 4)); [apply Rle_Rpower_l; lra|]. apply Rle_Rpower; lra. }
  set (t := - (83275 / 1000) * beta_of p / Rpower 92 (447 / 1000)).
  assert (T : -2 <= t < 0).
  { assert (t * Rpower 92 (447 / 1000) = - (83275 / 1000) * beta_of p) by (unfold t; field; lra). nra. }
  assert (X : exp t < 1) by (rewrite <- exp_0; apply exp_increasing; lra).
  assert (Y : 1 / 9 <= exp t).
  { apply Rle_trans with (exp (-2)); [|destruct (Rle_lt_or_eq_dec _ _ (proj1 T)) as [L|L]; [left; apply exp_increasing; auto|right; congruence]].
    pose proof exp_2. pose proof (exp_pos 2). replace (-2) with (- (2)) by ring. rewrite exp_Ropp. apply (Rmult_le_reg_r (exp 2)); auto. rewrite Rinv_l by lra. lra. }
  apply baron_room; lra.
Qed.

(** ** The statements *)
Section T.
Variable w : world.
Hypothesis W : sane w.
Variables (c : tcfg) (m : machine mdata mstate) (es : list tcfg) (us : list (@use mstate)) (i : nat) (ec : tcfg) (st : pstate mstate).
Hypothesis Hm : new_machine (moment_reg w) c = Ok m.
Hypothesis He : tfind "elements" c = Some (TCfgs es).
Hypothesis HQ : Forall strips_to_some es.
Hypothesis HS : smooth (fun _ => aligned) strips_to_some m us.
Hypothesis Hi : nth_error (entries m es us) i = Some ec.
Hypothesis HT : is_a "stripper" ec.
Hypothesis A : aligned (st_body st).
Lemma strip_leaves p st' : propagate (uses m us) st (N.of_nat i) 1 = Some p -> pr_end p = Ok st' ->
  stripped (w_num w) ec (st_body st) (st_body st').
Proof.
  intros HP HE. rewrite (strip_step w false c m es us i ec st p 1 W Hm He HQ HS Hi HT eq_refl HP) in HE.
  apply rbind_ok in HE as (s' & H1 & H2). apply (f_equal (fun r => match r with Ok x => x | Throw _ => st' end)) in H2. rewrite <- H2.
  apply stripper_does; auto.
Qed.
Lemma strip_works : foil_fine (w_num w) ec (st_body st) -> spread_out (st_body st) ->
  exists p st', propagate (uses m us) st (N.of_nat i) 1 = Some p /\ pr_end p = Ok st'.
Proof.
  intros H1 H2. destruct (stripper_completes w ec _ A H1 H2) as (s' & E).
  assert (HP : exists p, propagate (uses m us) st (N.of_nat i) 1 = Some p) by (unfold propagate; cbn [Z.eqb INT_MIN]; eauto).
  destruct HP as (p & HP). pose proof (strip_step w false c m es us i ec st p 1 W Hm He HQ HS Hi HT eq_refl HP) as X.
  rewrite E in X. cbn [rbind] in X. eauto.
Qed.
Lemma strip_back p : propagate (uses m us) st (N.of_nat i) (-1) = Some p -> pr_end p = Throw RuntimeError.
Proof.
  intros HP. rewrite (strip_step w true c m es us i ec st p (-1) W Hm He HQ HS Hi HT eq_refl HP).
  rewrite stripper_back; auto.
Qed.
Lemma strip_refuses x p : ill_foil ec x -> propagate (uses m us) st (N.of_nat i) 1 = Some p -> pr_end p = Throw x.
Proof.
  intros HX HP. rewrite (strip_step w false c m es us i ec st p 1 W Hm He HQ HS Hi HT eq_refl HP).
  rewrite (stripper_refuses w ec _ x); auto.
Qed.
End T.
