(** The matrices of the MomentMatrix elements as flows of the equations of motion. *)
From Coq Require Import Reals List String Bool NArith ZArith Arith Lia Lra.
From Verif Require Import SMap SMap_Proofs Dbl Config_Spec Mat Mat_Proofs Minv Minv_Proofs Machine_Model Machine_Spec Machine_Proofs
  Linear_Model Linear_Spec Linear_Proofs Linear2_Proofs Linear3_Proofs.
From Verif Require Import Moment_Model Moment_Spec Motion_Spec Moment_Proofs Moment2_Proofs Moment3_Proofs Moment4_Proofs
  Moment5_Proofs Moment6_Proofs.
Import ListNotations.
Open Scope R_scope.
Open Scope string_scope.
Open Scope list_scope.

(** ** Flows in seven dimensions *)
Ltac idx7 i H := destruct i as [|[|[|[|[|[|[|i]]]]]]]; [..|exfalso; lia]; clear H.
Definition flow7 (A : mat) (F : R -> mat) : Prop :=
  (forall s i k, (i < 7)%nat -> (k < 7)%nat -> derivable_pt_lim (fun s => F s i k) s (mmul 7 A (F s) i k)) /\
  meq 7 (F 0) mid.
Lemma flow_moves A F v : flow7 A F -> moves A (fun s => mapp 7 (F s) v) /\ veq 7 (mapp 7 (F 0) v) v.
Proof.
  intros [H H0]. split.
  - intros s i Hi. unfold mapp at 1.
    apply (dlim_eq _ _ (sumn 7 (fun k => mmul 7 A (F s) i k * v k))).
    + apply (dlim_sumn 7 (fun k s => F s i k * v k)). intros k Hk. apply dlim_scal_r. apply H; auto.
    + change (mapp 7 (mmul 7 A (F s)) v i = mapp 7 A (mapp 7 (F s) v) i). apply mapp_mmul. exact Hi.
  - rewrite H0. apply mid_app.
Qed.
Lemma along_flow A F len l u u' : flow7 A F -> passes l (mapp 7 (F len) u) u' -> passes (Along A len :: l) u u'.
Proof.
  intros H P. destruct (flow_moves A F u H) as [M S]. exists (fun s => mapp 7 (F s) u), (mapp 7 (F len) u).
  split; [exact M|]. split; [exact S|]. split; [reflexivity|exact P].
Qed.
Definition coast (kx ky : R) (b s : R) : mat := fun i j =>
  match i, j with 4, 5 => (b * s)%R | 6, 6 => 1%R | _, _ => planes kx ky s i j end%nat.
Lemma id_deriv b s : derivable_pt_lim (fun x => b * x) s b.
Proof. eapply dlim_eq; [apply (derivable_pt_lim_scal (fun x => x)); apply derivable_pt_lim_id|ring]. Qed.

Ltac entry7 tac := cbv [mmul sumn focusing larmor blocks sol planes turn Nat.eqb]; tac.
Lemma coast_flow kx ky p : flow7 (coasting kx ky p) (coast kx ky (slip p)).
Proof.
  unfold coasting, coast. generalize (slip p). intros b. split.
  - intros s i k Hi Hk. unfold planes.
    idx7 i Hi; idx7 k Hk; cbn [blocks];
    first [ eapply dlim_eq; [apply (derivable_pt_lim_const 0)|cbv [mmul sumn focusing blocks]; ring]
          | eapply dlim_eq; [apply (derivable_pt_lim_const 1)|cbv [mmul sumn focusing blocks]; ring]
          | eapply dlim_eq; [apply id_deriv|cbv [mmul sumn focusing blocks]; ring]
          | eapply dlim_eq; [apply cs_deriv|cbv [mmul sumn focusing blocks]; rewrite ?sp_sn; ring]
          | eapply dlim_eq; [apply sn_deriv|cbv [mmul sumn focusing blocks]; rewrite ?sp_sn; ring]
          | eapply dlim_eq; [apply sp_deriv|cbv [mmul sumn focusing blocks]; rewrite ?sp_sn; ring] ].
  - intros i j Hi Hj. destruct (plane_zero kx) as (A1 & A2 & A3). destruct (plane_zero ky) as (B1 & B2 & B3).
    unfold planes. idx7 i Hi; idx7 j Hj; cbn [blocks]; unfold mid; cbn [Nat.eqb]; auto; ring.
Qed.
Definition spiral (k b s : R) : mat := fun i j =>
  match i, j with 4, 5 => (b * s)%R | 6, 6 => 1%R | _, _ => turn k s i j end%nat.
Lemma spiral_flow k p : flow7 (spiralling k p) (spiral k (slip p)).
Proof.
  unfold spiralling, spiral. generalize (slip p). intros b. split.
  - intros s i j Hi Hj.
    assert (C : (i < 6 /\ j < 6 /\ (i < 4 \/ j < 5) \/ (i = 4 /\ j = 5) \/ (i = 5 /\ j = 5) \/ i = 6 \/ (i < 6 /\ j = 6))%nat) by lia.
    destruct C as [(I & J & K)|[[-> ->]|[[-> ->]|[->|[I ->]]]]].
    + apply (dlim_ext (fun s => turn k s i j)).
      { intros y. idx6 i I; idx6 j J; try reflexivity; lia. }
      eapply dlim_eq; [apply turn_flow; auto|].
      unfold mmul. cbn [sumn]. idx6 i I; idx6 j J; try (exfalso; lia); cbn [larmor turn sol]; ring.
    + eapply dlim_eq; [apply id_deriv|]. cbv [mmul sumn larmor turn sol]. ring.
    + eapply dlim_eq; [apply (derivable_pt_lim_const 1)|]. cbv [mmul sumn larmor turn sol]. ring.
    + idx7 j Hj; (eapply dlim_eq; [first [apply (derivable_pt_lim_const 0)|apply (derivable_pt_lim_const 1)]|]; cbv [mmul sumn larmor turn sol]; ring).
    + idx6 i I; (eapply dlim_eq; [apply (derivable_pt_lim_const 0)|]; cbv [mmul sumn larmor turn sol]; ring).
  - intros i j Hi Hj. destruct (Nat.eq_dec i 6) as [->|]; [idx7 j Hj; reflexivity|].
    destruct (Nat.eq_dec j 6) as [->|]; [idx7 i Hi; reflexivity|].
    rewrite <- (turn_start k i j) by lia. idx7 i Hi; idx7 j Hj; try reflexivity; try lia. cbn [turn sol]. rewrite Rmult_0_r. reflexivity.
Qed.
Definition bend_map (kx ky h b d dv kphi g s : R) : mat := fun i j =>
  match i, j with
  | 0, 5 => (h * ((1 - plane_cs s kx) / kx) / b)%R | 0, 6 => (h * ((1 - plane_cs s kx) / kx) * d)%R
  | 1, 5 => (h * plane_sn s kx / b)%R | 1, 6 => (h * plane_sn s kx * d)%R
  | 4, 0 => (kphi * h * plane_sn s kx)%R | 4, 1 => (kphi * h * ((1 - plane_cs s kx) / kx))%R
  | 4, 5 => (kphi / b * (h * h * ((s - plane_sn s kx) / kx) - s / (g * g)))%R
  | 4, 6 => (kphi * (h * h * ((s - plane_sn s kx) / kx) * d - s * dv / (g * g)))%R
  | 6, 6 => 1%R | _, _ => planes kx ky s i j
  end%nat.
Lemma oc_deriv k s : k <> 0 -> derivable_pt_lim (fun L => (1 - plane_cs L k) / k) s (plane_sn s k).
Proof.
  intros H. apply (dlim_ext (fun L => / k * (1 - plane_cs L k))); [intros; unfold Rdiv; ring|].
  eapply dlim_eq; [apply (derivable_pt_lim_scal (fun L => 1 - plane_cs L k))|].
  - apply (derivable_pt_lim_minus (fun _ => 1) (fun L => plane_cs L k)); [apply derivable_pt_lim_const|apply cs_deriv].
  - rewrite sp_sn. field. exact H.
Qed.
Lemma ls_deriv k s : k <> 0 -> derivable_pt_lim (fun L => (L - plane_sn L k) / k) s ((1 - plane_cs s k) / k).
Proof.
  intros H. apply (dlim_ext (fun L => / k * (L - plane_sn L k))); [intros; unfold Rdiv; ring|].
  eapply dlim_eq; [apply (derivable_pt_lim_scal (fun L => L - plane_sn L k))|].
  - apply (derivable_pt_lim_minus (fun x => x) (fun L => plane_sn L k)); [apply derivable_pt_lim_id|apply sn_deriv].
  - field. exact H.
Qed.
Lemma dlim_lin2 f g h x l m a b : (forall y, h y = a * f y + b * g y) -> derivable_pt_lim f x l -> derivable_pt_lim g x m ->
  derivable_pt_lim h x (a * l + b * m).
Proof.
  intros E Hf Hg. apply (dlim_ext (fun y => a * f y + b * g y)); [intros; symmetry; apply E|].
  apply (derivable_pt_lim_plus (fun y => a * f y) (fun y => b * g y)); apply derivable_pt_lim_scal; auto.
Qed.
Lemma bend_flow kx ky h b d dv kphi g : kx <> 0 -> b <> 0 -> g <> 0 ->
  flow7 (bending kx ky h b d dv kphi g) (bend_map kx ky h b d dv kphi g).
Proof.
  intros K B G. split.
  - intros s i j Hi Hj. unfold bend_map, planes.
    idx7 i Hi; idx7 j Hj; cbn [blocks];
    first [ eapply dlim_eq; [apply (derivable_pt_lim_const 0)|cbv [mmul sumn bending focusing blocks]; ring]
          | eapply dlim_eq; [apply (derivable_pt_lim_const 1)|cbv [mmul sumn bending focusing blocks]; ring]
          | eapply dlim_eq; [apply cs_deriv|cbv [mmul sumn bending focusing blocks]; rewrite ?sp_sn; ring]
          | eapply dlim_eq; [apply sn_deriv|cbv [mmul sumn bending focusing blocks]; rewrite ?sp_sn; ring]
          | eapply dlim_eq; [apply sp_deriv|cbv [mmul sumn bending focusing blocks]; rewrite ?sp_sn; ring]
          | eapply dlim_eq; [eapply (dlim_lin (fun s => (1 - plane_cs s kx) / kx) _ s _ (h / b)); [intros; cbv beta; unfold Rdiv; ring|apply oc_deriv, K]|cbv [mmul sumn bending focusing blocks]; solve [field; auto]]
          | eapply dlim_eq; [eapply (dlim_lin (fun s => (1 - plane_cs s kx) / kx) _ s _ (h * d)); [intros; cbv beta; unfold Rdiv; ring|apply oc_deriv, K]|cbv [mmul sumn bending focusing blocks]; solve [field; auto]]
          | eapply dlim_eq; [eapply (dlim_lin (fun s => (1 - plane_cs s kx) / kx) _ s _ (kphi * h)); [intros; cbv beta; unfold Rdiv; ring|apply oc_deriv, K]|cbv [mmul sumn bending focusing blocks]; solve [field; auto]]
          | eapply dlim_eq; [eapply (dlim_lin (fun s => plane_sn s kx) _ s _ (h / b)); [intros; cbv beta; unfold Rdiv; ring|apply sn_deriv]|cbv [mmul sumn bending focusing blocks]; solve [field; auto]]
          | eapply dlim_eq; [eapply (dlim_lin (fun s => plane_sn s kx) _ s _ (h * d)); [intros; cbv beta; unfold Rdiv; ring|apply sn_deriv]|cbv [mmul sumn bending focusing blocks]; solve [field; auto]]
          | eapply dlim_eq; [eapply (dlim_lin (fun s => plane_sn s kx) _ s _ (kphi * h)); [intros; cbv beta; unfold Rdiv; ring|apply sn_deriv]|cbv [mmul sumn bending focusing blocks]; solve [field; auto]]
          | eapply dlim_eq; [eapply (dlim_lin2 (fun s => (s - plane_sn s kx) / kx) (fun x => x) _ s _ _ (kphi / b * (h * h)) (- (kphi / b / (g * g))));
              [intros; cbv beta; unfold Rdiv; ring|apply ls_deriv, K|apply derivable_pt_lim_id]|cbv [mmul sumn bending focusing blocks]; solve [field; auto]]
          | eapply dlim_eq; [eapply (dlim_lin2 (fun s => (s - plane_sn s kx) / kx) (fun x => x) _ s _ _ (kphi * (h * h) * d) (- (kphi * dv / (g * g))));
              [intros; cbv beta; unfold Rdiv; ring|apply ls_deriv, K|apply derivable_pt_lim_id]|cbv [mmul sumn bending focusing blocks]; solve [field; auto]] ].
  - intros i j Hi Hj. destruct (plane_zero kx) as (A1 & A2 & A3). destruct (plane_zero ky) as (B1 & B2 & B3).
    unfold bend_map, planes. idx7 i Hi; idx7 j Hj; cbn [blocks]; unfold mid; cbn [Nat.eqb]; rewrite ?A1, ?A2, ?A3, ?B1, ?B2, ?B3; try reflexivity; field; auto.
Qed.

(** ** Particles *)
Lemma moving_facts p : moving p -> 1 < gamma_of p /\ 0 < beta_of p /\ 0 < wavelength p /\ 0 < wavenumber p /\
  gamma_of p = (p_Es p + p_Ek p) / p_Es p.
Proof.
  intros (H1 & H2 & H3 & H4). unfold wavenumber, wavelength, beta_of, gamma_of, lightspeed.
  assert (G : 0 < p_Ek p / p_Es p) by (apply Rdiv_lt_0_compat; auto). set (g := 1 + p_Ek p / p_Es p) in *.
  assert (G1 : 1 < g) by (unfold g; lra).
  assert (B : 0 < sqrt (1 - 1 / (g * g))).
  { apply sqrt_lt_R0. assert (1 < g * g) by nra. assert (1 / (g * g) < 1); [|lra].
    apply (Rmult_lt_reg_r (g * g)); [lra|]. unfold Rdiv. rewrite Rmult_assoc, Rinv_l by lra. lra. }
  assert (W : 0 < 299792458 / p_freq p * 1000) by (apply Rmult_lt_0_compat; [apply Rdiv_lt_0_compat; lra|lra]).
  split; [exact G1|]. split; [exact B|]. split; [exact W|]. split.
  - apply Rdiv_lt_0_compat; [pose proof PI_RGT_0; lra|]. apply Rmult_lt_0_compat; auto.
  - unfold g. field. lra.
Qed.
Lemma recalc_gamma p : moving p -> p_gamma (recalc p) = gamma_of p.
Proof.
  intros M. destruct (moving_facts p M) as (_ & _ & _ & _ & G). destruct M as (H1 & _).
  unfold recalc. cbn [p_gamma]. destruct (Req_EM_T (p_Es p) 0); [lra|]. symmetry. exact G.
Qed.
Lemma recalc_beta p : moving p -> p_beta (recalc p) = beta_of p.
Proof.
  intros M. unfold beta_of. rewrite <- (recalc_gamma p M). reflexivity.
Qed.
Lemma recalc_lambda p : p_lambda (recalc p) = wavelength p.
Proof. reflexivity. Qed.
Lemma recalc_K p : moving p -> p_K (recalc p) = wavenumber p.
Proof. intros M. unfold wavenumber. rewrite <- (recalc_beta p M). reflexivity. Qed.
Lemma recalc_bg p : moving p -> p_bg (recalc p) = beta_of p * gamma_of p.
Proof.
  intros M. rewrite <- (recalc_beta p M), <- (recalc_gamma p M).
  destruct (moving_facts p M) as (_ & B & _). rewrite <- (recalc_beta p M) in B.
  change (p_bg (recalc p)) with (if Req_EM_T (p_beta (recalc p)) 0 then 1 else p_beta (recalc p) * p_gamma (recalc p)).
  destruct (Req_EM_T (p_beta (recalc p)) 0); [lra|reflexivity].
Qed.
Lemma recalc_brho p : moving p -> brho (recalc p) = rigidity p.
Proof.
  intros M. unfold brho, rigidity. rewrite (recalc_beta p M). cbn [recalc p_W p_Z]. unfold C0, lightspeed. f_equal.
  destruct (moving_facts p M) as (G & B & _ & _ & E). destruct M as (H1 & H2 & _).
  rewrite <- (sqrt_square (p_Es p + p_Ek p)) at 1 by lra. unfold beta_of. rewrite <- sqrt_mult_alt.
  - f_equal. rewrite E. field. lra.
  - assert (1 < gamma_of p * gamma_of p) by nra. assert (1 / (gamma_of p * gamma_of p) < 1); [|lra].
    apply (Rmult_lt_reg_r (gamma_of p * gamma_of p)); [lra|]. unfold Rdiv. rewrite Rmult_assoc, Rinv_l by lra. lra.
Qed.
Lemma recalc_longi p L : moving p -> longi (recalc p) L = slip p * L.
Proof.
  intros M. unfold longi, slip. rewrite (recalc_bg p M), recalc_lambda. cbn [recalc p_Es]. unfold MeVtoeV, cube.
  f_equal. f_equal. unfold Rdiv. ring.
Qed.

(** ** Matrices *)
Lemma quad_plane_eq L K ind M : quad_plane L K ind M =
  mset (mset (mset (mset M (S ind) (S ind) (plane_cs L K)) ind ind (plane_cs L K)) ind (S ind) (plane_sn L K)) (S ind) ind (plane_sp L K).
Proof. unfold quad_plane, plane_cs, plane_sn, plane_sp. destruct (Rlt_dec 0 K); reflexivity. Qed.
Ltac look := unfold mset, mid, PS_X, PS_PX, PS_Y, PS_PY, PS_S, PS_PS; cbn [Nat.eqb andb].
Lemma quad_coast L K b : meq 7 (mset (quad_planes L K mid) PS_S PS_PS (b * L)) (coast K (- K) b L).
Proof.
  unfold quad_planes. rewrite !quad_plane_eq. intros i j Hi Hj. unfold coast, planes. idx7 i Hi; idx7 j Hj; look; reflexivity.
Qed.
Lemma drift_coast L b : meq 7 (mset (mset (mset mid PS_X PS_PX L) PS_Y PS_PY L) PS_S PS_PS (b * L)) (coast 0 0 b L).
Proof.
  destruct (plane0 L) as (A1 & A2 & A3). intros i j Hi Hj. unfold coast, planes. rewrite A1, A2, A3.
  idx7 i Hi; idx7 j Hj; look; reflexivity.
Qed.
Lemma sol_spiral L K b : meq 7 (mset (sol_matrix L K mid) PS_S PS_PS (b * L)) (spiral K b L).
Proof.
  unfold sol_matrix. intros i j Hi Hj. unfold spiral, turn, isz, sqr.
  idx7 i Hi; idx7 j Hj; look; cbn [sol]; destruct (Req_EM_T K 0); try reflexivity; unfold Rdiv; ring.
Qed.
Lemma sbend_body L phi phi1 phi2 K Es g dz beta gd d kd : L <> 0 -> phi <> 0 -> 0 < K + phi / L * (phi / L) -> g <> 0 ->
  let h := phi / L in
  meq 7 (sbend_matrix L phi phi1 phi2 K Es g dz beta gd d kd mid)
        (mmul 7 (edge_matrix (L / phi) phi2)
           (mmul 7 (bend_map (K + h * h) (- K) h (beta * beta * gd * Es / MeVtoeV) d (d + dz) kd g L) (edge_matrix (L / phi) phi1))).
Proof.
  intros HL HP HK HG h. unfold sbend_matrix. cbv zeta.
  assert (E : K + 1 / sqr (L / phi) = K + h * h) by (unfold sqr, h; field; auto). rewrite E.
  destruct (Req_EM_T (K + h * h) 0) as [Z|N]; [unfold h in Z; lra|].
  destruct (Rlt_dec 0 (K + h * h)) as [P|P]; [|unfold h in P; lra].
  rewrite !quad_plane_eq.
  match goal with |- meq 7 (mmul msize _ (mmul msize ?A _)) (mmul 7 _ (mmul 7 ?B _)) => assert (X : meq 7 A B) end.
  { assert (C : plane_cs L (K + h * h) = cos (sqrt (K + h * h) * L)) by (unfold plane_cs; destruct (Rlt_dec 0 (K + h * h)); [reflexivity|lra]).
    assert (SN : plane_sn L (K + h * h) = sin (sqrt (K + h * h) * L) / sqrt (K + h * h)).
    { unfold plane_sn. destruct (Rlt_dec 0 (K + h * h)); [|lra]. destruct (Req_EM_T _ 0) as [Q|]; [|reflexivity].
      exfalso. eapply sqrt_pos_neq; eauto. }
    assert (SQ : sqrt (K + h * h) <> 0) by (apply sqrt_pos_neq; auto).
    assert (HH : L / phi = / h) by (unfold h; field; auto).
    assert (Hh : h <> 0) by (unfold h; intros Q; apply HP; apply (Rmult_eq_compat_r L) in Q; unfold Rdiv in Q; rewrite Rmult_assoc, Rinv_l in Q by auto; lra).
    rewrite HH. intros i j Hi Hj. unfold bend_map, planes. rewrite C, SN.
    generalize dependent (sqrt (K + h * h)). intros q _ SN SQ. unfold sqr.
    set (kx := K + h * h) in *. clearbody kx.
    idx7 i Hi; idx7 j Hj; look; cbn [blocks]; try reflexivity; try exact C; unfold Rdiv; rewrite ?Rinv_mult, ?Rinv_inv; try ring.
    all: idtac. }
  unfold msize. rewrite X. reflexivity.
Qed.

(** ** Misalignment *)
Section Frames.
Variable w : world.
Lemma veq_at n u v i : veq n u v -> (i < n)%nat -> u i = v i. Proof. intros H. apply H. Qed.
Definition centred (K b z : R) (v : vec) : vec := fun i =>
  match i with 4 => (v 4%nat * (1 / - K) + z * v 6%nat)%R | 5 => (v 5%nat * (1 / b) + v 6%nat)%R | _ => v i end%nat.
Lemma centred_ok z ref p v :
  veq 7 (mapp 7 (shift_mat z) (mapp 7 (scl_mat ref p) v)) (centred (p_K p) (sqr (p_beta p) * p_gamma p * p_Es ref / MeVtoeV) z v).
Proof.
  unfold scl_mat, shift_mat, centred. generalize (1 / - p_K p) (1 / (sqr (p_beta p) * p_gamma p * p_Es ref / MeVtoeV)). intros b a.
  intros i Hi. idx7 i Hi; cbv [mapp sumn mset mid PS_S PS_PS Nat.eqb andb]; ring.
Qed.
Lemma rot_at dx dy tx ty tz v :
  let '(x, y, z) := turned tx ty tz (v 0%nat - dx * v 6%nat, v 2%nat - dy * v 6%nat, v 4%nat) in
  let '(x', y', z') := turned tx ty tz (v 1%nat, v 3%nat, v 5%nat) in
  veq 7 (mapp 7 (rot_mat dx dy tx ty tz) v)
    (fun i => match i with 0 => x | 1 => x' | 2 => y | 3 => y' | 4 => z | 5 => z' | _ => v i end%nat).
Proof.
  cbv beta iota delta [turned]. unfold rot_mat. cbv zeta. rewrite !cos_neg, !sin_neg.
  generalize (sin tx) (cos tx) (sin ty) (cos ty) (sin tz) (cos tz). intros sx cx sy cy sz cz.
  unfold msize. set (T := mset (mset mid 0 6 (- dx)) 2 6 (- dy)).
  match goal with |- veq 7 (mapp 7 (mmul 7 ?Q T) v) _ => set (Q0 := Q) end.
  rewrite (mapp_mmul 7 Q0 T v).
  assert (E : veq 7 (mapp 7 T v) (fun i => match i with 0 => (v 0%nat - dx * v 6%nat)%R | 2 => (v 2%nat - dy * v 6%nat)%R | _ => v i end%nat)).
  { intros i Hi. unfold T. idx7 i Hi; cbv [mapp sumn mset mid Nat.eqb andb]; ring. }
  rewrite E. intros i Hi. unfold Q0. idx7 i Hi; cbv [mapp sumn mset mid Nat.eqb andb]; ring.
Qed.
Lemma real_num c n d : num_def w c n d = real_at (w_num w) c n d.
Proof. unfold num_def, real_at, num_at. destruct (tfind n c) as [[]|]; reflexivity. Qed.

Definition sh_at (c : tcfg) : shifts :=
  mkSh (real_at (w_num w) c "dx" 0 * 1000) (real_at (w_num w) c "dy" 0 * 1000)
       (real_at (w_num w) c "pitch" 0) (real_at (w_num w) c "yaw" 0) (real_at (w_num w) c "roll" 0).
Lemma div_neg x K : K <> 0 -> x * (1 / - K) = - (x / K).
Proof. intros. field. auto. Qed.
Lemma rigid c z ref p v u : moving p -> 0 < p_Es ref -> v 6%nat = 1 -> u 6%nat = 1 ->
  let scl := scl_mat (recalc ref) (recalc p) in let sh := sh_at c in
  veq 7 (mapp 7 (rot_mat (sh_dx sh) (sh_dy sh) (sh_pitch sh) (sh_yaw sh) (sh_roll sh)) (mapp 7 (shift_mat z) (mapp 7 scl v)))
        (mapp 7 (shift_mat z) (mapp 7 scl u)) ->
  framed (w_num w) c z ref p v u.
Proof.
  intros M HE V U scl sh. unfold scl. rewrite !centred_ok. intros H.
  assert (B : sqr (p_beta (recalc p)) * p_gamma (recalc p) * p_Es (recalc ref) / MeVtoeV
              = beta_of p * beta_of p * gamma_of p * (p_Es ref / 1000000)).
  { rewrite (recalc_beta p M), (recalc_gamma p M). cbn [recalc p_Es]. unfold sqr, MeVtoeV, Rdiv. ring. }
  rewrite B, (recalc_K p M) in H. destruct (moving_facts p M) as (G & Bp & _ & WN & _).
  set (b := beta_of p * beta_of p * gamma_of p * (p_Es ref / 1000000)) in *.
  pose proof (rot_at (sh_dx sh) (sh_dy sh) (sh_pitch sh) (sh_yaw sh) (sh_roll sh) (centred (wavenumber p) b z v)) as E.
  unfold framed. cbv zeta. fold b. unfold sh, sh_at in E, H. cbn [sh_dx sh_dy sh_pitch sh_yaw sh_roll] in E, H.
  unfold centred in E at 1 2 3 4 5 6 7 8. rewrite V in E. rewrite !Rmult_1_r in E.
  rewrite <- (div_neg (v 4%nat)), <- (div_neg (u 4%nat)) by lra.
  replace (v 5%nat / b + 1) with (v 5%nat * (1 / b) + 1) by (unfold Rdiv; ring).
  replace (u 5%nat / b + 1) with (u 5%nat * (1 / b) + 1) by (unfold Rdiv; ring).
  destruct (turned _ _ _ (v 0%nat - _, _, _)) as [[x y] zz].
  destruct (turned _ _ _ (v 1%nat, _, _)) as [[x' y'] zz'].
  rewrite E in H. unfold centred in H.
  pose proof (H 0%nat ltac:(lia)) as H0. pose proof (H 1%nat ltac:(lia)) as H1. pose proof (H 2%nat ltac:(lia)) as H2.
  pose proof (H 3%nat ltac:(lia)) as H3. pose proof (H 4%nat ltac:(lia)) as H4. pose proof (H 5%nat ltac:(lia)) as H5.
  cbv beta iota in H0, H1, H2, H3, H4, H5. rewrite U in H4, H5. rewrite Rmult_1_r in H4.
  subst. split; [reflexivity|]. split; [reflexivity|]. congruence.
Qed.
Lemma inverse_ok A B : inverse A = Ok B -> meq 7 (mmul 7 B A) mid /\ meq 7 (mmul 7 A B) mid.
Proof.
  unfold inverse. intros H. apply minv_some. change (minv msize A = Some B). destruct (minv msize A) as [X|]; [|discriminate].
  apply (f_equal (fun r => match r with Ok x => Some x | Throw _ => None end)) in H. exact H.
Qed.
Lemma back_in A B v : meq 7 (mmul 7 A B) mid -> veq 7 (mapp 7 A (mapp 7 B v)) v.
Proof. intros H. rewrite <- mapp_mmul, H. apply mid_app. Qed.
Lemma last_one A v : affine A -> mapp 7 A v 6%nat = v 6%nat.
Proof. intros H. unfold mapp. cbn [sumn]. rewrite !H by lia. cbn [Nat.eqb]. ring. Qed.
Lemma frame_ok c len ref p M IM : moving p -> 0 < p_Es ref ->
  get_misalign (sh_at c) len (recalc ref) (recalc p) = Ok (M, IM) ->
  (forall u, u 6%nat = 1 -> framed (w_num w) c (- (len * 1000) / 2) ref p u (mapp 7 M u) /\ mapp 7 M u 6%nat = 1) /\
  (forall u, u 6%nat = 1 -> framed (w_num w) c (len * 1000 / 2) ref p (mapp 7 IM u) u).
Proof.
  intros HM HE H. unfold get_misalign in H.
  apply rbind_ok in H as (si & H1 & H). apply rbind_ok in H as (ti & H2 & H). apply rbind_ok in H as (ri & H3 & H).
  apply rbind_ok in H as (ti' & H4 & H).
  assert (E : (M, IM) = (M, IM)) by reflexivity. apply (f_equal (fun r => match r with Ok x => x | Throw _ => (M, IM) end)) in H.
  apply pair_eq in H as [HA HB]. clear E. unfold msize in HA, HB.
  set (scl := scl_mat (recalc ref) (recalc p)) in *. set (sh := sh_at c) in *.
  set (RO := rot_mat (sh_dx sh) (sh_dy sh) (sh_pitch sh) (sh_yaw sh) (sh_roll sh)) in *.
  set (T := shift_mat (- len / 2 * MtoMM)) in *. set (T' := shift_mat (len / 2 * MtoMM)) in *.
  assert (AS : affine scl) by (unfold scl, scl_mat; repeat (apply affine_set; [unfold PS_S, PS_PS; lia|]); apply affine_id).
  assert (AT : affine T /\ affine T') by (split; unfold T, T', shift_mat; repeat (apply affine_set; [unfold PS_S, PS_PS; lia|]); apply affine_id).
  destruct AT as [AT AT'].
  assert (AR : affine RO).
  { unfold RO, rot_mat. cbv zeta. apply affine_mul; repeat (apply affine_set; [lia|]); apply affine_id. }
  assert (I : forall A B, affine A -> inverse A = Ok B -> affine B).
  { intros A B HA' HB'. apply (affine_inv A B HA'). unfold inverse in HB'. destruct (minv msize A) as [X|]; [|discriminate].
    apply (f_equal (fun r => match r with Ok x => Some x | Throw _ => None end)) in HB'. exact HB'. }
  pose proof (I _ _ AS H1) as AI. pose proof (I _ _ AT H2) as ATI. pose proof (I _ _ AR H3) as ARI. pose proof (I _ _ AT' H4) as ATI'.
  apply inverse_ok in H1, H2, H3, H4.
  assert (AM : affine M) by (rewrite <- HA; repeat apply affine_mul; auto).
  assert (AIM : affine IM) by (rewrite <- HB; repeat apply affine_mul; auto).
  replace (- (len * 1000) / 2) with (- len / 2 * MtoMM) by (unfold MtoMM; field).
  replace (len * 1000 / 2) with (len / 2 * MtoMM) by (unfold MtoMM; field).
  split; intros u Hu.
  - split; [|rewrite last_one; auto]. apply rigid; auto; [rewrite last_one; auto|].
    fold sh RO scl T. rewrite <- HA. rewrite !mapp_mmul. rewrite (back_in scl si) by apply H1. rewrite (back_in T ti) by apply H2. reflexivity.
  - apply rigid; auto; [rewrite last_one; auto|].
    fold sh RO scl T'. rewrite <- HB. rewrite !mapp_mmul. rewrite (back_in scl si) by apply H1. rewrite (back_in T' ti') by apply H4.
    apply back_in, H3.
Qed.
End Frames.

(** ** Curves *)
Section Curves.
Variable w : world.
Lemma cast_trunc lim x n : cast_unsigned lim x = Ok n -> truncates x (Z.of_N n).
Proof.
  unfold cast_unsigned. destruct (dtrunc x) as [z|] eqn:E; [|discriminate]. apply dtrunc_spec in E.
  destruct (Z.leb 0 z && Z.ltb z lim)%bool eqn:B; [|discriminate]. intros H. injection H as <-.
  apply andb_prop in B as [B _]. apply Z.leb_le in B. rewrite Z2N.id by auto. exact E.
Qed.
Lemma numbered_dec stem k : (stem ++ dec (N.of_nat k))%string = numbered stem k. Proof. reflexivity. Qed.
Lemma get_vec_at c n l : get_vec c n = Ok l -> vec_at c n = Some l.
Proof. unfold get_vec, vec_at. destruct (tfind n c) as [[]|]; congruence. Qed.
Lemma curve_loop_ok c cv k : forall n prev r, curve_loop w c cv (vec_at c "use_range") k (N.of_nat n) prev = Ok r ->
  exists cs q m, List.length cs = k /\
    r = map (fun kx => (real_at (w_num w) c (numbered "scl_fac" (fst kx)) 0, map (w_num w) (snd kx))) (combine (seq n k) cs) /\
    (forall q', prev = Some q' -> k <> 0%nat -> q = q') /\
    forall i x, nth_error cs i = Some x -> exists all, vec_at cv (numbered "curve" (n + i)) = Some all /\
      curve_piece c all x /\ List.length all = q /\ List.length x = m.
Proof.
  induction k as [|k IH]; intros n prev r; cbn [curve_loop].
  { intros [= <-]. exists [], 0%nat, 0%nat. repeat split; [lia|]. intros [|i] x; discriminate. }
  rewrite !numbered_dec. destruct (get_vec cv (numbered "curve" n)) as [l|] eqn:E; [|discriminate]. apply get_vec_at in E.
  intros H. apply rbind_ok in H as (part & HP & H).
  destruct (match prev with Some p => _ | None => _ end) eqn:EP; [discriminate|].
  apply rbind_ok in H as (r' & H & HR). injection HR as <-.
  replace (N.succ (N.of_nat n)) with (N.of_nat (S n)) in H by lia. apply IH in H as (cs & q & m & L & -> & Q & C).
  assert (PI : curve_piece c l part /\ forall x all, curve_piece c all x -> List.length all = List.length l -> List.length x = List.length part).
  { unfold curve_piece. destruct (vec_at c "use_range") as [[|a [|b [|]]]|] eqn:ER; try discriminate.
    - apply rbind_ok in HP as (s & C1 & HP). apply rbind_ok in HP as (e & C2 & HP). apply cast_trunc in C1, C2.
      destruct (_ || _)%bool eqn:EO; [discriminate|]. apply orb_false_elim in EO as [O1 O2].
      apply N.ltb_ge in O1, O2. destruct (N.ltb e s) eqn:ES; [discriminate|]. apply N.ltb_ge in ES. injection HP as <-.
      split.
      + exists a, b, (N.to_nat s), (N.to_nat e). split; [reflexivity|]. rewrite !N_nat_Z. split; [exact C1|]. split; [exact C2|]. split; [lia|reflexivity].
      + intros x all (a' & b' & y & z & HE & T1 & T2 & B & ->) LA. injection HE as <- <-.
        pose proof (truncates_unique _ _ _ C1 T1). pose proof (truncates_unique _ _ _ C2 T2).
        rewrite !firstn_length, !skipn_length. lia.
    - injection HP as <-. split; [reflexivity|]. intros x all -> LA. auto. }
  destruct PI as [PI1 PI2].
  exists (part :: cs), (List.length l), (List.length part). split; [simpl; auto|]. split.
  { cbn [seq combine map fst snd]. rewrite real_num. reflexivity. }
  split.
  { intros q' -> _. cbv beta iota in EP. apply negb_false_iff, Nat.eqb_eq in EP. auto. }
  intros [|i] x Hx.
  - injection Hx as <-. exists l. rewrite Nat.add_0_r. auto.
  - cbn [nth_error] in Hx. destruct (C i x Hx) as (all & A1 & A2 & A3 & A4). exists all.
    assert (k <> 0)%nat by (intros ->; destruct cs; [destruct i; discriminate|discriminate]).
    rewrite (Q (List.length l) eq_refl) in A3 by auto.
    replace (n + S i)%nat with (S n + i)%nat by lia. split; [exact A1|]. split; [exact A2|]. split; [exact A3|].
    apply (PI2 x all); auto.
Qed.
Lemma get_curves_ok c n cvs : get_curves w c n = Ok cvs ->
  exists cv cs m, curve_source w c cv /\ List.length cs = N.to_nat n /\
    cvs = map (fun kx => (real_at (w_num w) c (numbered "scl_fac" (fst kx)) 0, map (w_num w) (snd kx))) (combine (seq 0 (N.to_nat n)) cs) /\
    forall k x, nth_error cs k = Some x -> exists all, vec_at cv (numbered "curve" k) = Some all /\ curve_piece c all x /\ List.length x = m.
Proof.
  unfold get_curves. intros H. apply rbind_ok in H as (cv & HC & H).
  change (match tfind "use_range" c with Some (TVec l) => Some l | _ => None end) with (vec_at c "use_range") in H.
  apply (curve_loop_ok c cv (N.to_nat n) 0) in H as (cs & q & m & L & -> & _ & C).
  exists cv, cs, m. split.
  - unfold curve_source, get_str, get_str_def, str_at in *. destruct (tfind "CurveFile" c) as [[]|]; try (injection HC as <-; reflexivity). exact HC.
  - split; [exact L|]. split; [reflexivity|]. intros k x Hk. destruct (C k x Hk) as (all & A1 & A2 & A3 & A4). eauto.
Qed.
End Curves.

(** ** From matrices to courses *)
Lemma fold_map {A B C} (f : C -> B -> C) (g : A -> B) xs : forall a,
  fold_left (fun t x => f t (g x)) xs a = fold_left f (map g xs) a.
Proof. induction xs as [|x xs IH]; intros a; simpl; auto. Qed.
Definition does (l : list leg) (B : mat) : Prop := forall u rest u',
  (forall v, veq 7 v (mapp 7 B u) -> passes rest v u') -> passes (l ++ rest) u u'.
Lemma stretches_do (A : R -> mat) (F : R -> R -> mat) (G : R -> mat) dL : (forall b, flow7 (A b) (F b)) ->
  (forall b, meq 7 (G b) (F b dL)) -> forall l, does (map (fun b => Along (A b) dL) l) (fold_left (fun T b => mmul 7 (G b) T) l mid).
Proof.
  intros HF HG l u rest u' H.
  assert (X : forall l T0 v0, veq 7 v0 (mapp 7 T0 u) ->
    (forall v, veq 7 v (mapp 7 (fold_left (fun T b => mmul 7 (G b) T) l T0) u) -> passes rest v u') ->
    passes (map (fun b => Along (A b) dL) l ++ rest) v0 u').
  { clear l H. induction l as [|b l IH]; intros T0 v0 E H.
    - apply H. exact E.
    - cbn [map app]. apply (along_flow _ (F b)); [apply HF|]. apply (IH (mmul 7 (G b) T0)); [|exact H].
      rewrite mapp_mmul, <- E, (HG b). reflexivity. }
  apply (X l mid); [symmetry; apply mid_app|exact H].
Qed.
Lemma does_meq l A B : meq 7 A B -> does l A -> does l B.
Proof. intros E H u rest u' K. apply H. intros v Hv. apply K. rewrite Hv, E. reflexivity. Qed.
Lemma does_flow A F L B : flow7 A F -> meq 7 B (F L) -> does [Along A L] B.
Proof. intros H E u rest u' K. apply (along_flow _ F); auto. apply K. rewrite E. reflexivity. Qed.
Lemma does_end l B u : does l B -> passes l u (mapp 7 B u).
Proof. intros H. rewrite <- (app_nil_r l). apply H. intros v Hv. exact Hv. Qed.
Lemma does_app l1 l2 A B : does l1 A -> does l2 B -> does (l1 ++ l2) (mmul 7 B A).
Proof.
  intros H1 H2 u rest u' K. rewrite <- app_assoc. apply H1. intros v Hv. apply H2. intros v' Hv'. apply K.
  rewrite Hv', Hv. symmetry. apply mapp_mmul.
Qed.
Lemma does_via (r : vec -> vec -> Prop) B : (forall u, r u (mapp 7 B u)) -> does [Via r] B.
Proof. intros H u rest u' K. exists (mapp 7 B u). split; [apply H|]. apply K. reflexivity. Qed.

Section Courses.
Variable w : world.
Notation num := (w_num w).
Lemma inside_ok c len ref p d l B T : moving p -> 0 < p_Es ref -> md_sh d = sh_at w c -> md_len d = len ->
  misaligned d (recalc ref) (recalc p) B = (T, None) -> affine B -> does l B ->
  forall u, unit_last u ->
    passes (Via (framed num c (- (len * 1000) / 2) ref p) :: l ++ [Via (fun u v => framed num c (len * 1000 / 2) ref p v u)]) u (mapp 7 T u).
Proof.
  intros HM HE HS HL H AB HB u Hu. unfold misaligned in H. rewrite HS, HL in H.
  destruct (get_misalign _ _ _ _) as [[M IM]|] eqn:E; [|discriminate]. apply pair_eq in H as [<- _].
  destruct (frame_ok w c len ref p M IM HM HE E) as [F1 F2]. destruct (F1 u Hu) as [F3 F4].
  exists (mapp 7 M u). split; [exact F3|]. apply HB. intros v Hv.
  exists (mapp 7 IM v). split.
  - apply F2. rewrite (Hv 6%nat) by lia. rewrite last_one; auto.
  - change (veq 7 (mapp 7 IM v) (mapp 7 (mmul 7 IM (mmul 7 B M)) u)). rewrite Hv, !mapp_mmul. reflexivity.
Qed.
Lemma sumn_shift f n : sumn (S n) f = f 0%nat + sumn n (fun k => f (S k)).
Proof. induction n as [|n IH]; [cbn [sumn]; ring|]. change (sumn (S (S n)) f) with (sumn (S n) f + f (S n)). rewrite IH. cbn [sumn]. ring. Qed.
Lemma rsum_sumn {A} (g : A -> R) d l : rsum (map g l) = sumn (List.length l) (fun k => g (nth k l d)).
Proof.
  assert (X : forall l a, fold_left Rplus (map g l) a = a + sumn (List.length l) (fun k => g (nth k l d))).
  { clear l. induction l as [|x l IH]; intros a; cbn [map fold_left List.length]; [cbn [sumn]; ring|].
    rewrite IH, (sumn_shift (fun k => g (nth k (x :: l) d)) (List.length l)). cbn [nth]. ring. }
  unfold rsum. rewrite X. ring.
Qed.
Lemma exact_uint_deq x k : exact_uint x = Some k -> deq (d_of_Z (Z.of_N k)) x = true.
Proof.
  unfold exact_uint. destruct (dtrunc x) as [z|]; [|discriminate].
  destruct (Z.leb 0 z) eqn:A; [|discriminate]. cbn [andb]. destruct (Z.ltb z (2 ^ 32)); [|discriminate]. cbn [andb].
  destruct (deq (d_of_Z z) x) eqn:D; [|discriminate]. intros H. injection H as <-. apply Z.leb_le in A. rewrite Z2N.id; auto.
Qed.
Lemma get_flag_ok c n d k : exact_uint (d_of_Z (Z.of_N d)) = Some d -> get_flag w c n d = Ok k -> flagged w c n d k.
Proof.
  intros HD. unfold get_flag, flagged, get_num, get_str.
  destruct (tfind n c) as [[x|l|t|l]|]; cbv zeta.
  - destruct (exact_uint x) eqn:E; intros H; inversion H; subst. apply exact_uint_deq; auto.
  - rewrite HD. intros H; inversion H; auto.
  - destruct (w_lexd w t) as [x|].
    + destruct (exact_uint x) eqn:E; intros H; inversion H; subst. apply exact_uint_deq; auto.
    + rewrite HD. intros H; inversion H; auto.
  - rewrite HD. intros H; inversion H; auto.
  - rewrite HD. intros H; inversion H; auto.
Qed.
Lemma flag0 : exact_uint (d_of_Z (Z.of_N 0)) = Some 0%N. Proof. reflexivity. Qed.
Lemma flag1 : exact_uint (d_of_Z (Z.of_N 1)) = Some 1%N. Proof. reflexivity. Qed.
Lemma fold_ext {A B} (f g : A -> B -> A) xs : forall a, (forall a x, In x xs -> f a x = g a x) -> fold_left f xs a = fold_left g xs a.
Proof.
  induction xs as [|x xs IH]; intros a H; simpl; auto. rewrite (H a x) by (left; auto). apply IH. intros; apply H; right; auto.
Qed.
Lemma sumn_mul a n f : sumn n (fun k => a * f k) = a * sumn n f.
Proof. induction n as [|n IH]; cbn [sumn]; [ring|]. rewrite IH. ring. Qed.
Lemma field_slices c n cvs L f a f0 plane p : get_flag w c "ncurve" 0 = Ok n -> n <> 0%N -> get_curves w c n = Ok cvs ->
  (forall x, f x = a * x) ->
  exists l, field w c f0 l /\
    slices cvs L f plane p =
    fold_left (fun T b => mmul 7 (mset (plane (L / INR (List.length l)) (a * b) mid) PS_S PS_PS (longi p (L / INR (List.length l)))) T) l mid.
Proof.
  intros HF HN HC Hf. destruct (get_curves_ok w c n cvs HC) as (cv & cs & m & S1 & S2 & S3 & S4).
  set (g := fun j => sumn (N.to_nat n) (fun k => real_at num c (numbered "scl_fac" k) 0 * num (nth j (nth k cs []) dzero))).
  exists (map g (seq 0 m)). assert (HL : List.length (map g (seq 0 m)) = m) by (rewrite map_length, seq_length; auto).
  rewrite HL. split.
  - exists n. split; [apply get_flag_ok; auto|]. destruct (N.eqb_spec n 0); [contradiction|].
    exists cv, cs. rewrite HL. repeat split; auto.
    intros j b Hj. assert (J : (j < m)%nat).
    { assert (Q : nth_error (map g (seq 0 m)) j <> None) by congruence. apply nth_error_Some in Q. rewrite HL in Q. exact Q. }
    rewrite nth_error_map, (nth_error_nth' _ 0%nat) in Hj by (rewrite seq_length; auto). rewrite seq_nth in Hj by auto.
    cbn [option_map Nat.add] in Hj. apply some_eq in Hj. symmetry. exact Hj.
  - unfold slices. 
    assert (E1 : match cvs with (_, l) :: _ => List.length l | [] => 0%nat end = m).
    { rewrite S3. destruct cs as [|x cs]; [cbn [List.length] in S2; lia|].
      destruct (N.to_nat n) as [|n']; [cbn [List.length] in S2; lia|]. cbn [seq combine map fst snd]. rewrite map_length.
      destruct (S4 0%nat x eq_refl) as (_ & _ & _ & Q). exact Q. }
    rewrite E1. rewrite <- fold_map. apply fold_ext. intros T j Hj. apply in_seq in Hj. f_equal. f_equal. f_equal.
    unfold slice_K. rewrite S3. rewrite map_map, (rsum_sumn _ (0%nat, @nil double)).
    rewrite combine_length, seq_length, S2, Nat.min_id. unfold g. rewrite <- sumn_mul. apply sumn_ext. intros k Hk.
    rewrite combine_nth by (rewrite seq_length; auto). cbn [fst snd]. rewrite seq_nth by auto. cbn [Nat.add]. rewrite Hf. f_equal. f_equal.
    destruct (nth_error cs k) as [x|] eqn:Ex.
    2:{ apply nth_error_None in Ex. lia. }
    destruct (S4 k x Ex) as (_ & _ & _ & Q). rewrite (nth_error_nth _ _ _ Ex).
    rewrite (nth_indep _ 0 (num dzero)) by (rewrite map_length; lia). apply map_nth.
Qed.
End Courses.
