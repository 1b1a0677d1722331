(** Covariances stay covariances; the envelopes are those of the charge states. *)
From Coq Require Import Reals List String Bool NArith ZArith Arith Lia Lra.
From Verif Require Import SMap SMap_Proofs Dbl Config_Spec Mat Mat_Proofs Minv Minv_Proofs
  Machine_Model Machine_Spec Machine_Proofs Machine2_Proofs Machine4_Proofs
  Moment_Model Moment_Spec Moment_Proofs Moment2_Proofs Moment3_Proofs Moment4_Proofs.
Import ListNotations.
Open Scope R_scope.
Open Scope string_scope.
Open Scope list_scope.

(** ** Covariance matrices *)
Lemma cov_meq A B : meq 7 A B -> covariance A -> covariance B.
Proof.
  intros E [H1 H2]. split.
  - intros i j Hi Hj. rewrite <- !E by auto. auto.
  - intros v. specialize (H2 v). replace (dot 7 v (mapp 7 B v)) with (dot 7 v (mapp 7 A v)); [exact H2|].
    unfold dot. apply sumn_ext. intros k Hk. f_equal.
    unfold mapp. apply sumn_ext. intros l Hl. rewrite E by auto. reflexivity.
Qed.
Lemma dot_veq n u v u' v' : veq n u u' -> veq n v v' -> dot n u v = dot n u' v'.
Proof. intros H1 H2. unfold dot. apply sumn_ext. intros k Hk. rewrite H1, H2 by auto. reflexivity. Qed.
Lemma cov_sandwich A M : covariance M -> covariance (sandwich A M).
Proof.
  intros [H1 H2]. unfold sandwich, msize. split.
  - intros i j Hi Hj. unfold mmul, mtr. rewrite (sumn_ext _ _ (fun k => sumn 7 (fun l => A i l * M l k * A j k))).
    2:{ intros k Hk. rewrite <- sumn_scal_r. reflexivity. }
    rewrite sumn_swap. apply sumn_ext. intros k Hk. rewrite <- sumn_scal_r. apply sumn_ext. intros l Hl.
    rewrite (H1 k l) by auto. ring.
  - intros v. rewrite (dot_veq 7 v _ v (mapp 7 A (mapp 7 M (mapp 7 (mtr A) v)))).
    + rewrite dot_mapp. apply H2.
    + intros i _. reflexivity.
    + intros i Hi. rewrite (mapp_mmul 7 (mmul 7 A M) (mtr A) v i Hi). apply (mapp_mmul 7 A M _ i Hi).
Qed.
Lemma cov_zero : covariance (fun _ _ => 0).
Proof.
  split; [intros i j _ _; reflexivity|]. intros v. unfold dot, mapp. apply sumn_nonneg. intros k _.
  rewrite (sumn_ext _ _ (fun _ => 0)) by (intros; ring). rewrite sumn_0. lra.
Qed.
Lemma mapp_madd n A B v : veq n (mapp n (madd A B) v) (vadd (mapp n A v) (mapp n B v)).
Proof. intros i _. unfold mapp, madd, vadd. rewrite <- sumn_plus. apply sumn_ext. intros; ring. Qed.
Lemma dot_vadd n u v w : dot n u (vadd v w) = dot n u v + dot n u w.
Proof. unfold dot, vadd. rewrite <- sumn_plus. apply sumn_ext. intros; ring. Qed.
Lemma cov_add A B : covariance A -> covariance B -> covariance (madd A B).
Proof.
  intros [H1 H2] [H3 H4]. split.
  - intros i j Hi Hj. unfold madd. rewrite H1, H3; auto.
  - intros v. rewrite (dot_veq 7 v _ v (vadd (mapp 7 A v) (mapp 7 B v))); [|intros i _; reflexivity|apply mapp_madd].
    rewrite dot_vadd. specialize (H2 v). specialize (H4 v). lra.
Qed.
Lemma cov_scal x A : 0 <= x -> covariance A -> covariance (mscal x A).
Proof.
  intros Hx [H1 H2]. split.
  - intros i j Hi Hj. unfold mscal. rewrite H1; auto.
  - intros v. rewrite (dot_veq 7 v _ v (fun i => x * mapp 7 A v i)).
    + unfold dot. rewrite (sumn_ext _ _ (fun k => x * (v k * mapp 7 A v k))) by (intros; ring).
      rewrite sumn_scal. apply Rmult_le_pos; auto. apply H2.
    + intros i _; reflexivity.
    + intros i _. unfold mapp, mscal. rewrite <- sumn_scal. apply sumn_ext. intros; ring.
Qed.
Lemma cov_outer u : covariance (fun i j => u i * u j).
Proof.
  split; [intros i j _ _; cbv beta; ring|]. intros v. unfold dot, mapp.
  rewrite (sumn_ext _ _ (fun k => (v k * u k) * sumn 7 (fun l => u l * v l))).
  2:{ intros k _. rewrite <- !sumn_scal. apply sumn_ext. intros; ring. }
  rewrite sumn_scal_r. rewrite (sumn_ext _ (fun k => v k * u k) (fun l => u l * v l)) by (intros; ring).
  apply Rle_0_sqr.
Qed.

(** Scaling of rows and columns. *)
Definition diag (d : vec) : mat := fun i j => if Nat.eqb i j then d i else 0.
Lemma diag_sandwich d M : meq 7 (sandwich (diag d) M) (fun i j => d i * M i j * d j).
Proof.
  intros i j Hi Hj. unfold sandwich, msize, mmul, mtr.
  rewrite (sumn_single 7 j); [|auto|intros k Hk Hn; unfold diag; destruct (Nat.eqb_spec j k); [congruence|ring]].
  rewrite (sumn_single 7 i); [|auto|intros k Hk Hn; unfold diag; destruct (Nat.eqb_spec i k); [congruence|ring]].
  unfold diag. rewrite !Nat.eqb_refl. reflexivity.
Qed.
Definition dvec (a b c : R) : vec := fun i => match i with 1%nat => a | 3%nat => b | 5%nat => c | _ => 1 end.
(** One entry multiplied. *)
Definition mulat (i j : nat) (g : R) (M : mat) : mat := mset M i j (M i j * g).
Definition fac (i j : nat) (g : R) (a b : nat) : R := if (Nat.eqb a i && Nat.eqb b j)%bool then g else 1.
Lemma mulat_at i j g M a b : mulat i j g M a b = M a b * fac i j g a b.
Proof.
  unfold mulat, mset, fac. destruct (Nat.eqb_spec a i), (Nat.eqb_spec b j); simpl; subst; ring.
Qed.
Lemma scale_rows_mul fx fy fz M : scale_rows (fx, fy, fz) M =
  fold_left (fun M k => mulat k 5 fz (mulat 5 k fz (mulat k 3 fy (mulat 3 k fy (mulat k 1 fx (mulat 1 k fx M))))))
    [0;1;2;3;4;5;6]%nat M.
Proof. reflexivity. Qed.
Lemma scale_rows_diag fx fy fz M : meq 7 (fun i j => dvec fx fy fz i * M i j * dvec fx fy fz j) (scale_rows (fx, fy, fz) M).
Proof.
  rewrite scale_rows_mul. cbn [fold_left]. intros i j Hi Hj.
  do 7 (destruct i as [|i]; [do 7 (destruct j as [|j]; [rewrite !mulat_at; cbv [fac dvec Nat.eqb andb]; ring|]); lia|]); lia.
Qed.
Lemma cov_scale f M : covariance M -> covariance (scale_rows f M).
Proof.
  destruct f as [[fx fy] fz]. intros H. eapply cov_meq; [apply scale_rows_diag|].
  eapply cov_meq; [apply diag_sandwich|]. apply cov_sandwich; auto.
Qed.
Lemma grow1_mul g M : grow1 5 g M = fold_left (fun M k => mulat 5 k g (mulat k 5 g M)) [0;1;2;3;4;5]%nat M.
Proof. reflexivity. Qed.
Lemma grow2_mul gx gy M : grow2 gx gy M =
  fold_left (fun M k => mulat 3 k gy (mulat k 3 gy (mulat 1 k gx (mulat k 1 gx M)))) [0;1;2;3;4;5]%nat M.
Proof. reflexivity. Qed.
Lemma grow1_diag_flat g M : flat M -> meq 7 (fun i j => dvec 1 1 g i * M i j * dvec 1 1 g j) (grow1 5 g M).
Proof.
  intros F. assert (F6 : forall i, (i < 7)%nat -> M i 6%nat = 0) by (intros; apply F; auto).
  assert (F6' : forall i, (i < 7)%nat -> M 6%nat i = 0) by (intros; apply F; auto).
  rewrite grow1_mul. cbn [fold_left]. intros i j Hi Hj.
  do 7 (destruct i as [|i]; [do 7 (destruct j as [|j];
    [rewrite !mulat_at; rewrite ?F6, ?F6' by lia; cbv [fac dvec Nat.eqb andb]; ring|]); lia|]); lia.
Qed.
Lemma grow2_diag_flat gx gy M : flat M -> meq 7 (fun i j => dvec gx gy 1 i * M i j * dvec gx gy 1 j) (grow2 gx gy M).
Proof.
  intros F. assert (F6 : forall i, (i < 7)%nat -> M i 6%nat = 0) by (intros; apply F; auto).
  assert (F6' : forall i, (i < 7)%nat -> M 6%nat i = 0) by (intros; apply F; auto).
  rewrite grow2_mul. cbn [fold_left]. intros i j Hi Hj.
  do 7 (destruct i as [|i]; [do 7 (destruct j as [|j];
    [rewrite !mulat_at; rewrite ?F6, ?F6' by lia; cbv [fac dvec Nat.eqb andb]; ring|]); lia|]); lia.
Qed.

(** Flat matrices. *)
Lemma flat_meq A B : meq 7 A B -> flat A -> flat B.
Proof. intros E F i Hi. rewrite <- !E by lia. auto. Qed.
Lemma flat_diag d M : flat M -> flat (fun i j => d i * M i j * d j).
Proof. intros F i Hi. destruct (F i Hi) as [-> ->]. split; ring. Qed.
Definition fcov (M : mat) : Prop := covariance M /\ flat M.
Lemma fcov_diag d M : fcov M -> fcov (fun i j => d i * M i j * d j).
Proof.
  intros [H F]. split; [|apply flat_diag; auto]. eapply cov_meq; [apply diag_sandwich|]. apply cov_sandwich; auto.
Qed.
Lemma fcov_meq A B : meq 7 A B -> fcov A -> fcov B.
Proof. intros E [H F]. split; [eapply cov_meq; eauto|eapply flat_meq; eauto]. Qed.
Lemma fcov_scale f M : fcov M -> fcov (scale_rows f M).
Proof. destruct f as [[fx fy] fz]. intros H. eapply fcov_meq; [apply scale_rows_diag|]. apply fcov_diag; auto. Qed.
Lemma fcov_grow1 g M : fcov M -> fcov (grow1 5 g M).
Proof. intros H. eapply fcov_meq; [apply grow1_diag_flat; apply H|]. apply fcov_diag; auto. Qed.
Lemma fcov_grow2 gx gy M : fcov M -> fcov (grow2 gx gy M).
Proof. intros H. eapply fcov_meq; [apply grow2_diag_flat; apply H|]. apply fcov_diag; auto. Qed.

(** Affine matrices. *)
Lemma affine_id : affine mid.
Proof. intros j Hj. unfold mid. rewrite Nat.eqb_sym. reflexivity. Qed.
Lemma affine_row A f : affine A -> sumn 7 (fun k => A 6%nat k * f k) = f 6%nat.
Proof.
  intros H. rewrite (sumn_single 7 6); [rewrite H by lia; simpl; ring|lia|].
  intros k Hk Hn. rewrite H by auto. destruct (Nat.eqb_spec k 6); [congruence|ring].
Qed.
Lemma affine_mul A B : affine A -> affine B -> affine (mmul msize A B).
Proof. intros HA HB j Hj. unfold mmul, msize. rewrite (affine_row A (fun k => B k j)) by auto. auto. Qed.
Lemma affine_inv A B : affine A -> minv msize A = Some B -> affine B.
Proof.
  intros HA H. apply minv_some in H as [_ H]. intros j Hj. specialize (H 6%nat j ltac:(unfold msize; lia) Hj).
  unfold mmul, msize in H. rewrite (affine_row A (fun k => B k j)) in H by auto. rewrite H.
  unfold mid. rewrite Nat.eqb_sym. reflexivity.
Qed.
Lemma affine_set A i j x : (i < 6)%nat -> affine A -> affine (mset A i j x).
Proof. intros Hi H k Hk. unfold mset. destruct (Nat.eqb_spec 6 i); [lia|]. simpl. apply H; auto. Qed.
Lemma affine_ver : affine (mtr ver_rot).
Proof. intros j Hj. do 7 (destruct j as [|j]; [unfold mtr, ver_rot, mset, mid; simpl; reflexivity|]). lia. Qed.
Lemma unit_app A v : affine A -> unit_last v -> unit_last (mapp msize A v).
Proof. intros H Hv. unfold unit_last, mapp, msize. rewrite affine_row by auto. exact Hv. Qed.
Lemma unit_set v i x : (i < 6)%nat -> unit_last v -> unit_last (vset v i x).
Proof. intros Hi H. unfold unit_last, vset. destruct (Nat.eqb_spec 6 i); [lia|exact H]. Qed.
Lemma fcov_sandwich A M : affine A -> fcov M -> fcov (sandwich A M).
Proof.
  intros HA [H F]. split; [apply cov_sandwich; auto|].
  assert (S : symmetric (sandwich A M)) by apply (cov_sandwich A M H).
  assert (X : forall i, (i < 7)%nat -> sandwich A M i 6%nat = 0).
  { intros i Hi. unfold sandwich, msize. unfold mmul at 1. unfold mtr.
    rewrite (sumn_ext _ _ (fun k => A 6%nat k * mmul 7 A M i k)) by (intros; ring). rewrite affine_row by auto.
    unfold mmul. rewrite (sumn_ext _ _ (fun _ => 0)); [apply sumn_0|]. intros k Hk. destruct (F k Hk) as [-> _]. ring. }
  intros i Hi. split; [auto|]. rewrite S by lia. auto.
Qed.

(** ** Mixtures *)
Lemma mix_cov l e : (forall p v m, In (p, (v, m)) l -> 0 <= p_Q p /\ covariance m) ->
  covariance (fun i j => fold_right Rplus 0 (map (fun '(p, (v, m)) => p_Q p * (m i j + vsub v e i * vsub v e j)) l)).
Proof.
  induction l as [|[p [v m]] l IH]; intros H; [exact cov_zero|]. simpl.
  apply (cov_add (fun i j => p_Q p * (m i j + vsub v e i * vsub v e j))).
  - apply (cov_scal (p_Q p) (madd m (fun i j => vsub v e i * vsub v e j))).
    + apply (H p v m). left; auto.
    + apply cov_add; [apply (H p v m); left; auto|apply cov_outer].
  - apply IH. intros; apply (H p0 v0 m0); right; auto.
Qed.
Lemma mix_flat l e : unit_last e -> (forall p v m, In (p, (v, m)) l -> unit_last v /\ flat m) ->
  flat (fun i j => fold_right Rplus 0 (map (fun '(p, (v, m)) => p_Q p * (m i j + vsub v e i * vsub v e j)) l)).
Proof.
  intros He. induction l as [|[p [v m]] l IH]; intros H i Hi; [split; reflexivity|]. simpl.
  destruct (IH ltac:(intros; apply (H p0 v0 m0); right; auto) i Hi) as [-> ->].
  destruct (H p v m (or_introl eq_refl)) as [Hv Hm]. destruct (Hm i Hi) as [-> ->].
  unfold vsub. unfold unit_last in *. rewrite Hv, He. split; ring.
Qed.
Lemma total_nonneg real : (forall p, In p real -> 0 <= p_Q p) -> 0 <= total_charge real.
Proof.
  intros H. unfold total_charge. rewrite rsum_right. induction real as [|p l IH]; simpl; [lra|].
  pose proof (H p (or_introl eq_refl)). specialize (IH ltac:(intros; apply H; right; auto)). lra.
Qed.
Lemma env0_unit real m0 : List.length m0 = List.length real -> Forall unit_last m0 -> total_charge real <> 0 ->
  unit_last (env0_of real m0).
Proof.
  intros L F T. unfold unit_last, env0_of.
  assert (X : rsum (map (fun '(p, v) => v 6%nat * p_Q p) (combine real m0)) = total_charge real).
  { unfold total_charge. rewrite !rsum_right. clear T. revert m0 L F. induction real as [|p l IH]; intros [|v m0] L F; try discriminate; auto.
    simpl. inversion F; subst. rewrite IH by (auto; simpl in L; lia). unfold unit_last in H1. rewrite H1. ring. }
  rewrite X. field. exact T.
Qed.
Lemma combine_cells real m0 m1 p (v : vec) (m : mat) : In (p, (v, m)) (cells real m0 m1) -> In p real /\ In v m0 /\ In m m1.
Proof.
  unfold cells. intros H. split; [eapply in_combine_l; eauto|]. apply in_combine_r in H.
  split; [eapply in_combine_l; eauto|eapply in_combine_r; eauto].
Qed.

(** ** The stripper *)
(** The shape of what it leaves. *)
Lemma stripper_shape w c s s' : advance_stripper w c false s = Ok s' ->
  exists s1 chgd nchg amount ref phis Ek tmp s0,
    calc_rms w (ms_recalc s) = Ok s1 /\ vec_at c "IonChargeStates" = Some chgd /\ vec_at c "NCharge" = Some nchg /\
    (amount = map (w_num w) nchg \/ Forall (fun q => 0 <= q) amount) /\
    total_charge (ms_real s1) <> 0 /\
    (exists g gx gy, tmp = grow2 gx gy (grow1 5 g (fun i j =>
       rsum (map (fun '(p, (v, m)) => p_Q p * (m i j + vsub v (ms_env0 s1) i * vsub v (ms_env0 s1) j))
              (cells (ms_real s1) (ms_m0 s1) (ms_m1 s1))) / total_charge (ms_real s1)))) /\
    ms_real s0 = map (fun '(z, q) => recalc (mkP z q (p_Es ref) 0 0 0 0 (p_freq ref) 0 0 phis Ek))
                     (combine (map (w_num w) chgd) amount) /\
    ms_m0 s0 = map (fun _ => ms_env0 s1) (ms_real s0) /\ ms_m1 s0 = map (fun _ => tmp) (ms_real s0) /\
    calc_rms w s0 = Ok s'.
Proof.
  unfold advance_stripper. intros H. apply rbind_ok in H as (s1 & H1 & H). unfold stripper_getmat in H.
  apply rbind_ok in H as (chgd & C1 & H). apply get_vec_ok in C1. apply rbind_ok in H as (nchg & C2 & H). apply get_vec_ok in C2.
  cbv zeta in H. destruct (_ && _)%bool eqn:B1 in H; [discriminate|]. destruct (negb (_ || _)%bool); [discriminate|].
  apply rbind_ok in H as (amount & CA & H). destruct (_ || _)%bool in H; [discriminate|].
  do 6 (apply rbind_ok in H as (? & _ & H)).
  destruct (Req_EM_T _ 0) as [|TN]; [discriminate|]. destruct (Req_EM_T _ 0); [discriminate|]. destruct (Rlt_dec _ 0); [discriminate|].
  apply rbind_ok in H as (g & _ & H). apply rbind_ok in H as (gx & _ & H). apply rbind_ok in H as (gy & _ & H).
  match type of H with calc_rms w ?s0 = _ => set (S0 := s0) in * end.
  match goal with S0 := mkMS ?a ?r (map ?f ?l) ?b ?m ?e ?h ?i ?k ?n |- _ =>
    match f with context [mkP _ _ (p_Es ?ref) 0 0 0 0 _ 0 0 ?phis ?Ek] =>
      exists s1, chgd, nchg, amount, ref, phis, Ek;
      match m with map (fun _ => ?t) _ => exists t end end end.
  exists S0. repeat (split; [solve [auto | exact H1 | reflexivity | eauto]|]).
  split.
  { destruct (String.eqb _ _) in CA; [left; congruence|right].
    destruct (ms_real s1); [discriminate|]. unfold charge_stripper in CA. destruct (Rle_dec _ 0); [discriminate|].
    destruct (stripper_charge _ _) as [q dd]. destruct (Rle_dec dd 0); [discriminate|]. injection CA as <-.
    apply Forall_forall. intros y Hy. apply in_map_iff in Hy as (z & <- & _). unfold gaussian.
    apply Rmult_le_pos; [|left; apply exp_pos]. apply Rle_mult_inv_pos; [|lra].
    apply Rle_mult_inv_pos; [lra|]. apply sqrt_lt_R0. pose proof PI_RGT_0. lra. }
  repeat (split; [solve [auto | exact H | reflexivity | eauto 6]|]). exact H.
Qed.
Lemma strip_consistent w c s s' : advance_stripper w c false s = Ok s' -> consistent s'.
Proof.
  intros H. apply stripper_shape in H as (s1 & chgd & nchg & amount & ref & phis & Ek & tmp & s0 & _ & _ & _ & _ & _ & _ & _ & E0 & E1 & H).
  eapply calc_consistent; [| |exact H]; rewrite ?E0, ?E1, map_length; reflexivity.
Qed.
Lemma stripper_fcov w c s s' : aligned s -> Forall unit_last (ms_m0 s) -> Forall fcov (ms_m1 s) ->
  Forall (fun p => 0 <= p_Q p) (ms_real s) -> (forall l q, vec_at c "NCharge" = Some l -> In q l -> 0 <= w_num w q) ->
  advance_stripper w c false s = Ok s' ->
  Forall unit_last (ms_m0 s') /\ Forall fcov (ms_m1 s') /\ Forall (fun p => 0 <= p_Q p) (ms_real s').
Proof.
  intros A F0 F1 F2 HN H.
  apply stripper_shape in H as (s1 & chgd & nchg & amount & ref & phis & Ek & tmp & s0 & H1 & C1 & C2 & CA & T & ET & ER & E0 & E1 & H).
  apply calc_rms_ok in H as (_ & _ & R1 & R2 & R3 & _). rewrite R1, R2, R3.
  apply recalc_aligned in A. destruct A as (A1 & A2 & A3 & A4).
  apply calc_rms_ok in H1 as (_ & _ & K1 & K2 & K3 & _ & _ & K4 & _).
  assert (N : forall p, In p (ms_real s1) -> 0 <= p_Q p).
  { intros p Hp. rewrite K1 in Hp. simpl in Hp. apply in_map_iff in Hp as (q & <- & Hq).
    rewrite Forall_forall in F2. apply (F2 q Hq). }
  assert (U : unit_last (ms_env0 s1)).
  { rewrite K4. apply env0_unit; [rewrite A2; reflexivity|exact F0|]. rewrite <- K1. exact T. }
  assert (TP : 0 < total_charge (ms_real s1)) by (pose proof (total_nonneg _ N); lra).
  assert (X : fcov tmp).
  { destruct ET as (g & gx & gy & ->). apply fcov_grow2, fcov_grow1.
    set (f := fun i j => fold_right Rplus 0 (map (fun '(p, (v, m)) => p_Q p * (m i j + vsub v (ms_env0 s1) i * vsub v (ms_env0 s1) j))
              (cells (ms_real s1) (ms_m0 s1) (ms_m1 s1)))).
    assert (Y : fcov f).
    { rewrite Forall_forall in F0, F1. split.
      - apply mix_cov. intros p v m Hin. apply combine_cells in Hin as (B1 & B2 & B3). split; [auto|].
        rewrite K3 in B3. apply (F1 m B3).
      - apply mix_flat; [exact U|]. intros p v m Hin. apply combine_cells in Hin as (B1 & B2 & B3). rewrite K2 in B2. rewrite K3 in B3.
        split; [apply (F0 v B2)|apply (F1 m B3)]. }
    apply (fcov_meq (mscal (/ total_charge (ms_real s1)) f)).
    { intros i j _ _. unfold mscal, f. rewrite rsum_right. unfold Rdiv. ring. }
    destruct Y as [Y1 Y2]. split; [apply cov_scal; [left; apply Rinv_0_lt_compat; auto|exact Y1]|].
    intros i Hi. unfold mscal. destruct (Y2 i Hi) as [-> ->]. split; ring. }
  split; [|split].
  - rewrite E0. apply Forall_forall. intros v Hv. apply in_map_iff in Hv as (? & <- & _). exact U.
  - rewrite E1. apply Forall_forall. intros v Hv. apply in_map_iff in Hv as (? & <- & _). exact X.
  - rewrite ER. apply Forall_forall. intros p Hp. apply in_map_iff in Hp as ([z q] & <- & Hq). simpl.
    apply in_combine_r in Hq. destruct CA as [->|CA]; [|rewrite Forall_forall in CA; auto].
    apply in_map_iff in Hq as (y & <- & Hy). eauto.
Qed.

(** ** Sources *)
Lemma source_beam w (V : vec -> Prop) (C : mat -> Prop) (N : R -> Prop) c s :
  describes_beam (w_num w) V C N c -> new_state w c = Ok s ->
  Forall V (ms_m0 s) /\ Forall C (ms_m1 s) /\ Forall (fun p => N (p_Q p)) (ms_real s).
Proof.
  intros D H. apply state_contents in H as (_ & (A1 & A2 & A3 & _) & RF & _ & H). unfold describes_beam in D.
  destruct (vec_at c "IonChargeStates") as [zs|] eqn:EZ.
  - destruct D as (D1 & D2 & D3). destruct H as [_ H].
    assert (X : forall j, (j < List.length (ms_real s))%nat -> exists p v m, nth_error (ms_real s) j = Some p /\
      nth_error (ms_m0 s) j = Some v /\ nth_error (ms_m1 s) j = Some m /\ V v /\ C m /\ N (p_Q p)).
    { intros j Hj. destruct (nth_error (ms_real s) j) as [p|] eqn:E1; [|apply nth_error_None in E1; lia].
      destruct (nth_error (ms_m0 s) j) as [v|] eqn:E2; [|apply nth_error_None in E2; lia].
      destruct (nth_error (ms_m1 s) j) as [m|] eqn:E3; [|apply nth_error_None in E3; lia].
      destruct (H _ _ _ _ E1 E2 E3) as (k & _ & K). destruct K as (zs' & qs & z & q & lv & lm & ps & pe & K1 & K2 & K3 & K4 & K5 & K6 & _ & _ & _ & K7 & _ & _ & _ & _ & _ & K8 & K9).
      exists p, v, m. repeat (split; [eauto|]). rewrite K7. eapply D3; eauto. eapply nth_error_In; eauto. }
    split; [|split].
    + apply Forall_forall. intros v Hv. apply In_nth_error in Hv as (j & Hj).
      destruct (X j) as (p & v' & m & X1 & X2 & X3 & X4 & X5); [rewrite <- A2; apply nth_error_Some; congruence|]. congruence.
    + apply Forall_forall. intros v Hv. apply In_nth_error in Hv as (j & Hj).
      destruct (X j) as (p & v' & m & X1 & X2 & X3 & X4 & X5 & X6); [rewrite <- A3; apply nth_error_Some; congruence|]. congruence.
    + apply Forall_forall. intros v Hv. apply In_nth_error in Hv as (j & Hj).
      destruct (X j) as (p & v' & m & X1 & X2 & X3 & X4 & X5 & X6); [apply nth_error_Some; congruence|].
      assert (p = v) by congruence. subst; auto.
  - destruct D as ((lv & D1 & D2 & D3) & (lm & D4 & D5 & D6) & D7). destruct H as (H1 & H2 & H3).
    destruct (H2 _ D1 D2) as (v & E1 & V1). destruct (H3 _ D4 D5) as (m & E2 & V2). rewrite H1, E1, E2.
    repeat (split; [constructor; [auto|constructor]|]). constructor; [|constructor].
    unfold reference in RF. rewrite EZ in RF. destruct RF as (_ & _ & _ & _ & _ & _ & ->). exact D7.
Qed.

(** ** Machines *)
Lemma Reqb_true x y : Reqb x y = true -> x = y.
Proof. unfold Reqb. destruct (Req_EM_T x y); congruence. Qed.
Lemma map_fst_combine {A B} (l : list A) (l' : list B) : (List.length l <= List.length l')%nat -> map fst (combine l l') = l.
Proof. revert l'. induction l as [|x l IH]; intros [|y l']; simpl; intros H; auto; try lia. rewrite IH; auto. lia. Qed.
Lemma smooth_impl {D B} (J : bool -> B -> Prop) (Q Q' : tcfg -> Prop) : (forall c, Q c -> Q' c) ->
  forall us (m : machine D B), smooth J Q m us -> smooth J Q' m us.
Proof.
  intros H us. induction us as [|u us IH]; intros m; simpl; auto. intros [H1 H2]. split; [|auto].
  destruct u; simpl in *; auto.
Qed.

Section M.
Variable w : world.
Hypothesis W : sane w.

Lemma anything_fine : cav_fine w (fun _ _ => True).
Proof. repeat split; auto. Qed.

(** Envelopes. *)
Lemma envelopes c m es us st start max p :
  new_machine (moment_reg w) c = Ok m -> tfind "elements" c = Some (TCfgs es) ->
  Forall strips_to_some es -> smooth (fun _ => aligned) strips_to_some m us ->
  aligned (st_body st) -> consistent (st_body st) -> propagate (uses m us) st start max = Some p ->
  (forall ev, In ev (pr_events p) -> consistent (st_body (ev_state ev))) /\
  (forall st', pr_end p = Ok st' -> consistent (st_body st')).
Proof.
  intros Hm He HQ HS HA HC HP.
  assert (T1 : forall A (l : list A), Forall (fun _ => True) l) by (intros A l; induction l; auto).
  assert (IMP : forall c, strips_to_some c -> fair (fun _ => True) c) by (intros; split; auto).
  assert (X := preserved w (fun _ => True) (fun _ => True) (fun _ => True) ltac:(cbv beta; auto) ltac:(cbv beta; auto) ltac:(cbv beta; auto) ltac:(cbv beta; auto)
    ltac:(cbv beta; auto) ltac:(cbv beta; auto) ltac:(cbv beta; auto) ltac:(cbv beta; auto) ltac:(cbv beta; auto) ltac:(cbv beta; auto) True (fun _ _ => True)
    (fun _ => I) (fun _ _ _ _ _ => I) (fun _ => I) (fun _ _ => I) (fun _ _ => I) (fun _ _ _ => I) anything_fine (fun _ => True) ltac:(cbv beta; auto) (fun _ => True)).
  destruct (X) with (6 := He) (c := c) (m := m) (us := us) (st := st) (start := start) (max := max) (p := p) as [P1 P2]; auto.
  - intros c0 s s' _ _ _ A H. split; [|apply T1]. split; [exact A|]. split; [apply T1|]. split; [apply T1|]. intros _.
    eapply strip_consistent; eauto.
  - eapply Forall_impl; [|exact HQ]. auto.
  - eapply smooth_impl; [|exact HS]. auto.
  - split; [|apply T1]. split; [exact HA|]. repeat (split; [apply T1|]). auto.
  - split.
    + intros ev Hev. destruct (P1 ev Hev) as [(_ & _ & _ & H) _]. auto.
    + intros st' Hst. destruct (P2 st' Hst) as [(_ & _ & _ & H) _]. auto.
Qed.

(** Covariances, without strippers. *)
Lemma covariances c m es us st start max p :
  new_machine (moment_reg w) c = Ok m -> tfind "elements" c = Some (TCfgs es) ->
  Forall (bends_only (w_num w)) es -> smooth (fun _ => aligned) (bends_only (w_num w)) m us ->
  aligned (st_body st) -> Forall covariance (ms_m1 (st_body st)) -> propagate (uses m us) st start max = Some p ->
  (forall ev, In ev (pr_events p) -> Forall covariance (ms_m1 (st_body (ev_state ev)))) /\
  (forall st', pr_end p = Ok st' -> Forall covariance (ms_m1 (st_body st'))).
Proof.
  intros Hm He HQ HS HA HC HP.
  assert (T1 : forall A (l : list A), Forall (fun _ => True) l) by (intros A l; induction l; auto).
  assert (IMP : forall c, bends_only (w_num w) c -> fair (bends_only (w_num w)) c).
  { intros c0 [N H]. split; [split; auto|]. intros E. elim (N E). }
  assert (X := preserved w (fun _ => True) (fun _ => True) covariance ltac:(cbv beta; auto) ltac:(cbv beta; auto) ltac:(cbv beta; auto) ltac:(cbv beta; auto)
    ltac:(cbv beta; auto) ltac:(cbv beta; auto) ltac:(cbv beta; auto) ltac:(cbv beta; auto) ltac:(intros; apply cov_sandwich; auto) ltac:(intros; apply cov_scale; auto) False (fun _ _ => True)
    (fun _ => I) (fun _ _ _ _ _ => I) (fun _ => I) (fun _ _ => I) (fun _ _ => I) (fun _ _ _ => I) anything_fine (fun _ => True) ltac:(cbv beta; auto) (bends_only (w_num w))).
  destruct (X) with (6 := He) (c := c) (m := m) (us := us) (st := st) (start := start) (max := max) (p := p) as [P1 P2]; auto.
  - intros c0 s s' T [N _]. elim (N T).
  - intros c0 s T [_ D] H. specialize (D T). destruct (source_beam w _ _ _ _ _ D H) as (H1 & H2 & H3). auto.
  - eapply Forall_impl; [|exact HQ]. auto.
  - eapply smooth_impl; [|exact HS]. auto.
  - split; [|apply T1]. split; [exact HA|]. split; [apply T1|]. split; [exact HC|]. tauto.
  - split.
    + intros ev Hev. destruct (P1 ev Hev) as [(_ & _ & H & _) _]. auto.
    + intros st' Hst. destruct (P2 st' Hst) as [(_ & _ & H & _) _]. auto.
Qed.

Lemma same_ion_trans p q r : same_ion p q -> same_ion q r -> same_ion p r.
Proof. unfold same_ion. intuition congruence. Qed.
Lemma same_ion_req p q : peqb p q = true -> same_ion q p.
Proof.
  unfold peqb. intros H. repeat (apply andb_prop in H as [H ?]).
  repeat match goal with H : Reqb _ _ = true |- _ => apply Reqb_true in H end. unfold same_ion. auto.
Qed.
Lemma keep_fine : cavities_keep_ions w -> cav_fine w same_ion.
Proof. intros [H1 H2]. split; [|split]; eauto. intros. repeat split. Qed.

(** Covariances, with strippers. *)
Lemma covariances_strip c m es us st start max p :
  cavities_keep_ions w -> cavities_affine w ->
  new_machine (moment_reg w) c = Ok m -> tfind "elements" c = Some (TCfgs es) ->
  Forall (proper_entry (w_num w)) es -> smooth (fun _ => aligned) (proper_entry (w_num w)) m us ->
  aligned (st_body st) -> healthy (st_body st) -> propagate (uses m us) st start max = Some p ->
  (forall ev, In ev (pr_events p) -> healthy (st_body (ev_state ev))) /\
  (forall st', pr_end p = Ok st' -> healthy (st_body st')).
Proof.
  intros KI KA Hm He HQ HS HA (HC1 & HC2 & HC3) HP.
  assert (IMP : forall c, proper_entry (w_num w) c -> fair (proper_entry (w_num w)) c).
  { intros c0 H. split; auto. intros E. apply H. exact E. }
  assert (X := preserved w affine unit_last fcov affine_id affine_mul affine_inv affine_set affine_ver KA
    unit_app unit_set fcov_sandwich fcov_scale False same_ion
    ltac:(repeat split) same_ion_trans ltac:(repeat split) ltac:(repeat split) ltac:(repeat split) same_ion_req (keep_fine KI)
    (fun p => 0 <= p_Q p) ltac:(intros p0 q (_ & E & _) H; rewrite E; exact H) (proper_entry (w_num w))).
  destruct (X) with (6 := He) (c := c) (m := m) (us := us) (st := st) (start := start) (max := max) (p := p) as [P1 P2]; auto.
  - intros c0 s s' T D [(A & F0 & F1 & _) F2] A' H.
    destruct (stripper_fcov w c0 s s' A F0 F1 F2) as (B1 & B2 & B3); [apply D; exact T|exact H|]. split; auto. split; auto. split; auto.
    split; [exact B2|tauto].
  - intros c0 s T D H. destruct D as [D _]. specialize (D T). destruct (source_beam w _ _ _ _ _ D H) as (H1 & H2 & H3). auto.
  - intros c0 l T D H. apply load_storage_ok in H as (E & L). destruct D as (_ & _ & D).
    apply (D T l _ E). apply fills_mat_of; auto.
  - eapply Forall_impl; [|exact HQ]. auto.
  - eapply smooth_impl; [|exact HS]. auto.
  - split; [|exact HC3]. split; [exact HA|]. split; [exact HC1|]. split; [exact HC2|]. tauto.
  - split.
    + intros ev Hev. destruct (P1 ev Hev) as [(_ & H1 & H2 & _) H3]. split; auto.
    + intros st' Hst. destruct (P2 st' Hst) as [(_ & H1 & H2 & _) H3]. split; auto.
Qed.

(** Ions. *)
Lemma ions_kept c m es us st start max p :
  cavities_keep_ions w ->
  new_machine (moment_reg w) c = Ok m -> tfind "elements" c = Some (TCfgs es) ->
  Forall keeps_ions es -> smooth (fun _ => aligned) keeps_ions m us ->
  aligned (st_body st) -> propagate (uses m us) st start max = Some p ->
  (forall ev, In ev (pr_events p) -> same_ions (st_body st) (st_body (ev_state ev))) /\
  (forall st', pr_end p = Ok st' -> same_ions (st_body st) (st_body st')).
Proof.
  intros KI Hm He HQ HS HA HP.
  apply (machine_kept w same_ion ltac:(repeat split) same_ion_trans ltac:(repeat split) ltac:(repeat split) ltac:(repeat split)
    same_ion_req keeps_ions ltac:(intros ? []; auto) ltac:(intros ? []; auto) ltac:(intros; apply keep_fine; auto) W c m es us st start max p); auto.
Qed.
Definition same_Ek (p q : particle) : Prop := same_ion p q /\ p_Ek q = p_Ek p.
Lemma energies_kept c m es us st start max p :
  new_machine (moment_reg w) c = Ok m -> tfind "elements" c = Some (TCfgs es) ->
  Forall keeps_energies es -> smooth (fun _ => aligned) keeps_energies m us ->
  aligned (st_body st) -> propagate (uses m us) st start max = Some p ->
  (forall ev, In ev (pr_events p) -> same_ions (st_body st) (st_body (ev_state ev)) /\ same_energies (st_body st) (st_body (ev_state ev))) /\
  (forall st', pr_end p = Ok st' -> same_ions (st_body st) (st_body st') /\ same_energies (st_body st) (st_body st')).
Proof.
  intros Hm He HQ HS HA HP.
  assert (X : forall s s', kept same_Ek s s' -> same_ions s s' /\ same_energies s s').
  { intros s s' [[H1 H2] H3]. split; split; auto; 
    clear - H3; induction H3 as [|a b l l' [E1 E2] H IH]; constructor; auto. }
  assert (R : forall p q, peqb p q = true -> same_Ek q p).
  { intros a b H. split; [apply same_ion_req; auto|]. unfold peqb in H. repeat (apply andb_prop in H as [H ?]).
    repeat match goal with H : Reqb _ _ = true |- _ => apply Reqb_true in H end. auto. }
  destruct (machine_kept w same_Ek ltac:(repeat split) ltac:(intros ? ? ? [] []; split; [eapply same_ion_trans; eauto|congruence])
    ltac:(repeat split) ltac:(repeat split) ltac:(repeat split)
    R keeps_energies ltac:(intros ? [[] ?]; auto) ltac:(intros ? [[] ?]; auto) ltac:(intros ? [_ N] T; elim (N T)) W c m es us st start max p) as [P1 P2]; auto.
Qed.
End M.

(** ** One state *)
Lemma over_split s f g : over_states s (fun v m => f v m + g v m) = over_states s f + over_states s g.
Proof.
  unfold over_states. induction (combine _ _) as [|[p [v m]] l IH]; simpl; [lra|]. rewrite IH. ring.
Qed.
Lemma over_scal s x f : over_states s (fun v m => x * f v m) = x * over_states s f.
Proof.
  unfold over_states. induction (combine _ _) as [|[p [v m]] l IH]; simpl; [lra|]. rewrite IH. ring.
Qed.
Lemma over_le s f g : (forall p, In p (ms_real s) -> 0 <= p_Q p) ->
  (forall p v m, In (p, (v, m)) (combine (ms_real s) (combine (ms_m0 s) (ms_m1 s))) -> f v m <= g v m) ->
  over_states s f <= over_states s g.
Proof.
  intros N H. unfold over_states.
  assert (N' : forall p v m, In (p, (v, m)) (combine (ms_real s) (combine (ms_m0 s) (ms_m1 s))) -> 0 <= p_Q p).
  { intros p v m Hin. apply N. eapply in_combine_l; eauto. }
  induction (combine _ _) as [|[p [v m]] l IH]; simpl; [lra|].
  pose proof (H p v m (or_introl eq_refl)). pose proof (N' p v m (or_introl eq_refl)).
  specialize (IH ltac:(intros; eapply H; right; eauto) ltac:(intros; eapply N'; right; eauto)).
  apply Rplus_le_compat; auto. apply Rmult_le_compat_l; auto.
Qed.
Lemma over_pos s : aligned s -> weighted s -> 0 < over_states s (fun _ _ => 1).
Proof.
  intros (A0 & A1 & A2 & _) (N & p & Hp & HQ). unfold over_states.
  apply In_nth_error in Hp as (k & Hk).
  assert (X : In p (map fst (combine (ms_real s) (combine (ms_m0 s) (ms_m1 s))))).
  { rewrite map_fst_combine; [eapply nth_error_In; eauto|]. rewrite combine_length. lia. }
  assert (N' : forall x, In x (combine (ms_real s) (combine (ms_m0 s) (ms_m1 s))) -> 0 <= p_Q (fst x)).
  { intros [q vm] Hin. apply N. eapply in_combine_l; eauto. }
  induction (combine _ _) as [|[q [v m]] l IH]; [destruct X|]. simpl in *.
  assert (0 <= p_Q q) by (apply (N' (q, (v, m))); auto).
  assert (Z : forall l', (forall x, In x l' -> 0 <= p_Q (fst x)) ->
    0 <= fold_right Rplus 0 (map (fun '(p, (v, m)) => p_Q p * 1) (l' : list (particle * (vec * mat))))).
  { induction l' as [|[q' [v' m']] l' IH']; simpl; intros F; [lra|]. pose proof (F _ (or_introl eq_refl)). simpl in *.
    specialize (IH' ltac:(intros; apply F; auto)). lra. }
  destruct X as [->|X].
  - specialize (Z l ltac:(intros; apply N'; auto)). lra.
  - specialize (IH X ltac:(intros; apply N'; auto)). lra.
Qed.
Lemma between s lo hi i : aligned s -> weighted s -> consistent s -> (i < 7)%nat ->
  Forall (fun v : vec => lo <= v i <= hi) (ms_m0 s) -> lo <= ms_env0 s i <= hi.
Proof.
  intros A Wt C Hi F. pose proof (over_pos s A Wt) as Pp. destruct (C ltac:(lra)) as (E & _). specialize (E i Hi).
  set (T := over_states s (fun _ _ => 1)) in *.
  assert (X : forall p v m, In (p, (v, m)) (combine (ms_real s) (combine (ms_m0 s) (ms_m1 s))) -> lo <= v i <= hi).
  { intros p v m H. apply in_combine_r, in_combine_l in H. rewrite Forall_forall in F. auto. }
  assert (L : lo * T <= T * ms_env0 s i).
  { rewrite E. unfold T. rewrite <- over_scal. apply over_le; [apply Wt|]. intros p v m H. specialize (X p v m H). lra. }
  assert (U : T * ms_env0 s i <= hi * T).
  { rewrite E. unfold T. rewrite <- over_scal. apply over_le; [apply Wt|]. intros p v m H. specialize (X p v m H). lra. }
  split; apply Rmult_le_reg_l with T; auto; lra.
Qed.
Lemma env_cov s : aligned s -> weighted s -> consistent s -> Forall covariance (ms_m1 s) -> covariance (ms_env1 s).
Proof.
  intros A Wt C F. pose proof (over_pos s A Wt) as Pp. destruct (C ltac:(lra)) as (_ & E & Fl & _).
  set (T := over_states s (fun _ _ => 1)) in *.
  set (cut := fun i => if Nat.ltb i 6 then 1 else 0).
  set (f := fun i j => over_states s (fun v m => m i j + vsub v (ms_env0 s) i * vsub v (ms_env0 s) j)).
  apply (cov_meq (sandwich (diag cut) (mscal (/ T) f))).
  2:{ apply cov_sandwich, cov_scal; [left; apply Rinv_0_lt_compat; auto|]. apply mix_cov.
      intros p v m H. split; [apply Wt; eapply in_combine_l; eauto|]. apply in_combine_r, in_combine_r in H.
      rewrite Forall_forall in F; auto. }
  intros i j Hi Hj. rewrite diag_sandwich by auto. unfold cut, mscal.
  destruct (Nat.ltb_spec i 6), (Nat.ltb_spec j 6).
  - specialize (E i j ltac:(cbv beta; auto) ltac:(cbv beta; auto)). unfold f, vsub. rewrite <- E. field. lra.
  - assert (j = 6%nat) by lia. subst. destruct (Fl i Hi) as [-> _]. ring.
  - assert (i = 6%nat) by lia. subst. destruct (Fl j Hj) as [_ ->]. ring.
  - assert (j = 6%nat) by lia. subst. destruct (Fl i Hi) as [-> _]. ring.
Qed.

(** ** A stripper spoils a covariance that varies the constant component *)
Lemma stripped_one w s p v M z : ms_real s = [p] -> p_Q p = 1 -> ms_m0 s = [v] -> ms_m1 s = [M] ->
  List.length (ms_tm s) = 1%nat -> (forall i, (i < 6)%nat -> M i i = 1) ->
  exists s' g gx gy tmp, advance_stripper w (foil_off [z] [z]) false s = Ok s' /\ meq 7 tmp M /\ 1 < g /\
    ms_m1 s' = [grow2 gx gy (grow1 5 g tmp)].
Proof.
  intros ER EQ E0 E1 ET ED. unfold advance_stripper.
  assert (A : aligned (ms_recalc s)).
  { unfold aligned, ms_recalc. simpl. rewrite ER, E0, E1, ET. repeat split. discriminate. }
  destruct (calc_rms_aligned w _ A) as (s1 & H1 & A1). pose proof (calc_rms_ok _ _ _ H1) as (_ & _ & R1 & R2 & R3 & _ & _ & R4 & _).
  rewrite H1. cbn [rbind]. simpl in R1, R2, R3. rewrite ER in R1. rewrite E0 in R2. rewrite E1 in R3. simpl in R1.
  unfold stripper_getmat.
  change (get_vec (foil_off [z] [z]) "IonChargeStates") with (@Ok (list double) [z]).
  change (get_vec (foil_off [z] [z]) "NCharge") with (@Ok (list double) [z]). cbn [rbind].
  change (get_str_def (foil_off [z] [z]) "charge_model" "baron") with "off". cbv zeta.
  change (String.eqb "off" "off") with true. cbn [List.length Nat.eqb andb orb negb].
  rewrite R1, R2, R3. cbn [rbind List.length Nat.ltb Nat.leb orb].
  unfold vec_def. change (tfind "Stripper_Para" (foil_off [z] [z])) with (@None tval).
  change (tfind "Stripper_E0Para" (foil_off [z] [z])) with (@None tval). cbn [at_ nth_error rbind map combine].
  assert (T1 : total_charge [recalc p] = 1) by (unfold total_charge, rsum; simpl; rewrite EQ; ring).
  rewrite T1. unfold num_def.
  change (tfind "Stripper_lambda" (foil_off [z] [z])) with (@None tval).
  change (tfind "Stripper_upara" (foil_off [z] [z])) with (@None tval).
  change (tfind "Stripper_E1Para" (foil_off [z] [z])) with (@None tval).
  destruct (Req_EM_T 1 0); [lra|]. destruct (Req_EM_T (5574 / 1000) 0); [lra|]. destruct (Rlt_dec (26903 / 10000) 0); [lra|].
  match goal with |- context [grow1 5 _ ?M] => set (tmp := M) in * end.
  assert (T0 : forall i j, tmp i j = M i j).
  { intros i j. unfold tmp, cells, rsum, vsub. simpl. rewrite EQ. rewrite R4. simpl. rewrite ER, E0. unfold env0_of, rsum. simpl.
    rewrite T1, EQ. field. }
  assert (T : forall i, (i < 6)%nat -> tmp i i = 1) by (intros; rewrite T0; auto).
  match goal with |- context [growth_rate ?a (?a + _ + _)] => change a with (tmp 5%nat 5%nat) end. rewrite T by lia.
  match goal with |- context [growth_rate 1 ?b] => assert (G : 1 < b) end.
  { match goal with |- 1 < 1 + ?a + ?b => assert (0 < a) by (apply Rsqr_pos_lt; lra); assert (0 <= b) by apply Rle_0_sqr end. lra. }
  match goal with |- context [growth_rate ?a ?b] => destruct (growth_some a b) as [g Hg] end; [lra|lra|].
  rewrite Hg. cbn [rbind]. rewrite !grow1_diag by lia. rewrite !T by lia.
  match goal with |- context [growth_rate ?a ?b] => destruct (growth_some a b) as [gx Hx] end; [lra| |].
  { match goal with |- 0 <= 1 + ?a => assert (0 <= a) by apply Rle_0_sqr end. lra. }
  rewrite Hx. cbn [rbind].
  match goal with |- context [calc_rms w ?s0] => destruct (calc_rms_aligned w s0) as (s' & HS & _) end.
  { unfold aligned. simpl. repeat split. discriminate. }
  exists s', g, gx, gx, tmp. split; [exact HS|]. split; [intros i j _ _; apply T0|]. split.
  - unfold growth_rate in Hg. destruct (Req_EM_T 1 0); [lra|]. destruct (Rlt_dec _ 0); [discriminate|]. injection Hg as <-.
    unfold Rdiv. rewrite Rinv_1, Rmult_1_r. pose proof (sqrt_lt_1 _ _ Rle_0_1 (Rle_trans _ _ _ Rle_0_1 (Rlt_le _ _ G)) G) as X.
    rewrite sqrt_1 in X. exact X.
  - apply calc_rms_ok in HS as (_ & _ & _ & _ & ->  & _). reflexivity.
Qed.
Lemma grown_at g gx gy tmp i j : meq 7 tmp (fun _ _ => 1) -> (i = 0 \/ i = 5 \/ i = 6)%nat -> (j = 0 \/ j = 5 \/ j = 6)%nat ->
  grow2 gx gy (grow1 5 g tmp) i j
  = (if Nat.eqb i 5 then if Nat.eqb j 6 then 1 else g else 1) * (if Nat.eqb j 5 then if Nat.eqb i 6 then 1 else g else 1).
Proof.
  intros E Hi Hj. rewrite grow2_mul, grow1_mul. cbn [fold_left]. rewrite !mulat_at. rewrite E by lia.
  destruct Hi as [->|[->| ->]]; destruct Hj as [->|[->| ->]]; cbv [fac Nat.eqb andb]; ring.
Qed.
Lemma spoiled_at g (M : mat) : 1 < g ->
  (forall i j, (i = 0 \/ i = 5 \/ i = 6)%nat -> (j = 0 \/ j = 5 \/ j = 6)%nat ->
   M i j = (if Nat.eqb i 5 then if Nat.eqb j 6 then 1 else g else 1) * (if Nat.eqb j 5 then if Nat.eqb i 6 then 1 else g else 1)) ->
  ~ semidefinite M.
Proof.
  intros G N H. specialize (H (fun i => match i with 0%nat => - g * / (g - 1) | 5%nat => / (g - 1) | 6%nat => 1 | _ => 0 end)).
  unfold dot, mapp in H. cbn [sumn] in H. 
  rewrite (N 0%nat 0%nat), (N 0%nat 5%nat), (N 0%nat 6%nat), (N 5%nat 0%nat), (N 5%nat 5%nat), (N 5%nat 6%nat), (N 6%nat 0%nat), (N 6%nat 5%nat), (N 6%nat 6%nat) in H by auto. cbn [Nat.eqb] in H.
  match type of H with 0 <= ?x => assert (X : x = -1) end; [field; lra|]. lra.
Qed.
Lemma spoiled g gx gy tmp : 1 < g -> meq 7 tmp (fun _ _ => 1) -> ~ semidefinite (grow2 gx gy (grow1 5 g tmp)).
Proof. intros G E. apply (spoiled_at g); auto. intros. apply grown_at; auto. Qed.
Definition ones : mstate :=
  let p := recalc (mkP (1 / 2) 1 931000000 0 0 0 0 80500000 0 0 0 1000000) in
  mkMS 0 p [p] [fun i => if Nat.eqb i 6 then 1 else 0] [fun _ _ => 1] [mid] (fun _ => 0) (fun _ => 0) mid 0.
Lemma ones_cov : covariance (fun _ _ => 1).
Proof. apply (cov_meq (fun i j => (fun _ => 1) i * (fun _ => 1) j)); [intros i j _ _; simpl; ring|]. apply cov_outer. Qed.
Lemma C31_stripper_refuted_w : forall w, exists m p st',
  new_machine (moment_reg w) (mconf [foil_off [done] [done]]) = Ok m /\
  aligned ones /\ weighted ones /\ Forall covariance (ms_m1 ones) /\
  propagate m (mkSt 0 false ones) 0 1 = Some p /\ pr_end p = Ok st' /\
  exists M, In M (ms_m1 (st_body st')) /\ ~ semidefinite M.
Proof.
  intros w. destruct (stripped_one w ones _ _ _ done eq_refl eq_refl eq_refl eq_refl eq_refl) as (s' & g & gx & gy & tmp & H & E & G & F).
  { reflexivity. }
  assert (X : exists m e0, new_machine (moment_reg w) (mconf [foil_off [done] [done]]) = Ok m /\
    m_elems m = [e0] /\ el_class e0 = mom_class w KStripper /\ eb_conf (el_base e0) = foil_off [done] [done]).
  { do 2 eexists. split; [reflexivity|]. repeat split. }
  destruct X as (m & e0 & Hm & He & K0 & C0).
  destruct (run_one m (mkSt 0 false ones) 0 e0 (el_data e0) (mkSt 1 false s')) as (p & P1 & P2 & _).
  { rewrite He. reflexivity. }
  { rewrite K0. cbn [cl_advance mom_class]. unfold mom_advance. cbn [advance_of st_retreat st_body]. rewrite C0, H. reflexivity. }
  exists m, p, (mkSt 1 false s'). split; [exact Hm|]. split; [repeat split; discriminate|]. split.
  { split; [intros q [<-|[]]; simpl; lra|]. eexists. split; [left; reflexivity|]. simpl. lra. }
  split; [constructor; [apply ones_cov|constructor]|]. split; [exact P1|]. split; [exact P2|]. cbn [st_body]. rewrite F.
  eexists. split; [left; reflexivity|]. apply spoiled; auto.
Qed.

(** ** Examples *)
Definition shallow : mat := fun i j => if (Nat.eqb i j && Nat.ltb i 6)%bool then 1 else 0.
Lemma shallow_fcov : fcov shallow.
Proof.
  apply (fcov_meq (sandwich (diag (fun i => if Nat.ltb i 6 then 1 else 0)) mid)).
  - intros i j Hi Hj. rewrite diag_sandwich by auto. unfold mid, shallow.
    destruct (Nat.eqb_spec i j); subst; simpl; [destruct (Nat.ltb j 6); ring|ring].
  - split; [apply cov_sandwich|].
    + split; [intros i j _ _; unfold mid; rewrite Nat.eqb_sym; reflexivity|]. intros v.
      rewrite (dot_veq 7 v (mapp 7 mid v) v v); [|intros i _; reflexivity|].
      * unfold dot. apply sumn_nonneg. intros. apply Rle_0_sqr.
      * intros i Hi. unfold mapp, mid. rewrite (sumn_single 7 i); auto; [rewrite Nat.eqb_refl; ring|].
        intros k _ Hn. destruct (Nat.eqb_spec i k); [congruence|ring].
    + apply (flat_meq (fun i j => (if Nat.ltb i 6 then 1 else 0) * mid i j * (if Nat.ltb j 6 then 1 else 0))).
      * intros i j Hi Hj. symmetry. apply (diag_sandwich (fun i => if Nat.ltb i 6 then 1 else 0)); auto.
      * intros i Hi. simpl. split; ring.
Qed.
(** Two charge states, equally weighted. *)
Definition beam2 : mstate :=
  let p := recalc (mkP (1 / 2) 1 931000000 0 0 0 0 80500000 0 0 0 1000000) in
  let v x : vec := fun i => match i with 0%nat => x | 6%nat => 1 | _ => 0 end in
  mkMS 0 p [p; p] [v 1; v 3] [shallow; shallow] [mid; mid] (fun _ => 0) (fun _ => 0) mid 0.
Lemma beam2_aligned : aligned beam2.
Proof. repeat split. discriminate. Qed.
Lemma beam2_healthy : healthy beam2.
Proof.
  split; [|split].
  - repeat constructor.
  - constructor; [apply shallow_fcov|]. constructor; [apply shallow_fcov|constructor].
  - assert (0 <= 1) by lra. constructor; [exact H|]. constructor; [exact H|constructor].
Qed.
(** The same with the envelope as calculated. *)
Lemma beam2_settled (w : world) : exists s, aligned s /\ weighted s /\ consistent s /\ Forall covariance (ms_m1 s) /\
  ms_m0 s = ms_m0 beam2 /\ List.length (ms_real s) = 2%nat.
Proof.
  destruct (calc_rms_aligned w beam2 beam2_aligned) as (s & H & A). pose proof (calc_rms_ok _ _ _ H) as (_ & _ & R1 & R2 & R3 & _).
  exists s. split; [exact A|]. rewrite R3, R2. split; [|split; [|split; [|split]]].
  - unfold weighted. rewrite R1. split; [intros p [<-|[<-|[]]]; simpl; lra|]. eexists. split; [left; reflexivity|]. simpl. lra.
  - eapply calc_consistent; [| |exact H]; reflexivity.
  - constructor; [apply shallow_fcov|]. constructor; [apply shallow_fcov|constructor].
  - reflexivity.
  - rewrite R1. reflexivity.
Qed.
Definition plain_line : list tcfg :=
  [TCfg [("L", TNum done); ("name", TStr "d"); ("type", TStr "drift")] [];
   TCfg [("L", TNum done); ("B2", TNum done); ("name", TStr "q"); ("type", TStr "quadrupole")] [];
   TCfg [("name", TStr "m"); ("type", TStr "marker")] []].
Definition cav_line : list tcfg :=
  TCfg [("L", TNum done); ("name", TStr "c"); ("type", TStr "rfcavity")] [] :: plain_line.
Lemma plain_energies : Forall keeps_energies plain_line.
Proof. repeat constructor; unfold not_a; discriminate. Qed.
Lemma cav_ions : Forall keeps_ions cav_line.
Proof. repeat constructor; unfold not_a; discriminate. Qed.
Lemma cav_bends num : Forall (bends_only num) cav_line.
Proof. repeat constructor; unfold not_a, is_a; try discriminate; intros; discriminate. Qed.
Lemma line2_proper : Forall (proper_entry (fun _ => 1)) line2.
Proof.
  unfold line2. repeat (apply Forall_cons; [unfold proper_entry, is_a; split; [discriminate|split; [|discriminate]];
    first [discriminate|intros _; split; [discriminate|intros; lra]]|]). constructor.
Qed.
Lemma world0_cavities num a : cavities_keep_ions (world0 num a) /\ cavities_affine (world0 num a).
Proof.
  split; [split|].
  - intros c p p' phi H. injection H as <- <-. repeat split.
  - intros c phi p T p' H. injection H as <-. repeat split.
  - intros c phi p T H. exact H.
Qed.
Lemma alloc_consistent w cm m c st : new_machine (moment_reg w) cm = Ok m -> alloc_state m c = Ok st -> consistent (st_body st).
Proof.
  intros Hm H. destruct (new_moment w _ _ Hm) as (_ & _ & _ & HI). unfold alloc_state in H. rewrite HI in H. cbn [si_build mom_info] in H.
  apply rbind_ok in H as (s & H & E). injection E as <-. cbn [st_body]. eapply new_consistent; eauto.
Qed.
