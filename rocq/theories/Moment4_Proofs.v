(** What every element preserves of centroids and covariances. *)
From Coq Require Import Reals List String Bool NArith ZArith Arith Lia Lra.
From Verif Require Import SMap SMap_Proofs Dbl Config_Spec Mat Mat_Proofs Minv Minv_Proofs
  Machine_Model Machine_Spec Machine_Proofs Machine2_Proofs Machine4_Proofs
  Moment_Model Moment_Spec Moment_Proofs Moment2_Proofs Moment3_Proofs.
Import ListNotations.
Open Scope R_scope.
Open Scope string_scope.
Open Scope list_scope.

(** ** calc_rms *)
Lemma rsum_right l : rsum l = fold_right Rplus 0 l.
Proof.
  unfold rsum. assert (H : forall a, fold_left Rplus l a = a + fold_right Rplus 0 l).
  { induction l as [|x l IH]; intros a; simpl; [ring|]. rewrite IH. ring. }
  rewrite H. ring.
Qed.
Lemma sum_states_1 real m0 m1 : List.length m0 = List.length real -> List.length m1 = List.length real ->
  fold_right Rplus 0 (map ((fun '(p, (_, _)) => p_Q p * 1) : particle * (vec * mat) -> R) (combine real (combine m0 m1))) = total_charge real.
Proof.
  unfold total_charge. rewrite rsum_right. revert m0 m1. induction real as [|p real IH]; intros [|v m0] [|m m1] H1 H2;
    try discriminate; simpl in *; auto. rewrite IH by lia. ring.
Qed.
Lemma sum_states_v (i : nat) real (m0 : list vec) (m1 : list mat) : List.length m0 = List.length real -> List.length m1 = List.length real ->
  fold_right Rplus 0 (map (fun '(p, (v, _)) => p_Q p * v i) (combine real (combine m0 m1)))
  = rsum (map (fun '(p, v) => v i * p_Q p) (combine real m0)).
Proof.
  rewrite rsum_right. revert m0 m1. induction real as [|p real IH]; intros [|v m0] [|m m1] H1 H2;
    try discriminate; simpl in *; auto. rewrite IH by lia. ring.
Qed.
Lemma calc_consistent w s s' : List.length (ms_m0 s) = List.length (ms_real s) ->
  List.length (ms_m1 s) = List.length (ms_real s) -> calc_rms w s = Ok s' -> consistent s'.
Proof.
  intros L0 L1 H. apply calc_rms_ok in H as (_ & _ & E1 & E2 & E3 & _ & _ & E4 & E5 & E6).
  unfold consistent, over_states. rewrite E1, E2, E3.
  assert (T : fold_right Rplus 0 (map ((fun '(p, (_, _)) => p_Q p * 1) : particle * (vec * mat) -> R) (combine (ms_real s) (combine (ms_m0 s) (ms_m1 s))))
    = total_charge (ms_real s)) by (apply sum_states_1; auto).
  cbv zeta. rewrite T. intros W. split; [|split; [|split]].
  - intros i _. rewrite E4. unfold env0_of. rewrite <- (sum_states_v i _ _ (ms_m1 s)) by auto.
    match goal with |- _ * (?X / _) = _ => transitivity X; [field; auto|reflexivity] end.
  - intros i j Hi Hj. rewrite E5. unfold env1_of.
    destruct (Nat.ltb_spec i 6); [|lia]. destruct (Nat.ltb_spec j 6); [|lia]. cbn [andb]. rewrite rsum_right. unfold cells, vsub.
    match goal with |- _ * (?X / _) = _ => transitivity X; [field; auto|reflexivity] end.
  - intros i _. rewrite E5. unfold env1_of. cbn [Nat.ltb Nat.leb]. rewrite andb_false_r. cbn [andb]. split; field; auto.
  - intros i _. rewrite E6. split; [apply sqrt_pos|]. intros P. apply sqrt_sqrt. exact P.
Qed.

(** ** Elements *)
Section Steps.
Variable w : world.
Variable P : mat -> Prop.        (* transfer matrices *)
Variable V : vec -> Prop.        (* centroids *)
Variable C : mat -> Prop.        (* covariances *)
Hypothesis Pid : P mid.
Hypothesis Pmul : forall A B, P A -> P B -> P (mmul msize A B).
Hypothesis Pinv : forall A B, P A -> minv msize A = Some B -> P B.
Hypothesis Pset : forall A i j x, (i < 6)%nat -> P A -> P (mset A i j x).
Hypothesis Pver : P (mtr ver_rot).
Hypothesis Pcav : forall c phi p T, P T -> P (fst (w_cav_one w c phi p T)).
Hypothesis Sapp : forall A v, P A -> V v -> V (mapp msize A v).
Hypothesis Sset : forall v i x, (i < 6)%nat -> V v -> V (vset v i x).
Hypothesis Csand : forall A m, P A -> C m -> C (sandwich A m).
Hypothesis Cscale : forall f m, C m -> C (scale_rows f m).

Ltac pset := repeat (apply Pset; [unfold PS_X, PS_PX, PS_Y, PS_PY, PS_S, PS_PS; lia|]).

Lemma P_rot dx dy tx ty tz : P (rot_mat dx dy tx ty tz).
Proof. unfold rot_mat. cbv zeta. apply Pmul; pset; exact Pid. Qed.
Lemma P_quad_plane L K ind M : (ind < 5)%nat -> P M -> P (quad_plane L K ind M).
Proof. intros Hi H. unfold quad_plane. destruct (Rlt_dec 0 K); cbv zeta; pset; exact H. Qed.
Lemma P_quad_planes L K M : P M -> P (quad_planes L K M).
Proof. intros H. unfold quad_planes. repeat (apply P_quad_plane; [unfold PS_X, PS_Y; lia|]). exact H. Qed.
Lemma P_sext L K3 Dx Dy D2x D2y D2xy tl dk M : P M -> P (sext_matrix L K3 Dx Dy D2x D2y D2xy tl dk M).
Proof.
  intros H. unfold sext_matrix. cbv zeta. assert (X : forall M', P M' -> P (if dk then
    mset (mset M' PS_PX 6 (- K3 * L * (D2x - D2y))) PS_PY 6 (2 * K3 * L * D2xy) else M')).
  { intros M' H'. destruct dk; pset; auto. }
  apply X. destruct tl.
  - repeat apply Pmul; pset; exact Pid.
  - destruct (Req_EM_T _ 0); pset; exact H.
Qed.
Lemma P_edge rho phi : P (edge_matrix rho phi).
Proof. unfold edge_matrix. pset. exact Pid. Qed.
Lemma P_eedge a b k : P (eedge_matrix a b k).
Proof. unfold eedge_matrix. cbv zeta. pset. exact Pid. Qed.
Lemma P_sbend L phi phi1 phi2 K Es g q b gg d dK M : P M -> P (sbend_matrix L phi phi1 phi2 K Es g q b gg d dK M).
Proof.
  intros H. unfold sbend_matrix. cbv zeta. apply Pmul; [apply P_edge|]. apply Pmul; [|apply P_edge]. pset.
  repeat (apply P_quad_plane; [unfold PS_X, PS_Y; lia|]). exact H.
Qed.
Lemma P_sol L K M : P M -> P (sol_matrix L K M).
Proof. intros H. unfold sol_matrix. cbv zeta. pset. exact H. Qed.
Lemma P_ebend L phi fx fy k Kx Ky Es g e h dK dKZ iK M : P M -> P (ebend_matrix L phi fx fy k Kx Ky Es g e h dK dKZ iK M).
Proof.
  intros H. unfold ebend_matrix. cbv zeta. apply Pmul; [apply P_eedge|]. apply Pmul; [|apply P_eedge]. pset.
  repeat (apply P_quad_plane; [unfold PS_X, PS_Y; lia|]). exact H.
Qed.
Lemma P_inverse A B : P A -> inverse A = Ok B -> P B.
Proof. intros H. unfold inverse. destruct (minv msize A) eqn:E; [|discriminate]. intros [= <-]. eapply Pinv; eauto. Qed.
Lemma P_misalign sh len ref p M IM : get_misalign sh len ref p = Ok (M, IM) -> P M /\ P IM.
Proof.
  unfold get_misalign. intros H.
  assert (Ps : P (scl_mat ref p)) by (unfold scl_mat; pset; exact Pid).
  assert (Pt : forall x, P (shift_mat x)) by (intros x; unfold shift_mat; pset; exact Pid).
  apply rbind_ok in H as (si & H1 & H). apply (P_inverse _ _ Ps) in H1. cbv zeta in H.
  apply rbind_ok in H as (ti & H2 & H). apply (P_inverse _ _ (Pt _)) in H2.
  apply rbind_ok in H as (ri & H3 & H). apply (P_inverse _ _ (P_rot _ _ _ _ _)) in H3.
  apply rbind_ok in H as (ti' & H4 & H). apply (P_inverse _ _ (Pt _)) in H4. injection H as <- <-.
  split; repeat (apply Pmul; [solve [auto using P_rot]|]); auto using P_rot.
Qed.
Lemma P_misaligned d ref p T : P T -> P (fst (misaligned d ref p T)).
Proof.
  intros H. unfold misaligned. destruct (get_misalign _ _ _ _) as [[M IM]|e] eqn:E; simpl; auto.
  apply P_misalign in E as [E1 E2]. auto.
Qed.
Lemma P_slices cvs L f plane p : (forall a b M, P M -> P (plane a b M)) -> P (slices cvs L f plane p).
Proof.
  intros H. unfold slices. cbv zeta. match goal with |- P (fold_left ?g ?l _) => generalize l; set (G := g) end.
  intros l. assert (X : forall T, P T -> P (fold_left G l T)).
  { induction l as [|j l IH]; intros T HT; simpl; auto. apply IH. unfold G. apply Pmul; [|exact HT]. apply Pset; [unfold PS_S; lia|]. apply H. exact Pid. }
  apply X. exact Pid.
Qed.
Definition tmat_ok (k : mkind) (c : tcfg) : Prop :=
  k = KTMatrix -> forall l, load_storage (msize * msize) c "matrix" = Ok l -> P (mat_of w l).
Lemma P_setup k d c ref f : tmat_ok k c -> setup w k d c ref = Ok f -> forall p T, P T -> P (fst (f p T)).
Proof.
  intros Htm H p T HT. destruct k; cbn [setup] in H; try (injection H as <-; exact Pid).
  - injection H as <-. simpl. pset. exact Pid.
  - injection H as <-. unfold setup_orbtrim.
    match goal with |- context [misaligned d ref p ?T0] => assert (X := P_misaligned d ref p T0); destruct (misaligned d ref p T0) as [T' [e|]] end;
      simpl in X; [|destruct (Req_EM_T _ 0)]; simpl; try (apply X; pset; exact Pid).
    apply Pmul; [|apply P_rot]. apply X; pset; exact Pid.
  - unfold setup_sbend in H. repeat (apply rbind_ok in H as (? & _ & H)). injection H as <-. cbv beta zeta.
    destruct (Req_EM_T _ 0); [exact Pid|]. destruct (N.eqb _ _).
    + destruct (num_of w c "bg"); [|exact Pid]. apply P_misaligned, P_sbend, Pid.
    + apply P_misaligned, P_sbend, Pid.
  - unfold setup_quad in H. apply rbind_ok in H as (l & _ & H). apply rbind_ok in H as (n & _ & H). destruct (negb _).
    + apply rbind_ok in H as (cvs & _ & H). injection H as <-. apply P_misaligned, P_slices.
      intros; apply P_quad_planes; auto.
    + apply rbind_ok in H as (B2 & _ & H). injection H as <-. apply P_misaligned. pset. apply P_quad_planes, Pid.
  - unfold setup_solenoid in H. apply rbind_ok in H as (l & _ & H). apply rbind_ok in H as (n & _ & H). destruct (negb _).
    + apply rbind_ok in H as (cvs & _ & H). injection H as <-. apply P_misaligned, P_slices.
      intros; apply P_sol; auto.
    + apply rbind_ok in H as (B2 & _ & H). injection H as <-. apply P_misaligned. apply Pset; [unfold PS_S; lia|]. apply P_sol, Pid.
  - unfold setup_edipole in H. do 5 (apply rbind_ok in H as (? & _ & H)). destruct (negb _); [discriminate|].
    injection H as <-. cbv beta zeta. destruct (Req_EM_T _ 0); [exact Pid|]. apply P_misaligned.
    match goal with |- P (if ?b then _ else _) => destruct b end; [|apply P_ebend, Pid].
    apply Pmul; [|exact Pver]. apply Pmul; [|apply P_ebend, Pid]. unfold ver_rot. cbv zeta. pset. exact Pid.
  - unfold setup_equad in H. apply rbind_ok in H as (l & _ & H). apply rbind_ok in H as (n & _ & H). destruct (negb _).
    + apply rbind_ok in H as (cvs & _ & H). injection H as <-. apply P_misaligned, P_slices.
      intros; apply P_quad_planes; auto.
    + apply rbind_ok in H as (B2 & _ & H). apply rbind_ok in H as (r & _ & H). injection H as <-.
      apply P_misaligned. pset. apply P_quad_planes, Pid.
  - injection H as <-. specialize (Htm eq_refl). destruct (load_storage _ _ _); simpl; auto.
Qed.
Lemma P_recompute k c d s tm e : tmat_ok k c -> Forall P (md_tm d) -> recompute w k c d s = (tm, e) -> Forall P tm.
Proof.
  intros Htm H. unfold recompute. destruct (setup w k d c (ms_ref s)) as [f|x] eqn:E.
  - apply run_forall; auto. intros p a. eapply P_setup; eauto.
  - intros [= <- _]. exact H.
Qed.

(** The invariant of states; the envelopes are looked at if [Looked]. *)
Variable Looked : Prop.
Definition inv (s : mstate) : Prop :=
  aligned s /\ Forall V (ms_m0 s) /\ Forall C (ms_m1 s) /\ (Looked -> consistent s).
Lemma calc_inv pos ref real m0 m1 tm e0 r e1 ph s' :
  calc_rms w (mkMS pos ref real m0 m1 tm e0 r e1 ph) = Ok s' -> aligned s' ->
  Forall V m0 -> Forall C m1 -> inv s'.
Proof.
  intros H A F0 F1. pose proof (calc_rms_ok _ _ _ H) as (_ & _ & E1 & E2 & E3 & _). simpl in *.
  destruct A as (A1 & A2 & A3 & A4). split; [repeat split; auto|]. rewrite E2, E3. split; [auto|]. split; [auto|].
  intros _. eapply calc_consistent; [| |exact H]; simpl; congruence.
Qed.

Definition good (k : mkind) (c : tcfg) (d : mdata) : Prop :=
  shaped k c d /\ tmat_ok k c /\ Forall P (md_tm d) /\ Forall (fun x => P (fst x) /\ P (snd x)) (md_mis d) /\
  (forall s, md_istate d = Some s -> inv s).

Lemma transport_inv d s Ts m0 m1 tm : Forall P Ts -> Forall V (ms_m0 s) -> Forall C (ms_m1 s) ->
  transport d s Ts = Ok (m0, m1, tm) -> Forall V m0 /\ Forall C m1.
Proof.
  intros HT H0 H1. unfold transport. destruct (Nat.ltb _ _); [discriminate|]. intros E.
  apply (firstn_forall _ (List.length (md_real_in d))) in HT.
  apply rbind_ok in E as (a & E0 & E). apply rbind_ok in E as (b & E1 & E). apply rbind_ok in E as (t & E2 & E).
  injection E as <- <- <-. split.
  - eapply over_forall; [| | |exact E0]; eauto. 
  - eapply over_forall; [| | |exact E1]; eauto.
Qed.
Lemma directed_P r Ts Ts' : Forall P Ts -> directed r Ts = Ok Ts' -> Forall P Ts'.
Proof.
  unfold directed. destruct r; [|congruence]. intros H. eapply rmap_forall; eauto. intros a b. apply P_inverse.
Qed.
Lemma finish_inv d r s ref real s' : Forall P (md_tm d) -> Forall V (ms_m0 s) -> Forall C (ms_m1 s) ->
  finish w d r s ref real = Ok s' -> aligned s' -> inv s'.
Proof.
  intros HT H0 H1 H A. unfold finish in H. apply rbind_ok in H as (Ts & D & H). apply (directed_P _ _ _ HT) in D.
  apply rbind_ok in H as ([[m0 m1] tm] & T & H). apply transport_inv in T as [T0 T1]; auto.
  eapply calc_inv; eauto.
Qed.
Lemma finish_sbend_inv d r s ref real s' : Forall P (md_tm d) -> Forall V (ms_m0 s) -> Forall C (ms_m1 s) ->
  finish_sbend w d r s ref real = Ok s' -> aligned s' -> inv s'.
Proof.
  intros HT H0 H1 H A. unfold finish_sbend in H. apply rbind_ok in H as (Ts & D & H). apply (directed_P _ _ _ HT) in D.
  apply rbind_ok in H as ([[m0 m1] tm] & T & H). apply transport_inv in T as [T0 T1]; auto.
  cbv zeta in H. apply rbind_ok in H as (real' & _ & H). eapply calc_inv; eauto.
Qed.
Lemma note_P d s : Forall P (md_tm d) -> Forall P (md_tm (note_input d s)).
Proof. intros H. unfold note_input. simpl. apply resize_forall; auto. Qed.
Lemma note_mis d s : Forall (fun x => P (fst x) /\ P (snd x)) (md_mis d) ->
  Forall (fun x => P (fst x) /\ P (snd x)) (md_mis (note_input d s)).
Proof. intros H. unfold note_input. simpl. apply resize_forall; auto. Qed.

Definition memb (d : mdata) : Prop :=
  Forall P (md_tm d) /\ Forall (fun x => P (fst x) /\ P (snd x)) (md_mis d).
Lemma base_memb k c d r s d' x : tmat_ok k c -> memb d -> advance_base w k c d r s = (d', x) ->
  memb d' /\ md_istate d' = md_istate d /\
  (inv s -> forall s', x = Ok s' -> aligned s' -> inv s').
Proof.
  intros Htm [M1 M2]. unfold advance_base. set (s1 := ms_recalc s). destruct (check_cache d s1).
  - intros [= <- <-]. split; [split; auto|]. split; [auto|]. intros (I1 & I2 & I3 & _) s' H.
    apply rbind_ok in H as ([ref real] & _ & H). eapply finish_inv; [exact M1|exact I2|exact I3|exact H].
  - pose proof (note_P d s1 M1) as N1. pose proof (note_mis d s1 M2) as N2. set (d1 := note_input d s1) in *.
    destruct (recompute w k c d1 s1) as [tm e] eqn:RC. apply P_recompute in RC; auto.
    destruct e as [e|]; intros [= <- <-].
    + split; [split; auto|]. split; [auto|]. discriminate.
    + split; [split; auto|]. split; [auto|]. intros (I1 & I2 & I3 & _) s' H.
      eapply finish_inv; [| | |exact H]; auto.
Qed.
Lemma sbend_memb c d r s d' x : memb d -> advance_sbend w c d r s = (d', x) ->
  memb d' /\ md_istate d' = md_istate d /\
  (inv s -> forall s', x = Ok s' -> aligned s' -> inv s').
Proof.
  intros [M1 M2]. unfold advance_sbend. set (s1 := ms_recalc s). destruct (check_cache d s1).
  - intros [= <- <-]. split; [split; auto|]. split; [auto|]. intros (I1 & I2 & I3 & _) s' H.
    apply rbind_ok in H as ([ref real] & _ & H). eapply finish_sbend_inv; [exact M1|exact I2|exact I3|exact H].
  - pose proof (note_P d s1 M1) as N1. pose proof (note_mis d s1 M2) as N2. set (d1 := note_input d s1) in *.
    destruct (recompute w KSBend c d1 s1) as [tm e] eqn:RC. apply P_recompute in RC; auto; [|discriminate].
    destruct e as [e|]; intros [= <- <-].
    + split; [split; auto|]. split; [auto|]. discriminate.
    + split; [split; auto|]. split; [auto|]. intros (I1 & I2 & I3 & _) s' H.
      eapply finish_sbend_inv; [| | |exact H]; auto.
Qed.
Lemma sext_steps_inv n dL K tl dk p : forall v m T tm v' m' tm', P T -> V v -> C m ->
  sext_steps n dL K tl dk p v m T tm = (v', m', tm') -> V v' /\ C m'.
Proof.
  induction n as [|n IH]; intros v m T tm v' m' tm' HT HS HC; cbn [sext_steps].
  - intros [= <- <- <-]. auto.
  - cbv zeta. apply IH; [| |]; (try apply Sapp; try apply Csand; auto); pset; apply P_sext; auto.
Qed.
Lemma cells_forall s : inv s -> Forall (fun x => V (fst (snd x)) /\ C (snd (snd x))) (cells (ms_real s) (ms_m0 s) (ms_m1 s)).
Proof.
  intros (_ & I2 & I3 & _). unfold cells. rewrite Forall_forall. intros [p [v m]] H. simpl.
  apply in_combine_r in H. rewrite Forall_forall in I2, I3. split.
  - apply I2. eapply in_combine_l; eauto.
  - apply I3. eapply in_combine_r; eauto.
Qed.
Lemma recalc_inv s : inv s -> inv (ms_recalc s).
Proof.
  intros (I1 & I2 & I3 & I4). split; [apply recalc_aligned; auto|]. split; [auto|]. split; [auto|].
  intros HE. specialize (I4 HE).
  assert (EE : forall f, over_states (ms_recalc s) f = over_states s f).
  { intros f. unfold over_states. simpl. f_equal. generalize (combine (ms_m0 s) (ms_m1 s)). clear.
    induction (ms_real s) as [|p l IH]; intros [|[v m] l']; simpl; auto. f_equal. apply IH. }
  unfold consistent in *. rewrite !EE. intros W. specialize (I4 W) as (K1 & K2 & K3 & K4). 
  split; [intros; rewrite EE; apply K1; auto|]. split; [intros; rewrite EE; apply K2; auto|]. auto.
Qed.
Lemma sext_inv c d r s s' : inv s -> advance_sext w c d r s = Ok s' -> aligned s' -> inv s'.
Proof.
  intros I H A. apply recalc_inv in I. unfold advance_sext in H. set (s1 := ms_recalc s) in *.
  apply rbind_ok in H as (B3 & _ & H). apply rbind_ok in H as (l & _ & H). apply rbind_ok in H as (step & _ & H).
  destruct r; [discriminate|]. cbv zeta in H. destruct (_ || _)%bool; [discriminate|].
  apply rbind_ok in H as (outs & HO & H).
  assert (F : Forall (fun x : vec * mat * mat => V (fst (fst x)) /\ C (snd (fst x))) outs).
  { eapply rmap_forall; [|apply cells_forall; exact I|exact HO]. intros [p [v m]] b [HS HC]. simpl in HS, HC.
    unfold sext_cell. intros E. apply rbind_ok in E as ([M IM] & E1 & E). apply P_misalign in E1 as [PM PI].
    destruct (sext_steps _ _ _ _ _ _ _ _ _ _) as [[v' m'] tm'] eqn:E2. injection E as <-. simpl.
    apply sext_steps_inv in E2 as [S2 C2]; auto. }
  destruct I as (_ & I2 & I3 & _).
  apply rbind_ok in H as (m0 & H0 & H). apply rbind_ok in H as (m1 & H1 & H). apply rbind_ok in H as (tm & H2 & H).
  eapply calc_inv; [exact H|exact A| |].
  - eapply (over_forall _ (fun x => V (fst (fst x)))); [| | |exact H0]; auto.
    eapply Forall_impl; [|exact F]. simpl; tauto.
  - eapply (over_forall _ (fun x => C (snd (fst x)))); [| | |exact H1]; auto.
    eapply Forall_impl; [|exact F]. simpl; tauto.
Qed.
Lemma cav_forward_inv c ref pi p M IM T v m : P M -> P IM -> P T -> V v -> C m ->
  let '(v', m', _, _) := cav_forward w c ref pi p M IM T v m in V v' /\ C m'.
Proof.
  intros HM HI HT HS HC. unfold cav_forward. cbv zeta. split.
  - apply Sapp; auto. repeat (apply Sset; [unfold PS_S, PS_PS; lia|]). apply Sapp; [pset; auto|]. auto.
  - apply Csand; auto. apply Cscale. apply Csand; auto. pset; auto.
Qed.
Lemma cav_forward_P c ref pi p M IM T v m : P T -> P (snd (cav_forward w c ref pi p M IM T v m)).
Proof. intros HT. unfold cav_forward. cbv zeta. simpl. pset; auto. Qed.
Definition upright (s : mstate) : Prop := Forall V (ms_m0 s) /\ Forall C (ms_m1 s).
Lemma cav_apply_inv c d r s ref real d' x : memb d -> cav_apply w c d r s ref real = (d', x) ->
  memb d' /\ md_istate d' = md_istate d /\ (upright s -> forall s', x = Ok s' -> aligned s' -> inv s').
Proof.
  intros [M1 M2] H. unfold cav_apply in H. destruct (_ || _)%bool.
  { injection H as <- <-. split; [split; auto|]. split; [auto|discriminate]. }
  cbv zeta in H.
  set (cs := combine (md_real_in d) (cells_of real (combine (md_mis d) (md_tm d)) (ms_m0 s) (ms_m1 s))) in *.
  assert (F : forall x, In x cs ->
    (P (fst (fst (fst (snd (snd x))))) /\ P (snd (fst (fst (snd (snd x))))) /\ P (snd (fst (snd (snd x))))) /\
    (upright s -> V (fst (snd (snd (snd x)))) /\ C (snd (snd (snd (snd x)))))).
  { intros [pi [p [[[M IM] T] [v m]]]] Hin. unfold cs, cells_of in Hin. simpl.
    apply in_combine_r in Hin. apply in_combine_r in Hin.
    pose proof (in_combine_l _ _ _ _ Hin) as Ha. pose proof (in_combine_r _ _ _ _ Hin) as Hb.
    pose proof (in_combine_l _ _ _ _ Ha) as Hc. pose proof (in_combine_r _ _ _ _ Ha) as Hd.
    pose proof (in_combine_l _ _ _ _ Hb) as He. pose proof (in_combine_r _ _ _ _ Hb) as Hf.
    rewrite Forall_forall in M1, M2. destruct (M2 _ Hc) as [M3 M4]. simpl in M3, M4.
    split; [repeat split; auto|]. intros [F0 F1]. rewrite Forall_forall in F0, F1. auto. }
  destruct r; cbn [negb] in H.
  - injection H as <- <-. split; [split; auto|]. split; [auto|]. intros [F0 F1] s' H A.
    apply rbind_ok in H as (outs & HO & H).
    assert (G : Forall (fun x : vec * mat * mat => V (fst (fst x)) /\ C (snd (fst x))) outs).
    { assert (F' : Forall (fun x => (P (fst (fst (fst (snd (snd x))))) /\ P (snd (fst (fst (snd (snd x))))) /\ P (snd (fst (snd (snd x))))) /\
        V (fst (snd (snd (snd x)))) /\ C (snd (snd (snd (snd x))))) cs).
      { apply Forall_forall. intros x Hx. destruct (F x Hx) as [X1 X2]. split; [exact X1|]. apply X2. split; auto. }
      eapply rmap_forall; [|exact F'|exact HO]. intros [pi [p [[[M IM] T] [v m]]]] b ((G1 & G2 & G3) & G4 & G5) E.
      simpl in *. unfold cav_backward in E. apply rbind_ok in E as (I & E1 & E). injection E as <-. simpl.
      apply P_inverse in E1; auto. }
    apply rbind_ok in H as (m0 & H0 & H). apply rbind_ok in H as (m1 & H1 & H). apply rbind_ok in H as (tm & H2 & H).
    eapply calc_inv; [exact H|exact A| |].
    + eapply (over_forall _ (fun x => V (fst (fst x)))); [| |exact F0|exact H0]; auto.
      eapply Forall_impl; [|exact G]. simpl; tauto.
    + eapply (over_forall _ (fun x => C (snd (fst x)))); [| |exact F1|exact H1]; auto.
      eapply Forall_impl; [|exact G]. simpl; tauto.
  - match type of H with context [map snd ?o] => set (outs := o) in * end.
    assert (G : forall x, In x outs -> P (snd x) /\ (upright s -> V (fst (fst (fst x))) /\ C (snd (fst (fst x))))).
    { unfold outs. intros x0 Hin. apply in_map_iff in Hin as ([pi [p [[[M IM] T] [v m]]]] & E & Hin).
      specialize (F _ Hin) as ((G1 & G2 & G3) & G4). simpl in *. subst x0. split.
      - pose proof (cav_forward_P c ref pi p M IM T v m G3) as X.
        destruct (cav_forward w c ref pi p M IM T v m) as [[[v' m'] t'] T']. exact X.
      - intros U. destruct (G4 U) as [G5 G6]. pose proof (cav_forward_inv c ref pi p M IM T v m G1 G2 G3 G5 G6) as X.
        destruct (cav_forward w c ref pi p M IM T v m) as [[[v' m'] t'] T']. exact X. }
    injection H as <- <-. split.
    { split; [|exact M2]. simpl. apply Forall_app. split; [|apply skipn_forall; auto].
      apply Forall_forall. intros T HT. apply in_map_iff in HT as (y & <- & Hy). apply G; auto. }
    split; [auto|]. intros U s' H A. assert (U' := U). destruct U' as [F0 F1].
    apply rbind_ok in H as (m0 & H0 & H). apply rbind_ok in H as (m1 & H1 & H). apply rbind_ok in H as (tm & H2 & H).
    eapply calc_inv; [exact H|exact A| |].
    + eapply (over_forall _ (fun x => V (fst (fst (fst x))))); [| |exact F0|exact H0]; auto.
      apply Forall_forall. intros x Hx. apply G; auto.
    + eapply (over_forall _ (fun x => C (snd (fst (fst x))))); [| |exact F1|exact H1]; auto.
      apply Forall_forall. intros x Hx. apply G; auto.
Qed.
Lemma cav_cells_P c len phi ps : forall tm tm' r, Forall P tm -> cav_cells w c len phi ps tm = (tm', r) -> Forall P tm'.
Proof.
  induction ps as [|p ps IH]; intros tm tm' r H; cbn [cav_cells].
  - destruct tm; intros [= <- <-]; auto.
  - destruct tm as [|t tm]; [intros [= <- <-]; auto|]. inversion H; subst.
    assert (X : P (fst (cav_cell w c len phi p))).
    { unfold cav_cell. match goal with |- context [w_cav_one w c phi p ?T] => pose proof (Pcav c phi p T) as Y; destruct (w_cav_one w c phi p T) end.
      simpl in *. apply Y. pset. exact Pid. }
    destruct (cav_cell w c len phi p) as [T [p'|e]]; simpl in X.
    + destruct (cav_cells w c len phi ps tm) as [tm'' r'] eqn:E2. intros [= <- <-]. constructor; eauto.
    + intros [= <- <-]. constructor; auto.
Qed.
Lemma cav_misalign_P d ref real mis e : Forall (fun x => P (fst x) /\ P (snd x)) (md_mis d) ->
  cav_misalign d ref real = (mis, e) -> Forall (fun x => P (fst x) /\ P (snd x)) mis.
Proof.
  intros H. unfold cav_misalign. apply run_forall; auto. intros p a Ha.
  destruct (get_misalign _ _ _ _) as [[M IM]|x] eqn:E; simpl; auto. eapply P_misalign; eauto.
Qed.
Lemma cav_memb c d r s d' x : memb d -> advance_cav w c d r s = (d', x) ->
  memb d' /\ md_istate d' = md_istate d /\ (inv s -> forall s', x = Ok s' -> aligned s' -> inv s').
Proof.
  intros [M1 M2].
  cut (advance_cav w c d r s = (d', x) -> memb d' /\ md_istate d' = md_istate d /\
    (upright (ms_recalc s) -> forall s', x = Ok s' -> aligned s' -> inv s')).
  { intros X H. destruct (X H) as (X1 & X2 & X3). split; [auto|]. split; [auto|]. intros (_ & I2 & I3 & _). apply X3. split; auto. }
  unfold advance_cav. set (s1 := ms_recalc s) in *.
  assert (Z : forall e, (d, Throw e) = (d', x) -> memb d' /\ md_istate d' = md_istate d /\
    (upright s1 -> forall s', x = Ok s' -> aligned s' -> inv s')).
  { intros e [= <- <-]. split; [split; auto|]. split; [auto|discriminate]. }
  destruct r.
  - destruct (negb (check_backward d s1)); [apply Z|].
    destruct (md_ref_in d) as [rin|]; [|apply Z]. destruct (md_ref_out d) as [rout|]; [|apply Z].
    destruct (Nat.ltb _ _); [apply Z|]. destruct (over _ _ _) as [real|e]; [|apply Z].
    match goal with |- context [cav_misalign d ?a ?b] => destruct (cav_misalign d a b) as [mis e] eqn:CM end.
    apply cav_misalign_P in CM; auto. destruct e as [e|].
    + intros [= <- <-]. split; [split; auto|]. split; [auto|discriminate].
    + intros H. apply cav_apply_inv in H; [exact H|]. split; auto.
  - destruct (check_cache d s1).
    + destruct (from_cache w d s1) as [[ref real]|e]; [|apply Z]. intros H. apply cav_apply_inv in H; [exact H|]. split; auto.
    + pose proof (note_P d s1 M1) as N1. pose proof (note_mis d s1 M2) as N2. set (d1 := note_input d s1) in *.
      assert (EI : md_istate d1 = md_istate d) by reflexivity.
      destruct (w_cav_ref w c (ms_ref s1)) as [[ref phi]|e].
      2:{ intros [= <- <-]. split; [split; auto|]. split; [auto|discriminate]. }
      destruct (cav_cells _ _ _ _ _ _) as [tm [real|e]] eqn:CC; apply cav_cells_P in CC; auto.
      2:{ intros [= <- <-]. split; [split; auto|]. split; [auto|discriminate]. }
      match goal with |- context [cav_misalign ?x ?a ?b] => destruct (cav_misalign x a b) as [mis e] eqn:CM end.
      apply cav_misalign_P in CM; auto. destruct e as [e|].
      * intros [= <- <-]. split; [split; auto|]. split; [auto|discriminate].
      * intros H. apply cav_apply_inv in H; [exact H|]. split; auto.
Qed.

(** What is left to say about strippers and sources, and about particles. *)
Variable Rel : particle -> particle -> Prop.
Hypothesis Rr : forall p, Rel p p.
Hypothesis Rt : forall p q r, Rel p q -> Rel q r -> Rel p r.
Hypothesis Rrecalc : forall p, Rel p (recalc p).
Hypothesis Rphis : forall p x, Rel p (add_phis p x).
Hypothesis RK : forall p x, Rel p (set_K p x).
Hypothesis Req : forall p q, peqb p q = true -> Rel q p.
Hypothesis CF : cav_fine w Rel.
Variable N : particle -> Prop.
Hypothesis Ncong : forall p q, Rel p q -> N p -> N q.
Definition inv4 (s : mstate) : Prop := inv s /\ Forall N (ms_real s).

Variable Q : tcfg -> Prop.
Hypothesis Qstrip : forall c s s', tfind "type" c = Some (TStr "stripper") -> Q c -> inv4 s -> aligned s' ->
  advance_stripper w c false s = Ok s' -> inv4 s'.
Hypothesis Qsource : forall c s, tfind "type" c = Some (TStr "source") -> Q c -> new_state w c = Ok s ->
  Forall V (ms_m0 s) /\ Forall C (ms_m1 s) /\ Forall N (ms_real s).
Hypothesis Qtm : forall c l, tfind "type" c = Some (TStr "tmatrix") -> Q c ->
  load_storage (msize * msize) c "matrix" = Ok l -> P (mat_of w l).
Hypothesis W : sane w.

Lemma Ncong_all l l' : Forall2 Rel l l' -> Forall N l -> Forall N l'.
Proof. intros H. induction H; intros F; inversion F; subst; constructor; eauto. Qed.
Definition entry (k : mkind) (c : tcfg) : Prop := tfind "type" c = Some (TStr (mkind_name k)) /\ Q c /\ strips_to_some c.
Definition good3 (k : mkind) (c : tcfg) (d : mdata) : Prop :=
  shaped k c d /\ entry k c /\ memb d /\ noted Rel d /\ (forall s, md_istate d = Some s -> inv4 s).
Lemma new_consistent c s : new_state w c = Ok s -> consistent s.
Proof.
  intros H. destruct (new_state_aligned _ _ _ H) as (A1 & A2 & A3 & A4).
  assert (X : exists s0, calc_rms w s0 = Ok s).
  { unfold new_state in H. apply rbind_ok in H as (ic & _ & H). destruct (tfind "IonChargeStates" c) as [[| |ics|]|]; try (
      cbv zeta in H; match type of H with (match ?x with Some _ => _ | None => _ end) = _ => destruct x; [discriminate|] end; eauto).
    repeat match type of H with
    | rbind _ _ = Ok _ => apply rbind_ok in H as (? & _ & H)
    | (match ?x with _ => _ end) = Ok _ => destruct x
    | (if ?x then _ else _) = Ok _ => destruct x
    | _ => cbv zeta in H
    end; try discriminate; eauto. }
  destruct X as [s0 X]. pose proof (calc_rms_ok _ _ _ X) as (_ & _ & E1 & E2 & E3 & _).
  eapply calc_consistent; [| |exact X]; congruence.
Qed.
Lemma good3_ctor k c d : entry k c -> mom_ctor w k c = Ok d -> good3 k c d.
Proof.
  intros E H. split; [eapply ctor_ok; [|exact H]; intros ->; apply E; apply E|]. split; [exact E|].
  cut (memb d /\ (forall s, md_istate d = Some s -> inv4 s)).
  { intros [X1 X2]. split; [exact X1|]. split; [eapply ctor_noted; eauto|exact X2]. }
  assert (X : forall len sh sk fit ist, d = mkMD len sh sk None [] None [] [] [] fit ist 0 -> memb d).
  { intros. subst d. split; constructor. }
  unfold mom_ctor in H. destruct k; try (injection H as <-; split; [split; constructor|discriminate]).
  - apply rbind_ok in H as (s & H1 & H). injection H as <-. split; [split; constructor|]. intros s' [= <-].
    destruct E as (E1 & E2 & _). destruct (Qsource _ _ E1 E2 H1) as (X1 & X2 & X3). split; [|exact X3].
    split; [eapply new_state_aligned; eauto|]. split; [auto|]. split; [auto|]. intros _. eapply new_consistent; eauto.
  - apply rbind_ok in H as (fit & H1 & H). destruct (_ || _)%bool; [|discriminate]. injection H as <-. split; [split; constructor|discriminate].
  - apply rbind_ok in H as (u & H1 & H). injection H as <-. split; [split; constructor|discriminate].
Qed.
Lemma tmat_entry k c : entry k c -> tmat_ok k c.
Proof. intros (E1 & E2 & _) -> l Hl. eapply Qtm; eauto. Qed.
Lemma good3_advance k c d r s d' s' : good3 k c d -> aligned s -> advance_of w k c d r s = (d', Ok s') ->
  good3 k c d' /\ aligned s' /\ (inv4 s -> inv4 s').
Proof.
  intros (G1 & G2 & G3 & G5 & G4) A H. pose proof (advance_ok w W _ _ _ _ _ _ _ G1 A H) as [O1 O2]. simpl in O1.
  specialize (O2 _ eq_refl). pose proof (tmat_entry _ _ G2) as Htm.
  assert (B : k <> KSource -> k <> KStripper ->
     memb d' /\ md_istate d' = md_istate d /\ (inv s -> forall s'', Ok s' = Ok s'' -> aligned s'' -> inv s'') ->
     good3 k c d' /\ aligned s' /\ (inv4 s -> inv4 s')).
  { intros K1 K2 (B1 & B2 & B3).
    apply (step_kept w Rel) in H as [KN KS]; auto.
    split; [|split; [exact O1|]].
    - split; [exact O2|]. split; [exact G2|]. split; [exact B1|]. rewrite B2. split; [exact KN|exact G4].
    - intros [I I']. split; [apply (B3 I _ eq_refl O1)|]. eapply Ncong_all; [apply KS|exact I']. }
  destruct k; cbn [advance_of] in H;
    try (apply B; [discriminate|discriminate|eapply base_memb; [exact Htm|exact G3|exact H]]).
  - injection H as <- H. split; [exact (conj G1 (conj G2 (conj G3 (conj G5 G4))))|]. split; [exact O1|]. intros I.
    unfold advance_source in H. destruct r; [injection H as <-; exact I|].
    destruct (md_istate d) as [i|] eqn:EI; injection H as <-; [apply G4; auto|exact I].
  - apply B; [discriminate|discriminate|eapply sbend_memb; [exact G3|exact H]].
  - apply B; [discriminate|discriminate|]. injection H as <- H. split; [exact G3|]. split; [reflexivity|]. intros I s'' [= <-] _.
    eapply sext_inv; eauto.
  - apply B; [discriminate|discriminate|eapply cav_memb; [exact G3|exact H]].
  - injection H as <- H. split; [exact (conj G1 (conj G2 (conj G3 (conj G5 G4))))|]. split; [exact O1|]. intros I.
    destruct r.
    + unfold advance_stripper in H. apply rbind_ok in H as (? & _ & H). discriminate.
    + destruct G2 as (E1 & E2 & _). eapply Qstrip; eauto.
Qed.

(** Whole machines. *)
Definition fair (c : tcfg) : Prop := Q c /\ strips_to_some c.
Lemma preserved c m es us st start max p :
  new_machine (moment_reg w) c = Ok m -> tfind "elements" c = Some (TCfgs es) ->
  Forall fair es -> smooth (fun _ => aligned) fair m us ->
  inv4 (st_body st) -> propagate (uses m us) st start max = Some p ->
  (forall ev, In ev (pr_events p) -> inv4 (st_body (ev_state ev))) /\
  (forall st', pr_end p = Ok st' -> inv4 (st_body st')).
Proof.
  intros Hm He HQ HS HA HP.
  destruct (new_moment _ _ _ Hm) as (es0 & H1 & H2 & H3). assert (es0 = es) as -> by congruence.
  set (good := lift w good3).
  assert (GC : forall t k c d, sfind t (si_elems (mom_info w)) = Some k -> tfind "type" c = Some (TStr t) ->
    fair c -> cl_ctor k c = Ok d -> good k c d).
  { intros t k c0 d Ht Ht' [Hq Hs] Hd. apply mom_find in Ht as (q & -> & ->). apply lift_class.
    apply good3_ctor; [|exact Hd]. split; auto. }
  assert (GA : forall t k c c' d s, sfind t (si_elems (mom_info w)) = Some k ->
    good k c' d -> good k c s -> good k c (cl_assign k d s)).
  { intros t k c0 c' d s Ht _ Hs. apply mom_find in Ht as (q & -> & ->). exact Hs. }
  assert (GV : forall (J : bool -> mstate -> Prop), (J = (fun _ => aligned) \/ J = (fun _ => inv4)) ->
    forall t k b d st d' st', sfind t (si_elems (mom_info w)) = Some k -> good k (eb_conf b) d ->
    J (st_retreat st) (st_body st) -> cl_advance k b d st = (d', Ok st') ->
    good k (eb_conf b) d' /\ J (st_retreat st) (st_body st') /\ st_retreat st' = st_retreat st).
  { intros J HJ' t k b d s d' s' Ht Hg HJ Hadv. apply mom_find in Ht as (q & -> & ->). apply lift_class in Hg.
    apply mom_advance_inv in Hadv as (Hadv & Hr & _).
    assert (AJ : aligned (st_body s)) by (destruct HJ' as [-> | ->]; [exact HJ|apply HJ]).
    apply good3_advance in Hadv as (O1 & O2 & O3); auto.
    split; [apply lift_class; auto|]. split; [|auto]. destruct HJ' as [-> | ->]; auto. }
  destruct (new_fit fair good (mom_info w) GC _ c _ es m H1 (mom_reg_find w) He Hm HQ) as [F0 _].
  pose proof (uses_fit (fun _ => aligned) fair good (mom_info w) (mom_tidy w) GC GA (GV _ (or_introl eq_refl)) us m es H3 F0 HS) as F.
  destruct (propagate_fit (fun _ => inv4) good (mom_info w) (GV _ (or_intror eq_refl)) _ _ _ _ _ _ F HA HP) as [P1 P2].
  split; [exact P1|]. intros st' E. rewrite E in P2. apply P2.
Qed.
End Steps.
