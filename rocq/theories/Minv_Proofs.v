From Coq Require Import Reals Arith Lia Lra Bool List.
From Verif Require Import Mat Mat_Proofs Minv.
Open Scope R_scope.

Lemma swap_lt n j p r : (j < n)%nat -> (p < n)%nat -> (r < n)%nat -> (swap j p r < n)%nat.
Proof. unfold swap. intros. destruct (Nat.eqb r j); [assumption|]. destruct (Nat.eqb r p); assumption. Qed.
Lemma swap_swap j p r : swap j p (swap j p r) = r.
Proof.
  unfold swap. destruct (Nat.eqb_spec r j); subst.
  - destruct (Nat.eqb_spec p j); subst; [reflexivity|]. now rewrite Nat.eqb_refl.
  - destruct (Nat.eqb_spec r p); subst.
    + now rewrite Nat.eqb_refl.
    + destruct (Nat.eqb_spec r j); [congruence|]. destruct (Nat.eqb_spec r p); congruence.
Qed.
Lemma swap_j j p : swap j p j = p.
Proof. unfold swap. now rewrite Nat.eqb_refl. Qed.
Lemma swap_p j p : swap j p p = j.
Proof. unfold swap. destruct (Nat.eqb_spec p j); [congruence|]. now rewrite Nat.eqb_refl. Qed.
Lemma swap_eq_p j p r : swap j p r = p -> r = j.
Proof. intros H. rewrite <- (swap_swap j p r), H. apply swap_p. Qed.

Definition unpivot (j p : nat) (a : vec) (Y : mat) : mat :=
  fun r c => if Nat.eqb r p then a p * Y j c else Y (swap j p r) c + a r * Y j c.

Lemma pivot_unpivot n j p a Y : (j < n)%nat -> (p < n)%nat -> a p <> 0 -> meq n (pivot_op j p a (unpivot j p a Y)) Y.
Proof.
  intros Hj Hp Ha r c Hr Hc. unfold pivot_op, unpivot. rewrite Nat.eqb_refl.
  destruct (Nat.eqb_spec r j); subst.
  - field. assumption.
  - destruct (Nat.eqb_spec (swap j p r) p) as [e|_]; [apply swap_eq_p in e; congruence|].
    rewrite swap_swap. field. assumption.
Qed.
Lemma unpivot_pivot n j p a X : (j < n)%nat -> (p < n)%nat -> a p <> 0 -> meq n (unpivot j p a (pivot_op j p a X)) X.
Proof.
  intros Hj Hp Ha r c Hr Hc. unfold pivot_op, unpivot. rewrite Nat.eqb_refl.
  destruct (Nat.eqb_spec r p); subst.
  - field. assumption.
  - destruct (Nat.eqb_spec (swap j p r) j) as [e|_].
    + exfalso. apply n0. rewrite <- (swap_swap j p r), e. apply swap_j.
    + rewrite swap_swap. field. assumption.
Qed.
Lemma pivot_linear n j p a X Y : (j < n)%nat -> (p < n)%nat ->
  meq n (mmul n (pivot_op j p a X) Y) (pivot_op j p a (mmul n X Y)).
Proof.
  intros Hj Hp r c Hr Hc. unfold pivot_op, mmul.
  destruct (Nat.eqb r j).
  - unfold Rdiv. rewrite <- sumn_scal_r. apply sumn_ext. intros. ring.
  - unfold Rdiv. rewrite <- sumn_scal_r, <- sumn_scal.
    unfold Rminus. rewrite <- (Rmult_1_l (- sumn _ _)), <- Ropp_mult_distr_r, Ropp_mult_distr_l, <- sumn_scal, <- sumn_plus.
    apply sumn_ext. intros. ring.
Qed.
Lemma unpivot_linear n j p a X Y : (j < n)%nat -> (p < n)%nat ->
  meq n (mmul n (unpivot j p a X) Y) (unpivot j p a (mmul n X Y)).
Proof.
  intros Hj Hp r c Hr Hc. unfold unpivot, mmul.
  destruct (Nat.eqb r p).
  - rewrite <- sumn_scal. apply sumn_ext. intros. ring.
  - rewrite <- sumn_scal, <- sumn_plus. apply sumn_ext. intros. ring.
Qed.
Lemma pivot_meq n j p a b X Y : (j < n)%nat -> (p < n)%nat -> veq n a b -> meq n X Y ->
  meq n (pivot_op j p a X) (pivot_op j p b Y).
Proof.
  intros Hj Hp Ha HX r c Hr Hc. unfold pivot_op. pose proof (swap_lt n j p r Hj Hp Hr).
  destruct (Nat.eqb r j); rewrite ?HX, ?Ha; auto.
Qed.
Lemma unpivot_meq n j p a X Y : (j < n)%nat -> (p < n)%nat -> meq n X Y ->
  meq n (unpivot j p a X) (unpivot j p a Y).
Proof.
  intros Hj Hp HX r c Hr Hc. unfold unpivot. pose proof (swap_lt n j p r Hj Hp Hr).
  destruct (Nat.eqb r p); rewrite ?HX; auto.
Qed.

Lemma find_pivot_some k a : forall r p, find_pivot k r a = Some p -> a p <> 0 /\ (r <= p < r + k)%nat.
Proof.
  induction k; simpl; intros r p H; [discriminate|].
  destruct (Req_EM_T (a r) 0).
  - apply IHk in H. split; [apply H|lia].
  - injection H as <-. split; [assumption|lia].
Qed.
Lemma find_pivot_none k a : forall r, find_pivot k r a = None -> forall i, (r <= i < r + k)%nat -> a i = 0.
Proof.
  induction k; simpl; intros r H i Hi; [lia|].
  destruct (Req_EM_T (a r) 0); [|discriminate].
  destruct (Nat.eq_dec i r); subst; [assumption|]. eapply IHk; [eassumption|lia].
Qed.

(** Columns below [j] are those of the identity. *)
Definition cleared (n j : nat) (A : mat) : Prop :=
  forall r c, (r < n)%nat -> (c < j)%nat -> A r c = mid r c.

Lemma pivot_cleared n j p A : (j <= p < n)%nat -> A p j <> 0 -> cleared n j A ->
  cleared n (S j) (pivot_op j p (fun r => A r j) A).
Proof.
  intros [Hjp Hp] Ha HC r c Hr Hc. unfold pivot_op.
  assert (Hj : (j < n)%nat) by lia.
  destruct (Nat.eq_dec c j); subst.
  - destruct (Nat.eqb_spec r j); subst.
    + unfold mid. rewrite Nat.eqb_refl. field. assumption.
    + unfold mid. destruct (Nat.eqb_spec r j); [congruence|]. field. assumption.
  - assert (c < j)%nat by lia.
    assert (A p c = 0) as ->.
    { rewrite HC by lia. unfold mid. destruct (Nat.eqb_spec p c); [lia|reflexivity]. }
    destruct (Nat.eqb_spec r j); subst.
    + unfold mid. destruct (Nat.eqb_spec j c); [lia|]. unfold Rdiv. ring.
    + rewrite HC; [|apply swap_lt; lia|assumption].
      unfold mid, swap. destruct (Nat.eqb_spec r j); [congruence|].
      destruct (Nat.eqb_spec r p); subst.
      * destruct (Nat.eqb_spec j c); [lia|]. destruct (Nat.eqb_spec p c); [lia|]. unfold Rdiv. ring.
      * destruct (Nat.eqb r c); unfold Rdiv; ring.
Qed.

Lemma gauss_S k j A B : gauss (S k) j A B =
  match find_pivot (S k) j (fun r => A r j) with
  | None => None
  | Some p => gauss k (S j) (pivot_op j p (fun r => A r j) A) (pivot_op j p (fun r => A r j) B)
  end.
Proof. reflexivity. Qed.

Lemma gauss_ok n A0 k : forall j A B C, (j + k = n)%nat -> cleared n j A ->
  meq n (mmul n B A0) A -> meq n (mmul n B C) mid -> meq n (mmul n C B) mid ->
  match gauss k j A B with
  | Some X => meq n (mmul n X A0) mid /\ meq n (mmul n A0 X) mid
  | None => exists v, veq n (mapp n A0 v) (fun _ => 0) /\ ~ veq n v (fun _ => 0)
  end.
Proof.
  induction k; intros j A B C Hn HC HB H1 H2.
  - simpl. replace j with n in * by lia.
    assert (Hi : meq n (mmul n B A0) mid).
    { intros r c Hr Hc. rewrite HB by assumption. apply HC; assumption. }
    split; [assumption|].
    assert (meq n A0 C) as HA.
    { rewrite <- (mid_r n C), <- Hi, mmul_assoc, H2, mid_l. reflexivity. }
    rewrite HA. assumption.
  - rewrite gauss_S.
    destruct (find_pivot (S k) j (fun r => A r j)) as [p|] eqn:Ep.
    + apply find_pivot_some in Ep. destruct Ep as [Ha Hp].
      assert (j < n)%nat by lia. assert (p < n)%nat by lia.
      set (a := fun r => A r j) in *.
      apply (IHk (S j) _ _ (mmul n C (unpivot j p a mid))).
      * lia.
      * apply pivot_cleared; [lia|assumption|assumption].
      * rewrite pivot_linear by assumption. apply pivot_meq; [assumption|assumption|intros ? ?; reflexivity|assumption].
      * rewrite pivot_linear by assumption.
        transitivity (pivot_op j p a (unpivot j p a mid)); [|apply pivot_unpivot; assumption].
        apply pivot_meq; [assumption|assumption|intros ? ?; reflexivity|].
        rewrite mmul_assoc, H1. apply mid_l.
      * assert (E : meq n (pivot_op j p a B) (mmul n (pivot_op j p a mid) B)).
        { rewrite pivot_linear by assumption. apply pivot_meq; [assumption|assumption|intros ? ?; reflexivity|]. rewrite mid_l. reflexivity. }
        rewrite E.
        rewrite <- mmul_assoc, (mmul_assoc n (unpivot j p a mid)), unpivot_linear by assumption.
        rewrite (unpivot_meq n j p a _ (pivot_op j p a mid)) by (try assumption; apply mid_l).
        rewrite unpivot_pivot by assumption. rewrite mid_l. assumption.
    + assert (Hz := find_pivot_none _ _ _ Ep).
      exists (fun i => if Nat.ltb i j then - A i j else if Nat.eqb i j then 1 else 0).
      set (v := fun i => if Nat.ltb i j then - A i j else if Nat.eqb i j then 1 else 0).
      assert (Hv : veq n (mapp n A v) (fun _ => 0)).
      { intros r Hr. unfold mapp.
        destruct (Nat.ltb_spec r j).
        - rewrite (sumn_ext _ _ (fun k0 => (if Nat.eqb k0 r then - A r j else 0) + (if Nat.eqb k0 j then A r j else 0))).
          + rewrite sumn_plus, (sumn_single n r), (sumn_single n j) by
              (try lia; intros ? _ ?; destruct (Nat.eqb_spec k0 r); destruct (Nat.eqb_spec k0 j); congruence).
            rewrite !Nat.eqb_refl. ring.
          + intros c Hc. unfold v. destruct (Nat.ltb_spec c j).
            * rewrite HC by assumption. unfold mid.
              destruct (Nat.eqb_spec r c), (Nat.eqb_spec c r), (Nat.eqb_spec c j); subst; try lia; try congruence; ring.
            * destruct (Nat.eqb_spec c r); [lia|]. destruct (Nat.eqb_spec c j); subst; ring.
        - rewrite (sumn_ext _ _ (fun _ => 0)); [apply sumn_0|].
          intros c Hc. unfold v. destruct (Nat.ltb_spec c j).
          + rewrite HC by assumption. unfold mid. destruct (Nat.eqb_spec r c); [lia|]. ring.
          + destruct (Nat.eqb_spec c j); subst; [|ring]. rewrite Hz by lia. ring. }
      split.
      * assert (HA : meq n (mmul n C A) A0).
        { rewrite <- HB, mmul_assoc, H2. apply mid_l. }
        rewrite <- HA, mapp_mmul, Hv.
        intros i Hi. unfold mapp. rewrite (sumn_ext _ _ (fun _ => 0)); [apply sumn_0|intros; ring].
      * intros E. assert (Hj : (j < n)%nat) by lia. specialize (E j Hj). unfold v in E.
        destruct (Nat.ltb_spec j j); [lia|]. rewrite Nat.eqb_refl in E. lra.
Qed.

(** What comes out is the inverse; nothing comes out only for a singular matrix. *)
Lemma minv_some n A X : minv n A = Some X -> meq n (mmul n X A) mid /\ meq n (mmul n A X) mid.
Proof.
  intros H. pose proof (gauss_ok n A n 0 A mid mid) as G. fold (minv n A) in G. rewrite H in G.
  apply G; try reflexivity; try apply mid_l. intros r c _ Hc. lia.
Qed.
Lemma minv_none n A : minv n A = None -> exists v, veq n (mapp n A v) (fun _ => 0) /\ ~ veq n v (fun _ => 0).
Proof.
  intros H. pose proof (gauss_ok n A n 0 A mid mid) as G. fold (minv n A) in G. rewrite H in G.
  apply G; try reflexivity; try apply mid_l. intros r c _ Hc. lia.
Qed.
Lemma mapp_zero n A : veq n (mapp n A (fun _ => 0)) (fun _ => 0).
Proof. intros i Hi. unfold mapp. rewrite (sumn_ext _ _ (fun _ => 0)); [apply sumn_0|intros; ring]. Qed.
Lemma minv_left n A B : meq n (mmul n B A) mid -> exists X, minv n A = Some X /\ meq n X B.
Proof.
  intros H. destruct (minv n A) as [X|] eqn:E.
  - exists X. split; [reflexivity|]. apply minv_some in E. destruct E as [_ E].
    rewrite <- (mid_l n X), <- H, <- mmul_assoc, E, mid_r. reflexivity.
  - exfalso. apply minv_none in E. destruct E as [v [Hv Hn]]. apply Hn.
    rewrite <- (mid_app n v), <- H, mapp_mmul, Hv. apply mapp_zero.
Qed.
Lemma minv_meq n A B X : meq n A B -> minv n A = Some X -> exists Y, minv n B = Some Y /\ meq n Y X.
Proof.
  intros H HX. apply minv_some in HX. apply minv_left. rewrite <- H. apply HX.
Qed.
Lemma minv_none_meq n A B : meq n A B -> minv n A = None -> minv n B = None.
Proof.
  intros H HX. destruct (minv n B) as [Y|] eqn:E; [|reflexivity].
  apply (minv_meq n B A) in E; [|symmetry; assumption]. destruct E as (Z & E & _). congruence.
Qed.
