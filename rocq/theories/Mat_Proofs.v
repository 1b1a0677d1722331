From Coq Require Import Reals Arith Lia Lra List Bool Setoid Morphisms.
From Verif Require Import Mat.
Open Scope R_scope.

Lemma sumn_ext n f g : (forall k, (k < n)%nat -> f k = g k) -> sumn n f = sumn n g.
Proof.
  induction n as [|n IH]; intros H; simpl; auto. rewrite IH, H; auto.
Qed.
Lemma sumn_plus n f g : sumn n (fun k => f k + g k) = sumn n f + sumn n g.
Proof. induction n as [|n IH]; simpl; [lra|]. rewrite IH. lra. Qed.
Lemma sumn_scal n x f : sumn n (fun k => x * f k) = x * sumn n f.
Proof. induction n as [|n IH]; simpl; [lra|]. rewrite IH. lra. Qed.
Lemma sumn_scal_r n x f : sumn n (fun k => f k * x) = sumn n f * x.
Proof. induction n as [|n IH]; simpl; [lra|]. rewrite IH. lra. Qed.
Lemma sumn_0 n : sumn n (fun _ => 0) = 0.
Proof. induction n as [|n IH]; simpl; [lra|]. rewrite IH. lra. Qed.
Lemma sumn_swap n m f :
  sumn n (fun i => sumn m (fun j => f i j)) = sumn m (fun j => sumn n (fun i => f i j)).
Proof.
  induction n as [|n IH]; simpl.
  - symmetry. apply sumn_0.
  - rewrite IH, <- sumn_plus. reflexivity.
Qed.
Lemma sumn_single n i f : (i < n)%nat -> (forall k, (k < n)%nat -> k <> i -> f k = 0) -> sumn n f = f i.
Proof.
  induction n as [|n IH]; intros Hi H; [lia|]. simpl.
  destruct (Nat.eq_dec i n) as [->|Hn].
  - rewrite (sumn_ext n f (fun _ => 0)).
    + rewrite sumn_0. lra.
    + intros k Hk. apply H; lia.
  - rewrite IH by (try lia; intros; apply H; lia). rewrite (H n) by lia. lra.
Qed.
Lemma sumn_nonneg n f : (forall k, (k < n)%nat -> 0 <= f k) -> 0 <= sumn n f.
Proof.
  induction n as [|n IH]; intros H; simpl; [lra|].
  assert (0 <= sumn n f) by auto. assert (0 <= f n) by auto. lra.
Qed.

Global Instance meq_equiv n : Equivalence (meq n).
Proof.
  split.
  - intros A i j _ _. reflexivity.
  - intros A B H i j Hi Hj. symmetry. auto.
  - intros A B C H1 H2 i j Hi Hj. rewrite H1 by auto. auto.
Qed.
Global Instance veq_equiv n : Equivalence (veq n).
Proof.
  split.
  - intros A i _. reflexivity.
  - intros A B H i Hi. symmetry. auto.
  - intros A B C H1 H2 i Hi. rewrite H1 by auto. auto.
Qed.

Global Instance mmul_proper n : Proper (meq n ==> meq n ==> meq n) (mmul n).
Proof.
  intros A A' HA B B' HB i j Hi Hj. unfold mmul. apply sumn_ext. intros k Hk.
  rewrite HA, HB by auto. reflexivity.
Qed.
Global Instance mapp_proper n : Proper (meq n ==> veq n ==> veq n) (mapp n).
Proof.
  intros A A' HA v v' HV i Hi. unfold mapp. apply sumn_ext. intros k Hk.
  rewrite HA, HV by auto. reflexivity.
Qed.
Global Instance mtr_proper n : Proper (meq n ==> meq n) mtr.
Proof. intros A A' HA i j Hi Hj. unfold mtr. auto. Qed.
Global Instance madd_proper n : Proper (meq n ==> meq n ==> meq n) madd.
Proof. intros A A' HA B B' HB i j Hi Hj. unfold madd. rewrite HA, HB by auto. reflexivity. Qed.
Global Instance mscal_proper n x : Proper (meq n ==> meq n) (mscal x).
Proof. intros A A' HA i j Hi Hj. unfold mscal. rewrite HA by auto. reflexivity. Qed.
Global Instance vadd_proper n : Proper (veq n ==> veq n ==> veq n) vadd.
Proof. intros A A' HA B B' HB i Hi. unfold vadd. rewrite HA, HB by auto. reflexivity. Qed.
Global Instance vscal_proper n x : Proper (veq n ==> veq n) (vscal x).
Proof. intros A A' HA i Hi. unfold vscal. rewrite HA by auto. reflexivity. Qed.

Lemma mmul_assoc n A B C : meq n (mmul n A (mmul n B C)) (mmul n (mmul n A B) C).
Proof.
  intros i j _ _. unfold mmul.
  rewrite (sumn_ext n _ (fun k => sumn n (fun l => A i k * B k l * C l j))).
  2:{ intros k _. rewrite <- sumn_scal. apply sumn_ext. intros; ring. }
  rewrite sumn_swap. apply sumn_ext. intros l _. rewrite <- sumn_scal_r. reflexivity.
Qed.
Lemma mapp_mmul n A B v : veq n (mapp n (mmul n A B) v) (mapp n A (mapp n B v)).
Proof.
  intros i _. unfold mapp, mmul.
  symmetry. rewrite (sumn_ext n _ (fun k => sumn n (fun l => A i k * B k l * v l))).
  2:{ intros k _. rewrite <- sumn_scal. apply sumn_ext. intros; ring. }
  rewrite sumn_swap. apply sumn_ext. intros l _. rewrite <- sumn_scal_r. reflexivity.
Qed.
Lemma mid_l n A : meq n (mmul n mid A) A.
Proof.
  intros i j Hi Hj. unfold mmul. rewrite (sumn_single n i); auto.
  - unfold mid. rewrite Nat.eqb_refl. lra.
  - intros k _ Hk. unfold mid. destruct (Nat.eqb_spec i k); [congruence|lra].
Qed.
Lemma mid_r n A : meq n (mmul n A mid) A.
Proof.
  intros i j Hi Hj. unfold mmul. rewrite (sumn_single n j); auto.
  - unfold mid. rewrite Nat.eqb_refl. lra.
  - intros k _ Hk. unfold mid. destruct (Nat.eqb_spec k j); [congruence|lra].
Qed.
Lemma mid_app n v : veq n (mapp n mid v) v.
Proof.
  intros i Hi. unfold mapp. rewrite (sumn_single n i); auto.
  - unfold mid. rewrite Nat.eqb_refl. lra.
  - intros k _ Hk. unfold mid. destruct (Nat.eqb_spec i k); [congruence|lra].
Qed.
Lemma mtr_mmul n A B : meq n (mtr (mmul n A B)) (mmul n (mtr B) (mtr A)).
Proof. intros i j _ _. unfold mtr, mmul. apply sumn_ext. intros; ring. Qed.
Lemma mtr_mtr n A : meq n (mtr (mtr A)) A.
Proof. intros i j _ _. reflexivity. Qed.
Lemma mtr_mid n : meq n (mtr mid) mid.
Proof. intros i j _ _. unfold mtr, mid. rewrite Nat.eqb_sym. reflexivity. Qed.

Lemma dot_mapp n A u v : dot n u (mapp n A v) = dot n (mapp n (mtr A) u) v.
Proof.
  unfold dot, mapp, mtr.
  rewrite (sumn_ext n _ (fun k => sumn n (fun l => u k * A k l * v l))).
  2:{ intros k _. rewrite <- sumn_scal. apply sumn_ext. intros; ring. }
  rewrite sumn_swap. apply sumn_ext. intros l _. rewrite <- sumn_scal_r.
  apply sumn_ext. intros; ring.
Qed.

(** Case analysis on bounded indices. *)
Lemma lt_S_cases (P : nat -> Prop) n : P n -> (forall i, (i < n)%nat -> P i) -> forall i, (i < S n)%nat -> P i.
Proof. intros H1 H2 i Hi. destruct (Nat.eq_dec i n) as [->|]; auto. apply H2. lia. Qed.
Lemma lt_0_cases (P : nat -> Prop) : forall i, (i < 0)%nat -> P i.
Proof. intros; lia. Qed.
Ltac all_idx := repeat (apply lt_S_cases; [|]); try apply lt_0_cases.

(** Hyperbolic functions. *)
Lemma cosh_sinh_1 x : cosh x * cosh x - sinh x * sinh x = 1.
Proof.
  unfold cosh, sinh. assert (E : exp x * exp (- x) = 1) by (rewrite <- exp_plus, Rplus_opp_r; apply exp_0).
  field_simplify. replace (4 * exp x * exp (-x) / 4) with (exp x * exp (-x)) by field. auto.
Qed.
Lemma cosh_plus x y : cosh (x + y) = cosh x * cosh y + sinh x * sinh y.
Proof.
  unfold cosh, sinh. rewrite Ropp_plus_distr, !exp_plus. field.
Qed.
Lemma sinh_plus x y : sinh (x + y) = sinh x * cosh y + cosh x * sinh y.
Proof.
  unfold cosh, sinh. rewrite Ropp_plus_distr, !exp_plus. field.
Qed.
Lemma cosh_0' : cosh 0 = 1.
Proof. unfold cosh. rewrite Ropp_0, exp_0. field. Qed.
Lemma sinh_0' : sinh 0 = 0.
Proof. unfold sinh. rewrite Ropp_0, exp_0. field. Qed.
Lemma cos2_sin2 x : cos x * cos x + sin x * sin x = 1.
Proof. pose proof (sin2_cos2 x) as H. unfold Rsqr in H. lra. Qed.
