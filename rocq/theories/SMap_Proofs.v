(** Lemmas about the sorted association lists of [SMap]. *)
From Coq Require Import List String Ascii NArith Bool Lia.
From Verif Require Import SMap.
Import ListNotations.

Lemma str_compare_refl s : String.compare s s = Eq.
Proof.
  induction s as [|c s IH]; simpl; [reflexivity|].
  unfold Ascii.compare. rewrite N.compare_refl. exact IH.
Qed.

Lemma str_compare_lt_neq a b : String.compare a b = Lt -> a <> b.
Proof. intros H ->. rewrite str_compare_refl in H; discriminate. Qed.

Lemma str_compare_gt_lt a b : String.compare a b = Gt -> String.compare b a = Lt.
Proof. intros H. rewrite String.compare_antisym, H; reflexivity. Qed.

Lemma ascii_compare_lt_iff a b :
  Ascii.compare a b = Lt <-> (N_of_ascii a < N_of_ascii b)%N.
Proof. unfold Ascii.compare. apply N.compare_lt_iff. Qed.

Lemma str_lt_trans a b c : str_lt a b -> str_lt b c -> str_lt a c.
Proof.
  unfold str_lt. revert b c. induction a as [|x a IH]; intros [|y b] [|z c]; simpl; try congruence.
  destruct (Ascii.compare x y) eqn:Hxy; destruct (Ascii.compare y z) eqn:Hyz; intros H1 H2; try congruence.
  - apply Ascii.compare_eq_iff in Hxy; subst. rewrite Hyz. eauto.
  - apply Ascii.compare_eq_iff in Hxy; subst. rewrite Hyz. reflexivity.
  - apply Ascii.compare_eq_iff in Hyz; subst. rewrite Hxy. reflexivity.
  - assert (H : Ascii.compare x z = Lt).
    { rewrite ascii_compare_lt_iff in *. lia. }
    rewrite H. reflexivity.
Qed.

Lemma str_lt_irrefl a : ~ str_lt a a.
Proof. unfold str_lt. rewrite str_compare_refl. discriminate. Qed.

Section P.
Context {V : Type}.
Implicit Types (m o : smap V).

Lemma sfind_sset k v m k' :
  sfind k' (sset k v m) = if String.eqb k' k then Some v else sfind k' m.
Proof.
  induction m as [|[k1 v1] m IH]; simpl; [reflexivity|].
  destruct (String.compare k k1) eqn:Hc; simpl.
  - apply String.compare_eq_iff in Hc; subst k1. destruct (String.eqb k' k); reflexivity.
  - reflexivity.
  - rewrite IH. destruct (String.eqb_spec k' k1) as [->|]; [|reflexivity].
    destruct (String.eqb_spec k1 k) as [->|]; [|reflexivity].
    rewrite str_compare_refl in Hc; discriminate.
Qed.

Lemma sfind_sinsert k v m k' :
  sfind k' (sinsert k v m) =
  match sfind k' m with Some x => Some x | None => if String.eqb k' k then Some v else None end.
Proof.
  unfold sinsert. destruct (sfind k m) as [x|] eqn:Hf.
  - destruct (sfind k' m) eqn:Hf'; [reflexivity|].
    destruct (String.eqb_spec k' k) as [->|]; congruence.
  - rewrite sfind_sset. destruct (String.eqb_spec k' k) as [->|].
    + rewrite Hf; reflexivity.
    + destruct (sfind k' m); reflexivity.
Qed.

Lemma sfind_smerge m o k :
  sfind k (smerge m o) = match sfind k m with Some x => Some x | None => sfind k o end.
Proof.
  unfold smerge. revert m. induction o as [|[k1 v1] o IH]; intros m; simpl.
  - destruct (sfind k m); reflexivity.
  - rewrite IH. rewrite sfind_sinsert. destruct (sfind k m) eqn:Hm; [reflexivity|].
    destruct (String.eqb k k1); reflexivity.
Qed.

Lemma sfind_In k m v : sfind k m = Some v -> In (k, v) m.
Proof.
  induction m as [|[k1 v1] m IH]; simpl; [discriminate|].
  destruct (String.eqb_spec k k1) as [->|]; intros H.
  - left; congruence.
  - right; auto.
Qed.

Lemma In_sset k v m kv : In kv (sset k v m) -> kv = (k, v) \/ In kv m.
Proof.
  induction m as [|[k1 v1] m IH]; simpl; [intuition|].
  destruct (String.compare k k1); simpl; intuition.
Qed.

Lemma In_sinsert k v m kv : In kv (sinsert k v m) -> kv = (k, v) \/ In kv m.
Proof. unfold sinsert. destruct (sfind k m); [auto|apply In_sset]. Qed.

Lemma In_smerge m o kv : In kv (smerge m o) -> In kv m \/ In kv o.
Proof.
  unfold smerge. revert m. induction o as [|[k1 v1] o IH]; intros m; simpl; [auto|].
  intros H. apply IH in H as [H|H]; [|auto].
  apply In_sinsert in H as [->|H]; auto.
Qed.

Lemma sset_sorted k v m : ssorted m -> ssorted (sset k v m).
Proof.
  induction m as [|[k1 v1] m IH]; simpl.
  - intros _; split; [intros ? ? []|exact I].
  - intros [H1 H2]. destruct (String.compare k k1) eqn:Hc; simpl.
    + apply String.compare_eq_iff in Hc; subst k1. split; auto.
    + split; [|split; auto]. intros k' v' [E|Hin].
      * injection E as -> ->. exact Hc.
      * eapply str_lt_trans; [exact Hc|eauto].
    + split; [|auto]. intros k' v' Hin. apply In_sset in Hin as [E|Hin]; [|eauto].
      injection E as -> ->. apply str_compare_gt_lt; exact Hc.
Qed.

Lemma sinsert_sorted k v m : ssorted m -> ssorted (sinsert k v m).
Proof. unfold sinsert. destruct (sfind k m); auto using sset_sorted. Qed.

Lemma smerge_sorted m o : ssorted m -> ssorted (smerge m o).
Proof.
  unfold smerge. revert m. induction o as [|[k1 v1] o IH]; intros m H; simpl; auto using sinsert_sorted.
Qed.

Lemma ssorted_In_sfind m k v : ssorted m -> In (k, v) m -> sfind k m = Some v.
Proof.
  induction m as [|[k1 v1] m IH]; simpl; [intros _ []|].
  intros [H1 H2] [E|Hin].
  - injection E as -> ->. rewrite String.eqb_refl. reflexivity.
  - destruct (String.eqb_spec k k1) as [->|]; [|auto].
    exfalso. eapply str_lt_irrefl. eapply H1; eauto.
Qed.

(** Sorted maps with the same lookups are equal. *)
Lemma ssorted_ext m o :
  ssorted m -> ssorted o -> (forall k, sfind k m = sfind k o) -> m = o.
Proof.
  revert o. induction m as [|[k v] m IH]; intros o Hm Ho Heq.
  - destruct o as [|[k' v'] o]; [reflexivity|].
    specialize (Heq k'). simpl in Heq. rewrite String.eqb_refl in Heq. discriminate.
  - destruct o as [|[k' v'] o].
    { specialize (Heq k). simpl in Heq. rewrite String.eqb_refl in Heq. discriminate. }
    simpl in Hm, Ho. destruct Hm as [Hm1 Hm2]. destruct Ho as [Ho1 Ho2].
    assert (Hk : k = k').
    { pose proof (Heq k) as E1. pose proof (Heq k') as E2. simpl in E1, E2.
      rewrite String.eqb_refl in E1, E2.
      destruct (String.eqb_spec k k') as [|Hne]; [assumption|].
      destruct (String.eqb_spec k' k) as [|Hne']; [congruence|].
      symmetry in E1. apply sfind_In in E1. apply sfind_In in E2.
      apply Ho1 in E1. apply Hm1 in E2. exfalso. eapply str_lt_irrefl, str_lt_trans; eauto. }
    subst k'. f_equal.
    + pose proof (Heq k) as E. simpl in E. rewrite String.eqb_refl in E. congruence.
    + apply IH; auto. intros j. pose proof (Heq j) as E. simpl in E.
      destruct (String.eqb_spec j k) as [Hj|Hj]; [|assumption]. subst j.
      destruct (sfind k m) eqn:F1.
      { apply sfind_In, Hm1 in F1. exfalso; eapply str_lt_irrefl; eauto. }
      destruct (sfind k o) eqn:F2; [|reflexivity].
      apply sfind_In, Ho1 in F2. exfalso; eapply str_lt_irrefl; eauto.
Qed.
End P.
