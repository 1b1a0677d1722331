(** Proofs about the [Config] model: heap invariants and the two refinements. *)
From Coq Require Import List String Bool Arith Lia.
From Verif Require Import SMap SMap_Proofs Dbl Config_Model Config_Spec.
Import ListNotations.

(** ** Heap basics *)
Lemma deref_alloc_old h m l x : deref h l = Some x -> deref (h ++ [m]) l = Some x.
Proof.
  unfold deref. intros H. rewrite nth_error_app1; [assumption|].
  apply nth_error_Some. congruence.
Qed.

Lemma deref_alloc_new h m : deref (h ++ [m]) (List.length h) = Some m.
Proof.
  unfold deref. rewrite nth_error_app2 by lia. rewrite Nat.sub_diag. reflexivity.
Qed.

Lemma deref_update_same h l m x : deref h l = Some x -> deref (update h l m) l = Some m.
Proof.
  revert l. induction h as [|a h IH]; intros [|l]; simpl; intros H; try discriminate; [reflexivity|].
  apply IH. exact H.
Qed.

Lemma deref_update_other h l m l' : l' <> l -> deref (update h l m) l' = deref h l'.
Proof.
  revert l l'. induction h as [|a h IH]; intros [|l] [|l'] H; simpl; try reflexivity; try lia.
  apply IH. lia.
Qed.

Lemma deref_lt h l x : deref h l = Some x -> l < List.length h.
Proof. unfold deref. intros H. apply nth_error_Some. congruence. Qed.

(** ** Good sets of handles *)
Definition wf (h : heap) (hd : handle) : Prop :=
  (exists m, deref h (h_vals hd) = Some m) /\ (exists mi, impl_map h hd = Some mi).

Record good (h : heap) (S : handle -> Prop) : Prop := {
  g_cl : forall hd hd', S hd -> nested h hd hd' -> S hd';
  g_wf : forall hd, S hd -> wf h hd;
  g_1 : forall a b, S a -> S b -> h_vals a = h_vals b -> forall n, lookup h a n = lookup h b n;
  g_2 : forall g a m, S g -> S a -> h_impl g = Some (h_vals a) ->
        deref h (h_vals a) = Some m -> forall n, lookup h a n = Some (sfind n m)
}.

Definition roots_in (st : state) (S : handle -> Prop) : Prop :=
  (forall r hd, regs st r = Some hd -> S hd) /\ (forall v hd, in_value hd (vregs st v) -> S hd).

Lemma live_sub st S : roots_in st S ->
  (forall hd hd', S hd -> nested (hp st) hd hd' -> S hd') -> forall hd, live st hd -> S hd.
Proof. intros [H1 H2] Hc hd Hl. induction Hl; eauto. Qed.

Definition Inv (st : state) : Prop := good (hp st) (live st).

Lemma Inv_intro st S : good (hp st) S -> roots_in st S -> Inv st.
Proof.
  intros G R. pose proof (live_sub st S R (g_cl _ _ G)) as L.
  constructor.
  - intros hd hd' H N. eapply live_nested; eauto.
  - intros hd H. apply (g_wf _ _ G). auto.
  - intros a b Ha Hb. apply (g_1 _ _ G); auto.
  - intros g a m Hg Ha. apply (g_2 _ _ G g a m); auto.
Qed.

Lemma live_roots st : roots_in st (live st).
Proof. split; intros; [eapply live_reg|eapply live_vreg]; eauto. Qed.

(** Handles not mentioned. *)
Lemma lookup_same_maps h h' hd :
  deref h' (h_vals hd) = deref h (h_vals hd) ->
  impl_map h' hd = impl_map h hd ->
  forall n, lookup h' hd n = lookup h hd n.
Proof. intros H1 H2 n. unfold lookup. rewrite H1, H2. reflexivity. Qed.

Lemma lookup_alloc h m hd : wf h hd -> forall n, lookup (h ++ [m]) hd n = lookup h hd n.
Proof.
  intros [[x Hx] [y Hy]]. apply lookup_same_maps.
  - rewrite Hx. apply deref_alloc_old. exact Hx.
  - unfold impl_map in *. destruct (h_impl hd); [|congruence].
    rewrite Hy. apply deref_alloc_old. exact Hy.
Qed.

Lemma wf_alloc h m hd : wf h hd -> wf (h ++ [m]) hd.
Proof.
  intros [[x Hx] [y Hy]]. split.
  - exists x. apply deref_alloc_old. exact Hx.
  - unfold impl_map in *. destruct (h_impl hd); [|eauto].
    exists y. apply deref_alloc_old. exact Hy.
Qed.

Lemma wf_mentions_lt h hd l : wf h hd -> mentions hd l -> exists m, deref h l = Some m.
Proof.
  intros [[x Hx] [y Hy]] [<-|E].
  - eauto.
  - unfold impl_map in Hy. rewrite E in Hy. eauto.
Qed.

Lemma nested_alloc h m hd hd' : wf h hd -> nested (h ++ [m]) hd hd' -> nested h hd hd'.
Proof.
  intros W (l & mm & k & v & Hm & Hd & Hin & Hv).
  destruct (wf_mentions_lt _ _ _ W Hm) as [m0 Hm0].
  rewrite (deref_alloc_old _ m _ _ Hm0) in Hd. exists l, mm, k, v. repeat split; auto. congruence.
Qed.

Lemma good_alloc h m S : good h S -> good (h ++ [m]) S.
Proof.
  intros G. constructor.
  - intros hd hd' H N. eapply (g_cl _ _ G); eauto. eapply nested_alloc; eauto. apply (g_wf _ _ G); auto.
  - intros hd H. apply wf_alloc, (g_wf _ _ G); auto.
  - intros a b Ha Hb E n. rewrite !lookup_alloc by (apply (g_wf _ _ G); auto). apply (g_1 _ _ G); auto.
  - intros g a mm Hg Ha E D n. rewrite lookup_alloc by (apply (g_wf _ _ G); auto).
    destruct (g_wf _ _ G a Ha) as [[x Hx] _]. rewrite (deref_alloc_old _ m _ _ Hx) in D.
    eapply (g_2 _ _ G g a); eauto. congruence.
Qed.

Definition fresh_for (S : handle -> Prop) (l : loc) : Prop := forall hd, S hd -> ~ mentions hd l.

Lemma good_fresh h S : good h S -> fresh_for S (List.length h).
Proof.
  intros G hd H M. destruct (wf_mentions_lt _ _ _ (g_wf _ _ G hd H) M) as [m Hm].
  apply deref_lt in Hm. lia.
Qed.

(** Adding a handle with an unshared inner map. *)
Lemma good_add h S hd0 :
  good h S -> fresh_for S (h_vals hd0) -> h_impl hd0 <> Some (h_vals hd0) ->
  wf h hd0 ->
  (forall hd', nested h hd0 hd' -> S hd') ->
  (forall V m, h_impl hd0 = Some V -> deref h V = Some m ->
     forall a, S a -> h_vals a = V -> forall n, lookup h a n = Some (sfind n m)) ->
  good h (fun hd => S hd \/ hd = hd0).
Proof.
  intros G F Hne W N I2. constructor.
  - intros hd hd' [H| ->] Hn; left; [eapply (g_cl _ _ G); eauto|auto].
  - intros hd [H| ->]; [apply (g_wf _ _ G); auto|assumption].
  - intros a b [Ha| ->] [Hb| ->] E n.
    + apply (g_1 _ _ G); auto.
    + exfalso. apply (F a Ha). left. exact E.
    + exfalso. apply (F b Hb). left. symmetry. exact E.
    + reflexivity.
  - intros g a m [Hg| ->] [Ha| ->] E D n.
    + eapply (g_2 _ _ G g a); eauto.
    + exfalso. apply (F g Hg). right. exact E.
    + eapply I2; eauto.
    + congruence.
Qed.

Lemma impl_map_update_other h l m hd :
  h_impl hd <> Some l -> impl_map (update h l m) hd = impl_map h hd.
Proof.
  intros H. unfold impl_map. destruct (h_impl hd) as [li|]; [|reflexivity].
  apply deref_update_other. congruence.
Qed.

Lemma lookup_update_other h l m hd :
  ~ mentions hd l -> forall n, lookup (update h l m) hd n = lookup h hd n.
Proof.
  intros H. apply lookup_same_maps.
  - apply deref_update_other. intros E. apply H. left. exact E.
  - apply impl_map_update_other. intros E. apply H. right. exact E.
Qed.

Lemma nested_update_other h l m hd hd' :
  ~ mentions hd l -> nested (update h l m) hd hd' -> nested h hd hd'.
Proof.
  intros H (l' & mm & k & v & Hm & Hd & Hin & Hv). exists l', mm, k, v.
  rewrite deref_update_other in Hd by (intros ->; contradiction). auto.
Qed.

Lemma wf_update h l m hd x : deref h l = Some x -> wf h hd -> wf (update h l m) hd.
Proof.
  intros Hl [[a Ha] [b Hb]]. split.
  - destruct (Nat.eq_dec (h_vals hd) l) as [->|Hne].
    + exists m. eapply deref_update_same; eauto.
    + exists a. rewrite deref_update_other; auto.
  - unfold impl_map in *. destruct (h_impl hd) as [li|]; [|eauto].
    destruct (Nat.eq_dec li l) as [->|Hne].
    + exists m. eapply deref_update_same; eauto.
    + exists b. rewrite deref_update_other; auto.
Qed.

Lemma wf_update_other h l m hd : ~ mentions hd l -> wf h hd -> wf (update h l m) hd.
Proof.
  intros Hn [[a Ha] [b Hb]]. split.
  - exists a. rewrite deref_update_other; [exact Ha|intros E; apply Hn; left; exact E].
  - exists b. rewrite impl_map_update_other; [exact Hb|intros E; apply Hn; right; exact E].
Qed.

Lemma good_update_fresh h S l m : good h S -> fresh_for S l -> good (update h l m) S.
Proof.
  intros G F. constructor.
  - intros hd hd' H N. eapply (g_cl _ _ G); eauto. eapply nested_update_other; eauto.
  - intros hd H. apply wf_update_other; auto. apply (g_wf _ _ G); auto.
  - intros a b Ha Hb E n. rewrite !lookup_update_other by auto. apply (g_1 _ _ G); auto.
  - intros g a mm Hg Ha E D n. rewrite lookup_update_other by auto.
    rewrite deref_update_other in D.
    + eapply (g_2 _ _ G g a); eauto.
    + intros E1. apply (F a Ha). left. exact E1.
Qed.

(** ** In-place flatten keeps every lookup *)
Section Flatten.
Context (h : heap) (S : handle -> Prop) (G : good h S).
Context (hd : handle) (Hhd : S hd) (li : loc) (Himpl : h_impl hd = Some li).
Context (m mi : smap value) (Hm : deref h (h_vals hd) = Some m) (Hmi : deref h li = Some mi).

Let V := h_vals hd.
Let h' := update h V (smerge m mi).

Lemma fl_lookup_hd n :
  lookup h hd n = Some (match sfind n m with Some v => Some v | None => sfind n mi end).
Proof.
  unfold lookup, impl_map. rewrite Hm, Himpl, Hmi. destruct (sfind n m); reflexivity.
Qed.

Lemma fl_outer_user g : S g -> h_impl g = Some V ->
  forall n, sfind n (smerge m mi) = sfind n m.
Proof.
  intros Hg E n. pose proof (g_2 _ _ G g hd m Hg Hhd E Hm n) as H.
  rewrite fl_lookup_hd in H. rewrite sfind_smerge. congruence.
Qed.

Lemma fl_lookup a : S a -> forall n, lookup h' a n = lookup h a n.
Proof.
  intros Ha n. destruct (g_wf _ _ G a Ha) as [[x Hx] [y Hy]].
  assert (Himp : exists y', impl_map h' a = Some y' /\ sfind n y' = sfind n y).
  { unfold impl_map in *. destruct (h_impl a) as [lj|] eqn:Ej; [|eexists; split; eauto; congruence].
    destruct (Nat.eq_dec lj V) as [->|Hne].
    - exists (smerge m mi). split; [eapply deref_update_same; eauto|].
      rewrite (fl_outer_user a Ha Ej). unfold V in Hy. congruence.
    - exists y. split; [unfold h'; rewrite deref_update_other; auto|reflexivity]. }
  destruct Himp as (y' & Hy' & Ey).
  destruct (Nat.eq_dec (h_vals a) V) as [E|Hne].
  - pose proof (g_1 _ _ G a hd Ha Hhd E n) as H1. rewrite fl_lookup_hd in H1.
    unfold lookup at 1. rewrite E. unfold h' at 1. erewrite deref_update_same by eauto.
    rewrite sfind_smerge. rewrite H1.
    destruct (sfind n m) as [v|] eqn:F; [reflexivity|].
    destruct (sfind n mi) as [w|] eqn:F2; [reflexivity|].
    rewrite Hy'. rewrite Ey. f_equal.
    unfold lookup in H1. rewrite E in H1. fold V in Hm. rewrite Hm, F, Hy in H1. congruence.
  - unfold lookup. unfold h' at 1. rewrite deref_update_other by auto. rewrite Hx.
    destruct (sfind n x); [reflexivity|]. rewrite Hy', Hy, Ey. reflexivity.
Qed.

Lemma fl_nested a hd' : S a -> nested h' a hd' -> S hd'.
Proof.
  intros Ha (l & mm & k & v & Hmt & Hd & Hin & Hv).
  destruct (Nat.eq_dec l V) as [->|Hne].
  - unfold h' in Hd. erewrite deref_update_same in Hd by eauto. injection Hd as <-.
    apply (g_cl _ _ G hd hd' Hhd). apply In_smerge in Hin as [Hin|Hin].
    + exists V, m, k, v. repeat split; auto. left; reflexivity.
    + exists li, mi, k, v. repeat split; auto. right; exact Himpl.
  - unfold h' in Hd. rewrite deref_update_other in Hd by auto.
    apply (g_cl _ _ G a hd' Ha). exists l, mm, k, v. auto.
Qed.

Let hd1 := mkH V None.

Lemma fl_lookup_new n : lookup h' hd1 n = lookup h hd n.
Proof.
  rewrite fl_lookup_hd. unfold lookup, hd1; simpl. unfold h'. erewrite deref_update_same by eauto.
  rewrite sfind_smerge. destruct (sfind n m); [reflexivity|]. destruct (sfind n mi); reflexivity.
Qed.

Lemma fl_good : good h' (fun a => S a \/ a = hd1).
Proof.
  constructor.
  - intros a hd' [Ha| ->] N; left.
    + eapply fl_nested; eauto.
    + destruct N as (l & mm & k & v & [E|E] & Hd & Hin & Hv); simpl in E; [|discriminate].
      eapply (fl_nested hd); auto. exists l, mm, k, v. repeat split; auto. left. exact E.
  - intros a [Ha| ->].
    + eapply wf_update; eauto. apply (g_wf _ _ G); auto.
    + split; simpl; [|exists []; reflexivity]. exists (smerge m mi). eapply deref_update_same; eauto.
  - assert (Hsame : forall a, S a -> h_vals a = V -> forall n, lookup h' a n = lookup h' hd1 n).
    { intros a Ha E n. rewrite fl_lookup_new, fl_lookup by auto. apply (g_1 _ _ G); auto. }
    intros a b [Ha| ->] [Hb| ->] E n.
    + rewrite !fl_lookup by auto. apply (g_1 _ _ G); auto.
    + apply Hsame; auto.
    + symmetry. apply Hsame; auto.
    + reflexivity.
  - intros g a x [Hg| ->] [Ha| ->] E D n; simpl in E; try discriminate.
    + rewrite fl_lookup by auto. destruct (Nat.eq_dec (h_vals a) V) as [EV|Hne].
      * rewrite EV in E, D. unfold h' in D. erewrite deref_update_same in D by eauto.
        injection D as <-. rewrite (fl_outer_user g Hg E).
        rewrite (g_1 _ _ G a hd Ha Hhd EV). apply (g_2 _ _ G g hd m); auto.
      * unfold h' in D. rewrite deref_update_other in D by auto. eapply (g_2 _ _ G g a); eauto.
    + simpl in D. unfold h' in D. erewrite deref_update_same in D by eauto. injection D as <-.
      unfold lookup, hd1; simpl. unfold h'. erewrite deref_update_same by eauto.
      destruct (sfind n (smerge m mi)); reflexivity.
Qed.
End Flatten.

(** ** Representation of flat trees, approximated to depth [n] *)
Definition vrepG (P : handle -> fcfg -> Prop) (v : value) (f : fval) : Prop :=
  match v, f with
  | VNum x, FNum y => x = y
  | VVec x, FVec y => x = y
  | VStr x, FStr y => x = y
  | VCfgs l, FCfgs t => Forall2 P l t
  | _, _ => False
  end.

Definition orepG (P : handle -> fcfg -> Prop) (r : option value) (o : option fval) : Prop :=
  match r, o with
  | None, None => True
  | Some v, Some f => vrepG P v f
  | _, _ => False
  end.

Fixpoint hrep (h : heap) (n : nat) (hd : handle) (t : fcfg) : Prop :=
  match n with
  | O => True
  | S n' => forall name, exists r, lookup h hd name = Some r /\ orepG (hrep h n') r (ffind name t)
  end.

Definition hrepA h hd t := forall n, hrep h n hd t.
Definition vrepA h v f := vrepG (hrepA h) v f.

Lemma vrepG_mono (P Q : handle -> fcfg -> Prop) v f :
  (forall hd t, in_value hd v -> P hd t -> Q hd t) -> vrepG P v f -> vrepG Q v f.
Proof.
  intros H. destruct v as [| | |l], f as [| | |t]; simpl; auto.
  intros F. induction F as [|x y l t Hxy F IH]; constructor.
  - apply H; simpl; auto.
  - apply IH. intros hd t' Hin. apply H. simpl in *; auto.
Qed.

Lemma Forall2_forall_nat {A B} (P : nat -> A -> B -> Prop) l t :
  (forall n, Forall2 (P n) l t) -> Forall2 (fun a b => forall n, P n a b) l t.
Proof.
  revert t. induction l as [|a l IH]; intros t H.
  - pose proof (H 0) as H0. inversion H0. constructor.
  - pose proof (H 0) as H0. inversion H0; subst. constructor.
    + intros n. specialize (H n). inversion H; auto.
    + apply IH. intros n. specialize (H n). inversion H; auto.
Qed.

Lemma hrepA_unfold h hd t :
  hrepA h hd t <-> forall name, exists r, lookup h hd name = Some r /\ orepG (hrepA h) r (ffind name t).
Proof.
  split.
  - intros H name. destruct (H 1 name) as (r & Hr & _). exists r. split; [assumption|].
    assert (HA : forall n, orepG (hrep h n) r (ffind name t)).
    { intros n. destruct (H (S n) name) as (r' & Hr' & Ho). rewrite Hr in Hr'.
      injection Hr' as <-. exact Ho. }
    destruct r as [v|], (ffind name t) as [f|]; simpl in *; try (apply (HA 0)).
    destruct v as [| | |l], f as [| | |tl]; simpl in *; try (apply (HA 0)).
    unfold hrepA. apply Forall2_forall_nat. exact HA.
  - intros H n. revert hd t H. induction n as [|n IH]; intros hd t H; simpl; [exact I|].
    intros name. destruct (H name) as (r & Hr & Ho). exists r. split; [assumption|].
    destruct r as [v|], (ffind name t) as [f|]; simpl in *; auto.
    eapply vrepG_mono; [|exact Ho]. intros hd' t' _ HA. exact (HA n).
Qed.

Lemma hrepA_preserved h h' (S : handle -> Prop) :
  (forall hd, S hd -> forall n, lookup h' hd n = lookup h hd n) ->
  (forall hd n v hd', S hd -> lookup h hd n = Some (Some v) -> in_value hd' v -> S hd') ->
  forall hd t, S hd -> hrepA h hd t -> hrepA h' hd t.
Proof.
  intros HL HC hd t Hs HR n. revert hd t Hs HR. induction n as [|n IH]; intros hd t Hs HR; simpl; [exact I|].
  intros name. destruct (proj1 (hrepA_unfold _ _ _) HR name) as (r & Hr & Ho).
  exists r. rewrite HL by auto. split; [assumption|].
  destruct r as [v|], (ffind name t) as [f|]; simpl in *; auto.
  eapply vrepG_mono; [|exact Ho]. intros hd' t' Hin HA. apply IH; auto. eapply HC; eauto.
Qed.

Lemma lookup_nested h hd n v hd' :
  lookup h hd n = Some (Some v) -> in_value hd' v -> nested h hd hd'.
Proof.
  unfold lookup. destruct (deref h (h_vals hd)) as [m|] eqn:Hm; [|discriminate].
  destruct (sfind n m) as [w|] eqn:Hw.
  - intros E Hin. injection E as ->. exists (h_vals hd), m, n, v. repeat split; auto.
    + left; reflexivity.
    + apply sfind_In; assumption.
  - unfold impl_map. destruct (h_impl hd) as [li|] eqn:Hli.
    + destruct (deref h li) as [mi|] eqn:Hmi; [|discriminate].
      intros E Hin. injection E as E. exists li, mi, n, v. repeat split; auto.
      * right; assumption.
      * apply sfind_In; assumption.
    + simpl. discriminate.
Qed.

Lemma hrepA_good h h' S : good h S ->
  (forall hd, S hd -> forall n, lookup h' hd n = lookup h hd n) ->
  forall hd t, S hd -> hrepA h hd t -> hrepA h' hd t.
Proof.
  intros G HL. apply hrepA_preserved; auto.
  intros hd n v hd' Hs Hl Hin. eapply (g_cl _ _ G); eauto. eapply lookup_nested; eauto.
Qed.

(** A handle whose lookups coincide with another's represents the same tree. *)
Lemma hrepA_lookup_eq h a b t :
  (forall n, lookup h a n = lookup h b n) -> hrepA h b t -> hrepA h a t.
Proof.
  intros E H. apply hrepA_unfold. intros name. rewrite E. apply hrepA_unfold. exact H.
Qed.

(** ** Simulation relation for the flat specification *)
Record Rel (st : state) (ft : fstate) : Prop := {
  r_inv : Inv st;
  r_regs : forall r, match regs st r, fregs ft r with
                     | None, None => True
                     | Some hd, Some t => hrepA (hp st) hd t
                     | _, _ => False
                     end;
  r_vregs : forall v, vrepA (hp st) (vregs st v) (fvregs ft v)
}.

Lemma vrepA_good h h' S v f : good h S ->
  (forall hd, S hd -> forall n, lookup h' hd n = lookup h hd n) ->
  (forall hd, in_value hd v -> S hd) -> vrepA h v f -> vrepA h' v f.
Proof.
  intros G HL Hv. apply vrepG_mono. intros hd t Hin. eapply hrepA_good; eauto.
Qed.

(** New state with possibly a new heap on which the lookups of the handles in
    [S] are unchanged. *)
Lemma Rel_step st ft h' rg' vr' frg' fvr' S :
  good h' S ->
  (forall r, match rg' r, frg' r with
             | None, None => True
             | Some hd, Some t => S hd /\ hrepA h' hd t
             | _, _ => False
             end) ->
  (forall v, (forall hd, in_value hd (vr' v) -> S hd) /\ vrepA h' (vr' v) (fvr' v)) ->
  st = mkS h' rg' vr' -> ft = mkF frg' fvr' -> Rel st ft.
Proof.
  intros G HR HV -> ->. constructor; simpl.
  - apply Inv_intro with (S := S); simpl; [assumption|]. split; simpl.
    + intros r hd E. specialize (HR r). rewrite E in HR. destruct (frg' r); [apply HR|contradiction].
    + intros v hd Hin. apply (HV v). exact Hin.
  - intros r. specialize (HR r). destruct (rg' r), (frg' r); auto. apply HR.
  - intros v. apply HV.
Qed.

Section OneStep.
Context (st : state) (ft : fstate) (HRel : Rel st ft).

Let G : good (hp st) (live st) := r_inv _ _ HRel.

Lemma rel_reg r hd : regs st r = Some hd ->
  exists t, fregs ft r = Some t /\ hrepA (hp st) hd t /\ live st hd.
Proof.
  intros E. pose proof (r_regs _ _ HRel r) as H. rewrite E in H.
  destruct (fregs ft r) as [t|]; [|contradiction]. exists t. repeat split; auto. eapply live_reg; eauto.
Qed.

Lemma rel_reg_none r : regs st r = None -> fregs ft r = None.
Proof.
  intros E. pose proof (r_regs _ _ HRel r) as H. rewrite E in H.
  destruct (fregs ft r) as [t|]; [contradiction|reflexivity].
Qed.

(** Replace one register by a handle of the same heap. *)
Lemma rel_set_reg_live r (o : option (handle * fcfg)) :
  (match o with Some (hd, t) => live st hd /\ hrepA (hp st) hd t | None => True end) ->
  Rel (mkS (hp st) (upd (regs st) r (option_map fst o)) (vregs st))
      (mkF (upd (fregs ft) r (option_map snd o)) (fvregs ft)).
Proof.
  intros H. eapply Rel_step with (S := live st); [exact G| | |reflexivity|reflexivity].
  - intros r'. unfold upd. destruct (Nat.eqb r' r).
    + destruct o as [[hd t]|]; simpl; auto.
    + pose proof (r_regs _ _ HRel r') as H'. destruct (regs st r') eqn:E, (fregs ft r'); auto.
      split; auto. eapply live_reg; eauto.
  - intros v. split; [intros; eapply live_vreg; eauto|apply (r_vregs _ _ HRel)].
Qed.

(** Heap change preserving the live lookups, with one new handle for [r]. *)
Lemma rel_new_heap h' S r hd1 t1 :
  good h' S -> (forall hd, live st hd -> S hd) -> S hd1 ->
  (forall hd, live st hd -> forall n, lookup h' hd n = lookup (hp st) hd n) ->
  hrepA h' hd1 t1 ->
  Rel (mkS h' (upd (regs st) r (Some hd1)) (vregs st))
      (mkF (upd (fregs ft) r (Some t1)) (fvregs ft)).
Proof.
  intros G' HS H1 HL HR. eapply Rel_step with (S := S); [exact G'| | |reflexivity|reflexivity].
  - intros r'. unfold upd. destruct (Nat.eqb r' r); [auto|].
    pose proof (r_regs _ _ HRel r') as H'. destruct (regs st r') eqn:E, (fregs ft r'); auto.
    assert (live st h) by (eapply live_reg; eauto). split; auto.
    eapply hrepA_good; [exact G|exact HL|assumption|assumption].
  - intros v. split; [intros; apply HS; eapply live_vreg; eauto|].
    eapply vrepA_good; [exact G|exact HL| |apply (r_vregs _ _ HRel)].
    intros; eapply live_vreg; eauto.
Qed.

(** Writing an entry, shared or not. *)
Lemma rel_set r hd t u n v f vr' fvr' :
  regs st r = Some hd -> hrepA (hp st) hd t ->
  (u = true -> exclusive st r hd) ->
  vrepA (hp st) v f -> (forall hd', in_value hd' v -> exists w, in_value hd' (vregs st w)) ->
  (forall w, (forall hd', in_value hd' (vr' w) ->
                 (exists w', in_value hd' (vregs st w')) \/ nested (hp st) hd hd') /\
             vrepA (hp st) (vr' w) (fvr' w)) ->
  exists h1 hd1, set_any (hp st) hd u n v = Some (h1, hd1) /\
    Rel (mkS h1 (upd (regs st) r (Some hd1)) vr')
        (mkF (upd (fregs ft) r (Some (fset n f t))) fvr').
Proof.
  intros Er Ht Hu Hvf Hv Hvr.
  assert (Hlive : live st hd) by (eapply live_reg; eauto).
  destruct (g_wf _ _ G hd Hlive) as [[m Hm] [mi Hmi]].
  unfold set_any, cow. destruct u.
  - (* in place *)
    specialize (Hu eq_refl). destruct Hu as (X0 & X1 & X2 & X3).
    set (l := h_vals hd) in *. rewrite Hm.
    exists (update (hp st) l (sset n v m)), hd. split; [reflexivity|].
    set (h1 := update (hp st) l (sset n v m)).
    set (S := fun a => live st a /\ ~ mentions a l).
    assert (GS : good (hp st) S).
    { constructor.
      - intros a b [Ha Hna] N. split; [eapply live_nested; eauto|eapply X3; eauto].
      - intros a [Ha _]. apply (g_wf _ _ G); auto.
      - intros a b [Ha _] [Hb _]. apply (g_1 _ _ G); auto.
      - intros g a x [Hg _] [Ha _]. eapply (g_2 _ _ G g a); eauto. }
    assert (FS : fresh_for S l) by (intros a [_ Ha]; exact Ha).
    assert (GS1 : good h1 S) by (apply good_update_fresh; auto).
    assert (HL1 : forall a, S a -> forall k, lookup h1 a k = lookup (hp st) a k)
      by (intros a [_ Ha]; apply lookup_update_other; exact Ha).
    assert (Dl : deref h1 l = Some (sset n v m)) by (eapply deref_update_same; eauto).
    assert (Il : impl_map h1 hd = Some mi) by (unfold h1; rewrite impl_map_update_other; auto).
    assert (HvS : forall w hd', in_value hd' (vregs st w) -> S hd').
    { intros w hd' Hin. split; [eapply live_vreg; eauto|eapply X2; eauto]. }
    assert (HwS : forall w hd', in_value hd' (vr' w) -> S hd').
    { intros w hd' Hin. destruct (proj1 (Hvr w) _ Hin) as [[w' Hw']|N]; [eapply HvS; eauto|].
      split; [eapply live_nested; eauto|eapply X3; eauto]. }
    assert (GA : good h1 (fun a => S a \/ a = hd)).
    { apply good_add; auto.
      - split; [exists (sset n v m); exact Dl|exists mi; exact Il].
      - intros hd' (l' & mm & k & w & Hmt & Hd & Hin & Hw).
        destruct (Nat.eq_dec l' l) as [->|Hne].
        + rewrite Dl in Hd. injection Hd as <-. apply In_sset in Hin as [E|Hin].
          * injection E as -> ->. destruct (Hv _ Hw) as [w' Hw']. eapply HvS; eauto.
          * assert (N : nested (hp st) hd hd') by (exists l, m, k, w; repeat split; auto; left; reflexivity).
            split; [eapply live_nested; eauto|eapply X3; eauto].
        + unfold h1 in Hd. rewrite deref_update_other in Hd by auto.
          assert (N : nested (hp st) hd hd') by (exists l', mm, k, w; auto).
          split; [eapply live_nested; eauto|eapply X3; eauto].
      - intros V x E D a Sa Ea k. rewrite HL1 by auto. destruct Sa as [La Na].
        assert (V <> l) by congruence. unfold h1 in D. rewrite deref_update_other in D by auto.
        subst V. eapply (g_2 _ _ G hd a); eauto. }
    eapply Rel_step with (S := fun a => S a \/ a = hd); [exact GA| | |reflexivity|reflexivity].
    + intros r'. unfold upd. destruct (Nat.eqb_spec r' r) as [->|Hne].
      * split; [right; reflexivity|]. apply hrepA_unfold. intros name.
        unfold lookup. fold l. rewrite Dl, Il, sfind_sset.
        unfold fset, ffind; simpl. rewrite sfind_sset.
        destruct (String.eqb_spec name n) as [->|Hnn].
        -- eexists. split; [reflexivity|]. simpl. eapply vrepA_good; [exact GS|exact HL1| |exact Hvf].
           intros hd' Hin. destruct (Hv _ Hin) as [w Hw]. eapply HvS; eauto.
        -- destruct (proj1 (hrepA_unfold _ _ _) Ht name) as (ro & Hro & Ho).
           unfold lookup in Hro. fold l in Hro. rewrite Hm, Hmi in Hro.
           exists ro. split; [destruct (sfind name m); exact Hro|].
           fold (ffind name t). destruct ro as [w|], (ffind name t) as [fw|]; simpl in *; auto.
           eapply vrepA_good; [exact GS|exact HL1| |exact Ho].
           intros hd' Hin.
           assert (N : nested (hp st) hd hd').
           { eapply lookup_nested with (n := name) (v := w); eauto.
             unfold lookup. fold l. rewrite Hm, Hmi. destruct (sfind name m); exact Hro. }
           split; [eapply live_nested; eauto|eapply X3; eauto].
      * pose proof (r_regs _ _ HRel r') as H'. destruct (regs st r') as [a|] eqn:E, (fregs ft r'); auto.
        assert (Sa : S a) by (split; [eapply live_reg; eauto|eapply X1; eauto]).
        split; [left; exact Sa|]. eapply hrepA_good; [exact GS|exact HL1|exact Sa|exact H'].
    + intros w. destruct (Hvr w) as [Hw1 Hw2]. split.
      * intros hd' Hin. left. apply (HwS w hd' Hin).
      * eapply vrepA_good; [exact GS|exact HL1| |exact Hw2]. apply HwS.
  - (* copy *)
    rewrite Hm. simpl. set (F := List.length (hp st)).
    unfold deref at 1. fold (deref (hp st ++ [m]) F). rewrite deref_alloc_new.
    exists (update (hp st ++ [m]) F (sset n v m)), (mkH F (h_impl hd)). split; [reflexivity|].
    set (h0 := hp st ++ [m]). set (h1 := update h0 F (sset n v m)). set (hd1 := mkH F (h_impl hd)).
    assert (HwS : forall w hd', in_value hd' (vr' w) -> live st hd').
    { intros w hd' Hin. destruct (proj1 (Hvr w) _ Hin) as [[w' Hw']|N]; [eapply live_vreg; eauto|].
      eapply live_nested; eauto. }
    assert (FF : fresh_for (live st) F) by (apply good_fresh; exact G).
    assert (G0 : good h0 (live st)) by (apply good_alloc; exact G).
    assert (G1 : good h1 (live st)) by (apply good_update_fresh; auto).
    assert (HL : forall a, live st a -> forall k, lookup h1 a k = lookup (hp st) a k).
    { intros a Ha k. unfold h1. rewrite lookup_update_other by auto.
      apply lookup_alloc. apply (g_wf _ _ G); auto. }
    assert (DF : deref h1 F = Some (sset n v m)).
    { eapply deref_update_same. apply deref_alloc_new. }
    assert (Hne : h_impl hd <> Some F) by (intros E; apply (FF hd Hlive); right; exact E).
    assert (Iold : impl_map h1 hd = Some mi).
    { unfold h1. rewrite impl_map_update_other by auto. unfold impl_map in *.
      destruct (h_impl hd); [|assumption]. apply deref_alloc_old; assumption. }
    assert (I1 : impl_map h1 hd1 = Some mi) by exact Iold.
    assert (Hnest : forall hd', nested h1 hd1 hd' -> live st hd').
    { intros hd' (l' & mm & k & w & [E|E] & Hd & Hin & Hw); simpl in E.
      - subst l'. rewrite DF in Hd. injection Hd as <-. apply In_sset in Hin as [E|Hin].
        + injection E as -> ->. destruct (Hv _ Hw) as [w' Hw']. eapply live_vreg; eauto.
        + eapply live_nested; [exact Hlive|]. exists (h_vals hd), m, k, w. repeat split; auto. left; reflexivity.
      - assert (HlF : l' <> F) by (intros ->; apply Hne; exact E).
        unfold h1 in Hd. rewrite deref_update_other in Hd by exact HlF.
        unfold impl_map in Hmi. rewrite E in Hmi. unfold h0 in Hd.
        rewrite (deref_alloc_old _ _ _ _ Hmi) in Hd. injection Hd as <-.
        eapply live_nested; [exact Hlive|]. exists l', mi, k, w. repeat split; auto. right; exact E. }
    assert (GA : good h1 (fun a => live st a \/ a = hd1)).
    { apply good_add; auto.
      - split; [exists (sset n v m); exact DF|exists mi; exact I1].
      - simpl. intros V x E D a La Ea k. rewrite HL by auto.
        assert (HVF : V <> F) by (intros ->; apply Hne; exact E).
        unfold h1 in D. rewrite deref_update_other in D by exact HVF.
        unfold impl_map in Hmi. rewrite E in Hmi. unfold h0 in D.
        rewrite (deref_alloc_old _ _ _ _ Hmi) in D. injection D as <-.
        subst V. eapply (g_2 _ _ G hd a); eauto. }
    eapply Rel_step with (S := fun a => live st a \/ a = hd1); [exact GA| | |reflexivity|reflexivity].
    + intros r'. unfold upd. destruct (Nat.eqb_spec r' r) as [->|Hnr].
      * split; [right; reflexivity|]. apply hrepA_unfold. intros name.
        unfold lookup. change (h_vals hd1) with F. rewrite DF, I1, sfind_sset.
        unfold fset, ffind; simpl. rewrite sfind_sset.
        destruct (String.eqb_spec name n) as [->|Hnn].
        -- eexists. split; [reflexivity|]. simpl. eapply vrepA_good; [exact G|exact HL| |exact Hvf].
           intros hd' Hin. destruct (Hv _ Hin) as [w Hw]. eapply live_vreg; eauto.
        -- destruct (proj1 (hrepA_unfold _ _ _) Ht name) as (ro & Hro & Ho).
           assert (Hro' := Hro). unfold lookup in Hro. rewrite Hm, Hmi in Hro.
           exists ro. split; [destruct (sfind name m); exact Hro|].
           fold (ffind name t). destruct ro as [w|], (ffind name t) as [fw|]; simpl in *; auto.
           eapply vrepA_good; [exact G|exact HL| |exact Ho].
           intros hd' Hin. eapply live_nested; [exact Hlive|]. eapply lookup_nested; eauto.
      * pose proof (r_regs _ _ HRel r') as H'. destruct (regs st r') as [a|] eqn:E, (fregs ft r'); auto.
        assert (La : live st a) by (eapply live_reg; eauto).
        split; [left; exact La|]. eapply hrepA_good; [exact G|exact HL|exact La|exact H'].
    + intros w. destruct (Hvr w) as [Hw1 Hw2]. split.
      * intros hd' Hin. left. apply (HwS w hd' Hin).
      * eapply vrepA_good; [exact G|exact HL| |exact Hw2]. apply HwS.
Qed.

Lemma swap_any_set h hd u n v h1 hd1 :
  set_any h hd u n v = Some (h1, hd1) -> exists old, swap_any h hd u n v = Some (h1, hd1, old).
Proof.
  unfold set_any, swap_any. destruct (cow h hd u) as [[h0 hd0]|]; [|discriminate].
  destruct (deref h0 (h_vals hd0)) as [m|]; [|discriminate].
  intros E. injection E as <- <-. eauto.
Qed.

Lemma vtype_ftype v f : vrepA (hp st) v f -> vtype v = ftype f.
Proof. destruct v, f; simpl; intros; auto; contradiction. Qed.

Lemma vshape_fshape v f : vrepA (hp st) v f -> vshape v = fshape f.
Proof.
  destruct v, f; simpl; intros H; try contradiction; try congruence.
  f_equal. induction H; simpl; congruence.
Qed.

(** Reading into a value register. *)
Lemma rel_vreg v x f :
  vrepA (hp st) x f -> (forall hd, in_value hd x -> live st hd) ->
  Rel (mkS (hp st) (regs st) (upd (vregs st) v x)) (mkF (fregs ft) (upd (fvregs ft) v f)).
Proof.
  intros Hx Hl. eapply Rel_step with (S := live st); [exact G| | |reflexivity|reflexivity].
  - intros r'. pose proof (r_regs _ _ HRel r') as H'.
    destruct (regs st r') eqn:E, (fregs ft r'); auto. split; auto. eapply live_reg; eauto.
  - intros w. unfold upd. destruct (Nat.eqb w v); [auto|].
    split; [intros; eapply live_vreg; eauto|apply (r_vregs _ _ HRel)].
Qed.

Lemma rel_lookup r hd t n : regs st r = Some hd -> fregs ft r = Some t ->
  exists x, lookup (hp st) hd n = Some x /\ orepG (hrepA (hp st)) x (ffind n t) /\
    (forall v hd', x = Some v -> in_value hd' v -> live st hd').
Proof.
  intros E Ef. pose proof (r_regs _ _ HRel r) as H. rewrite E, Ef in H.
  destruct (proj1 (hrepA_unfold _ _ _) H n) as (x & Hx & Ho). exists x. repeat split; auto.
  intros v hd' -> Hin. eapply live_nested; [eapply live_reg; eauto|]. eapply lookup_nested; eauto.
Qed.
End OneStep.

Lemma get_regs_rel st ft rs : Rel st ft ->
  match get_regs (regs st) rs, all_some (map (fregs ft) rs) with
  | Some l, Some t => Forall2 (hrepA (hp st)) l t /\ (forall hd, In hd l -> live st hd)
  | None, None => True
  | _, _ => False
  end.
Proof.
  intros HR. induction rs as [|r rs IH]; simpl.
  - split; [constructor|intros _ []].
  - pose proof (r_regs _ _ HR r) as H. destruct (regs st r) eqn:E, (fregs ft r); try contradiction; auto.
    destruct (get_regs (regs st) rs), (all_some (map (fregs ft) rs)); auto.
    destruct IH as [I1 I2]. split; [constructor; auto|].
    intros hd [<-|Hin]; [eapply live_reg; eauto|auto].
Qed.

Ltac rel_cases HRel r :=
  let E := fresh "E" in
  let hd := fresh "hd" in
  destruct (regs _ r) as [hd|] eqn:E;
  [ let t := fresh "t" in
    destruct (rel_reg _ _ HRel r hd E) as (t & ?Ef & ?Hrep & ?Hlive); rewrite Ef
  | rewrite (rel_reg_none _ _ HRel r E); exact I ].

Lemma new_scope_rel st ft s hd t : Rel st ft -> regs st s = Some hd -> fregs ft s = Some t ->
  exists h1 hd1, new_scope (hp st) hd = Some (h1, hd1) /\
    forall r, Rel (mkS h1 (upd (regs st) r (Some hd1)) (vregs st))
        (mkF (upd (fregs ft) r (Some t)) (fvregs ft)).
Proof.
  intros HRel E Ef. pose proof (r_inv _ _ HRel) as G. unfold Inv in G.
  assert (Hlive : live st hd) by (eapply live_reg; eauto).
  pose proof (r_regs _ _ HRel s) as Hrep. rewrite E, Ef in Hrep.
  destruct (g_wf _ _ G hd Hlive) as [[m Hm] [mi Hmi]].
  assert (FF : fresh_for (live st) (List.length (hp st))) by (apply good_fresh; exact G).
  set (F := List.length (hp st)) in *. set (h1 := hp st ++ [sempty]).
  assert (G1 : good h1 (live st)) by (apply good_alloc; exact G).
  assert (DF : deref h1 F = Some []) by apply deref_alloc_new.
  assert (HL : forall a, live st a -> forall k, lookup h1 a k = lookup (hp st) a k).
  { intros a Ha k. apply lookup_alloc. apply (g_wf _ _ G); auto. }
  (* a fresh empty scope on top of outer map [mo] at [lo] *)
  assert (Mk : forall h2 impl mo,
     good h2 (live st) -> (forall a, live st a -> forall k, lookup h2 a k = lookup (hp st) a k) ->
     deref h2 F = Some [] ->
     impl_map h2 (mkH F impl) = Some mo -> impl <> Some F ->
     (forall n, Some (sfind n mo) = lookup (hp st) hd n) ->
     (forall l k v hd', impl = Some l -> In (k, v) mo -> in_value hd' v -> live st hd') ->
     (forall l, impl = Some l -> forall a, live st a -> h_vals a = l -> forall n, lookup h2 a n = Some (sfind n mo)) ->
     forall r, Rel (mkS h2 (upd (regs st) r (Some (mkH F impl))) (vregs st))
        (mkF (upd (fregs ft) r (Some t)) (fvregs ft))).
  { intros h2 impl mo G2 HL2 DF2 Himpl Hne Hlk Hnst Hi2 r.
    apply rel_new_heap with (S := fun a => live st a \/ a = mkH F impl); auto.
    - apply good_add; auto.
      + split; [exists []; exact DF2|exists mo; exact Himpl].
      + intros hd' (l' & mm & k & w & [E1|E1] & Hd & Hin & Hw); simpl in E1.
        * subst l'. rewrite DF2 in Hd. injection Hd as <-. destruct Hin.
        * subst impl. simpl in Himpl. unfold impl_map in Himpl; simpl in Himpl.
          rewrite Himpl in Hd. injection Hd as <-. eapply Hnst; eauto.
      + simpl. intros V x E1 D a La Ea n. subst impl. unfold impl_map in Himpl; simpl in Himpl.
        rewrite Himpl in D. injection D as <-. eapply Hi2; eauto.
    - eapply hrepA_lookup_eq with (b := hd).
      + intros n. rewrite (HL2 hd Hlive). rewrite <- Hlk. unfold lookup at 1. simpl h_vals. rewrite DF2.
        simpl sfind at 1. rewrite Himpl. reflexivity.
      + eapply hrepA_good; [exact G|exact HL2|assumption|assumption]. }
  unfold new_scope. simpl. fold F h1. rewrite Hm, Hmi.
  destruct m as [|kv m'] eqn:Em; simpl sis_empty; cbv iota.
  - (* inner scope empty *)
    exists h1, (mkH F (h_impl hd)). split; [reflexivity|].
    assert (Hi : impl_map h1 (mkH F (h_impl hd)) = Some mi).
    { unfold impl_map in *; simpl. destruct (h_impl hd); [|assumption]. apply deref_alloc_old; assumption. }
    apply Mk with (mo := mi); auto.
    + intros E1. apply (FF hd Hlive). right. exact E1.
    + intros n. unfold lookup. rewrite Hm, Hmi. reflexivity.
    + intros l k v hd' El Hin Hv. eapply live_nested; [exact Hlive|].
      unfold impl_map in Hmi. rewrite El in Hmi. exists l, mi, k, v. repeat split; auto. right; exact El.
    + intros l El a La Ea n. rewrite HL by auto. subst l. unfold impl_map in Hmi. rewrite El in Hmi.
      eapply (g_2 _ _ G hd a); eauto.
  - rewrite <- Em in *. clear Em kv m'. destruct mi as [|kv mi'] eqn:Emi; simpl sis_empty; cbv iota.
    + (* no outer scope: share the inner map *)
      exists h1, (mkH F (Some (h_vals hd))). split; [reflexivity|].
      assert (Hlk : forall n, lookup (hp st) hd n = Some (sfind n m)).
      { intros n. unfold lookup. rewrite Hm, Hmi. destruct (sfind n m); reflexivity. }
      apply Mk with (mo := m); auto.
      * unfold impl_map; simpl. apply deref_alloc_old; assumption.
      * intros E1. injection E1 as E1. apply (FF hd Hlive). left. exact E1.
      * intros l k v hd' El Hin Hv. eapply live_nested; [exact Hlive|].
        exists (h_vals hd), m, k, v. repeat split; auto. left; reflexivity.
      * intros l El a La Ea n. injection El as <-. rewrite HL by auto.
        rewrite (g_1 _ _ G a hd La Hlive Ea). apply Hlk.
    + (* merge *)
      rewrite <- Emi in *. clear Emi kv mi'.
      set (h2 := h1 ++ [smerge m mi]). set (F2 := List.length h1).
      exists h2, (mkH F (Some F2)). split; [reflexivity|].
      assert (HF2 : F2 = S F) by (unfold F2, h1, F; rewrite app_length; simpl; lia).
      assert (FF2 : fresh_for (live st) F2) by (apply good_fresh; exact G1).
      assert (D2 : deref h2 F2 = Some (smerge m mi)) by apply deref_alloc_new.
      apply Mk with (mo := smerge m mi).
      * apply good_alloc; exact G1.
      * intros a La k. unfold h2. rewrite lookup_alloc by (apply (g_wf _ _ G1); auto). apply HL; auto.
      * apply deref_alloc_old; exact DF.
      * unfold impl_map; simpl. exact D2.
      * intros E1. injection E1 as E1. lia.
      * intros n. unfold lookup. rewrite Hm, Hmi, sfind_smerge. destruct (sfind n m); reflexivity.
      * intros l k v hd' El Hin Hv. eapply live_nested; [exact Hlive|].
        apply In_smerge in Hin as [Hin|Hin].
        -- exists (h_vals hd), m, k, v. repeat split; auto. left; reflexivity.
        -- unfold impl_map in Hmi. destruct (h_impl hd) as [li|] eqn:Eli.
           ++ exists li, mi, k, v. repeat split; auto. right; exact Eli.
           ++ injection Hmi as <-. destruct Hin.
      * intros l El a La Ea n. injection El as <-. exfalso. apply (FF2 a La). left. exact Ea.
Qed.

Lemma flatten_rel st ft r hd t : Rel st ft -> regs st r = Some hd -> fregs ft r = Some t ->
  exists h1 hd1, flatten (hp st) hd = Some (h1, hd1) /\ h_impl hd1 = None /\
    Rel (mkS h1 (upd (regs st) r (Some hd1)) (vregs st))
        (mkF (upd (fregs ft) r (Some t)) (fvregs ft)).
Proof.
  intros HRel E Ef. pose proof (r_inv _ _ HRel) as G. unfold Inv in G.
  assert (Hlive : live st hd) by (eapply live_reg; eauto).
  pose proof (r_regs _ _ HRel r) as Hrep. rewrite E, Ef in Hrep.
  destruct (g_wf _ _ G hd Hlive) as [[m Hm] [mi Hmi]].
  unfold flatten. destruct (h_impl hd) as [li|] eqn:Eli.
  - unfold impl_map in Hmi. rewrite Eli in Hmi. rewrite Hm, Hmi.
    exists (update (hp st) (h_vals hd) (smerge m mi)), (mkH (h_vals hd) None).
    split; [reflexivity|]. split; [reflexivity|].
    pose proof (fl_good _ _ G hd Hlive li Eli m mi Hm Hmi) as G'.
    pose proof (fl_lookup _ _ G hd Hlive li Eli m mi Hm Hmi) as HL.
    apply rel_new_heap with (S := fun a => live st a \/ a = mkH (h_vals hd) None); auto.
    eapply hrepA_lookup_eq with (b := hd).
    + intros n. rewrite (fl_lookup_new (hp st) hd li Eli m mi Hm Hmi). symmetry. apply HL. exact Hlive.
    + eapply hrepA_good; [exact G|exact HL|assumption|assumption].
  - exists (hp st), hd. split; [reflexivity|]. split; [assumption|].
    apply (rel_set_reg_live _ _ HRel r (Some (hd, t))). split; auto.
Qed.

Lemma push_rel st ft r hd t : Rel st ft -> regs st r = Some hd -> fregs ft r = Some t ->
  exists h1 hd1, push_scope (hp st) hd = Some (h1, hd1) /\
    Rel (mkS h1 (upd (regs st) r (Some hd1)) (vregs st))
        (mkF (upd (fregs ft) r (Some t)) (fvregs ft)).
Proof.
  intros HRel E Ef. destruct (flatten_rel st ft r hd t HRel E Ef) as (h1 & hd1 & Hfl & Hi & HR1).
  unfold push_scope. rewrite Hfl. simpl.
  set (st1 := mkS h1 (upd (regs st) r (Some hd1)) (vregs st)) in *.
  set (ft1 := mkF (upd (fregs ft) r (Some t)) (fvregs ft)) in *.
  set (F := List.length h1). eexists _, _. split; [reflexivity|].
  pose proof (r_inv _ _ HR1) as G. unfold Inv in G.
  assert (Er : regs st1 r = Some hd1) by (simpl; unfold upd; rewrite Nat.eqb_refl; reflexivity).
  assert (Hlive : live st1 hd1) by (eapply live_reg; eauto).
  assert (Hrep : hrepA h1 hd1 t).
  { pose proof (r_regs _ _ HR1 r) as H. rewrite Er in H. simpl in H. unfold upd in H.
    rewrite Nat.eqb_refl in H. exact H. }
  destruct (g_wf _ _ G hd1 Hlive) as [[m Hm] _]. change (hp st1) with h1 in *.
  assert (FF : fresh_for (live st1) F) by (apply good_fresh; exact G).
  set (h2 := h1 ++ [sempty]). set (hd2 := mkH F (Some (h_vals hd1))).
  assert (HL : forall a, live st1 a -> forall k, lookup h2 a k = lookup h1 a k).
  { intros a Ha k. apply lookup_alloc. apply (g_wf _ _ G); auto. }
  assert (Dv : deref h2 (h_vals hd1) = Some m) by (apply deref_alloc_old; exact Hm).
  assert (DF : deref h2 F = Some []) by apply deref_alloc_new.
  assert (Hlk : forall n, lookup h1 hd1 n = Some (sfind n m)).
  { intros n. unfold lookup, impl_map. rewrite Hm, Hi. destruct (sfind n m); reflexivity. }
  assert (G2 : good h2 (fun a => live st1 a \/ a = hd2)).
  { apply good_add.
    - apply good_alloc; exact G.
    - exact FF.
    - intros E1. injection E1 as E1. apply (FF hd1 Hlive). left. exact E1.
    - split; [exists []; exact DF|exists m; exact Dv].
    - intros hd' (l' & mm & k & w & [E1|E1] & Hd & Hin & Hw); simpl in E1.
      + subst l'. rewrite DF in Hd. injection Hd as <-. destruct Hin.
      + injection E1 as <-. rewrite Dv in Hd. injection Hd as <-.
        eapply live_nested; [exact Hlive|]. exists (h_vals hd1), m, k, w. repeat split; auto. left; reflexivity.
    - simpl. intros V x E1 D a La Ea n. injection E1 as <-. rewrite Dv in D. injection D as <-.
      rewrite HL by auto. rewrite (g_1 _ _ G a hd1 La Hlive Ea). apply Hlk. }
  pose proof (rel_new_heap st1 ft1 HR1 h2 _ r hd2 t G2) as HH.
  assert (Hgoal : Rel (mkS h2 (upd (regs st1) r (Some hd2)) (vregs st1))
                      (mkF (upd (fregs ft1) r (Some t)) (fvregs ft1))).
  { apply HH; auto.
    eapply hrepA_lookup_eq with (b := hd1).
    - intros n. rewrite (HL hd1 Hlive). rewrite Hlk. unfold lookup; simpl h_vals. rewrite DF; simpl sfind at 1.
      unfold impl_map; simpl. rewrite Dv. reflexivity.
    - eapply hrepA_good; [exact G|exact HL|assumption|assumption]. }
  destruct Hgoal as [A B C]. constructor.
  - clear -A. unfold st1 in A; simpl in A.
    eapply Inv_intro with (S := live (mkS h2 (upd (upd (regs st) r (Some hd1)) r (Some hd2)) (vregs st))).
    + exact A.
    + destruct (live_roots (mkS h2 (upd (upd (regs st) r (Some hd1)) r (Some hd2)) (vregs st))) as [R1 R2].
      split; simpl in *; [|exact R2]. intros r' a Ha. apply (R1 r' a).
      unfold upd in *. destruct (Nat.eqb r' r); auto.
  - intros r'. specialize (B r'). simpl in *. unfold upd in *. destruct (Nat.eqb r' r); auto.
  - exact C.
Qed.

Lemma in_value_default hd t : in_value hd (vdefault t) -> False.
Proof. destruct t; simpl; auto. Qed.

Lemma vrepA_default h t : vrepA h (vdefault t) (fdefault t).
Proof. destruct t; simpl; auto. Qed.

(** One step of the heap model is matched by one step of the flat machine. *)
Lemma step_sim st ft o u : Rel st ft -> lookup_only o = true -> legal st o u ->
  match step st o u, fstep ft o with
  | Some (st', x), Some (ft', y) => x = y /\ Rel st' ft'
  | None, None => True
  | _, _ => False
  end.
Proof.
  intros HRel Hlo Hleg. pose proof (r_inv _ _ HRel) as G. unfold Inv in G.
  assert (HV : forall hd w, (forall hd', in_value hd' (vregs st w) ->
                 (exists w', in_value hd' (vregs st w')) \/ nested (hp st) hd hd') /\
             vrepA (hp st) (vregs st w) (fvregs ft w)).
  { intros hd w. split; [eauto|apply (r_vregs _ _ HRel)]. }
  assert (Read : forall tt v r n hit miss,
    match
     match regs st r with
      | None => None
      | Some hd =>
          match lookup (hp st) hd n with
          | None => None
          | Some (Some x) =>
              if match tt with None => true | Some t => vty_eqb t (vtype x) end
              then Some (mkS (hp st) (regs st) (upd (vregs st) v x), hit)
              else Some (st, miss)
          | Some None => Some (st, miss)
          end
      end, fread ft tt v r n hit miss with
    | Some (st', x), Some (ft', y) => x = y /\ Rel st' ft'
    | None, None => True
    | _, _ => False
    end).
  { intros tt v r n hit miss. unfold fread. rel_cases HRel r.
    destruct (rel_lookup _ _ HRel r hd t n E Ef) as (x & Hx & Ho & Hl). rewrite Hx.
    destruct x as [x|], (ffind n t) as [f|]; simpl in Ho; try contradiction; auto.
    rewrite <- (vtype_ftype st x f Ho).
    destruct (match tt with None => true | Some t0 => vty_eqb t0 (vtype x) end); auto.
    split; auto. apply rel_vreg; auto. intros; eapply Hl; eauto. }
  destruct o; simpl in Hlo; try discriminate; cbn [step fstep].
  - (* OpNew *)
    simpl. split; [reflexivity|].
    assert (FF : fresh_for (live st) (List.length (hp st))) by (apply good_fresh; exact G).
    apply rel_new_heap with (S := fun a => live st a \/ a = mkH (List.length (hp st)) None); auto.
    + apply good_add; auto.
      * apply good_alloc; exact G.
      * discriminate.
      * split; [exists []; apply deref_alloc_new|exists []; reflexivity].
      * intros hd' (l' & mm & k & w & [E1|E1] & Hd & Hin & Hw); simpl in E1; [|discriminate].
        subst l'. rewrite deref_alloc_new in Hd. injection Hd as <-. destruct Hin.
      * simpl. discriminate.
    + intros a La k. apply lookup_alloc. apply (g_wf _ _ G); auto.
    + apply hrepA_unfold. intros name. unfold lookup; simpl h_vals. rewrite deref_alloc_new; simpl.
      eexists; split; [reflexivity|exact I].
  - (* OpCopy *)
    rel_cases HRel s. split; [reflexivity|].
    apply (rel_set_reg_live _ _ HRel r (Some (hd, t))). auto.
  - (* OpDestroy *)
    split; [reflexivity|]. apply (rel_set_reg_live _ _ HRel r None). exact I.
  - (* OpSwap *)
    destruct (regs st r) as [a|] eqn:E1.
    2:{ rewrite (rel_reg_none _ _ HRel r E1); exact I. }
    destruct (rel_reg _ _ HRel r a E1) as (t1 & F1 & R1 & L1). rewrite F1.
    destruct (regs st s) as [b|] eqn:E2.
    2:{ rewrite (rel_reg_none _ _ HRel s E2); exact I. }
    destruct (rel_reg _ _ HRel s b E2) as (t2 & F2 & R2 & L2). rewrite F2.
    split; [reflexivity|].
    eapply Rel_step with (S := live st); [exact G| | |reflexivity|reflexivity].
    + intros r'. unfold upd. destruct (Nat.eqb r' s); [auto|]. destruct (Nat.eqb r' r); [auto|].
      pose proof (r_regs _ _ HRel r') as H'. destruct (regs st r') eqn:E, (fregs ft r'); auto.
      split; auto. eapply live_reg; eauto.
    + intros v. split; [intros; eapply live_vreg; eauto|apply (r_vregs _ _ HRel)].
  - (* OpSet *)
    rel_cases HRel r.
    destruct (rel_set st ft HRel r hd t u n (vregs st v) (fvregs ft v) (vregs st) (fvregs ft)) as (h1 & hd1 & -> & HR);
      [assumption|assumption|intros Hu; apply Hleg; assumption|apply (r_vregs _ _ HRel)|eauto|apply HV|auto].
  - (* OpSwapT *)
    rel_cases HRel r. rewrite <- (vtype_ftype st _ _ (r_vregs _ _ HRel v)).
    destruct (vty_eqb t TyNum || negb (vty_eqb t (vtype (vregs st v)))); [exact I|].
    destruct (rel_set st ft HRel r hd t0 u n (vregs st v) (fvregs ft v)
               (upd (vregs st) v (vdefault t)) (upd (fvregs ft) v (fdefault t))) as (h1 & hd1 & Hs & HR);
      [assumption|assumption|intros Hu; apply Hleg; assumption|apply (r_vregs _ _ HRel)|eauto| |].
    + intros w. unfold upd. destruct (Nat.eqb w v).
      * split; [intros hd' Hin; destruct (in_value_default _ _ Hin)|apply vrepA_default].
      * apply HV.
    + destruct (swap_any_set _ _ _ _ _ _ _ Hs) as [old ->]. auto.
  - (* OpNewScope *)
    rel_cases HRel s.
    destruct (new_scope_rel st ft s hd t HRel E Ef) as (h1 & hd1 & -> & HR). auto.
  - (* OpPush *)
    rel_cases HRel r.
    destruct (push_rel st ft r hd t HRel E Ef) as (h1 & hd1 & -> & HR). split; [reflexivity|].
    destruct HR as [A B C]. constructor; auto. intros r'. specialize (B r'). simpl in *.
    unfold upd in *. destruct (Nat.eqb_spec r' r) as [Heq|Hne]; auto. subst r'. rewrite Ef. exact B.
  - (* OpFlatten *)
    rel_cases HRel r.
    destruct (flatten_rel st ft r hd t HRel E Ef) as (h1 & hd1 & -> & _ & HR). split; [reflexivity|].
    destruct HR as [A B C]. constructor; auto. intros r'. specialize (B r'). simpl in *.
    unfold upd in *. destruct (Nat.eqb_spec r' r) as [Heq|Hne]; auto. subst r'. rewrite Ef. exact B.
  - apply (Read None v r n (OBool true) (OBool false)).
  - apply (Read None v r n OUnit OKeyError).
  - apply (Read (Some t) v r n OUnit OKeyError).
  - apply (Read (Some t) v r n OUnit OUnit).
  - apply (Read (Some t) v r n (OBool true) (OBool false)).
  - (* OpLit *)
    destruct x as [y|y|y|y]; simpl; auto; (split; [reflexivity|]; apply rel_vreg; simpl; auto; contradiction).
  - (* OpPack *)
    pose proof (get_regs_rel st ft rs HRel) as H.
    destruct (get_regs (regs st) rs), (all_some (map (fregs ft) rs)); auto.
    destruct H as [H1 H2]. split; [reflexivity|]. apply rel_vreg; auto.
  - (* OpElem *)
    pose proof (r_vregs _ _ HRel v) as H.
    destruct (vregs st v) as [| | |l] eqn:Ev, (fvregs ft v) as [| | |tl]; simpl in H; try contradiction; auto.
    assert (Hn : match nth_error l i, nth_error tl i with
                 | Some a, Some b => hrepA (hp st) a b /\ In a l
                 | None, None => True | _, _ => False end).
    { clear Ev Hleg Hlo. revert i. induction H as [|a b l tl Hab H IH]; intros [|i]; simpl; auto.
      specialize (IH i). destruct (nth_error l i), (nth_error tl i); intuition. }
    destruct (nth_error l i) as [a|], (nth_error tl i) as [b|]; try contradiction; auto.
    destruct Hn as [Hn Hin]. split; [reflexivity|].
    apply (rel_set_reg_live _ _ HRel r (Some (a, b))). split; [|assumption].
    eapply live_vreg with (v := v). rewrite Ev. exact Hin.
  - (* OpShow *)
    split; [|assumption]. f_equal. apply (vshape_fshape st). apply (r_vregs _ _ HRel).
Qed.

Lemma Rel_init : Rel init finit.
Proof.
  constructor; [|simpl; auto|intros v; reflexivity].
  apply Inv_intro with (S := fun _ => False).
  - constructor; intros; contradiction.
  - split; simpl; intros; [discriminate|contradiction].
Qed.

Lemma run_sim os : forall st ft, Rel st ft -> forallb (fun ou => lookup_only (fst ou)) os = true ->
  legal_run st os -> run st os = frun ft (map fst os).
Proof.
  induction os as [|[o u] os IH]; intros st ft HRel Hlo Hleg; simpl; [reflexivity|].
  simpl in Hlo. apply andb_prop in Hlo as [Hlo1 Hlo2]. destruct Hleg as [Hl1 Hl2].
  pose proof (step_sim st ft o u HRel Hlo1 Hl1) as H.
  destruct (step st o u) as [[st' x]|], (fstep ft o) as [[ft' y]|]; try contradiction; auto.
  destruct H as [-> HR]. rewrite (IH st' ft' HR Hlo2 Hl2). reflexivity.
Qed.
