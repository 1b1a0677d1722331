(** Proofs about copies of states. *)
From Coq Require Import List String Bool ZArith NArith Arith Lia Reals Lra.
From Verif Require Import SMap Dbl Config_Spec Util_Model Util_Spec Mat Machine_Model Machine_Spec Machine_Proofs Linear_Model Moment_Model Moment_Spec
  Array_Model Array_Spec Array_Proofs Array2_Proofs Array3_Proofs Moment_Proofs Moment2_Proofs Moment6_Proofs Motion5_Proofs Clone_Model Clone_Spec.
Import ListNotations.
Open Scope string_scope.
Open Scope nat_scope.
Open Scope list_scope.

(** ** Blocks *)
Definition apart (h : heap) (l : list (option sobj)) : Prop :=
  (forall i o b, nth_error l i = Some (Some o) -> o_at o b < h_free h) /\
  (forall i o b b', nth_error l i = Some (Some o) -> o_at o b = o_at o b' -> b = b') /\
  (forall i j o o' b b', nth_error l i = Some (Some o) -> nth_error l j = Some (Some o') -> o_at o b = o_at o' b' -> i = j).
Lemma all_blks b : In b blks.
Proof. destruct b; cbn; tauto. Qed.
Lemma bnum_inj b b' : bnum b = bnum b' -> b = b'.
Proof. destruct b, b'; try reflexivity; discriminate. Qed.
Lemma bnum_lt b : bnum b < 12.
Proof. destruct b; cbn; lia. Qed.
Lemma put_self h o m b : (forall b b', o_at o b = o_at o b' -> b = b') -> h_mem (put h o m) (o_at o b) = m b.
Proof.
  intros I. unfold put. cbn [h_mem]. destruct (List.find _ blks) as [b'|] eqn:E.
  - apply find_some in E as [_ E]. apply Nat.eqb_eq in E. apply I in E. subst. reflexivity.
  - exfalso. assert (X := find_none _ _ E b (all_blks b)). cbn in X. rewrite Nat.eqb_refl in X. discriminate.
Qed.
Lemma put_other h o m a : (forall b, a <> o_at o b) -> h_mem (put h o m) a = h_mem h a.
Proof.
  intros N. unfold put. cbn [h_mem]. destruct (List.find _ blks) as [b'|] eqn:E; [|reflexivity].
  apply find_some in E as [_ E]. apply Nat.eqb_eq in E. destruct (N _ E).
Qed.
Lemma object_nth s i o : object s i = Some o <-> nth_error (ss_objs s) i = Some (Some o).
Proof. unfold object. destruct (nth_error (ss_objs s) i) as [[x|]|]; split; intros H; try discriminate; congruence. Qed.

Lemma apart_put h l i o m : apart h l -> nth_error l i = Some (Some o) -> apart (put h o m) l.
Proof. intros A _. exact A. Qed.
Lemma apart_less h l l' : apart h l ->
  (forall k o', nth_error l' k = Some (Some o') -> exists o, nth_error l k = Some (Some o) /\ o_at o' = o_at o) -> apart h l'.
Proof.
  intros (A & B & C) H. split; [|split].
  - intros i o b X. destruct (H _ _ X) as (o2 & Y & ->). eauto.
  - intros i o b b' X. destruct (H _ _ X) as (o2 & Y & ->). eauto.
  - intros i j o o' b b' X X'. destruct (H _ _ X) as (o2 & Y & ->), (H _ _ X') as (o3 & Y' & ->). eauto.
Qed.
Lemma apart_update h l i o n : apart h l -> nth_error l i = Some (Some o) ->
  (forall o', n = Some o' -> o_at o' = o_at o) -> apart h (update l i n).
Proof.
  intros A H N. apply (apart_less _ _ _ A). intros k o' X. destruct (Nat.eq_dec k i) as [->|D].
  - rewrite (nth_update_eq _ _ _ _ H) in X. injection X as ->. exists o. auto.
  - rewrite nth_update_neq in X by auto. exists o'. auto.
Qed.
Lemma snoc_nth {A} (l : list A) x i y : nth_error (l ++ [x]) i = Some y ->
  (nth_error l i = Some y) \/ (i = List.length l /\ y = x).
Proof.
  intros H. destruct (lt_dec i (List.length l)) as [L|L].
  - rewrite nth_error_app1 in H by exact L. auto.
  - rewrite nth_error_app2 in H by lia. assert (E : i - List.length l = 0 \/ i - List.length l <> 0) by lia.
    destruct E as [E|E]; [rewrite E in H; injection H as <-; right; split; [lia|reflexivity]|].
    destruct (i - List.length l) as [|[|]]; cbn in H; [destruct (E eq_refl)|discriminate..].
Qed.
Lemma alloc_apart h l kd d m h' o : apart h l -> alloc h kd d m = (h', o) -> apart h' (l ++ [Some o]).
Proof.
  intros (A & B & C) E. unfold alloc in E. injection E as <- <-.
  assert (NL : forall i o' b, nth_error l i = Some (Some o') -> o_at o' b < h_free h) by exact A.
  split; [|split].
  - intros i o b X. cbn [put h_free]. destruct (snoc_nth _ _ _ _ X) as [Y|[_ Y]]; [specialize (A _ _ b Y); lia|]. injection Y as ->. cbn [o_at].
    assert (Z := bnum_lt b). lia.
  - intros i o b b' X. destruct (snoc_nth _ _ _ _ X) as [Y|[_ Y]]; [eauto|]. injection Y as ->. cbn [o_at]. intros E. apply bnum_inj. lia.
  - intros i j o o' b b' X X' E.
    destruct (snoc_nth _ _ _ _ X) as [Y|[I Y]]; destruct (snoc_nth _ _ _ _ X') as [Y'|[I' Y']].
    + eauto.
    + injection Y' as ->. cbn [o_at] in E. specialize (NL _ _ b Y). lia.
    + injection Y as ->. cbn [o_at] in E. specialize (NL _ _ b' Y'). lia.
    + congruence.
Qed.

(** ** Statements *)
Lemma wrapped_apart ab s kd m s' : apart (ss_heap s) (ss_objs s) -> wrapped ab s kd m = Some s' -> apart (ss_heap s') (ss_objs s').
Proof.
  intros A H. unfold wrapped in H. destruct (wrapstate ab kd) as [[d|]|]; try discriminate.
  destruct (alloc (ss_heap s) kd d m) as [h o] eqn:E. injection H as <-. cbn [ss_heap ss_objs]. eapply alloc_apart; eauto.
Qed.
Lemma step_apart ab s x s' : apart (ss_heap s) (ss_objs s) -> step ab s x = Some s' -> apart (ss_heap s') (ss_objs s').
Proof.
  intros A H. destruct x as [kd m|i|i j|i nm v|i|i f]; cbn [step] in H.
  - eapply wrapped_apart; eauto.
  - destruct (object s i); [|discriminate]. eapply wrapped_apart; eauto.
  - destruct (object s i) as [o|] eqn:Eo; [|discriminate]. destruct (object s j) as [o'|]; [|discriminate].
    destruct (same_class _ _); injection H as <-; [|exact A]. cbn [ss_heap ss_objs]. apply object_nth in Eo.
    eapply apart_update; eauto. intros o2 E. injection E as <-. reflexivity.
  - destruct (object s i) as [o|] eqn:Eo; [|discriminate].
    destruct (py_set _ _ _ _ _ _) as [m r]. destruct r; try discriminate; injection H as <-; exact A.
  - destruct (object s i) as [o|] eqn:Eo; [|discriminate]. injection H as <-. cbn [ss_heap ss_objs]. apply object_nth in Eo.
    eapply apart_update; eauto. discriminate.
  - destruct (object s i) as [o|] eqn:Eo; [|discriminate]. destruct (f _ _) as [kd m]. injection H as <-. cbn [ss_heap ss_objs].
    apply object_nth in Eo. eapply apart_update; eauto. intros o2 E. injection E as <-. reflexivity.
Qed.
Lemma steps_apart ab l : forall s s', apart (ss_heap s) (ss_objs s) -> steps ab s l = Some s' -> apart (ss_heap s') (ss_objs s').
Proof.
  induction l as [|x l IH]; intros s s' A H; cbn [steps] in H; [injection H as <-; exact A|].
  destruct (step ab s x) as [s1|] eqn:E; [|discriminate]. eapply IH; [|exact H]. eapply step_apart; eauto.
Qed.
Lemma reached_apart ab s : reached ab s -> apart (ss_heap s) (ss_objs s).
Proof.
  intros [l H]. eapply steps_apart; [|exact H]. split; [|split]; intros i; intros; destruct i; discriminate.
Qed.

(** Same object, same memory. *)
Definition stays (s s' : session) (i : nat) : Prop :=
  forall o, object s i = Some o -> object s' i = Some o /\ forall b z, view (ss_heap s') o b z = view (ss_heap s) o b z.
Lemma put_stays s i k o o' m : apart (ss_heap s) (ss_objs s) -> object s i = Some o -> object s k = Some o' -> i <> k ->
  forall b z, view (put (ss_heap s) o' m) o b z = view (ss_heap s) o b z.
Proof.
  intros (_ & _ & C) H H' N b z. unfold view. rewrite put_other; [reflexivity|]. intros b' E. apply object_nth in H, H'. destruct N. eauto.
Qed.
Lemma wrapped_stays ab s kd m s' i : apart (ss_heap s) (ss_objs s) -> wrapped ab s kd m = Some s' -> stays s s' i.
Proof.
  intros (A & _ & _) H o Ho. unfold wrapped in H. destruct (wrapstate ab kd) as [[d|]|]; try discriminate.
  unfold alloc in H. injection H as <-. apply object_nth in Ho. split.
  - apply object_nth. cbn [ss_objs]. rewrite nth_error_app1; [exact Ho|]. apply nth_error_Some. congruence.
  - intros b z. unfold view. cbn [ss_heap]. rewrite put_other; [reflexivity|]. cbn [o_at]. intros b' E. specialize (A _ _ b Ho). lia.
Qed.
Lemma step_stays ab s x s' i : apart (ss_heap s) (ss_objs s) -> step ab s x = Some s' -> ~ acts_on x i -> stays s s' i.
Proof.
  intros A H N. destruct x as [kd m|k|k j|k nm v|k|k f]; cbn [step] in H; cbn [acts_on] in N.
  - eapply wrapped_stays; eauto.
  - destruct (object s k); [|discriminate]. eapply wrapped_stays; eauto.
  - destruct (object s k) as [o'|] eqn:Eo; [|discriminate]. destruct (object s j) as [o2|]; [|discriminate].
    destruct (same_class _ _); injection H as <-; [|intros o Ho; auto]. intros o Ho. split.
    + apply object_nth. cbn [ss_objs]. rewrite nth_update_neq by auto. apply object_nth. exact Ho.
    + cbn [ss_heap]. eapply put_stays; eauto.
  - destruct (object s k) as [o'|] eqn:Eo; [|discriminate].
    destruct (py_set _ _ _ _ _ _) as [m r]. intros o Ho.
    destruct r; try discriminate; injection H as <-; (split; [exact Ho|cbn [ss_heap]; eapply put_stays; eauto]).
  - destruct (object s k) as [o'|] eqn:Eo; [|discriminate]. injection H as <-. intros o Ho. split.
    + apply object_nth. cbn [ss_objs]. rewrite nth_update_neq by auto. apply object_nth. exact Ho.
    + cbn [ss_heap]. eapply put_stays; eauto.
  - destruct (object s k) as [o'|] eqn:Eo; [|discriminate]. destruct (f _ _) as [kd m]. injection H as <-. intros o Ho. split.
    + apply object_nth. cbn [ss_objs]. rewrite nth_update_neq by auto. apply object_nth. exact Ho.
    + cbn [ss_heap]. eapply put_stays; eauto.
Qed.
Lemma steps_stay ab i l : forall s s', apart (ss_heap s) (ss_objs s) -> steps ab s l = Some s' -> spared i l -> stays s s' i.
Proof.
  induction l as [|x l IH]; intros s s' A H N; cbn [steps] in H; [injection H as <-; intros o Ho; auto|].
  destruct (step ab s x) as [s1|] eqn:E; [|discriminate]. inversion N as [|? ? N1 N2]; subst.
  intros o Ho. destruct (step_stays _ _ _ _ _ A E N1 o Ho) as [Ho1 V1].
  destruct (IH s1 s' (step_apart _ _ _ _ A E) H N2 o Ho1) as [Ho2 V2]. split; [exact Ho2|].
  intros b z. rewrite V2. apply V1.
Qed.

(** ** What is read *)
Lemma copy_out_same m m' a l : (forall p, load m p = load m' p) -> forall d, copy_out m a d l = copy_out m' a d l.
Proof.
  intros E. induction l as [|x l IH]; intros d; cbn [copy_out]; [reflexivity|]. rewrite E. destruct (load m' _); [|reflexivity].
  destruct (Z.ltb _ _); [apply IH|reflexivity].
Qed.
Lemma py_get_same ab kd d m m' nm : (forall p, load m p = load m' p) -> py_get ab kd d m nm = py_get ab kd d m' nm.
Proof.
  intros E. unfold py_get. destruct (sfind nm d) as [i|]; [|reflexivity]. destruct (get_array ab kd i) as [a| |]; try reflexivity.
  destruct (a_dim a); [rewrite E; reflexivity|]. destruct (nd_visit _ _); [|reflexivity]. rewrite (copy_out_same m m') by exact E. reflexivity.
Qed.
Lemma unaffected ab s s' i l : reached ab s -> steps ab s l = Some s' -> spared i l -> object s i <> None ->
  object s' i <> None /\ forall nm, attr ab s' i nm = attr ab s i nm.
Proof.
  intros HR HS N HO. destruct (object s i) as [o|] eqn:E; [|congruence].
  destruct (steps_stay ab i l s s' (reached_apart _ _ HR) HS N o E) as [E' V]. split; [congruence|].
  intros nm. unfold attr. rewrite E, E'. apply py_get_same. intros [b z]. apply V.
Qed.
Lemma reached_more ab s l s' : reached ab s -> steps ab s l = Some s' -> reached ab s'.
Proof.
  intros [l0 H] H'. exists (l0 ++ l). revert H. generalize nothing. induction l0 as [|x l0 IH]; intros s0 H; cbn [steps app] in *; [congruence|].
  destruct (step ab s0 x); [apply IH; exact H|discriminate].
Qed.

Lemma clone_holds ab kd m c : holds ab kd m c -> holds ab kd (clone_mem kd m) (with_next (CN 0) c).
Proof.
  intros H f Hf. specialize (H f Hf). destruct f; try exact H; try reflexivity; destruct kd; try destruct Hf; exact H.
Qed.
Lemma cloned ab s i kd c : reached ab s -> contains ab s i kd c -> populated kd ->
  exists s', step ab s (OClone i) = Some s' /\ reached ab s' /\
    contains ab s' (List.length (ss_objs s)) kd (with_next (CN 0) c) /\
    forall k nm sh den, nth_error (attributes kd) k = Some (nm, sh, den) ->
      shows (attr ab s' (List.length (ss_objs s)) nm) sh (fun idx => with_next (CN 0) c (den idx)).
Proof.
  intros HR (o & Ho & <- & HC) P. destruct (wrap_names ab (o_kind o) P) as (d & W & _).
  cbn [step]. rewrite Ho. unfold wrapped. rewrite W. destruct (alloc _ _ _ _) as [h o'] eqn:E. eexists. split; [reflexivity|].
  set (s' := mkS h (ss_objs s ++ [Some o'])).
  assert (R' : reached ab s').
  { apply (reached_more ab s [OClone i]); [exact HR|]. cbn [steps step]. rewrite Ho. unfold wrapped. rewrite W, E. reflexivity. }
  split; [exact R'|].
  assert (O' : object s' (List.length (ss_objs s)) = Some o').
  { apply object_nth. unfold s'. cbn [ss_objs]. rewrite nth_error_app2, Nat.sub_diag by lia. reflexivity. }
  assert (K' : o_kind o' = o_kind o /\ o_names o' = d) by (unfold alloc in E; injection E as <- <-; auto). destruct K' as [K1 K2].
  assert (V : forall b z, view h o' b z = clone_mem (o_kind o) (view (ss_heap s) o) b z).
  { intros b z. unfold alloc in E. injection E as <- <-. unfold view at 1. cbn [o_at].
    rewrite (put_self _ (mkObj (o_kind o) (fun b => h_free (ss_heap s) + bnum b) d) _ b); [reflexivity|].
    cbn [o_at]. intros b1 b2 E. apply bnum_inj. lia. }
  assert (HH : holds ab (o_kind o) (view h o') (with_next (CN 0) c)).
  { intros f Hf. unfold load. rewrite V. apply (clone_holds ab (o_kind o) _ c HC f Hf). }
  split.
  - exists o'. split; [exact O'|]. split; [exact K1|]. exact HH.
  - intros k nm sh den Hk. unfold attr. rewrite O', K1, K2. eapply get_shows; eauto.
Qed.
Lemma assign_holds ab kd kd' dst src c c' : same_class kd kd' = true -> holds ab kd dst c -> holds ab kd' src c' ->
  holds ab kd' (assign_mem kd dst src) (with_next (c FNext) c').
Proof.
  intros E HD HS f Hf. specialize (HS f Hf). destruct f; try exact HS; try (apply (HD FNext); destruct kd; exact I);
    destruct kd, kd'; try discriminate E; try destruct Hf; exact HS.
Qed.
Lemma assigned_to ab s i j kd kd' c c' : reached ab s -> contains ab s i kd c -> contains ab s j kd' c' -> alike kd kd' ->
  exists s', step ab s (OAssign i j) = Some s' /\ contains ab s' i kd' (with_next (c FNext) c').
Proof.
  intros HR (o & Ho & <- & HC) (o' & Ho' & <- & HC') A. cbn [step]. rewrite Ho, Ho'.
  assert (E : same_class (o_kind o) (o_kind o') = true) by (destruct (o_kind o), (o_kind o'); try destruct A; reflexivity). rewrite E.
  eexists. split; [reflexivity|]. assert (No := proj1 (object_nth _ _ _) Ho). eexists. split; [|split].
  - apply object_nth. cbn [ss_objs]. rewrite (nth_update_eq _ _ _ _ No). reflexivity.
  - reflexivity.
  - intros f Hf. unfold load, view. cbn [ss_heap o_at].
    rewrite (put_self _ o); [|destruct (reached_apart _ _ HR) as (_ & B & _); intros b b'; exact (B _ _ b b' No)].
    apply (assign_holds ab _ _ _ _ c c' E HC HC' f Hf).
Qed.
Lemma not_assigned ab s i j kd kd' c c' : contains ab s i kd c -> contains ab s j kd' c' -> ~ alike kd kd' ->
  step ab s (OAssign i j) = Some s.
Proof.
  intros (o & Ho & <- & HC) (o' & Ho' & <- & HC') A. cbn [step]. rewrite Ho, Ho'.
  destruct (o_kind o), (o_kind o'); cbn [same_class]; try reflexivity; exfalso; apply A; exact I.
Qed.

(** ** Propagation *)
Lemma clone_body st : st_body (clone_moment st) = st_body st.
Proof. destruct st as [n r []]. reflexivity. Qed.
Lemma clone_linear_body V (st : pstate (lstate V)) : st_body (clone_linear st) = st_body st.
Proof. destruct st as [n r []]. reflexivity. Qed.
Lemma assign_body d st : st_body (assign_moment d st) = st_body st.
Proof. destruct st as [n r []]. reflexivity. Qed.
Lemma assign_linear_body V (d st : pstate (lstate V)) : st_body (assign_linear d st) = st_body st.
Proof. destruct st as [n r []]. reflexivity. Qed.
Lemma propagate_body D B (m : machine D B) st st' start max : st_body st = st_body st' -> propagate m st start max = propagate m st' start max.
Proof. intros E. unfold propagate. rewrite E. reflexivity. Qed.
Lemma py_propagate_body D B (m : machine D B) st st' start max obs o : st_body st = st_body st' ->
  py_propagate m st start max obs o = py_propagate m st' start max obs o.
Proof. intros E. unfold py_propagate. destruct (py_observe _ _ _) as [els [u|e]]; [|reflexivity]. rewrite (propagate_body _ _ _ _ _ _ _ E). reflexivity. Qed.

Lemma uses_snoc D B (m : machine D B) us u : uses m (us ++ [u]) = use1 (uses m us) u.
Proof. unfold uses. rewrite fold_left_app. reflexivity. Qed.
Lemma entries_snoc D B us : forall (m : machine D B) es st start max, entries m es (us ++ [UProp st start max]) = entries m es us.
Proof. induction us as [|u us IH]; intros m es st start max; cbn [app entries]; [reflexivity|]. apply IH. Qed.
Lemma smooth_snoc D B J Q us : forall (m : machine D B) u, smooth J Q m us -> runs_well J Q (uses m us) u -> smooth J Q m (us ++ [u]).
Proof.
  induction us as [|x us IH]; intros m u HS HU; cbn [app smooth] in *; [auto|]. destruct HS as [H1 H2]. split; [exact H1|]. apply IH; auto.
Qed.
Lemma once_more w b c m es us st start max p f : sane w ->
  new_machine (moment_reg w) c = Ok m -> tfind "elements" c = Some (TCfgs es) ->
  Forall strips_to_some es -> smooth (fun r s => r = b /\ aligned s) strips_to_some m us ->
  (max <? 0)%Z = b -> aligned (st_body st) -> propagate (uses m us) st start max = Some p -> pr_end p = Ok f ->
  exists p', propagate (with_elems (uses m us) (pr_elems p)) (clone_moment st) start max = Some p' /\ pr_end p' = Ok f.
Proof.
  intros W Hm He HQ HS Hb A Hp Hf.
  set (c' := TCfg [("elements", TCfgs (entries m es us)); ("sim_type", TStr "MomentMatrix")] []).
  destruct (cache_unseen w b c m es us c' W Hm He HQ HS eq_refl eq_refl) as (m2 & Hm2 & E2).
  assert (HS' : smooth (fun r s => r = b /\ aligned s) strips_to_some m (us ++ [UProp st start max])).
  { apply smooth_snoc; [exact HS|]. cbn [runs_well]. split; [auto|]. exists p, f. auto. }
  destruct (cache_unseen w b c m es (us ++ [UProp st start max]) c' W Hm He HQ HS' eq_refl) as (m3 & Hm3 & E3); [rewrite entries_snoc; reflexivity|].
  assert (m3 = m2) as -> by congruence.
  specialize (E2 st start max Hb A). specialize (E3 st start max Hb A). rewrite <- E2 in E3. rewrite uses_snoc in E3. cbn [use1] in E3. rewrite Hp in E3.
  cbn [option_map] in E3. rewrite Hf in E3. rewrite (propagate_body _ _ _ (clone_moment st) st) by apply clone_body.
  destruct (propagate (with_elems _ _) _ _ _) as [p'|]; [|discriminate]. exists p'. split; [reflexivity|]. injection E3 as E3. exact E3.
Qed.

Lemma stays_contains ab s s' i kd c : stays s s' i -> contains ab s i kd c -> contains ab s' i kd c.
Proof.
  intros ST (o & Ho & K & H). destruct (ST o Ho) as [Ho' V]. exists o. split; [exact Ho'|]. split; [exact K|].
  intros f Hf. unfold load. rewrite V. apply H. exact Hf.
Qed.
Lemma created ab s kd m c : reached ab s -> populated kd -> holds ab kd m c ->
  exists s', reached ab s' /\ contains ab s' (List.length (ss_objs s)) kd c /\ List.length (ss_objs s') = S (List.length (ss_objs s)) /\
    forall i kd c, contains ab s i kd c -> contains ab s' i kd c.
Proof.
  intros HR P H. destruct (wrap_names ab kd P) as (d & W & _).
  destruct (step ab s (ONew kd m)) as [s'|] eqn:E; [|cbn [step] in E; unfold wrapped in E; rewrite W in E; destruct (alloc _ _ _ _); discriminate].
  exists s'. split; [apply (reached_more ab s [ONew kd m]); [exact HR|]; cbn [steps]; rewrite E; reflexivity|].
  split; [|split].
  - cbn [step] in E. unfold wrapped, alloc in E. rewrite W in E. injection E as <-. eexists. split; [|split].
    + apply object_nth. cbn [ss_objs]. rewrite nth_error_app2, Nat.sub_diag by lia. reflexivity.
    + reflexivity.
    + intros f Hf. unfold load, view. cbn [ss_heap]. rewrite (put_self _ (mkObj kd (fun b => h_free (ss_heap s) + bnum b) d)); [apply H; exact Hf|].
      cbn [o_at]. intros b1 b2 E. apply bnum_inj. lia.
  - cbn [step] in E. unfold wrapped, alloc in E. rewrite W in E. injection E as <-. cbn [ss_objs]. rewrite app_length. cbn. lia.
  - intros i kd' c' C. eapply stays_contains; [|exact C]. eapply step_stays; [exact (reached_apart _ _ HR)|exact E|exact (fun x => x)].
Qed.
Lemma nothing_reached ab : reached ab nothing.
Proof. exists []. reflexivity. Qed.

(** ** Witnesses *)
Lemma two_states kd kd' : (forall n, kd = KMoment n -> 0 < n <= 2) -> (forall n, kd' = KMoment n -> 0 < n <= 2) ->
  exists s, reached ab0 s /\ contains ab0 s 0 kd c0 /\ contains ab0 s 1 kd' c0.
Proof.
  assert (P : forall k, (forall n, k = KMoment n -> 0 < n <= 2) -> populated k /\ holds ab0 k m0 c0).
  { intros k H. split; [destruct k as [| |n]; [exact I..|]; specialize (H n eq_refl); split; lia|]. apply m0_holds. intros n E. specialize (H n E). lia. }
  intros H H'. destruct (P kd H) as [P1 P2], (P kd' H') as [P1' P2'].
  destruct (created ab0 nothing kd m0 c0 (nothing_reached _) P1 P2) as (s & R & C & L & _).
  destruct (created ab0 s kd' m0 c0 R P1' P2') as (s' & R' & C' & L' & K). exists s'. split; [exact R'|]. split; [apply K; exact C|].
  rewrite L in C'. exact C'.
Qed.
Definition two_drifts : tcfg := TCfg [("elements", TCfgs [
  TCfg [("L", TNum done); ("name", TStr "a"); ("type", TStr "drift")] [];
  TCfg [("L", TNum dzero); ("name", TStr "b"); ("type", TStr "drift")] []]); ("sim_type", TStr "Vector")] [].
Definition num01 (x : double) : R := match x with S754_finite _ _ _ => 1%R | _ => 0%R end.
Lemma C37_where_to_continue_refuted_w : exists num (m : machine (ldata vec) (lstate vec)) st p f p1 f1 p2 f2,
  new_machine (vector_reg num) two_drifts = Ok m /\
  propagate m st 0 1 = Some p /\ pr_end p = Ok f /\
  propagate m f (st_next f) 1 = Some p1 /\ pr_end p1 = Ok f1 /\
  propagate m (clone_linear f) (st_next (clone_linear f)) 1 = Some p2 /\ pr_end p2 = Ok f2 /\
  ls_pos (st_body f1) <> ls_pos (st_body f2).
Proof.
  exists num01. eexists. exists (mkSt 0 false (mkLS 0%R (fun _ => 0%R))). do 6 eexists.
  split; [reflexivity|]. split; [reflexivity|]. split; [reflexivity|]. split; [reflexivity|]. split; [reflexivity|].
  split; [reflexivity|]. split; [reflexivity|]. cbn [st_body ls_pos eb_len el_base]. cbn. lra.
Qed.
Lemma C37_next_elem_refuted_w : exists ab s s' i, abi_ok ab /\ reached ab s /\ step ab s (OClone i) = Some s' /\
  attr ab s i "next_elem" = PInt 5 /\ attr ab s' (List.length (ss_objs s)) "next_elem" = PInt 0.
Proof.
  exists ab0. eexists. eexists. exists 0. split; [exact ab0_ok|]. split.
  - exists [ONew KVector m0; OSet 0 "next_elem" (VInt 5)]. vm_compute. reflexivity.
  - split; [vm_compute; reflexivity|]. split; vm_compute; reflexivity.
Qed.
