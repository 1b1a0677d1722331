(** Refinement of the Config heap model to two-scope value semantics, for
    programs that flatten only unshared or single-scope Configs. *)
From Coq Require Import List String Bool Arith Lia.
From Verif Require Import SMap SMap_Proofs Dbl Config_Model Config_Spec Config_Proofs.
Import ListNotations.

(** ** Map relations *)
Definition mrel {A B} (P : A -> B -> Prop) (m : smap A) (t : smap B) : Prop :=
  Forall2 (fun a b => fst a = fst b /\ P (snd a) (snd b)) m t.

Section MRel.
Context {A B : Type} (P : A -> B -> Prop).

Lemma mrel_sfind m t n : mrel P m t ->
  match sfind n m, sfind n t with
  | Some a, Some b => P a b | None, None => True | _, _ => False end.
Proof.
  induction 1 as [|[k a] [k' b] m t [Hk Hab] H IH]; simpl in *; auto.
  subst k'. destruct (String.eqb n k); auto.
Qed.

Lemma mrel_sset m t n a b : mrel P m t -> P a b -> mrel P (sset n a m) (sset n b t).
Proof.
  intros H Hab. induction H as [|[k a'] [k' b'] m t [Hk Hab'] H IH]; simpl in *.
  - constructor; [auto|constructor].
  - subst k'. destruct (String.compare n k); repeat constructor; simpl; auto.
Qed.

Lemma mrel_sinsert m t n a b : mrel P m t -> P a b -> mrel P (sinsert n a m) (sinsert n b t).
Proof.
  intros H Hab. unfold sinsert. pose proof (mrel_sfind m t n H) as Hf.
  destruct (sfind n m), (sfind n t); try contradiction; auto using mrel_sset.
Qed.

Lemma mrel_smerge m t mi ti : mrel P m t -> mrel P mi ti -> mrel P (smerge m mi) (smerge t ti).
Proof.
  intros H Hi. unfold smerge. revert m t H.
  induction Hi as [|[k a] [k' b] mi ti [Hk Hab] Hi IH]; intros m t H; simpl in *; auto.
  subst k'. apply IH. apply mrel_sinsert; auto.
Qed.

Lemma mrel_keys m t : mrel P m t -> map fst m = map fst t.
Proof. induction 1 as [|a b m t [H _] _ IH]; simpl; congruence. Qed.
End MRel.

Lemma mrel_sorted {A B} (P : A -> B -> Prop) m t : mrel P m t -> ssorted m -> ssorted t.
Proof.
  induction 1 as [|[k a] [k' b] m t [Hk Hab] H IH]; simpl in *; auto.
  subst k'. intros [H1 H2]. split; [|auto]. intros k' v' Hin.
  apply in_map with (f := fst) in Hin. rewrite <- (mrel_keys P m t H) in Hin.
  apply in_map_iff in Hin as ([k2 v2] & E & Hin2). simpl in E. subst k2. eapply H1; eauto.
Qed.

Lemma mrel_mono {A B} (P Q : A -> B -> Prop) m t :
  (forall k a b, In (k, a) m -> P a b -> Q a b) -> mrel P m t -> mrel Q m t.
Proof.
  intros HPQ H. induction H as [|[k a] [k' b] m t [Hk Hab] H IH]; constructor.
  - split; [exact Hk|]. eapply HPQ; [left; reflexivity|exact Hab].
  - apply IH. intros k0 a0 b0 Hin. apply HPQ with k0. right; exact Hin.
Qed.

Lemma mrel_forall_nat {A B} (P : nat -> A -> B -> Prop) m t :
  (forall n, mrel (P n) m t) -> mrel (fun a b => forall n, P n a b) m t.
Proof.
  intros H. unfold mrel in *.
  assert (F : Forall2 (fun a b => forall n, fst a = fst b /\ P n (snd a) (snd b)) m t).
  { apply Forall2_forall_nat. exact H. }
  clear H. induction F as [|a b m t Hab F IH]; constructor; [|exact IH].
  split; [apply (Hab 0)|intros n; apply Hab].
Qed.

Lemma smerge_nil_sorted {V} (o : smap V) : ssorted o -> smerge [] o = o.
Proof.
  intros H. apply ssorted_ext.
  - apply smerge_sorted. exact I.
  - exact H.
  - intros k. rewrite sfind_smerge. reflexivity.
Qed.

Lemma smerge_nil_r {V} (o : smap V) : smerge o [] = o.
Proof. reflexivity. Qed.

(** ** Representation *)
Definition vrepT (P : handle -> tcfg -> Prop) (v : value) (f : tval) : Prop :=
  match v, f with
  | VNum x, TNum y => x = y
  | VVec x, TVec y => x = y
  | VStr x, TStr y => x = y
  | VCfgs l, TCfgs t => Forall2 P l t
  | _, _ => False
  end.

Fixpoint hrepT (h : heap) (n : nat) (hd : handle) (t : tcfg) : Prop :=
  match n with
  | O => True
  | S n' => exists m mi, deref h (h_vals hd) = Some m /\ impl_map h hd = Some mi /\
            mrel (vrepT (hrepT h n')) m (town t) /\ mrel (vrepT (hrepT h n')) mi (touter t)
  end.

Definition hA h hd t := forall n, hrepT h n hd t.
Definition vA h v f := vrepT (hA h) v f.

Lemma vrepT_mono (P Q : handle -> tcfg -> Prop) v f :
  (forall hd t, in_value hd v -> P hd t -> Q hd t) -> vrepT P v f -> vrepT Q v f.
Proof.
  intros H. destruct v as [| | |l], f as [| | |t]; simpl; auto.
  intros F. induction F as [|x y l t Hxy F IH]; constructor.
  - apply H; simpl; auto.
  - apply IH. intros hd t' Hin. apply H. simpl in *; auto.
Qed.

Lemma vrepT_forall h v f : (forall n, vrepT (hrepT h n) v f) -> vA h v f.
Proof.
  intros H. unfold vA. destruct v as [| | |l], f as [| | |t]; try apply (H 0).
  simpl in *. apply Forall2_forall_nat. exact H.
Qed.

Lemma hA_unfold h hd t : hA h hd t <->
  exists m mi, deref h (h_vals hd) = Some m /\ impl_map h hd = Some mi /\
            mrel (vA h) m (town t) /\ mrel (vA h) mi (touter t).
Proof.
  split.
  - intros H. destruct (H 1) as (m & mi & Hm & Hmi & _ & _). exists m, mi. repeat split; auto.
    + eapply mrel_mono; [|apply mrel_forall_nat with (P := fun n => vrepT (hrepT h n))].
      * intros k a b _ Hn. apply vrepT_forall. exact Hn.
      * intros n. destruct (H (S n)) as (m' & mi' & Hm' & Hmi' & R1 & R2).
        assert (m' = m) by congruence. assert (mi' = mi) by congruence. subst m' mi'. assumption.
    + eapply mrel_mono; [|apply mrel_forall_nat with (P := fun n => vrepT (hrepT h n))].
      * intros k a b _ Hn. apply vrepT_forall. exact Hn.
      * intros n. destruct (H (S n)) as (m' & mi' & Hm' & Hmi' & R1 & R2).
        assert (m' = m) by congruence. assert (mi' = mi) by congruence. subst m' mi'. assumption.
  - intros (m & mi & Hm & Hmi & R1 & R2) [|n]; simpl; [exact I|]. exists m, mi. repeat split; auto.
    + eapply mrel_mono; [|exact R1]. intros k a b _. apply vrepT_mono. intros hd' t' _ HA. apply HA.
    + eapply mrel_mono; [|exact R2]. intros k a b _. apply vrepT_mono. intros hd' t' _ HA. apply HA.
Qed.

(** Closed and well formed set of handles. *)
Record ok (h : heap) (S : handle -> Prop) : Prop := {
  ok_cl : forall hd hd', S hd -> nested h hd hd' -> S hd';
  ok_wf : forall hd, S hd -> wf h hd
}.

Definition same_on (h h' : heap) (S : handle -> Prop) : Prop :=
  forall hd, S hd -> deref h' (h_vals hd) = deref h (h_vals hd) /\ impl_map h' hd = impl_map h hd.

Lemma nested_vals h hd m k v hd' : deref h (h_vals hd) = Some m -> In (k, v) m -> in_value hd' v -> nested h hd hd'.
Proof. intros. exists (h_vals hd), m, k, v. repeat split; auto. left; reflexivity. Qed.

Lemma nested_impl h hd m k v hd' : impl_map h hd = Some m -> In (k, v) m -> in_value hd' v -> nested h hd hd'.
Proof.
  unfold impl_map. destruct (h_impl hd) as [l|] eqn:E; intros H Hin Hv.
  - exists l, m, k, v. repeat split; auto. right; exact E.
  - injection H as <-. destruct Hin.
Qed.

Lemma nested_inv h hd hd' m mi : deref h (h_vals hd) = Some m -> impl_map h hd = Some mi ->
  nested h hd hd' -> exists k v, (In (k, v) m \/ In (k, v) mi) /\ in_value hd' v.
Proof.
  intros Hm Hmi (l & mm & k & v & [E|E] & Hd & Hin & Hv); exists k, v; (split; [|exact Hv]).
  - left. subst l. congruence.
  - right. unfold impl_map in Hmi. rewrite E in Hmi. congruence.
Qed.

Lemma ok_same h h' S : ok h S -> same_on h h' S -> ok h' S.
Proof.
  intros G E. constructor.
  - intros hd hd' H N. destruct (ok_wf _ _ G hd H) as [[m Hm] [mi Hmi]].
    destruct (E hd H) as [E1 E2]. rewrite Hm in E1. rewrite Hmi in E2.
    destruct (nested_inv _ _ _ _ _ E1 E2 N) as (k & v & Hin & Hv).
    apply (ok_cl _ _ G hd hd' H). destruct Hin; [eapply nested_vals|eapply nested_impl]; eauto.
  - intros hd H. destruct (ok_wf _ _ G hd H) as [[m Hm] [mi Hmi]].
    destruct (E hd H) as [E1 E2]. split; [exists m|exists mi]; congruence.
Qed.

Lemma hA_same h h' S : ok h S -> same_on h h' S -> forall hd t, S hd -> hA h hd t -> hA h' hd t.
Proof.
  intros G E hd t Hs HA n. revert hd t Hs HA. induction n as [|n IH]; intros hd t Hs HA; simpl; [exact I|].
  destruct (proj1 (hA_unfold _ _ _) HA) as (m & mi & Hm & Hmi & R1 & R2).
  destruct (E hd Hs) as [E1 E2]. rewrite Hm in E1. rewrite Hmi in E2. exists m, mi. repeat split; auto.
  - eapply mrel_mono; [|exact R1]. intros k a b Hin. apply vrepT_mono. intros hd' t' Hin' HA'. apply IH; auto.
    eapply (ok_cl _ _ G); eauto. eapply nested_vals; eauto.
  - eapply mrel_mono; [|exact R2]. intros k a b Hin. apply vrepT_mono. intros hd' t' Hin' HA'. apply IH; auto.
    eapply (ok_cl _ _ G); eauto. eapply nested_impl; eauto.
Qed.

Lemma vA_same h h' S v f : ok h S -> same_on h h' S -> (forall hd, in_value hd v -> S hd) -> vA h v f -> vA h' v f.
Proof. intros G E Hv. apply vrepT_mono. intros hd t Hin. eapply hA_same; eauto. Qed.

Lemma mrel_vA_same h h' S m t : ok h S -> same_on h h' S ->
  (forall k v hd, In (k, v) m -> in_value hd v -> S hd) -> mrel (vA h) m t -> mrel (vA h') m t.
Proof. intros G E Hv. apply mrel_mono. intros k a b Hin. eapply vA_same; eauto. Qed.

Lemma same_alloc h m S : ok h S -> same_on h (h ++ [m]) S.
Proof.
  intros G hd H. destruct (ok_wf _ _ G hd H) as [[x Hx] [y Hy]]. split.
  - rewrite Hx. apply deref_alloc_old. exact Hx.
  - unfold impl_map in *. destruct (h_impl hd); [|reflexivity]. rewrite Hy. apply deref_alloc_old. exact Hy.
Qed.

Lemma same_update h l m S : fresh_for S l -> same_on h (update h l m) S.
Proof.
  intros F hd H. split.
  - apply deref_update_other. intros E. apply (F hd H). left; exact E.
  - apply impl_map_update_other. intros E. apply (F hd H). right; exact E.
Qed.

Lemma same_trans h1 h2 h3 S : same_on h1 h2 S -> same_on h2 h3 S -> same_on h1 h3 S.
Proof. intros A B hd H. destruct (A hd H), (B hd H). split; congruence. Qed.

Lemma ok_fresh h S : ok h S -> fresh_for S (List.length h).
Proof.
  intros G hd H M. destruct (wf_mentions_lt _ _ _ (ok_wf _ _ G hd H) M) as [m Hm].
  apply deref_lt in Hm. lia.
Qed.

Lemma ok_add h S hd0 m mi : ok h S -> deref h (h_vals hd0) = Some m -> impl_map h hd0 = Some mi ->
  (forall k v hd', In (k, v) m \/ In (k, v) mi -> in_value hd' v -> S hd') ->
  ok h (fun a => S a \/ a = hd0).
Proof.
  intros G Hm Hmi Hn. constructor.
  - intros hd hd' [H| ->] N; left; [eapply (ok_cl _ _ G); eauto|].
    destruct (nested_inv _ _ _ _ _ Hm Hmi N) as (k & v & Hin & Hv). eauto.
  - intros hd [H| ->]; [apply (ok_wf _ _ G); auto|]. split; eauto.
Qed.

Definition sorted_heap (h : heap) : Prop := forall l m, deref h l = Some m -> ssorted m.

Lemma sorted_alloc h m : sorted_heap h -> ssorted m -> sorted_heap (h ++ [m]).
Proof.
  intros H Hm l x D. unfold deref in D. destruct (Nat.lt_ge_cases l (List.length h)).
  - rewrite nth_error_app1 in D by assumption. eapply H; eauto.
  - rewrite nth_error_app2 in D by assumption. destruct (l - List.length h) as [|k]; simpl in D.
    + congruence.
    + destruct k; discriminate.
Qed.

Lemma sorted_update h l m : sorted_heap h -> ssorted m -> sorted_heap (update h l m).
Proof.
  intros H Hm l' x D. destruct (Nat.eq_dec l' l) as [->|Hne].
  - destruct (deref h l) eqn:E.
    + erewrite deref_update_same in D by eauto. congruence.
    + exfalso. apply nth_error_None in E. apply deref_lt in D.
      assert (L : List.length (update h l m) = List.length h).
      { clear. revert l. induction h; intros [|l]; simpl; auto. }
      lia.
  - rewrite deref_update_other in D by auto. eapply H; eauto.
Qed.

(** ** Simulation *)
Record Rel2 (st : state) (ft : tstate) : Prop := {
  q_ok : ok (hp st) (live st);
  q_sorted : sorted_heap (hp st);
  q_regs : forall r, match regs st r, tregs ft r with
                     | None, None => True
                     | Some hd, Some t => hA (hp st) hd t
                     | _, _ => False
                     end;
  q_vregs : forall v, vA (hp st) (vregs st v) (tvregs ft v)
}.

Lemma Rel2_step h' rg' vr' trg' tvr' S :
  ok h' S -> sorted_heap h' ->
  (forall r, match rg' r, trg' r with
             | None, None => True
             | Some hd, Some t => S hd /\ hA h' hd t
             | _, _ => False
             end) ->
  (forall v, (forall hd, in_value hd (vr' v) -> S hd) /\ vA h' (vr' v) (tvr' v)) ->
  Rel2 (mkS h' rg' vr') (mkT trg' tvr').
Proof.
  intros G Hs HR HV.
  assert (L : forall hd, live (mkS h' rg' vr') hd -> S hd).
  { apply live_sub; [split; simpl|apply (ok_cl _ _ G)].
    - intros r hd E. specialize (HR r). rewrite E in HR. destruct (trg' r); [apply HR|contradiction].
    - intros v hd Hin. apply (HV v). exact Hin. }
  constructor; simpl; auto.
  - constructor; simpl.
    + intros hd hd' H N. eapply live_nested; eauto.
    + intros hd H. apply (ok_wf _ _ G). auto.
  - intros r. specialize (HR r). destruct (rg' r), (trg' r); auto. apply HR.
  - intros v. apply HV.
Qed.

Section OneStep.
Context (st : state) (ft : tstate) (HRel : Rel2 st ft).
Let G := q_ok _ _ HRel.

Lemma q_reg r hd : regs st r = Some hd ->
  exists t, tregs ft r = Some t /\ hA (hp st) hd t /\ live st hd.
Proof.
  intros E. pose proof (q_regs _ _ HRel r) as H. rewrite E in H.
  destruct (tregs ft r) as [t|]; [|contradiction]. exists t. repeat split; auto. eapply live_reg; eauto.
Qed.

Lemma q_reg_none r : regs st r = None -> tregs ft r = None.
Proof.
  intros E. pose proof (q_regs _ _ HRel r) as H. rewrite E in H.
  destruct (tregs ft r) as [t|]; [contradiction|reflexivity].
Qed.

(** The general shape of every step that creates or mutates a map: a set [S] of
    handles (closed) is untouched, register [r] gets a handle outside it. *)
Lemma q_new_handle h' S r hd1 t1 m1 mi1 vr' tvr' :
  ok (hp st) S -> same_on (hp st) h' S -> sorted_heap h' ->
  (forall r' a, r' <> r -> regs st r' = Some a -> S a) ->
  deref h' (h_vals hd1) = Some m1 -> impl_map h' hd1 = Some mi1 ->
  (forall k v hd', In (k, v) m1 \/ In (k, v) mi1 -> in_value hd' v -> S hd') ->
  mrel (vA (hp st)) m1 (town t1) -> mrel (vA (hp st)) mi1 (touter t1) ->
  (forall v, (forall hd, in_value hd (vr' v) -> S hd) /\ vA (hp st) (vr' v) (tvr' v)) ->
  Rel2 (mkS h' (upd (regs st) r (Some hd1)) vr')
       (mkT (upd (tregs ft) r (Some t1)) tvr').
Proof.
  intros OS SO Hs Hreg D1 I1 Hn R1 R2 HV.
  assert (OS' : ok h' S) by (eapply ok_same; eauto).
  eapply Rel2_step with (S := fun a => S a \/ a = hd1); auto.
  - eapply ok_add; eauto.
  - intros r'. unfold upd. destruct (Nat.eqb_spec r' r) as [Heq|Hne].
    + split; [right; reflexivity|]. apply hA_unfold. exists m1, mi1. repeat split; auto.
      * apply mrel_vA_same with (h := hp st) (S := S); auto. intros k v hd Hin. apply (Hn k v hd). auto.
      * apply mrel_vA_same with (h := hp st) (S := S); auto. intros k v hd Hin. apply (Hn k v hd). auto.
    + pose proof (q_regs _ _ HRel r') as H'. destruct (regs st r') as [a|] eqn:E, (tregs ft r'); auto.
      assert (Sa : S a) by (eapply Hreg; eauto). split; [left; exact Sa|].
      apply hA_same with (h := hp st) (S := S); auto.
  - intros v. destruct (HV v) as [V1 V2]. split; [intros; left; auto|].
    apply vA_same with (h := hp st) (S := S); auto.
Qed.

Lemma excl_set r hd : exclusive st r hd -> live st hd ->
  let S := fun a => live st a /\ ~ mentions a (h_vals hd) in
  ok (hp st) S /\ fresh_for S (h_vals hd) /\
  (forall r' a, r' <> r -> regs st r' = Some a -> S a) /\
  (forall v hd', in_value hd' (vregs st v) -> S hd') /\
  (forall hd', nested (hp st) hd hd' -> S hd').
Proof.
  intros (X0 & X1 & X2 & X3) Hl S. repeat split.
  - apply live_nested with hd0; [apply H|assumption].
  - apply X3 with hd0; [apply H|assumption].
  - apply (ok_wf _ _ G). apply H.
  - apply (ok_wf _ _ G). apply H.
  - intros a [_ Ha]. exact Ha.
  - eapply live_reg; eauto.
  - eapply X1; eauto.
  - eapply live_vreg; eauto.
  - eapply X2; eauto.
  - eapply live_nested; eauto.
  - eapply X3; eauto.
Qed.

Lemma q_set r hd t u n v f vr' tvr' :
  regs st r = Some hd -> hA (hp st) hd t ->
  (u = true -> exclusive st r hd) ->
  vA (hp st) v f -> (forall hd', in_value hd' v -> exists w, in_value hd' (vregs st w)) ->
  (forall w, (forall hd', in_value hd' (vr' w) -> (exists w', in_value hd' (vregs st w')) \/ nested (hp st) hd hd') /\
             vA (hp st) (vr' w) (tvr' w)) ->
  exists h1 hd1, set_any (hp st) hd u n v = Some (h1, hd1) /\
    Rel2 (mkS h1 (upd (regs st) r (Some hd1)) vr')
         (mkT (upd (tregs ft) r (Some (tset n f t))) tvr').
Proof.
  intros Er Ht Hu Hvf Hv Hvr.
  assert (Hlive : live st hd) by (eapply live_reg; eauto).
  destruct (proj1 (hA_unfold _ _ _) Ht) as (m & mi & Hm & Hmi & R1 & R2).
  assert (Hsm : ssorted m) by (eapply (q_sorted _ _ HRel); eauto).
  unfold set_any, cow. destruct u.
  - rewrite Hm. eexists _, _. split; [reflexivity|].
    destruct (excl_set r hd (Hu eq_refl) Hlive) as (OS & FS & S1 & S2 & S3).
    destruct (Hu eq_refl) as (X0 & _ & _ & _).
    eapply q_new_handle with (m1 := sset n v m) (mi1 := mi); [exact OS| | | | | | | | |].
    + apply same_update; exact FS.
    + apply sorted_update; [apply (q_sorted _ _ HRel)|apply sset_sorted; exact Hsm].
    + exact S1.
    + eapply deref_update_same; eauto.
    + rewrite impl_map_update_other; auto.
    + intros k w hd' [Hin|Hin] Hw.
      * apply In_sset in Hin as [E|Hin].
        -- injection E as -> ->. destruct (Hv _ Hw) as [w' Hw']. eapply S2; eauto.
        -- apply S3. eapply nested_vals; eauto.
      * apply S3. eapply nested_impl; eauto.
    + simpl. apply mrel_sset; auto.
    + exact R2.
    + intros w. destruct (Hvr w) as [V1 V2]. split; [|exact V2].
      intros hd' Hin. destruct (V1 _ Hin) as [[w' Hw']|N]; [eapply S2; eauto|apply S3; exact N].
  - rewrite Hm. simpl. set (F := List.length (hp st)).
    unfold deref at 1. fold (deref (hp st ++ [m]) F). rewrite deref_alloc_new.
    eexists _, _. split; [reflexivity|].
    assert (FF : fresh_for (live st) F) by (apply ok_fresh; exact G).
    assert (Hne : h_impl hd <> Some F) by (intros E; apply (FF hd Hlive); right; exact E).
    eapply q_new_handle with (S := live st) (m1 := sset n v m) (mi1 := mi); [exact G| | | | | | | | |].
    + eapply same_trans; [apply same_alloc; exact G|]. apply same_update. exact FF.
    + apply sorted_update; [apply sorted_alloc; [apply (q_sorted _ _ HRel)|exact Hsm]|apply sset_sorted; exact Hsm].
    + intros; eapply live_reg; eauto.
    + simpl. eapply deref_update_same. apply deref_alloc_new.
    + unfold impl_map in *; simpl. destruct (h_impl hd) as [l|] eqn:E; [|assumption].
      rewrite deref_update_other; [apply deref_alloc_old; exact Hmi|].
      intros El; apply (FF hd Hlive); right; rewrite E, El; reflexivity.
    + intros k w hd' [Hin|Hin] Hw.
      * apply In_sset in Hin as [E|Hin].
        -- injection E as -> ->. destruct (Hv _ Hw) as [w' Hw']. eapply live_vreg; eauto.
        -- eapply live_nested; [exact Hlive|]. eapply nested_vals; eauto.
      * eapply live_nested; [exact Hlive|]. eapply nested_impl; eauto.
    + simpl. apply mrel_sset; auto.
    + exact R2.
    + intros w. destruct (Hvr w) as [V1 V2]. split; [|exact V2].
      intros hd' Hin. destruct (V1 _ Hin) as [[w' Hw']|N]; [eapply live_vreg; eauto|eapply live_nested; eauto].
Qed.

Lemma q_vreg v x f :
  vA (hp st) x f -> (forall hd, in_value hd x -> live st hd) ->
  Rel2 (mkS (hp st) (regs st) (upd (vregs st) v x)) (mkT (tregs ft) (upd (tvregs ft) v f)).
Proof.
  intros Hx Hl. eapply Rel2_step with (S := live st); [exact G|apply (q_sorted _ _ HRel)| |].
  - intros r'. pose proof (q_regs _ _ HRel r') as H'.
    destruct (regs st r') eqn:E, (tregs ft r'); auto. split; auto. eapply live_reg; eauto.
  - intros w. unfold upd. destruct (Nat.eqb w v); [auto|].
    split; [intros; eapply live_vreg; eauto|apply (q_vregs _ _ HRel)].
Qed.

Lemma q_set_reg_live r (o : option (handle * tcfg)) :
  (match o with Some (hd, t) => live st hd /\ hA (hp st) hd t | None => True end) ->
  Rel2 (mkS (hp st) (upd (regs st) r (option_map fst o)) (vregs st))
      (mkT (upd (tregs ft) r (option_map snd o)) (tvregs ft)).
Proof.
  intros H. eapply Rel2_step with (S := live st); [exact G|apply (q_sorted _ _ HRel)| |].
  - intros r'. unfold upd. destruct (Nat.eqb r' r).
    + destruct o as [[hd t]|]; simpl; auto.
    + pose proof (q_regs _ _ HRel r') as H'. destruct (regs st r') eqn:E, (tregs ft r'); auto.
      split; auto. eapply live_reg; eauto.
  - intros v. split; [intros; eapply live_vreg; eauto|apply (q_vregs _ _ HRel)].
Qed.

Lemma vtype_ttype v f : vA (hp st) v f -> vtype v = ttype f.
Proof. destruct v, f; simpl; intros; auto; contradiction. Qed.

Lemma vshape_tshape v f : vA (hp st) v f -> vshape v = tshape f.
Proof.
  destruct v, f; simpl; intros H; try contradiction; try congruence.
  f_equal. induction H; simpl; congruence.
Qed.

Lemma q_lookup r hd t n : regs st r = Some hd -> tregs ft r = Some t ->
  exists x, lookup (hp st) hd n = Some x /\
    (match x, tfind n t with Some a, Some b => vA (hp st) a b | None, None => True | _, _ => False end) /\
    (forall v hd', x = Some v -> in_value hd' v -> live st hd').
Proof.
  intros E Ef. pose proof (q_regs _ _ HRel r) as H. rewrite E, Ef in H.
  destruct (proj1 (hA_unfold _ _ _) H) as (m & mi & Hm & Hmi & R1 & R2).
  pose proof (mrel_sfind _ _ _ n R1) as F1. pose proof (mrel_sfind _ _ _ n R2) as F2.
  assert (HN : forall x v hd', lookup (hp st) hd n = Some x -> x = Some v -> in_value hd' v -> live st hd').
  { intros x v hd' Hx -> Hin. eapply live_nested; [eapply live_reg; eauto|]. eapply lookup_nested; eauto. }
  unfold tfind. destruct (sfind n m) as [a|] eqn:Ea, (sfind n (town t)) as [b|] eqn:Eb; try contradiction.
  - exists (Some a). assert (HL : lookup (hp st) hd n = Some (Some a)).
    { unfold lookup. rewrite Hm, Ea. reflexivity. }
    repeat split; auto. intros; eapply HN; eauto.
  - exists (sfind n mi). assert (HL : lookup (hp st) hd n = Some (sfind n mi)).
    { unfold lookup. rewrite Hm, Ea, Hmi. reflexivity. }
    split; [exact HL|]. split; [exact F2|]. intros; eapply HN; eauto.
Qed.

(** Flattening an unshared or single-scope Config. *)
Lemma q_flatten r hd t : regs st r = Some hd -> hA (hp st) hd t ->
  (h_impl hd = None \/ exclusive st r hd) ->
  exists h1 hd1, flatten (hp st) hd = Some (h1, hd1) /\ h_impl hd1 = None /\
    Rel2 (mkS h1 (upd (regs st) r (Some hd1)) (vregs st))
         (mkT (upd (tregs ft) r (Some (TCfg (smerge (town t) (touter t)) []))) (tvregs ft)).
Proof.
  intros Er Ht Hsafe.
  assert (Hlive : live st hd) by (eapply live_reg; eauto).
  destruct (proj1 (hA_unfold _ _ _) Ht) as (m & mi & Hm & Hmi & R1 & R2).
  unfold flatten. destruct (h_impl hd) as [li|] eqn:Eli.
  - destruct Hsafe as [Hsafe|Hsafe]; [discriminate|].
    assert (Hmi' : deref (hp st) li = Some mi) by (unfold impl_map in Hmi; rewrite Eli in Hmi; exact Hmi).
    rewrite Hm, Hmi'. eexists _, _. split; [reflexivity|]. split; [reflexivity|].
    destruct (excl_set r hd Hsafe Hlive) as (OS & FS & S1 & S2 & S3).
    eapply q_new_handle with (m1 := smerge m mi) (mi1 := []); [exact OS| | | | | | | | |].
    + apply same_update; exact FS.
    + apply sorted_update; [apply (q_sorted _ _ HRel)|apply smerge_sorted; eapply (q_sorted _ _ HRel); eauto].
    + exact S1.
    + simpl. eapply deref_update_same; eauto.
    + reflexivity.
    + intros k w hd' [Hin|[]] Hw. apply S3. apply In_smerge in Hin as [Hin|Hin];
        [eapply nested_vals|eapply nested_impl]; eauto.
    + simpl. apply mrel_smerge; auto.
    + constructor.
    + intros w. split; [intros hd' Hin; eapply S2; eauto|apply (q_vregs _ _ HRel)].
  - exists (hp st), hd. split; [reflexivity|]. split; [exact Eli|].
    apply (q_set_reg_live r (Some (hd, _))). split; [exact Hlive|].
    apply hA_unfold. exists m, mi. unfold impl_map in Hmi. rewrite Eli in Hmi. injection Hmi as <-.
    repeat split; auto.
    + unfold impl_map. rewrite Eli. reflexivity.
    + simpl. inversion R2. rewrite smerge_nil_r. exact R1.
    + constructor.
Qed.

Lemma q_new_scope s hd t : regs st s = Some hd -> hA (hp st) hd t ->
  exists h1 hd1, new_scope (hp st) hd = Some (h1, hd1) /\
    forall r, Rel2 (mkS h1 (upd (regs st) r (Some hd1)) (vregs st))
         (mkT (upd (tregs ft) r (Some (TCfg [] (smerge (town t) (touter t))))) (tvregs ft)).
Proof.
  intros Er Ht.
  assert (Hlive : live st hd) by (eapply live_reg; eauto).
  destruct (proj1 (hA_unfold _ _ _) Ht) as (m & mi & Hm & Hmi & R1 & R2).
  assert (FF : fresh_for (live st) (List.length (hp st))) by (apply ok_fresh; exact G).
  set (F := List.length (hp st)) in *. set (h1 := hp st ++ [sempty]).
  assert (Sh1 : sorted_heap h1) by (apply sorted_alloc; [apply (q_sorted _ _ HRel)|exact I]).
  assert (DF : deref h1 F = Some []) by apply deref_alloc_new.
  assert (HV : forall v, (forall hd, in_value hd (vregs st v) -> live st hd) /\ vA (hp st) (vregs st v) (tvregs ft v)).
  { intros v. split; [intros; eapply live_vreg; eauto|apply (q_vregs _ _ HRel)]. }
  assert (Ssrt : ssorted m) by (eapply (q_sorted _ _ HRel); eauto).
  assert (Ssi : ssorted mi).
  { unfold impl_map in Hmi. destruct (h_impl hd); [eapply (q_sorted _ _ HRel); eauto|]. injection Hmi as <-. exact I. }
  assert (Nst : forall k v hd', In (k, v) m \/ In (k, v) mi -> in_value hd' v -> live st hd').
  { intros k v hd' [Hin|Hin] Hv; (eapply live_nested; [exact Hlive|]); [eapply nested_vals|eapply nested_impl]; eauto. }
  unfold new_scope. simpl. fold F h1. rewrite Hm, Hmi.
  destruct m as [|kv m'] eqn:Em; simpl sis_empty; cbv iota.
  - exists h1, (mkH F (h_impl hd)). split; [reflexivity|]. intros r.
    eapply q_new_handle with (S := live st) (m1 := []) (mi1 := mi); [exact G|apply same_alloc; exact G|exact Sh1| |exact DF| | | | |exact HV].
    + intros; eapply live_reg; eauto.
    + unfold impl_map in *; simpl. destruct (h_impl hd); [|assumption]. apply deref_alloc_old; assumption.
    + intros k v hd' [[]|Hin]; eauto.
    + constructor.
    + simpl. inversion R1. rewrite smerge_nil_sorted; [exact R2|]. eapply mrel_sorted; eauto.
  - rewrite <- Em in *. clear Em kv m'. destruct mi as [|kv mi'] eqn:Emi; simpl sis_empty; cbv iota.
    + exists h1, (mkH F (Some (h_vals hd))). split; [reflexivity|]. intros r.
      eapply q_new_handle with (S := live st) (m1 := []) (mi1 := m); [exact G|apply same_alloc; exact G|exact Sh1| |exact DF| | | | |exact HV].
      * intros; eapply live_reg; eauto.
      * unfold impl_map; simpl. apply deref_alloc_old; exact Hm.
      * intros k v hd' [[]|Hin]; eauto.
      * constructor.
      * simpl. inversion R2. rewrite smerge_nil_r. exact R1.
    + rewrite <- Emi in *. clear Emi kv mi'.
      set (h2 := h1 ++ [smerge m mi]). set (F2 := List.length h1).
      exists h2, (mkH F (Some F2)). split; [reflexivity|]. intros r.
      eapply q_new_handle with (S := live st) (m1 := []) (mi1 := smerge m mi); [exact G| | | | | | | | |exact HV].
      * eapply same_trans; [apply same_alloc; exact G|]. apply same_alloc.
        eapply ok_same; [exact G|]. apply same_alloc; exact G.
      * apply sorted_alloc; [exact Sh1|]. apply smerge_sorted; exact Ssrt.
      * intros; eapply live_reg; eauto.
      * simpl. apply deref_alloc_old. exact DF.
      * unfold impl_map; simpl. apply deref_alloc_new.
      * intros k v hd' [[]|Hin] Hv. apply In_smerge in Hin. eauto.
      * constructor.
      * simpl. apply mrel_smerge; auto.
Qed.
End OneStep.

Lemma q_push st ft r hd t : Rel2 st ft -> regs st r = Some hd -> hA (hp st) hd t ->
  (h_impl hd = None \/ exclusive st r hd) ->
  exists h1 hd1, push_scope (hp st) hd = Some (h1, hd1) /\
    Rel2 (mkS h1 (upd (regs st) r (Some hd1)) (vregs st))
         (mkT (upd (tregs ft) r (Some (TCfg [] (smerge (town t) (touter t))))) (tvregs ft)).
Proof.
  intros HRel Er Ht Hsafe.
  destruct (q_flatten st ft HRel r hd t Er Ht Hsafe) as (h1 & hd1 & Hfl & Hi & HR1).
  unfold push_scope. rewrite Hfl. simpl.
  set (st1 := mkS h1 (upd (regs st) r (Some hd1)) (vregs st)) in *.
  set (t1 := TCfg (smerge (town t) (touter t)) []) in *.
  set (ft1 := mkT (upd (tregs ft) r (Some t1)) (tvregs ft)) in *.
  eexists _, _. split; [reflexivity|].
  pose proof (q_ok _ _ HR1) as G.
  assert (Er1 : regs st1 r = Some hd1) by (simpl; unfold upd; rewrite Nat.eqb_refl; reflexivity).
  assert (Hlive : live st1 hd1) by (eapply live_reg; eauto).
  assert (Hrep : hA h1 hd1 t1).
  { pose proof (q_regs _ _ HR1 r) as H. rewrite Er1 in H. simpl in H. unfold upd in H.
    rewrite Nat.eqb_refl in H. exact H. }
  destruct (proj1 (hA_unfold _ _ _) Hrep) as (m & mi & Hm & Hmi & R1 & R2). simpl in R1.
  assert (Hgoal : Rel2 (mkS (h1 ++ [sempty]) (upd (regs st1) r (Some (mkH (List.length h1) (Some (h_vals hd1))))) (vregs st1))
                      (mkT (upd (tregs ft1) r (Some (TCfg [] (smerge (town t) (touter t))))) (tvregs ft1))).
  { eapply q_new_handle with (S := live st1) (m1 := []) (mi1 := m); [exact HR1|exact G|apply same_alloc; exact G| | | | | | | |].
    - apply sorted_alloc; [apply (q_sorted _ _ HR1)|exact I].
    - intros; eapply live_reg; eauto.
    - simpl. apply deref_alloc_new.
    - unfold impl_map; simpl. apply deref_alloc_old. exact Hm.
    - intros k v hd' [[]|Hin] Hv. eapply live_nested; [exact Hlive|]. eapply nested_vals; eauto.
    - constructor.
    - exact R1.
    - intros v. split; [intros; eapply live_vreg; eauto|apply (q_vregs _ _ HR1)]. }
  set (hd2 := mkH (List.length h1) (Some (h_vals hd1))) in *.
  destruct Hgoal as [A B C D].
  eapply Rel2_step with (S := live (mkS (h1 ++ [sempty]) (upd (regs st1) r (Some hd2)) (vregs st1))).
  - exact A.
  - exact B.
  - intros r'. specialize (C r'). simpl in C. unfold upd in *. simpl in *.
    destruct (Nat.eqb r' r) eqn:Err.
    + split; [|exact C]. eapply live_reg with (r := r'). simpl. unfold upd. rewrite Err. reflexivity.
    + destruct (regs st r') eqn:E', (tregs ft r'); auto. split; [|exact C].
      eapply live_reg with (r := r'). simpl. unfold upd. rewrite Err. exact E'.
  - intros v. split; [|exact (D v)]. intros a Ha. eapply live_vreg with (v := v). exact Ha.
Qed.

Lemma get_regs_rel2 st ft rs : Rel2 st ft ->
  match get_regs (regs st) rs, all_some (map (tregs ft) rs) with
  | Some l, Some t => Forall2 (hA (hp st)) l t /\ (forall hd, In hd l -> live st hd)
  | None, None => True
  | _, _ => False
  end.
Proof.
  intros HR. induction rs as [|r rs IH]; simpl.
  - split; [constructor|intros _ []].
  - pose proof (q_regs _ _ HR r) as H. destruct (regs st r) eqn:E, (tregs ft r); try contradiction; auto.
    destruct (get_regs (regs st) rs), (all_some (map (tregs ft) rs)); auto.
    destruct IH as [I1 I2]. split; [constructor; auto|].
    intros hd [<-|Hin]; [eapply live_reg; eauto|auto].
Qed.

Ltac q_cases HRel r :=
  let E := fresh "E" in
  let hd := fresh "hd" in
  destruct (regs _ r) as [hd|] eqn:E;
  [ let t := fresh "t" in
    destruct (q_reg _ _ HRel r hd E) as (t & ?Ef & ?Hrep & ?Hlive); rewrite Ef
  | rewrite (q_reg_none _ _ HRel r E); exact I ].

Lemma vA_default h t : vA h (vdefault t) (tdefault t).
Proof. destruct t; simpl; auto. Qed.

Lemma step_sim2 st ft o u : Rel2 st ft -> safe st o -> legal st o u ->
  match step st o u, tstep ft o with
  | Some (st', x), Some (ft', y) => x = y /\ Rel2 st' ft'
  | None, None => True
  | _, _ => False
  end.
Proof.
  intros HRel Hsafe Hleg. pose proof (q_ok _ _ HRel) as G.
  assert (HV : forall hd w, (forall hd', in_value hd' (vregs st w) -> (exists w', in_value hd' (vregs st w')) \/ nested (hp st) hd hd') /\
             vA (hp st) (vregs st w) (tvregs ft w)).
  { intros hd w. split; [eauto|apply (q_vregs _ _ HRel)]. }
  assert (Read : forall tt v r n hit miss,
    match
     match regs st r with
      | None => None
      | Some hd =>
          match lookup (hp st) hd n with
          | None => None
          | Some (Some x) =>
              if match tt with None => true | Some t => vty_eqb t (vtype x) end
              then Some (mkS (hp st) (regs st) (upd (vregs st) v x), hit)
              else Some (st, miss)
          | Some None => Some (st, miss)
          end
      end, tread ft tt v r n hit miss with
    | Some (st', x), Some (ft', y) => x = y /\ Rel2 st' ft'
    | None, None => True
    | _, _ => False
    end).
  { intros tt v r n hit miss. unfold tread. q_cases HRel r.
    destruct (q_lookup _ _ HRel r hd t n E Ef) as (x & Hx & Ho & Hl). rewrite Hx.
    destruct x as [x|], (tfind n t) as [f|]; simpl in Ho; try contradiction; auto.
    rewrite <- (vtype_ttype st x f Ho).
    destruct (match tt with None => true | Some t0 => vty_eqb t0 (vtype x) end); auto.
    split; auto. apply q_vreg; auto. intros; eapply Hl; eauto. }
  destruct o; cbn [step tstep].
  - (* OpNew *)
    simpl. split; [reflexivity|].
    eapply q_new_handle with (S := live st) (m1 := []) (mi1 := []); [exact HRel|exact G|apply same_alloc; exact G| | | | | | | |].
    + apply sorted_alloc; [apply (q_sorted _ _ HRel)|exact I].
    + intros; eapply live_reg; eauto.
    + simpl. apply deref_alloc_new.
    + reflexivity.
    + intros k v hd' [[]|[]].
    + constructor.
    + constructor.
    + intros v. split; [intros; eapply live_vreg; eauto|apply (q_vregs _ _ HRel)].
  - q_cases HRel s. split; [reflexivity|]. apply (q_set_reg_live _ _ HRel r (Some (hd, t))). auto.
  - split; [reflexivity|]. apply (q_set_reg_live _ _ HRel r None). exact I.
  - destruct (regs st r) as [a|] eqn:E1.
    2:{ rewrite (q_reg_none _ _ HRel r E1); exact I. }
    destruct (q_reg _ _ HRel r a E1) as (t1 & F1 & R1 & L1). rewrite F1.
    destruct (regs st s) as [b|] eqn:E2.
    2:{ rewrite (q_reg_none _ _ HRel s E2); exact I. }
    destruct (q_reg _ _ HRel s b E2) as (t2 & F2 & R2 & L2). rewrite F2.
    split; [reflexivity|].
    eapply Rel2_step with (S := live st); [exact G|apply (q_sorted _ _ HRel)| |].
    + intros r'. unfold upd. destruct (Nat.eqb r' s); [auto|]. destruct (Nat.eqb r' r); [auto|].
      pose proof (q_regs _ _ HRel r') as H'. destruct (regs st r') eqn:E, (tregs ft r'); auto.
      split; auto. eapply live_reg; eauto.
    + intros v. split; [intros; eapply live_vreg; eauto|apply (q_vregs _ _ HRel)].
  - q_cases HRel r.
    destruct (q_set st ft HRel r hd t u n (vregs st v) (tvregs ft v) (vregs st) (tvregs ft)) as (h1 & hd1 & -> & HR);
      [assumption|assumption|intros Hu; apply Hleg; assumption|apply (q_vregs _ _ HRel)|eauto|apply HV|auto].
  - q_cases HRel r. rewrite <- (vtype_ttype st _ _ (q_vregs _ _ HRel v)).
    destruct (vty_eqb t TyNum || negb (vty_eqb t (vtype (vregs st v)))); [exact I|].
    destruct (q_set st ft HRel r hd t0 u n (vregs st v) (tvregs ft v)
               (upd (vregs st) v (vdefault t)) (upd (tvregs ft) v (tdefault t))) as (h1 & hd1 & Hs & HR);
      [assumption|assumption|intros Hu; apply Hleg; assumption|apply (q_vregs _ _ HRel)|eauto| |].
    + intros w. unfold upd. destruct (Nat.eqb w v).
      * split; [intros hd' Hin; destruct (in_value_default _ _ Hin)|apply vA_default].
      * apply HV.
    + destruct (swap_any_set _ _ _ _ _ _ _ Hs) as [old ->]. auto.
  - (* OpSwapAny *)
    q_cases HRel r.
    destruct (proj1 (hA_unfold _ _ _) Hrep) as (m & mi & Hm & Hmi & R1 & R2).
    set (old := match sfind n m with Some w => w | None => vdefault TyNum end).
    set (told := match sfind n (town t) with Some w => w | None => tdefault TyNum end).
    assert (Hold : vA (hp st) old told).
    { pose proof (mrel_sfind _ _ _ n R1) as F. unfold old, told.
      destruct (sfind n m), (sfind n (town t)); try contradiction; auto. reflexivity. }
    assert (Hold2 : forall hd', in_value hd' old -> nested (hp st) hd hd').
    { intros hd' Hin. unfold old in Hin. destruct (sfind n m) as [w|] eqn:Ew.
      - eapply nested_vals; eauto. apply sfind_In; exact Ew.
      - destruct Hin. }
    destruct (q_set st ft HRel r hd t u n (vregs st v) (tvregs ft v)
               (upd (vregs st) v old) (upd (tvregs ft) v told)) as (h1 & hd1 & Hs & HR);
      [assumption|assumption|intros Hu; apply Hleg; assumption|apply (q_vregs _ _ HRel)|eauto| |].
    + intros w. unfold upd. destruct (Nat.eqb w v); [split; auto|apply HV].
    + assert (Hsw : swap_any (hp st) hd u n (vregs st v) = Some (h1, hd1, old)).
      { revert Hs. unfold set_any, swap_any, cow. destruct u.
        - rewrite Hm. intros E1. injection E1 as <- <-. reflexivity.
        - rewrite Hm. simpl. unfold deref. fold (deref (hp st ++ [m]) (List.length (hp st))).
          rewrite deref_alloc_new. intros E1. injection E1 as <- <-. reflexivity. }
      rewrite Hsw. auto.
  - q_cases HRel s.
    destruct (q_new_scope st ft HRel s hd t E Hrep) as (h1 & hd1 & -> & HR). auto.
  - q_cases HRel r.
    destruct (q_push st ft r hd t HRel E Hrep (Hsafe hd E)) as (h1 & hd1 & -> & HR). auto.
  - q_cases HRel r.
    destruct (q_flatten st ft HRel r hd t E Hrep (Hsafe hd E)) as (h1 & hd1 & -> & _ & HR). auto.
  - apply (Read None v r n (OBool true) (OBool false)).
  - apply (Read None v r n OUnit OKeyError).
  - apply (Read (Some t) v r n OUnit OKeyError).
  - apply (Read (Some t) v r n OUnit OUnit).
  - apply (Read (Some t) v r n (OBool true) (OBool false)).
  - (* OpKeys *)
    q_cases HRel r.
    destruct (proj1 (hA_unfold _ _ _) Hrep) as (m & mi & Hm & Hmi & R1 & R2).
    rewrite Hm. split; [|assumption]. f_equal.
    clear -R1. induction R1 as [|[k a] [k' b] m tm [Hk Hab] R IH]; simpl in *; [reflexivity|].
    rewrite IH, Hk. do 2 f_equal. eapply vshape_tshape; eauto.
  - destruct x as [y|y|y|y]; simpl; auto; (split; [reflexivity|]; apply q_vreg; simpl; auto; contradiction).
  - pose proof (get_regs_rel2 st ft rs HRel) as H.
    destruct (get_regs (regs st) rs), (all_some (map (tregs ft) rs)); auto.
    destruct H as [H1 H2]. split; [reflexivity|]. apply q_vreg; auto.
  - pose proof (q_vregs _ _ HRel v) as H.
    destruct (vregs st v) as [| | |l] eqn:Ev, (tvregs ft v) as [| | |tl]; simpl in H; try contradiction; auto.
    assert (Hn : match nth_error l i, nth_error tl i with
                 | Some a, Some b => hA (hp st) a b /\ In a l
                 | None, None => True | _, _ => False end).
    { clear Ev Hleg Hsafe. revert i. induction H as [|a b l tl Hab H IH]; intros [|i]; simpl; auto.
      specialize (IH i). destruct (nth_error l i), (nth_error tl i); intuition. }
    destruct (nth_error l i) as [a|], (nth_error tl i) as [b|]; try contradiction; auto.
    destruct Hn as [Hn Hin]. split; [reflexivity|].
    apply (q_set_reg_live _ _ HRel r (Some (a, b))). split; [|assumption].
    eapply live_vreg with (v := v). rewrite Ev. exact Hin.
  - split; [|assumption]. f_equal. apply (vshape_tshape st). apply (q_vregs _ _ HRel).
Qed.

Lemma Rel2_init : Rel2 init tinit.
Proof.
  apply Rel2_step with (S := fun _ => False).
  - constructor; intros; contradiction.
  - intros l m D. destruct l; discriminate.
  - simpl. auto.
  - intros v; split; [intros hd []|reflexivity].
Qed.

Lemma run_sim2 os : forall st ft, Rel2 st ft -> safe_run st os -> legal_run st os ->
  run st os = trun ft (map fst os).
Proof.
  induction os as [|[o u] os IH]; intros st ft HRel Hsafe Hleg; simpl; [reflexivity|].
  destruct Hsafe as [Hs1 Hs2]. destruct Hleg as [Hl1 Hl2].
  pose proof (step_sim2 st ft o u HRel Hs1 Hl1) as H.
  destruct (step st o u) as [[st' x]|], (tstep ft o) as [[ft' y]|]; try contradiction; auto.
  destruct H as [-> HR]. rewrite (IH st' ft' HR Hs2 Hl2). reflexivity.
Qed.
