(** Lookup tables, reconfigure, histories of uses. *)
From Coq Require Import List String Bool NArith ZArith Arith Lia Permutation.
From Verif Require Import SMap SMap_Proofs Dbl Config_Spec Machine_Model Machine_Spec Machine_Proofs.
Import ListNotations.

(** ** The key order *)
Lemma key_lt_spec (a b : lkey) :
  key_lt a b = true <-> str_lt (fst a) (fst b) \/ (fst a = fst b /\ (snd a < snd b)%N).
Proof.
  unfold key_lt, str_lt. destruct (String.compare (fst a) (fst b)) eqn:C.
  - apply String.compare_eq_iff in C. rewrite N.ltb_lt. split; [auto|].
    intros [H|[_ H]]; [discriminate|auto].
  - split; auto.
  - split; [discriminate|]. intros [H|[H _]]; [discriminate|].
    rewrite H, str_compare_refl in C. discriminate.
Qed.

Lemma key_lt_trans a b c : key_lt a b = true -> key_lt b c = true -> key_lt a c = true.
Proof.
  rewrite !key_lt_spec. intros [H|[H1 H2]] [K|[K1 K2]].
  - left. eapply str_lt_trans; eauto.
  - left. rewrite <- K1. auto.
  - left. rewrite H1. auto.
  - right. split; [congruence|lia].
Qed.
Lemma key_lt_irrefl a : key_lt a a = false.
Proof.
  destruct (key_lt a a) eqn:E; auto. apply key_lt_spec in E as [E|[_ E]]; [|lia].
  exfalso; eapply str_lt_irrefl; eauto.
Qed.
Lemma key_lt_total a b : key_lt a b = false -> key_lt b a = false -> a = b.
Proof.
  unfold key_lt. destruct a as [a i], b as [b j]. simpl.
  destruct (String.compare a b) eqn:C; try discriminate.
  - apply String.compare_eq_iff in C. subst b. rewrite str_compare_refl.
    intros H1 H2. apply N.ltb_ge in H1, H2. f_equal. lia.
  - intros _. apply str_compare_gt_lt in C. rewrite C. discriminate.
Qed.

Fixpoint lsorted (m : lookup) : Prop :=
  match m with
  | [] => True
  | (k, _) :: m' => (forall k' v', In (k', v') m' -> key_lt k k' = true) /\ lsorted m'
  end.

Lemma in_linsert k v m kv : In kv (linsert k v m) -> kv = (k, v) \/ In kv m.
Proof.
  induction m as [|[k1 v1] m IH]; simpl; [intuition|].
  destruct (key_lt k k1); simpl; [intuition|]. destruct (key_lt k1 k); simpl; intuition.
Qed.

Lemma linsert_sorted k v m : lsorted m -> lsorted (linsert k v m).
Proof.
  induction m as [|[k1 v1] m IH]; simpl.
  - intros _; split; [intros ? ? []|exact I].
  - intros [H1 H2]. destruct (key_lt k k1) eqn:C; simpl.
    + split; [|split; auto]. intros k' v' [E|Hin]; [congruence|].
      eapply key_lt_trans; eauto.
    + destruct (key_lt k1 k) eqn:C2; simpl; [|auto]. split; [|auto].
      intros k' v' Hin. apply in_linsert in Hin as [E|Hin]; [congruence|eauto].
Qed.

Definition named (n : string) (kv : lkey * nat) : bool := String.eqb (fst (fst kv)) n.

(** Iterating from lower_bound(n,0) to upper_bound(n,max) lists the entries
    named [n]. *)
Lemma to_upper_filter n m :
  lsorted m -> (forall kv, In kv m -> (snd (fst kv) <= SIZE_MAX)%N) ->
  (forall kv, In kv m -> key_lt (fst kv) (n, 0%N) = false) ->
  to_upper (n, SIZE_MAX) m = filter (named n) m.
Proof.
  induction m as [|[[a i] v] m IH]; simpl; auto. intros [H1 H2] Hb Hg.
  assert (Hi := Hb _ (or_introl eq_refl)). simpl in Hi.
  assert (Hai := Hg _ (or_introl eq_refl)). simpl in Hai.
  unfold named at 1. simpl. destruct (String.eqb_spec a n) as [->|Hne].
  - replace (key_lt (n, SIZE_MAX) (n, i)) with false.
    2:{ unfold key_lt. simpl fst. rewrite str_compare_refl. simpl snd. symmetry. apply N.ltb_ge. auto. }
    f_equal. apply IH; auto.
  - assert (Hlt : str_lt n a).
    { unfold key_lt in Hai. simpl fst in Hai. simpl snd in Hai.
      destruct (String.compare a n) eqn:C; [|discriminate|].
      - apply String.compare_eq_iff in C. congruence.
      - apply str_compare_gt_lt. auto. }
    replace (key_lt (n, SIZE_MAX) (a, i)) with true.
    2:{ symmetry. apply key_lt_spec. left. auto. }
    symmetry. clear IH. induction m as [|[[b j] w] m IHm]; auto. simpl.
    assert (Hab : key_lt (a, i) (b, j) = true) by (eapply H1; left; reflexivity).
    unfold named at 1. simpl. destruct (String.eqb_spec b n) as [->|].
    + apply key_lt_spec in Hab as [Hab|[Hab _]]; simpl in Hab; [|congruence].
      exfalso. eapply str_lt_irrefl. eapply str_lt_trans; eauto.
    + apply IHm.
      * intros. eapply H1. right; eauto.
      * simpl in H2. tauto.
      * intros kv Hin. apply Hb. destruct Hin as [<-|Hin]; [left; auto|right; right; auto].
      * intros kv Hin. apply Hg. destruct Hin as [<-|Hin]; [left; auto|right; right; auto].
Qed.

Lemma range_filter n m :
  lsorted m -> (forall kv, In kv m -> (snd (fst kv) <= SIZE_MAX)%N) ->
  to_upper (n, SIZE_MAX) (from_lower (n, 0%N) m) = filter (named n) m.
Proof.
  induction m as [|[[a i] v] m IH]; [reflexivity|]. intros Hs Hb. cbn [from_lower].
  destruct (key_lt (a, i) (n, 0%N)) eqn:C.
  - rewrite IH; [|simpl in Hs; tauto|intros; apply Hb; right; auto].
    simpl. unfold named at 2. simpl.
    apply key_lt_spec in C as [C|[_ C]]; simpl in C; [|lia].
    destruct (String.eqb_spec a n) as [->|]; auto. exfalso; eapply str_lt_irrefl; eauto.
  - apply to_upper_filter; auto. intros kv [<-|Hin]; auto.
    destruct kv as [k' v']. simpl. destruct Hs as [H1 _]. specialize (H1 _ _ Hin).
    destruct (key_lt k' (n, 0%N)) eqn:C'; auto.
    rewrite (key_lt_trans _ _ _ H1 C') in C. discriminate.
Qed.

(** Inserting an entry with the largest index so far. *)
Lemma linsert_filter n a i v m :
  lsorted m -> (forall kv, In kv m -> (snd (fst kv) < i)%N) ->
  filter (named n) (linsert (a, i) v m)
  = filter (named n) m ++ if String.eqb a n then [((a, i), v)] else [].
Proof.
  intros Hs Hi. assert (E : forall l, filter (named n) (((a, i), v) :: l)
    = (if String.eqb a n then [((a, i), v)] else []) ++ filter (named n) l).
  { intros l. simpl. unfold named at 1. simpl. destruct (String.eqb a n); reflexivity. }
  induction m as [|[[b j] w] m IH]; cbn [linsert].
  - rewrite E. simpl. rewrite app_nil_r. reflexivity.
  - assert (Hj := Hi _ (or_introl eq_refl)). simpl in Hj.
    destruct (key_lt (a, i) (b, j)) eqn:C.
    + rewrite E. destruct (String.eqb_spec a n) as [->|]; [|rewrite app_nil_r; reflexivity].
      enough (Z : filter (named n) (((b, j), w) :: m) = []) by (unfold lookup, lkey in *; rewrite Z; reflexivity).
      apply key_lt_spec in C as [C|[_ C]]; simpl in C; [|lia].
      assert (G : forall kv, In kv (((b, j), w) :: m) -> named n kv = false).
      { intros [[b' j'] w'] Hin. unfold named; simpl. destruct (String.eqb_spec b' n) as [->|]; auto.
        exfalso. destruct Hin as [Hin|Hin].
        - injection Hin as -> _ _. eapply str_lt_irrefl; eauto.
        - destruct Hs as [Hs _]. apply Hs in Hin. apply key_lt_spec in Hin as [Hin|[Hin _]]; simpl in Hin.
          + eapply str_lt_irrefl, str_lt_trans; eauto.
          + subst b. eapply str_lt_irrefl; eauto. }
      revert G. generalize (((b, j), w) :: m) as l. induction l as [|x l IHl]; intros G; auto.
      simpl. rewrite (G x) by (left; auto). apply IHl. intros; apply G; right; auto.
    + destruct (key_lt (b, j) (a, i)) eqn:C2.
      * cbn [filter]. rewrite IH; [|simpl in Hs; tauto|intros; apply Hi; right; auto].
        unfold lookup, lkey in *. destruct (named n (b, j, w)); reflexivity.
      * exfalso. pose proof (key_lt_total _ _ C C2) as Q. injection Q as _ Q. lia.
Qed.

Lemma linsert_perm a i v m :
  (forall kv, In kv m -> (snd (fst kv) < i)%N) ->
  Permutation (map snd (linsert (a, i) v m)) (v :: map snd m).
Proof.
  induction m as [|[[b j] w] m IH]; intros Hi; cbn [linsert]; auto.
  assert (Hj := Hi _ (or_introl eq_refl)). simpl in Hj.
  destruct (key_lt (a, i) (b, j)) eqn:C; auto.
  destruct (key_lt (b, j) (a, i)) eqn:C2.
  - simpl. etransitivity; [apply perm_skip, IH; intros; apply Hi; right; auto|]. apply perm_swap.
  - exfalso. pose proof (key_lt_total _ _ C C2) as Q. injection Q as _ Q. lia.
Qed.

(** ** The table of a list of labels *)
Lemma lk_ok l :
  lsorted (lk l) /\ (forall kv, In kv (lk l) -> (snd (fst kv) < N.of_nat (List.length l))%N).
Proof.
  induction l as [|a l IH] using rev_ind; [split; [exact I|intros ? []]|].
  rewrite lk_snoc. destruct IH as [IH1 IH2]. split; [apply linsert_sorted; auto|].
  intros kv Hin. rewrite app_length. simpl. apply in_linsert in Hin as [->|Hin]; simpl; [lia|].
  specialize (IH2 _ Hin). lia.
Qed.

Definition label_slots (n : string) (l : list string) : list nat :=
  filter (fun i => match nth_error l i with Some a => String.eqb a n | None => false end)
         (seq 0 (List.length l)).

Lemma label_slots_snoc n l a :
  label_slots n (l ++ [a]) = label_slots n l ++ if String.eqb a n then [List.length l] else [].
Proof.
  unfold label_slots. rewrite app_length. simpl. rewrite Nat.add_1_r, seq_S, filter_app. simpl.
  rewrite nth_error_app2, Nat.sub_diag by lia. simpl. f_equal.
  apply filter_ext_in. intros i Hi. apply in_seq in Hi. rewrite nth_error_app1 by lia. reflexivity.
Qed.

Lemma lk_filter n l : map snd (filter (named n) (lk l)) = label_slots n l.
Proof.
  induction l as [|a l IH] using rev_ind; [reflexivity|].
  rewrite lk_snoc, label_slots_snoc.
  rewrite linsert_filter by apply lk_ok. rewrite map_app, IH. destruct (String.eqb a n); reflexivity.
Qed.

Lemma lk_range n l :
  (N.of_nat (List.length l) <= SIZE_MAX)%N ->
  map snd (to_upper (n, SIZE_MAX) (from_lower (n, 0%N) (lk l))) = label_slots n l.
Proof.
  intros H. destruct (lk_ok l) as [H1 H2]. rewrite range_filter; [apply lk_filter|auto|].
  intros kv Hin. specialize (H2 _ Hin). lia.
Qed.

Lemma lk_perm l : Permutation (map snd (lk l)) (seq 0 (List.length l)).
Proof.
  induction l as [|a l IH] using rev_ind; [constructor|].
  rewrite lk_snoc. rewrite linsert_perm by apply lk_ok.
  rewrite app_length. simpl. rewrite Nat.add_1_r, seq_S. simpl.
  etransitivity; [apply perm_skip, IH|]. apply Permutation_cons_append.
Qed.

Lemma find_loop_nth l : forall n, find_loop l n = nth_error l (N.to_nat n).
Proof.
  induction l as [|v l IH]; intros n; simpl.
  - destruct (N.to_nat n); reflexivity.
  - destruct (N.eqb_spec n 0) as [->|H]; [reflexivity|].
    rewrite IH. destruct (N.to_nat n) eqn:E; [lia|]. simpl.
    f_equal. lia.
Qed.

Section P.
Context {D B : Type}.
Implicit Types (els : list (elem D B)) (st : pstate B).

Lemma slots_label (f : elem D B -> string) n els :
  slots_where (fun e => String.eqb (f e) n) els = label_slots n (map f els).
Proof.
  unfold slots_where, label_slots. rewrite map_length. apply filter_ext. intros i.
  rewrite nth_error_map. destruct (nth_error els i); reflexivity.
Qed.

(** ** Invariant of a machine in use *)
Definition indexed els : Prop :=
  map el_index els = map N.of_nat (seq 0 (List.length els)).

Lemma map_update {A C} (f : A -> C) l i a x :
  nth_error l i = Some x -> f a = f x -> map f (update l i a) = map f l.
Proof.
  revert i; induction l as [|y l IH]; destruct i; simpl; try discriminate.
  - intros [= ->] E. rewrite E. reflexivity.
  - intros H E. f_equal. eauto.
Qed.

(** Everything but the private data. *)
Definition static (e : elem D B) := (el_class e, el_base e, el_obs e).

Lemma loop_static k : forall els st evs,
  map static (pr_elems (prop_loop k els st evs)) = map static els.
Proof.
  induction k as [|k IH]; intros; simpl; auto.
  rewrite ?slot_nth; destruct (nth_error _ _) as [e|] eqn:E; simpl; auto.
  destruct (cl_advance _ _ _ _) as [d [st2|x]]; simpl; rewrite ?IH; eapply map_update; eauto.
Qed.

Lemma propagate_static (m : machine D B) st s k p :
  propagate m st s k = Some p -> map static (pr_elems p) = map static (m_elems m).
Proof.
  unfold propagate. destruct (_ =? _)%Z.
  - destruct (_ <? _)%N; [discriminate|]. intros [= <-]. reflexivity.
  - intros [= <-]. apply loop_static.
Qed.

Lemma static_map {C} (f : elem D B -> C) (g : _ -> C) els els' :
  (forall e, f e = g (static e)) -> map static els = map static els' -> map f els = map f els'.
Proof.
  intros H E. rewrite (map_ext _ _ H), (map_ext _ _ H).
  rewrite <- (map_map static g els), <- (map_map static g els'), E. reflexivity.
Qed.

Lemma rebuild_ok k (o : elem D B) c idx e :
  rebuild k o c idx = Ok e <->
  exists nm d, tfind "name" c = Some (TStr nm) /\ cl_ctor k c = Ok d /\
    cl_id k = cl_id (el_class o) /\
    e = mkEl (el_class o)
             (mkEB nm idx (match tfind "L" c with Some (TNum x) => x | _ => dzero end) c)
             (el_obs o) (cl_assign k (el_data o) d).
Proof.
  unfold rebuild. split.
  - destruct (build k c) as [n|] eqn:Bd; simpl; [|discriminate].
    destruct (Nat.eqb_spec (cl_id k) (cl_id (el_class o))); [|discriminate]. intros [= <-].
    apply build_ok in Bd as (nm & d & H1 & H2 & ->). exists nm, d. auto.
  - intros (nm & d & H1 & H2 & H3 & ->).
    rewrite (proj2 (build_ok k c _)) by (exists nm, d; split; [exact H1|split; [exact H2|reflexivity]]).
    simpl. rewrite H3, Nat.eqb_refl. reflexivity.
Qed.

Lemma reconfigure_throw (m m' : machine D B) idx c x :
  reconfigure m idx c = (m', Throw x) -> m' = m.
Proof.
  unfold reconfigure; rewrite slot_nth. rewrite ?slot_nth; destruct (nth_error _ _); [|congruence].
  destruct (get_str c "type"); [|congruence]. destruct (sfind _ _); [|congruence].
  destruct (rebuild _ _ _ _); congruence.
Qed.

Lemma reconfigure_ok (m m' : machine D B) idx c u :
  reconfigure m idx c = (m', Ok u) ->
  exists o t k nm d,
    nth_error (m_elems m) (N.to_nat idx) = Some o /\
    tfind "type" c = Some (TStr t) /\ sfind t (si_elems (m_info m)) = Some k /\
    tfind "name" c = Some (TStr nm) /\ cl_ctor k c = Ok d /\ cl_id k = cl_id (el_class o) /\
    m' = with_elems m (update (m_elems m) (N.to_nat idx)
           (mkEl (el_class o)
             (mkEB nm idx (match tfind "L" c with Some (TNum x) => x | _ => dzero end) c)
             (el_obs o) (cl_assign k (el_data o) d))).
Proof.
  unfold reconfigure; rewrite slot_nth. rewrite ?slot_nth; destruct (nth_error _ _) as [o|] eqn:E; [|discriminate].
  unfold get_str. destruct (tfind "type" c) as [[| |t|]|] eqn:T; try discriminate.
  destruct (sfind t _) as [k|] eqn:K; [|discriminate].
  destruct (rebuild k o c idx) as [e|] eqn:R; [|discriminate]. intros [= <- _].
  apply rebuild_ok in R as (nm & d & H1 & H2 & H3 & ->).
  exists o, t, k, nm, d. repeat (split; [auto; fail|]). reflexivity.
Qed.

Lemma nth_map_nat l j x : nth_error (map N.of_nat (seq 0 l)) j = Some x -> x = N.of_nat j.
Proof.
  rewrite nth_error_map. destruct (nth_error (seq 0 l) j) as [y|] eqn:E; [|discriminate].
  simpl. intros [= <-]. assert (H : j < List.length (seq 0 l)) by (apply nth_error_Some; congruence).
  rewrite seq_length in H. apply (nth_error_nth _ _ 0) in E. rewrite seq_nth in E by auto.
  simpl in E. congruence.
Qed.

Lemma indexed_nth els j e : indexed els -> nth_error els j = Some e -> el_index e = N.of_nat j.
Proof.
  unfold indexed. intros H E. apply (map_nth_error el_index) in E. rewrite H in E.
  apply nth_map_nat in E. auto.
Qed.

(** What any single use keeps. *)
Lemma use1_keeps (m : machine D B) u :
  m_lookup (use1 m u) = m_lookup m /\ m_types (use1 m u) = m_types m /\
  m_info (use1 m u) = m_info m /\
  map el_class (m_elems (use1 m u)) = map el_class (m_elems m) /\
  (indexed (m_elems m) -> indexed (m_elems (use1 m u))) /\
  (keeps_name m u -> map el_name (m_elems (use1 m u)) = map el_name (m_elems m)).
Proof.
  destruct u as [idx c|st s k|i o]; cbn [use1].
  - destruct (reconfigure m idx c) as [m' [u|x]] eqn:R; simpl fst.
    2:{ apply reconfigure_throw in R. subst m'. repeat (split; [auto|]). auto. }
    apply reconfigure_ok in R as (ob & t & k & nm & d & H1 & H2 & H3 & H4 & H5 & H6 & ->).
    simpl. repeat (split; [reflexivity|]). split; [eapply map_update; eauto|]. split.
    + intros Hi. unfold indexed. rewrite update_length.
      erewrite map_update; eauto. rewrite (indexed_nth _ _ _ Hi H1). unfold el_index. simpl. lia.
    + intros Hk. specialize (Hk _ H1). rewrite H4 in Hk. injection Hk as ->.
      erewrite map_update; eauto.
  - destruct (propagate m st s k) as [p|] eqn:P; [|repeat (split; [auto|]); auto].
    pose proof (propagate_static _ _ _ _ _ P) as S. simpl.
    repeat (split; [reflexivity|]).
    split; [apply (static_map _ (fun x => fst (fst x))); auto|]. split.
    + unfold indexed. intros Hi. erewrite static_map with (els' := m_elems m)
        (g := fun x => eb_index (snd (fst x))); auto.
      rewrite Hi. f_equal. f_equal. apply (f_equal (@List.length _)) in S. rewrite !map_length in S. auto.
    + intros _. apply (static_map _ (fun x => eb_name (snd (fst x)))); auto.
  - unfold set_observer. simpl. repeat (split; [reflexivity|]).
    destruct (nth_error (m_elems m) i) as [e|] eqn:E; [|repeat (split; [auto|]); auto].
    split; [eapply map_update; eauto|]. split.
    + unfold indexed. rewrite update_length. intros Hi. erewrite map_update; eauto.
    + intros _. erewrite map_update; eauto.
Qed.

Lemma uses_keeps us : forall (m : machine D B),
  m_lookup (uses m us) = m_lookup m /\ m_types (uses m us) = m_types m /\
  m_info (uses m us) = m_info m /\
  map el_class (m_elems (uses m us)) = map el_class (m_elems m) /\
  (indexed (m_elems m) -> indexed (m_elems (uses m us))) /\
  (keep_names m us -> map el_name (m_elems (uses m us)) = map el_name (m_elems m)).
Proof.
  induction us as [|u us IH]; intros m.
  - simpl. repeat (split; [auto|]). auto.
  - change (uses m (u :: us)) with (uses (use1 m u) us).
    destruct (IH (use1 m u)) as (-> & -> & -> & -> & H5 & H6).
    destruct (use1_keeps m u) as (K1 & K2 & K3 & K4 & K5 & K6).
    repeat (split; [auto; fail|]). simpl. intros [N1 N2]. rewrite H6; auto.
Qed.

Lemma uses_length us (m : machine D B) : List.length (m_elems (uses m us)) = List.length (m_elems m).
Proof.
  destruct (uses_keeps us m) as (_ & _ & _ & H & _). apply (f_equal (@List.length _)) in H.
  rewrite !map_length in H. auto.
Qed.

Lemma new_machine_indexed (r : registry D B) c m : new_machine r c = Ok m -> indexed (m_elems m).
Proof.
  intros H. apply new_machine_ok in H as (t & i & es & _ & _ & _ & _ & _ & _ & Hl & _ & _ & Hd).
  unfold indexed. apply list_ext. intros j. rewrite nth_error_map.
  destruct (nth_error (m_elems m) j) as [e|] eqn:E.
  - assert (j < List.length (m_elems m)) by (apply nth_error_Some; congruence).
    destruct (nth_error es j) as [ec|] eqn:Ec.
    2:{ apply nth_error_None in Ec. lia. }
    destruct (Hd _ _ _ Ec E) as (k & nm & d & _ & _ & _ & _ & ->). simpl.
    rewrite nth_error_map, (nth_error_nth' _ 0) by (rewrite seq_length; auto).
    rewrite seq_nth by auto. reflexivity.
  - apply nth_error_None in E. symmetry. apply nth_error_None. rewrite map_length, seq_length. auto.
Qed.

(** C20, names. *)
Lemma lookups_names (r : registry D B) c m us :
  new_machine r c = Ok m -> (N.of_nat (List.length (m_elems m)) <= SIZE_MAX)%N -> keep_names m us ->
  forall n, equal_range (uses m us) n = slots_named n (m_elems (uses m us)).
Proof.
  intros H HL HK n. apply new_machine_ok in H as (t & i & es & _ & _ & _ & _ & _ & _ & _ & Hn & Ht & _).
  destruct (uses_keeps us m) as (K1 & K2 & _ & K4 & _ & K6).
  unfold equal_range, slots_named. rewrite K1, Hn. unfold lk_names.
  rewrite lk_range by (rewrite map_length; auto). rewrite <- (K6 HK). symmetry. apply slots_label.
Qed.

Lemma lookups_types (r : registry D B) c m us :
  new_machine r c = Ok m -> (N.of_nat (List.length (m_elems m)) <= SIZE_MAX)%N ->
  forall n, equal_range_type (uses m us) n = slots_typed n (m_elems (uses m us)).
Proof.
  intros H HL n. apply new_machine_ok in H as (t & i & es & _ & _ & _ & _ & _ & _ & _ & Hn & Ht & _).
  destruct (uses_keeps us m) as (K1 & K2 & _ & K4 & _ & K6).
  unfold equal_range_type, slots_typed. rewrite K2, Ht. unfold lk_types.
  rewrite lk_range by (rewrite map_length; auto).
  replace (map el_tname (m_elems m)) with (map el_tname (m_elems (uses m us))).
  { symmetry. apply slots_label. }
  change (map el_tname (m_elems (uses m us))) with (map (fun e => cl_tname (el_class e)) (m_elems (uses m us))).
  rewrite <- map_map, K4, map_map. reflexivity.
Qed.

Lemma find_is_nth (m : machine D B) n k : find m n k = nth_error (equal_range m n) (N.to_nat k).
Proof. apply find_loop_nth. Qed.

Lemma all_range_perm (r : registry D B) c m us :
  new_machine r c = Ok m ->
  Permutation (all_range (uses m us)) (seq 0 (List.length (m_elems (uses m us)))).
Proof.
  intros H. apply new_machine_ok in H as (t & i & es & _ & _ & _ & _ & _ & _ & _ & Hn & _).
  destruct (uses_keeps us m) as (K1 & _).
  unfold all_range. rewrite K1, Hn, uses_length. unfold lk_names.
  rewrite <- (map_length el_name (m_elems m)). apply lk_perm.
Qed.

(** ** C24 *)
Definition tgood (k : class D B) (good : tcfg -> D -> Prop) : Prop :=
    (forall c d, cl_ctor k c = Ok d -> good c d) /\
    (forall c c' d s, good c' d -> good c s -> good c (cl_assign k d s)) /\
    (forall b d st, good (eb_conf b) d -> good (eb_conf b) (fst (cl_advance k b d st))) /\
    (forall b d1 d2 st, good (eb_conf b) d1 -> good (eb_conf b) d2 ->
                        snd (cl_advance k b d1 st) = snd (cl_advance k b d2 st)).

Definition suits (i : sinfo D B) (j : nat) (ec : tcfg) (e : elem D B) : Prop :=
  exists nm d,
    tfind "type" ec = Some (TStr (cl_tname (el_class e))) /\
    sfind (cl_tname (el_class e)) (si_elems i) = Some (el_class e) /\
    tfind "name" ec = Some (TStr nm) /\
    cl_ctor (el_class e) ec = Ok d /\
    el_base e = mkEB nm (N.of_nat j) (match tfind "L" ec with Some (TNum x) => x | _ => dzero end) ec /\
    forall good, tgood (el_class e) good -> good ec (el_data e).

Lemma describes_suits (i : sinfo D B) j ec e : describes i j ec e -> suits i j ec e.
Proof.
  intros (k & nm & d & H1 & H2 & H3 & H4 & ->). exists nm, d. simpl.
  repeat (split; [auto; fail|]). intros good (G & _). auto.
Qed.

Definition suit_all (i : sinfo D B) es els : Prop :=
  List.length els = List.length es /\
  forall j ec e, nth_error es j = Some ec -> nth_error els j = Some e -> suits i j ec e.

Lemma suits_data (i : sinfo D B) j ec e d :
  suits i j ec e -> (forall good, tgood (el_class e) good -> good ec d) -> suits i j ec (with_data e d).
Proof.
  intros (nm & d0 & H1 & H2 & H3 & H4 & H5 & H6) H. exists nm, d0. simpl. repeat (split; [auto; fail|]). auto.
Qed.

Lemma loop_suits (i : sinfo D B) es k : forall els st evs,
  suit_all i es els -> suit_all i es (pr_elems (prop_loop k els st evs)).
Proof.
  induction k as [|k IH]; intros els st evs H; simpl; auto.
  rewrite slot_nth. destruct (nth_error els (N.to_nat (st_next st))) as [e|] eqn:E; simpl; auto.
  match goal with |- context [cl_advance ?a ?b ?c ?d] => pose proof (eq_refl (fst (cl_advance a b c d))) as A;
    destruct (cl_advance a b c d) as [d1 r1] eqn:A1 end. clear A.
  cut (suit_all i es (update els (N.to_nat (st_next st)) (with_data e d1))).
  { destruct r1; simpl; auto. }
  destruct H as [HL H]. split; [rewrite update_length; auto|].
  intros j ec e' Hj He'. destruct (Nat.eq_dec (N.to_nat (st_next st)) j) as [Hij|Hij].
  - subst j. erewrite nth_update_eq in He' by eauto. injection He' as <-.
    specialize (H _ _ _ Hj E). apply suits_data; auto. intros good G.
    destruct H as (nm & d0 & H1 & H2 & H3 & H4 & H5 & H6). pose proof (H6 _ G) as H7.
    destruct G as (_ & _ & G & _). replace ec with (eb_conf (el_base e)) by (rewrite H5; reflexivity).
    change d1 with (fst (d1, r1)). rewrite <- A1. apply G. rewrite H5. exact H7.
  - rewrite nth_update_neq in He' by auto. eauto.
Qed.

Lemma use1_suits (m : machine D B) es u :
  tidy (m_info m) ->
  suit_all (m_info m) es (m_elems m) ->
  suit_all (m_info m)
    (match u with
     | UReconf idx c =>
         match snd (reconfigure m idx c) with Ok _ => update es (N.to_nat idx) c | _ => es end
     | _ => es
     end) (m_elems (use1 m u)).
Proof.
  intros HT H. destruct u as [idx c|st s k|i o]; cbn [use1].
  - destruct (reconfigure m idx c) as [m' [u|x]] eqn:R; simpl.
    2:{ apply reconfigure_throw in R. subst; auto. }
    apply reconfigure_ok in R as (ob & t & k & nm & d & H1 & H2 & H3 & H4 & H5 & H6 & ->).
    destruct H as [HL H]. simpl. split; [rewrite !update_length; auto|].
    intros j ec e Hj He. destruct (Nat.eq_dec (N.to_nat idx) j) as [Hij|Hij].
    + subst j. erewrite nth_update_eq in He by eauto. injection He as <-.
      destruct (nth_error es (N.to_nat idx)) as [ec0|] eqn:Ec.
      2:{ apply nth_error_None in Ec. assert (N.to_nat idx < List.length (m_elems m)) by (apply nth_error_Some; congruence). lia. }
      erewrite nth_update_eq in Hj by eauto. injection Hj as <-.
      destruct (H _ _ _ Ec H1) as (nm0 & d0 & K1 & K2 & K3 & K4 & K5 & K6).
      destruct (HT _ _ H3) as [T1 T2].
      assert (k = el_class ob) as -> by (eapply T2; eauto).
      rewrite <- T1 in H2, H3.
      exists nm, d. simpl. rewrite N2Nat.id. repeat (split; [auto; fail|]).
      intros good G. pose proof (K6 _ G) as G0. destruct G as (G1 & G2 & _). eapply G2; eauto.
    + rewrite nth_update_neq in Hj by auto. rewrite nth_update_neq in He by auto. eauto.
  - destruct (propagate m st s k) as [p|] eqn:P; auto. simpl.
    unfold propagate in P. destruct (_ =? _)%Z.
    + destruct (_ <? _)%N; [discriminate|]. injection P as <-. auto.
    + injection P as <-. apply loop_suits. auto.
  - simpl. unfold set_observer. destruct (nth_error (m_elems m) i) as [e|] eqn:E; auto.
    destruct H as [HL H]. split; [rewrite update_length; auto|].
    intros j ec e' Hj He'. destruct (Nat.eq_dec i j) as [Hij|Hij].
    + subst j. erewrite nth_update_eq in He' by eauto. injection He' as <-. exact (H _ _ _ Hj E).
    + rewrite nth_update_neq in He' by auto. eauto.
Qed.

Lemma uses_suits us : forall (m : machine D B) es,
  tidy (m_info m) ->
  suit_all (m_info m) es (m_elems m) ->
  suit_all (m_info m) (entries m es us) (m_elems (uses m us)).
Proof.
  induction us as [|u us IH]; intros m es HT H; [exact H|].
  change (uses m (u :: us)) with (uses (use1 m u) us). cbn [entries].
  destruct (use1_keeps m u) as (_ & _ & K & _). rewrite <- K.
  apply IH; rewrite K; auto. apply use1_suits; auto.
Qed.

Lemma loop_outcome (i : sinfo D B) es k :
  forall els1 els2 st e1 e2,
  (forall c, In c (map el_class els1) -> transparent c) ->
  suit_all i es els1 -> suit_all i es els2 ->
  pr_end (prop_loop k els1 st e1) = pr_end (prop_loop k els2 st e2).
Proof.
  induction k as [|k IH]; intros els1 els2 st e1 e2 HTr H1 H2; simpl; auto.
  destruct H1 as [L1 H1], H2 as [L2 H2]. rewrite !slot_nth. set (n := N.to_nat (st_next st)).
  destruct (nth_error els1 n) as [a|] eqn:E1; destruct (nth_error els2 n) as [b|] eqn:E2; simpl; auto.
  2:{ apply nth_error_None in E2. assert (n < List.length els1) by (apply nth_error_Some; congruence). lia. }
  2:{ apply nth_error_None in E1. assert (n < List.length els2) by (apply nth_error_Some; congruence). lia. }
  destruct (nth_error es n) as [ec|] eqn:Ec.
  2:{ apply nth_error_None in Ec. assert (n < List.length els1) by (apply nth_error_Some; congruence). lia. }
  pose proof (H1 _ _ _ Ec E1) as S1. pose proof (H2 _ _ _ Ec E2) as S2.
  destruct S1 as (nm1 & d1 & P1 & P2 & P3 & P4 & P5 & P6).
  destruct S2 as (nm2 & d2 & Q1 & Q2 & Q3 & Q4 & Q5 & Q6).
  assert (HC : el_class a = el_class b).
  { rewrite P1 in Q1. injection Q1 as Q1. rewrite Q1 in P2. rewrite P2 in Q2. congruence. }
  rewrite P3 in Q3. injection Q3 as <-.
  rewrite P5, Q5, HC.
  destruct (HTr (el_class a)) as [good G].
  { apply in_map. eapply nth_error_In; eauto. } fold (tgood (el_class a) good) in G.
  assert (GG := G). destruct GG as (_ & _ & G3 & G4). rewrite HC in *.
  set (bs := mkEB _ _ _ _). set (st1 := mkSt _ _ _).
  pose proof (G4 bs (el_data a) (el_data b) st1 (P6 _ G) (Q6 _ G)) as O.
  destruct (cl_advance (el_class b) bs (el_data a) st1) as [da [sa|xa]] eqn:A1;
    destruct (cl_advance (el_class b) bs (el_data b) st1) as [db [sb|xb]] eqn:A2; simpl in O; try discriminate.
  2:{ simpl. congruence. }
  injection O as ->. apply IH.
  - erewrite map_update; eauto.
  - split; [rewrite update_length; auto|]. intros j ec' e' Hj He'.
    destruct (Nat.eq_dec n j) as [Hij|Hij].
    + subst j. erewrite nth_update_eq in He' by eauto. injection He' as <-.
      rewrite Ec in Hj. injection Hj as <-. apply suits_data; [exact (H1 _ _ _ Ec E1)|].
      intros g Gg. rewrite HC in Gg. pose proof (P6 _ Gg). destruct Gg as (_ & _ & Gg & _).
      specialize (Gg bs _ st1 H). rewrite A1 in Gg. exact Gg.
    + rewrite nth_update_neq in He' by auto. eauto.
  - split; [rewrite update_length; auto|]. intros j ec' e' Hj He'.
    destruct (Nat.eq_dec n j) as [Hij|Hij].
    + subst j. erewrite nth_update_eq in He' by eauto. injection He' as <-.
      rewrite Ec in Hj. injection Hj as <-. apply suits_data; [exact (H2 _ _ _ Ec E2)|].
      intros g Gg. pose proof (Q6 _ Gg). destruct Gg as (_ & _ & Gg & _).
      specialize (Gg bs _ st1 H). rewrite A2 in Gg. exact Gg.
    + rewrite nth_update_neq in He' by auto. eauto.
Qed.

Lemma reconfigured_like_new (r : registry D B) c m t i es us c' :
  tfind "sim_type" c = Some (TStr t) -> sfind t r = Some i -> tfind "elements" c = Some (TCfgs es) ->
  tidy i -> new_machine r c = Ok m ->
  (forall e, In e (m_elems m) -> transparent (el_class e)) ->
  tfind "sim_type" c' = Some (TStr t) -> tfind "elements" c' = Some (TCfgs (entries m es us)) ->
  exists m2, new_machine r c' = Ok m2 /\
    forall st start max,
      option_map pr_end (propagate (uses m us) st start max)
      = option_map pr_end (propagate m2 st start max).
Proof.
  intros Hs Hi He HT Hm HTr Hs' He'.
  assert (SA : suit_all i (entries m es us) (m_elems (uses m us)) /\ m_info m = i).
  { apply new_machine_ok in Hm as (t0 & i0 & es0 & H1 & H2 & H3 & H4 & H5 & H6 & H7 & H8 & H9 & H10).
    assert (t0 = t) as -> by congruence. assert (i0 = i) as -> by congruence.
    assert (es0 = es) as -> by congruence. split; auto. rewrite <- H6 in *.
    apply uses_suits; auto. split; auto. intros j ec e Hj Hej. apply describes_suits; eauto. }
  destruct SA as [[SL SA] HI].
  assert (X : exists m2, new_machine r c' = Ok m2).
  { apply new_machine_iff. exists t, i, (entries m es us). repeat (split; [auto; fail|]).
    intros ec Hin. apply In_nth_error in Hin as [j Hj].
    destruct (nth_error (m_elems (uses m us)) j) as [e|] eqn:E.
    - destruct (SA _ _ _ Hj E) as (nm & d & P1 & P2 & P3 & P4 & _).
      exists (cl_tname (el_class e)), (el_class e), nm, d. auto.
    - apply nth_error_None in E.
      assert (j < List.length (entries m es us)) by (apply nth_error_Some; congruence). lia. }
  destruct X as [m2 Hm2]. exists m2. split; auto. intros st start max.
  apply new_machine_ok in Hm2 as (t0 & i0 & es0 & H1 & H2 & H3 & H4 & H5 & H6 & H7 & H8 & H9 & H10).
  assert (t0 = t) as -> by congruence. assert (i0 = i) as -> by congruence.
  assert (es0 = entries m es us) as -> by congruence.
  assert (S2 : suit_all i (entries m es us) (m_elems m2)).
  { split; auto. intros j ec e Hj Hej. apply describes_suits; eauto. }
  unfold propagate. destruct S2 as [L2 S2].
  rewrite SL, L2. destruct (max =? INT_MIN)%Z.
  - destruct (_ <? _)%N; reflexivity.
  - simpl. f_equal. apply (loop_outcome i (entries m es us)); [|split; auto|split; auto].
    destruct (uses_keeps us m) as (_ & _ & _ & -> & _). intros k Hk.
    apply in_map_iff in Hk as (e & <- & He2). auto.
Qed.

(** ** Python observers *)
Lemma py_unobserve_none els e : In e (py_unobserve els) -> el_obs e = None.
Proof. unfold py_unobserve. intros H. apply in_map_iff in H as (x & <- & _). reflexivity. Qed.

Lemma set_observer_length els i o : List.length (set_observer els i o) = List.length els.
Proof. unfold set_observer. destruct (nth_error els i); auto using update_length. Qed.

Lemma py_observe_ok l o : forall els,
  (forall z, In z l -> (0 <= z < Z.of_nat (List.length els))%Z) ->
  exists els', py_observe els l o = (els', Ok tt) /\ List.length els' = List.length els /\
    forall i e, nth_error els i = Some e ->
      nth_error els' i = Some (if watched l i then with_obs e (Some o) else e).
Proof.
  induction l as [|z l IH]; intros els H; simpl.
  - exists els. auto.
  - assert (Hz := H z (or_introl eq_refl)).
    replace (z <? 0)%Z with false by (symmetry; apply Z.ltb_ge; lia).
    replace (Z.of_nat (List.length els) <=? z)%Z with false by (symmetry; apply Z.leb_gt; lia). simpl.
    destruct (IH (set_observer els (Z.to_nat z) (Some o))) as (els' & E1 & E2 & E3).
    { intros w Hw. rewrite set_observer_length. apply H. right; auto. }
    exists els'. split; auto. split; [rewrite E2; apply set_observer_length|].
    intros i e Hi. unfold set_observer in E3. unfold watched. simpl. fold (watched l i).
    destruct (Z.eqb_spec (Z.of_nat i) z) as [Hiz|Hiz]; simpl.
    + subst z. rewrite Nat2Z.id, Hi in E3.
      rewrite (E3 i (with_obs e (Some o))) by (eapply nth_update_eq; eauto).
      destruct (watched l i); reflexivity.
    + destruct (nth_error els (Z.to_nat z)) as [x|] eqn:Ex; apply E3.
      * rewrite nth_update_neq; auto. intros <-. lia.
      * auto.
Qed.

Lemma py_observe_bad l o : forall els z,
  In z l -> ~ (0 <= z < Z.of_nat (List.length els))%Z ->
  exists els', py_observe els l o = (els', Throw RuntimeError).
Proof.
  induction l as [|w l IH]; intros els z H Hz; simpl; [destruct H|].
  destruct (Z.ltb_spec w 0); simpl; eauto.
  destruct (Z.leb_spec (Z.of_nat (List.length els)) w); simpl; eauto.
  destruct H as [->|H]; [lia|]. apply (IH _ z); auto. rewrite set_observer_length. auto.
Qed.

Lemma py_observe_static l o : forall els els' r,
  py_observe els l o = (els', r) ->
  map (fun e => (el_class e, el_base e, el_data e)) els'
  = map (fun e => (el_class e, el_base e, el_data e)) els.
Proof.
  induction l as [|w l IH]; intros els els' r; simpl.
  - intros [= <- _]. reflexivity.
  - destruct (_ || _)%bool; [intros [= <- _]; reflexivity|].
    intros H. apply IH in H. rewrite H. unfold set_observer.
    destruct (nth_error els (Z.to_nat w)) eqn:E; auto.
    eapply map_update; eauto.
Qed.

Lemma unobserve_idem els :
  (forall e, In e els -> el_obs e = None) ->
  py_unobserve els = els.
Proof.
  intros H. unfold py_unobserve. rewrite <- (map_id els) at 2. apply map_ext_in.
  intros e He. specialize (H _ He). destruct e. simpl in *. subst. reflexivity.
Qed.

(** Observers do not change what happens to states. *)
Definition same_core els els' : Prop := py_unobserve els = py_unobserve els'.

Lemma core_nth els els' i :
  same_core els els' ->
  match nth_error els i, nth_error els' i with
  | Some a, Some b => el_class a = el_class b /\ el_base a = el_base b /\ el_data a = el_data b
  | None, None => True
  | _, _ => False
  end.
Proof.
  unfold same_core, py_unobserve. intros H.
  pose proof (f_equal (fun l => nth_error l i) H) as E. cbv beta in E. rewrite !nth_error_map in E.
  destruct (nth_error els i), (nth_error els' i); simpl in E; try discriminate; auto.
  injection E as E1 E2 E3. auto.
Qed.

Lemma core_update els els' i a b d :
  same_core els els' -> nth_error els i = Some a -> nth_error els' i = Some b ->
  same_core (update els i (with_data a d)) (update els' i (with_data b d)).
Proof.
  intros H Ha Hb. pose proof (core_nth _ _ i H) as C. rewrite Ha, Hb in C. destruct C as (C1 & C2 & C3).
  unfold same_core, py_unobserve in *. apply list_ext. intros j. rewrite !nth_error_map.
  destruct (Nat.eq_dec i j) as [<-|Hn].
  - rewrite (nth_update_eq _ _ _ _ Ha), (nth_update_eq _ _ _ _ Hb). simpl.
    unfold with_obs, with_data. simpl. congruence.
  - rewrite !nth_update_neq by auto.
    pose proof (f_equal (fun l => nth_error l j) H) as E. cbv beta in E. rewrite !nth_error_map in E. exact E.
Qed.

Lemma journey_core vs : forall els els' f st,
  same_core els els' ->
  let '(t, e1, r) := journey els f vs st in
  let '(t', e2, r') := journey els' f vs st in
  t = t' /\ r = r' /\ same_core e1 e2.
Proof.
  induction vs as [|i vs IH]; intros els els' f st H; simpl; auto.
  pose proof (core_nth _ _ i H) as C.
  destruct (nth_error els i) as [a|] eqn:Ea; destruct (nth_error els' i) as [b|] eqn:Eb; try tauto.
  destruct C as (C1 & C2 & C3). rewrite C1, C2, C3.
  destruct (cl_advance _ _ _ _) as [d [s|x]]; [|repeat (split; [reflexivity|]); apply core_update; auto].
  specialize (IH _ _ f s (core_update _ _ i a b d H Ea Eb)).
  destruct (journey (update els _ _) _ _ _) as [[t1 e1] r1].
  destruct (journey (update els' _ _) _ _ _) as [[t2 e2] r2].
  destruct IH as (-> & -> & IH). auto.
Qed.

Lemma journey_static vs : forall els f st,
  let '(_, e1, _) := journey els f vs st in map static e1 = map static els.
Proof.
  induction vs as [|i vs IH]; intros; simpl; auto.
  destruct (nth_error els i) as [a|] eqn:Ea; auto.
  destruct (cl_advance _ _ _ _) as [d [s|x]]; [|eapply map_update; eauto].
  specialize (IH (update els i (with_data a d)) f s).
  destruct (journey _ _ _ _) as [[t1 e1] r1]. rewrite IH. eapply map_update; eauto.
Qed.

Lemma journey_in vs : forall els f st i s,
  In (i, s) (fst (fst (journey els f vs st))) -> i < List.length els.
Proof.
  induction vs as [|j vs IH]; intros els f st i s; simpl; [tauto|].
  destruct (nth_error els j) as [a|] eqn:Ea; simpl; [|tauto].
  destruct (cl_advance _ _ _ _) as [d [s'|x]]; simpl; [|tauto].
  destruct (journey _ _ _ _) as [[t1 e1] r1] eqn:J. simpl. intros [H|H].
  - injection H as -> ->. apply nth_error_Some. congruence.
  - specialize (IH (update els j (with_data a d)) f s' i s). rewrite J, update_length in IH. auto.
Qed.

Lemma nth_static els els' i e :
  map static els = map static els' -> nth_error els i = Some e ->
  exists e', nth_error els' i = Some e' /\ static e' = static e.
Proof.
  intros H E. apply (map_nth_error static) in E. rewrite H, nth_error_map in E.
  destruct (nth_error els' i) as [e'|]; [|discriminate]. simpl in E. injection E as E1 E2 E3.
  exists e'. split; auto. unfold static. congruence.
Qed.

Lemma py_propagate_ok (m : machine D B) st start pymax l o :
  (N.of_nat (List.length (m_elems m)) <= SIZE_MAX)%N ->
  indexed (m_elems m) -> undirected (m_elems m) ->
  (forall e, In e (m_elems m) -> el_obs e = None) ->
  (forall z, In z l -> (0 <= z < Z.of_nat (List.length (m_elems m)))%Z) ->
  (forall z, pymax = Some z -> (INT_MIN < z <= INT_MAX)%Z) ->
  let max := match pymax with Some z => z | None => INT_MAX end in
  forall t els r,
  journey (m_elems m) (Z.leb 0 max) (visits (List.length (m_elems m)) start max)
          (mkSt start (Z.ltb max 0) (st_body st)) = (t, els, r) ->
  py_propagate m st start pymax l o
  = Some (with_elems m els,
          match r with Ok s => Ok (s, report l t) | Throw e => Throw e end)
  /\ (forall e, In e els -> el_obs e = None).
Proof.
  intros HL HI HU HN HB HM max t els r J. unfold py_propagate.
  assert (EM : match pymax with Some z => py_int z | None => INT_MAX end = max).
  { unfold max. destruct pymax as [z|]; auto. specialize (HM z eq_refl).
    unfold INT_MIN, INT_MAX in HM. unfold py_int.
    destruct (Z.leb_spec 0 z).
    - rewrite Z.mod_small by lia. replace (z <? 2147483648)%Z with true by (symmetry; apply Z.ltb_lt; lia). auto.
    - replace (z mod 4294967296)%Z with (z + 4294967296)%Z.
      + replace (z + 4294967296 <? 2147483648)%Z with false by (symmetry; apply Z.ltb_ge; lia). lia.
      + symmetry. rewrite <- (Z_mod_plus_full z 1). rewrite Z.mod_small; lia. }
  assert (HMax : (INT_MIN < max <= INT_MAX)%Z).
  { unfold max. destruct pymax; auto. unfold INT_MIN, INT_MAX; lia. }
  rewrite EM. clearbody max. clear EM HM pymax.
  destruct (py_observe_ok l o (m_elems m) HB) as (ob & Ob1 & Ob2 & Ob3). rewrite Ob1.
  assert (CO : same_core (m_elems m) ob).
  { unfold same_core, py_unobserve. apply list_ext. intros i. rewrite !nth_error_map.
    destruct (nth_error (m_elems m) i) as [e|] eqn:E.
    - rewrite (Ob3 _ _ E). simpl. destruct (watched l i); reflexivity.
    - apply nth_error_None in E. rewrite (proj2 (nth_error_None _ _)); auto. lia. }
  pose proof (journey_core (visits (List.length (m_elems m)) start max) (m_elems m) ob (0 <=? max)%Z
                (mkSt start (Z.ltb max 0) (st_body st)) CO) as JC.
  rewrite J in JC.
  destruct (journey ob _ _ _) as [[t' els'] r'] eqn:J'. destruct JC as (<- & <- & CE).
  pose proof (propagate_visits (with_elems m ob) st start max) as PV. simpl in PV.
  rewrite Ob2 in PV. specialize (PV HL HMax).
  assert (HU' : undirected ob).
  { intros e He. apply In_nth_error in He as [i Hi].
    pose proof (core_nth _ _ i CO) as C. rewrite Hi in C.
    destruct (nth_error (m_elems m) i) as [a|] eqn:Ea; [|tauto]. destruct C as (C1 & _).
    rewrite <- C1. apply HU. eapply nth_error_In; eauto. }
  rewrite (PV HU' _ _ _ J'). clear PV.
  pose proof (journey_static (visits (List.length (m_elems m)) start max) (m_elems m) (0 <=? max)%Z
                (mkSt start (Z.ltb max 0) (st_body st))) as ST. rewrite J in ST.
  assert (HN' : forall e, In e els -> el_obs e = None).
  { intros e He. apply In_nth_error in He as [i Hi].
    destruct (nth_static _ _ _ _ ST Hi) as (e' & He' & Hs). unfold static in Hs. injection Hs as _ _ Hs.
    rewrite <- Hs. apply HN. eapply nth_error_In; eauto. }
  split; auto. f_equal. f_equal.
  - simpl. unfold with_elems. simpl. f_equal. unfold same_core in CE. rewrite <- CE. apply unobserve_idem. auto.
  - simpl. destruct r as [s|x]; auto. f_equal. f_equal. simpl.
    pose proof (journey_in (visits (List.length (m_elems m)) start max) (m_elems m) (0 <=? max)%Z
                (mkSt start (Z.ltb max 0) (st_body st))) as JI. rewrite J in JI. simpl in JI.
    clear J J'. unfold report, py_store, seen. induction t as [|[i si] t IH]; auto.
    simpl. rewrite map_app, IH by (intros; eapply JI; right; eauto). clear IH.
    assert (Hlt : i < List.length (m_elems m)) by (eapply JI; left; eauto).
    destruct (nth_error (m_elems m) i) as [e|] eqn:Ei.
    2:{ apply nth_error_None in Ei. lia. }
    rewrite (Ob3 _ _ Ei). destruct (watched l i); simpl.
    + f_equal. f_equal. pose proof (core_nth _ _ i CE) as C.
      symmetry in ST. destruct (nth_static _ _ _ _ ST Ei) as (e' & He' & Hs). rewrite He' in C.
      destruct (nth_error els' i) as [e2|]; [|tauto]. destruct C as (_ & C & _).
      unfold el_index. rewrite <- C. unfold static in Hs. injection Hs as _ Hs _. rewrite Hs.
      apply (indexed_nth _ _ _ HI Ei).
    + rewrite (HN e) by (eapply nth_error_In; eauto). reflexivity.
Qed.

Lemma py_propagate_bad (m : machine D B) st start pymax l o z :
  (forall e, In e (m_elems m) -> el_obs e = None) ->
  In z l -> ~ (0 <= z < Z.of_nat (List.length (m_elems m)))%Z ->
  py_propagate m st start pymax l o = Some (m, Throw RuntimeError).
Proof.
  intros HN Hz Hb. unfold py_propagate. destruct (py_observe_bad l o _ z Hz Hb) as [els' E].
  rewrite E. pose proof (py_observe_static _ _ _ _ _ E) as S.
  f_equal. f_equal. replace (py_unobserve els') with (m_elems m); [destruct m; reflexivity|].
  rewrite <- (unobserve_idem (m_elems m) HN).
  assert (U : forall l0 : list (elem D B), py_unobserve l0 =
     map (fun x => mkEl (fst (fst x)) (snd (fst x)) None (snd x))
         (map (fun e => (el_class e, el_base e, el_data e)) l0)).
  { intros l0. rewrite map_map. reflexivity. }
  rewrite !U, S. reflexivity.
Qed.

(** ** Registry *)
Lemma reg_all_app os1 os2 : forall (r : registry D B),
  reg_all r (os1 ++ os2) = match reg_all r os1 with Some r' => reg_all r' os2 | None => None end.
Proof.
  induction os1 as [|o os1 IH]; intros r; simpl; auto.
  destruct (reg1 r o) as [r' [u|x]]; auto.
Qed.

Lemma reg_sorted os : forall (r r' : registry D B),
  ssorted r -> (forall n i, sfind n r = Some i -> ssorted (si_elems i)) ->
  reg_all r os = Some r' ->
  ssorted r' /\ (forall n i, sfind n r' = Some i -> ssorted (si_elems i)).
Proof.
  induction os as [|o os IH]; intros r r' H1 H2; simpl.
  - intros [= <-]. auto.
  - destruct o as [n b|s n k]; simpl.
    + unfold reg_state. destruct (sfind n r) eqn:E; [discriminate|]. apply IH.
      * apply sset_sorted; auto.
      * intros n' i. rewrite sfind_sset. destruct (String.eqb n' n); [intros [= <-]; exact I|eauto].
    + unfold reg_elem. destruct (sfind s r) as [i|] eqn:E; [|discriminate].
      destruct (sfind n (si_elems i)) eqn:E2; [discriminate|]. apply IH.
      * apply sset_sorted; auto.
      * intros n' i'. rewrite sfind_sset. destruct (String.eqb n' s); [intros [= <-]; simpl|eauto].
        apply sset_sorted. eauto.
Qed.

Definition reg_content (r : registry D B) (os : list (regop D B)) : Prop :=
  (forall s b, (exists l, sfind s r = Some (mkSI b l)) <-> In (RegState s b) os) /\
  (forall s n k, (exists i, sfind s r = Some i /\ sfind n (si_elems i) = Some k) <-> In (RegElem s n k) os).

Lemma reg_all_content os : forall (r : registry D B),
  reg_all [] os = Some r -> reg_content r os.
Proof.
  induction os as [|o os IH] using rev_ind; intros r H.
  - injection H as <-. split; intros; simpl; split; try tauto; intros (? & ?).
    + discriminate.
    + destruct H; discriminate.
  - rewrite reg_all_app in H. destruct (reg_all [] os) as [r0|] eqn:R; [|discriminate].
    destruct (IH r0 eq_refl) as [I1 I2]. simpl in H. destruct o as [n b|s n k]; simpl in H.
    + unfold reg_state in H. destruct (sfind n r0) as [i0|] eqn:E; [discriminate|]. injection H as <-.
      split.
      * intros s b'. rewrite in_app_iff, <- I1. simpl. rewrite sfind_sset.
        destruct (String.eqb_spec s n) as [->|Hn].
        -- split.
           ++ intros (l & [= <- _]). auto.
           ++ intros [[l H]|[[= ->]|[]]]; [congruence|eauto].
        -- split; [auto|]. intros [H|[[= ? ?]|[]]]; [auto|congruence].
      * intros s n' k. rewrite in_app_iff, <- I2. simpl. rewrite sfind_sset.
        destruct (String.eqb_spec s n) as [->|Hn].
        -- split.
           ++ intros (i & [= <-] & H). discriminate.
           ++ intros [(i & H & _)|[[=]|[]]]. congruence.
        -- split; [auto|]. intros [H|[[=]|[]]]; auto.
    + unfold reg_elem in H. destruct (sfind s r0) as [i0|] eqn:E; [|discriminate].
      destruct (sfind n (si_elems i0)) eqn:E2; [discriminate|]. injection H as <-.
      split.
      * intros s' b'. rewrite in_app_iff, <- I1. simpl. rewrite sfind_sset.
        destruct (String.eqb_spec s' s) as [->|Hn].
        -- split.
           ++ intros (l & [= <- <-]). left. exists (si_elems i0). rewrite E. destruct i0; reflexivity.
           ++ intros [[l H]|[[=]|[]]]. rewrite E in H. injection H as ->. simpl. eauto.
        -- split; [auto|]. intros [H|[[=]|[]]]; auto.
      * intros s' n' k'. rewrite in_app_iff, <- I2. simpl. rewrite sfind_sset.
        destruct (String.eqb_spec s' s) as [->|Hn].
        -- split.
           ++ intros (i & [= <-] & H). simpl in H. rewrite sfind_sset in H.
              destruct (String.eqb_spec n' n) as [->|]; [injection H as ->; auto|]. left. eauto.
           ++ intros [(i & H & H')|[[= -> ->]|[]]].
              ** rewrite E in H. injection H as <-. eexists; split; [reflexivity|]. simpl.
                 rewrite sfind_sset. destruct (String.eqb_spec n' n) as [->|]; [congruence|auto].
              ** eexists; split; [reflexivity|]. simpl. rewrite sfind_sset, String.eqb_refl. auto.
        -- split; [auto|]. intros [H|[[= ? ? ?]|[]]]; [auto|congruence].
Qed.

Lemma reg_order os os' (r r' : registry D B) :
  Permutation os os' -> reg_all [] os = Some r -> reg_all [] os' = Some r' -> r = r'.
Proof.
  intros P H H'. destruct (reg_all_content _ _ H) as [A1 A2]. destruct (reg_all_content _ _ H') as [B1 B2].
  destruct (reg_sorted os [] r I) as [S1 S2]; auto. { intros; discriminate. }
  destruct (reg_sorted os' [] r' I) as [T1 T2]; auto. { intros; discriminate. }
  assert (AB : forall s b, (exists l, sfind s r = Some (mkSI b l)) <-> (exists l, sfind s r' = Some (mkSI b l))).
  { intros. rewrite A1, B1. split; apply Permutation_in; auto using Permutation_sym. }
  assert (AE : forall s n k, (exists i, sfind s r = Some i /\ sfind n (si_elems i) = Some k) <->
                             (exists i, sfind s r' = Some i /\ sfind n (si_elems i) = Some k)).
  { intros. rewrite A2, B2. split; apply Permutation_in; auto using Permutation_sym. }
  apply ssorted_ext; auto. intros s.
  destruct (sfind s r) as [[b l]|] eqn:E; destruct (sfind s r') as [[b' l']|] eqn:E'; auto.
  - destruct (proj1 (AB s b)) as [l2 E2]; [eauto|]. rewrite E' in E2. injection E2 as -> _.
    f_equal. f_equal. apply ssorted_ext; [apply (S2 _ _ E)|apply (T2 _ _ E')|].
    intros n. destruct (sfind n l) as [k|] eqn:F; destruct (sfind n l') as [k'|] eqn:F'; auto.
    + destruct (proj1 (AE s n k)) as (i & G1 & G2).
      { exists (mkSI b l). simpl. auto. }
      rewrite E' in G1. injection G1 as <-. simpl in G2. congruence.
    + destruct (proj1 (AE s n k)) as (i & G1 & G2).
      { exists (mkSI b l). simpl. auto. }
      rewrite E' in G1. injection G1 as <-. simpl in G2. congruence.
    + destruct (proj2 (AE s n k')) as (i & G1 & G2).
      { exists (mkSI b l'). simpl. auto. }
      rewrite E in G1. injection G1 as <-. simpl in G2. congruence.
  - destruct (proj1 (AB s b)) as [l2 E2]; [eauto|]. congruence.
  - destruct (proj2 (AB s b')) as [l2 E2]; [eauto|]. congruence.
Qed.
End P.
