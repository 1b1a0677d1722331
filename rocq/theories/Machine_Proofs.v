From Coq Require Import List String Bool NArith ZArith Arith Lia.
From Verif Require Import SMap SMap_Proofs Dbl Config_Spec Machine_Model Machine_Spec.
Import ListNotations.

(** ** Lists *)
Lemma update_length {A} (l : list A) i a : List.length (update l i a) = List.length l.
Proof. revert i; induction l as [|x l IH]; destruct i; simpl; auto. Qed.
Lemma nth_update_eq {A} (l : list A) i a x :
  nth_error l i = Some x -> nth_error (update l i a) i = Some a.
Proof. revert i; induction l as [|y l IH]; destruct i; simpl; try discriminate; eauto. Qed.
Lemma nth_update_neq {A} (l : list A) i j a :
  i <> j -> nth_error (update l i a) j = nth_error l j.
Proof.
  revert i j; induction l as [|y l IH]; destruct i, j; simpl; intros; auto; try congruence.
Qed.
Lemma in_update {A} (l : list A) i a x : In x (update l i a) -> x = a \/ In x l.
Proof.
  revert i; induction l as [|y l IH]; destruct i; simpl; intros H; auto.
  - destruct H; auto.
  - destruct H as [H|H]; auto. destruct (IH _ H); auto.
Qed.
Lemma update_none {A} (l : list A) i a : nth_error l i = None -> update l i a = l.
Proof. revert i; induction l as [|y l IH]; destruct i; simpl; intros; try discriminate; auto. f_equal; auto. Qed.
Lemma list_ext {A} (l l' : list A) : (forall i, nth_error l i = nth_error l' i) -> l = l'.
Proof.
  revert l'; induction l as [|x l IH]; destruct l' as [|y l']; intros H; auto.
  - specialize (H 0); discriminate.
  - specialize (H 0); discriminate.
  - f_equal. { specialize (H 0); simpl in H; congruence. }
    apply IH. intros i. apply (H (S i)).
Qed.

Section P.
Context {D B : Type}.
Implicit Types (els : list (elem D B)) (st : pstate B).

Lemma slot_nth els n : slot els n = nth_error els (N.to_nat n).
Proof.
  unfold slot. destruct (N.ltb_spec n (N.of_nat (List.length els))); auto.
  symmetry. apply nth_error_None. lia.
Qed.

(** ** propagate *)
Definition visitsK (n : nat) (s : N) (fwd : bool) (k : nat) : list nat :=
  if N.ltb s (N.of_nat n) then
    if fwd then seq (N.to_nat s) (Nat.min (n - N.to_nat s) k)
    else map (fun j => N.to_nat s - j) (seq 0 (Nat.min (S (N.to_nat s)) k))
  else [].

Lemma visitsK_0 n s f : visitsK n s f 0 = [].
Proof. unfold visitsK. rewrite !Nat.min_0_r. destruct (_ <? _)%N, f; reflexivity. Qed.

Lemma visitsK_S n s f k :
  (N.of_nat n <= SIZE_MAX)%N -> (s < N.of_nat n)%N ->
  visitsK n s f (S k)
  = N.to_nat s :: visitsK n (if f then size_incr s else size_decr s) f k.
Proof.
  intros Hn Hs. unfold visitsK. rewrite (proj2 (N.ltb_lt _ _) Hs). destruct f.
  - unfold size_incr. replace (s =? SIZE_MAX)%N with false by (symmetry; apply N.eqb_neq; lia).
    replace (n - N.to_nat s) with (S (n - N.to_nat (N.succ s))) by lia. simpl seq. f_equal.
    destruct (N.ltb_spec (N.succ s) (N.of_nat n)) as [H|H].
    + rewrite N2Nat.inj_succ. reflexivity.
    + replace (n - N.to_nat (N.succ s)) with 0 by lia. reflexivity.
  - unfold size_decr. rewrite <- Nat.succ_min_distr. rewrite <- cons_seq. cbn [map].
    rewrite Nat.sub_0_r. f_equal. rewrite <- seq_shift, map_map.
    destruct (N.eqb_spec s 0) as [->|H0].
    + replace (SIZE_MAX <? N.of_nat n)%N with false by (symmetry; apply N.ltb_ge; lia).
      reflexivity.
    + replace (N.pred s <? N.of_nat n)%N with true by (symmetry; apply N.ltb_lt; lia).
      replace (S (N.to_nat (N.pred s))) with (N.to_nat s) by lia.
      apply map_ext. intros j. lia.
Qed.

Lemma next_of_spec f n s :
  (N.of_nat n <= SIZE_MAX)%N -> (s < N.of_nat n)%N ->
  next_of f (N.to_nat s) = if f then size_incr s else size_decr s.
Proof.
  intros Hn Hs. unfold next_of, size_incr, size_decr. destruct f.
  - replace (s =? SIZE_MAX)%N with false by (symmetry; apply N.eqb_neq; lia). lia.
  - destruct (N.eqb_spec s 0) as [->|H0]; [reflexivity|].
    destruct (N.to_nat s) eqn:E; lia.
Qed.

Lemma seen_update els i e d t :
  nth_error els i = Some e -> seen (update els i (with_data e d)) t = seen els t.
Proof.
  intros H. unfold seen. apply flat_map_ext. intros [j s].
  destruct (Nat.eq_dec i j) as [<-|Hn].
  - rewrite (nth_update_eq _ _ _ _ H), H. reflexivity.
  - rewrite nth_update_neq by auto. reflexivity.
Qed.

Lemma undirected_update els i e d :
  nth_error els i = Some e -> undirected els -> undirected (update els i (with_data e d)).
Proof.
  intros H Hu x Hx. apply in_update in Hx as [->|Hx].
  - simpl. apply Hu. eapply nth_error_In; eauto.
  - apply Hu; auto.
Qed.

Lemma loop_journey k : forall els st evs,
  (N.of_nat (List.length els) <= SIZE_MAX)%N -> undirected els ->
  let '(t, els', r) :=
    journey els (negb (st_retreat st)) (visitsK (List.length els) (st_next st) (negb (st_retreat st)) k) st in
  prop_loop k els st evs = mkRun els' (evs ++ seen els t) r.
Proof.
  induction k as [|k IH]; intros els st evs Hn Hu.
  - rewrite visitsK_0. simpl. rewrite app_nil_r. reflexivity.
  - destruct (N.ltb_spec (st_next st) (N.of_nat (List.length els))) as [Hs|Hs].
    + rewrite visitsK_S by auto. cbn [journey prop_loop]; rewrite slot_nth.
      destruct (nth_error els (N.to_nat (st_next st))) as [e|] eqn:E.
      2:{ apply nth_error_None in E. lia. }
      rewrite (next_of_spec _ (List.length els)) by auto.
      rewrite negb_involutive.
      replace (if negb (st_retreat st) then size_incr (st_next st) else size_decr (st_next st))
        with (if st_retreat st then size_decr (st_next st) else size_incr (st_next st))
        by (destruct (st_retreat st); reflexivity).
      set (st1 := mkSt _ _ _).
      destruct (cl_advance _ _ _ st1) as [d [st2|x]] eqn:A.
      * destruct (Hu e (nth_error_In _ _ E) _ _ _ _ _ A) as [N1 R1].
        specialize (IH (update els (N.to_nat (st_next st)) (with_data e d)) st2
          (match el_obs e with Some o => evs ++ [mkEv o (N.to_nat (st_next st)) st2] | None => evs end)).
        rewrite update_length in IH.
        specialize (IH Hn (undirected_update _ _ _ _ E Hu)).
        rewrite N1, R1 in IH. unfold st1 in IH; cbn [st_next st_retreat] in IH.
        replace (if negb (st_retreat st) then size_incr (st_next st) else size_decr (st_next st))
          with (if st_retreat st then size_decr (st_next st) else size_incr (st_next st))
          by (destruct (st_retreat st); reflexivity).
        destruct (journey (update els _ _) _ _ st2) as [[t els'] r].
        rewrite IH. f_equal. rewrite (seen_update _ _ _ _ _ E).
        unfold seen at 2. cbn [flat_map]. rewrite E. fold (seen els t).
        destruct (el_obs e); simpl; rewrite <- ?app_assoc; reflexivity.
      * simpl. rewrite app_nil_r. reflexivity.
    + unfold visitsK. rewrite (proj2 (N.ltb_ge _ _) Hs). cbn [journey prop_loop]; rewrite slot_nth.
      destruct (nth_error els (N.to_nat (st_next st))) as [e|] eqn:E.
      { assert (N.to_nat (st_next st) < List.length els) by (apply nth_error_Some; congruence). lia. }
      simpl. rewrite app_nil_r. reflexivity.
Qed.

Lemma visits_visitsK n start max :
  visits n start max = visitsK n start (negb (Z.ltb max 0)) (Z.abs_nat max).
Proof.
  unfold visits, visitsK. destruct (_ <? _)%N; auto.
  destruct (Z.ltb_spec max 0) as [H|H].
  - rewrite (proj2 (Z.leb_gt 0 max) H). cbn [negb]. replace (Z.to_nat (-max)) with (Z.abs_nat max) by lia. reflexivity.
  - rewrite (proj2 (Z.leb_le 0 max) H). cbn [negb]. replace (Z.to_nat max) with (Z.abs_nat max) by lia. reflexivity.
Qed.

Lemma propagate_visits (m : machine D B) st start max :
  (N.of_nat (List.length (m_elems m)) <= SIZE_MAX)%N ->
  (INT_MIN < max <= INT_MAX)%Z ->
  undirected (m_elems m) ->
  forall t els r,
  journey (m_elems m) (Z.leb 0 max) (visits (List.length (m_elems m)) start max)
          (mkSt start (Z.ltb max 0) (st_body st)) = (t, els, r) ->
  propagate m st start max = Some (mkRun els (seen (m_elems m) t) r).
Proof.
  intros Hn Hmax Hu t els r J. unfold propagate.
  replace (max =? INT_MIN)%Z with false by (symmetry; apply Z.eqb_neq; lia).
  pose proof (loop_journey (Z.abs_nat max) (m_elems m) (mkSt start (Z.ltb max 0) (st_body st)) [] Hn Hu) as L.
  cbn [st_next st_retreat] in L. rewrite <- visits_visitsK in L.
  replace (negb (max <? 0)%Z) with (0 <=? max)%Z in L.
  2:{ destruct (Z.ltb_spec max 0), (Z.leb_spec 0 max); auto; lia. }
  rewrite J in L. rewrite L. reflexivity.
Qed.

(** What [visits] lists. *)
Lemma visits_forward n start max k :
  (0 <= max)%Z ->
  nth_error (visits n start max) k
  = if (N.ltb (start + N.of_nat k) (N.of_nat n) && Z.ltb (Z.of_nat k) max)%bool
    then Some (N.to_nat start + k) else None.
Proof.
  intros H. unfold visits. rewrite (proj2 (Z.leb_le 0 max) H).
  destruct (N.ltb_spec start (N.of_nat n)) as [H1|H1].
  - destruct (N.ltb_spec (start + N.of_nat k) (N.of_nat n)); destruct (Z.ltb_spec (Z.of_nat k) max); simpl andb.
    + rewrite (nth_error_nth' _ 0) by (rewrite seq_length; lia). rewrite seq_nth by lia. reflexivity.
    + apply nth_error_None. rewrite seq_length. lia.
    + apply nth_error_None. rewrite seq_length. lia.
    + apply nth_error_None. rewrite seq_length. lia.
  - replace (start + N.of_nat k <? N.of_nat n)%N with false by (symmetry; apply N.ltb_ge; lia).
    destruct k; reflexivity.
Qed.

Lemma visits_backward n start max k :
  (max < 0)%Z ->
  nth_error (visits n start max) k
  = if (N.ltb start (N.of_nat n) && N.leb (N.of_nat k) start && Z.ltb (Z.of_nat k) (- max))%bool
    then Some (N.to_nat start - k) else None.
Proof.
  intros H. unfold visits. rewrite (proj2 (Z.leb_gt 0 max) H).
  destruct (N.ltb_spec start (N.of_nat n)) as [H1|H1]; simpl andb.
  2:{ destruct k; reflexivity. }
  rewrite nth_error_map.
  destruct (N.leb_spec (N.of_nat k) start); destruct (Z.ltb_spec (Z.of_nat k) (-max)); simpl andb.
  - rewrite (nth_error_nth' _ 0) by (rewrite seq_length; lia). rewrite seq_nth by lia. reflexivity.
  - rewrite (proj2 (nth_error_None _ _)); [reflexivity|]. rewrite seq_length. lia.
  - rewrite (proj2 (nth_error_None _ _)); [reflexivity|]. rewrite seq_length. lia.
  - rewrite (proj2 (nth_error_None _ _)); [reflexivity|]. rewrite seq_length. lia.
Qed.

(** When the whole journey is completed the trail is the list of visits. *)
Lemma journey_trail vs : forall els f st t els' s,
  (forall i, In i vs -> i < List.length els) ->
  journey els f vs st = (t, els', Ok s) -> map fst t = vs.
Proof.
  induction vs as [|i vs IH]; intros els f st t els' s Hv J; simpl in J.
  - injection J as <- _ _. reflexivity.
  - destruct (nth_error els i) as [e|] eqn:E.
    2:{ apply nth_error_None in E. pose proof (Hv i (or_introl eq_refl)). lia. }
    destruct (cl_advance _ _ _ _) as [d [st'|x]]; [|discriminate].
    destruct (journey (update _ _ _) _ _ _) as [[t0 e0] r0] eqn:J0.
    injection J as <- <- ->. simpl. f_equal. eapply IH; [|exact J0].
    intros j Hj. rewrite update_length. apply Hv; right; auto.
Qed.

(** ** Composition *)
Lemma loop_evs k : forall els st evs,
  prop_loop k els st evs
  = mkRun (pr_elems (prop_loop k els st [])) (evs ++ pr_events (prop_loop k els st []))
          (pr_end (prop_loop k els st [])).
Proof.
  induction k as [|k IH]; intros; simpl.
  - rewrite app_nil_r; reflexivity.
  - rewrite ?slot_nth; destruct (nth_error _ _) as [e|]; [|rewrite app_nil_r; reflexivity].
    destruct (cl_advance _ _ _ _) as [d [st2|x]]; [|simpl; rewrite app_nil_r; reflexivity].
    destruct (el_obs e).
    + rewrite IH. rewrite (IH _ _ [_]). simpl. rewrite <- app_assoc. reflexivity.
    + apply IH.
Qed.

Lemma keeps_update els i e d :
  nth_error els i = Some e -> keeps_direction els -> keeps_direction (update els i (with_data e d)).
Proof.
  intros H Hu x Hx. apply in_update in Hx as [->|Hx].
  - simpl. apply Hu. eapply nth_error_In; eauto.
  - apply Hu; auto.
Qed.

Lemma loop_length k : forall els st evs,
  List.length (pr_elems (prop_loop k els st evs)) = List.length els.
Proof.
  induction k as [|k IH]; intros; simpl; auto.
  rewrite ?slot_nth; destruct (nth_error _ _); simpl; auto. destruct (cl_advance _ _ _ _) as [d [st2|x]]; simpl; auto;
  rewrite ?IH; apply update_length.
Qed.

Lemma loop_retreat k : forall els st evs s,
  keeps_direction els -> pr_end (prop_loop k els st evs) = Ok s -> st_retreat s = st_retreat st.
Proof.
  induction k as [|k IH]; intros els st evs s Hk; simpl.
  - congruence.
  - rewrite ?slot_nth; destruct (nth_error _ _) as [e|] eqn:E; simpl; [|congruence].
    destruct (cl_advance _ _ _ _) as [d [st2|x]] eqn:A; simpl; [|congruence].
    intros H. apply IH in H. 2:{ apply keeps_update; auto. }
    rewrite H. rewrite (Hk e (nth_error_In _ _ E) _ _ _ _ _ A). reflexivity.
Qed.

Lemma loop_app a b : forall els st evs,
  keeps_direction els ->
  prop_loop (a + b) els st evs
  = match pr_end (prop_loop a els st evs) with
    | Ok s => prop_loop b (pr_elems (prop_loop a els st evs)) s (pr_events (prop_loop a els st evs))
    | Throw _ => prop_loop a els st evs
    end.
Proof.
  induction a as [|a IH]; intros els st evs Hk; simpl.
  - reflexivity.
  - rewrite ?slot_nth; destruct (nth_error _ _) as [e|] eqn:E; simpl.
    + destruct (cl_advance _ _ _ _) as [d [st2|x]] eqn:A; simpl; auto.
      apply IH. apply keeps_update; auto.
    + destruct b; simpl; auto. rewrite slot_nth, E. reflexivity.
Qed.

Lemma propagate_composes (m : machine D B) st start a b p1 s1 p2 :
  keeps_direction (m_elems m) ->
  same_direction a b ->
  propagate m st start a = Some p1 -> pr_end p1 = Ok s1 ->
  propagate (with_elems m (pr_elems p1)) s1 (st_next s1) b = Some p2 ->
  propagate m st start (a + b)
  = Some (mkRun (pr_elems p2) (pr_events p1 ++ pr_events p2) (pr_end p2)).
Proof.
  unfold propagate, same_direction, INT_MAX, INT_MIN. intros Hk Hd H1 HE H2.
  replace (a =? -2147483648)%Z with false in H1 by (symmetry; apply Z.eqb_neq; lia).
  replace (b =? -2147483648)%Z with false in H2 by (symmetry; apply Z.eqb_neq; lia).
  replace (a + b =? -2147483648)%Z with false by (symmetry; apply Z.eqb_neq; lia).
  injection H1 as H1. injection H2 as H2. f_equal.
  replace (Z.abs_nat (a + b)) with (Z.abs_nat a + Z.abs_nat b) by lia.
  replace (a + b <? 0)%Z with (a <? 0)%Z.
  2:{ destruct (Z.ltb_spec a 0), (Z.ltb_spec (a+b) 0); auto; lia. }
  rewrite loop_app by auto. rewrite H1, HE.
  assert (R : st_retreat s1 = (a <? 0)%Z).
  { rewrite <- H1 in HE. apply loop_retreat in HE; auto. }
  cbn [m_elems with_elems] in H2.
  replace (b <? 0)%Z with (st_retreat s1) in H2.
  2:{ rewrite R. destruct (Z.ltb_spec a 0), (Z.ltb_spec b 0); auto; lia. }
  replace (mkSt (st_next s1) (st_retreat s1) (st_body s1)) with s1 in H2 by (destruct s1; reflexivity).
  rewrite loop_evs, H2. reflexivity.
Qed.

Lemma propagate_composes_throw (m : machine D B) st start a b p1 x :
  keeps_direction (m_elems m) ->
  same_direction a b ->
  propagate m st start a = Some p1 -> pr_end p1 = Throw x ->
  propagate m st start (a + b) = Some p1.
Proof.
  unfold propagate, same_direction, INT_MAX, INT_MIN. intros Hk Hd H1 HE.
  replace (a =? -2147483648)%Z with false in H1 by (symmetry; apply Z.eqb_neq; lia).
  replace (a + b =? -2147483648)%Z with false by (symmetry; apply Z.eqb_neq; lia).
  injection H1 as H1. f_equal.
  replace (Z.abs_nat (a + b)) with (Z.abs_nat a + Z.abs_nat b) by lia.
  replace (a + b <? 0)%Z with (a <? 0)%Z.
  2:{ destruct (Z.ltb_spec a 0), (Z.ltb_spec (a+b) 0); auto; lia. }
  rewrite loop_app by auto. rewrite H1, HE. reflexivity.
Qed.

(** Where a completed journey leaves the state. *)
Lemma journey_end vs : forall els f st t els' s,
  undirected els -> (forall i, In i vs -> i < List.length els) ->
  journey els f vs st = (t, els', Ok s) ->
  (vs = [] -> s = st) /\
  (vs <> [] -> st_next s = next_of f (last vs 0) /\ st_retreat s = negb f).
Proof.
  induction vs as [|i vs IH]; intros els f st t els' s Hu Hv J; simpl in J.
  - injection J as _ _ <-. split; [auto|congruence].
  - split; [discriminate|]. intros _.
    destruct (nth_error els i) as [e|] eqn:E.
    2:{ apply nth_error_None in E. pose proof (Hv i (or_introl eq_refl)). lia. }
    destruct (cl_advance _ _ _ _) as [d [st'|x]] eqn:A; [|discriminate].
    destruct (Hu e (nth_error_In _ _ E) _ _ _ _ _ A) as [N1 R1].
    destruct (journey (update _ _ _) _ _ _) as [[t0 e0] r0] eqn:J0.
    injection J as <- <- ->. apply IH in J0.
    + destruct J0 as [J1 J2]. destruct vs as [|j vs].
      * rewrite J1 by auto. simpl. auto.
      * apply J2. discriminate.
    + apply undirected_update; auto.
    + intros j Hj. rewrite update_length. apply Hv; right; auto.
Qed.

Lemma visits_bound n start max i : In i (visits n start max) -> i < n.
Proof.
  unfold visits. destruct (N.ltb_spec start (N.of_nat n)) as [H|H]; [|intros []].
  destruct (0 <=? max)%Z; intros Hi.
  - apply in_seq in Hi. lia.
  - apply in_map_iff in Hi as (k & <- & Hk). lia.
Qed.

(** ** Construction *)
Lemma base_ctor_ok c b :
  base_ctor c = Ok b <->
  exists nm, tfind "name" c = Some (TStr nm) /\
    b = mkEB nm 0 (match tfind "L" c with Some (TNum x) => x | _ => dzero end) c.
Proof.
  unfold base_ctor, get_str, get_num_def. split.
  - destruct (tfind "name" c) as [[]|]; simpl; try discriminate. intros [= <-]. eauto.
  - intros (nm & -> & ->). reflexivity.
Qed.

Lemma build_ok k c e :
  build k c = Ok e <->
  exists nm d, tfind "name" c = Some (TStr nm) /\ cl_ctor k c = Ok d /\
    e = mkEl k (mkEB nm 0 (match tfind "L" c with Some (TNum x) => x | _ => dzero end) c) None d :> elem D B.
Proof.
  unfold build. split.
  - destruct (base_ctor c) as [b|] eqn:E; simpl; try discriminate.
    destruct (cl_ctor k c) as [d|] eqn:F; simpl; try discriminate. intros [= <-].
    apply base_ctor_ok in E as (nm & E & ->). exists nm, d. auto.
  - intros (nm & d & E & F & ->).
    rewrite (proj2 (base_ctor_ok c _)) by (exists nm; split; [exact E|reflexivity]). simpl. rewrite F. reflexivity.
Qed.

(** The lookup table of a machine whose slots carry the given labels. *)
Definition lk (l : list string) : lookup :=
  fold_left (fun acc ie => linsert (snd ie, N.of_nat (fst ie)) (fst ie) acc)
            (combine (seq 0 (List.length l)) l) [].
Definition lk_names els : lookup := lk (map el_name els).
Definition lk_types els : lookup := lk (map el_tname els).

Lemma combine_snoc' {A C} (l1 : list A) : forall (l2 : list C) x y,
  List.length l1 = List.length l2 -> combine (l1 ++ [x]) (l2 ++ [y]) = combine l1 l2 ++ [(x, y)].
Proof.
  induction l1; destruct l2; simpl; intros; try discriminate; auto. f_equal; auto.
Qed.
Lemma combine_snoc {A} (l : list A) a :
  combine (seq 0 (List.length (l ++ [a]))) (l ++ [a])
  = combine (seq 0 (List.length l)) l ++ [(List.length l, a)].
Proof.
  rewrite app_length. simpl. rewrite Nat.add_1_r, seq_S. simpl.
  apply combine_snoc'. apply seq_length.
Qed.

Lemma lk_snoc l a : lk (l ++ [a]) = linsert (a, N.of_nat (List.length l)) (List.length l) (lk l).
Proof. unfold lk. rewrite combine_snoc, fold_left_app. reflexivity. Qed.
Lemma lk_names_snoc els e :
  lk_names (els ++ [e]) = linsert (el_name e, N.of_nat (List.length els)) (List.length els) (lk_names els).
Proof. unfold lk_names. rewrite map_app. simpl. rewrite lk_snoc, map_length. reflexivity. Qed.
Lemma lk_types_snoc els e :
  lk_types (els ++ [e]) = linsert (el_tname e, N.of_nat (List.length els)) (List.length els) (lk_types els).
Proof. unfold lk_types. rewrite map_app. simpl. rewrite lk_snoc, map_length. reflexivity. Qed.

Lemma build_loop_ok (i : sinfo D B) es : forall acc out,
  build_loop i es (List.length acc) acc (lk_names acc) (lk_types acc) = Ok out ->
  exists els, out = (acc ++ els, lk_names (acc ++ els), lk_types (acc ++ els)) /\
    List.length els = List.length es /\
    forall j ec e, nth_error es j = Some ec -> nth_error els j = Some e ->
                   describes i (List.length acc + j) ec e.
Proof.
  induction es as [|ec es IH]; intros acc out H.
  - simpl in H. injection H as <-. exists []. rewrite app_nil_r. repeat split.
    intros [|j]; discriminate.
  - simpl in H. unfold get_str in H. destruct (tfind "type" ec) as [[| |ty|]|] eqn:T; simpl in H; try discriminate.
    destruct (sfind ty (si_elems i)) as [k|] eqn:K; [|discriminate].
    destruct (build k ec) as [e|x] eqn:Bd; [|destruct x; discriminate].
    destruct (String.eqb_spec (el_tname e) ty) as [Ht|]; [|discriminate].
    apply build_ok in Bd as (nm & d & Hn & Hd & ->).
    change (N.of_nat (Datatypes.length acc)) with (el_index (with_index (mkEl k
         {| eb_name := nm; eb_index := 0;
         eb_len := match tfind "L" ec with | Some (TNum x) => x | _ => dzero end;
         eb_conf := ec |} None d) (N.of_nat (Datatypes.length acc)))) in H.
    set (e := with_index _ _) in H.
    replace ty with (el_tname e) in H by exact Ht.
    change (el_index e) with (N.of_nat (List.length acc)) in H.
    rewrite <- lk_names_snoc, <- lk_types_snoc in H.
    replace (S (List.length acc)) with (List.length (acc ++ [e])) in H by (rewrite app_length; simpl; lia).
    assert (H' := H). clear H. apply IH in H' as (els & -> & Hl & Hdesc).
    exists (e :: els). rewrite <- app_assoc. simpl. split; [reflexivity|]. split; [lia|].
    intros [|j] ec' e' Hj He'; simpl in *.
    + injection Hj as <-. injection He' as <-. rewrite Nat.add_0_r.
      simpl in Ht. unfold el_tname in Ht; simpl in Ht. subst ty.
      exists k, nm, d. repeat (split; [assumption|]). reflexivity.
    + specialize (Hdesc j ec' e' Hj He'). rewrite app_length in Hdesc. simpl in Hdesc.
      replace (List.length acc + S j) with (List.length acc + 1 + j) by lia. exact Hdesc.
Qed.

Lemma build_loop_total (i : sinfo D B) es : forall n acc l1 l2,
  (forall ec, In ec es -> buildable i ec) ->
  exists out, build_loop i es n acc l1 l2 = Ok out.
Proof.
  induction es as [|ec es IH]; intros n acc l1 l2 H; simpl; eauto.
  destruct (H ec (or_introl eq_refl)) as (ty & k & nm & d & Ht & Hk & Hty & Hn & Hd).
  unfold get_str. rewrite Ht. simpl. rewrite Hk.
  rewrite (proj2 (build_ok k ec _)) by (exists nm, d; split; [exact Hn|split; [exact Hd|reflexivity]]).
  unfold el_tname. simpl. rewrite Hty, String.eqb_refl.
  apply IH. intros ec' Hin. apply H. right; auto.
Qed.

Lemma new_machine_ok (r : registry D B) c m :
  new_machine r c = Ok m ->
  exists t i es,
    tfind "sim_type" c = Some (TStr t) /\ sfind t r = Some i /\
    tfind "elements" c = Some (TCfgs es) /\
    m_simtype m = t /\ m_conf m = c /\ m_info m = i /\
    List.length (m_elems m) = List.length es /\
    m_lookup m = lk_names (m_elems m) /\ m_types m = lk_types (m_elems m) /\
    forall j ec e, nth_error es j = Some ec -> nth_error (m_elems m) j = Some e -> describes i j ec e.
Proof.
  unfold new_machine, get_str, get_cfgs. intros H.
  destruct (tfind "sim_type" c) as [[| |t|]|]; simpl in H; try discriminate.
  destruct (sfind t r) as [i|] eqn:Hi; [|discriminate].
  destruct (tfind "elements" c) as [[| | |es]|]; simpl in H; try discriminate.
  destruct (build_loop i es 0 [] [] []) as [[[els ll] lt]|] eqn:Hb; simpl in H; [|discriminate].
  injection H as <-. apply (build_loop_ok i es []) in Hb as (els' & He & Hl & Hd).
  simpl in He. injection He as -> -> ->.
  exists t, i, es. simpl. repeat (split; [auto|]). exact Hd.
Qed.

Lemma describes_buildable (i : sinfo D B) j ec e : describes i j ec e -> buildable i ec.
Proof.
  intros (k & nm & d & H1 & H2 & H3 & H4 & _). exists (cl_tname k), k, nm, d. auto.
Qed.

Lemma new_machine_iff (r : registry D B) c :
  (exists m, new_machine r c = Ok m) <->
  exists t i es,
    tfind "sim_type" c = Some (TStr t) /\ sfind t r = Some i /\
    tfind "elements" c = Some (TCfgs es) /\ forall ec, In ec es -> buildable i ec.
Proof.
  split.
  - intros [m H]. apply new_machine_ok in H as (t & i & es & H1 & H2 & H3 & _ & _ & _ & Hl & _ & _ & Hd).
    exists t, i, es. repeat (split; [assumption|]). intros ec Hin.
    apply In_nth_error in Hin as [j Hj].
    destruct (nth_error (m_elems m) j) as [e|] eqn:He.
    + eapply describes_buildable; eauto.
    + apply nth_error_None in He. assert (j < List.length es) by (apply nth_error_Some; congruence). lia.
  - intros (t & i & es & H1 & H2 & H3 & Hb). unfold new_machine, get_str, get_cfgs.
    rewrite H1. simpl. rewrite H2, H3. simpl.
    destruct (build_loop_total i es 0 [] [] [] Hb) as [[[els ll] lt] ->]. simpl. eauto.
Qed.
End P.
