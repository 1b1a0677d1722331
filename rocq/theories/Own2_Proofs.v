From Coq Require Import List String Bool NArith ZArith Arith Lia.
From Verif Require Import SMap SMap_Proofs Dbl Config_Spec Machine_Model Machine_Spec Machine_Proofs
  Cli_Model Own_Model Own_Spec Own_Proofs.
Import ListNotations.
Open Scope list_scope.

Lemma nth_app_new {A} (l : list A) a i x : nth_error (l ++ [a]) i = Some x ->
  nth_error l i = Some x \/ i = List.length l /\ x = a.
Proof.
  intros H. destruct (Nat.lt_ge_cases i (List.length l)).
  - rewrite nth_error_app1 in H; auto.
  - rewrite nth_error_app2 in H; auto. right.
    destruct (i - List.length l) as [|[|j]] eqn:E; simpl in H; try discriminate.
    injection H as <-. split; auto. lia.
Qed.
Lemma nth_app_old {A} (l : list A) a i x : nth_error l i = Some x -> nth_error (l ++ [a]) i = Some x.
Proof. intros H. rewrite nth_error_app1; auto. apply nth_error_Some. congruence. Qed.
Lemma nth_lt {A} (l : list A) i x : nth_error l i = Some x -> i < List.length l.
Proof. intros H. apply nth_error_Some. congruence. Qed.

Lemma nodup_snoc {A} (l : list A) a : NoDup l -> ~ In a l -> NoDup (l ++ [a]).
Proof.
  induction l as [|x l IH]; simpl; intros H1 H2; [repeat constructor; auto|].
  inversion H1; subst. constructor.
  - intros X. apply in_app_or in X as [X|[<-|[]]]; auto.
  - apply IH; auto.
Qed.

Section P.
Context {D B : Type}.
Variable reg : registry D B.

(** Which observer the element in slot s has. *)
Definition has (m : omach D B) (s a : nat) : Prop := nth_error (obsv (om_elems m)) s = Some (Some a).

Definition mach (p : prog D B) i m := nth_error (p_ms p) i = Some (Some m).
Definition alive (b : book) i n := nth_error (b_ms b) i = Some (Some n).

Record inv (p : prog D B) (b : book) (lost : list nat) : Prop := {
  iv_ms : List.length (p_ms p) = List.length (b_ms b);
  iv_ob : List.length (p_obs p) = List.length (b_obs b);
  iv_alive : forall i n, alive b i n -> exists m, mach p i m /\
     List.length (om_elems m) = n /\ List.length (om_els m) = n;
  iv_lt : forall i m a, mach p i m -> In a (cells m) -> a < h_next (p_heap p);
  iv_olt : forall a, In a (p_obs p) -> a < h_next (p_heap p);
  iv_llt : forall a, In a lost -> a < h_next (p_heap p);
  iv_two : forall i j m m' a, mach p i m -> mach p j m' -> In a (cells m) -> In a (cells m') -> i = j;
  iv_one : forall i m, mach p i m -> NoDup (cells m);
  iv_nobs : NoDup (p_obs p);
  iv_mo : forall i m a, mach p i m -> In a (cells m) -> ~ In a (p_obs p);
  iv_lm : forall i m a, mach p i m -> In a (cells m) -> ~ In a lost;
  iv_lo : forall a, In a (p_obs p) -> ~ In a lost;
  iv_live : forall a, In a (h_live (p_heap p)) <->
     (exists i m n, alive b i n /\ mach p i m /\ In a (cells m)) \/
     (exists o w, nth_error (b_obs b) o = Some w /\ w <> Gone /\ nth_error (p_obs p) o = Some a) \/
     In a lost;
  iv_has : forall i m n s a, alive b i n -> mach p i m ->
     (has m s a <-> exists o, nth_error (b_obs b) o = Some (On i s) /\ nth_error (p_obs p) o = Some a);
  iv_on : forall o i s, nth_error (b_obs b) o = Some (On i s) -> exists n, alive b i n
}.

Lemma inv_start : inv p_start b_start [].
Proof.
  constructor; simpl; auto; unfold mach, alive, cells; simpl;
    try (intros i n H; destruct i; discriminate);
    try (intros i m a H; destruct i; discriminate);
    try (intros i j m m' a H; destruct i; discriminate).
  - intros a [].
  - intros a [].
  - constructor.
  - intros a. split; [intros []|]. intros [(i & m & n & H & _)|[(o & w & H & _)|[]]].
    + destruct i; discriminate.
    + destruct o; discriminate.
  all: try (intros i m n s a H; destruct i; discriminate).
  all: intros o i s H; destruct o; discriminate.
Qed.

Lemma step_newobs p b lost : inv p b lost -> exists p',
  step reg p NewObs = Fine p' /\ inv p' (mkBk (b_ms b) (b_obs b ++ [Mine])) lost.
Proof.
  intros I. cbn [step]. rewrite h_new_eq. eexists. split; [reflexivity|].
  destruct I. constructor; unfold mach, alive in *; cbn [p_heap p_ms p_obs b_ms b_obs h_new snd h_next h_live].
  - auto.
  - rewrite !app_length, iv_ob0. reflexivity.
  - auto.
  - intros i m a H1 H2. specialize (iv_lt0 i m a H1 H2). lia.
  - intros a H. apply in_app_or in H as [H|[<-|[]]]; [specialize (iv_olt0 a H)|]; lia.
  - intros a H. specialize (iv_llt0 a H). lia.
  - auto.
  - auto.
  - apply nodup_snoc; auto. intros H. specialize (iv_olt0 _ H). lia.
  - intros i m a H1 H2 H. apply in_app_or in H as [H|[<-|[]]].
    + now apply (iv_mo0 i m a).
    + specialize (iv_lt0 i m _ H1 H2). lia.
  - auto.
  - intros a H. apply in_app_or in H as [H|[<-|[]]]; auto. intros X. specialize (iv_llt0 _ X). lia.
  - intros a. simpl. rewrite iv_live0. split.
    + intros [<-|[H|[(o & w & H1 & H2 & H3)|H]]]; auto.
      * right. left. exists (List.length (b_obs b)), Mine. split; [|split].
        -- rewrite nth_error_app2, Nat.sub_diag; auto.
        -- discriminate.
        -- rewrite <- iv_ob0, nth_error_app2, Nat.sub_diag; auto.
      * right. left. exists o, w. auto using nth_app_old.
    + intros [H|[(o & w & H1 & H2 & H3)|H]]; auto.
      apply nth_app_new in H3 as [H3|[-> ->]]; auto.
      apply nth_app_new in H1 as [H1|[-> ->]].
      * right. right. left. exists o, w. auto.
      * apply nth_lt in H3. lia.
  - intros i m n s a H1 H2. rewrite (iv_has0 i m n s a H1 H2). split; intros (o & X & Y).
    + exists o. auto using nth_app_old.
    + apply nth_app_new in X as [X|[-> X]]; [|discriminate].
      apply nth_app_new in Y as [Y|[-> ->]]; eauto. apply nth_lt in X. lia.
  - intros o i s H. apply nth_app_new in H as [H|[_ H]]; [eauto|discriminate].
Qed.

Lemma mach_put p h i m m' j x : mach p i m ->
  (mach (put p h i m') j x <-> j = i /\ x = m' \/ j <> i /\ mach p j x).
Proof.
  intros H. unfold mach, put in *. cbn [p_ms]. destruct (Nat.eq_dec j i) as [->|N].
  - rewrite (nth_update_eq _ _ _ _ H). split.
    + intros X. injection X as <-. auto.
    + intros [[_ ->]|[X _]]; congruence.
  - rewrite nth_update_neq by auto. split; auto. intros [[X _]|[_ X]]; congruence.
Qed.

Lemma inv_put p b lost i n m m' h' w' : inv p b lost -> alive b i n -> mach p i m ->
  cells m' = cells m -> List.length (om_elems m') = List.length (om_elems m) ->
  h_next (p_heap p) <= h_next h' -> (forall a, In a (h_live h') <-> In a (h_live (p_heap p))) ->
  List.length w' = List.length (b_obs b) ->
  (forall o x x', nth_error (b_obs b) o = Some x -> nth_error w' o = Some x' -> (x = Gone <-> x' = Gone)) ->
  (forall o j s, nth_error w' o = Some (On j s) -> exists n, alive b j n) ->
  (forall s a, has m' s a <-> exists o, nth_error w' o = Some (On i s) /\ nth_error (p_obs p) o = Some a) ->
  (forall j s o, j <> i -> (nth_error w' o = Some (On j s) <-> nth_error (b_obs b) o = Some (On j s))) ->
  inv (put p h' i m') (mkBk (b_ms b) w') lost.
Proof.
  intros I Ha Hm Hc Hl Hn Hv Hw Hg Ho Hh Hj.
  assert (M : forall j x, mach (put p h' i m') j x -> exists y, mach p j y /\ cells x = cells y).
  { intros j x X. apply (mach_put _ _ _ _ _ _ _ Hm) in X as [[-> ->]|[_ X]]; eauto. }
  assert (M2 : forall j y, mach p j y -> exists x, mach (put p h' i m') j x /\ cells x = cells y).
  { intros j y X. destruct (Nat.eq_dec j i) as [->|N].
    - exists m'. split. { apply (mach_put _ _ _ _ _ _ _ Hm). auto. } unfold mach in *. congruence.
    - exists y. split; auto. apply (mach_put _ _ _ _ _ _ _ Hm). auto. }
  destruct I. constructor; cbn [put p_heap p_ms p_obs b_ms b_obs].
  - rewrite update_length. auto.
  - congruence.
  - intros j k Hk. destruct (iv_alive0 j k Hk) as (y & Y1 & Y2 & Y3).
    destruct (Nat.eq_dec j i) as [->|N].
    + exists m'. split; [apply (mach_put _ _ _ _ _ _ _ Hm); auto|].
      assert (y = m) by (unfold mach in *; congruence). subst y.
      unfold cells in Hc. injection Hc as Hc1 Hc2. rewrite Hc2. split; congruence.
    + exists y. split; [apply (mach_put _ _ _ _ _ _ _ Hm); auto|]. auto.
  - intros j x a X Y. destruct (M _ _ X) as (y & Z & E). rewrite E in Y. specialize (iv_lt0 _ _ _ Z Y). lia.
  - intros a X. specialize (iv_olt0 _ X). lia.
  - intros a X. specialize (iv_llt0 _ X). lia.
  - intros j k x x' a X X' Y Y'. destruct (M _ _ X) as (y & Z & E), (M _ _ X') as (y' & Z' & E').
    rewrite E in Y. rewrite E' in Y'. eauto.
  - intros j x X. destruct (M _ _ X) as (y & Z & E). rewrite E. eauto.
  - auto.
  - intros j x a X Y. destruct (M _ _ X) as (y & Z & E). rewrite E in Y. eauto.
  - intros j x a X Y. destruct (M _ _ X) as (y & Z & E). rewrite E in Y. eauto.
  - auto.
  - intros a. rewrite Hv, iv_live0. split.
    + intros [(j & y & k & X & Y & Z)|[(o & w & X & Y & Z)|X]]; auto.
      * left. destruct (M2 _ _ Y) as (x & X1 & X2). exists j, x, k. rewrite X2. auto.
      * right. left. destruct (nth_error w' o) as [w2|] eqn:E.
        2:{ apply nth_error_None in E. apply nth_lt in X. lia. }
        exists o, w2. repeat split; auto. intros Q. apply Y. now apply (Hg o w w2 X E).
    + intros [(j & y & k & X & Y & Z)|[(o & w & X & Y & Z)|X]]; auto.
      * left. destruct (M _ _ Y) as (x & X1 & X2). exists j, x, k. rewrite <- X2. auto.
      * right. left. destruct (nth_error (b_obs b) o) as [w2|] eqn:E.
        2:{ apply nth_error_None in E. apply nth_lt in X. lia. }
        exists o, w2. repeat split; auto. intros Q. apply Y. now apply (Hg o w2 w E X).
  - intros j x k s a X Y. apply (mach_put _ _ _ _ _ _ _ Hm) in Y as [[-> ->]|[N Y]].
    + apply Hh.
    + rewrite (iv_has0 j x k s a X Y). split; intros (o & Q & R); exists o; split; auto; now apply Hj.
  - intros o j s X. apply (Ho o j s X).
Qed.

(** Accesses to a machine which exists. *)
Lemma mach_live p b lost i n m : inv p b lost -> alive b i n -> mach p i m ->
  forall a, In a (cells m) -> In a (h_live (p_heap p)).
Proof. intros I H1 H2 a H3. apply (iv_live _ _ _ I). left. eauto 6. Qed.
Lemma use_mach p b lost i n : inv p b lost -> alive b i n -> exists m, use p i = Fine m /\ mach p i m /\
  List.length (om_elems m) = n /\ List.length (om_els m) = n /\ h_ok (p_heap p) (om_addr m) = true /\
  forallb (h_ok (p_heap p)) (om_els m) = true.
Proof.
  intros I H. destruct (iv_alive _ _ _ I i n H) as (m & H1 & H2 & H3). exists m.
  pose proof (mach_live _ _ _ _ _ _ I H H1) as L.
  split; [unfold use; rewrite H1; reflexivity|]. repeat (split; auto).
  - apply h_ok_live, L. simpl; auto.
  - apply h_oks_live. intros a X. apply L. simpl; auto.
Qed.

Lemma step_prop p b lost i st start max n : inv p b lost -> alive b i n -> max <> INT_MIN ->
  exists p', step reg p (Propagate i st start max) = Fine p' /\ inv p' b lost.
Proof.
  intros I Ha Hx. destruct (use_mach _ _ _ _ _ I Ha) as (m & Hu & Hm & L1 & L2 & O1 & O2).
  cbn [step]. rewrite Hu. cbn [mbind]. unfold prop_mem. rewrite O1, O2. cbn [andb].
  destruct (propagate_some (om_m m) st start max Hx) as (r & Hr). rewrite Hr.
  destruct (propagate_obs _ _ _ _ _ Hr) as [P1 P2].
  rewrite (proj2 (forallb_forall _ _)).
  2:{ intros ev Hev. apply h_ok_live, (iv_live _ _ _ I). right. left.
      destruct (In_nth_error _ _ (P2 ev Hev)) as [s Hs].
      destruct (proj1 (iv_has _ _ _ I i m n s (ev_obs ev) Ha Hm) Hs) as (o & X & Y).
      exists o, (On i s). repeat split; auto. discriminate. }
  eexists. split; [reflexivity|]. destruct b as [bm bo].
  apply (inv_put p (mkBk bm bo) lost i n m); auto; cbn [b_obs].
  - apply obsv_same. apply P1.
  - intros a; reflexivity.
  - intros o x x' X Y. rewrite X in Y. injection Y as ->. tauto.
  - intros o j s X. apply (iv_on _ _ _ I o j s X).
  - intros s a. rewrite <- (iv_has _ _ _ I i m n s a Ha Hm). unfold has. unfold om_elems at 1, om_put. simpl.
    rewrite P1. reflexivity.
  - reflexivity.
Qed.

Lemma step_reconf p b lost i idx c n : inv p b lost -> alive b i n ->
  exists p', step reg p (Reconf i idx c) = Fine p' /\ inv p' b lost.
Proof.
  intros I Ha. destruct (use_mach _ _ _ _ _ I Ha) as (m & Hu & Hm & L1 & L2 & O1 & O2).
  cbn [step]. rewrite Hu. cbn [mbind].
  assert (R : exists h' , reconf_mem (p_heap p) m idx c =
     Fine (h', mkOM (om_addr m) (fst (reconfigure (om_m m) idx c)) (om_els m)) /\
     h_next (p_heap p) <= h_next h' /\ forall a, In a (h_live h') <-> In a (h_live (p_heap p))).
  { unfold reconf_mem. rewrite O1.
    assert (Z : forall x : prog D B, exists h' : heap, Fine (p_heap p, mkOM (om_addr m) (fst (reconfigure (om_m m) idx c)) (om_els m)) =
       Fine (h', mkOM (om_addr m) (fst (reconfigure (om_m m) idx c)) (om_els m)) /\
       h_next (p_heap p) <= h_next h' /\ forall a, In a (h_live h') <-> In a (h_live (p_heap p))).
    { intros _. exists (p_heap p). split; [reflexivity|]. split; [lia|]. tauto. }
    destruct (slot (om_elems m) idx) as [e|] eqn:Hs; [|apply Z, p].
    destruct (get_str c "type") as [t|]; [|apply Z, p].
    destruct (sfind t _) as [k|]; [|apply Z, p].
    destruct (build k c) as [e'|] eqn:Hb; [|apply Z, p].
    rewrite h_new_eq. rewrite slot_nth in Hs. apply nth_lt in Hs.
    destruct (nth_error (om_els m) (N.to_nat idx)) as [x|] eqn:Hx.
    2:{ apply nth_error_None in Hx. lia. }
    rewrite (h_ok_live (snd (h_new (p_heap p))) x).
    2:{ simpl. right. apply (mach_live _ _ _ _ _ _ I Ha Hm). right. apply (nth_error_In _ _ Hx). }
    unfold elem_frees. cbn [fst snd]. rewrite (build_none _ _ _ Hb). cbn [app].
    destruct (frees_ok [h_next (p_heap p)] (snd (h_new (p_heap p)))) as (h' & F1 & F2 & F3 & F4).
    { repeat constructor. intros []. }
    { intros a [<-|[]]. simpl. auto. }
    rewrite F1. cbn [mbind]. exists h'. split; [reflexivity|]. split; [rewrite F2; simpl; lia|].
    intros a. rewrite F4. simpl. split; [intros [[->|X] Y]; auto; exfalso; apply Y; auto|].
    intros X. split; auto. intros [<-|[]].
    apply (iv_live _ _ _ I) in X as [(j & y & k' & _ & X & Y)|[(o & w & X & _ & Y)|X]].
    - pose proof (iv_lt _ _ _ I _ _ _ X Y). lia.
    - pose proof (iv_olt _ _ _ I _ (nth_error_In _ _ Y)). lia.
    - pose proof (iv_llt _ _ _ I _ X). lia. }
  destruct R as (h' & R1 & R2 & R3). rewrite R1. cbn [mbind].
  eexists. split; [reflexivity|]. destruct b as [bm bo].
  apply (inv_put p (mkBk bm bo) lost i n m); auto; cbn [b_obs].
  - apply obsv_same. apply reconfigure_obs.
  - intros o x x' X Y. rewrite X in Y. injection Y as ->. tauto.
  - intros o j s X. apply (iv_on _ _ _ I o j s X).
  - intros s a. rewrite <- (iv_has _ _ _ I i m n s a Ha Hm). unfold has. unfold om_elems at 1. simpl.
    rewrite reconfigure_obs. reflexivity.
  - reflexivity.
Qed.

Lemma nth_give i s l o w : nth_error (map (give_back i s) l) o = Some w <->
  exists x, nth_error l o = Some x /\ w = give_back i s x.
Proof.
  rewrite nth_error_map. destruct (nth_error l o) as [x|]; simpl; split.
  - intros H. injection H as <-. eauto.
  - intros (y & H & ->). congruence.
  - discriminate.
  - intros (y & H & _). discriminate.
Qed.
Lemma give_gone i s x : give_back i s x = Gone <-> x = Gone.
Proof.
  destruct x as [|j t|]; simpl; try tauto. destruct (_ && _)%bool; split; discriminate.
Qed.
Lemma give_on i s x j t : give_back i s x = On j t <-> x = On j t /\ ~ (j = i /\ t = s).
Proof.
  destruct x as [|j' t'|]; simpl; try (split; [discriminate|intros [X _]; discriminate]).
  destruct (Nat.eqb_spec i j') as [->|N]; cbn [andb].
  - destruct (Nat.eqb_spec s t') as [->|N2].
    + split; [discriminate|]. intros [X Y]. injection X as -> ->. tauto.
    + split; [intros X|tauto]. split; auto. injection X as -> ->. intros [_ ->]. auto.
  - split; [intros X|tauto]. split; auto. injection X as -> ->. intros [-> _]. auto.
Qed.

Lemma has_set m s o t a : s < List.length (om_elems m) ->
  (has (om_put m (set_observer (om_elems m) s o)) t a <-> (t = s /\ o = Some a) \/ (t <> s /\ has m t a)).
Proof.
  intros H. unfold has. replace (om_elems (om_put m (set_observer (om_elems m) s o)))
    with (set_observer (om_elems m) s o) by reflexivity.
  rewrite set_observer_obs. destruct (Nat.eq_dec t s) as [->|N].
  - destruct (nth_error (obsv (om_elems m)) s) as [x|] eqn:E.
    2:{ apply nth_error_None in E. rewrite obsv_length in E. lia. }
    rewrite (nth_update_eq _ _ _ _ E). split; [intros X; injection X as ->; auto|].
    intros [[_ ->]|[X _]]; congruence.
  - rewrite nth_update_neq by auto. split; auto. intros [[X _]|[_ X]]; congruence.
Qed.

Lemma set_mem_ok p b lost i n m s o : inv p b lost -> alive b i n -> mach p i m ->
  List.length (om_els m) = n -> s < n ->
  set_mem (p_heap p) m s o = Fine (om_put m (set_observer (om_elems m) s o)).
Proof.
  intros I Ha Hm L H. unfold set_mem.
  rewrite (h_ok_live _ (om_addr m)) by (apply (mach_live _ _ _ _ _ _ I Ha Hm); simpl; auto).
  destruct (nth_error (om_els m) s) as [a|] eqn:E.
  2:{ apply nth_error_None in E. lia. }
  rewrite (h_ok_live _ a); auto. apply (mach_live _ _ _ _ _ _ I Ha Hm). right. apply (nth_error_In _ _ E).
Qed.

Lemma set_length m s o : List.length (om_elems (om_put m (set_observer (om_elems m) s o))) = List.length (om_elems (m : omach D B)).
Proof.
  replace (om_elems (om_put m (set_observer (om_elems m) s o))) with (set_observer (om_elems m) s o) by reflexivity.
  unfold set_observer. destruct (nth_error _ _); auto. apply update_length.
Qed.

Lemma step_unset p b lost i s n : inv p b lost -> alive b i n -> s < n ->
  exists p', step reg p (SetObs i s None) = Fine p' /\ inv p' (mkBk (b_ms b) (map (give_back i s) (b_obs b))) lost.
Proof.
  intros I Ha Hs. destruct (use_mach _ _ _ _ _ I Ha) as (m & Hu & Hm & L1 & L2 & O1 & O2).
  cbn [step]. rewrite Hu. cbn [mbind]. rewrite (set_mem_ok _ _ _ _ _ _ _ _ I Ha Hm L2 Hs). cbn [mbind].
  eexists. split; [reflexivity|].
  apply (inv_put p b lost i n m); auto.
  - apply set_length.
  - intros a; reflexivity.
  - apply map_length.
  - intros o x x' X Y. apply nth_give in Y as (y & Y & ->). assert (x = y) by congruence. subst y.
    rewrite give_gone. tauto.
  - intros o j t X. apply nth_give in X as (y & Y & X). symmetry in X. apply give_on in X as [-> _].
    apply (iv_on _ _ _ I o j t Y).
  - intros t a. rewrite has_set by lia. rewrite (iv_has _ _ _ I i m n t a Ha Hm). split.
    + intros [[_ X]|[N (o & X & Y)]]; [discriminate|]. exists o. split; auto. apply nth_give.
      exists (On i t). split; auto. symmetry. apply give_on. split; auto. tauto.
    + intros (o & X & Y). apply nth_give in X as (y & Z & X). symmetry in X. apply give_on in X as [-> X].
      right. split; [intros ->; tauto|]. eauto.
  - intros j t o N. rewrite nth_give. split.
    + intros (y & Y & X). symmetry in X. apply give_on in X as [-> _]. auto.
    + intros X. exists (On j t). split; auto. symmetry. apply give_on. split; auto. tauto.
Qed.

Lemma step_set p b lost i s o n : inv p b lost -> alive b i n -> s < n -> nth_error (b_obs b) o = Some Mine ->
  exists p', step reg p (SetObs i s (Some o)) = Fine p' /\
    inv p' (mkBk (b_ms b) (put_at (map (give_back i s) (b_obs b)) o (On i s))) lost.
Proof.
  intros I Ha Hs Hmine. destruct (use_mach _ _ _ _ _ I Ha) as (m & Hu & Hm & L1 & L2 & O1 & O2).
  cbn [step]. destruct (nth_error (p_obs p) o) as [a0|] eqn:E0.
  2:{ apply nth_error_None in E0. apply nth_lt in Hmine. rewrite (iv_ob _ _ _ I) in E0. lia. }
  rewrite Hu. cbn [mbind]. rewrite (set_mem_ok _ _ _ _ _ _ _ _ I Ha Hm L2 Hs). cbn [mbind].
  eexists. split; [reflexivity|]. rewrite put_at_update.
  assert (Hg : nth_error (map (give_back i s) (b_obs b)) o = Some Mine).
  { apply nth_give. exists Mine. auto. }
  assert (W : forall q w, nth_error (update (map (give_back i s) (b_obs b)) o (On i s)) q = Some w <->
     q = o /\ w = On i s \/ q <> o /\ exists x, nth_error (b_obs b) q = Some x /\ w = give_back i s x).
  { intros q w. destruct (Nat.eq_dec q o) as [->|N].
    - rewrite (nth_update_eq _ _ _ _ Hg). split; [intros X; injection X as <-; auto|].
      intros [[_ ->]|[X _]]; congruence.
    - rewrite nth_update_neq, nth_give by auto. split; auto. intros [[X _]|[_ X]]; [congruence|auto]. }
  apply (inv_put p b lost i n m); auto.
  - apply set_length.
  - intros a; reflexivity.
  - rewrite update_length. apply map_length.
  - intros q x x' X Y. apply W in Y as [[-> ->]|[N (y & Y & ->)]].
    + assert (x = Mine) by congruence. subst x. split; discriminate.
    + assert (x = y) by congruence. subst y. rewrite give_gone. tauto.
  - intros q j t X. apply W in X as [[-> X]|[N (y & Y & X)]].
    + injection X as -> ->. eauto.
    + symmetry in X. apply give_on in X as [-> _]. apply (iv_on _ _ _ I q j t Y).
  - intros t a. rewrite has_set by lia. rewrite (iv_has _ _ _ I i m n t a Ha Hm). split.
    + intros [[-> X]|[N (q & X & Y)]].
      * injection X as ->. exists o. split; auto. apply W. auto.
      * exists q. split; auto. apply W. right. split; [intros ->; congruence|].
        exists (On i t). split; auto. symmetry. apply give_on. split; auto. tauto.
    + intros (q & X & Y). apply W in X as [[-> X]|[N (y & Z & X)]].
      * injection X as ->. left. split; congruence.
      * symmetry in X. apply give_on in X as [-> X].
        right. split; [intros ->; tauto|]. eauto.
  - intros j t q N. rewrite W. split.
    + intros [[_ X]|[_ (y & Y & X)]]; [congruence|]. symmetry in X. apply give_on in X as [-> _]. auto.
    + intros X. right. split; [intros ->; congruence|]. exists (On j t). split; auto. symmetry. apply give_on.
      split; auto. tauto.
Qed.
End P.
