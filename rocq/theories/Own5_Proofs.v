From Coq Require Import List String Bool NArith ZArith Arith Lia.
From Verif Require Import SMap SMap_Proofs Dbl Config_Spec Machine_Model Machine_Spec Machine_Proofs
  Cli_Model Own_Model Own_Spec Own_Proofs Own2_Proofs Own3_Proofs.
Import ListNotations.
Open Scope list_scope.

(** ** Slots in the lookup tables *)
Lemma linsert_in k v m x : In x (map snd (linsert k v m)) -> x = v \/ In x (map snd m).
Proof.
  induction m as [|[k' v'] m IH]; simpl; [intuition|].
  destruct (key_lt k k'); simpl; [intuition|]. destruct (key_lt k' k); simpl; intuition.
Qed.
Lemma lk_in l x : In x (map snd (lk l)) -> x < List.length l.
Proof.
  revert x. induction l as [|a l IH] using rev_ind; intros x; [intros []|].
  rewrite lk_snoc. intros H. apply linsert_in in H as [->|H]; rewrite app_length; simpl; [lia|].
  specialize (IH x H). lia.
Qed.
Lemma lower_in k m x : In x (map snd (from_lower k m)) -> In x (map snd m).
Proof. induction m as [|[k' v'] m IH]; simpl; auto. destruct (key_lt k' k); simpl; tauto. Qed.
Lemma upper_in k m x : In x (map snd (to_upper k m)) -> In x (map snd m).
Proof. induction m as [|[k' v'] m IH]; simpl; auto. destruct (key_lt k k'); simpl; tauto. Qed.

Section P.
Context {D B : Type}.
Variable reg : registry D B.

Lemma range_lt c (m : machine D B) n x : new_machine reg c = Ok m ->
  In x (equal_range m n) \/ In x (equal_range_type m n) -> x < List.length (m_elems m).
Proof.
  intros H. apply new_machine_ok in H as (t & i & es & _ & _ & _ & _ & _ & _ & _ & Hn & Ht & _).
  unfold equal_range, equal_range_type. intros [X|X]; apply upper_in, lower_in in X.
  - rewrite Hn in X. apply lk_in in X. now rewrite map_length in X.
  - rewrite Ht in X. apply lk_in in X. now rewrite map_length in X.
Qed.

(** The tool's memory: one machine, whose elements have all the observers. *)
Definition tool (hm : heap * omach D B) (n : nat) : Prop :=
  exists obs ws, inv (mkP (fst hm) [Some (snd hm)] obs) (mkBk [Some n] ws) [] /\
    forall w, In w ws -> exists s, w = On 0 s.

Lemma tool_len hm n : tool hm n -> List.length (om_elems (snd hm)) = n /\ List.length (om_els (snd hm)) = n.
Proof.
  intros (obs & ws & I & _). destruct (iv_alive _ _ _ I 0 n eq_refl) as (m & X & Y & Z).
  unfold mach in X. cbn in X. injection X as <-. auto.
Qed.

Lemma tool_set mk hm n s : tool hm n -> s < n ->
  nth_error (obsv (om_elems (snd hm))) s = Some None ->
  exists hm', cli_set mk hm s = Fine hm' /\ tool hm' n /\
    forall t, t <> s -> nth_error (obsv (om_elems (snd hm'))) t = nth_error (obsv (om_elems (snd hm))) t.
Proof.
  destruct hm as [h m]. intros T Hs Hn. destruct (tool_len _ _ T) as [L1 L2].
  destruct T as (obs & ws & I & Hw). cbn [fst snd] in *.
  assert (Hold : forall t, t <> s ->
     forall o, nth_error (obsv (set_observer (om_elems m) s o)) t = nth_error (obsv (om_elems m)) t).
  { intros t N o. rewrite set_observer_obs. apply nth_update_neq. auto. }
  assert (G : map (give_back 0 s) ws = ws).
  { rewrite <- (map_id ws) at 2. apply map_ext_in. intros w X. destruct (Hw w X) as [t ->].
    destruct (Nat.eq_dec t s) as [->|N].
    - exfalso. apply In_nth_error in X as [o X].
      destruct (nth_error obs o) as [a|] eqn:E.
      2:{ apply nth_error_None in E. apply nth_lt in X. pose proof (iv_ob _ _ _ I) as Q. cbn in Q. lia. }
      assert (Y : has m s a) by (apply (iv_has _ _ _ I 0 m n s a eq_refl eq_refl); exists o; auto).
      unfold has in Y. congruence.
    - simpl. destruct (Nat.eqb_spec s t); [congruence|reflexivity]. }
  unfold cli_set. destruct mk.
  - rewrite h_new_eq.
    destruct (step_newobs reg _ _ _ I) as (p1 & S1 & I1). cbn [step p_heap p_ms p_obs] in S1.
    rewrite h_new_eq in S1. injection S1 as <-. cbn [b_ms b_obs] in I1.
    assert (A : alive (mkBk [Some n] (ws ++ [Mine])) 0 n) by reflexivity.
    assert (Ho : nth_error (ws ++ [Mine]) (List.length ws) = Some Mine).
    { rewrite nth_error_app2, Nat.sub_diag; auto. }
    destruct (step_set reg _ _ _ 0 s (List.length ws) n I1 A Hs Ho) as (p2 & S2 & I2).
    cbn [step p_heap p_ms p_obs] in S2.
    assert (E : nth_error (obs ++ [h_next h]) (List.length ws) = Some (h_next h)).
    { pose proof (iv_ob _ _ _ I) as Q. cbn in Q. rewrite <- Q, nth_error_app2, Nat.sub_diag; auto. }
    rewrite E in S2. unfold use in S2. cbn [p_ms nth_error mbind] in S2.
    rewrite (set_mem_ok _ _ _ 0 n m s _ I1 A eq_refl L2 Hs) in S2. cbn [mbind] in S2. injection S2 as <-.
    pose proof (set_mem_ok _ _ _ 0 n m s (Some (h_next h)) I1 A eq_refl L2 Hs) as SM. cbn [p_heap] in SM.
    unfold h_new. cbn [snd]. rewrite SM. cbn [mbind]. eexists. split; [reflexivity|]. split; [|cbn; intros t N; apply Hold; auto].
    exists (obs ++ [h_next h]), (put_at (map (give_back 0 s) (ws ++ [Mine])) (List.length ws) (On 0 s)).
    split; [exact I2|]. intros w X. apply In_nth_error in X as [o X].
    assert (Hg : nth_error (map (give_back 0 s) (ws ++ [Mine])) (List.length ws) = Some Mine).
    { apply nth_give. exists Mine. auto. }
    apply (nth_put _ _ _ _ _ _ Hg) in X as [[_ ->]|[N X]]; [eauto|].
    apply nth_give in X as (y & X & ->). apply nth_app_new in X as [X|[-> _]]; [|contradiction].
    assert (Z : In (give_back 0 s y) (map (give_back 0 s) ws)) by (apply in_map, (nth_error_In _ _ X)).
    rewrite G in Z. auto.
  - assert (A : alive (mkBk [Some n] ws) 0 n) by reflexivity.
    destruct (step_unset reg _ _ _ 0 s n I A Hs) as (p2 & S2 & I2).
    cbn [step p_heap p_ms p_obs] in S2. unfold use in S2. cbn [p_ms nth_error mbind] in S2.
    pose proof (set_mem_ok _ _ _ 0 n m s None I A eq_refl L2 Hs) as SM. cbn [p_heap] in SM.
    rewrite SM in *. cbn [mbind] in *. injection S2 as <-.
    eexists. split; [reflexivity|]. split; [|cbn; intros t N; apply Hold; auto].
    exists obs, (map (give_back 0 s) ws). split; [exact I2|]. rewrite G. auto.
Qed.
Lemma tool_attach mk hm n s : tool hm n -> s < n -> exists hm', cli_attach mk hm s = Fine hm' /\ tool hm' n.
Proof.
  intros T Hs. destruct (tool_len _ _ T) as [L1 L2]. unfold cli_attach.
  destruct (nth_error (om_elems (snd hm)) s) as [e|] eqn:E.
  2:{ apply nth_error_None in E. lia. }
  destruct (el_obs e) eqn:Eo; [eauto|].
  destruct (tool_set mk hm n s T Hs) as (hm' & X & Y & _); [|eauto].
  rewrite (obsv_nth _ _ _ E). now rewrite Eo.
Qed.
Lemma tool_attaches mk n l : forall hm, tool hm n -> (forall s, In s l -> s < n) ->
  exists hm', cli_attaches (cli_attach mk) hm l = Fine hm' /\ tool hm' n.
Proof.
  induction l as [|s l IH]; intros hm T H; cbn [cli_attaches]; [eauto|].
  destruct (tool_attach mk hm n s T) as (hm1 & X & Y); [apply H; simpl; auto|].
  rewrite X. cbn [mbind]. apply IH; auto. intros t Ht. apply H. simpl; auto.
Qed.
Lemma tool_all mk n k : forall j hm, tool hm n -> j + k = n ->
  (forall s, j <= s < n -> nth_error (obsv (om_elems (snd hm))) s = Some None) ->
  exists hm', cli_attaches (cli_set mk) hm (seq j k) = Fine hm' /\ tool hm' n.
Proof.
  induction k as [|k IH]; intros j hm T Hj H; cbn [cli_attaches seq]; [eauto|].
  destruct (tool_set mk hm n j T) as (hm1 & X & Y & Z); [lia|apply H; lia|].
  rewrite X. cbn [mbind]. apply IH; auto; [lia|]. intros s Hs. rewrite Z by lia. apply H. lia.
Qed.

Lemma tool_new c h' om : new_mem reg (mkH 0 [] []) c = (h', Ok om) ->
  tool (h', om) (List.length (om_elems om)) /\ Forall (fun e => el_obs e = None) (om_elems om).
Proof.
  intros E. destruct (new_mem_ok _ _ _ _ _ E) as (N1 & _ & _ & _ & N5). split; auto.
  destruct (step_new reg _ _ _ c (inv_start (D:=D) (B:=B))) as (p' & lost & X & Y & Z).
  cbn [step] in X. cbn [p_start p_heap] in X. rewrite E in X. cbn [p_ms p_obs app] in X. injection X as <-.
  rewrite Z in Y by eauto. rewrite N1 in Y. exists [], []. cbn [fst snd]. split; [exact Y|]. intros w [].
Qed.
Lemma tool_prop hm n st start max : tool hm n -> max <> INT_MIN ->
  exists m', prop_mem (fst hm) (snd hm) st start max = Fine m' /\ tool (fst hm, m') n.
Proof.
  destruct hm as [h m]. intros (obs & ws & I & Hw) Hx. cbn [fst snd] in *.
  destruct (step_prop reg _ _ _ 0 st start max n I eq_refl Hx) as (p1 & S1 & I1).
  cbn [step p_heap] in S1. unfold use in S1. cbn [p_ms nth_error mbind] in S1.
  destruct (prop_mem h m st start max) as [m'|]; [|discriminate]. cbn [mbind] in S1. injection S1 as <-.
  exists m'. split; auto. exists obs, ws. cbn [fst snd]. split; auto.
Qed.
Lemma tool_del hm n : tool hm n -> exists h', del_mem (fst hm) (snd hm) = Fine h' /\ h_live h' = [].
Proof.
  destruct hm as [h m]. intros (obs & ws & I & Hw). cbn [fst snd] in *.
  destruct (step_del reg _ _ _ 0 n I eq_refl) as (p1 & S1 & I1).
  cbn [step p_heap p_ms nth_error] in S1.
  destruct (del_mem h m) as [h'|]; [|discriminate]. cbn [mbind] in S1. injection S1 as <-.
  exists h'. split; auto. destruct (h_live h') as [|a k] eqn:E; auto. exfalso.
  destruct (proj1 (iv_live _ _ _ I1 a)) as [(i & x & k' & X & _)|[(o & w & X & Y & _)|[]]].
  - cbn [p_heap]. rewrite E. simpl; auto.
  - unfold alive in X. cbn in X. destruct i as [|[|i]]; discriminate.
  - cbn [b_obs] in X. rewrite nth_error_map in X. destruct (nth_error ws o) as [w'|] eqn:E2; [|discriminate].
    destruct (Hw w' (nth_error_In _ _ E2)) as [s ->]. cbn in X. congruence.
Qed.

Lemma cli_freed mk a max c m st1 st2 : new_machine reg c = Ok m -> max <> INT_MIN ->
  exists h', cli_mem reg (mkH 0 [] []) mk a max c st1 st2 = Fine h' /\ h_live h' = [].
Proof.
  intros Hm Hx. unfold cli_mem.
  destruct (new_mem reg (mkH 0 [] []) c) as [h [om|e]] eqn:E.
  2:{ destruct (new_mem_throw _ _ _ _ _ E) as [X _]. congruence. }
  destruct (tool_new _ _ _ E) as [T F].
  destruct (new_mem_ok _ _ _ _ _ E) as (N1 & _).
  assert (S : exists hm, cli_select mk a (h, om) = Fine hm /\ tool hm (List.length (om_elems om))).
  { unfold cli_select. cbn [snd]. change (m_elems (om_m om)) with (om_elems om).
    set (n := List.length (om_elems om)) in *.
    assert (S1 : exists hm, (if a_all a then cli_attaches (cli_set mk) (h, om) (seq 0 n) else Fine (h, om)) = Fine hm /\ tool hm n).
    { destruct (a_all a); [|eauto]. apply tool_all; auto. intros s Hs. cbn [snd].
      destruct (nth_error (om_elems om) s) as [x|] eqn:Ex.
      2:{ apply nth_error_None in Ex. lia. }
      rewrite (obsv_nth _ _ _ Ex). rewrite Forall_forall in F. now rewrite (F x (nth_error_In _ _ Ex)). }
    destruct S1 as (hm1 & X1 & T1). rewrite X1. cbn [mbind].
    destruct (tool_attaches mk n (flat_map (equal_range_type (om_m om)) (a_types a)) hm1 T1) as (hm2 & X2 & T2).
    { intros s X. apply in_flat_map in X as (t & _ & X). apply (range_lt c (om_m om) t s N1). auto. }
    rewrite X2. cbn [mbind].
    destruct (tool_attaches mk n (flat_map (equal_range (om_m om)) (a_names a)) hm2 T2) as (hm3 & X3 & T3).
    { intros s X. apply in_flat_map in X as (t & _ & X). apply (range_lt c (om_m om) t s N1). auto. }
    rewrite X3. cbn [mbind].
    destruct (a_last a); cbn [andb]; [|eauto].
    destruct (Nat.eqb_spec n 0); cbn [negb]; [eauto|]. apply tool_attach; auto. lia. }
  destruct S as ([h1 m1] & X & T1). rewrite X. cbn [mbind].
  destruct (tool_prop (h1, m1) _ st1 0 max T1 Hx) as (m2 & P1 & T2). cbn [fst snd] in *. rewrite P1. cbn [mbind].
  assert (S2 : exists m3, (if a_timeit a then prop_mem h1 m2 st2 0 max else Fine m2) = Fine m3 /\ tool (h1, m3) (List.length (om_elems om))).
  { destruct (a_timeit a); [|eauto]. apply (tool_prop (h1, m2) _ st2 0 max T2 Hx). }
  destruct S2 as (m3 & P2 & T3). rewrite P2. cbn [mbind]. apply (tool_del (h1, m3) _ T3).
Qed.
End P.
