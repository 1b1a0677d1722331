From Coq Require Import List String Bool NArith ZArith Arith Lia.
From Verif Require Import SMap SMap_Proofs Dbl Config_Spec Machine_Model Machine_Spec Machine_Proofs
  Cli_Model Own_Model Own_Spec Own_Proofs Own2_Proofs Own3_Proofs.
Import ListNotations.
Open Scope list_scope.

Section P.
Context {D B : Type}.
Variable reg : registry D B.

(** ** What a failed construction leaves *)
Lemma build_mem_count (i : sinfo D B) es : forall h acc,
  List.length (h_live (fst (build_mem i es h acc))) = fst (n_made i es) + List.length (h_live h) /\
  forall a, In a (h_live h) -> In a (h_live (fst (build_mem i es h acc))).
Proof.
  induction es as [|ec es IH]; intros h acc; cbn [build_mem n_made]; auto.
  destruct (get_str ec "type") as [t|]; auto.
  destruct (sfind t (si_elems i)) as [k|]; auto.
  destruct (build k ec) as [e|]; auto.
  rewrite h_new_eq. destruct (String.eqb (el_tname e) t); cbn [fst snd].
  - destruct (IH (snd (h_new h)) (acc ++ [h_next h])) as [H1 H2]. rewrite H1. simpl. split; [lia|]. auto.
    intros a X. apply H2. simpl. auto.
  - simpl. split; auto.
Qed.
Lemma made_good (i : sinfo D B) good : forall bad rest, Forall (buildable i) good -> ~ constructs i bad ->
  fst (n_made i (good ++ bad :: rest)) = List.length good.
Proof.
  induction good as [|g good IH]; intros bad rest F N; cbn [app n_made].
  - destruct (get_str bad "type") as [t|] eqn:T; auto.
    destruct (sfind t (si_elems i)) as [k|] eqn:K; auto.
    destruct (build k bad) as [e|] eqn:Hb; auto. destruct N. exists t, k, e. auto.
  - inversion F as [|? ? (t & k & nm & d & Ht & Hk & Hty & Hn & Hd) F']; subst.
    unfold get_str. rewrite Ht, Hk.
    rewrite (proj2 (build_ok k g _)) by (exists nm, d; split; [exact Hn|split; [exact Hd|reflexivity]]).
    unfold el_tname. simpl. rewrite String.eqb_refl. simpl. f_equal. now apply IH.
Qed.
Lemma build_loop_bad (i : sinfo D B) es : forall n acc l1 l2 out,
  build_loop i es n acc l1 l2 = Ok out -> Forall (constructs i) es.
Proof.
  induction es as [|ec es IH]; cbn [build_loop]; intros n acc l1 l2 out H; auto.
  unfold rbind in H. destruct (get_str ec "type") as [t|] eqn:T; [|discriminate].
  destruct (sfind t (si_elems i)) as [k|] eqn:K; [|discriminate].
  destruct (build k ec) as [e|x] eqn:Hb; [|destruct x; discriminate].
  destruct (String.eqb _ _); [|discriminate]. constructor; [exists t, k, e; auto|]. eapply IH, H.
Qed.
Lemma leak p c t i good bad rest : get_str c "sim_type" = Ok t -> sfind t reg = Some i ->
  get_cfgs c "elements" = Ok (good ++ bad :: rest) -> Forall (buildable i) good -> ~ constructs i bad ->
  exists p', step reg p (New c) = Fine p' /\ p_ms p' = p_ms p ++ [None] /\
    (exists e, new_machine reg c = Throw e) /\
    List.length (h_live (p_heap p')) = List.length good + List.length (h_live (p_heap p)) /\
    forall a, In a (h_live (p_heap p)) -> In a (h_live (p_heap p')).
Proof.
  intros Ht Hi He Hg Hb.
  assert (X : exists e, new_machine reg c = Throw e).
  { destruct (new_machine reg c) as [m|e] eqn:E; [|eauto]. exfalso. unfold new_machine, rbind in E.
    rewrite Ht, Hi, He in E. destruct (build_loop i _ 0 [] [] []) as [out|] eqn:Hl; [|discriminate].
    apply build_loop_bad in Hl. apply Forall_app in Hl as [_ Hl]. inversion Hl; subst. contradiction. }
  destruct X as [e X]. cbn [step]. unfold new_mem. rewrite Ht, Hi, He, X.
  destruct (build_mem i (good ++ bad :: rest) (p_heap p) []) as [h els] eqn:E.
  pose proof (build_mem_count i (good ++ bad :: rest) (p_heap p) []) as [C1 C2]. rewrite E in C1, C2. cbn [fst] in C1, C2.
  rewrite made_good in C1 by assumption.
  eexists. split; [reflexivity|]. cbn [p_ms p_heap]. split; auto. split; eauto.
Qed.

(** ** Python *)
Lemma observe_obs o l : forall (els : list (elem D B)),
  Forall (fun e => el_obs e = None \/ el_obs e = Some o) els ->
  Forall (fun e => el_obs e = None \/ el_obs e = Some o) (fst (py_observe els l o)) /\
  List.length (fst (py_observe els l o)) = List.length els.
Proof.
  induction l as [|z l IH]; intros els F; simpl; auto.
  destruct (_ || _)%bool; simpl; auto.
  assert (G : Forall (fun e => el_obs e = None \/ el_obs e = Some o) (set_observer els (Z.to_nat z) (Some o)) /\
              List.length (set_observer els (Z.to_nat z) (Some o)) = List.length els).
  { unfold set_observer. destruct (nth_error els (Z.to_nat z)) as [e|] eqn:E; auto.
    split; [|apply update_length]. rewrite Forall_forall in *. intros x X. apply in_update in X as [->|X]; auto. }
  destruct G as [G1 G2]. destruct (IH _ G1) as [H1 H2]. split; auto. congruence.
Qed.
Lemma unobserve_none (els : list (elem D B)) : Forall (fun e => el_obs e = None) (py_unobserve els).
Proof. unfold py_unobserve. apply Forall_forall. intros x X. apply in_map_iff in X as (e & <- & _). reflexivity. Qed.
Lemma obsv_in (els : list (elem D B)) o a : Forall (fun e => el_obs e = None \/ el_obs e = Some o) els ->
  In (Some a) (obsv els) -> a = o.
Proof.
  intros F H. unfold obsv in H. apply in_map_iff in H as (e & E & H). rewrite Forall_forall in F.
  destruct (F e H); congruence.
Qed.

Lemma pyprop_ok h (m : omach D B) st start pymax obs :
  h_ok h (om_addr m) = true -> forallb (h_ok h) (om_els m) = true ->
  Forall (fun e => el_obs e = None) (om_elems m) ->
  match pymax with Some z => py_int z <> INT_MIN | None => True end ->
  exists h' m', pyprop_mem h m st start pymax obs = Fine (h', m') /\ cells m' = cells m /\
    List.length (om_elems m') = List.length (om_elems m) /\ Forall (fun e => el_obs e = None) (om_elems m') /\
    h_next h <= h_next h' /\ h_live h' = h_live h.
Proof.
  intros O1 O2 F Hx. unfold pyprop_mem. rewrite O1, O2. cbn [andb]. unfold h_enter.
  destruct (observe_obs (h_next h) obs (om_elems m)) as [G1 G2].
  { rewrite Forall_forall in *. auto. }
  destruct (py_observe (om_elems m) obs (h_next h)) as [els r] eqn:E. cbn [fst] in G1, G2.
  destruct r as [u|e].
  - set (h1 := mkH (S (h_next h)) (h_live h) (h_next h :: h_auto h)).
    assert (K : forall a, h_ok h a = true -> h_ok h1 a = true).
    { intros a H. unfold h_ok in *. simpl. apply orb_prop in H as [->|H]; auto. rewrite H. now rewrite !orb_true_r. }
    set (max := match pymax with Some z => py_int z | None => INT_MAX end).
    assert (Hm : max <> INT_MIN) by (unfold max; destruct pymax; auto; discriminate).
    unfold prop_mem. cbn [om_put om_addr om_els om_m]. rewrite (K _ O1).
    rewrite (proj2 (forallb_forall _ _)) by (intros x X; apply K; rewrite forallb_forall in O2; auto).
    cbn [andb]. destruct (propagate_some (with_elems (om_m m) els) st start max Hm) as [p Hp]. rewrite Hp.
    destruct (propagate_obs _ _ _ _ _ Hp) as [P1 P2]. cbn [with_elems m_elems] in P1, P2.
    rewrite (proj2 (forallb_forall _ _)).
    2:{ intros ev Hev. rewrite (obsv_in els (h_next h) (ev_obs ev) G1 (P2 ev Hev)). unfold h_ok. simpl.
        rewrite Nat.eqb_refl. simpl. apply orb_true_r. }
    cbn [mbind]. eexists. eexists. split; [reflexivity|]. split; [reflexivity|].
    split. { cbn. unfold py_unobserve. rewrite map_length. pose proof (obsv_same _ _ P1). congruence. }
    split; [apply unobserve_none|]. simpl. split; auto.
  - eexists. eexists. split; [reflexivity|]. split; [reflexivity|].
    split. { cbn. unfold py_unobserve. rewrite map_length. exact G2. }
    split; [apply unobserve_none|]. simpl. split; auto.
Qed.

Lemma inv_add p b lost c h' om ms' bms' x :
  inv p b lost -> new_mem reg (p_heap p) c = (h', Ok om) ->
  (forall j y, mach (mkP h' ms' (p_obs p)) j y <-> mach p j y \/ j = x /\ om = y) ->
  (forall j n, alive (mkBk bms' (b_obs b)) j n <-> alive b j n \/ j = x /\ n = List.length (om_elems om)) ->
  (forall y, ~ mach p x y) -> (forall n, ~ alive b x n) -> List.length ms' = List.length bms' ->
  inv (mkP h' ms' (p_obs p)) (mkBk bms' (b_obs b)) lost.
Proof.
  intros I E Ma Al NM NA Ll.
  destruct (new_mem_ok _ _ _ _ _ E) as (N1 & N2 & N3 & (G1 & G2 & G3) & N5).
  assert (C : forall a, In a (cells om) <-> h_next (p_heap p) <= a < h_next h').
  { intros a. unfold cells. simpl. rewrite N2, in_seq, N3. lia. }
  destruct I. constructor.
  - auto.
  - auto.
  - intros i n H. apply Al in H as [H|[-> ->]].
    + destruct (iv_alive i n H) as (m & X & Y). exists m. split; auto. apply Ma. auto.
    + exists om. split; [apply Ma; right; split; congruence|]. split; auto. now rewrite N2, seq_length.
  - intros i m a H X. cbn [p_heap]. apply Ma in H as [H|[_ <-]].
    + specialize (iv_lt _ _ _ H X). lia.
    + apply C in X. lia.
  - cbn [p_heap p_obs]. intros a H. specialize (iv_olt _ H). lia.
  - cbn [p_heap]. intros a H. specialize (iv_llt _ H). lia.
  - intros i j m m' a H H' X X'. apply Ma in H as [H|[-> <-]], H' as [H'|[-> <-]]; auto.
    + eauto.
    + apply C in X'. specialize (iv_lt _ _ _ H X). lia.
    + apply C in X. specialize (iv_lt _ _ _ H' X'). lia.
  - intros i m H. apply Ma in H as [H|[_ <-]]; [eauto|].
    unfold cells. rewrite N2, N3. constructor; [rewrite in_seq; lia|apply seq_NoDup].
  - auto.
  - intros i m a H X. cbn [p_obs]. apply Ma in H as [H|[_ <-]]; [eauto|].
    apply C in X. intros Y. specialize (iv_olt _ Y). lia.
  - intros i m a H X. apply Ma in H as [H|[_ <-]]; [eauto|].
    apply C in X. intros Y. specialize (iv_llt _ Y). lia.
  - auto.
  - intros a. cbn [p_heap p_obs b_obs]. rewrite G3, iv_live. split.
    + intros [[(i & m & n & X & Y & Z)|[X|X]]|X]; auto.
      * left. exists i, m, n. rewrite Al, Ma. auto.
      * left. exists x, om, (List.length (om_elems om)). rewrite Al, Ma, C.
        split; [right; auto|]. split; [right; auto|exact X].
    + intros [(i & m & n & X & Y & Z)|[X|X]]; auto.
      apply Al in X as [X|[-> X]]; apply Ma in Y as [Y|[Y1 <-]].
      * left. left. eauto 6.
      * subst i. destruct (NA n X).
      * destruct (NM m Y).
      * right. now apply C.
  - intros i m n s a X Y. cbn [b_obs p_obs]. apply Al in X as [X|[-> X]]; apply Ma in Y as [Y|[Y1 <-]].
    + apply (iv_has i m n s a X Y).
    + subst i. destruct (NA n X).
    + destruct (NM m Y).
    + split.
      * intros H. destruct (none_has _ _ _ N5 H).
      * intros (o & H & _). destruct (iv_on _ _ _ H) as [k K]. destruct (NA k K).
  - intros o i s H. cbn [b_obs] in H. destruct (iv_on _ _ _ H) as [n K]. exists n. apply Al. auto.
Qed.

(** The states of Python's objects and the book the C++ rules keep. *)
Definition yinv (p : pyprog D B) (s : list pystatus) (lost : list nat) : Prop :=
  exists bm, inv (mkP (y_heap p) (y_ms p) []) (mkBk bm []) lost /\
    List.length s = List.length bm /\
    (forall x, nth_error s x = Some Ready <-> exists n, nth_error bm x = Some (Some n)) /\
    (forall x, nth_error s x = Some Raw -> nth_error (y_ms p) x = Some None).

Lemma yuse_ok p s lost x : yinv p s lost -> nth_error s x = Some Ready ->
  exists m, yuse p x = Fine m /\ h_ok (y_heap p) (om_addr m) = true /\
    forallb (h_ok (y_heap p)) (om_els m) = true /\ Forall (fun e => el_obs e = None) (om_elems m).
Proof.
  intros (bm & I & L & R & W) H. apply R in H as [n H].
  destruct (use_mach _ _ _ x n I H) as (m & U & Hm & L1 & L2 & O1 & O2). exists m.
  split; [exact U|]. split; auto. split; auto.
  apply Forall_forall. intros e He. apply In_nth_error in He as [j He].
  destruct (el_obs e) as [a|] eqn:E; auto. exfalso.
  destruct (proj1 (iv_has _ _ _ I x m n j a H Hm)) as (o & X & _).
  { unfold has. rewrite (obsv_nth _ _ _ He), E. reflexivity. }
  cbn [b_obs] in X. destruct o; discriminate.
Qed.

Lemma inv_put_none p bm lost i n (m m' : omach D B) h' :
  inv (mkP (y_heap p) (y_ms p) []) (mkBk bm []) lost -> nth_error bm i = Some (Some n) ->
  nth_error (y_ms p) i = Some (Some m) -> cells m' = cells m ->
  List.length (om_elems m') = List.length (om_elems m) -> Forall (fun e => el_obs e = None) (om_elems m') ->
  h_next (y_heap p) <= h_next h' -> (forall a, In a (h_live h') <-> In a (h_live (y_heap p))) ->
  inv (mkP h' (update (y_ms p) i (Some m')) []) (mkBk bm []) lost.
Proof.
  intros I Hn Hm C L F N V.
  apply (inv_put (mkP (y_heap p) (y_ms p) []) (mkBk bm []) lost i n m m' h' []); auto; cbn [b_obs p_obs].
  - intros o x x' X. destruct o; discriminate.
  - intros o j s X. destruct o; discriminate.
  - intros s a. split.
    + intros X. destruct (none_has _ _ _ F X).
    + intros (o & X & _). destruct o; discriminate.
  - intros j s o _. tauto.
Qed.
Lemma yraw_put (p : pyprog D B) (s : list pystatus) x m :
  (forall y, nth_error s y = Some Raw -> nth_error (y_ms p) y = Some None) -> nth_error s x <> Some Raw ->
  forall y, nth_error s y = Some Raw -> nth_error (update (y_ms p) x m) y = Some None.
Proof. intros W N y Y. rewrite nth_update_neq; auto. intros ->. contradiction. Qed.

Lemma pystep_init p s lost x c : yinv p s lost -> nth_error s x = Some Raw ->
  exists p' lost', pystep reg p (PyInit x c) = Fine p' /\
    yinv p' (match new_machine reg c with Ok _ => put_at s x Ready | Throw _ => s end) lost' /\
    ((exists m, new_machine reg c = Ok m) -> lost' = lost).
Proof.
  intros (bm & I & L & R & W) Hx. cbn [pystep]. pose proof (W x Hx) as Hw. rewrite Hw.
  assert (Hb : nth_error bm x = Some None).
  { destruct (nth_error bm x) as [[n|]|] eqn:E; auto.
    - assert (X : nth_error s x = Some Ready) by (apply R; eauto). congruence.
    - apply nth_error_None in E. apply nth_lt in Hx. lia. }
  destruct (new_mem reg (y_heap p) c) as [h' [om|e]] eqn:E.
  - destruct (new_mem_ok _ _ _ _ _ E) as (N1 & _). rewrite N1.
    eexists. exists lost. split; [reflexivity|]. split; [|auto].
    exists (put_at bm x (Some (List.length (om_elems om)))). cbn [yput y_heap y_ms].
    split; [|split; [|split]].
    + apply (inv_add (mkP (y_heap p) (y_ms p) []) (mkBk bm []) lost c h' om _ _ x I E); unfold mach, alive; cbn [p_ms b_ms].
      * intros j y. rewrite <- put_at_update, (nth_put _ _ _ _ _ _ Hw). split.
        -- intros [[-> X]|[_ X]]; auto. injection X as ->. auto.
        -- intros [X|[-> ->]]; auto. right. split; auto. intros ->. congruence.
      * intros j y. rewrite (nth_put _ _ _ _ _ _ Hb). split.
        -- intros [[-> X]|[_ X]]; auto. injection X as ->. auto.
        -- intros [X|[-> ->]]; auto. right. split; auto. intros ->. congruence.
      * intros y. congruence.
      * intros y. congruence.
      * rewrite update_length, put_length. apply (iv_ms _ _ _ I).
    + rewrite !put_length. auto.
    + intros y. rewrite (nth_put _ _ _ _ _ _ Hx). split.
      * intros [[-> _]|[N X]].
        -- eexists. apply (nth_put _ _ _ _ _ _ Hb). left. auto.
        -- apply R in X as [n X]. exists n. apply (nth_put _ _ _ _ _ _ Hb). auto.
      * intros [n X]. apply (nth_put _ _ _ _ _ _ Hb) in X as [[-> _]|[N X]]; auto. right. split; auto. apply R. eauto.
    + intros y X. apply (nth_put _ _ _ _ _ _ Hx) in X as [[_ X]|[N X]]; [discriminate|].
      rewrite nth_update_neq by auto. auto.
  - destruct (new_mem_throw _ _ _ _ _ E) as (N1 & k & G1 & G2 & G3). rewrite N1.
    eexists. exists (seq (h_next (y_heap p)) k ++ lost). split; [reflexivity|]. split.
    2:{ intros [m X]. discriminate. }
    exists bm. cbn [y_heap y_ms]. split; [|auto].
    assert (Q : forall a, In a (seq (h_next (y_heap p)) k ++ lost) <->
                h_next (y_heap p) <= a < h_next h' \/ In a lost).
    { intros a. rewrite in_app_iff, in_seq, G1. tauto. }
    destruct I. constructor; unfold mach, alive in *; cbn [p_heap p_ms p_obs b_ms b_obs] in *; auto.
    + intros i m a X Y. specialize (iv_lt _ _ _ X Y). lia.
    + intros a [].
    + intros a X. apply Q in X as [X|X]; [lia|]. specialize (iv_llt _ X). lia.
    + intros i m a X Y Z. apply Q in Z as [Z|Z].
      * specialize (iv_lt _ _ _ X Y). lia.
      * apply (iv_lm _ _ _ X Y Z).
    + intros a. rewrite G3, iv_live, Q. tauto.
Qed.

Lemma pyrun_inv l : forall p s s' lost, yinv p s lost -> pyobeys reg s l s' ->
  exists p' lost', pyrun reg p l = Fine p' /\ yinv p' s' lost' /\ (py_all_built reg l -> lost' = lost).
Proof.
  induction l as [|x l IH]; intros p s s' lost I H.
  - inversion H; subst. exists p, lost. auto.
  - assert (Z : exists p1 s1 lost1, pystep reg p x = Fine p1 /\ yinv p1 s1 lost1 /\ pyobeys reg s1 l s' /\
        (py_all_built reg (x :: l) -> lost1 = lost)).
    { inversion H; subst.
      - (* __new__ *)
        exists (mkPy (y_heap p) (y_ms p ++ [None])), (s ++ [Raw]), lost. split; [reflexivity|].
        split; [|auto]. destruct I as (bm & I & L & R & W). exists (bm ++ [None]). cbn [y_heap y_ms].
        assert (Lm := iv_ms _ _ _ I). cbn [p_ms b_ms] in Lm.
        assert (A1 : forall j y, nth_error (y_ms p ++ [None]) j = Some (Some y) <-> nth_error (y_ms p) j = Some (Some y)).
        { intros j y. split; [|apply nth_app_old]. intros X. apply nth_app_new in X as [X|[_ X]]; auto. discriminate. }
        assert (A2 : forall j n, nth_error (bm ++ [None]) j = Some (Some n) <-> nth_error bm j = Some (Some n)).
        { intros j y. split; [|apply nth_app_old]. intros X. apply nth_app_new in X as [X|[_ X]]; auto. discriminate. }
        split; [|split; [|split]].
        + destruct I. constructor; unfold mach, alive in *; cbn [p_heap p_ms p_obs b_ms b_obs] in *; auto.
          * rewrite !app_length. simpl. auto.
          * intros i n X. apply A2 in X. destruct (iv_alive i n X) as (m & Y & Z). exists m. rewrite A1. auto.
          * intros i m a X. apply A1 in X. eauto.
          * intros i j m m' a X Y. apply A1 in X, Y. eauto.
          * intros i m X. apply A1 in X. eauto.
          * intros i m a X. apply A1 in X. eauto.
          * intros a. rewrite iv_live. split; (intros [(i & m & n & X & Y & Z)|Q]; [|auto]); left; exists i, m, n;
              [rewrite A1, A2|rewrite A1 in Y; rewrite A2 in X]; auto.
          * intros i m n t a X Y. apply A2 in X. apply A1 in Y. eauto.
          * intros o i t X. destruct o; discriminate.
        + rewrite !app_length. simpl. auto.
        + intros y. setoid_rewrite A2. split.
          * intros X. apply nth_app_new in X as [X|[_ X]]; [|discriminate]. now apply R.
          * intros X. apply R in X. now apply nth_app_old.
        + intros y X. apply nth_app_new in X as [X|[-> _]]; [now apply nth_app_old, W|].
          rewrite L, <- Lm, nth_error_app2, Nat.sub_diag; auto.
      - (* __init__ *)
        destruct (pystep_init p s lost x0 c I) as (p1 & lost1 & X & Y & Z); auto.
        exists p1. eexists. exists lost1. split; [exact X|]. split; [exact Y|]. split; [assumption|].
        intros Q. apply Z, (Q x0). simpl; auto.
      - (* propagate *)
        destruct (yuse_ok p s lost x0 I) as (m & U & O1 & O2 & F); auto.
        destruct (pyprop_ok (y_heap p) m st start max obs O1 O2 F) as (h' & m' & E & C & Lm & F' & N & V); auto.
        cbn [pystep]. rewrite U. cbn [mbind]. rewrite E. cbn [mbind].
        eexists. exists s, lost. split; [reflexivity|]. split; [|auto].
        destruct I as (bm & I & L & R & W). exists bm. cbn [yput y_heap y_ms].
        match goal with K : nth_error s x0 = Some Ready |- _ => pose proof K as Hr end.
        pose proof (proj1 (R x0) Hr) as [n Hn].
        split; [|split; [|split]]; auto.
        + apply (inv_put_none p bm lost x0 n m m' h'); auto.
          * unfold yuse in U. destruct (nth_error (y_ms p) x0) as [[y|]|]; congruence.
          * intros a. rewrite V. tauto.
        + apply yraw_put; auto. congruence.
      - (* reconfigure *)
        destruct I as (bm & I & L & R & W).
        match goal with K : nth_error s x0 = Some Ready |- _ => pose proof K as Hr end.
        pose proof (proj1 (R x0) Hr) as [n Hn].
        destruct (step_reconf reg _ _ _ x0 idx c n I Hn) as (p1 & X & Y).
        cbn [step] in X. unfold use in X. cbn [p_ms p_heap] in X. cbn [pystep]. unfold yuse.
        destruct (nth_error (y_ms p) x0) as [[m|]|]; cbn [mbind] in *; try discriminate.
        destruct (reconf_mem (y_heap p) m idx c) as [[h' m']|]; cbn [mbind] in *; [|discriminate].
        injection X as <-. eexists. exists s, lost. split; [reflexivity|]. split; [|auto].
        exists bm. cbn [yput y_heap y_ms]. split; [exact Y|]. split; auto. split; auto.
        apply yraw_put; auto. congruence.
      - (* other methods *)
        destruct (yuse_ok p s lost x0 I) as (m & U & O1 & O2 & F); auto.
        cbn [pystep]. rewrite U. cbn [mbind]. rewrite O1, O2. cbn [andb]. eauto 8.
      - (* the last reference goes *)
        destruct I as (bm & I & L & R & W).
        match goal with K : nth_error s x0 = Some w |- _ => pose proof K as Hs end.
        destruct w; [| |contradiction].
        + cbn [pystep]. rewrite (W x0 Hs). exists p, (put_at s x0 Freed), lost. split; auto. split; [|auto].
          exists bm. split; auto. split; [now rewrite put_length|]. split.
          * intros y. rewrite (nth_put _ _ _ _ _ _ Hs). rewrite <- R. split.
            -- intros [[_ X]|[_ X]]; [discriminate|auto].
            -- intros X. right. split; auto. intros ->. congruence.
          * intros y X. apply (nth_put _ _ _ _ _ _ Hs) in X as [[_ X]|[_ X]]; [discriminate|auto].
        + pose proof (proj1 (R x0) Hs) as [n Hn].
          destruct (step_del reg _ _ _ x0 n I Hn) as (p1 & X & Y).
          cbn [step p_ms p_heap] in X. cbn [pystep].
          destruct (nth_error (y_ms p) x0) as [[m|]|] eqn:Em; try discriminate.
          2:{ pose proof (iv_alive _ _ _ I x0 n Hn) as (m & Hm & _). unfold mach in Hm. cbn [p_ms] in Hm. congruence. }
          destruct (del_mem (y_heap p) m) as [h'|]; cbn [mbind] in *; [|discriminate].
          injection X as <-. eexists. exists (put_at s x0 Freed), lost. split; [reflexivity|]. split; [|auto].
          exists (put_at bm x0 None). cbn [y_heap y_ms]. split; [exact Y|].
          split; [now rewrite !put_length|]. split.
          * intros y. rewrite (nth_put _ _ _ _ _ _ Hs). split.
            -- intros [[_ X]|[N X]]; [discriminate|]. apply R in X as [k X]. exists k.
               apply (nth_put _ _ _ _ _ _ Hn). auto.
            -- intros [k X]. apply (nth_put _ _ _ _ _ _ Hn) in X as [[_ X]|[N X]]; [discriminate|].
               right. split; auto. apply R. eauto.
          * intros y X. apply (nth_put _ _ _ _ _ _ Hs) in X as [[_ X]|[_ X]]; [discriminate|auto]. }
    destruct Z as (p1 & s1 & lost1 & S1 & I1 & O1 & A1).
    destruct (IH p1 s1 s' lost1 I1 O1) as (p2 & lost2 & Rn & I2 & A2).
    exists p2, lost2. cbn [pyrun]. rewrite S1. cbn [mbind]. split; auto. split; auto.
    intros Q. rewrite A2, A1; auto. intros y c X. apply (Q y c). simpl; auto.
Qed.
Lemma yinv_start : yinv y_start [] [].
Proof.
  exists []. split; [apply inv_start|]. split; auto. split.
  - intros x. split; [destruct x; discriminate|]. intros [n X]. destruct x; discriminate.
  - intros x X. destruct x; discriminate.
Qed.
Lemma py_safe l s' : pyobeys reg [] l s' -> exists p', pyrun reg y_start l = Fine p'.
Proof. intros H. destruct (pyrun_inv l _ _ _ _ yinv_start H) as (p' & lost & R & _). eauto. Qed.
Lemma py_freed l s' p' : pyobeys reg [] l s' -> pyrun reg y_start l = Fine p' ->
  py_all_built reg l -> ~ In Ready s' -> h_live (y_heap p') = [].
Proof.
  intros H R A G. destruct (pyrun_inv l _ _ _ _ yinv_start H) as (p2 & lost & R2 & (bm & I & L & Rd & W) & Q).
  rewrite R in R2. injection R2 as <-. specialize (Q A). subst lost.
  destruct (h_live (y_heap p')) as [|a k] eqn:E; auto. exfalso.
  destruct (proj1 (iv_live _ _ _ I a)) as [(i & m & n & X & _)|[(o & w & X & Y & _)|[]]].
  - cbn [p_heap]. rewrite E. simpl; auto.
  - apply G. apply (nth_error_In _ i). apply Rd. exists n. exact X.
  - destruct o; discriminate.
Qed.
End P.
