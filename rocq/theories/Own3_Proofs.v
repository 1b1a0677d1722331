From Coq Require Import List String Bool NArith ZArith Arith Lia.
From Verif Require Import SMap SMap_Proofs Dbl Config_Spec Machine_Model Machine_Spec Machine_Proofs
  Cli_Model Own_Model Own_Spec Own_Proofs Own2_Proofs.
Import ListNotations.
Open Scope list_scope.

Section P.
Context {D B : Type}.
Variable reg : registry D B.

Lemma mach_app (p : prog D B) h y j x :
  mach (mkP h (p_ms p ++ [y]) (p_obs p)) j x <-> mach p j x \/ j = List.length (p_ms p) /\ y = Some x.
Proof.
  unfold mach. cbn [p_ms]. split.
  - intros H. apply nth_app_new in H as [H|[-> H]]; auto.
  - intros [H|[-> ->]]; [now apply nth_app_old|]. rewrite nth_error_app2, Nat.sub_diag; auto.
Qed.
Lemma alive_app b y o j n : alive (mkBk (b_ms b ++ [y]) o) j n <-> alive b j n \/ j = List.length (b_ms b) /\ y = Some n.
Proof.
  unfold alive. cbn [b_ms]. split.
  - intros H. apply nth_app_new in H as [H|[-> H]]; auto.
  - intros [H|[-> ->]]; [now apply nth_app_old|]. rewrite nth_error_app2, Nat.sub_diag; auto.
Qed.
Lemma alive_lt b i n : alive b i n -> i < List.length (b_ms b).
Proof. apply nth_lt. Qed.
Lemma mach_lt (p : prog D B) i m : mach p i m -> i < List.length (p_ms p).
Proof. apply nth_lt. Qed.
Lemma none_has (m : omach D B) s a : Forall (fun e => el_obs e = None) (om_elems m) -> ~ has m s a.
Proof.
  unfold has, obsv. rewrite nth_error_map. intros F H.
  destruct (nth_error (om_elems m) s) as [e|] eqn:E; [|discriminate].
  rewrite Forall_forall in F. cbn in H. rewrite (F e (nth_error_In _ _ E)) in H. discriminate.
Qed.

Lemma step_new p b lost c : inv p b lost -> exists p' lost',
  step reg p (New c) = Fine p' /\
  inv p' (mkBk (b_ms b ++ [match new_machine reg c with Ok m => Some (List.length (m_elems m)) | Throw _ => None end]) (b_obs b)) lost' /\
  ((exists m, new_machine reg c = Ok m) -> lost' = lost).
Proof.
  intros I. cbn [step]. destruct (new_mem reg (p_heap p) c) as [h' [om|e]] eqn:E.
  - destruct (new_mem_ok _ _ _ _ _ E) as (N1 & N2 & N3 & (G1 & G2 & G3) & N5). rewrite N1.
    change (m_elems (om_m om)) with (om_elems om).
    eexists. exists lost. split; [reflexivity|]. split; [|auto].
    assert (C : forall a, In a (cells om) <-> h_next (p_heap p) <= a < h_next h').
    { intros a. unfold cells. simpl. rewrite N2, in_seq, N3. lia. }
    pose proof (iv_ms _ _ _ I) as Lm.
    destruct I. constructor.
    + cbn [p_ms b_ms]. rewrite !app_length. simpl. auto.
    + auto.
    + intros i n H. apply alive_app in H as [H|[-> H]].
      * destruct (iv_alive i n H) as (m & X & Y). exists m. split; auto. apply mach_app. auto.
      * injection H as <-. exists om. split; [apply mach_app; right; split; congruence|].
        split; auto. now rewrite N2, seq_length.
    + intros i m a H X. cbn [p_heap]. apply mach_app in H as [H|[_ H]].
      * specialize (iv_lt _ _ _ H X). lia.
      * injection H as <-. apply C in X. lia.
    + cbn [p_heap p_obs]. intros a H. specialize (iv_olt _ H). lia.
    + cbn [p_heap]. intros a H. specialize (iv_llt _ H). lia.
    + intros i j m m' a H H' X X'. apply mach_app in H as [H|[-> H]], H' as [H'|[-> H']]; auto.
      * eauto.
      * injection H' as <-. apply C in X'. specialize (iv_lt _ _ _ H X). lia.
      * injection H as <-. apply C in X. specialize (iv_lt _ _ _ H' X'). lia.
    + intros i m H. apply mach_app in H as [H|[_ H]]; [eauto|]. injection H as <-.
      unfold cells. rewrite N2, N3. constructor; [rewrite in_seq; lia|apply seq_NoDup].
    + auto.
    + intros i m a H X. cbn [p_obs]. apply mach_app in H as [H|[_ H]]; [eauto|]. injection H as <-.
      apply C in X. intros Y. specialize (iv_olt _ Y). lia.
    + intros i m a H X. apply mach_app in H as [H|[_ H]]; [eauto|]. injection H as <-.
      apply C in X. intros Y. specialize (iv_llt _ Y). lia.
    + auto.
    + intros a. cbn [p_heap p_obs b_obs]. rewrite G3, iv_live. split.
      * intros [[(i & m & n & X & Y & Z)|[X|X]]|X]; auto.
        -- left. exists i, m, n. rewrite alive_app, mach_app. auto.
        -- left. exists (List.length (p_ms p)), om, (List.length (om_elems om)).
           rewrite alive_app, mach_app, C. split; [right; auto|]. split; [right; auto|exact X].
      * intros [(i & m & n & X & Y & Z)|[X|X]]; auto.
        apply alive_app in X as [X|[-> X]]; apply mach_app in Y as [Y|[Y1 Y2]].
        -- left. left. eauto 6.
        -- apply alive_lt in X. lia.
        -- apply mach_lt in Y. lia.
        -- injection Y2 as <-. right. now apply C.
    + intros i m n s a X Y. cbn [b_obs p_obs].
      apply alive_app in X as [X|[-> X]]; apply mach_app in Y as [Y|[Y1 Y2]].
      * apply (iv_has i m n s a X Y).
      * apply alive_lt in X. lia.
      * apply mach_lt in Y. lia.
      * injection Y2 as <-. split.
        -- intros H. destruct (none_has _ _ _ N5 H).
        -- intros (o & H & _). destruct (iv_on _ _ _ H) as [k K]. apply alive_lt in K. lia.
    + intros o i s H. cbn [b_obs] in H. destruct (iv_on _ _ _ H) as [n K]. exists n. apply alive_app. auto.
  - destruct (new_mem_throw _ _ _ _ _ E) as (N1 & k & G1 & G2 & G3). rewrite N1.
    eexists. exists (seq (h_next (p_heap p)) k ++ lost). split; [reflexivity|]. split.
    2:{ intros [m X]. discriminate. }
    assert (M : forall j x, mach (mkP h' (p_ms p ++ [None]) (p_obs p)) j x <-> mach p j x).
    { intros j x. rewrite mach_app. split; auto. intros [X|[_ X]]; [auto|discriminate]. }
    assert (A : forall j n, alive (mkBk (b_ms b ++ [None]) (b_obs b)) j n <-> alive b j n).
    { intros j n. rewrite alive_app. split; auto. intros [X|[_ X]]; [auto|discriminate]. }
    assert (Q : forall a, In a (seq (h_next (p_heap p)) k ++ lost) <->
                h_next (p_heap p) <= a < h_next h' \/ In a lost).
    { intros a. rewrite in_app_iff, in_seq, G1. tauto. }
    destruct I. constructor.
    + cbn [p_ms b_ms]. rewrite !app_length. simpl. auto.
    + auto.
    + intros i n H. apply A in H. destruct (iv_alive i n H) as (m & X & Y). exists m. split; auto. now apply M.
    + intros i m a H X. apply M in H. cbn [p_heap]. specialize (iv_lt _ _ _ H X). lia.
    + cbn [p_heap p_obs]. intros a H. specialize (iv_olt _ H). lia.
    + cbn [p_heap]. intros a H. apply Q in H as [H|H]; [lia|]. specialize (iv_llt _ H). lia.
    + intros i j m m' a H H' X X'. apply M in H, H'. eauto.
    + intros i m H. apply M in H. eauto.
    + auto.
    + intros i m a H X. apply M in H. eauto.
    + intros i m a H X Y. apply M in H. apply Q in Y as [Y|Y].
      * specialize (iv_lt _ _ _ H X). lia.
      * apply (iv_lm _ _ _ H X Y).
    + intros a H Y. cbn [p_obs] in H. apply Q in Y as [Y|Y].
      * specialize (iv_olt _ H). lia.
      * apply (iv_lo _ H Y).
    + intros a. cbn [p_heap p_obs b_obs]. rewrite G3, iv_live, Q. split.
      * intros [[(i & m & n & X & Y & Z)|[X|X]]|X]; auto.
        left. exists i, m, n. rewrite A, M. auto.
      * intros [(i & m & n & X & Y & Z)|[X|[X|X]]]; auto.
        left. left. exists i, m, n. rewrite <- A, <- M. auto.
    + intros i m n s a X Y. apply A in X. apply M in Y. apply (iv_has i m n s a X Y).
    + intros o i s H. destruct (iv_on _ _ _ H) as [n K]. exists n. now apply A.
Qed.

(** ** delete *)
Lemma nth_combine {X Y} (l : list X) : forall (l' : list Y) s x y,
  nth_error (combine l l') s = Some (x, y) <-> nth_error l s = Some x /\ nth_error l' s = Some y.
Proof.
  induction l as [|a l IH]; intros [|b l'] [|s] x y; simpl; split; try discriminate; try (intros [X1 X2]; discriminate).
  - intros H. injection H as <- <-. auto.
  - intros [X1 X2]. congruence.
  - apply IH.
  - apply IH.
Qed.
Lemma nodup_flat {X} (f : X -> list nat) (l : list X) :
  (forall s x, nth_error l s = Some x -> NoDup (f x)) ->
  (forall s t x y a, nth_error l s = Some x -> nth_error l t = Some y -> In a (f x) -> In a (f y) -> s = t) ->
  NoDup (flat_map f l).
Proof.
  induction l as [|x l IH]; simpl; intros H1 H2; [constructor|].
  assert (N : NoDup (flat_map f l)).
  { apply IH.
    - intros s y Y. apply (H1 (S s) y Y).
    - intros s t y z a Y Z U V. assert (S s = S t) by (apply (H2 (S s) (S t) y z a); auto). lia. }
  specialize (H1 0 x eq_refl) as F.
  assert (G : forall a, In a (f x) -> ~ In a (flat_map f l)).
  { intros a U V. apply in_flat_map in V as (y & V1 & V2). apply In_nth_error in V1 as [t V1].
    assert (0 = S t) by (apply (H2 0 (S t) x y a); auto). lia. }
  clear IH H1 H2. induction (f x) as [|a k IH]; simpl; auto.
  inversion F; subst. constructor.
  - intros U. apply in_app_or in U as [U|U]; auto. apply (G a); simpl; auto.
  - apply IH; auto. intros a' U. apply G. simpl; auto.
Qed.

Lemma in_frees (m : omach D B) a : List.length (om_els m) = List.length (om_elems m) ->
  (In a (mach_frees m) <-> In a (cells m) \/ exists s, has m s a).
Proof.
  intros L. unfold mach_frees. rewrite in_app_iff, in_flat_map. split.
  - intros [([x e] & H & X)|[<-|[]]]; [|left; simpl; auto].
    apply In_nth_error in H as [s H]. apply nth_combine in H as [H1 H2].
    unfold elem_frees in X. cbn [fst snd] in X. apply in_app_or in X as [X|[<-|[]]].
    + right. exists s. unfold has. rewrite (obsv_nth _ _ _ H2). destruct (el_obs e); [|destruct X].
      destruct X as [->|[]]; reflexivity.
    + left. right. apply (nth_error_In _ _ H1).
  - intros [[<-|H]|[s H]].
    + right. simpl. auto.
    + left. apply In_nth_error in H as [s H]. destruct (nth_error (om_elems m) s) as [e|] eqn:E.
      2:{ apply nth_error_None in E. apply nth_lt in H. lia. }
      exists (a, e). split; [|unfold elem_frees; apply in_or_app; right; simpl; auto].
      apply (nth_error_In _ s). apply nth_combine. auto.
    + left. unfold has, obsv in H. rewrite nth_error_map in H.
      destruct (nth_error (om_elems m) s) as [e|] eqn:E; [|discriminate]. simpl in H. injection H as H.
      destruct (nth_error (om_els m) s) as [x|] eqn:E2.
      2:{ apply nth_error_None in E2. apply nth_lt in E. lia. }
      exists (x, e). split; [apply (nth_error_In _ s); apply nth_combine; auto|].
      unfold elem_frees. cbn [snd]. rewrite H. simpl. auto.
Qed.
Lemma frees_nodup (m : omach D B) : List.length (om_els m) = List.length (om_elems m) -> NoDup (cells m) ->
  (forall s a, has m s a -> ~ In a (cells m)) ->
  (forall s t a, has m s a -> has m t a -> s = t) -> NoDup (mach_frees m).
Proof.
  intros L N1 N2 N3. unfold mach_frees. inversion N1 as [|? ? Ha Ne]; subst. apply nodup_snoc.
  - assert (K : forall s x e a, nth_error (combine (om_els m) (om_elems m)) s = Some (x, e) ->
        In a (elem_frees (x, e)) -> has m s a \/ nth_error (om_els m) s = Some a).
    { intros s x e a H X. apply nth_combine in H as [H1 H2]. unfold elem_frees in X. cbn [fst snd] in X.
      apply in_app_or in X as [X|[<-|[]]]; auto. left. unfold has. rewrite (obsv_nth _ _ _ H2).
      destruct (el_obs e); [|destruct X]. destruct X as [->|[]]; reflexivity. }
    apply nodup_flat.
    + intros s [x e] H. pose proof (proj1 (nth_combine _ _ _ _ _) H) as [H1 H2].
      unfold elem_frees. cbn [fst snd]. destruct (el_obs e) as [o|] eqn:E; simpl; [|repeat constructor; auto].
      constructor; [|repeat constructor; auto]. intros [<-|[]].
      apply (N2 s x); [unfold has; rewrite (obsv_nth _ _ _ H2), E; reflexivity|]. right. apply (nth_error_In _ _ H1).
    + intros s t [x e] [x' e'] a H H' X X'. apply (K s) in X; auto. apply (K t) in X'; auto.
      destruct X as [X|X], X' as [X'|X'].
      * apply (N3 s t a X X').
      * destruct (N2 s a X). right. apply (nth_error_In _ _ X').
      * destruct (N2 t a X'). right. apply (nth_error_In _ _ X).
      * apply (proj1 (NoDup_nth_error (om_els m)) Ne); [apply (nth_lt _ _ _ X)|congruence].
  - intros X. apply in_flat_map in X as ([x e] & H & X). apply In_nth_error in H as [s H].
    apply nth_combine in H as [H1 H2]. unfold elem_frees in X. cbn [fst snd] in X.
    apply in_app_or in X as [X|[->|[]]].
    + apply (N2 s (om_addr m)); [|simpl; auto]. unfold has. rewrite (obsv_nth _ _ _ H2).
      destruct (el_obs e); [|destruct X]. destruct X as [->|[]]; reflexivity.
    + apply Ha. apply (nth_error_In _ _ H1).
Qed.

Lemma nth_put {A} (l : list A) i a j x y : nth_error l i = Some y ->
  (nth_error (put_at l i a) j = Some x <-> j = i /\ x = a \/ j <> i /\ nth_error l j = Some x).
Proof.
  intros H. rewrite put_at_update. destruct (Nat.eq_dec j i) as [->|N].
  - rewrite (nth_update_eq _ _ _ _ H). split; [intros X; injection X as <-; auto|].
    intros [[_ ->]|[X _]]; congruence.
  - rewrite nth_update_neq by auto. split; auto. intros [[X _]|[_ X]]; congruence.
Qed.
Lemma put_length {A} (l : list A) i a : List.length (put_at l i a) = List.length l.
Proof. rewrite put_at_update. apply update_length. Qed.

Lemma has_ob p b lost i n (m : omach D B) : inv p b lost -> alive b i n -> mach p i m ->
  (forall s a, has m s a -> ~ In a (cells m)) /\ (forall s t a, has m s a -> has m t a -> s = t).
Proof.
  intros I Ha Hm. split.
  - intros s a H X. apply (iv_has _ _ _ I i m n s a Ha Hm) in H as (o & _ & Y).
    apply (iv_mo _ _ _ I _ _ _ Hm X). apply (nth_error_In _ _ Y).
  - intros s t a H H'. apply (iv_has _ _ _ I i m n s a Ha Hm) in H as (o & X & Y).
    apply (iv_has _ _ _ I i m n t a Ha Hm) in H' as (o' & X' & Y').
    assert (o = o'). { apply (proj1 (NoDup_nth_error (p_obs p)) (iv_nobs _ _ _ I)); [apply (nth_lt _ _ _ Y)|congruence]. }
    subst o'. congruence.
Qed.

Lemma step_del p b lost i n : inv p b lost -> alive b i n ->
  exists p', step reg p (Del i) = Fine p' /\
    inv p' (mkBk (put_at (b_ms b) i None) (map (take_along i) (b_obs b))) lost.
Proof.
  intros I Ha. destruct (use_mach _ _ _ _ _ I Ha) as (m & Hu & Hm & L1 & L2 & O1 & O2).
  cbn [step]. pose proof Hm as Hm'. unfold mach in Hm'. rewrite Hm'. unfold del_mem. rewrite O1.
  destruct (has_ob _ _ _ _ _ _ I Ha Hm) as [U1 U2].
  assert (L : List.length (om_els m) = List.length (om_elems m)) by congruence.
  destruct (frees_ok (mach_frees m) (p_heap p)) as (h' & F1 & F2 & F3 & F4).
  { apply frees_nodup; auto. apply (iv_one _ _ _ I _ _ Hm). }
  { intros a X. apply (in_frees m a L) in X as [X|[s X]].
    - apply (mach_live _ _ _ _ _ _ I Ha Hm a X).
    - apply (iv_has _ _ _ I i m n s a Ha Hm) in X as (o & X & Y). apply (iv_live _ _ _ I). right. left.
      exists o, (On i s). repeat split; auto. discriminate. }
  rewrite F1. cbn [mbind]. eexists. split; [reflexivity|].
  assert (A : forall j k, alive (mkBk (put_at (b_ms b) i None) (map (take_along i) (b_obs b))) j k <-> j <> i /\ alive b j k).
  { intros j k. unfold alive in *. cbn [b_ms]. rewrite (nth_put _ _ _ _ _ _ Ha). split; [intros [[_ X]|X]|]; auto. discriminate. }
  assert (T : forall o w, nth_error (map (take_along i) (b_obs b)) o = Some w <->
              exists x, nth_error (b_obs b) o = Some x /\ w = take_along i x).
  { intros o w. rewrite nth_error_map. destruct (nth_error (b_obs b) o) as [x|]; simpl; split.
    - intros H. injection H as <-. eauto.
    - intros (y & H & ->). congruence.
    - discriminate.
    - intros (y & H & _). discriminate. }
  assert (TG : forall x, take_along i x <> Gone <-> x <> Gone /\ forall s, x <> On i s).
  { intros [|j s|]; simpl.
    - split; [intros _; split; [discriminate|intros s X; discriminate]|intros _ X; discriminate].
    - destruct (Nat.eqb_spec i j) as [->|N].
      + split; [intros X; destruct X; reflexivity|]. intros [_ X]. destruct (X s). reflexivity.
      + split; [intros _; split; [discriminate|intros t X; congruence]|intros _ X; discriminate].
    - split; [intros X; destruct X; reflexivity|tauto]. }
  assert (TO : forall x j s, take_along i x = On j s <-> x = On j s /\ j <> i).
  { intros [|j' s'|] j s; simpl; try (split; [discriminate|intros [X _]; discriminate]).
    destruct (Nat.eqb_spec i j') as [->|N].
    - split; [discriminate|]. intros [X Y]. congruence.
    - split; [intros X; split; congruence|tauto]. }
  pose proof (mach_live _ _ _ _ _ _ I Ha Hm) as ML.
  pose proof I as I0. destruct I. constructor; unfold mach in *; cbn [p_ms p_obs p_heap b_ms b_obs].
  - rewrite put_length. auto.
  - rewrite map_length. auto.
  - intros j k X. apply A in X as [_ X]. apply (iv_alive j k X).
  - rewrite F2. auto.
  - rewrite F2. auto.
  - rewrite F2. auto.
  - auto.
  - auto.
  - auto.
  - auto.
  - auto.
  - auto.
  - intros a. rewrite F4, iv_live, (in_frees m a L). split.
    + intros [[(j & x & k & X & Y & Z)|[(o & w & X & Y & Z)|X]] N]; auto.
      * left. exists j, x, k. rewrite A. repeat split; auto. intros ->. apply N. left.
        assert (x = m) by congruence. now subst.
      * right. left. exists o, (take_along i w). split; [apply T; eauto|]. split; auto. apply TG. split; auto.
        intros s ->. apply N. right. exists s. apply (iv_has i m n s a Ha Hm). eauto.
    + intros [(j & x & k & X & Y & Z)|[(o & w & X & Y & Z)|X]].
      * apply A in X as [N X]. split; [left; eauto 6|]. intros [U|[s U]].
        -- apply N. apply (iv_two j i x m a Y Hm Z U).
        -- apply (iv_has i m n s a Ha Hm) in U as (o & _ & V). apply (iv_mo _ _ _ Y Z). apply (nth_error_In _ _ V).
      * apply T in X as (x & X & ->). apply TG in Y as [Y1 Y2]. split; [right; left; eauto|]. intros [U|[s U]].
        -- apply (iv_mo _ _ _ Hm U). apply (nth_error_In _ _ Z).
        -- apply (iv_has i m n s a Ha Hm) in U as (o' & V & W).
           assert (o = o'). { apply (proj1 (NoDup_nth_error (p_obs p)) iv_nobs); [apply (nth_lt _ _ _ Z)|congruence]. }
           subst o'. apply (Y2 s). congruence.
      * split; auto. intros [U|[s U]].
        -- apply (iv_lm _ _ _ Hm U X).
        -- apply (iv_has i m n s a Ha Hm) in U as (o' & V & W). apply (iv_lo a); auto. apply (nth_error_In _ _ W).
  - intros j x k s a X Y. apply A in X as [N X]. rewrite (iv_has j x k s a X Y). split; intros (o & V & W); exists o; split; auto.
    + apply T. exists (On j s). split; auto. symmetry. apply TO. auto.
    + apply T in V as (y & V & E). symmetry in E. apply TO in E as [-> _]. auto.
  - intros o j s X. apply T in X as (y & V & E). symmetry in E. apply TO in E as [-> N].
    destruct (iv_on _ _ _ V) as [k K]. exists k. apply A. auto.
Qed.

Lemma step_delobs p b lost o : inv p b lost -> nth_error (b_obs b) o = Some Mine ->
  exists p', step reg p (DelObs o) = Fine p' /\ inv p' (mkBk (b_ms b) (put_at (b_obs b) o Gone)) lost.
Proof.
  intros I Ho. cbn [step]. destruct (nth_error (p_obs p) o) as [a0|] eqn:E0.
  2:{ apply nth_error_None in E0. apply nth_lt in Ho. rewrite (iv_ob _ _ _ I) in E0. lia. }
  destruct (frees_ok [a0] (p_heap p)) as (h' & F1 & F2 & F3 & F4).
  { repeat constructor. intros []. }
  { intros a [<-|[]]. apply (iv_live _ _ _ I). right. left. exists o, Mine. repeat split; auto. discriminate. }
  cbn [h_frees] in F1. destruct (h_free (p_heap p) a0) as [h1|]; [|discriminate]. cbn [mbind] in *.
  injection F1 as ->. eexists. split; [reflexivity|].
  pose proof (fun j x => nth_put (b_obs b) o Gone j x Mine Ho) as W.
  destruct I. constructor; unfold mach, alive in *; cbn [p_ms p_obs p_heap b_ms b_obs]; auto.
  - rewrite put_length. auto.
  - rewrite F2. auto.
  - rewrite F2. auto.
  - rewrite F2. auto.
  - intros a. rewrite F4, iv_live. simpl. split.
    + intros [[X|[(q & w & X & Y & Z)|X]] N]; auto. right. left. exists q, w. rewrite W.
      split; [right; split|]; auto. intros ->. apply N. left. congruence.
    + intros [(j & x & k & X & Y & Z)|[(q & w & X & Y & Z)|X]].
      * split; [left; eauto 6|]. intros [<-|[]]. apply (iv_mo _ _ _ Y Z). apply (nth_error_In _ _ E0).
      * apply W in X as [[_ X]|[N X]]; [contradiction|]. split; [right; left; eauto|]. intros [<-|[]].
        apply N. apply (proj1 (NoDup_nth_error (p_obs p)) iv_nobs); [apply (nth_lt _ _ _ Z)|congruence].
      * split; auto. intros [<-|[]]. apply (iv_lo a0); auto. apply (nth_error_In _ _ E0).
  - intros i m n s a X Y. rewrite (iv_has i m n s a X Y). split; intros (q & V & Z); exists q; split; auto.
    + apply W. right. split; auto. intros ->. congruence.
    + apply W in V as [[_ V]|[_ V]]; [discriminate|auto].
  - intros q i s X. apply W in X as [[_ X]|[_ X]]; [discriminate|eauto].
Qed.

(** ** Programs *)
Lemma run_inv l : forall p b b' lost, inv p b lost -> obeys reg b l b' ->
  exists p' lost', run reg p l = Fine p' /\ inv p' b' lost' /\ (all_built reg l -> lost' = lost).
Proof.
  induction l as [|x l IH]; intros p b b' lost I H.
  - inversion H; subst. exists p, lost. auto.
  - assert (Z : exists p1 b1 lost1, step reg p x = Fine p1 /\ inv p1 b1 lost1 /\ obeys reg b1 l b' /\
        (all_built reg (x :: l) -> lost1 = lost)).
    { inversion H; subst.
      - destruct (step_new p b lost c I) as (p1 & lost1 & X & Y & Z). exists p1. eexists. exists lost1.
        split; [exact X|]. split; [exact Y|]. split; [assumption|]. intros Q. apply Z, Q. simpl; auto.
      - destruct (step_newobs reg p b lost I) as (p1 & X & Y). eauto 8.
      - destruct (step_set reg p b lost i s o n I) as (p1 & X & Y); eauto 8.
      - destruct (step_unset reg p b lost i s n I) as (p1 & X & Y); eauto 8.
      - destruct (step_reconf reg p b lost i idx c n I) as (p1 & X & Y); eauto 8.
      - destruct (step_prop reg p b lost i st start max n I) as (p1 & X & Y); eauto 8.
      - destruct (step_del p b lost i n I) as (p1 & X & Y); eauto 8.
      - destruct (step_delobs p b lost o I) as (p1 & X & Y); eauto 8. }
    destruct Z as (p1 & b1 & lost1 & S1 & I1 & O1 & A1).
    destruct (IH p1 b1 b' lost1 I1 O1) as (p2 & lost2 & R & I2 & A2).
    exists p2, lost2. cbn [run]. rewrite S1. cbn [mbind]. split; auto. split; auto.
    intros Q. rewrite A2, A1; auto. intros c X. apply Q. simpl; auto.
Qed.
Lemma safe l b' : obeys reg b_start l b' -> exists p', run reg p_start l = Fine p'.
Proof. intros H. destruct (run_inv l _ _ _ _ inv_start H) as (p' & lost & R & _). eauto. Qed.
Lemma freed l b' p' : obeys reg b_start l b' -> run reg p_start l = Fine p' ->
  all_built reg l -> all_gone b' -> h_live (p_heap p') = [].
Proof.
  intros H R A [G1 G2]. destruct (run_inv l _ _ _ _ inv_start H) as (p2 & lost & R2 & I & L).
  rewrite R in R2. injection R2 as <-. specialize (L A). subst lost.
  destruct (h_live (p_heap p')) as [|a k] eqn:E; auto. exfalso.
  rewrite Forall_forall in G1, G2.
  destruct (proj1 (iv_live _ _ _ I a)) as [(i & m & n & X & _)|[(o & w & X & Y & _)|[]]].
  - rewrite E. simpl; auto.
  - specialize (G1 _ (nth_error_In _ _ X)). discriminate.
  - specialize (G2 _ (nth_error_In _ _ X)). contradiction.
Qed.
End P.
