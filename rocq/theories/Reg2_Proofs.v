(** Every step keeps the relation; what follows for whole programs. *)
From Coq Require Import List String Bool NArith ZArith Arith Lia Permutation.
From Verif Require Import SMap SMap_Proofs Dbl Config_Spec Machine_Model Reg_Model Reg_Spec Reg_Proofs.
Import ListNotations.
Open Scope string_scope.
Open Scope list_scope.

Lemma update_len {A} (l : list A) i a : List.length (update l i a) = List.length l.
Proof. revert i. induction l as [|x l IH]; intros [|i]; simpl; auto. Qed.
Lemma get_put {A} (l : list (option A)) x o y :
  get_mach (put_mach l x o) y = if (Nat.eqb y x && Nat.ltb x (List.length l))%bool then o else get_mach l y.
Proof.
  unfold put_mach. revert x y. induction l as [|z l IH]; intros x y.
  - cbn [update List.length]. rewrite andb_false_r. reflexivity.
  - destruct x as [|x], y as [|y]; cbn [update]; try reflexivity.
    + unfold get_mach. cbn. destruct o; reflexivity.
    + change (get_mach (update l x o) y = if (Nat.eqb y x && Nat.ltb x (List.length l))%bool then o else get_mach l y). apply IH.
Qed.
Lemma get_some_lt {A} (l : list (option A)) x m : get_mach l x = Some m -> x < List.length l.
Proof. unfold get_mach. intros H. apply nth_error_Some. intros E. rewrite E in H. discriminate. Qed.
Lemma get_app {A} (l : list (option A)) o y : get_mach (l ++ [o]) y = if Nat.eqb y (List.length l) then o else get_mach l y.
Proof.
  unfold get_mach. destruct (Nat.eqb_spec y (List.length l)) as [->|N].
  - rewrite nth_error_app2, Nat.sub_diag by lia. cbn. destruct o; reflexivity.
  - destruct (Nat.lt_ge_cases y (List.length l)).
    + rewrite nth_error_app1 by assumption. reflexivity.
    + assert (E : nth_error (l ++ [o]) y = None) by (apply nth_error_None; rewrite app_length; simpl; lia). rewrite E.
      assert (E' : nth_error l y = None) by (apply nth_error_None; lia). rewrite E'. reflexivity.
Qed.

Section R.
Context {D B : Type}.

(** ** Growing memory and registry *)
Lemma rel_new h k (e : smap nat) (s : smap (class D B)) : (forall a, In a (keys h) -> a < b_next h) ->
  elems_rel h e s -> elems_rel (snd (b_new h k)) e s.
Proof.
  intros N. apply alike_mono. intros a j _ H. cbn [b_new snd b_live b_find]. destruct (Nat.eqb_spec (b_next h) a) as [E|]; [|exact H].
  apply b_find_some in H. apply N in H. lia.
Qed.
Lemma mrel_new h k (r : rreg B) old x o a : (forall a, In a (keys h) -> a < b_next h) ->
  mrel h r old x o a -> mrel (D := D) (snd (b_new h k)) r old x o a.
Proof.
  intros N. destruct o as [m|], a as [am|]; cbn [mrel]; auto. intros [F H]. split; [exact F|]. destruct (Nat.ltb x old).
  - intros b I. destruct (H b I) as [H1 H2]. cbn [b_new snd b_next]. split; [|lia]. unfold keys. cbn [b_live map fst]. intros [E|E]; [lia|contradiction].
  - destruct H as [H1 H2]. split; [apply rel_new; assumption|exact H2].
Qed.
Lemma mrel_reg h (r r' : rreg B) old x o a : incl (addrs r) (addrs r') -> mrel (D := D) h r old x o a -> mrel h r' old x o a.
Proof.
  intros I. destruct o as [m|], a as [am|]; cbn [mrel]; auto. intros [F H]. split; [exact F|]. destruct (Nat.ltb x old); [exact H|].
  destruct H as [H1 H2]. split; [exact H1|]. eapply incl_tran; eassumption.
Qed.
Lemma info_new h k (r : rreg B) ar : (forall a, In a (keys h) -> a < b_next h) -> alike (info_rel h) r ar -> alike (info_rel (D := D) (snd (b_new h k))) r ar.
Proof. intros N. apply alike_mono. intros i j _ [H1 H2]. split; [exact H1|]. apply rel_new; assumption. Qed.
Lemma addrs_app (a b : rreg B) : addrs (a ++ b) = addrs a ++ addrs b.
Proof. unfold addrs. apply flat_map_app. Qed.
Lemma addrs_perm (a b : rreg B) : Permutation a b -> Permutation (addrs a) (addrs b).
Proof. intros P. unfold addrs. apply Permutation_flat_map. exact P. Qed.

(** ** Each step *)
Definition cost (o : op D B) (a : reply D B) : nat := match o, a with OElem _ _ _, RUnit (Throw _) => 1 | _, _ => 0 end.
Definition old_after (o : op D B) (old : nat) (p : rprog D B) : nat := match o with OClean => List.length (g_ms p) | _ => old end.
(** Does the step use a builder that is gone? *)
Definition stale (old : nat) (q : aprog D B) (o : op D B) : bool :=
  match o with
  | OReconf x idx c =>
      match get_mach (a_ms q) x with
      | Some m =>
          (Nat.ltb x old &&
           match slot (m_elems m) idx, get_str c "type" with
           | Some _, Ok t => match sfind t (si_elems (m_info m)) with Some _ => true | None => false end
           | _, _ => false
           end)%bool
      | None => false
      end
  | _ => false
  end.
Definition goal old (lk : list nat) p q (o : op D B) : Prop :=
  exists p' lk', step p o = Fine (p', snd (astep q o)) /\ inv (old_after o old p) lk' p' (fst (astep q o)) /\
    List.length lk' = cost o (snd (astep q o)) + List.length lk.

Lemma do_state old lk p q n b : inv old lk p q -> goal old lk p q (OState n b).
Proof.
  intros [S R N X L E O M]. destruct p as [h r ms], q as [ar ams]. unfold goal. cbn [g_heap g_reg g_ms a_reg a_ms] in *. cbn [step astep]. unfold state_reg, reg_state.
  pose proof (alike_find _ _ _ n R) as F. destruct (sfind n r) as [i|] eqn:Ei, (sfind n ar) as [j|]; try contradiction; cbn [fst snd].
  - do 2 eexists. split; [reflexivity|]. split; [|reflexivity]. constructor; assumption.
  - do 2 eexists. split; [reflexivity|]. split; [|reflexivity].
    assert (P : Permutation (addrs (sset n (mkRI b []) r)) (addrs r)) by (eapply perm_trans; [apply addrs_perm; apply sset_new; exact Ei|]; apply Permutation_refl).
    constructor; cbn [g_heap g_reg g_ms a_reg a_ms]; auto.
    + apply sset_sorted. exact S.
    + apply alike_set; [exact R|]. split; [reflexivity|constructor].
    + eapply perm_trans; [exact L|]. apply Permutation_app_tail. apply Permutation_sym. exact P.
    + intros x. eapply mrel_reg; [|apply M]. intros a I. eapply Permutation_in; [apply Permutation_sym; exact P|exact I].
Qed.
Lemma do_elem old lk p q s n k : inv old lk p q -> goal old lk p q (OElem s n k).
Proof.
  intros [S R N X L E O M]. destruct p as [h r ms], q as [ar ams]. unfold goal. cbn [g_heap g_reg g_ms a_reg a_ms] in *. cbn [step astep]. unfold elem_reg, reg_elem.
  pose proof (alike_find _ _ _ s R) as F.
  assert (N' : NoDup (keys (snd (b_new h k)))).
  { unfold keys. cbn [b_new snd b_live map fst]. constructor; [|exact N]. intros I. apply X in I. lia. }
  assert (X' : forall a, In a (keys (snd (b_new h k))) -> a < b_next (snd (b_new h k))).
  { unfold keys. cbn [b_new snd b_live b_next map fst]. intros a [<-|I]; [lia|]. apply X in I. lia. }
  assert (Leak : exists p' lk', Fine (mkRP (snd (b_new h k)) r ms, @RUnit D B (Throw LogicError)) = Fine (p', @RUnit D B (Throw LogicError)) /\
            inv old lk' p' (mkAP ar ams) /\ List.length lk' = 1 + List.length lk).
  { exists (mkRP (snd (b_new h k)) r ms), (b_next h :: lk). split; [reflexivity|]. split; [|reflexivity].
    constructor; cbn [g_heap g_reg g_ms a_reg a_ms]; auto.
    - apply info_new; assumption.
    - unfold keys. cbn [b_new snd b_live map fst]. eapply perm_trans; [apply perm_skip; exact L|]. apply Permutation_middle.
    - intros x. apply mrel_new; auto. }
  cbn [b_new]. fold (snd (b_new h k)) in *.
  destruct (sfind s r) as [i|] eqn:Ei, (sfind s ar) as [j|] eqn:Ej; try contradiction; cbn [fst snd]; [|exact Leak].
  destruct F as [F1 F2]. pose proof (alike_find _ _ _ n F2) as G.
  destruct (sfind n (ri_elems i)) as [a|] eqn:Ea, (sfind n (si_elems j)) as [k'|]; try contradiction; cbn [fst snd]; [exact Leak|].
  exists (mkRP (snd (b_new h k)) (sset s (mkRI (ri_build i) (sset n (b_next h) (ri_elems i))) r) ms), lk. split; [reflexivity|]. split; [|reflexivity].
  destruct (sset_old s (mkRI (ri_build i) (sset n (b_next h) (ri_elems i))) i r S Ei) as (r1 & r2 & Er & Er').
  assert (P : Permutation (addrs (sset s (mkRI (ri_build i) (sset n (b_next h) (ri_elems i))) r)) (b_next h :: addrs r)).
  { rewrite Er', Er, !addrs_app. unfold addrs at 2 4. cbn [flat_map snd ri_elems].
    assert (Q : Permutation (map snd (sset n (b_next h) (ri_elems i))) (b_next h :: map snd (ri_elems i))).
    { eapply perm_trans; [apply Permutation_map; apply sset_new; exact Ea|]. apply Permutation_refl. }
    eapply perm_trans; [apply Permutation_app_head; apply Permutation_app_tail; exact Q|]. cbn [List.app]. apply Permutation_sym, Permutation_middle. }
  constructor; cbn [g_heap g_reg g_ms a_reg a_ms]; auto.
  - apply sset_sorted. exact S.
  - apply alike_set; [apply info_new; assumption|]. split; [exact F1|]. cbn [ri_elems si_elems]. apply alike_set; [apply rel_new; assumption|].
    cbn [b_new snd b_live b_find]. rewrite Nat.eqb_refl. reflexivity.
  - unfold keys. cbn [b_new snd b_live map fst]. eapply perm_trans; [apply perm_skip; exact L|].
    apply Permutation_sym. exact (Permutation_app_tail lk P).
  - intros x. apply mrel_new; [exact X|]. eapply mrel_reg; [|apply M]. intros a I. eapply Permutation_in; [apply Permutation_sym; exact P|right; exact I].
Qed.
Lemma do_clean old lk p q : inv old lk p q -> goal old lk p q OClean.
Proof.
  intros [S R N X L E O M]. destruct p as [h r ms], q as [ar ams]. unfold goal. cbn [g_heap g_reg g_ms a_reg a_ms] in *. cbn [step astep fst snd].
  unfold cleanup. destruct (frees_ok (addrs r) lk h N L) as (h' & -> & Hn & N' & L'). cbn [mbind]. exists (mkRP h' [] ms), lk.
  split; [reflexivity|]. split; [|reflexivity].
  assert (Q : NoDup (addrs r ++ lk)) by (eapply Permutation_NoDup; [exact L|exact N]).
  assert (Gone : forall b, In b (addrs r) -> ~ In b (keys h') /\ b < b_next h').
  { intros b I. split.
    - intros I'. assert (I2 : In b lk) by (eapply Permutation_in; [exact L'|exact I']). clear -Q I I2. induction (addrs r) as [|c l IH]; [destruct I|].
      inversion Q as [|? ? Q1 Q2]; subst. destruct I as [->|I]; [apply Q1; apply in_or_app; right; exact I2|exact (IH Q2 I)].
    - rewrite Hn. apply X. eapply Permutation_in; [apply Permutation_sym; exact L|]. apply in_or_app. left. exact I. }
  constructor; cbn [g_heap g_reg g_ms a_reg a_ms old_after]; auto.
  - exact I.
  - constructor.
  - intros a I. rewrite Hn. apply X. eapply Permutation_in; [apply Permutation_sym; exact L|]. apply in_or_app. right. eapply Permutation_in; [exact L'|exact I].
  - intros x. specialize (M x). destruct (get_mach ms x) as [m|] eqn:G, (get_mach ams x) as [am|]; cbn [mrel] in *; auto.
    destruct M as [F H]. split; [exact F|]. apply get_some_lt in G. apply Nat.ltb_lt in G. rewrite G. destruct (Nat.ltb x old).
    + intros b I. destruct (H b I) as [H1 H2]. rewrite Hn. split; [|exact H2]. intros I'. apply H1. eapply Permutation_in; [apply Permutation_sym; exact L|].
      apply in_or_app. right. eapply Permutation_in; [exact L'|exact I'].
    + destruct H as [_ H]. intros b I. apply Gone. apply H. exact I.
Qed.
Lemma do_new old lk p q c : inv old lk p q -> goal old lk p q (ONew c).
Proof.
  intros [S R N X L E O M]. destruct p as [h r ms], q as [ar ams]. unfold goal. cbn [g_heap g_reg g_ms a_reg a_ms] in *. cbn [step astep].
  pose proof (new_rel h r ar c R) as H. destruct (new_machine ar c) as [am|e].
  - destruct H as (m & -> & F & H1 & H2). cbn [mbind fst snd]. exists (mkRP h r (ms ++ [Some m])), lk. split.
    { destruct F as (Ef & _ & _). rewrite Ef. reflexivity. }
    split; [|reflexivity]. constructor; cbn [g_heap g_reg g_ms a_reg a_ms old_after]; auto.
    + rewrite !app_length, E. reflexivity.
    + rewrite app_length. lia.
    + intros x. rewrite !get_app, <- E. destruct (Nat.eqb_spec x (List.length ms)) as [->|]; [|apply M]. cbn [mrel]. split; [exact F|].
      destruct (Nat.ltb_spec (List.length ms) old); [lia|]. split; assumption.
  - rewrite H. cbn [mbind fst snd]. exists (mkRP h r (ms ++ [None])), lk. split; [reflexivity|]. split; [|reflexivity].
    constructor; cbn [g_heap g_reg g_ms a_reg a_ms old_after]; auto.
    + rewrite !app_length, E. reflexivity.
    + rewrite app_length. lia.
    + intros x. rewrite !get_app, <- E. destruct (Nat.eqb x (List.length ms)); [exact I|apply M].
Qed.
(** A machine is replaced by one with the same builders. *)
Lemma inv_put old lk h r ms ar ams x m am m' am' : inv (D := D) (B := B) old lk (mkRP h r ms) (mkAP ar ams) ->
  get_mach ms x = Some m -> get_mach ams x = Some am -> rm_info m' = rm_info m -> m_info am' = m_info am -> fields m' am' ->
  inv old lk (mkRP h r (put_mach ms x (Some m'))) (mkAP ar (put_mach ams x (Some am'))).
Proof.
  intros [S R N X L E O M] G G' I1 I2 F. constructor; cbn [g_heap g_reg g_ms a_reg a_ms] in *; auto.
  - unfold put_mach. rewrite !update_len. exact E.
  - unfold put_mach. rewrite update_len. exact O.
  - intros y. rewrite !get_put, <- E. destruct (Nat.eqb_spec y x) as [->|]; cbn [andb]; [|apply M]. apply get_some_lt in G as Hx. apply Nat.ltb_lt in Hx. rewrite Hx.
    specialize (M x). rewrite G, G' in M. cbn [mrel] in *. destruct M as [_ M]. split; [exact F|]. unfold mine in *. rewrite I1, I2. exact M.
Qed.
Lemma do_reconf old lk p q x idx c : inv old lk p q ->
  if stale old q (OReconf x idx c) then step p (OReconf x idx c) = Wild else goal old lk p q (OReconf x idx c).
Proof.
  intros V. pose proof V as [S R N X L E O M]. destruct p as [h r ms], q as [ar ams]. unfold goal. cbn [g_heap g_reg g_ms a_reg a_ms] in *. cbn [step astep stale].
  pose proof (M x) as Mx. destruct (get_mach ms x) as [m|] eqn:G, (get_mach ams x) as [am|] eqn:G'; cbn [mrel] in Mx; try contradiction; cbn [a_ms]; rewrite ?G'.
  2: { do 2 eexists. split; [reflexivity|]. split; [exact V|reflexivity]. }
  destruct Mx as [F Mx]. destruct (Nat.ltb x old) eqn:Old; cbn [andb].
  - pose proof (reconf_stale h m am idx c F (fun b I => proj1 (Mx b I))) as Q.
    destruct (slot (m_elems am) idx); [destruct (get_str c "type") as [t|]; [destruct (sfind t (si_elems (m_info am))); [rewrite Q; reflexivity|]|]|].
    all: destruct Q as [-> Q2]; destruct (reconfigure am idx c) as [am' ee]; cbn [fst snd] in *; subst am'; cbn [mbind];
      do 2 eexists; (split; [reflexivity|]); (split; [|reflexivity]); eapply inv_put; eauto.
  - destruct Mx as [H1 H2]. destruct (reconf_rel h m am idx c F H1) as (m' & -> & I1 & F' & I2). cbn [mbind].
    destruct (reconfigure am idx c) as [am' e]. cbn [fst snd] in *. do 2 eexists. split; [reflexivity|]. split; [|reflexivity]. eapply inv_put; eauto.
Qed.
Lemma do_alloc old lk p q x c : inv old lk p q -> goal old lk p q (OAlloc x c).
Proof.
  intros V. pose proof V as [S R N X L E O M]. destruct p as [h r ms], q as [ar ams]. unfold goal. cbn [g_heap g_reg g_ms a_reg a_ms] in *. cbn [step astep].
  specialize (M x). destruct (get_mach ms x) as [m|], (get_mach ams x) as [am|]; cbn [mrel] in M; try contradiction; do 2 eexists; (split; [|split; [exact V|reflexivity]]); [|reflexivity].
  destruct M as [(_ & F & _) _]. unfold alloc_reg, alloc_state. rewrite F. reflexivity.
Qed.
Lemma do_prop old lk p q x st start max : inv old lk p q -> goal old lk p q (OProp x st start max).
Proof.
  intros V. pose proof V as [S R N X L E O M]. destruct p as [h r ms], q as [ar ams]. unfold goal. cbn [g_heap g_reg g_ms a_reg a_ms] in *. cbn [step astep].
  specialize (M x). destruct (get_mach ms x) as [m|] eqn:G, (get_mach ams x) as [am|] eqn:G'; cbn [mrel] in M; try contradiction.
  2: { do 2 eexists; (split; [reflexivity|split; [exact V|reflexivity]]). }
  destruct M as [F _]. assert (P : prop_reg m st start max = propagate am st start max).
  { destruct F as (-> & _). reflexivity. }
  rewrite P. destruct (propagate am st start max) as [w|]; cbn [fst snd].
  - do 2 eexists. split; [reflexivity|]. split; [|reflexivity]. eapply inv_put; eauto. destruct F as (Ef & F1 & F2). split; [|split; [exact F1|exact F2]].
    unfold with_elems. rewrite Ef. reflexivity.
  - do 2 eexists; (split; [reflexivity|split; [exact V|reflexivity]]).
Qed.
Lemma do_del old lk p q x : inv old lk p q -> goal old lk p q (ODel x).
Proof.
  intros [S R N X L E O M]. destruct p as [h r ms], q as [ar ams]. unfold goal. cbn [g_heap g_reg g_ms a_reg a_ms] in *. cbn [step astep fst snd].
  do 2 eexists. split; [reflexivity|]. split; [|reflexivity]. constructor; cbn [g_heap g_reg g_ms a_reg a_ms old_after]; auto.
  - unfold put_mach. rewrite !update_len. exact E.
  - unfold put_mach. rewrite update_len. exact O.
  - intros y. rewrite !get_put, <- E. destruct (Nat.eqb y x && Nat.ltb x (List.length ms))%bool; [exact I|apply M].
Qed.
Lemma do_step old lk p q o : inv old lk p q -> if stale old q o then step p o = Wild else goal old lk p q o.
Proof.
  intros V. destruct o; try (cbn [stale]).
  - apply do_state; exact V.
  - apply do_elem; exact V.
  - apply do_clean; exact V.
  - apply do_new; exact V.
  - apply do_reconf; exact V.
  - apply do_alloc; exact V.
  - apply do_prop; exact V.
  - apply do_del; exact V.
Qed.
Lemma inv0 : inv 0 [] (@prog0 D B) (mkAP [] []).
Proof. constructor; cbn; auto; try constructor. - intros a []. - intros x. unfold get_mach. destruct x; exact I. Qed.
End R.
