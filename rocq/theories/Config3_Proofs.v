(** Single-step laws of the Config model on reachable states, and derived
    program equivalences. *)
From Coq Require Import List String Bool Arith Lia.
From Verif Require Import SMap SMap_Proofs Dbl Config_Model Config_Spec Config_Proofs.
Import ListNotations.

Lemma step_rel st ft o u st' x : Rel st ft -> legal st o u -> step st o u = Some (st', x) ->
  exists ft', Rel st' ft'.
Proof.
  intros HRel Hleg Hs. destruct (lookup_only o) eqn:Hlo.
  - pose proof (step_sim st ft o u HRel Hlo Hleg) as H. rewrite Hs in H.
    destruct (fstep ft o) as [[ft' y]|]; [|contradiction]. exists ft'. apply H.
  - destruct o; simpl in Hlo; try discriminate; cbn [step] in Hs.
    + (* OpSwapAny *)
      destruct (regs st r) as [hd|] eqn:E; [|discriminate].
      destruct (rel_reg _ _ HRel r hd E) as (t & Ef & Hrep & Hlive).
      pose proof (r_inv _ _ HRel) as G. unfold Inv in G.
      destruct (g_wf _ _ G hd Hlive) as [[m Hm] [mi Hmi]].
      set (old := match sfind n m with Some w => w | None => vdefault TyNum end).
      set (fold' := match sfind n m with
                    | Some _ => match ffind n t with Some f => f | None => fdefault TyNum end
                    | None => fdefault TyNum end).
      assert (Hold : vrepA (hp st) old fold').
      { unfold old, fold'. destruct (sfind n m) as [w|] eqn:Ew; [|reflexivity].
        destruct (proj1 (hrepA_unfold _ _ _) Hrep n) as (y & Hy & Ho).
        unfold lookup in Hy. rewrite Hm, Ew in Hy. injection Hy as <-. simpl in Ho.
        destruct (ffind n t); [exact Ho|contradiction]. }
      assert (Hold2 : forall hd', in_value hd' old -> nested (hp st) hd hd').
      { intros hd' Hin. unfold old in Hin. destruct (sfind n m) as [w|] eqn:Ew; [|destruct Hin].
        exists (h_vals hd), m, n, w. repeat split; auto; [left; reflexivity|apply sfind_In; exact Ew]. }
      destruct (rel_set st ft HRel r hd t u n (vregs st v) (fvregs ft v)
               (upd (vregs st) v old) (upd (fvregs ft) v fold')) as (h1 & hd1 & Hset & HR);
        [assumption|assumption|intros Hu; apply Hleg; assumption|apply (r_vregs _ _ HRel)|eauto| |].
      * intros w. unfold upd. destruct (Nat.eqb w v); [split; auto|].
        split; [eauto|apply (r_vregs _ _ HRel)].
      * assert (Hsw : swap_any (hp st) hd u n (vregs st v) = Some (h1, hd1, old)).
        { revert Hset. unfold set_any, swap_any, cow. destruct u.
          - rewrite Hm. intros E1. injection E1 as <- <-. reflexivity.
          - rewrite Hm. simpl. unfold deref. fold (deref (hp st ++ [m]) (List.length (hp st))).
            rewrite deref_alloc_new. intros E1. injection E1 as <- <-. reflexivity. }
        rewrite Hsw in Hs. injection Hs as <- <-. eexists; exact HR.
    + (* OpKeys *)
      destruct (regs st r) as [hd|] eqn:E; [|discriminate].
      destruct (deref (hp st) (h_vals hd)); [|discriminate]. injection Hs as <- <-. eauto.
Qed.

Lemma reachable_rel st : reachable st -> exists ft, Rel st ft.
Proof.
  induction 1 as [|st o u st' x H [ft IH] Hl Hs].
  - exists finit. apply Rel_init.
  - eapply step_rel; eauto.
Qed.

Lemma reachable_inv st : reachable st -> Inv st.
Proof. intros H. destruct (reachable_rel _ H) as [ft HR]. apply (r_inv _ _ HR). Qed.

(** No lookup follows a dangling pointer. *)
Lemma inv_lookup_total st r hd n : Inv st -> regs st r = Some hd -> exists x, lookup (hp st) hd n = Some x.
Proof.
  intros G E. destruct (g_wf _ _ G hd) as [[m Hm] [mi Hmi]]; [eapply live_reg; eauto|].
  unfold lookup. rewrite Hm, Hmi. destruct (sfind n m); eauto.
Qed.

Lemma set_see st r hd u n v h1 hd1 : Inv st -> regs st r = Some hd ->
  (u = true -> exclusive st r hd) -> set_any (hp st) hd u n v = Some (h1, hd1) ->
  (forall n', lookup h1 hd1 n' = if String.eqb n' n then Some (Some v) else lookup (hp st) hd n') /\
  (forall r' a n', r' <> r -> regs st r' = Some a -> lookup h1 a n' = lookup (hp st) a n').
Proof.
  intros G Er Hu Hs.
  assert (Hlive : live st hd) by (eapply live_reg; eauto).
  destruct (g_wf _ _ G hd Hlive) as [[m Hm] [mi Hmi]].
  unfold set_any, cow in Hs. destruct u.
  - destruct (Hu eq_refl) as (X0 & X1 & X2 & X3). rewrite Hm in Hs. injection Hs as <- <-. split.
    + intros n'. unfold lookup. erewrite deref_update_same by eauto.
      rewrite impl_map_update_other by auto. rewrite Hm, Hmi, sfind_sset.
      destruct (String.eqb n' n); reflexivity.
    + intros r' a n' Hne Ea. apply lookup_update_other. eapply X1; eauto.
  - rewrite Hm in Hs. simpl in Hs. rewrite deref_alloc_new in Hs. injection Hs as <- <-.
    assert (FF : fresh_for (live st) (List.length (hp st))) by (apply good_fresh; exact G). split.
    + intros n'. unfold lookup; simpl. erewrite deref_update_same by apply deref_alloc_new.
      assert (I1 : impl_map (update (hp st ++ [m]) (List.length (hp st)) (sset n v m))
                     (mkH (List.length (hp st)) (h_impl hd)) = Some mi).
      { unfold impl_map in *; simpl. destruct (h_impl hd) as [l|] eqn:E; [|assumption].
        rewrite deref_update_other; [apply deref_alloc_old; exact Hmi|].
        intros El; apply (FF hd Hlive); right; rewrite E, El; reflexivity. }
      rewrite I1, Hm, Hmi, sfind_sset. destruct (String.eqb n' n); reflexivity.
    + intros r' a n' Hne Ea. assert (La : live st a) by (eapply live_reg; eauto).
      rewrite lookup_update_other by (apply FF; exact La). apply lookup_alloc. apply (g_wf _ _ G). exact La.
Qed.

Lemma flatten_see st r hd h1 hd1 : Inv st -> regs st r = Some hd ->
  flatten (hp st) hd = Some (h1, hd1) ->
  (forall a n, live st a -> lookup h1 a n = lookup (hp st) a n) /\
  (forall n, lookup h1 hd1 n = lookup (hp st) hd n) /\ h_impl hd1 = None /\
  (exists m, deref h1 (h_vals hd1) = Some m) /\
  (forall a, live st a -> wf h1 a).
Proof.
  intros G Er Hs.
  assert (Hlive : live st hd) by (eapply live_reg; eauto).
  destruct (g_wf _ _ G hd Hlive) as [[m Hm] [mi Hmi]].
  unfold flatten in Hs. destruct (h_impl hd) as [li|] eqn:Eli.
  - unfold impl_map in Hmi. rewrite Eli in Hmi. rewrite Hm, Hmi in Hs. injection Hs as <- <-.
    pose proof (fl_lookup _ _ G hd Hlive li Eli m mi Hm Hmi) as HL. repeat split.
    + intros a n La. apply HL. exact La.
    + intros n. apply (fl_lookup_new (hp st) hd li Eli m mi Hm Hmi).
    + exists (smerge m mi). simpl. eapply deref_update_same; eauto.
    + apply (wf_update _ _ _ _ _ Hm). apply (g_wf _ _ G). assumption.
    + apply (wf_update _ _ _ _ _ Hm). apply (g_wf _ _ G). assumption.
  - injection Hs as <- <-. repeat split; eauto; apply (g_wf _ _ G); assumption.
Qed.

Lemma push_see st r hd h1 hd1 : Inv st -> regs st r = Some hd ->
  push_scope (hp st) hd = Some (h1, hd1) ->
  (forall a n, live st a -> lookup h1 a n = lookup (hp st) a n) /\
  (forall n, lookup h1 hd1 n = lookup (hp st) hd n) /\ deref h1 (h_vals hd1) = Some [].
Proof.
  intros G Er Hs. unfold push_scope in Hs. destruct (flatten (hp st) hd) as [[h0 hd0]|] eqn:Hf; [|discriminate].
  destruct (flatten_see st r hd h0 hd0 G Er Hf) as (A & B & C & [m Hm] & W). simpl in Hs. injection Hs as <- <-.
  split; [|split].
  - intros a n La. rewrite lookup_alloc by (apply W; exact La). apply A; exact La.
  - intros n. rewrite <- B. unfold lookup, impl_map; simpl. rewrite deref_alloc_new. simpl.
    rewrite (deref_alloc_old _ _ _ _ Hm), Hm, C. destruct (sfind n m); reflexivity.
  - simpl. apply deref_alloc_new.
Qed.

Lemma new_scope_see st s hd h1 hd1 : Inv st -> regs st s = Some hd ->
  new_scope (hp st) hd = Some (h1, hd1) ->
  (forall a n, live st a -> lookup h1 a n = lookup (hp st) a n) /\
  (forall n, lookup h1 hd1 n = lookup (hp st) hd n) /\ deref h1 (h_vals hd1) = Some [].
Proof.
  intros G Er Hs.
  assert (Hlive : live st hd) by (eapply live_reg; eauto).
  destruct (g_wf _ _ G hd Hlive) as [[m Hm] [mi Hmi]].
  unfold new_scope in Hs. simpl in Hs. rewrite Hm, Hmi in Hs.
  assert (A1 : forall a n, live st a -> lookup (hp st ++ [sempty]) a n = lookup (hp st) a n).
  { intros a n La. apply lookup_alloc. apply (g_wf _ _ G). exact La. }
  destruct (sis_empty m) eqn:Em; [|destruct (sis_empty mi) eqn:Emi].
  - injection Hs as <- <-. split; [exact A1|]. split; [|simpl; apply deref_alloc_new].
    intros n. destruct m; [|discriminate]. unfold lookup; simpl. rewrite deref_alloc_new, Hm, Hmi. simpl.
    unfold impl_map in *; simpl. destruct (h_impl hd); [|congruence].
    rewrite (deref_alloc_old _ _ _ _ Hmi). reflexivity.
  - injection Hs as <- <-. split; [exact A1|]. split; [|simpl; apply deref_alloc_new].
    intros n. destruct mi; [|discriminate]. unfold lookup; simpl. rewrite deref_alloc_new, Hm, Hmi. simpl.
    unfold impl_map; simpl. rewrite (deref_alloc_old _ _ _ _ Hm). destruct (sfind n m); reflexivity.
  - injection Hs as <- <-. split; [|split].
    + intros a n La. rewrite lookup_alloc; [apply A1; exact La|]. apply wf_alloc. apply (g_wf _ _ G). exact La.
    + intros n. unfold lookup, impl_map; simpl.
      rewrite (deref_alloc_old (hp st ++ [sempty]) (smerge m mi) _ _ (deref_alloc_new (hp st) sempty)). simpl.
      rewrite deref_alloc_new, Hm. fold (impl_map (hp st) hd). rewrite Hmi, sfind_smerge.
      destruct (sfind n m); reflexivity.
    + simpl. apply deref_alloc_old. apply deref_alloc_new.
Qed.

(** What variables see after one scope-related operation. *)
Lemma scope_laws st o u st' x r' n' : reachable st -> legal st o u -> step st o u = Some (st', x) ->
  match o with
  | OpNewScope r s => see st' r' n' = if Nat.eqb r' r then see st s n' else see st r' n'
  | OpPush _ | OpFlatten _ => see st' r' n' = see st r' n'
  | OpSet r n v =>
      see st' r' n' = if Nat.eqb r' r && String.eqb n' n then Some (Some (vregs st v)) else see st r' n'
  | OpSwapAny r n v =>
      see st' r' n' = if Nat.eqb r' r && String.eqb n' n then Some (Some (vregs st v)) else see st r' n'
  | _ => True
  end.
Proof.
  intros HR Hleg Hs. pose proof (reachable_inv _ HR) as G.
  assert (HSet : forall r n v hd h1 hd1, (u = true -> exclusive st r hd) -> regs st r = Some hd ->
     set_any (hp st) hd u n v = Some (h1, hd1) -> forall vr,
     see (mkS h1 (upd (regs st) r (Some hd1)) vr) r' n' =
     if Nat.eqb r' r && String.eqb n' n then Some (Some v) else see st r' n').
  { intros r n v hd h1 hd1 Hex E Es vr.
    destruct (set_see st r hd u n v h1 hd1 G E Hex Es) as [A B].
    unfold see; simpl; unfold upd. destruct (Nat.eqb_spec r' r) as [Heq|Hne]; simpl.
    - subst r'. rewrite E. apply A.
    - destruct (regs st r') eqn:E'; [|reflexivity]. eapply B; eauto. }
  destruct o; auto; cbn [step] in Hs.
  - destruct (regs st r) as [hd|] eqn:E; [|discriminate].
    destruct (set_any _ _ _ _ _) as [[h1 hd1]|] eqn:Es; [|discriminate]. injection Hs as <- <-.
    eapply HSet with (hd := hd); [intros Hu; apply Hleg; auto|exact E|exact Es].
  - destruct (regs st r) as [hd|] eqn:E; [|discriminate].
    destruct (swap_any _ _ _ _ _) as [[[h1 hd1] old]|] eqn:Es; [|discriminate]. injection Hs as <- <-.
    eapply HSet with (hd := hd); [intros Hu; apply Hleg; auto|exact E|].
    revert Es. unfold set_any, swap_any. destruct (cow _ _ _) as [[h0 hd0]|]; [|discriminate].
    destruct (deref h0 (h_vals hd0)); [|discriminate]. intros E1; injection E1 as <- <- _. reflexivity.
  - destruct (regs st s) as [hd|] eqn:E; [|discriminate].
    destruct (new_scope _ _) as [[h1 hd1]|] eqn:Es; [|discriminate]. injection Hs as <- <-.
    destruct (new_scope_see st s hd h1 hd1 G E Es) as (A & B & _).
    unfold see; simpl; unfold upd. rewrite E. destruct (Nat.eqb r' r); [apply B|].
    destruct (regs st r') eqn:E'; [|reflexivity]. apply A. eapply live_reg; eauto.
  - destruct (regs st r) as [hd|] eqn:E; [|discriminate].
    destruct (push_scope _ _) as [[h1 hd1]|] eqn:Es; [|discriminate]. injection Hs as <- <-.
    destruct (push_see st r hd h1 hd1 G E Es) as (A & B & _).
    unfold see; simpl; unfold upd. destruct (Nat.eqb_spec r' r) as [Heq|Hne]; [subst r'; rewrite E; apply B|].
    destruct (regs st r') eqn:E'; [|reflexivity]. apply A. eapply live_reg; eauto.
  - destruct (regs st r) as [hd|] eqn:E; [|discriminate].
    destruct (flatten _ _) as [[h1 hd1]|] eqn:Es; [|discriminate]. injection Hs as <- <-.
    destruct (flatten_see st r hd h1 hd1 G E Es) as (A & B & _).
    unfold see; simpl; unfold upd. destruct (Nat.eqb_spec r' r) as [Heq|Hne]; [subst r'; rewrite E; apply B|].
    destruct (regs st r') eqn:E'; [|reflexivity]. apply A. eapply live_reg; eauto.
Qed.

(** Every operation on constructed variables is defined. *)
Lemma typed_access st v r n t : reachable st -> regs st r <> None ->
  exists found,
    see st r n = Some found /\
    let hit := match found with Some x => if vty_eqb t (vtype x) then Some x else None | None => None end in
    let put x := mkS (hp st) (regs st) (upd (vregs st) v x) in
    (forall u, step st (OpGet t v r n) u =
       Some (match hit with Some x => (put x, OUnit) | None => (st, OKeyError) end)) /\
    (forall u, step st (OpGetDef t v r n) u =
       Some (match hit with Some x => (put x, OUnit) | None => (st, OUnit) end)) /\
    (forall u, step st (OpTryGet t v r n) u =
       Some (match hit with Some x => (put x, OBool true) | None => (st, OBool false) end)).
Proof.
  intros HR Hr. pose proof (reachable_inv _ HR) as G.
  unfold see. cbn [step]. destruct (regs st r) as [hd|] eqn:E; [|contradiction].
  destruct (inv_lookup_total st r hd n G E) as [x Hx]. exists x. split; [exact Hx|].
  rewrite Hx. destruct x as [x|]; simpl; [|auto]. destruct (vty_eqb t (vtype x)); auto.
Qed.

Lemma swap_any_law st r n v u st' x : reachable st -> legal st (OpSwapAny r n v) u ->
  step st (OpSwapAny r n v) u = Some (st', x) ->
  exists m, own_entries st r = Some m /\
    vregs st' v = (match sfind n m with Some w => w | None => VNum dzero end) /\
    own_entries st' r = Some (sset n (vregs st v) m) /\
    (forall w, w <> v -> vregs st' w = vregs st w) /\
    (forall r', r' <> r -> own_entries st' r' = own_entries st r').
Proof.
  intros HR Hleg Hs. pose proof (reachable_inv _ HR) as G. cbn [step] in Hs. unfold own_entries.
  destruct (regs st r) as [hd|] eqn:E; [|discriminate].
  assert (Hlive : live st hd) by (eapply live_reg; eauto).
  destruct (g_wf _ _ G hd Hlive) as [[m Hm] [mi Hmi]]. exists m. split; [exact Hm|].
  unfold swap_any, cow in Hs. destruct u.
  - rewrite Hm in Hs. injection Hs as <- <-. simpl. unfold upd. rewrite !Nat.eqb_refl.
    destruct (Hleg eq_refl hd E) as (X0 & X1 & X2 & X3). repeat split.
    + eapply deref_update_same; eauto.
    + intros w Hw. apply Nat.eqb_neq in Hw. rewrite Hw. reflexivity.
    + intros r' Hr. pose proof Hr as Hr2. apply Nat.eqb_neq in Hr2. rewrite Hr2.
      destruct (regs st r') eqn:E'; [|reflexivity]. apply deref_update_other.
      intros El. apply (X1 r' _ Hr E'). left; exact El.
  - rewrite Hm in Hs. simpl in Hs. rewrite deref_alloc_new in Hs. injection Hs as <- <-.
    simpl. unfold upd. rewrite !Nat.eqb_refl.
    assert (FF : fresh_for (live st) (List.length (hp st))) by (apply good_fresh; exact G). repeat split.
    + erewrite deref_update_same; [reflexivity|]. apply deref_alloc_new.
    + intros w Hw. apply Nat.eqb_neq in Hw. rewrite Hw. reflexivity.
    + intros r' Hr. apply Nat.eqb_neq in Hr. rewrite Hr.
      destruct (regs st r') as [a|] eqn:E'; [|reflexivity].
      assert (La : live st a) by (eapply live_reg; eauto).
      rewrite deref_update_other by (intros El; apply (FF a La); left; exact El).
      destruct (g_wf _ _ G a La) as [[y Hy] _]. rewrite Hy. apply deref_alloc_old. exact Hy.
Qed.

(** Observational consequences of the flat refinement. *)
Lemma scope_is_copy : forall os ft,
  frun ft (map (fun o => match o with OpNewScope r s => OpCopy r s | _ => o end) os) = frun ft os.
Proof.
  induction os as [|o os IH]; intros ft; simpl; [reflexivity|].
  assert (E : fstep ft (match o with OpNewScope r s => OpCopy r s | _ => o end) = fstep ft o)
    by (destruct o; reflexivity).
  rewrite E. destruct (fstep ft o) as [[ft' y]|]; [|reflexivity]. rewrite IH. reflexivity.
Qed.

Lemma lookup_only_map os1 os2 :
  map fst os2 = map (fun o => match o with OpNewScope r s => OpCopy r s | _ => o end) (map fst os1) ->
  forallb (fun ou : op * bool => lookup_only (fst ou)) os1 = true ->
  forallb (fun ou : op * bool => lookup_only (fst ou)) os2 = true.
Proof.
  revert os2. induction os1 as [|[o u] os1 IH]; intros [|[o2 u2] os2] E H; simpl in *; try discriminate; auto.
  injection E as E1 E2. apply andb_prop in H as [H1 H2]. rewrite (IH _ E2 H2), andb_true_r.
  subst o2. destruct o; simpl in *; auto.
Qed.

Lemma run_scope_is_copy os1 os2 :
  forallb (fun ou => lookup_only (fst ou)) os1 = true ->
  legal_run init os1 -> legal_run init os2 ->
  map fst os2 = map (fun o => match o with OpNewScope r s => OpCopy r s | _ => o end) (map fst os1) ->
  run init os1 = run init os2.
Proof.
  intros H L1 L2 E. rewrite (run_sim os1 init finit Rel_init H L1).
  rewrite (run_sim os2 init finit Rel_init (lookup_only_map _ _ E H) L2), E. symmetry. apply scope_is_copy.
Qed.

(** A program whose [unique()] answers are all [false] is always legal. *)
Lemma legal_run_false os : forall st, legal_run st (map (fun o => (o, false)) os).
Proof.
  induction os as [|o os IH]; intros st; cbn [map legal_run]; [exact I|]. split.
  - unfold legal. destruct (cow_target o); [discriminate|exact I].
  - destruct (step st o false) as [[st' x]|]; [apply IH|exact I].
Qed.

Lemma reachable_run : forall os st st', reachable st -> legal_run st os -> exec st os = Some st' -> reachable st'.
Proof.
  induction os as [|[o u] os IH]; intros st st' HR HL He; simpl in HL, He.
  - injection He as <-. exact HR.
  - destruct HL as [Hl1 Hl2]. destruct (step st o u) as [[st1 x]|] eqn:E; [|discriminate].
    apply (IH st1 st'); [|exact Hl2|exact He]. exact (reach_step st o u st1 x HR Hl1 E).
Qed.

(** A checkable sufficient condition for [exclusive]. *)
Definition no_nested (st : state) : Prop :=
  forallb (fun m => forallb (fun kv : string * value => is_scalar (snd kv)) m) (hp st) = true /\
  forall v, is_scalar (vregs st v) = true.

Lemma no_nested_spec st hd hd' : no_nested st -> nested (hp st) hd hd' -> False.
Proof.
  intros [H _] (l & m & k & v & _ & Hd & Hin & Hv).
  rewrite forallb_forall in H. apply nth_error_In in Hd. specialize (H m Hd).
  rewrite forallb_forall in H. specialize (H _ Hin). simpl in H. destruct v; simpl in *; try contradiction. discriminate.
Qed.

Lemma exclusive_check st r hd : no_nested st -> h_impl hd <> Some (h_vals hd) ->
  (forall r' hd', r' <> r -> regs st r' = Some hd' -> ~ mentions hd' (h_vals hd)) -> exclusive st r hd.
Proof.
  intros N H0 H1. split; [exact H0|]. split; [exact H1|]. split.
  - intros v hd' Hin. destruct N as [_ N]. specialize (N v). destruct (vregs st v); simpl in *; try contradiction. discriminate.
  - intros a b _ Hn. destruct (no_nested_spec _ _ _ N Hn).
Qed.

Lemma run_py_conf_see st e tmp st' outs :
  reachable st -> legal_run st (py_conf e tmp) -> e <> tmp ->
  exec st (py_conf e tmp) = Some st' -> run st (py_conf e tmp) = Some outs ->
  forall r n, r <> tmp -> see st' r n = see st r n.
Proof.
  intros HR HL He Hex _ r n Hr. unfold py_conf in *.
  cbn [exec] in Hex. cbn [legal_run] in HL.
  destruct HL as [L1 HL]. destruct (step st (OpNew tmp) false) as [[s1 x1]|] eqn:E1; [|discriminate].
  destruct HL as [L2 HL]. destruct (step s1 (OpCopy tmp e) false) as [[s2 x2]|] eqn:E2; [|discriminate].
  destruct HL as [L3 HL]. destruct (step s2 (OpFlatten tmp) false) as [[s3 x3]|] eqn:E3; [|discriminate].
  destruct HL as [L4 HL]. destruct (step s3 (OpKeys tmp) false) as [[s4 x4]|] eqn:E4; [|discriminate].
  destruct HL as [L5 HL]. destruct (step s4 (OpDestroy tmp) false) as [[s5 x5]|] eqn:E5; [|discriminate].
  injection Hex as <-.
  assert (R1 : reachable s1) by (eapply reach_step; eauto).
  assert (R2 : reachable s2) by (eapply reach_step; eauto).
  assert (T1 : see s1 r n = see st r n).
  { cbn [step] in E1. simpl in E1. injection E1 as <- _. unfold see; simpl. unfold upd.
    apply Nat.eqb_neq in Hr. rewrite Hr. destruct (regs st r) as [hd|] eqn:E; [|reflexivity].
    apply lookup_alloc. apply (g_wf _ _ (reachable_inv _ HR)). eapply live_reg; eauto. }
  assert (T2 : see s2 r n = see s1 r n).
  { cbn [step] in E2. destruct (regs s1 e); [|discriminate]. injection E2 as <- _. unfold see; simpl. unfold upd.
    apply Nat.eqb_neq in Hr. rewrite Hr. reflexivity. }
  assert (T3 : see s3 r n = see s2 r n) by apply (scope_laws s2 (OpFlatten tmp) false s3 x3 r n R2 L3 E3).
  assert (T4 : see s4 r n = see s3 r n).
  { cbn [step] in E4. destruct (regs s3 tmp) as [hd|]; [|discriminate].
    destruct (deref (hp s3) (h_vals hd)); [|discriminate]. injection E4 as <- _. reflexivity. }
  assert (T5 : see s5 r n = see s4 r n).
  { cbn [step] in E5. injection E5 as <- _. unfold see; simpl. unfold upd.
    apply Nat.eqb_neq in Hr. rewrite Hr. reflexivity. }
  congruence.
Qed.

(** ** Witnesses of the refuted claims *)
Local Open Scope string_scope.

Definition c02_prefix : list (op * bool) :=
  [(OpNew 0, false); (OpLit 0 (VStr "x"), false); (OpSet 0 "a" 0, false);
   (OpNewScope 1 0, false); (OpCopy 2 1, false)].

(** A machine Config (variable 0) with one element (variable 1). *)
Definition c46_machine : list op :=
  [OpNew 0; OpLit 0 (VNum done); OpSet 0 "L" 0; OpNewScope 1 0;
   OpLit 1 (VStr "drift"); OpSet 1 "type" 1; OpPack 2 [1]; OpSet 0 "elements" 2].

(** machine.conf()['elements'][0], entries *)
Definition c46_list : list op :=
  [OpCopy 7 0; OpGet TyCfgs 3 7 "elements"; OpElem 4 3 0; OpKeys 4].

Lemma C02_iteration_isolation_refuted_w :
  exists st st' out before after,
    reachable st /\ legal st (OpFlatten 2) false /\ step st (OpFlatten 2) false = Some (st', out) /\
    own_entries st 1 = Some before /\ own_entries st' 1 = Some after /\ before <> after.
Proof.
  destruct (exec init c02_prefix) as [st|] eqn:E; [|discriminate E].
  assert (R : reachable st).
  { apply (reachable_run c02_prefix init); [apply reach_init| |exact E].
    exact (legal_run_false [OpNew 0; OpLit 0 (VStr "x"); OpSet 0 "a" 0; OpNewScope 1 0; OpCopy 2 1] init). }
  vm_compute in E. injection E as <-.
  eexists _, _, _, _, _. split; [exact R|]. split; [exact I|]. split; [reflexivity|].
  split; [reflexivity|]. split; [reflexivity|]. discriminate.
Qed.

Lemma C05_typed_swap_refuted_w :
  exists st st' out old new,
    reachable st /\ legal st (OpSwapT TyStr 0 "a" 1) false /\
    step st (OpSwapT TyStr 0 "a" 1) false = Some (st', out) /\
    see st 0 "a" = Some (Some old) /\ vregs st 1 = new /\ old <> new /\
    see st' 0 "a" = Some (Some new) /\ vregs st' 1 <> old.
Proof.
  pose (os := [OpNew 0; OpLit 0 (VStr "old"); OpSet 0 "a" 0; OpLit 1 (VStr "new")]).
  destruct (exec init (map (fun o => (o, false)) os)) as [st|] eqn:E; [|discriminate E].
  assert (R : reachable st).
  { apply (reachable_run (map (fun o => (o, false)) os) init); [apply reach_init| |exact E].
    apply legal_run_false. }
  vm_compute in E. injection E as <-.
  eexists _, _, _, _, _. split; [exact R|]. split; [intros H; discriminate|]. split; [reflexivity|].
  split; [reflexivity|]. split; [reflexivity|]. split; [discriminate|]. split; [reflexivity|]. discriminate.
Qed.

Lemma C46_inspection_changes_machine_refuted_w :
  exists l1 l2,
    legal_run init (map (fun o => (o, false)) (c46_machine ++ c46_list)) /\
    legal_run init (map (fun o => (o, false)) c46_machine ++ py_conf 1 9 ++ map (fun o => (o, false)) c46_list) /\
    option_map (@List.rev out) (run init (map (fun o => (o, false)) (c46_machine ++ c46_list))) = Some (OKeys [("type", ShStr "drift")] :: l1) /\
    option_map (@List.rev out) (run init (map (fun o => (o, false)) c46_machine ++ py_conf 1 9 ++ map (fun o => (o, false)) c46_list))
      = Some (OKeys [("L", ShNum done); ("type", ShStr "drift")] :: l2).
Proof.
  eexists _, _. split; [apply legal_run_false|]. split.
  - exact (legal_run_false (c46_machine ++ map fst (py_conf 1 9) ++ c46_list) init).
  - split; vm_compute; reflexivity.
Qed.
