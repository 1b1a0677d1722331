(** The caches of the moment elements: going forward, an element that was used
    before behaves like a new one. *)
From Coq Require Import Reals List String Bool NArith ZArith Arith Lia Lra FunctionalExtensionality.
From Verif Require Import SMap SMap_Proofs Dbl Config_Spec Mat Mat_Proofs Minv Minv_Proofs
  Machine_Model Machine_Spec Machine_Proofs Machine2_Proofs Machine4_Proofs
  Moment_Model Moment_Spec Moment_Proofs Moment2_Proofs Moment3_Proofs Moment5_Proofs.
Import ListNotations.
Open Scope R_scope.
Open Scope string_scope.
Open Scope list_scope.

Ltac fld := cbn [md_len md_sh md_skip md_ref_in md_real_in md_ref_out md_real_out md_tm md_mis md_fit md_istate md_phi].

Lemma some_eq {A} (a b : A) : Some a = Some b -> a = b.
Proof. congruence. Qed.
Lemma pair_eq {A B} (a a' : A) (b b' : B) : (a, b) = (a', b') -> a = a' /\ b = b'.
Proof. intros H. split; congruence. Qed.

(** ** The key *)
Lemma peqb_fields l r : peqb l r = true ->
  p_Ek l = p_Ek r /\ p_Es l = p_Es r /\ p_Z l = p_Z r /\ p_Q l = p_Q r /\ p_phis l = p_phis r /\ p_freq l = p_freq r.
Proof.
  unfold peqb. rewrite !andb_true_iff. intros (((((H1 & H2) & H3) & H4) & H5) & H6).
  apply Reqb_true in H1, H2, H3, H4, H5, H6. auto 10.
Qed.
Lemma recalc_fields a b : p_Ek a = p_Ek b -> p_Es a = p_Es b -> p_Z a = p_Z b -> p_Q a = p_Q b ->
  p_phis a = p_phis b -> p_freq a = p_freq b -> recalc a = recalc b.
Proof. intros H1 H2 H3 H4 H5 H6. unfold recalc. rewrite H1, H2, H3, H4, H5, H6. reflexivity. Qed.
Lemma peqb_recalc l r : peqb l r = true -> recalc l = recalc r.
Proof. intros H. apply peqb_fields in H as (H1 & H2 & H3 & H4 & H5 & H6). apply recalc_fields; auto. Qed.
Lemma peqb_refl p : peqb p p = true.
Proof. unfold peqb, Reqb. repeat (destruct (Req_EM_T _ _); [|congruence]). reflexivity. Qed.
Definition settled (p : particle) : Prop := recalc p = p.
Lemma settled_recalc p : settled (recalc p). Proof. apply recalc_idem. Qed.
Lemma settled_map l : Forall settled (map recalc l).
Proof. induction l; constructor; auto. apply settled_recalc. Qed.
Lemma hit_key d s : check_cache d s = true -> settled (ms_ref s) -> Forall settled (ms_real s) ->
  (forall r, md_ref_in d = Some r -> settled r) -> Forall settled (md_real_in d) ->
  md_ref_in d = Some (ms_ref s) /\ md_real_in d = ms_real s.
Proof.
  unfold check_cache. intros H S1 S2 S3 S4. apply andb_true_iff in H as [H H3]. apply andb_true_iff in H as [H H2].
  apply andb_true_iff in H as [_ H1]. apply Nat.eqb_eq in H1. split.
  - destruct (md_ref_in d) as [r|]; [|discriminate]. apply peqb_recalc in H2. rewrite S1, S3 in H2; congruence.
  - revert H1 H3 S2 S4. generalize (md_real_in d) as l, (ms_real s) as l'.
    induction l as [|a l IH]; intros [|b l'] HL HF S2 S4; try discriminate; auto. simpl in HF.
    apply andb_true_iff in HF as [F1 F2]. inversion S2; subst. inversion S4; subst. f_equal.
    + apply peqb_recalc in F1. congruence.
    + apply IH; auto.
Qed.
Lemma recalc_twice s : ms_recalc (ms_recalc s) = ms_recalc s.
Proof.
  unfold ms_recalc. cbn [ms_pos ms_ref ms_real ms_m0 ms_m1 ms_tm ms_env0 ms_rms ms_env1 ms_phi0].
  rewrite recalc_idem, map_map. rewrite (map_ext (fun x => recalc (recalc x)) recalc) by apply recalc_idem. reflexivity.
Qed.

(** ** The loops *)
Definition blind {A} (f : particle -> A -> A * option exn) : Prop := forall p a b,
  snd (f p a) = snd (f p b) /\ (snd (f p a) = None -> f p a = f p b).
Lemma run_blind {A} (f : particle -> A -> A * option exn) ps : blind f -> forall l l',
  List.length l = List.length ps -> List.length l' = List.length ps ->
  snd (run_cells f ps l) = snd (run_cells f ps l') /\
  (snd (run_cells f ps l) = None -> run_cells f ps l = run_cells f ps l').
Proof.
  intros B. induction ps as [|p ps IH]; intros [|a l] [|b l'] L1 L2; try discriminate; simpl; auto.
  destruct (B p a b) as [B1 B2]. destruct (f p a) as [x [e|]] eqn:Ea; destruct (f p b) as [y [e'|]] eqn:Eb;
    simpl in *; try discriminate; auto.
  - split; auto. discriminate.
  - specialize (B2 eq_refl). injection B2 as ->. destruct (IH l l') as [I1 I2]; auto.
    destruct (run_cells f ps l) as [r1 e1]; destruct (run_cells f ps l') as [r2 e2]. simpl in *. subst e2.
    split; auto. intros ->. specialize (I2 eq_refl). congruence.
Qed.
Lemma resize_const {A} n (x : A) l : Forall (eq x) l -> resize n x l = repeat x n.
Proof.
  revert n. induction l as [|a l IH]; intros n H.
  - unfold resize. rewrite firstn_nil. simpl. rewrite Nat.sub_0_r. reflexivity.
  - inversion H; subst. destruct n; [reflexivity|]. unfold resize in *. simpl. f_equal. apply IH; auto.
Qed.

Section W.
Variable w : world.

Lemma blind_misaligned d ref T : blind (fun p (_ : mat) => misaligned d ref p (T p)).
Proof. intros p a b. auto. Qed.
Lemma setup_blind k d c ref f : setup w k d c ref = Ok f -> blind f.
Proof.
  destruct k; cbn [setup]; try (intros [= <-] p a b; auto; fail).
  - unfold setup_sbend. intros H. apply rbind_ok in H as (l & _ & H). apply rbind_ok in H as (phi & _ & H).
    apply rbind_ok in H as (phi1 & _ & H). apply rbind_ok in H as (phi2 & _ & H). injection H as <-. intros p a b. auto.
  - unfold setup_quad. intros H. apply rbind_ok in H as (l & _ & H). apply rbind_ok in H as (n & _ & H).
    destruct (negb _); apply rbind_ok in H as (x & _ & H); injection H as <-; intros p a b; auto.
  - unfold setup_solenoid. intros H. apply rbind_ok in H as (l & _ & H). apply rbind_ok in H as (n & _ & H).
    destruct (negb _); apply rbind_ok in H as (x & _ & H); injection H as <-; intros p a b; auto.
  - unfold setup_edipole. intros H. apply rbind_ok in H as (l & _ & H). apply rbind_ok in H as (n & _ & H).
    apply rbind_ok in H as (l1 & _ & H). apply rbind_ok in H as (l2 & _ & H). apply rbind_ok in H as (l3 & _ & H).
    destruct (negb _); [discriminate|]. injection H as <-; intros p a b; auto.
  - unfold setup_equad. intros H. apply rbind_ok in H as (l & _ & H). apply rbind_ok in H as (n & _ & H).
    destruct (negb _).
    + apply rbind_ok in H as (x & _ & H); injection H as <-; intros p a b; auto.
    + apply rbind_ok in H as (x & _ & H). apply rbind_ok in H as (y & _ & H). injection H as <-; intros p a b; auto.
  - intros [= <-] p a b. destruct (load_storage _ _ _); simpl; auto. split; [auto|discriminate].
Qed.
(** What construction decides. *)
Definition stat (d d0 : mdata) : Prop :=
  md_len d = md_len d0 /\ md_sh d = md_sh d0 /\ md_skip d = md_skip d0 /\ md_fit d = md_fit d0 /\
  md_istate d = md_istate d0.
Lemma stat_refl d : stat d d. Proof. repeat split. Qed.
Lemma setup_stat k d d0 c ref : stat d d0 -> setup w k d c ref = setup w k d0 c ref.
Proof.
  destruct d as [len sh sk a1 a2 a3 a4 a5 a6 fit ist ph], d0 as [len' sh' sk' b1 b2 b3 b4 b5 b6 fit' ist' ph'].
  intros (H1 & H2 & H3 & H4 & H5). simpl in *. subst. destruct k; reflexivity.
Qed.
Lemma recompute_same k c d d0 s : stat d d0 ->
  List.length (md_tm d) = List.length (ms_real s) -> List.length (md_tm d0) = List.length (ms_real s) ->
  snd (recompute w k c d s) = snd (recompute w k c d0 s) /\
  (snd (recompute w k c d s) = None -> recompute w k c d s = recompute w k c d0 s).
Proof.
  intros S L L0. unfold recompute. rewrite (setup_stat k d d0) by auto.
  destruct (setup w k d0 c (ms_ref s)) as [f|e] eqn:E; simpl; [|split; [auto|discriminate]].
  apply run_blind; auto. eapply setup_blind; eauto.
Qed.

(** ** Elements *)
Definition fresh (d : mdata) : Prop := md_ref_in d = None /\ md_real_in d = [] /\ md_mis d = [] /\ md_phi d = 0 /\ md_ref_out d = None.
Lemma fresh_miss d s : fresh d -> check_cache d s = false.
Proof. intros (H & _). unfold check_cache. rewrite H. rewrite andb_false_r. reflexivity. Qed.
Lemma ctor_fresh k c d : mom_ctor w k c = Ok d -> fresh d.
Proof.
  unfold mom_ctor. destruct k; try (intros [= <-]; repeat split; fail).
  - intros H. apply rbind_ok in H as (s & _ & H). injection H as <-. repeat split.
  - intros H. apply rbind_ok in H as (s & _ & H). destruct (_ || _)%bool; [|discriminate]. injection H as <-. repeat split.
  - intros H. apply rbind_ok in H as (s & _ & H). injection H as <-. repeat split.
Qed.
Definition same_out (r r0 : mdata * res mstate) : Prop :=
  snd r = snd r0 /\ ((exists s, snd r0 = Ok s) -> fst r = fst r0).

(** Recomputation does not see what was there. *)
Lemma base_miss k c d d0 r s : stat d d0 -> md_phi d = 0 -> md_phi d0 = 0 ->
  Forall (eq (mid, mid)) (md_mis d) -> Forall (eq (mid, mid)) (md_mis d0) ->
  check_cache d (ms_recalc s) = false -> check_cache d0 (ms_recalc s) = false ->
  same_out (advance_base w k c d r s) (advance_base w k c d0 r s).
Proof.
  intros S F1 F2 M1 M2 C1 C2. unfold advance_base. rewrite C1, C2. set (s1 := ms_recalc s).
  destruct (note_shape d s1) as (_ & N1 & _). destruct (note_shape d0 s1) as (_ & N2 & _).
  destruct (recompute_same k c (note_input d s1) (note_input d0 s1) s1) as [R1 R2]; auto.
  destruct (recompute w k c (note_input d s1) s1) as [tm e];
    destruct (recompute w k c (note_input d0 s1) s1) as [tm0 e0]. simpl in R1, R2. subst e0.
  destruct e as [e|].
  - split; [reflexivity|]. intros [s' H]. discriminate.
  - specialize (R2 eq_refl). injection R2 as <-. destruct S as (E1 & E2 & E3 & E4 & E5).
    replace (with_tm (note_input d s1) tm) with
      (mkMD (md_len d0) (md_sh d0) (md_skip d0) (Some (ms_ref s1)) (ms_real s1) (md_ref_out d) (md_real_out d) tm
            (repeat (mid, mid) (List.length (ms_real s1))) (md_fit d0) (md_istate d0) 0).
    2:{ unfold with_tm, note_input, with_in. fld. rewrite resize_const by auto. congruence. }
    replace (with_tm (note_input d0 s1) tm) with
      (mkMD (md_len d0) (md_sh d0) (md_skip d0) (Some (ms_ref s1)) (ms_real s1) (md_ref_out d0) (md_real_out d0) tm
            (repeat (mid, mid) (List.length (ms_real s1))) (md_fit d0) (md_istate d0) 0).
    2:{ unfold with_tm, note_input, with_in. fld. rewrite resize_const by auto. congruence. }
    unfold with_out. cbn [md_len md_sh md_skip md_ref_in md_real_in md_tm md_mis md_fit md_istate md_phi note_input with_in].
    rewrite E1. split; reflexivity.
Qed.
Lemma sbend_miss c d d0 r s : stat d d0 -> md_phi d = 0 -> md_phi d0 = 0 ->
  Forall (eq (mid, mid)) (md_mis d) -> Forall (eq (mid, mid)) (md_mis d0) ->
  check_cache d (ms_recalc s) = false -> check_cache d0 (ms_recalc s) = false ->
  same_out (advance_sbend w c d r s) (advance_sbend w c d0 r s).
Proof.
  intros S F1 F2 M1 M2 C1 C2. unfold advance_sbend. rewrite C1, C2. set (s1 := ms_recalc s).
  destruct (note_shape d s1) as (_ & N1 & _). destruct (note_shape d0 s1) as (_ & N2 & _).
  destruct (recompute_same KSBend c (note_input d s1) (note_input d0 s1) s1) as [R1 R2]; auto.
  destruct (recompute w KSBend c (note_input d s1) s1) as [tm e];
    destruct (recompute w KSBend c (note_input d0 s1) s1) as [tm0 e0]. simpl in R1, R2. subst e0.
  destruct e as [e|].
  - split; [reflexivity|]. intros [s' H]. discriminate.
  - specialize (R2 eq_refl). injection R2 as <-. destruct S as (E1 & E2 & E3 & E4 & E5).
    replace (with_tm (note_input d s1) tm) with
      (mkMD (md_len d0) (md_sh d0) (md_skip d0) (Some (ms_ref s1)) (ms_real s1) (md_ref_out d) (md_real_out d) tm
            (repeat (mid, mid) (List.length (ms_real s1))) (md_fit d0) (md_istate d0) 0).
    2:{ unfold with_tm, note_input, with_in. fld. rewrite resize_const by auto. congruence. }
    replace (with_tm (note_input d0 s1) tm) with
      (mkMD (md_len d0) (md_sh d0) (md_skip d0) (Some (ms_ref s1)) (ms_real s1) (md_ref_out d0) (md_real_out d0) tm
            (repeat (mid, mid) (List.length (ms_real s1))) (md_fit d0) (md_istate d0) 0).
    2:{ unfold with_tm, note_input, with_in. fld. rewrite resize_const by auto. congruence. }
    unfold with_out. cbn [md_len md_sh md_skip md_ref_in md_real_in md_tm md_mis md_fit md_istate md_phi note_input with_in].
    split; reflexivity.
Qed.

Lemma copied {A} (l : list A) : forall l', List.length l = List.length l' -> over (fun x _ => x) l l' = Ok l.
Proof. induction l as [|a l IH]; intros [|b l'] H; try discriminate; simpl; auto. rewrite IH by auto. reflexivity. Qed.
Lemma from_cache_eq d s r : md_ref_out d = Some r -> List.length (md_real_out d) = List.length (ms_real s) ->
  from_cache w d s = Ok (r, md_real_out d).
Proof.
  intros H L. unfold from_cache. rewrite L, Nat.eqb_refl, andb_false_r, copied by auto. rewrite H. reflexivity.
Qed.

Definition stepped (r : bool) (len : R) (p : particle) : particle :=
  add_phis p (if r then - (p_K p * len * MtoMM) else p_K p * len * MtoMM).
Lemma base_eq k c d0 r s : check_cache d0 (ms_recalc s) = false ->
  advance_base w k c d0 r s =
  (let s1 := ms_recalc s in
   match recompute w k c (note_input d0 s1) s1 with
   | (tm, Some e) => (with_tm (note_input d0 s1) tm, Throw e)
   | (tm, None) =>
       let d := with_out (with_tm (note_input d0 s1) tm) (stepped r (md_len d0) (ms_ref s1))
                         (map (stepped r (md_len d0)) (ms_real s1)) in
       (d, finish w d r s1 (stepped r (md_len d0) (ms_ref s1)) (map (stepped r (md_len d0)) (ms_real s1)))
   end).
Proof. intros H. unfold advance_base. rewrite H. rewrite recalc_twice. reflexivity. Qed.
Lemma recompute_parts k c d s s' : ms_ref s = ms_ref s' -> ms_real s = ms_real s' ->
  recompute w k c d s = recompute w k c d s'.
Proof. intros H1 H2. unfold recompute. rewrite H1, H2. reflexivity. Qed.
Lemma note_parts d s s' : ms_ref s = ms_ref s' -> ms_real s = ms_real s' -> note_input d s = note_input d s'.
Proof. intros H1 H2. unfold note_input. rewrite H1, H2. reflexivity. Qed.
Lemma recalc_settled s : settled (ms_ref (ms_recalc s)) /\ Forall settled (ms_real (ms_recalc s)).
Proof. split; [apply settled_recalc|apply settled_map]. Qed.

Lemma base_hit k c d0 d r s0 s0' s : fresh d0 -> advance_base w k c d0 r s0 = (d, Ok s0') ->
  check_cache d (ms_recalc s) = true -> advance_base w k c d r s = advance_base w k c d0 r s.
Proof.
  intros F. rewrite base_eq by (apply fresh_miss; auto). cbv zeta.
  destruct (recompute w k c (note_input d0 (ms_recalc s0)) (ms_recalc s0)) as [tm [e|]] eqn:RC; [discriminate|].
  intros HD C. apply pair_eq in HD as [<- _].
  destruct (hit_key _ _ C) as [K1 K2]; try apply recalc_settled.
  { intros x K. apply some_eq in K. subst x. apply recalc_settled. }
  cbn [with_out with_tm note_input with_in md_ref_in md_real_in] in K1, K2. apply some_eq in K1.
  rewrite (note_parts d0 _ _ K1 K2), (recompute_parts k c _ _ _ K1 K2) in RC.
  rewrite (note_parts d0 _ _ K1 K2) in C |- *. rewrite K1, K2 in C |- *.
  rewrite (base_eq k c d0) by (apply fresh_miss; auto). cbv zeta. rewrite RC.
  unfold advance_base at 1. cbv zeta. rewrite C.
  erewrite from_cache_eq by (cbn [with_out md_ref_out md_real_out]; rewrite ?map_length; reflexivity).
  reflexivity.
Qed.
Lemma sbend_eq c d0 r s : check_cache d0 (ms_recalc s) = false ->
  advance_sbend w c d0 r s =
  (let s1 := ms_recalc s in
   match recompute w KSBend c (note_input d0 s1) s1 with
   | (tm, Some e) => (with_tm (note_input d0 s1) tm, Throw e)
   | (tm, None) =>
       let d := with_out (with_tm (note_input d0 s1) tm) (ms_ref s1) (ms_real s1) in
       (d, finish_sbend w d r s1 (ms_ref s1) (ms_real s1))
   end).
Proof. intros H. unfold advance_sbend. rewrite H. rewrite recalc_twice. reflexivity. Qed.
Lemma sbend_hit c d0 d r0 r s0 s0' s : fresh d0 -> advance_sbend w c d0 r0 s0 = (d, Ok s0') ->
  check_cache d (ms_recalc s) = true -> advance_sbend w c d r s = advance_sbend w c d0 r s.
Proof.
  intros F. rewrite sbend_eq by (apply fresh_miss; auto). cbv zeta.
  destruct (recompute w KSBend c (note_input d0 (ms_recalc s0)) (ms_recalc s0)) as [tm [e|]] eqn:RC; [discriminate|].
  intros HD C. apply pair_eq in HD as [<- _].
  destruct (hit_key _ _ C) as [K1 K2]; try apply recalc_settled.
  { intros x K. apply some_eq in K. subst x. apply recalc_settled. }
  cbn [with_out with_tm note_input with_in md_ref_in md_real_in] in K1, K2. apply some_eq in K1.
  rewrite (note_parts d0 _ _ K1 K2), (recompute_parts KSBend c _ _ _ K1 K2) in RC.
  rewrite (note_parts d0 _ _ K1 K2) in C |- *. rewrite K1, K2 in C |- *.
  rewrite (sbend_eq c d0) by (apply fresh_miss; auto). cbv zeta. rewrite RC.
  unfold advance_sbend at 1. cbv zeta. rewrite C.
  erewrite from_cache_eq by (cbn [with_out md_ref_out md_real_out]; reflexivity).
  reflexivity.
Qed.

(** ** Cavities *)
Definition wipe (T : mat) : mat := mset (mset T PS_S 6 0) PS_PS 6 0.
Lemma wipe_set T a b : wipe (mset (mset (wipe T) PS_S 6 a) PS_PS 6 b) = wipe T.
Proof.
  unfold wipe, mset. apply functional_extensionality. intros i. apply functional_extensionality. intros j.
  unfold PS_S, PS_PS. destruct (Nat.eqb i 5 && Nat.eqb j 6)%bool; auto. destruct (Nat.eqb i 4 && Nat.eqb j 6)%bool; auto.
Qed.
Lemma forward_wipe c ref pi p M IM T T' v m : wipe T = wipe T' ->
  cav_forward w c ref pi p M IM T v m = cav_forward w c ref pi p M IM T' v m.
Proof. intros H. unfold cav_forward. fold (wipe T). fold (wipe T'). rewrite H. reflexivity. Qed.
Lemma forward_left c ref pi p M IM T v m : wipe (snd (cav_forward w c ref pi p M IM T v m)) = wipe T.
Proof. unfold cav_forward. fold (wipe T). cbn [snd]. apply wipe_set. Qed.

Definition outs_of c (ref : particle) (ri real : list particle) (mis : list (mat * mat)) (tm : list mat)
  (m0 : list vec) (m1 : list mat) : list (vec * mat * mat * mat) :=
  map (fun '(p_in, (p, ((M, IM, T), (v, m)))) => cav_forward w c ref p_in p M IM T v m)
      (combine ri (cells_of real (combine mis tm) m0 m1)).
Lemma outs_sim c ref ri : forall real mis tm tm' m0 m1, map wipe tm = map wipe tm' ->
  outs_of c ref ri real mis tm m0 m1 = outs_of c ref ri real mis tm' m0 m1.
Proof.
  unfold outs_of, cells_of. induction ri as [|a ri IH]; intros real mis tm tm' m0 m1 H; [reflexivity|].
  destruct real as [|b real]; [reflexivity|]. destruct mis as [|[M IM] mis]; [reflexivity|].
  destruct tm as [|T tm], tm' as [|T' tm']; try discriminate; [reflexivity|]. simpl in H.
  destruct m0 as [|v m0]; [reflexivity|]. destruct m1 as [|m m1]; [reflexivity|]. cbn [combine map].
  injection H as H1 H2. rewrite (forward_wipe c ref a b M IM T T' v m) by exact H1. f_equal. apply IH; auto.
Qed.
Lemma outs_left c ref ri : forall real mis tm m0 m1, List.length real = List.length ri ->
  List.length mis = List.length ri -> List.length tm = List.length ri -> List.length m0 = List.length ri ->
  List.length m1 = List.length ri ->
  map wipe (map snd (outs_of c ref ri real mis tm m0 m1)) = map wipe tm.
Proof.
  unfold outs_of, cells_of. induction ri as [|a ri IH]; intros real mis tm m0 m1 L1 L2 L3 L4 L5.
  - destruct tm; [reflexivity|discriminate].
  - destruct real as [|b real]; [discriminate|]. destruct mis as [|[M IM] mis]; [discriminate|].
    destruct tm as [|T tm]; [discriminate|]. destruct m0 as [|v m0]; [discriminate|]. destruct m1 as [|m m1]; [discriminate|].
    cbn [combine map]. f_equal; [apply forward_left|]. apply IH; simpl in *; congruence.
Qed.
Lemma apply_eq c d s ref real : aligned s -> List.length (md_real_in d) = List.length (ms_real s) ->
  List.length (md_tm d) = List.length (md_real_in d) -> List.length (md_mis d) = List.length (md_real_in d) ->
  List.length real = List.length (md_real_in d) ->
  cav_apply w c d false s ref real =
  (let outs := outs_of c ref (md_real_in d) real (md_mis d) (md_tm d) (ms_m0 s) (ms_m1 s) in
   (with_tm d (map snd outs),
    rbind (over (fun x _ => fst (fst (fst x))) outs (ms_m0 s)) (fun m0 =>
    rbind (over (fun x _ => snd (fst (fst x))) outs (ms_m1 s)) (fun m1 =>
    rbind (over (fun x _ => snd (fst x)) outs (ms_tm s)) (fun tm =>
    calc_rms w (mkMS (ms_pos s + md_len d) ref real m0 m1 tm (ms_env0 s) (ms_rms s) (ms_env1 s)
                     (fmod (md_phi d * 180 / PI) 360))))))).
Proof.
  intros (A1 & A2 & A3 & A4) L1 L2 L3 L4. unfold cav_apply. rewrite L2, L3, A2, A3, A4, L4, <- L1, Nat.ltb_irrefl.
  cbn [orb negb]. unfold outs_of. rewrite <- L2, skipn_all, app_nil_r. reflexivity.
Qed.
Lemma apply_sim c d tm' s ref real : aligned s -> List.length (md_real_in d) = List.length (ms_real s) ->
  List.length (md_tm d) = List.length (md_real_in d) -> List.length (md_mis d) = List.length (md_real_in d) ->
  List.length real = List.length (md_real_in d) -> map wipe tm' = map wipe (md_tm d) ->
  cav_apply w c (with_tm d tm') false s ref real = cav_apply w c d false s ref real.
Proof.
  intros A L1 L2 L3 L4 H. assert (LT : List.length tm' = List.length (md_tm d)).
  { rewrite <- (map_length wipe tm'), H. apply map_length. }
  rewrite (apply_eq c d) by auto. rewrite apply_eq; auto; [|cbn [with_tm md_tm md_real_in]; congruence].
  cbn [with_tm md_tm md_real_in md_mis md_len md_phi]. rewrite (outs_sim _ _ _ _ _ _ _ _ _ H). reflexivity.
Qed.

Lemma cells_blind c len phi ps : forall l l', List.length l = List.length ps -> List.length l' = List.length ps ->
  snd (cav_cells w c len phi ps l) = snd (cav_cells w c len phi ps l') /\
  forall x, snd (cav_cells w c len phi ps l) = Ok x -> fst (cav_cells w c len phi ps l) = fst (cav_cells w c len phi ps l').
Proof.
  induction ps as [|p ps IH]; intros [|a l] [|b l'] L1 L2; try discriminate; simpl; auto.
  destruct (cav_cell w c len phi p) as [T [p'|e]]; [|split; [reflexivity|discriminate]].
  destruct (IH l l') as [I1 I2]; auto. destruct (cav_cells w c len phi ps l) as [t1 r1], (cav_cells w c len phi ps l') as [t2 r2].
  simpl in *. subst r2. split; [reflexivity|]. intros x Hx. destruct r1 as [y|]; [|discriminate].
  rewrite (I2 y eq_refl). reflexivity.
Qed.
Lemma misalign_same d d0 ref real : stat d d0 -> List.length (md_mis d) = List.length real ->
  List.length (md_mis d0) = List.length real ->
  snd (cav_misalign d ref real) = snd (cav_misalign d0 ref real) /\
  (snd (cav_misalign d ref real) = None -> cav_misalign d ref real = cav_misalign d0 ref real).
Proof.
  intros (E1 & E2 & _) L1 L2. unfold cav_misalign. rewrite E1, E2. apply run_blind; auto.
  intros p a b. destruct (get_misalign _ _ _ _); split; auto. discriminate.
Qed.

(** What a forward pass that recomputes does. *)
Definition cav_miss (c : tcfg) (d0 : mdata) (s1 : mstate) : mdata * res mstate :=
  let d := note_input d0 s1 in
  match w_cav_ref w c (ms_ref s1) with
  | Throw e => (d, Throw e)
  | Ok (ref, phi) =>
      match cav_cells w c (md_len d) phi (ms_real s1) (md_tm d) with
      | (tm, Throw e) => (with_tm (with_phi d phi) tm, Throw e)
      | (tm, Ok real) =>
          let d := with_tm (with_phi d phi) tm in
          match cav_misalign d ref real with
          | (mis, Some e) => (with_mis d mis, Throw e)
          | (mis, None) =>
              let ref := recalc ref in
              let real := map recalc real in
              cav_apply w c (with_out (with_mis d mis) ref real) false s1 ref real
          end
      end
  end.
Lemma cav_eq c d0 s : check_cache d0 (ms_recalc s) = false ->
  advance_cav w c d0 false s = cav_miss c d0 (ms_recalc s).
Proof. intros H. unfold advance_cav. rewrite H. reflexivity. Qed.
Lemma cells_length c len phi ps : forall tm tm' l, cav_cells w c len phi ps tm = (tm', Ok l) ->
  List.length tm' = List.length tm /\ List.length l = List.length ps.
Proof.
  induction ps as [|p ps IH]; intros tm tm' l; simpl; [intros [= <- <-]; auto|].
  destruct tm as [|T tm]; [discriminate|]. destruct (cav_cell w c len phi p) as [T' [p'|e]]; [|discriminate].
  destruct (cav_cells w c len phi ps tm) as [t r] eqn:E. destruct r as [l'|]; [|discriminate]. intros [= <- <-].
  apply IH in E as [E1 E2]. simpl. auto.
Qed.
Lemma cav_miss_same c d d0 s1 : stat d d0 -> same_out (cav_miss c d s1) (cav_miss c d0 s1).
Proof.
  intros S. destruct (note_shape d s1) as (M0 & M1 & M2). destruct (note_shape d0 s1) as (N0 & N1 & N2).
  unfold cav_miss. destruct (w_cav_ref w c (ms_ref s1)) as [[ref phi]|e]; [|split; [reflexivity|intros [s' H]; discriminate]].
  assert (S' : stat (note_input d s1) (note_input d0 s1)) by exact S.
  destruct S' as (E1 & E2 & E3 & E4 & E5). rewrite <- E1.
  destruct (cells_blind c (md_len (note_input d s1)) phi (ms_real s1) (md_tm (note_input d s1)) (md_tm (note_input d0 s1)))
    as [B1 B2]; auto.
  destruct (cav_cells w c _ phi (ms_real s1) (md_tm (note_input d s1))) as [tm [real|e]] eqn:C1;
    destruct (cav_cells w c _ phi (ms_real s1) (md_tm (note_input d0 s1))) as [tm0 r0] eqn:C2; simpl in B1, B2; subst r0.
  2:{ split; [reflexivity|]. intros [s' H]; discriminate. }
  specialize (B2 _ eq_refl). subst tm0. apply cells_length in C1 as [C1 C3].
  set (a := with_tm (with_phi (note_input d s1) phi) tm). set (b := with_tm (with_phi (note_input d0 s1) phi) tm).
  destruct (misalign_same a b ref real) as [G1 G2].
  { repeat split; assumption. }
  { unfold a. cbn [with_tm with_phi md_mis]. congruence. }
  { unfold b. cbn [with_tm with_phi md_mis]. congruence. }
  destruct (cav_misalign a ref real) as [mis o], (cav_misalign b ref real) as [mis0 o0]. simpl in G1, G2. subst o0.
  destruct o as [e|]; [split; [reflexivity|intros [s' H]; discriminate]|].
  specialize (G2 eq_refl). injection G2 as <-.
  replace (with_out (with_mis a mis) (recalc ref) (map recalc real))
    with (with_out (with_mis b mis) (recalc ref) (map recalc real)); [split; reflexivity|].
  unfold a, b, with_out, with_mis, with_tm, with_phi, note_input, with_in in *. revert E1 E2 E3 E4 E5. fld. congruence.
Qed.
Lemma cav_hit c d0 d s0 s0' s : fresh d0 -> aligned s0 -> advance_cav w c d0 false s0 = (d, Ok s0') -> aligned s ->
  check_cache d (ms_recalc s) = true -> advance_cav w c d false s = advance_cav w c d0 false s.
Proof.
  intros F A0 H A C. rewrite cav_eq in H by (apply fresh_miss; auto). rewrite (cav_eq c d0) by (apply fresh_miss; auto).
  apply recalc_aligned in A, A0. pose proof (recalc_settled s0) as [T1 T2]. pose proof (recalc_settled s) as [U1 U2].
  unfold advance_cav. cbv zeta. rewrite C. set (s1 := ms_recalc s) in *. set (s2 := ms_recalc s0) in *.
  unfold cav_miss in *. destruct (w_cav_ref w c (ms_ref s2)) as [[ref phi]|e] eqn:R; [|discriminate].
  destruct (cav_cells w c _ phi (ms_real s2) _) as [tm [real|e]] eqn:CC; [|discriminate].
  destruct (cav_misalign _ ref real) as [mis [e|]] eqn:CM; [discriminate|]. cbv zeta in H.
  set (dd := with_out (with_mis (with_tm (with_phi (note_input d0 s2) phi) tm) mis) (recalc ref) (map recalc real)) in *.
  destruct (note_shape d0 s2) as (N0 & N1 & N2).
  pose proof (cells_length _ _ _ _ _ _ _ CC) as [L1 L2]. pose proof (run_length _ _ _ _ _ CM) as L3. cbn [with_tm with_phi md_mis] in L3.
  assert (K : List.length (md_tm dd) = List.length (md_real_in dd) /\ List.length (md_mis dd) = List.length (md_real_in dd) /\
    List.length (map recalc real) = List.length (md_real_in dd) /\ List.length (md_real_in dd) = List.length (ms_real s2)).
  { unfold dd. cbn [with_out with_mis with_tm with_phi md_tm md_mis md_real_in]. rewrite map_length. repeat split; congruence. }
  destruct K as (K1 & K2 & K3 & K4). rewrite apply_eq in H by auto. cbv zeta in H. apply pair_eq in H as [HD _].
  set (outs := outs_of _ _ _ _ _ _ _ _) in HD.
  assert (W : map wipe (map snd outs) = map wipe (md_tm dd)).
  { destruct A0 as (B1 & B2 & B3 & B4). apply outs_left; congruence. }
  subst d. destruct (hit_key _ _ C) as [Q1 Q2]; auto.
  { intros x X. unfold dd in X. cbn [with_tm with_out with_mis with_phi note_input with_in md_ref_in] in X.
    apply some_eq in X. subst x. exact T1. }
  unfold dd in Q1, Q2. cbn [with_tm with_out with_mis with_phi note_input with_in md_ref_in md_real_in] in Q1, Q2.
  apply some_eq in Q1.
  rewrite (from_cache_eq (with_tm dd (map snd outs)) s1 (recalc ref)); [|reflexivity|].
  2:{ unfold dd. cbn [with_tm with_out with_mis md_real_out]. rewrite map_length. congruence. }
  change (md_real_out (with_tm dd (map snd outs))) with (map recalc real).
  rewrite apply_sim; auto; try congruence.
  rewrite <- Q1, R. rewrite <- (note_parts d0 _ _ Q1 Q2), <- Q2, CC, CM. reflexivity.
Qed.

(** ** Elements that were used in one direction only *)
Definition used (b : bool) (k : mkind) (c : tcfg) (d0 d : mdata) : Prop :=
  d = d0 \/ exists s s', aligned s /\ advance_of w k c d0 b s = (d, Ok s').
Lemma same_refl r : same_out r r. Proof. split; auto. Qed.

Lemma base_left k c d0 r s d s' : fresh d0 -> advance_base w k c d0 r s = (d, Ok s') ->
  stat d d0 /\ md_phi d = 0 /\ Forall (eq (mid, mid)) (md_mis d).
Proof.
  intros F. rewrite base_eq by (apply fresh_miss; auto). cbv zeta.
  destruct (recompute w k c (note_input d0 (ms_recalc s)) (ms_recalc s)) as [tm [e|]]; [discriminate|].
  intros H. apply pair_eq in H as [<- _]. destruct F as (_ & _ & F3 & F4 & _).
  split; [repeat split|]. split; [exact F4|]. cbn [with_out with_tm note_input with_in md_mis]. rewrite F3.
  rewrite resize_const by constructor. apply Forall_forall. intros x Hx. apply repeat_spec in Hx. auto.
Qed.
Lemma sbend_left c d0 r s d s' : fresh d0 -> advance_sbend w c d0 r s = (d, Ok s') ->
  stat d d0 /\ md_phi d = 0 /\ Forall (eq (mid, mid)) (md_mis d).
Proof.
  intros F. rewrite sbend_eq by (apply fresh_miss; auto). cbv zeta.
  destruct (recompute w KSBend c (note_input d0 (ms_recalc s)) (ms_recalc s)) as [tm [e|]]; [discriminate|].
  intros H. apply pair_eq in H as [<- _]. destruct F as (_ & _ & F3 & F4 & _).
  split; [repeat split|]. split; [exact F4|]. cbn [with_out with_tm note_input with_in md_mis]. rewrite F3.
  rewrite resize_const by constructor. apply Forall_forall. intros x Hx. apply repeat_spec in Hx. auto.
Qed.
Lemma cav_left c d0 s d s' : fresh d0 -> advance_cav w c d0 false s = (d, Ok s') -> stat d d0.
Proof.
  intros F. rewrite cav_eq by (apply fresh_miss; auto). unfold cav_miss.
  destruct (w_cav_ref _ _ _) as [[ref phi]|e]; [|discriminate].
  destruct (cav_cells _ _ _ _ _ _) as [tm [real|e]]; [|discriminate].
  destruct (cav_misalign _ _ _) as [mis [e|]]; [discriminate|]. unfold cav_apply.
  destruct (_ || _)%bool; [discriminate|]. cbn [negb]. intros H. apply pair_eq in H as [<- _]. repeat split.
Qed.
Lemma cav_back_fresh c d s : fresh d -> advance_cav w c d true s = (d, Throw RuntimeError).
Proof.
  intros (_ & _ & _ & _ & H). unfold advance_cav, check_backward. rewrite H. rewrite andb_false_r. reflexivity.
Qed.

Lemma adv_used b k c d0 d s : mom_ctor w k c = Ok d0 -> used b k c d0 d -> aligned s ->
  same_out (advance_of w k c d b s) (advance_of w k c d0 b s).
Proof.
  intros Hc [->|(s0 & s0' & A0 & H)] A; [apply same_refl|]. apply ctor_fresh in Hc.
  assert (F := Hc). destruct F as (F1 & F2 & F3 & F4 & F5).
  assert (G : forall k', (forall d s, advance_of w k c d b s = advance_base w k' c d b s) ->
    same_out (advance_of w k c d b s) (advance_of w k c d0 b s)).
  { intros k' E. rewrite E in H |- *. rewrite E. destruct (check_cache d (ms_recalc s)) eqn:C.
    - rewrite (base_hit k' c d0 d b s0 s0' s) by auto. apply same_refl.
    - destruct (base_left k' c d0 b s0 d s0') as (L1 & L2 & L3); auto.
      apply base_miss; auto; [rewrite F3; constructor|apply fresh_miss; auto]. }
  destruct k; try (eapply G; reflexivity); clear G; cbn [advance_of] in H |- *.
  - apply pair_eq in H as [<- _]. apply same_refl.
  - destruct (check_cache d (ms_recalc s)) eqn:C.
    + rewrite (sbend_hit c d0 d b b s0 s0' s) by auto. apply same_refl.
    + destruct (sbend_left c d0 b s0 d s0') as (L1 & L2 & L3); auto.
      apply sbend_miss; auto; [rewrite F3; constructor|apply fresh_miss; auto].
  - apply pair_eq in H as [<- _]. apply same_refl.
  - destruct b.
    + rewrite cav_back_fresh in H by auto. discriminate.
    + destruct (check_cache d (ms_recalc s)) eqn:C.
      * rewrite (cav_hit c d0 d s0 s0' s) by auto. apply same_refl.
      * rewrite (cav_eq c d), (cav_eq c d0) by (auto; apply fresh_miss; auto). apply cav_miss_same.
        eapply cav_left; eauto.
  - apply pair_eq in H as [<- _]. apply same_refl.
Qed.
Lemma used_step b k c d0 d s d' s' : mom_ctor w k c = Ok d0 -> used b k c d0 d -> aligned s ->
  advance_of w k c d b s = (d', Ok s') -> used b k c d0 d'.
Proof.
  intros Hc U A H. destruct (adv_used b k c d0 d s Hc U A) as [H1 H2]. rewrite H in H1, H2. simpl in H1, H2.
  right. exists s, s'. split; [exact A|]. destruct (advance_of w k c d0 b s) as [x y]. simpl in *. subst y.
  rewrite H2 by eauto. reflexivity.
Qed.

(** A machine used in one direction only is like a new one made of its entries. *)
Lemma cache_unseen b c m es us c' : sane w ->
  new_machine (moment_reg w) c = Ok m -> tfind "elements" c = Some (TCfgs es) ->
  Forall strips_to_some es -> smooth (fun r s => r = b /\ aligned s) strips_to_some m us ->
  tfind "sim_type" c' = Some (TStr "MomentMatrix") -> tfind "elements" c' = Some (TCfgs (entries m es us)) ->
  exists m2, new_machine (moment_reg w) c' = Ok m2 /\
    forall st start max, (max <? 0)%Z = b -> aligned (st_body st) ->
      option_map pr_end (propagate (uses m us) st start max) = option_map pr_end (propagate m2 st start max).
Proof.
  intros W Hm He HQ HS Hs' He'.
  destruct (new_moment w _ _ Hm) as (es0 & H1 & H2 & H3). assert (es0 = es) as -> by congruence.
  set (J := fun (r : bool) s => r = b /\ aligned s).
  set (g := fun k c d => shaped k c d /\ exists d0, mom_ctor w k c = Ok d0 /\ used b k c d0 d). set (good := lift w g).
  assert (GC : forall t k c d, sfind t (si_elems (mom_info w)) = Some k -> tfind "type" c = Some (TStr t) ->
    strips_to_some c -> cl_ctor k c = Ok d -> good k c d).
  { intros t k c0 d Ht Ht' Hq Hd. apply mom_find in Ht as (q & -> & ->). apply lift_class. split.
    - apply (ctor_ok w). 2: exact Hd. intros ->. apply Hq. exact Ht'.
    - exists d. split; [exact Hd|left; reflexivity]. }
  assert (GA : forall t k c c' d s, sfind t (si_elems (mom_info w)) = Some k ->
    good k c' d -> good k c s -> good k c (cl_assign k d s)).
  { intros t k c0 c1 d s Ht _ Hs. apply mom_find in Ht as (q & -> & ->). exact Hs. }
  assert (GV : forall t k b d st d' st', sfind t (si_elems (mom_info w)) = Some k -> good k (eb_conf b) d ->
    J (st_retreat st) (st_body st) -> cl_advance k b d st = (d', Ok st') ->
    good k (eb_conf b) d' /\ J (st_retreat st) (st_body st') /\ st_retreat st' = st_retreat st).
  { intros t k b0 d s d' s' Ht Hg [HJ1 HJ2] Hadv. apply mom_find in Ht as (q & -> & ->). apply lift_class in Hg as [Hg (d0 & G1 & G2)].
    apply mom_advance_inv in Hadv as (Hadv & Hr & _). assert (O := Hadv). apply advance_ok in O as [O1 O2]; auto.
    split; [apply lift_class; split; [eauto|]|].
    - exists d0. split; [exact G1|]. rewrite HJ1 in Hadv. exact (used_step b q _ d0 d _ d' _ G1 G2 HJ2 Hadv).
    - split; [split; [exact HJ1|exact O1]|exact Hr]. }
  assert (GS : forall t k b d1 d2 st, sfind t (si_elems (mom_info w)) = Some k ->
    good k (eb_conf b) d1 -> good k (eb_conf b) d2 -> J (st_retreat st) (st_body st) ->
    snd (cl_advance k b d1 st) = snd (cl_advance k b d2 st)).
  { intros t k b0 d1 d2 st Ht G1 G2 [J1 J2]. apply mom_find in Ht as (q & -> & ->). apply lift_class in G1, G2.
    destruct G1 as [_ (d0 & C1 & U1)], G2 as [_ (d0' & C2 & U2)]. assert (d0' = d0) as -> by congruence.
    destruct (adv_used b q (eb_conf b0) d0 d1 (st_body st) C1 U1 J2) as [X1 _].
    destruct (adv_used b q (eb_conf b0) d0 d2 (st_body st) C1 U2 J2) as [X2 _].
    cbn [cl_advance mom_class]. unfold mom_advance. rewrite J1 in *.
    destruct (advance_of w q (eb_conf b0) d1 b (st_body st)), (advance_of w q (eb_conf b0) d2 b (st_body st)).
    simpl in *. congruence. }
  assert (QE : Forall strips_to_some (entries m es us)).
  { clear - HQ HS. revert m es HQ HS. induction us as [|u us IH]; intros m es HQ HS; [exact HQ|].
    destruct HS as [HS1 HS2]. cbn [entries]. apply IH; [|exact HS2].
    destruct u as [idx c0|st s k|n o]; auto. destruct (snd (reconfigure m idx c0)); auto.
    clear - HQ HS1. revert HQ. generalize (N.to_nat idx) as n. simpl in HS1. induction es as [|e es IH]; intros [|n] HQ; simpl; auto.
    - inversion HQ; subst. constructor; auto.
    - inversion HQ; subst. constructor; auto. }
  destruct (smooth_like_new J strips_to_some good (mom_info w) (mom_tidy w) GC GA GV GS _ c _ es us c' m H1 (mom_reg_find w) He Hm HQ HS Hs' He' QE)
    as (m2 & M1 & M2).
  exists m2. split; auto. intros st start max E A. apply M2. split; auto.
Qed.
End W.

(** ** Where the cache shows *)
Lemma combine_same {A} (l : list A) a b : In (a, b) (combine l l) -> a = b.
Proof. induction l as [|x l IH]; simpl; [tauto|]. intros [[= <- <-]|H]; auto. Qed.
Lemma note_hits d s : md_skip d = false -> md_ref_in d = Some (ms_ref s) -> md_real_in d = ms_real s -> check_cache d s = true.
Proof.
  intros H H1 H2. unfold check_cache. rewrite H, H1, H2, Nat.eqb_refl, peqb_refl.
  cbn [negb andb]. apply forallb_forall. intros [a b] Hin. apply combine_same in Hin. subst. apply peqb_refl.
Qed.
Lemma run_any {D B} (m : machine D B) st start max e d x :
  nth_error (m_elems m) (N.to_nat start) = Some e -> (max = 1 \/ max = -1)%Z ->
  cl_advance (el_class e) (el_base e) (el_data e)
    (mkSt (if (max <? 0)%Z then size_decr start else size_incr start) (max <? 0)%Z (st_body st)) = (d, x) ->
  exists p, propagate m st start max = Some p /\ pr_end p = x /\
    pr_elems p = update (m_elems m) (N.to_nat start) (with_data e d).
Proof.
  intros He Hm Ha. unfold propagate. replace (max =? INT_MIN)%Z with false by (destruct Hm as [->| ->]; reflexivity).
  assert (E : Z.abs_nat max = 1%nat) by (destruct Hm as [->| ->]; reflexivity).
  eexists. split; [reflexivity|]. rewrite E. cbn [prop_loop st_next st_retreat st_body]. rewrite slot_nth, He, Ha.
  destruct x; split; reflexivity.
Qed.
Lemma rmap_some {A B} (f : A -> res B) l : (forall a, In a l -> exists b, f a = Ok b) -> exists r, rmap f l = Ok r.
Proof.
  induction l as [|a l IH]; intros H; simpl; [eauto|]. destruct (H a) as [b ->]; [left; auto|]. cbn [rbind].
  destruct IH as [r ->]; [intros; apply H; right; auto|]. simpl. eauto.
Qed.
Lemma finish_runs w d r s ref real : aligned s -> List.length (md_real_in d) = List.length (ms_real s) ->
  List.length (md_tm d) = List.length (md_real_in d) -> List.length real = List.length (ms_real s) ->
  (r = true -> forall T, In T (md_tm d) -> exists X, minv msize T = Some X) ->
  exists s', finish w d r s ref real = Ok s' /\ ms_ref s' = ref /\ ms_real s' = real.
Proof.
  intros A L1 L2 L3 H. assert (X : exists Ts, directed r (md_tm d) = Ok Ts).
  { unfold directed. destruct r; [|eauto]. apply rmap_some. intros T HT. destruct (H eq_refl T HT) as [X HX].
    exists X. unfold inverse. rewrite HX. reflexivity. }
  destruct X as [Ts HT]. unfold finish. rewrite HT. cbn [rbind]. apply directed_length in HT.
  destruct (transport_ok d s Ts A L1) as (m0 & m1 & tm & -> & M1 & M2 & M3); [congruence|]. cbn [rbind].
  edestruct calc_aligned as (s' & E & _); [| | | |rewrite E; exists s'; split; [reflexivity|]]; try congruence.
  - destruct A as [A _]. destruct real; [|discriminate]. destruct (ms_real s); [congruence|discriminate].
  - apply calc_parts in E. exact E.
Qed.
Definition drift_matrix (L l : R) : mat := mset (mset (mset mid PS_X PS_PX L) PS_Y PS_PY L) PS_S PS_PS l.
Lemma drift_inverse L l : meq 7 (mmul 7 (drift_matrix (- L) (- l)) (drift_matrix L l)) mid.
Proof.
  intros i j Hi Hj. unfold mmul, drift_matrix, mset, mid, sumn, PS_X, PS_PX, PS_Y, PS_PY, PS_S, PS_PS.
  destruct i as [|[|[|[|[|[|[|i]]]]]]]; [..|exfalso; lia]; destruct j as [|[|[|[|[|[|[|j]]]]]]]; (exfalso; lia) || (cbn [Nat.eqb andb]; ring).
Qed.

(** A drift, the same state forward and then backward. *)
Definition one_drift : list tcfg := [TCfg [("L", TNum done); ("name", TStr "d"); ("type", TStr "drift")] []].
Lemma p0_K : 0 < p_K (ms_ref (state0 1)).
Proof.
  unfold state0. cbn [ms_ref]. unfold recalc. cbn [p_Es p_Ek p_freq p_K p_Z p_Q p_phis].
  destruct (Req_EM_T 931000000 0); [lra|]. unfold C0, MtoMM.
  assert (B : 0 < sqrt (1 - 1 / ((931000000 + 1000000) / 931000000 * ((931000000 + 1000000) / 931000000)))).
  { apply sqrt_lt_R0. lra. }
  apply Rdiv_lt_0_compat; [pose proof PI_RGT_0; lra|]. apply Rmult_lt_0_compat; [exact B|lra].
Qed.
Lemma drift_back w c d0 d s : fresh d0 -> aligned s -> stat d d0 -> md_skip d0 = false ->
  d = d0 \/ (exists s', advance_base w KDrift c d0 false s = (d, Ok s')) ->
  exists d' s', advance_base w KDrift c d true s = (d', Ok s') /\
    ms_ref s' = stepped (if md_ref_in d then false else true) (md_len d0) (ms_ref (ms_recalc s)).
Proof.
  intros F A S K H. assert (I : forall ps l tm o, List.length l = List.length ps ->
    run_cells (fun p _ => (drift_matrix (md_len d0 * MtoMM) (longi p (md_len d0 * MtoMM)), None)) ps l = (tm, o) ->
    o = None /\ List.length tm = List.length ps /\ forall T, In T tm -> exists X, minv msize T = Some X).
  { induction ps as [|p ps IH]; intros [|a l] tm o L E; try discriminate; simpl in E.
    - injection E as <- <-. split; auto. split; auto. intros T [].
    - destruct (run_cells _ ps l) as [tm' o'] eqn:E'. injection E as <- <-. destruct (IH l tm' o') as (I1 & I2 & I3); auto.
      split; auto. split; [simpl; auto|]. intros T [<-|HT]; [|apply I3; auto].
      edestruct (minv_left 7) as (X & HX & _); [apply drift_inverse|]. exists X. exact HX. }
  apply recalc_aligned in A. destruct (note_shape d0 (ms_recalc s)) as (N1 & N2 & N3).
  destruct H as [->|[s' H]].
  - rewrite base_eq by (apply fresh_miss; auto). cbv zeta.
    destruct (recompute w KDrift c (note_input d0 (ms_recalc s)) (ms_recalc s)) as [tm o] eqn:RC.
    destruct (I _ _ _ _ N2 RC) as (-> & I2 & I3).
    match goal with |- context [finish w ?d true ?s ?ref ?real] => destruct (finish_runs w d true s ref real) as (s' & E & R1 & R2) end; auto.
    + rewrite map_length. reflexivity.
    + rewrite E. do 2 eexists. split; [reflexivity|]. rewrite R1. destruct F as (-> & _). reflexivity.
  - rewrite base_eq in H by (apply fresh_miss; auto). cbv zeta in H.
    destruct (recompute w KDrift c (note_input d0 (ms_recalc s)) (ms_recalc s)) as [tm o] eqn:RC.
    destruct (I _ _ _ _ N2 RC) as (-> & I2 & I3). apply pair_eq in H as [<- _].
    unfold advance_base. rewrite note_hits; [|exact K|reflexivity|reflexivity].
    erewrite from_cache_eq by (cbn [with_out md_ref_out md_real_out]; rewrite ?map_length; reflexivity). cbn [rbind].
    match goal with |- context [finish w ?d true ?s ?ref ?real] => destruct (finish_runs w d true s ref real) as (s2 & E & R1 & R2) end; auto.
    + cbn [with_out md_real_out]. rewrite map_length. reflexivity.
    + rewrite E. do 2 eexists. split; [reflexivity|]. rewrite R1. reflexivity.
Qed.
Lemma C33_direction_refuted_w : forall a, exists m p p1 p2 st1 st2 st3,
  let w := world0 (fun _ => 1) a in
  let st := mkSt 0 false (state0 1) in
  sane w /\ new_machine (moment_reg w) (mconf one_drift) = Ok m /\ aligned (st_body st) /\
  propagate m st 0 1 = Some p /\ pr_end p = Ok st1 /\
  propagate (uses m [UProp st 0 1]) st 0 (-1) = Some p1 /\ pr_end p1 = Ok st2 /\
  propagate m st 0 (-1) = Some p2 /\ pr_end p2 = Ok st3 /\
  p_phis (ms_ref (st_body st2)) <> p_phis (ms_ref (st_body st3)).
Proof.
  intros a. set (w := world0 (fun _ => 1) a).
  assert (X : exists m e d0, new_machine (moment_reg w) (mconf one_drift) = Ok m /\ m_elems m = [e] /\
    el_class e = mom_class w KDrift /\ mom_ctor w KDrift (eb_conf (el_base e)) = Ok d0 /\ el_data e = d0 /\
    md_len d0 = 1 /\ md_skip d0 = false).
  { do 3 eexists. split; [reflexivity|]. repeat split. }
  destruct X as (m & e & d0 & Hm & He & K & Hc & Ed & L1 & SK).
  pose proof (ctor_fresh w _ _ _ Hc) as F. set (st := mkSt 0 false (state0 1)).
  assert (A : aligned (state0 1)) by apply state0_aligned.
  destruct (plain_runs w KDrift (eb_conf (el_base e)) d0 (state0 1)) as (d1 & s1 & E1); auto.
  { eapply ctor_ok; [|exact Hc]. discriminate. }
  cbn [advance_of] in E1.
  assert (ST : stat d1 d0 /\ exists q, md_ref_in d1 = Some q).
  { assert (E2 := E1). rewrite base_eq in E2 by (apply fresh_miss; auto). cbv zeta in E2.
    destruct (recompute _ _ _ _ _) as [tm [x|]]; apply pair_eq in E2 as [<- E2]; [discriminate|].
    split; [repeat split|eexists; reflexivity]. }
  destruct ST as [ST [q Eq]].
  destruct (drift_back w (eb_conf (el_base e)) d0 d0 (state0 1) F A (stat_refl _) SK (or_introl eq_refl)) as (d3 & s3 & E3 & R3).
  destruct (drift_back w (eb_conf (el_base e)) d0 d1 (state0 1) F A ST SK (or_intror (ex_intro _ s1 E1))) as (d2 & s2 & E2 & R2).
  destruct (run_any m st 0 1 e d1 (Ok (mkSt 1 false s1))) as (p & P1 & P2 & P3); [rewrite He; reflexivity|left; reflexivity| |].
  { rewrite K, Ed. cbn [cl_advance mom_class]. unfold mom_advance. unfold st. cbn [advance_of st_retreat st_body].
    change (1 <? 0)%Z with false. cbv iota. rewrite E1. reflexivity. }
  destruct (run_any m st 0 (-1) e d3 (Ok (mkSt (size_decr 0) true s3))) as (p2 & Q1 & Q2 & _); [rewrite He; reflexivity|right; reflexivity| |].
  { rewrite K, Ed. cbn [cl_advance mom_class]. unfold mom_advance. unfold st. cbn [advance_of st_retreat st_body].
    change (-1 <? 0)%Z with true. cbv iota. rewrite E3. reflexivity. }
  destruct (run_any (uses m [UProp st 0 1]) st 0 (-1) (with_data e d1) d2 (Ok (mkSt (size_decr 0) true s2)))
    as (p1 & O1 & O2 & _); [|right; reflexivity| |].
  { cbn [uses fold_left use1]. rewrite P1. cbn [with_elems m_elems]. rewrite P3, He. reflexivity. }
  { cbn [with_data el_class el_base el_data]. rewrite K. cbn [cl_advance mom_class]. unfold mom_advance. unfold st. cbn [advance_of st_retreat st_body].
    change (-1 <? 0)%Z with true. cbv iota. rewrite E2. reflexivity. }
  exists m, p, p1, p2. do 3 eexists. cbv zeta. split; [apply world0_sane|]. split; [exact Hm|]. split; [exact A|].
  split; [exact P1|]. split; [exact P2|]. split; [exact O1|]. split; [exact O2|]. split; [exact Q1|]. split; [exact Q2|].
  cbn [st_body]. rewrite R2, R3, Eq. destruct F as (-> & _). rewrite L1.
  unfold ms_recalc. cbn [ms_ref]. pose proof p0_K as PK. change (recalc (ms_ref (state0 1))) with (ms_ref (state0 1)).
  unfold stepped, MtoMM. generalize dependent (ms_ref (state0 1)). intros r HK.
  unfold add_phis. cbn [p_phis]. lra.
Qed.
Definition no_length : list tcfg := [TCfg [("B2", TNum done); ("name", TStr "q"); ("type", TStr "quadrupole")] []].
Lemma C33_failed_refuted_w : forall num a, exists m p1 p2 x,
  let w := world0 num a in
  let st := mkSt 0 false (state0 1) in
  sane w /\ new_machine (moment_reg w) (mconf no_length) = Ok m /\ aligned (st_body st) /\
  propagate m st 0 1 = Some p1 /\ pr_end p1 = Throw x /\ x <> Abort /\
  propagate (uses m [UProp st 0 1]) st 0 1 = Some p2 /\
  (if a then pr_end p2 = Throw Abort else exists st', pr_end p2 = Ok st').
Proof.
  intros num a. set (w := world0 num a).
  assert (X : exists m e d0, new_machine (moment_reg w) (mconf no_length) = Ok m /\ m_elems m = [e] /\
    el_class e = mom_class w KQuad /\ mom_ctor w KQuad (eb_conf (el_base e)) = Ok d0 /\ el_data e = d0 /\
    md_len d0 = 0 /\ md_skip d0 = false /\ num_of w (eb_conf (el_base e)) "L" = Throw KeyError).
  { do 3 eexists. split; [reflexivity|]. repeat split. }
  destruct X as (m & e & d0 & Hm & He & K & Hc & Ed & L1 & SK & NL).
  pose proof (ctor_fresh w _ _ _ Hc) as F. set (st := mkSt 0 false (state0 1)).
  assert (A : aligned (state0 1)) by apply state0_aligned.
  set (c := eb_conf (el_base e)) in *.
  assert (N : check_cache d0 (ms_recalc (state0 1)) = false) by (apply fresh_miss; auto).
  set (d1 := note_input d0 (ms_recalc (state0 1))).
  assert (E1 : advance_base w KQuad c d0 false (state0 1) = (with_tm d1 (md_tm d1), Throw KeyError)).
  { unfold advance_base. rewrite N. unfold recompute, setup, setup_quad. rewrite NL. reflexivity. }
  set (d2 := with_tm d1 (md_tm d1)) in *.
  assert (C2 : check_cache d2 (ms_recalc (state0 1)) = true) by (apply note_hits; [exact SK|reflexivity|reflexivity]).
  assert (E2 : exists y, advance_base w KQuad c d2 false (state0 1) = (d2, y) /\
    (if a then y = Throw Abort else exists s', y = Ok s')).
  { unfold advance_base. rewrite C2. eexists. split; [reflexivity|].
    assert (O : md_real_out d2 = []) by (pose proof Hc as Hc'; injection Hc' as <-; reflexivity).
    unfold from_cache. rewrite O. destruct a.
    - reflexivity.
    - cbn [w_asserts w world0 andb over rbind]. 
      match goal with |- context [finish w ?d ?r ?s ?ref ?real] => destruct (finish_runs w d r s ref real) as (s' & E & _ & _) end.
      + apply recalc_aligned, A.
      + reflexivity.
      + destruct (note_shape d0 (ms_recalc (state0 1))) as (N1 & N2 & N3). exact N2.
      + reflexivity.
      + discriminate.
      + eexists. exact E. }
  destruct E2 as (y & E2 & Y).
  destruct (run_any m st 0 1 e d2 (Throw KeyError)) as (p1 & P1 & P2 & P3); [rewrite He; reflexivity|left; reflexivity| |].
  { rewrite K, Ed. cbn [cl_advance mom_class]. unfold mom_advance, st. cbn [advance_of st_retreat st_body].
    change (1 <? 0)%Z with false. cbv iota. fold c. rewrite E1. reflexivity. }
  destruct (run_any (uses m [UProp st 0 1]) st 0 1 (with_data e d2) d2 (rbind y (fun s' => Ok (mkSt 1 false s'))))
    as (p2 & O1 & O2 & _); [|left; reflexivity| |].
  { cbn [uses fold_left use1]. rewrite P1. cbn [with_elems m_elems]. rewrite P3, He. reflexivity. }
  { cbn [with_data el_class el_base el_data]. rewrite K. cbn [cl_advance mom_class]. unfold mom_advance, st. cbn [advance_of st_retreat st_body].
    change (1 <? 0)%Z with false. cbv iota. fold c. rewrite E2. reflexivity. }
  exists m, p1, p2, KeyError. cbv zeta. split; [apply world0_sane|]. split; [exact Hm|]. split; [exact A|].
  split; [exact P1|]. split; [exact P2|]. split; [discriminate|]. split; [exact O1|].
  rewrite O2. destruct a; [rewrite Y; reflexivity|]. destruct Y as [s' ->]. eexists. reflexivity.
Qed.
