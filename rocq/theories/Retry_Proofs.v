(** C30 for histories with propagations that fail. *)
From Coq Require Import Reals List String Bool NArith ZArith Arith Lia Lra.
From Verif Require Import SMap SMap_Proofs Dbl Config_Spec Mat Mat_Proofs Minv Minv_Proofs
  Machine_Model Machine_Spec Machine_Proofs Machine2_Proofs Machine4_Proofs
  Moment_Model Moment_Spec Moment_Proofs Moment2_Proofs Moment3_Proofs Retry_Spec.
Import ListNotations.
Open Scope R_scope.
Open Scope string_scope.
Open Scope list_scope.

(** ** Invariants that failures keep *)
Section Inv.
Context {D B : Type}.
Variable J : B -> Prop.
Variable Q : tcfg -> Prop.
Variable good : class D B -> tcfg -> D -> Prop.
Variable i : sinfo D B.
Hypothesis HT : tidy i.
Hypothesis Gctor : forall t k c d, sfind t (si_elems i) = Some k -> tfind "type" c = Some (TStr t) -> Q c ->
  cl_ctor k c = Ok d -> good k c d.
Hypothesis Gassign : forall t k c c' d s, sfind t (si_elems i) = Some k ->
  good k c' d -> good k c s -> good k c (cl_assign k d s).
Hypothesis Gadv : forall t k b d st d' r, sfind t (si_elems i) = Some k -> good k (eb_conf b) d ->
  J (st_body st) -> cl_advance k b d st = (d', r) ->
  good k (eb_conf b) d' /\ match r with Ok st' => J (st_body st') | Throw x => x <> BadIndex end.

Notation fits := (fits good i).
Notation fit_all := (fit_all good i).

Lemma loop_any es k : forall els st evs,
  fit_all es els -> J (st_body st) ->
  (forall ev, In ev evs -> J (st_body (ev_state ev))) ->
  let p := prop_loop k els st evs in
  (forall ev, In ev (pr_events p) -> J (st_body (ev_state ev))) /\ fit_all es (pr_elems p) /\
  match pr_end p with Ok st' => J (st_body st') | Throw x => x <> BadIndex end.
Proof.
  induction k as [|k IH]; intros els st evs H HJ He; simpl; auto.
  rewrite slot_nth. destruct (nth_error els (N.to_nat (st_next st))) as [e|] eqn:E; simpl; auto.
  set (st1 := mkSt _ _ _).
  destruct (fit_nth _ _ _ _ _ _ H E) as (ec & Hec & Hf). assert (Hf' := Hf).
  destruct Hf' as (nm & d0 & H1 & H2 & H3 & H4 & H5 & H6).
  assert (EC : eb_conf (el_base e) = ec) by (rewrite H5; reflexivity).
  destruct (cl_advance (el_class e) (el_base e) (el_data e) st1) as [d1 r] eqn:A.
  destruct (Gadv _ _ (el_base e) _ st1 _ _ H2 ltac:(rewrite EC; exact H6) HJ A) as (G & HJ2). rewrite EC in G.
  assert (F : fit_all es (update els (N.to_nat (st_next st)) (with_data e d1))) by (eapply fit_update; eauto).
  destruct r as [st2|x]; simpl.
  - apply IH; auto.
    intros ev Hev. destruct (el_obs e); auto. apply in_app_iff in Hev as [Hev|[<-|[]]]; auto.
  - auto.
Qed.
Lemma propagate_any es m st start max p :
  fit_all es (m_elems m) -> J (st_body st) -> propagate m st start max = Some p ->
  (forall ev, In ev (pr_events p) -> J (st_body (ev_state ev))) /\ fit_all es (pr_elems p) /\
  match pr_end p with Ok st' => J (st_body st') | Throw x => x <> BadIndex end.
Proof.
  intros H HJ. unfold propagate. destruct (Z.eqb_spec max INT_MIN) as [->|].
  - destruct (_ <? _)%N; [discriminate|]. intros [= <-]. simpl. split; [intros _ []|auto].
  - intros [= <-]. exact (loop_any es (Z.abs_nat max) (m_elems m) (mkSt start (Z.ltb max 0) (st_body st)) []
      H HJ ltac:(intros _ [])).
Qed.
Lemma use1_any (m : machine D B) es u : m_info m = i -> fit_all es (m_elems m) -> attempts J Q [u] ->
  exists es', fit_all es' (m_elems (use1 m u)).
Proof.
  intros HI H HR. apply Forall_inv in HR.
  assert (X : runs_well (fun _ _ => False) Q m u -> exists es', fit_all es' (m_elems (use1 m u))).
  { intros X. eexists. apply (use1_fit (fun _ _ => False) Q good i HT Gctor Gassign); eauto. contradiction. }
  destruct u as [idx c|st s k|n o]; [apply X; exact HR| |apply X; exact I].
  cbn [use1]. exists es. destruct (propagate m st s k) as [p|] eqn:P; [|exact H].
  apply (propagate_any _ _ _ _ _ _ H HR P).
Qed.
Lemma uses_any us : forall (m : machine D B) es, m_info m = i ->
  fit_all es (m_elems m) -> attempts J Q us -> exists es', fit_all es' (m_elems (uses m us)).
Proof.
  induction us as [|u us IH]; intros m es HI H HS; [exists es; exact H|].
  change (uses m (u :: us)) with (uses (use1 m u) us). apply Forall_cons_iff in HS as [HS1 HS2].
  destruct (use1_keeps m u) as (_ & _ & K & _).
  destruct (use1_any m es u HI H) as [es' F]; [constructor; [exact HS1|constructor]|].
  eapply IH; eauto. congruence.
Qed.
End Inv.

(** ** Elements *)
Section M.
Variable w : world.
Hypothesis W : sane w.
Variable n : nat.
Hypothesis n_pos : n <> 0%nat.

(** Arrays of the length of the last input; outputs no longer than inputs. *)
Definition loose (k : mkind) (c : tcfg) (d : mdata) : Prop :=
  List.length (md_tm d) = List.length (md_real_in d) /\
  List.length (md_mis d) = List.length (md_real_in d) /\
  (List.length (md_real_in d) = n \/ md_real_in d = []) /\
  (List.length (md_real_out d) <= List.length (md_real_in d))%nat /\
  (forall s, md_istate d = Some s -> aligned_at n s) /\
  (k = KStripper -> exists zs, vec_at c "IonChargeStates" = Some zs /\ List.length zs = n).
Definition ends (x : res mstate) : Prop := match x with Ok s' => aligned_at n s' | Throw e => e <> BadIndex end.

Lemma ends_of x : outcome x -> (forall s', x = Ok s' -> List.length (ms_real s') = n) -> ends x.
Proof. destruct x; simpl; unfold aligned_at; auto. Qed.
Lemma finish_n d r s ref real : aligned s -> List.length (md_real_in d) = List.length (ms_real s) ->
  List.length (md_tm d) = List.length (md_real_in d) -> List.length real = List.length (ms_real s) ->
  List.length (ms_real s) = n -> ends (finish w d r s ref real).
Proof.
  intros A L1 L2 L3 L4. apply ends_of; [apply finish_ok; auto|].
  intros s' H. apply finish_parts in H as [_ ->]. congruence.
Qed.
Lemma over_len {A B} (f : B -> A -> A) xs l r : over f xs l = Ok r -> List.length r = List.length l.
Proof.
  revert l r. induction xs as [|x xs IH]; intros [|a l] r; simpl; intros H; try discriminate; try (injection H as <-; reflexivity).
  apply rbind_ok in H as (r' & H1 & H). injection H as <-. simpl. f_equal. eauto.
Qed.
Lemma finish_sbend_n d r s ref real : aligned s -> List.length (md_real_in d) = List.length (ms_real s) ->
  List.length (md_tm d) = List.length (md_real_in d) -> List.length real = List.length (ms_real s) ->
  List.length (ms_real s) = n -> ends (finish_sbend w d r s ref real).
Proof.
  intros A L1 L2 L3 L4. apply ends_of; [apply finish_sbend_ok; auto|].
  intros s' H. unfold finish_sbend in H. apply rbind_ok in H as (Ts & _ & H).
  apply rbind_ok in H as ([[m0 m1] tm] & _ & H). apply rbind_ok in H as (real' & H1 & H).
  apply over_len in H1. apply calc_parts in H as [_ ->]. cbn [ms_real]. congruence.
Qed.
Lemma from_cache_any d s : (List.length (md_real_out d) <= List.length (ms_real s))%nat ->
  (exists ref real, from_cache w d s = Ok (ref, real) /\ List.length real = List.length (ms_real s)) \/
  from_cache w d s = Throw Abort.
Proof.
  intros L. unfold from_cache. destruct (_ && _)%bool; [auto|]. left.
  destruct (over_ok (fun x _ => x) (md_real_out d) (ms_real s)) as (real & -> & L'); [lia|]. simpl. eauto.
Qed.
Lemma recalc_n s : aligned_at n s -> aligned_at n (ms_recalc s).
Proof. intros [A L]. split; [apply recalc_aligned; auto|]. simpl. rewrite map_length. auto. Qed.

Lemma base_any k c d r s d' x : loose k c d -> aligned_at n s -> advance_base w k c d r s = (d', x) ->
  loose k c d' /\ ends x.
Proof.
  intros LS A0. apply recalc_n in A0 as [A0 AN]. unfold advance_base.
  set (s1 := ms_recalc s) in *. destruct (check_cache d s1) eqn:C.
  - apply cache_length in C. intros [= <- <-]. split; [exact LS|]. destruct LS as (S1 & S2 & S3 & S4 & S5 & S6).
    destruct (from_cache_any d s1) as [(ref & real & -> & L)| ->]; [lia| |discriminate]. cbn [rbind]. apply finish_n; auto.
  - destruct LS as (S1 & S2 & S3 & S4 & S5 & S6). destruct (note_shape d s1) as (N1 & N2 & N3).
    change (md_istate d) with (md_istate (note_input d s1)) in S5.
    assert (LO : (List.length (md_real_out (note_input d s1)) <= n)%nat).
    { change (List.length (md_real_out d) <= n)%nat. destruct S3 as [S3|S3]; rewrite S3 in S4; simpl in S4; lia. }
    set (d1 := note_input d s1) in *.
    destruct (recompute w k c d1 s1) as [tm e] eqn:RC. pose proof (recompute_length _ _ _ _ _ _ _ RC) as LT.
    destruct e as [e|].
    + intros [= <- <-]. split.
      * unfold loose. simpl in *. repeat split; auto; try lia; apply S5; auto.
      * simpl. eapply recompute_nb; [exact W| |exact RC]. lia.
    + intros [= <- <-]. split.
      * unfold loose. simpl in *. rewrite ?map_length in *. repeat split; auto; try lia; apply S5; auto.
      * apply finish_n; [apply recalc_aligned; exact A0|..]; simpl in *; rewrite ?map_length in *; congruence.
Qed.
Lemma sbend_any c d r s d' x : loose KSBend c d -> aligned_at n s -> advance_sbend w c d r s = (d', x) ->
  loose KSBend c d' /\ ends x.
Proof.
  intros LS A0. apply recalc_n in A0 as [A0 AN]. unfold advance_sbend.
  set (s1 := ms_recalc s) in *. destruct (check_cache d s1) eqn:C.
  - apply cache_length in C. intros [= <- <-]. split; [exact LS|]. destruct LS as (S1 & S2 & S3 & S4 & S5 & S6).
    destruct (from_cache_any d s1) as [(ref & real & -> & L)| ->]; [lia| |discriminate]. cbn [rbind]. apply finish_sbend_n; auto.
  - destruct LS as (S1 & S2 & S3 & S4 & S5 & S6). destruct (note_shape d s1) as (N1 & N2 & N3).
    change (md_istate d) with (md_istate (note_input d s1)) in S5.
    assert (LO : (List.length (md_real_out (note_input d s1)) <= n)%nat).
    { change (List.length (md_real_out d) <= n)%nat. destruct S3 as [S3|S3]; rewrite S3 in S4; simpl in S4; lia. }
    set (d1 := note_input d s1) in *.
    destruct (recompute w KSBend c d1 s1) as [tm e] eqn:RC. pose proof (recompute_length _ _ _ _ _ _ _ RC) as LT.
    destruct e as [e|].
    + intros [= <- <-]. split.
      * unfold loose. simpl in *. repeat split; auto; try lia; apply S5; auto.
      * simpl. eapply recompute_nb; [exact W| |exact RC]. lia.
    + intros [= <- <-]. split.
      * unfold loose. simpl in *. rewrite ?map_length in *. repeat split; auto; try lia; apply S5; auto.
      * apply finish_sbend_n; [apply recalc_aligned; exact A0|..]; simpl in *; rewrite ?map_length in *; congruence.
Qed.
Lemma sext_any c d r s : aligned_at n s -> ends (advance_sext w c d r s).
Proof.
  intros [A L]. apply ends_of; [apply sext_ok; auto|]. intros s' H. unfold advance_sext in H.
  apply rbind_ok in H as (B3 & _ & H). apply rbind_ok in H as (l & _ & H). apply rbind_ok in H as (st & _ & H).
  destruct r; [discriminate|]. cbv zeta in H. destruct (_ || _)%bool; [discriminate|].
  apply rbind_ok in H as (o & _ & H). apply rbind_ok in H as (m0 & _ & H). apply rbind_ok in H as (m1 & _ & H).
  apply rbind_ok in H as (tm & _ & H). apply calc_parts in H as [_ ->]. simpl. rewrite !map_length. auto.
Qed.
Lemma stripper_any c r s zs : aligned_at n s -> vec_at c "IonChargeStates" = Some zs -> List.length zs = n ->
  ends (advance_stripper w c r s).
Proof.
  intros [A L] Hz Ln. apply ends_of.
  { apply stripper_ok; auto. rewrite Hz. intros [= ->]. apply n_pos. rewrite <- Ln. reflexivity. }
  intros s' H. unfold advance_stripper in H. apply rbind_ok in H as (s1 & C & H). apply calc_rms_ok in C.
  destruct r; [discriminate|]. unfold stripper_getmat in H.
  apply rbind_ok in H as (chgd & HC & H). apply rbind_ok in H as (nchg & HN & H). cbv zeta in H.
  destruct (_ && _)%bool eqn:E1 in H; [discriminate|]. destruct (negb (_ || _)%bool) in H; [discriminate|].
  apply rbind_ok in H as (amount & HA & H). destruct (_ || _)%bool in H; [discriminate|].
  repeat (let a := fresh "a" in apply rbind_ok in H as (a & _ & H)).
  destruct (Req_EM_T _ 0) in H; [discriminate|]. destruct (Req_EM_T _ 0) in H; [discriminate|].
  destruct (Rlt_dec _ 0) in H; [discriminate|]. repeat (let a := fresh "a" in apply rbind_ok in H as (a & _ & H)).
  apply calc_parts in H as [_ ->]. cbn [ms_real]. rewrite map_length, combine_length, map_length.
  apply get_vec_ok in HC. rewrite Hz in HC. injection HC as <-.
  assert (LA : List.length amount = List.length zs).
  { destruct (String.eqb (get_str_def c "charge_model" "baron") "off").
    - injection HA as <-. rewrite map_length. simpl in E1. destruct (Nat.eqb_spec (List.length zs) (List.length nchg)); [auto|discriminate].
    - destruct (ms_real s1); [discriminate|]. apply charge_length in HA. rewrite map_length in HA. exact HA. }
  lia.
Qed.
Lemma cav_apply_real c d r s ref real d' s' : cav_apply w c d r s ref real = (d', Ok s') -> ms_real s' = real.
Proof.
  unfold cav_apply. cbv zeta. destruct (_ || _)%bool; [discriminate|]. destruct r; cbn [negb]; intros [= <- H].
  all: repeat (let a := fresh "a" in apply rbind_ok in H as (a & _ & H)); apply calc_parts in H as [_ ->]; reflexivity.
Qed.
Lemma cav_apply_any c d r s ref real d' x : aligned_at n s -> List.length (md_real_in d) = n ->
  List.length (md_tm d) = n -> List.length (md_mis d) = n -> List.length real = n ->
  (List.length (md_real_out d) <= n)%nat -> (forall s, md_istate d = Some s -> aligned_at n s) ->
  cav_apply w c d r s ref real = (d', x) -> loose KRFCavity c d' /\ ends x.
Proof.
  intros [A L] L1 L2 L3 L4 L5 HI H. assert (H0 := H).
  apply cav_apply_ok in H as (O & O1 & O2 & O3 & O4 & O5); auto; try congruence. split.
  - unfold loose. rewrite O1, O2, O3, O4, O5. repeat split; try lia; try congruence; try discriminate; apply HI; auto.
  - apply ends_of; auto. intros s' ->. apply cav_apply_real in H0. congruence.
Qed.
Lemma cav_any c d r s d' x : loose KRFCavity c d -> aligned_at n s -> advance_cav w c d r s = (d', x) ->
  loose KRFCavity c d' /\ ends x.
Proof.
  intros LS A0. apply recalc_n in A0. assert (A1 := A0). destruct A1 as [A1 AN]. unfold advance_cav.
  set (s1 := ms_recalc s) in *. destruct r.
  - destruct (check_backward d s1) eqn:C; cbn [negb]; [|intros [= <- <-]; split; [exact LS|discriminate]].
    apply backward_length in C.
    destruct (md_ref_in d) as [rin|]; [|intros [= <- <-]; split; [exact LS|discriminate]].
    destruct (md_ref_out d) as [rout|]; [|intros [= <- <-]; split; [exact LS|discriminate]].
    destruct LS as (S1 & S2 & S3 & S4 & S5 & S6).
    assert (LI : List.length (md_real_in d) = n) by (destruct S3 as [S3|S3]; [auto|rewrite S3 in S4; simpl in S4; lia]).
    destruct (Nat.ltb_spec (List.length (md_real_out d)) (List.length (md_real_in d))); [lia|].
    match goal with |- context [over ?f ?xs (ms_real s1)] => destruct (over_ok f xs (ms_real s1)) as (real & -> & LR) end.
    { rewrite combine_length. lia. }
    match goal with |- context [cav_misalign d ?a ?b] =>
      destruct (cav_misalign d a b) as [mis e] eqn:CM end.
    apply cav_misalign_ok in CM as [M1 M2]; [|rewrite ?firstn_length; lia].
    destruct e as [e|].
    { intros [= <- <-]. split; [|simpl; congruence]. unfold loose. simpl. repeat split; auto; try lia; apply S5; auto. }
    intros H'. apply cav_apply_any in H'; simpl; rewrite ?map_length; auto; lia.
  - destruct (check_cache d s1) eqn:C.
    + apply cache_length in C. assert (LS' := LS). destruct LS' as (S1 & S2 & S3 & S4 & S5 & S6).
      destruct (from_cache_any d s1) as [(ref & real & -> & L)| ->]; [lia| |].
      2:{ intros [= <- <-]. split; [exact LS|discriminate]. }
      intros H. apply cav_apply_any in H; auto; lia.
    + destruct LS as (S1 & S2 & S3 & S4 & S5 & S6). destruct (note_shape d s1) as (N1 & N2 & N3).
      change (md_istate d) with (md_istate (note_input d s1)) in S5.
      assert (LO : (List.length (md_real_out (note_input d s1)) <= n)%nat).
      { change (List.length (md_real_out d) <= n)%nat. destruct S3 as [S3|S3]; rewrite S3 in S4; simpl in S4; lia. }
      set (d1 := note_input d s1) in *.
      destruct (w_cav_ref w c (ms_ref s1)) as [[ref phi]|e] eqn:CR.
      2:{ intros [= <- <-]. split.
          - unfold loose. repeat split; auto; try lia; apply S5; auto.
          - simpl. intros ->. destruct W as (W1 & _). eapply W1; eauto. }
      destruct (cav_cells _ _ _ _ _ _) as [tm [real|e]] eqn:CC.
      2:{ apply cav_cells_ok in CC as (K1 & K2 & K3); [|exact W|simpl in *; lia]. intros [= <- <-]. split.
          - unfold loose. simpl in *. repeat split; auto; try lia; apply S5; auto.
          - simpl. intros ->. apply K2. reflexivity. }
      apply cav_cells_ok in CC as (K1 & K2 & K3); [|exact W|simpl in *; lia]. specialize (K3 _ eq_refl).
      match goal with |- context [cav_misalign ?x ?a ?b] => destruct (cav_misalign x a b) as [mis e] eqn:CM end.
      apply cav_misalign_ok in CM as [M1 M2]; [|simpl in *; lia].
      destruct e as [e|].
      { intros [= <- <-]. split; [|simpl; congruence]. unfold loose. simpl in *. repeat split; auto; try lia; apply S5; auto. }
      intros H. apply cav_apply_any in H; simpl in *; rewrite ?map_length in *; auto; lia.
Qed.
Lemma advance_any k c d r s d' x : loose k c d -> aligned_at n s -> advance_of w k c d r s = (d', x) ->
  loose k c d' /\ ends x.
Proof.
  intros S A. destruct k; cbn [advance_of]; try apply base_any; auto.
  - intros [= <- <-]. split; [exact S|]. unfold advance_source. destruct r; [exact A|].
    destruct S as (_ & _ & _ & _ & S & _). destruct (md_istate d) as [i|]; simpl; auto.
  - apply sbend_any; auto.
  - intros [= <- <-]. split; [exact S|]. apply sext_any; auto.
  - apply cav_any; auto.
  - intros [= <- <-]. split; [exact S|]. destruct S as (_ & _ & _ & _ & _ & S).
    destruct (S eq_refl) as (zs & Hz & Ln). eapply stripper_any; eauto.
Qed.
Lemma ctor_any k c d : tfind "type" c = Some (TStr (mkind_name k)) -> sends_on n c -> mom_ctor w k c = Ok d -> loose k c d.
Proof.
  intros HN [HS HB] H. unfold mom_ctor in H.
  assert (X : forall len sh sk fit ist, (forall s, ist = Some s -> aligned_at n s) ->
     loose k c (mkMD len sh sk None [] None [] [] [] fit ist 0)).
  { intros. unfold loose. simpl. repeat split; auto; try apply H0; auto. intros ->. auto. }
  destruct k; try (injection H as <-; apply X; discriminate).
  - apply rbind_ok in H as (s & H1 & H). injection H as <-. apply X. intros s' [= <-].
    specialize (HB HN). apply state_contents in H1 as (_ & A & _ & _ & H). split; auto.
    destruct (vec_at c "IonChargeStates") as [zs|].
    + destruct H as [-> _]. rewrite HB. destruct (num_at c "cstate"); reflexivity.
    + destruct H as [-> _]. rewrite HB. reflexivity.
  - apply rbind_ok in H as (fit & H1 & H). destruct (_ || _)%bool; [|discriminate]. injection H as <-. apply X. discriminate.
  - apply rbind_ok in H as (u & H1 & H). injection H as <-. apply X. discriminate.
Qed.
End M.

Lemma after_failures : forall w, sane w -> forall c m es us st start max p n,
  new_machine (moment_reg w) c = Ok m -> tfind "elements" c = Some (TCfgs es) ->
  Forall (sends_on n) es -> attempts (aligned_at n) (sends_on n) us ->
  aligned_at n (st_body st) -> propagate (uses m us) st start max = Some p ->
  (forall ev, In ev (pr_events p) -> aligned_at n (st_body (ev_state ev))) /\
  match pr_end p with Ok st' => aligned_at n (st_body st') | Throw x => x <> BadIndex end.
Proof.
  intros w W c m es us st start max p n Hm He HQ HS HA HP.
  destruct (new_moment w _ _ Hm) as (es0 & H1 & H2 & H3). assert (es0 = es) as -> by congruence.
  assert (NP : n <> 0%nat).
  { destruct HA as [[A _] <-]. destruct (ms_real (st_body st)); [congruence|discriminate]. }
  set (good := lift w (loose n)).
  assert (GC : forall t k c d, sfind t (si_elems (mom_info w)) = Some k -> tfind "type" c = Some (TStr t) ->
    sends_on n c -> cl_ctor k c = Ok d -> good k c d).
  { intros t k c0 d Ht Ht' Hq Hd. apply mom_find in Ht as (q & -> & ->). apply lift_class.
    apply (ctor_any w n); auto. }
  assert (GA : forall t k c c' d s, sfind t (si_elems (mom_info w)) = Some k ->
    good k c' d -> good k c s -> good k c (cl_assign k d s)).
  { intros t k c0 c' d s Ht _ Hs. apply mom_find in Ht as (q & -> & ->). exact Hs. }
  assert (GV : forall t k b d st d' r, sfind t (si_elems (mom_info w)) = Some k -> good k (eb_conf b) d ->
    aligned_at n (st_body st) -> cl_advance k b d st = (d', r) ->
    good k (eb_conf b) d' /\ match r with Ok st' => aligned_at n (st_body st') | Throw x => x <> BadIndex end).
  { intros t k b d s d' r Ht Hg HJ Hadv. apply mom_find in Ht as (q & -> & ->). apply lift_class in Hg.
    change (mom_advance w q b d s = (d', r)) in Hadv. unfold mom_advance in Hadv.
    destruct (advance_of w q (eb_conf b) d (st_retreat s) (st_body s)) as [d1 x] eqn:E.
    injection Hadv as -> <-. apply (advance_any w W n NP) in E as [E1 E2]; auto. split; [apply lift_class; auto|].
    destruct x; exact E2. }
  destruct (new_fit (sends_on n) good (mom_info w) GC _ c _ es m H1 (mom_reg_find w) He Hm HQ) as [F0 _].
  destruct (uses_any (aligned_at n) (sends_on n) good (mom_info w) (mom_tidy w) GC GA GV us m es H3 F0 HS) as [es' F].
  destruct (propagate_any (aligned_at n) good (mom_info w) GV _ _ _ _ _ _ F HA HP) as (P1 & _ & P2). auto.
Qed.
