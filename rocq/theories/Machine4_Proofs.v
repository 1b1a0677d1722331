(** Invariants of elements and states over histories of uses. *)
From Coq Require Import List String Bool NArith ZArith Arith Lia.
From Verif Require Import SMap SMap_Proofs Dbl Config_Spec Machine_Model Machine_Spec Machine_Proofs Machine2_Proofs.
Import ListNotations.

Section Inv.
Context {D B : Type}.
Variable J : bool -> B -> Prop.
Variable Q : tcfg -> Prop.
Variable good : class D B -> tcfg -> D -> Prop.
Variable i : sinfo D B.
Hypothesis HT : tidy i.
Hypothesis Gctor : forall t k c d, sfind t (si_elems i) = Some k -> tfind "type" c = Some (TStr t) -> Q c ->
  cl_ctor k c = Ok d -> good k c d.
Hypothesis Gassign : forall t k c c' d s, sfind t (si_elems i) = Some k ->
  good k c' d -> good k c s -> good k c (cl_assign k d s).
Hypothesis Gadv : forall t k b d st d' st', sfind t (si_elems i) = Some k -> good k (eb_conf b) d ->
  J (st_retreat st) (st_body st) -> cl_advance k b d st = (d', Ok st') ->
  good k (eb_conf b) d' /\ J (st_retreat st) (st_body st') /\ st_retreat st' = st_retreat st.

Definition fits (j : nat) (ec : tcfg) (e : elem D B) : Prop :=
  exists nm d,
    tfind "type" ec = Some (TStr (cl_tname (el_class e))) /\
    sfind (cl_tname (el_class e)) (si_elems i) = Some (el_class e) /\
    tfind "name" ec = Some (TStr nm) /\
    cl_ctor (el_class e) ec = Ok d /\
    el_base e = mkEB nm (N.of_nat j) (match tfind "L" ec with Some (TNum x) => x | _ => dzero end) ec /\
    good (el_class e) ec (el_data e).
Definition fit_all es (els : list (elem D B)) : Prop :=
  List.length els = List.length es /\
  forall j ec e, nth_error es j = Some ec -> nth_error els j = Some e -> fits j ec e.

Lemma fit_nth es els j e : fit_all es els -> nth_error els j = Some e ->
  exists ec, nth_error es j = Some ec /\ fits j ec e.
Proof.
  intros [L H] E. destruct (nth_error es j) as [ec|] eqn:Ec; [eauto|].
  apply nth_error_None in Ec. assert (j < List.length els) by (apply nth_error_Some; congruence). lia.
Qed.

Lemma fits_data j ec e d : fits j ec e -> good (el_class e) ec d -> fits j ec (with_data e d).
Proof.
  intros (nm & d0 & H1 & H2 & H3 & H4 & H5 & H6) H. exists nm, d0. simpl. repeat (split; [auto; fail|]). auto.
Qed.
Lemma fit_update es els j ec e d : fit_all es els -> nth_error es j = Some ec -> nth_error els j = Some e ->
  good (el_class e) ec d -> fit_all es (update els j (with_data e d)).
Proof.
  intros [L H] Hec He G. split; [rewrite update_length; auto|].
  intros j' ec' e' Hj He'. destruct (Nat.eq_dec j j') as [Hij|Hij].
  - subst j'. erewrite nth_update_eq in He' by eauto. injection He' as <-.
    rewrite Hec in Hj. injection Hj as <-. apply fits_data; auto.
  - rewrite nth_update_neq in He' by auto. eauto.
Qed.

Definition blame (rv : bool) (x : exn) : Prop :=
  exists t k b d st, sfind t (si_elems i) = Some k /\ good k (eb_conf b) d /\
    st_retreat st = rv /\ J rv (st_body st) /\ snd (cl_advance k b d st) = Throw x.

Lemma loop_fit es k : forall els st evs,
  fit_all es els -> J (st_retreat st) (st_body st) ->
  (forall ev, In ev evs -> J (st_retreat st) (st_body (ev_state ev))) ->
  let p := prop_loop k els st evs in
  (forall ev, In ev (pr_events p) -> J (st_retreat st) (st_body (ev_state ev))) /\
  match pr_end p with
  | Ok st' => fit_all es (pr_elems p) /\ J (st_retreat st) (st_body st')
  | Throw x => blame (st_retreat st) x
  end.
Proof.
  induction k as [|k IH]; intros els st evs H HJ He; simpl; auto.
  rewrite slot_nth. destruct (nth_error els (N.to_nat (st_next st))) as [e|] eqn:E; simpl; auto.
  set (st1 := mkSt _ _ _).
  destruct (fit_nth _ _ _ _ H E) as (ec & Hec & Hf). assert (Hf' := Hf).
  destruct Hf' as (nm & d0 & H1 & H2 & H3 & H4 & H5 & H6).
  assert (EC : eb_conf (el_base e) = ec) by (rewrite H5; reflexivity).
  destruct (cl_advance (el_class e) (el_base e) (el_data e) st1) as [d1 [st2|x]] eqn:A; simpl.
  - destruct (Gadv _ _ (el_base e) _ st1 _ _ H2 ltac:(rewrite EC; exact H6) HJ A) as (G & HJ2 & HR).
    rewrite EC in G. change (st_retreat st1) with (st_retreat st) in *.
    rewrite <- HR in *. apply IH; auto.
    + eapply fit_update; eauto.
    + intros ev Hev. destruct (el_obs e); auto. apply in_app_iff in Hev as [Hev|[<-|[]]]; auto.
  - split; auto. exists (cl_tname (el_class e)), (el_class e), (el_base e), (el_data e), st1.
    rewrite EC, A. auto.
Qed.

Lemma propagate_fit es m st start max p :
  fit_all es (m_elems m) -> J (Z.ltb max 0) (st_body st) -> propagate m st start max = Some p ->
  (forall ev, In ev (pr_events p) -> J (Z.ltb max 0) (st_body (ev_state ev))) /\
  match pr_end p with
  | Ok st' => fit_all es (pr_elems p) /\ J (Z.ltb max 0) (st_body st')
  | Throw x => blame (Z.ltb max 0) x
  end.
Proof.
  intros H HJ. unfold propagate. destruct (Z.eqb_spec max INT_MIN) as [->|].
  - destruct (_ <? _)%N; [discriminate|]. intros [= <-]. simpl. split; [intros _ []|auto].
  - intros [= <-]. pose proof (loop_fit es (Z.abs_nat max) (m_elems m) (mkSt start (Z.ltb max 0) (st_body st)) []
      H HJ ltac:(intros _ [])) as X. exact X.
Qed.

Lemma use1_fit (m : machine D B) es u : m_info m = i ->
  fit_all es (m_elems m) -> runs_well J Q m u ->
  fit_all
    (match u with
     | UReconf idx c =>
         match snd (reconfigure m idx c) with Ok _ => update es (N.to_nat idx) c | _ => es end
     | _ => es
     end) (m_elems (use1 m u)).
Proof.
  intros HI H HR. destruct u as [idx c|st s k|n o]; cbn [use1].
  - destruct (reconfigure m idx c) as [m' [u|x]] eqn:R; simpl.
    2:{ apply reconfigure_throw in R. subst; auto. }
    apply reconfigure_ok in R as (ob & t & k & nm & d & H1 & H2 & H3 & H4 & H5 & H6 & ->).
    rewrite HI in H3. destruct (fit_nth _ _ _ _ H H1) as (ec0 & Ec & (nm0 & d0 & K1 & K2 & K3 & K4 & K5 & K6)).
    destruct H as [HL H]. simpl. split; [rewrite !update_length; auto|].
    intros j ec e Hj He. destruct (Nat.eq_dec (N.to_nat idx) j) as [Hij|Hij].
    + subst j. erewrite nth_update_eq in He by eauto. injection He as <-.
      erewrite nth_update_eq in Hj by eauto. injection Hj as <-.
      destruct (HT _ _ H3) as [T1 T2].
      assert (k = el_class ob) as -> by (eapply T2; eauto).
      rewrite <- T1 in H2, H3.
      exists nm, d. simpl. rewrite N2Nat.id. repeat (split; [auto; fail|]).
      eapply Gassign; eauto.
    + rewrite nth_update_neq in Hj by auto. rewrite nth_update_neq in He by auto. eauto.
  - destruct HR as (HJ & p & st' & P & PE). rewrite P.
    destruct (propagate_fit _ _ _ _ _ _ H HJ P) as [_ X]. rewrite PE in X. simpl. tauto.
  - simpl. unfold set_observer. destruct (nth_error (m_elems m) n) as [e|] eqn:E; auto.
    destruct H as [HL H]. split; [rewrite update_length; auto|].
    intros j ec e' Hj He'. destruct (Nat.eq_dec n j) as [Hij|Hij].
    + subst j. erewrite nth_update_eq in He' by eauto. injection He' as <-. exact (H _ _ _ Hj E).
    + rewrite nth_update_neq in He' by auto. eauto.
Qed.

Lemma uses_fit us : forall (m : machine D B) es, m_info m = i ->
  fit_all es (m_elems m) -> smooth J Q m us ->
  fit_all (entries m es us) (m_elems (uses m us)).
Proof.
  induction us as [|u us IH]; intros m es HI H HS; [exact H|].
  change (uses m (u :: us)) with (uses (use1 m u) us). cbn [entries]. destruct HS as [HS1 HS2].
  destruct (use1_keeps m u) as (_ & _ & K & _).
  apply IH; auto; [congruence|]. apply use1_fit; auto.
Qed.

Lemma new_fit r c t es (m : machine D B) :
  tfind "sim_type" c = Some (TStr t) -> sfind t r = Some i -> tfind "elements" c = Some (TCfgs es) ->
  new_machine r c = Ok m -> Forall Q es -> fit_all es (m_elems m) /\ m_info m = i.
Proof.
  intros Hs Hi He Hm HQ.
  apply new_machine_ok in Hm as (t0 & i0 & es0 & H1 & H2 & H3 & H4 & H5 & H6 & H7 & H8 & H9 & H10).
  assert (t0 = t) as -> by congruence. assert (i0 = i) as -> by congruence.
  assert (es0 = es) as -> by congruence. split; auto. split; auto.
  intros j ec e Hj Hej. destruct (H10 _ _ _ Hj Hej) as (k & nm & d & P1 & P2 & P3 & P4 & ->).
  exists nm, d. simpl. repeat (split; [auto; fail|]). eapply Gctor; eauto.
  rewrite Forall_forall in HQ. eapply HQ, nth_error_In; eauto.
Qed.

(** The invariant [good] and behaviour *)
Hypothesis Gsame : forall t k b d1 d2 st, sfind t (si_elems i) = Some k ->
  good k (eb_conf b) d1 -> good k (eb_conf b) d2 -> J (st_retreat st) (st_body st) ->
  snd (cl_advance k b d1 st) = snd (cl_advance k b d2 st).

Lemma loop_same es k : forall els1 els2 st e1 e2,
  fit_all es els1 -> fit_all es els2 -> J (st_retreat st) (st_body st) ->
  pr_end (prop_loop k els1 st e1) = pr_end (prop_loop k els2 st e2).
Proof.
  induction k as [|k IH]; intros els1 els2 st e1 e2 F1 F2 HJ; simpl; auto.
  rewrite !slot_nth. set (n := N.to_nat (st_next st)).
  assert (L : List.length els1 = List.length els2) by (destruct F1, F2; congruence).
  destruct (nth_error els1 n) as [a|] eqn:E1; destruct (nth_error els2 n) as [b|] eqn:E2; simpl; auto.
  2:{ apply nth_error_None in E2. assert (n < List.length els1) by (apply nth_error_Some; congruence). lia. }
  2:{ apply nth_error_None in E1. assert (n < List.length els2) by (apply nth_error_Some; congruence). lia. }
  destruct (fit_nth _ _ _ _ F1 E1) as (ec & Ec & (nm1 & d1 & P1 & P2 & P3 & P4 & P5 & P6)).
  destruct (fit_nth _ _ _ _ F2 E2) as (ec' & Ec' & (nm2 & d2 & Q1 & Q2 & Q3 & Q4 & Q5 & Q6)).
  rewrite Ec in Ec'. injection Ec' as <-.
  assert (HC : el_class a = el_class b).
  { rewrite P1 in Q1. injection Q1 as Q1. rewrite Q1 in P2. rewrite P2 in Q2. congruence. }
  rewrite P3 in Q3. injection Q3 as <-. rewrite <- Q5 in P5. rewrite P5, HC in *.
  assert (EC : eb_conf (el_base b) = ec) by (rewrite Q5; reflexivity).
  set (st1 := mkSt _ _ _).
  assert (O : snd (cl_advance (el_class b) (el_base b) (el_data a) st1) =
              snd (cl_advance (el_class b) (el_base b) (el_data b) st1)).
  { eapply Gsame; eauto; rewrite EC; auto. }
  destruct (cl_advance (el_class b) (el_base b) (el_data a) st1) as [da [sa|xa]] eqn:A1;
    destruct (cl_advance (el_class b) (el_base b) (el_data b) st1) as [db [sb|xb]] eqn:A2; simpl in O; try discriminate.
  2:{ simpl. congruence. }
  injection O as ->.
  destruct (Gadv _ _ (el_base b) _ st1 _ _ Q2 ltac:(rewrite EC; exact Q6) HJ A2) as (G2 & HJ2 & HR).
  destruct (Gadv _ _ (el_base b) _ st1 _ _ Q2 ltac:(rewrite EC; exact P6) HJ A1) as (G1 & _).
  rewrite EC in *. apply IH.
  - eapply fit_update; eauto. rewrite HC. exact G1.
  - eapply fit_update; eauto.
  - rewrite HR. exact HJ2.
Qed.

Lemma smooth_like_new r c t es us c' (m : machine D B) :
  tfind "sim_type" c = Some (TStr t) -> sfind t r = Some i -> tfind "elements" c = Some (TCfgs es) ->
  new_machine r c = Ok m -> Forall Q es -> smooth J Q m us ->
  tfind "sim_type" c' = Some (TStr t) -> tfind "elements" c' = Some (TCfgs (entries m es us)) ->
  Forall Q (entries m es us) ->
  exists m2, new_machine r c' = Ok m2 /\
    forall st start max, J (Z.ltb max 0) (st_body st) ->
      option_map pr_end (propagate (uses m us) st start max)
      = option_map pr_end (propagate m2 st start max).
Proof.
  intros Hs Hi He Hm HQ HS Hs' He' HQ'.
  destruct (new_fit r c t es m Hs Hi He Hm HQ) as [F0 HI].
  pose proof (uses_fit us m es HI F0 HS) as F.
  assert (X : exists m2, new_machine r c' = Ok m2).
  { apply new_machine_iff. exists t, i, (entries m es us). repeat (split; [auto; fail|]).
    intros ec Hin. apply In_nth_error in Hin as [j Hj].
    destruct (nth_error (m_elems (uses m us)) j) as [e|] eqn:E.
    - destruct (fit_nth _ _ _ _ F E) as (ec' & Ec' & (nm & d & P1 & P2 & P3 & P4 & _)).
      rewrite Hj in Ec'. injection Ec' as <-.
      exists (cl_tname (el_class e)), (el_class e), nm, d. auto.
    - apply nth_error_None in E. destruct F as [F _].
      assert (j < List.length (entries m es us)) by (apply nth_error_Some; congruence). lia. }
  destruct X as [m2 Hm2]. exists m2. split; auto. intros st start max HJ.
  destruct (new_fit r c' t (entries m es us) m2 Hs' Hi He' Hm2 HQ') as [F2 _].
  unfold propagate. assert (L : List.length (m_elems (uses m us)) = List.length (m_elems m2))
    by (destruct F, F2; congruence).
  rewrite L. destruct (max =? INT_MIN)%Z.
  - destruct (_ <? _)%N; reflexivity.
  - simpl. f_equal. apply (loop_same (entries m es us)); auto.
Qed.
End Inv.

(** The Configs in force satisfy what all of them satisfy. *)
Lemma entries_all {D B} J (Q : tcfg -> Prop) us : forall (m : machine D B) es,
  Forall Q es -> smooth J Q m us -> Forall Q (entries m es us).
Proof.
  induction us as [|u us IH]; intros m es H HS; [exact H|]. destruct HS as [H1 H2]. cbn [entries].
  apply IH; auto. destruct u as [idx c|st s k|n o]; auto.
  destruct (snd (reconfigure m idx c)); auto. simpl in H1.
  clear -H H1. revert H. generalize (N.to_nat idx). induction es; intros n H; destruct n; simpl; auto;
    inversion H; subst; constructor; auto.
Qed.
