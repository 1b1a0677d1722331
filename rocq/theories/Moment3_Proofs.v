(** What elements keep of the particles. *)
From Coq Require Import Reals List String Bool NArith ZArith Arith Lia Lra.
From Verif Require Import SMap SMap_Proofs Dbl Config_Spec Mat Mat_Proofs Minv Minv_Proofs
  Machine_Model Machine_Spec Machine_Proofs Machine2_Proofs Machine4_Proofs
  Moment_Model Moment_Spec Moment_Proofs Moment2_Proofs.
Import ListNotations.
Open Scope R_scope.
Open Scope string_scope.
Open Scope list_scope.

(** ** Lists *)
Lemma over_forall {A B} (f : B -> A -> A) (X : B -> Prop) (Y : A -> Prop) xs :
  (forall x a, X x -> Y a -> Y (f x a)) -> Forall X xs ->
  forall l r, Forall Y l -> over f xs l = Ok r -> Forall Y r.
Proof.
  intros H HX. induction HX as [|x xs Hx HX IH]; intros l r HL; simpl.
  - intros [= <-]; auto.
  - destruct l as [|a l]; [discriminate|]. intros E. apply rbind_ok in E as (r' & E & F). injection F as <-.
    inversion HL; subst. constructor; eauto.
Qed.
Lemma run_forall {A} (f : particle -> A -> A * option exn) (Y : A -> Prop) ps :
  (forall p a, Y a -> Y (fst (f p a))) -> forall l r e, Forall Y l -> run_cells f ps l = (r, e) -> Forall Y r.
Proof.
  intros H. induction ps as [|p ps IH]; intros l r e HL; simpl.
  - intros [= <- <-]; auto.
  - destruct l as [|a l]; [intros [= <- <-]; auto|]. inversion HL; subst.
    specialize (H p a H2). destruct (f p a) as [b [x|]]; simpl in H.
    + intros [= <- <-]; constructor; auto.
    + destruct (run_cells f ps l) as [r' e'] eqn:E. intros [= <- <-]. constructor; eauto.
Qed.
Lemma rmap_forall {A B} (f : A -> res B) (X : A -> Prop) (Y : B -> Prop) l :
  (forall a b, X a -> f a = Ok b -> Y b) -> Forall X l -> forall r, rmap f l = Ok r -> Forall Y r.
Proof.
  intros H HX. induction HX as [|a l Ha HX IH]; intros r; simpl; [intros [= <-]; auto|].
  intros E. apply rbind_ok in E as (b & E1 & E). apply rbind_ok in E as (r' & E2 & E). injection E as <-. eauto.
Qed.
Lemma resize_forall {A} (Y : A -> Prop) n x l : Y x -> Forall Y l -> Forall Y (resize n x l).
Proof.
  intros Hx H. unfold resize. apply Forall_app. split.
  - apply Forall_forall. intros a Ha. rewrite Forall_forall in H. apply H. revert Ha.
    rewrite <- (firstn_skipn n l) at 2. intros; apply in_or_app; auto.
  - apply Forall_forall. intros a Ha. apply repeat_spec in Ha. subst; auto.
Qed.
Lemma firstn_forall {A} (Y : A -> Prop) n l : Forall Y l -> Forall Y (firstn n l).
Proof.
  intros H. rewrite Forall_forall in *. intros a Ha. apply H. rewrite <- (firstn_skipn n l). apply in_or_app; auto.
Qed.
Lemma skipn_forall {A} (Y : A -> Prop) n l : Forall Y l -> Forall Y (skipn n l).
Proof.
  intros H. rewrite Forall_forall in *. intros a Ha. apply H. rewrite <- (firstn_skipn n l). apply in_or_app; auto.
Qed.
Lemma combine_forall {A B} (X : A -> Prop) (Y : B -> Prop) l l' : Forall X l -> Forall Y l' ->
  Forall (fun x => X (fst x) /\ Y (snd x)) (combine l l').
Proof.
  intros H H'. rewrite Forall_forall in *. intros [a b] Hin. split.
  - apply in_combine_l in Hin. auto.
  - apply in_combine_r in Hin. auto.
Qed.
Lemma all_forall {A} (l : list A) : Forall (fun _ => True) l.
Proof. apply Forall_forall; auto. Qed.

(** ** What elements keep of the particles *)
Lemma over_copy {A} (xs : list A) : forall l r, List.length xs = List.length l -> over (fun x _ => x) xs l = Ok r -> r = xs.
Proof.
  induction xs as [|x xs IH]; intros l r HL; simpl; destruct l as [|a l]; try discriminate; [congruence|].
  intros H. apply rbind_ok in H as (r' & H1 & H). injection H as <-. f_equal. apply (IH l); [simpl in HL; lia|exact H1].
Qed.
Lemma over_rel {A B} (Rel : A -> A -> Prop) (f : B -> A -> A) xs : (forall a, Rel a a) -> (forall x a, Rel a (f x a)) ->
  forall l r, over f xs l = Ok r -> Forall2 Rel l r.
Proof.
  intros H0 H. induction xs as [|x xs IH]; intros l r; simpl.
  - intros [= <-]. clear -H0. induction l; auto.
  - destruct l as [|a l]; [discriminate|]. intros E. apply rbind_ok in E as (r' & E1 & E). injection E as <-. constructor; auto.
Qed.
Lemma map_rel {A} (Rel : A -> A -> Prop) (f : A -> A) : (forall a, Rel a (f a)) -> forall l, Forall2 Rel l (map f l).
Proof. intros H. induction l; simpl; auto. Qed.
Lemma rel_trans {A} (Rel : A -> A -> Prop) : (forall a b c, Rel a b -> Rel b c -> Rel a c) ->
  forall l1 l2 l3, Forall2 Rel l1 l2 -> Forall2 Rel l2 l3 -> Forall2 Rel l1 l3.
Proof.
  intros H l1 l2 l3 F. revert l3. induction F; intros l3 F'; inversion F'; subst; eauto.
Qed.
Section Keep.
Variable w : world.
Variable Rel : particle -> particle -> Prop.
Hypothesis Rr : forall p, Rel p p.
Hypothesis Rt : forall p q r, Rel p q -> Rel q r -> Rel p r.
Hypothesis Rrecalc : forall p, Rel p (recalc p).
Hypothesis Rphis : forall p x, Rel p (add_phis p x).
Hypothesis RK : forall p x, Rel p (set_K p x).
Hypothesis Req : forall p q, peqb p q = true -> Rel q p.
Definition cav_fine : Prop :=
  (forall p x, Rel p (set_Ek p x)) /\
  (forall c p p' phi, w_cav_ref w c p = Ok (p', phi) -> Rel p p') /\
  (forall c phi p T p', snd (w_cav_one w c phi p T) = Ok p' -> Rel p p').

Definition noted (d : mdata) : Prop :=
  match md_ref_in d, md_ref_out d with
  | Some a, Some b => Rel a b
  | None, None => True
  | _, _ => False
  end /\ Forall2 Rel (md_real_in d) (md_real_out d).
Definition kept (s s' : mstate) : Prop := Rel (ms_ref s) (ms_ref s') /\ Forall2 Rel (ms_real s) (ms_real s').

Lemma kept_recalc s : kept s (ms_recalc s).
Proof. split; simpl; auto. apply map_rel; auto. Qed.
Lemma kept_refl s : kept s s.
Proof. split; auto. induction (ms_real s); auto. Qed.
Lemma kept_trans s1 s2 s3 : kept s1 s2 -> kept s2 s3 -> kept s1 s3.
Proof. intros [H1 H2] [H3 H4]. split; [eauto|]. eapply rel_trans; eauto. Qed.

Lemma hit_inputs d s : check_cache d s = true ->
  (exists a, md_ref_in d = Some a /\ Rel (ms_ref s) a) /\ Forall2 Rel (ms_real s) (md_real_in d).
Proof.
  unfold check_cache. intros H. apply andb_true_iff in H as [H H3]. apply andb_true_iff in H as [H H2].
  apply andb_true_iff in H as [_ H1]. apply Nat.eqb_eq in H1. split.
  - destruct (md_ref_in d) as [a|]; [|discriminate]. exists a. auto.
  - revert H1 H3. generalize (md_real_in d) as l, (ms_real s) as l'. clear -Req.
    induction l as [|a l IH]; intros [|b l'] HL HF; try discriminate; auto. simpl in HF.
    apply andb_true_iff in HF as [F1 F2]. constructor; auto.
Qed.
Lemma hit_kept d s ref real : noted d -> List.length (md_real_out d) = List.length (ms_real s) ->
  check_cache d s = true -> from_cache w d s = Ok (ref, real) ->
  Rel (ms_ref s) ref /\ Forall2 Rel (ms_real s) real.
Proof.
  intros [N1 N2] L C F. apply hit_inputs in C as [(a & E & R1) R2]. unfold from_cache in F.
  destruct (_ && _)%bool; [discriminate|]. apply rbind_ok in F as (r & F1 & F). apply over_copy in F1; auto. subst r.
  injection F as <- <-. rewrite E in N1. destruct (md_ref_out d) as [b|]; [|contradiction].
  split; [eauto|]. eapply rel_trans; eauto.
Qed.
Lemma calc_parts s s' : calc_rms w s = Ok s' -> ms_ref s' = ms_ref s /\ ms_real s' = ms_real s.
Proof. intros H. apply calc_rms_ok in H. tauto. Qed.
Lemma finish_parts d r s ref real s' : finish w d r s ref real = Ok s' -> ms_ref s' = ref /\ ms_real s' = real.
Proof.
  unfold finish. intros H. apply rbind_ok in H as (Ts & _ & H). apply rbind_ok in H as ([[m0 m1] tm] & _ & H).
  apply calc_parts in H. exact H.
Qed.
Lemma finish_sbend_parts d r s ref real s' : finish_sbend w d r s ref real = Ok s' ->
  Rel ref (ms_ref s') /\ Forall2 Rel real (ms_real s').
Proof.
  unfold finish_sbend. intros H. apply rbind_ok in H as (Ts & _ & H). apply rbind_ok in H as ([[m0 m1] tm] & _ & H).
  apply rbind_ok in H as (real' & H1 & H). apply calc_parts in H as [-> ->]. simpl. split; [auto|].
  eapply over_rel; [| |exact H1]; [auto|]. intros; apply Rphis.
Qed.
Lemma base_kept k c d r s d' s' : shaped k c d -> noted d -> advance_base w k c d r s = (d', Ok s') ->
  noted d' /\ kept s s'.
Proof.
  intros (S1 & S2 & S3 & S4) N. unfold advance_base. set (s1 := ms_recalc s). destruct (check_cache d s1) eqn:C.
  - intros [= <- H]. split; [exact N|]. apply rbind_ok in H as ([ref real] & F & H).
    apply hit_kept in F; auto. 2:{ rewrite S3. apply cache_length; auto. }
    apply finish_parts in H as [E1 E2]. apply (kept_trans _ _ _ (kept_recalc s)). unfold kept. rewrite E1, E2. exact F.
  - destruct (recompute w k c (note_input d s1) s1) as [tm [e|]]; [intros [= _ H]; discriminate|].
    intros [= <- H]. apply finish_parts in H as [E1 E2].
    assert (K : Rel (ms_ref s1) (ms_ref s') /\ Forall2 Rel (ms_real s1) (ms_real s')).
    { rewrite E1, E2. split; [simpl; eauto|]. simpl. rewrite map_map. apply map_rel. eauto. }
    split; [|apply (kept_trans _ _ _ (kept_recalc s)); exact K]. unfold noted. simpl. rewrite E1, E2 in K. exact K.
Qed.
Lemma sbend_kept c d r s d' s' : shaped KSBend c d -> noted d -> advance_sbend w c d r s = (d', Ok s') ->
  noted d' /\ kept s s'.
Proof.
  intros (S1 & S2 & S3 & S4) N. unfold advance_sbend. set (s1 := ms_recalc s). destruct (check_cache d s1) eqn:C.
  - intros [= <- H]. split; [exact N|]. apply rbind_ok in H as ([ref real] & F & H).
    apply hit_kept in F; auto. 2:{ rewrite S3. apply cache_length; auto. }
    apply finish_sbend_parts in H as [E1 E2]. apply (kept_trans _ _ _ (kept_recalc s)).
    destruct F as [F1 F2]. split; [eauto|]. eapply rel_trans; eauto.
  - destruct (recompute w KSBend c (note_input d s1) s1) as [tm [e|]]; [intros [= _ H]; discriminate|].
    intros [= <- H]. apply finish_sbend_parts in H as [E1 E2].
    assert (K : Rel (ms_ref s1) (ms_ref (ms_recalc s1)) /\ Forall2 Rel (ms_real s1) (ms_real (ms_recalc s1))) by apply kept_recalc.
    split; [exact K|]. apply (kept_trans _ _ _ (kept_recalc s)). destruct K as [K1 K2]. split; [eauto|]. eapply rel_trans; eauto.
Qed.
Lemma sext_kept c d r s s' : advance_sext w c d r s = Ok s' -> kept s s'.
Proof.
  intros H. unfold advance_sext in H. set (s1 := ms_recalc s) in *.
  apply rbind_ok in H as (B3 & _ & H). apply rbind_ok in H as (l & _ & H). apply rbind_ok in H as (step & _ & H).
  destruct r; [discriminate|]. cbv zeta in H. destruct (_ || _)%bool; [discriminate|].
  apply rbind_ok in H as (outs & HO & H).
  apply rbind_ok in H as (m0 & H0 & H). apply rbind_ok in H as (m1 & H1 & H). apply rbind_ok in H as (tm & H2 & H).
  apply calc_parts in H as [E1 E2]. apply (kept_trans _ _ _ (kept_recalc s)). fold s1. apply (kept_trans _ _ _ (kept_recalc s1)).
  unfold kept. rewrite E1, E2. cbn [ms_ref ms_real]. split; [auto|]. apply map_rel; auto.
Qed.
Lemma cav_apply_parts c d r s ref real d' s' : cav_apply w c d r s ref real = (d', Ok s') ->
  ms_ref s' = ref /\ ms_real s' = real /\ md_ref_in d' = md_ref_in d /\ md_ref_out d' = md_ref_out d /\
  md_real_in d' = md_real_in d /\ md_real_out d' = md_real_out d.
Proof.
  unfold cav_apply. destruct (_ || _)%bool; [intros [= _ H]; discriminate|]. cbv zeta. destruct (negb r); intros [= <- H].
  - apply rbind_ok in H as (m0 & H0 & H). apply rbind_ok in H as (m1 & H1 & H). apply rbind_ok in H as (tm & H2 & H).
    apply calc_parts in H as [-> ->]. repeat split; reflexivity.
  - apply rbind_ok in H as (outs & HO & H).
    apply rbind_ok in H as (m0 & H0 & H). apply rbind_ok in H as (m1 & H1 & H). apply rbind_ok in H as (tm & H2 & H).
    apply calc_parts in H as [-> ->]. repeat split; reflexivity.
Qed.
Lemma cav_cells_kept c len phi ps : cav_fine -> forall tm tm' l, cav_cells w c len phi ps tm = (tm', Ok l) -> Forall2 Rel ps l.
Proof.
  intros (_ & _ & CF). induction ps as [|p ps IH]; intros tm tm' l; cbn [cav_cells].
  - destruct tm; intros [= _ <-]; auto.
  - destruct tm as [|t tm]; [intros [= _ H]; discriminate|]. destruct (cav_cell w c len phi p) as [T [p'|e]] eqn:E; [|intros [= _ H]; discriminate].
    destruct (cav_cells w c len phi ps tm) as [tm'' r'] eqn:E2. intros [= _ H]. apply rbind_ok in H as (l' & -> & H).
    injection H as <-. constructor; eauto. unfold cav_cell in E.
    match type of E with context [w_cav_one w c phi p ?T] => pose proof (CF c phi p T) as Y; destruct (w_cav_one w c phi p T) as [T' r''] end.
    injection E as _ E. apply rbind_ok in E as (q & -> & E). injection E as <-. simpl in Y. eauto.
Qed.
Lemma cav_kept c d r s d' s' : cav_fine -> shaped KRFCavity c d -> noted d -> advance_cav w c d r s = (d', Ok s') ->
  noted d' /\ kept s s'.
Proof.
  intros CF (S1 & S2 & S3 & S4) N. assert (CF' := CF). destruct CF' as (CF1 & CF2 & _). unfold advance_cav. set (s1 := ms_recalc s). destruct r.
  - destruct (negb (check_backward d s1)); [intros [= _ H]; discriminate|].
    destruct (md_ref_in d) as [rin|] eqn:EI; [|intros [= _ H]; discriminate]. destruct (md_ref_out d) as [rout|] eqn:EO; [|intros [= _ H]; discriminate].
    destruct (Nat.ltb _ _); [intros [= _ H]; discriminate|].
    match goal with |- context [over ?f ?xs (ms_real s1)] => destruct (over f xs (ms_real s1)) as [real|e] eqn:OV end; [|intros [= _ H]; discriminate].
    match goal with |- context [cav_misalign d ?a ?b] => destruct (cav_misalign d a b) as [mis [e|]] eqn:CM end; [intros [= _ H]; discriminate|].
    intros H. apply cav_apply_parts in H as (E1 & E2 & E3 & E4 & E5 & E6). simpl in E3, E4, E5, E6. split.
    + unfold noted. rewrite E3, E4, E5, E6. exact N.
    + apply (kept_trans _ _ _ (kept_recalc s)). unfold kept. rewrite E1, E2. split; [fold s1; eauto|].
      eapply rel_trans; [exact Rt| |apply map_rel; exact Rrecalc]. eapply over_rel; [| |exact OV]; auto. intros [i o] a. eauto.
  - destruct (check_cache d s1) eqn:C.
    + destruct (from_cache w d s1) as [[ref real]|e] eqn:F; [|intros [= _ H]; discriminate].
      apply hit_kept in F; auto. 2:{ rewrite S3. apply cache_length; auto. }
      intros H. apply cav_apply_parts in H as (E1 & E2 & E3 & E4 & E5 & E6). split.
      * unfold noted. rewrite E3, E4, E5, E6. exact N.
      * apply (kept_trans _ _ _ (kept_recalc s)). unfold kept. rewrite E1, E2. exact F.
    + destruct (w_cav_ref w c (ms_ref s1)) as [[ref phi]|e] eqn:CR; [|intros [= _ H]; discriminate]. apply CF2 in CR.
      destruct (cav_cells _ _ _ _ _ _) as [tm [real|e]] eqn:CC; [|intros [= _ H]; discriminate]. apply cav_cells_kept in CC; auto.
      match goal with |- context [cav_misalign ?x ?a ?b] => destruct (cav_misalign x a b) as [mis [e|]] eqn:CM end; [intros [= _ H]; discriminate|].
      intros H. apply cav_apply_parts in H as (E1 & E2 & E3 & E4 & E5 & E6). simpl in E3, E4, E5, E6.
      assert (K : Rel (ms_ref s1) (recalc ref) /\ Forall2 Rel (ms_real s1) (map recalc real)).
      { split; [eauto|]. eapply rel_trans; [exact Rt|exact CC|apply map_rel; auto]. }
      split.
      * unfold noted. rewrite E3, E4, E5, E6. exact K.
      * apply (kept_trans _ _ _ (kept_recalc s)). unfold kept. rewrite E1, E2. exact K.
Qed.
Lemma step_kept k c d r s d' s' : k <> KSource -> k <> KStripper -> (k = KRFCavity -> cav_fine) ->
  shaped k c d -> noted d -> advance_of w k c d r s = (d', Ok s') -> noted d' /\ kept s s'.
Proof.
  intros K1 K2 K3 S N. destruct k; cbn [advance_of]; try congruence; try (apply base_kept; auto).
  - apply sbend_kept; auto.
  - intros [= <- H]. split; [auto|]. eapply sext_kept; eauto.
  - apply cav_kept; auto.
Qed.
Lemma ctor_noted k c d : mom_ctor w k c = Ok d -> noted d.
Proof.
  intros H. unfold mom_ctor in H. destruct k; try (injection H as <-; split; [exact I|constructor]).
  - apply rbind_ok in H as (s & H1 & H). injection H as <-. split; [exact I|constructor].
  - apply rbind_ok in H as (fit & H1 & H). destruct (_ || _)%bool; [|discriminate]. injection H as <-. split; [exact I|constructor].
  - apply rbind_ok in H as (u & H1 & H). injection H as <-. split; [exact I|constructor].
Qed.

(** Machines without sources and strippers, and without cavities that do not fit. *)
Variable Q : tcfg -> Prop.
Hypothesis Qsource : forall c, Q c -> not_a "source" c.
Hypothesis Qstrip : forall c, Q c -> not_a "stripper" c.
Hypothesis Qcav : forall c, Q c -> tfind "type" c = Some (TStr "rfcavity") -> cav_fine.
Hypothesis W : sane w.
Lemma machine_kept c m es us st start max p :
  new_machine (moment_reg w) c = Ok m -> tfind "elements" c = Some (TCfgs es) ->
  Forall Q es -> smooth (fun _ => aligned) Q m us ->
  aligned (st_body st) -> propagate (uses m us) st start max = Some p ->
  (forall ev, In ev (pr_events p) -> kept (st_body st) (st_body (ev_state ev))) /\
  (forall st', pr_end p = Ok st' -> kept (st_body st) (st_body st')).
Proof.
  intros Hm He HQ HS HA HP.
  destruct (new_moment _ _ _ Hm) as (es0 & H1 & H2 & H3). assert (es0 = es) as -> by congruence.
  set (good := lift w (fun k c d => shaped k c d /\ noted d /\ Q c /\ tfind "type" c = Some (TStr (mkind_name k)))).
  assert (GC : forall t k c d, sfind t (si_elems (mom_info w)) = Some k -> tfind "type" c = Some (TStr t) ->
    Q c -> cl_ctor k c = Ok d -> good k c d).
  { intros t k c0 d Ht Ht' Hq Hd. apply mom_find in Ht as (q & -> & ->). apply lift_class. split; [|split; [|split]]; auto.
    - apply (ctor_ok w). 2: exact Hd. intros ->. exfalso. apply (Qstrip _ Hq). exact Ht'.
    - eapply ctor_noted. exact Hd. }
  assert (GA : forall t k c c' d s, sfind t (si_elems (mom_info w)) = Some k ->
    good k c' d -> good k c s -> good k c (cl_assign k d s)).
  { intros t k c0 c' d s Ht _ Hs. apply mom_find in Ht as (q & -> & ->). exact Hs. }
  assert (GV : forall (J : bool -> mstate -> Prop), (J = (fun _ => aligned) \/ J = (fun _ s => aligned s /\ kept (st_body st) s)) ->
    forall t k b d st d' st', sfind t (si_elems (mom_info w)) = Some k -> good k (eb_conf b) d ->
    J (st_retreat st) (st_body st) -> cl_advance k b d st = (d', Ok st') ->
    good k (eb_conf b) d' /\ J (st_retreat st) (st_body st') /\ st_retreat st' = st_retreat st).
  { intros J HJ' t k b d s d' s' Ht Hg HJ Hadv. apply mom_find in Ht as (q & -> & ->). apply lift_class in Hg as (G1 & G2 & G3 & G4).
    apply mom_advance_inv in Hadv as (Hadv & Hr & _).
    assert (AJ : aligned (st_body s)) by (destruct HJ' as [-> | ->]; [exact HJ|apply HJ]).
    pose proof (advance_ok w W _ _ _ _ _ _ _ G1 AJ Hadv) as [O1 O2].
    apply step_kept in Hadv as [O3 O4]; auto.
    - split; [apply lift_class; repeat (split; [eauto; fail|]); auto|]. split; [|auto].
      destruct HJ' as [-> | ->]; [exact O1|]. split; [exact O1|]. eapply kept_trans; [apply HJ|exact O4].
    - intros ->. apply (Qsource _ G3). exact G4.
    - intros ->. apply (Qstrip _ G3). exact G4.
    - intros ->. apply (Qcav _ G3). exact G4. }
  destruct (new_fit Q good (mom_info w) GC _ c _ es m H1 (mom_reg_find w) He Hm HQ) as [F0 _].
  pose proof (uses_fit (fun _ => aligned) Q good (mom_info w) (mom_tidy w) GC GA (GV _ (or_introl eq_refl)) us m es H3 F0 HS) as F.
  destruct (propagate_fit (fun _ s => aligned s /\ kept (st_body st) s) good (mom_info w) (GV _ (or_intror eq_refl)) _ _ _ _ _ _ F (conj HA (kept_refl _)) HP) as [P1 P2].
  split; [intros ev Hev; apply P1; auto|]. intros st' E. rewrite E in P2. apply P2.
Qed.
End Keep.
