(** Proofs about the RF cavity: the particles a machine with cavities tracks. *)
From Coq Require Import Reals List String Bool NArith ZArith Lia Lra Psatz.
From Verif Require Import SMap Dbl Config_Spec Mat Machine_Model Machine_Spec Machine_Proofs Machine2_Proofs Machine3_Proofs Machine4_Proofs Moment_Model
  Moment_Spec Moment_Proofs Moment2_Proofs Moment3_Proofs Moment4_Proofs Moment5_Proofs Cavity_Model Cavity_Spec Cavity_Proofs.
Import ListNotations.
Open Scope R_scope.
Open Scope string_scope.
Open Scope list_scope.

(** ** What depends on the kinetic energies alone *)
Definition Ek_same (p q : particle) : Prop := p_Ek q = p_Ek p.
Lemma Ek_trans p q r : Ek_same p q -> Ek_same q r -> Ek_same p r.
Proof. unfold Ek_same. congruence. Qed.
Lemma Ek_req p q : peqb p q = true -> Ek_same q p.
Proof.
  intros H. unfold peqb in H. repeat (apply andb_prop in H as [H ?]).
  repeat match goal with H : Reqb _ _ = true |- _ => apply Reqb_true in H end. unfold Ek_same. auto.
Qed.

Section Upheld.
Variable w : world.
Hypothesis W : sane w.
Variable I : R -> Prop.
Hypothesis Iref : forall c p p' phi, I (p_Ek p) -> w_cav_ref w c (recalc p) = Ok (p', phi) -> I (p_Ek p').
Hypothesis Ione : forall c phi p T p', I (p_Ek p) -> snd (w_cav_one w c phi (recalc p) T) = Ok p' -> I (p_Ek p').
Notation P := (fun p => I (p_Ek p)).
Definition upheld (s : mstate) : Prop := P (ms_ref s) /\ Forall P (ms_real s).
Definition stored (d : mdata) : Prop :=
  (forall p, md_ref_in d = Some p -> P p) /\ (forall p, md_ref_out d = Some p -> P p) /\
  Forall P (md_real_in d) /\ Forall P (md_real_out d) /\ (md_ref_out d = None -> md_ref_in d = None).
Lemma upheld_kept s s' : kept Ek_same s s' -> upheld s -> upheld s'.
Proof.
  intros [K1 K2] [U1 U2]. split; [rewrite K1; exact U1|]. revert U2. induction K2 as [|a b l l' E _ IH]; intros U2; auto.
  inversion U2; subst. constructor; auto. rewrite E. auto.
Qed.
Lemma map_recalc_P l : Forall P l -> Forall P (map recalc l).
Proof. induction 1; simpl; constructor; auto. Qed.
Lemma over_P {X} (f : X -> particle -> particle) (xs : list X) : (forall x p, In x xs -> P p -> P (f x p)) ->
  forall l l', over f xs l = Ok l' -> Forall P l -> Forall P l'.
Proof.
  intros H. induction xs as [|x xs IH]; intros l l'; simpl.
  - destruct l; intros [= <-]; auto.
  - destruct l as [|a l]; [discriminate|]. intros E F. apply rbind_ok in E as (r & E & [= <-]). inversion F; subst.
    constructor; [apply H; simpl; auto|]. eapply IH; eauto. intros; apply H; simpl; auto.
Qed.
Lemma cells_P c len phi : forall ps tm tm' l, Forall P ps ->
  cav_cells w c len phi (map recalc ps) tm = (tm', Ok l) -> Forall P l.
Proof.
  induction ps as [|p ps IH]; intros tm tm' l F; cbn [cav_cells map].
  - destruct tm; intros [= _ <-]; auto.
  - inversion F; subst. destruct tm as [|t tm]; [intros [= _ H]; discriminate|].
    destruct (cav_cell w c len phi (recalc p)) as [T [p'|e]] eqn:E; [|intros [= _ H]; discriminate].
    destruct (cav_cells w c len phi (map recalc ps) tm) as [tm'' r'] eqn:E2. intros [= _ H]. apply rbind_ok in H as (l' & -> & H).
    injection H as <-. constructor; eauto. unfold cav_cell in E.
    match type of E with context [w_cav_one w c phi (recalc p) ?T] => pose proof (Ione c phi p T) as Y; destruct (w_cav_one w c phi (recalc p) T) as [T' r''] end.
    injection E as _ E. apply rbind_ok in E as (q & -> & E). injection E as <-. simpl in Y. simpl. eauto.
Qed.
Lemma cav_upheld c d r s d' s' : shaped KRFCavity c d -> stored d -> upheld s -> advance_cav w c d r s = (d', Ok s') ->
  stored d' /\ upheld s'.
Proof.
  intros (S1 & S2 & S3 & S4) (N1 & N2 & N3 & N4 & N5) [U1 U2]. unfold advance_cav. set (s1 := ms_recalc s).
  assert (V1 : P (ms_ref s1)) by exact U1. assert (V2 : Forall P (ms_real s1)) by (apply map_recalc_P; exact U2).
  assert (FIN : forall d0 r0 s0 ref real d1 s1', stored d0 -> P ref -> Forall P real -> cav_apply w c d0 r0 s0 ref real = (d1, Ok s1') ->
    stored d1 /\ upheld s1').
  { intros d0 r0 s0 ref real d1 s1' D A B H. apply cav_apply_parts in H as (E1 & E2 & E3 & E4 & E5 & E6).
    unfold stored, upheld. rewrite E1, E2, E3, E4, E5, E6. auto. }
  destruct r.
  - destruct (negb (check_backward d s1)); [intros [= _ H]; discriminate|].
    destruct (md_ref_in d) as [rin|] eqn:EI; [|intros [= _ H]; discriminate]. destruct (md_ref_out d) as [rout|] eqn:EO; [|intros [= _ H]; discriminate].
    destruct (Nat.ltb _ _); [intros [= _ H]; discriminate|].
    match goal with |- context [over ?f ?xs (ms_real s1)] => destruct (over f xs (ms_real s1)) as [real|e] eqn:OV end; [|intros [= _ H]; discriminate].
    match goal with |- context [cav_misalign d ?a ?b] => destruct (cav_misalign d a b) as [mis [e|]] eqn:CM end; [intros [= _ H]; discriminate|].
    apply FIN.
    + unfold stored, with_mis. cbn [md_ref_in md_ref_out md_real_in md_real_out]. rewrite EI, EO. auto.
    + simpl. apply N1. reflexivity.
    + apply map_recalc_P. eapply over_P; [|exact OV|exact V2]. intros [i o] p Hin _. simpl.
      apply in_combine_l in Hin. rewrite Forall_forall in N3. apply N3. exact Hin.
  - destruct (check_cache d s1) eqn:C.
    + destruct (from_cache w d s1) as [[ref real]|e] eqn:F; [|intros [= _ H]; discriminate].
      unfold from_cache in F. destruct (_ && _)%bool; [discriminate|]. apply rbind_ok in F as (rr & F1 & F).
      apply over_copy in F1. 2: { rewrite S3. apply cache_length; auto. }
      subst rr. injection F as <- <-. apply FIN.
      * repeat split; auto.
      * destruct (md_ref_out d) as [b|] eqn:EO; [apply N2; reflexivity|].
        exfalso. specialize (N5 eq_refl). rename N5 into EO'. unfold check_cache in C. rewrite EO' in C. rewrite ?andb_false_r in C. discriminate.
      * exact N4.
    + destruct (w_cav_ref w c (ms_ref s1)) as [[ref phi]|e] eqn:CR; [|intros [= _ H]; discriminate].
      apply (Iref _ _ _ _ U1) in CR.
      destruct (cav_cells _ _ _ _ _ _) as [tm [real|e]] eqn:CC; [|intros [= _ H]; discriminate]. apply cells_P in CC; auto.
      match goal with |- context [cav_misalign ?x ?a ?b] => destruct (cav_misalign x a b) as [mis [e|]] eqn:CM end; [intros [= _ H]; discriminate|].
      apply FIN; auto.
      * unfold stored. simpl. split; [|split; [|split; [|split; [|discriminate]]]].
        -- intros p [= <-]. exact V1.
        -- intros p [= <-]. exact CR.
        -- exact V2.
        -- apply map_recalc_P. exact CC.
      * apply map_recalc_P. exact CC.
Qed.

Definition sound (k : mkind) (d : mdata) : Prop :=
  (k = KRFCavity -> stored d) /\ (k <> KRFCavity -> noted Ek_same d).
Lemma ctor_sound k c d : mom_ctor w k c = Ok d -> sound k d.
Proof.
  intros H. split; [intros _|intros _; eapply ctor_noted; exact H].
  assert (E : md_ref_in d = None /\ md_ref_out d = None /\ md_real_in d = [] /\ md_real_out d = []).
  { unfold mom_ctor in H. destruct k; try (injection H as <-; auto).
    - apply rbind_ok in H as (s & H1 & H). injection H as <-. auto.
    - apply rbind_ok in H as (fit & H1 & H). destruct (_ || _)%bool; [|discriminate]. injection H as <-. auto.
    - apply rbind_ok in H as (u & H1 & H). injection H as <-. auto. }
  destruct E as (E1 & E2 & E3 & E4). unfold stored. rewrite E1, E2, E3, E4.
  repeat split; auto; discriminate.
Qed.
Lemma step_upheld k c d r s d' s' : k <> KSource -> k <> KStripper -> shaped k c d -> sound k d -> upheld s ->
  advance_of w k c d r s = (d', Ok s') -> sound k d' /\ upheld s'.
Proof.
  intros K1 K2 Sh [N1 N2] U A. assert (KD : {k = KRFCavity} + {k <> KRFCavity}) by (decide equality). destruct KD as [->|K3].
  - specialize (N1 eq_refl). cbn [advance_of] in A. eapply cav_upheld in A as [A1 A2]; eauto.
    split; [split; [auto|congruence]|exact A2].
  - specialize (N2 K3). eapply (step_kept w Ek_same) in A as [A1 A2]; eauto.
    + split; [split; [congruence|auto]|]. eapply upheld_kept; eauto.
    + intros; reflexivity.
    + exact Ek_trans.
    + intros; reflexivity.
    + intros; reflexivity.
    + intros; reflexivity.
    + exact Ek_req.
    + congruence.
Qed.

Lemma machine_upheld c m es us st start max p :
  new_machine (moment_reg w) c = Ok m -> tfind "elements" c = Some (TCfgs es) ->
  Forall keeps_ions es -> smooth (fun _ s => aligned s /\ upheld s) keeps_ions m us ->
  aligned (st_body st) -> upheld (st_body st) -> propagate (uses m us) st start max = Some p ->
  (forall ev, In ev (pr_events p) -> upheld (st_body (ev_state ev))) /\
  (forall st', pr_end p = Ok st' -> upheld (st_body st')).
Proof.
  intros Hm He HQ HS HA HU HP.
  destruct (new_moment _ _ _ Hm) as (es0 & H1 & H2 & H3). assert (es0 = es) as -> by congruence.
  set (good := lift w (fun k c d => shaped k c d /\ sound k d /\ keeps_ions c /\ tfind "type" c = Some (TStr (mkind_name k)))).
  assert (GC : forall t k c d, sfind t (si_elems (mom_info w)) = Some k -> tfind "type" c = Some (TStr t) ->
    keeps_ions c -> cl_ctor k c = Ok d -> good k c d).
  { intros t k c0 d Ht Ht' Hq Hd. apply mom_find in Ht as (q & -> & ->). apply lift_class. split; [|split; [|split]]; auto.
    - apply (ctor_ok w). 2: exact Hd. intros ->. exfalso. apply (proj2 Hq). exact Ht'.
    - eapply ctor_sound. exact Hd. }
  assert (GA : forall t k c c' d s, sfind t (si_elems (mom_info w)) = Some k ->
    good k c' d -> good k c s -> good k c (cl_assign k d s)).
  { intros t k c0 c' d s Ht _ Hs. apply mom_find in Ht as (q & -> & ->). exact Hs. }
  assert (GV : forall t k b d st d' st', sfind t (si_elems (mom_info w)) = Some k -> good k (eb_conf b) d ->
    (fun (_ : bool) s => aligned s /\ upheld s) (st_retreat st) (st_body st) -> cl_advance k b d st = (d', Ok st') ->
    good k (eb_conf b) d' /\ (fun (_ : bool) s => aligned s /\ upheld s) (st_retreat st) (st_body st') /\ st_retreat st' = st_retreat st).
  { intros t k b d s d' s' Ht Hg [AJ UJ] Hadv. apply mom_find in Ht as (q & -> & ->). apply lift_class in Hg as (G1 & G2 & G3 & G4).
    apply mom_advance_inv in Hadv as (Hadv & Hr & _).
    pose proof (advance_ok w W _ _ _ _ _ _ _ G1 AJ Hadv) as [O1 O2].
    apply step_upheld in Hadv as [O3 O4]; auto.
    - split; [apply lift_class; repeat (split; [eauto; fail|]); auto|]. split; [|auto]. split; [exact O1|exact O4].
    - intros ->. apply (proj1 G3). exact G4.
    - intros ->. apply (proj2 G3). exact G4. }
  destruct (new_fit keeps_ions good (mom_info w) GC _ c _ es m H1 (mom_reg_find w) He Hm HQ) as [F0 _].
  pose proof (uses_fit (fun _ s => aligned s /\ upheld s) keeps_ions good (mom_info w) (mom_tidy w) GC GA GV us m es H3 F0 HS) as F.
  destruct (propagate_fit (fun _ s => aligned s /\ upheld s) good (mom_info w) GV _ _ _ _ _ _ F (conj HA HU) HP) as [P1 P2].
  split; [intros ev Hev; apply P1; auto|]. intros st' E. rewrite E in P2. apply P2.
Qed.
End Upheld.

(** ** The cavity computations *)
Lemma boost_not_below a cv p E F scl E' F' : 0 <= p_beta p -> p_Es p <= E ->
  boost a cv p E F scl = Ok (Some (E', F')) -> p_Es p <= E'.
Proof.
  intros Hb HE H. destruct (Nat.le_gt_cases 2 (List.length (cv_data cv))) as [L|L].
  - destruct (Req_EM_T (p_beta p) 0) as [Z|Z].
    + exfalso. unfold boost in H. destruct (_ && _)%bool; [discriminate|]. destruct (Nat.eqb _ 0); [discriminate|].
      destruct (Rle_dec _ _); [discriminate|]. destruct (Req_EM_T (cv_f cv) 0); [discriminate|].
      destruct (Req_EM_T (p_beta p) 0); [|contradiction]. cbv zeta in H. rewrite loop_mean in H.
      rewrite fed_stuck in H; [discriminate|]. intros N. apply (f_equal (@List.length R)) in N.
      rewrite mean_len, map_length in N. simpl in N. lia.
    + assert (P : 0 < p_Es p).
      { unfold boost in H. destruct (_ && _)%bool; [discriminate|]. destruct (Nat.eqb _ 0); [discriminate|].
        destruct (Rle_dec _ _); [discriminate|]. lra. }
      assert (Fq : cv_f cv <> 0).
      { unfold boost in H. destruct (_ && _)%bool; [discriminate|]. destruct (Nat.eqb _ 0); [discriminate|].
        destruct (Rle_dec _ _); [discriminate|]. destruct (Req_EM_T (cv_f cv) 0); [discriminate|auto]. }
      eapply boost_above; [|exact H]. repeat split; auto; lra.
  - unfold boost in H. destruct (_ && _)%bool; [discriminate|]. destruct (Nat.eqb_spec (List.length (cv_data cv)) 0); [discriminate|].
    destruct (Rle_dec _ _); [discriminate|]. destruct (Req_EM_T (cv_f cv) 0); [discriminate|].
    destruct (cv_data cv) as [|x [|y l]]; simpl in L; try lia; [simpl in n; congruence|].
    simpl in H. injection H as <- <-. exact HE.
Qed.
Lemma recalc_beta_pos p : 0 <= p_beta (recalc p).
Proof. unfold recalc. simpl. apply sqrt_pos. Qed.

Section Cav.
Variable w : world.
Lemma long_inv cv c p p' phi : propagate_long w cv c p = Ok (p', phi) ->
  exists W Fy Fy' scl, driven_phase w cv c p scl = Ok phi /\ num_of w c "scl_fac" = Ok scl /\ p_freq p <> 0 /\
    Fy = cv_f cv / p_freq p * p_phis p + phi /\
    boost (w_asserts w) cv p (p_W p) Fy scl = Ok (Some (W, Fy')) /\ p' = boosted p W (Fy' - Fy) (cv_f cv / p_freq p).
Proof.
  unfold propagate_long. intros H. apply rbind_ok in H as (scl & H1 & H). destruct (Req_EM_T _ 0); [discriminate|].
  apply rbind_ok in H as (Fy & H2 & H). apply rbind_ok in H as ([[W F']|] & H3 & H); [|discriminate].
  injection H as <- <-. eauto 12.
Qed.
Lemma init_inv cv c phi p M0 p' : snd (init_cav w cv c phi p M0) = Ok p' ->
  exists label Rm W Fy Fy' scl M, label_of (cv_cavi cv) = Ok (label, Rm) /\ num_of w c "scl_fac" = Ok scl /\ p_freq p <> 0 /\
    Fy = cv_f cv / p_freq p * p_phis p + phi /\
    boost (w_asserts w) cv p (p_Ek p + p_Es p) Fy scl = Ok (Some (W, Fy')) /\ p' = boosted p W (Fy' - Fy) (cv_f cv / p_freq p) /\
    (if Nat.ltb 0 (cv_cavi cv) then cav_matrix w cv label Rm p' scl Fy (p_Ek p) else gen_matrix w cv p' scl Fy (p_Ek p)) = Ok M /\
    fst (init_cav w cv c phi p M0) = freq_jump (cv_f cv / p_freq p) M.
Proof.
  unfold init_cav. cbv zeta. match goal with |- context [match ?r with _ => _ end] => destruct r as [[M q]|e] eqn:H end; [|discriminate].
  intros [= <-]. apply rbind_ok in H as ([label Rm] & H1 & H). destruct (Req_EM_T _ 0); [discriminate|].
  apply rbind_ok in H as (scl & H2 & H). apply rbind_ok in H as ([[W F']|] & H3 & H); [|discriminate].
  apply rbind_ok in H as (M' & H4 & H). injection H as <- <-. exists label, Rm, W. do 3 eexists. exists M'.
  repeat split; eauto.
Qed.
Lemma init_fails cv c phi p M0 e : snd (init_cav w cv c phi p M0) = Throw e -> fst (init_cav w cv c phi p M0) = M0.
Proof. unfold init_cav. cbv zeta. match goal with |- context [match ?r with _ => _ end] => destruct r as [[M q]|e'] end; [discriminate|reflexivity]. Qed.

Lemma boosted_Ek p W dF m : p_Ek (boosted p W dF m) = W - p_Es p.
Proof. reflexivity. Qed.
Lemma long_above cv c p p' phi : 0 <= p_Ek p -> propagate_long w cv c (recalc p) = Ok (p', phi) -> 0 <= p_Ek p'.
Proof.
  intros E H. apply long_inv in H as (W & Fy & Fy' & scl & _ & _ & _ & _ & B & ->). rewrite boosted_Ek.
  apply boost_not_below in B; [lra|apply recalc_beta_pos|]. simpl. lra.
Qed.
Lemma init_above cv c phi p M0 p' : 0 <= p_Ek p -> snd (init_cav w cv c phi (recalc p) M0) = Ok p' -> 0 <= p_Ek p'.
Proof.
  intros E H. apply init_inv in H as (label & Rm & W & Fy & Fy' & scl & M & _ & _ & _ & _ & B & -> & _). rewrite boosted_Ek.
  apply boost_not_below in B; [lra|apply recalc_beta_pos|]. simpl. lra.
Qed.
Lemma boosted_ion p W dF m : same_ion p (boosted p W dF m).
Proof. repeat split; reflexivity. Qed.
Variable files : cavfiles.
Lemma with_keep_ions : cavities_keep_ions (with_cavities w files).
Proof.
  split; simpl.
  - intros c p p' phi H. apply rbind_ok in H as (cv & _ & H). apply long_inv in H as (? & ? & ? & ? & H). decompose [and] H. subst. apply boosted_ion.
  - intros c phi p T p'. destruct (load_cavity w files c) as [cv|e]; [|discriminate]. intros H.
    apply init_inv in H as (? & ? & ? & ? & ? & ? & ? & H). decompose [and] H. subst. apply boosted_ion.
Qed.
End Cav.
