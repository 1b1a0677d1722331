(** The linear simulation types inside a Machine. *)
From Coq Require Import Reals List String Bool NArith ZArith Arith Lia Lra Setoid Morphisms.
From Verif Require Import SMap SMap_Proofs Dbl Config_Spec Mat Mat_Proofs Machine_Model Machine_Spec
  Machine_Proofs Machine2_Proofs Linear_Model Linear_Spec Linear_Proofs.
Import ListNotations.
Open Scope R_scope.
Open Scope string_scope.
Open Scope list_scope.

Lemma update_same {A} (l : list A) : forall i a, nth_error l i = Some a -> update l i a = l.
Proof. induction l; destruct i; simpl; intros; try discriminate; f_equal; auto; congruence. Qed.

Section Lin.
Variable num : double -> R.
Context {V : Type}.
Variable new_state : tcfg -> res (lstate V).
Variable apply : mat -> V -> V.
Variable base : nat.
Notation lelem := (elem (ldata V) (lstate V)).
Notation cls := (lin_class num new_state apply base).

(** What an element of these classes does to a state. *)
Definition step (e : lelem) (s : lstate V) : lstate V :=
  match ld_istate (el_data e) with
  | Some i => i
  | None => mkLS (ls_pos s + num (eb_len (el_base e))) (apply (ld_transfer (el_data e)) (ls_val s))
  end.
Definition passes (els : list lelem) (vs : list nat) (s : lstate V) : lstate V :=
  fold_left (fun s i => match nth_error els i with Some e => step e s | None => s end) vs s.

Definition lin_elem (e : lelem) : Prop :=
  exists k, el_class e = cls k /\ (k = KSource <-> ld_istate (el_data e) <> None).

Lemma lin_adv e st : lin_elem e ->
  cl_advance (el_class e) (el_base e) (el_data e) st
  = (el_data e, Ok (mkSt (st_next st) (st_retreat st) (step e (st_body st)))).
Proof.
  intros [k [-> H]]. simpl. unfold lin_advance, step. destruct k, (ld_istate (el_data e)); auto.
  all: try (exfalso; assert (A : Some l <> None) by discriminate; apply H in A; discriminate).
Qed.

Lemma lin_undirected els : (forall e, In e els -> lin_elem e) -> undirected els.
Proof.
  intros H e He b d st d' st' A. destruct (H e He) as [k [E _]]. rewrite E in A. simpl in A.
  unfold lin_advance in A. destruct k, (ld_istate d); injection A as <- <-; auto.
Qed.

Lemma lin_journey vs : forall els f st,
  (forall e, In e els -> lin_elem e) -> (forall i, In i vs -> (i < List.length els)%nat) ->
  exists t s, journey els f vs st = (t, els, Ok s) /\ st_body s = passes els vs (st_body st).
Proof.
  induction vs as [|i vs IH]; intros els f st H Hv; simpl.
  - exists [], st. auto.
  - destruct (nth_error els i) as [e|] eqn:E.
    2:{ apply nth_error_None in E. specialize (Hv i (or_introl eq_refl)). lia. }
    rewrite lin_adv by (eapply H, nth_error_In; eauto). cbn [st_next st_retreat st_body].
    replace (with_data e (el_data e)) with e by (destruct e; reflexivity).
    rewrite update_same by auto.
    destruct (IH els f (mkSt (next_of f i) (negb f) (step e (st_body st))) H) as (t & s & J1 & J2).
    { intros; apply Hv; right; auto. }
    rewrite J1. eexists _, s. split; [reflexivity|]. rewrite J2. reflexivity.
Qed.

Lemma lin_propagate (m : machine (ldata V) (lstate V)) st start max :
  (forall e, In e (m_elems m) -> lin_elem e) ->
  (N.of_nat (List.length (m_elems m)) <= SIZE_MAX)%N -> (INT_MIN < max <= INT_MAX)%Z ->
  exists evs s, propagate m st start max = Some (mkRun (m_elems m) evs (Ok s)) /\
    st_body s = passes (m_elems m) (visits (List.length (m_elems m)) start max) (st_body st).
Proof.
  intros H Hn Hm.
  destruct (lin_journey (visits (List.length (m_elems m)) start max) (m_elems m) (Z.leb 0 max)
              (mkSt start (Z.ltb max 0) (st_body st)) H) as (t & s & J1 & J2).
  { intros i Hi. eapply visits_bound; eauto. }
  exists (seen (m_elems m) t), s. split; [|exact J2].
  eapply propagate_visits; eauto. apply lin_undirected; auto.
Qed.

Lemma lin_elems_eq :
  lin_elems num new_state apply base =
  map (fun k => (kind_name k, cls k)) [KDrift; KGeneric; KMark; KQuad; KSBend; KSolenoid; KSource].
Proof. reflexivity. Qed.
Lemma lin_find n k :
  sfind n (lin_elems num new_state apply base) = Some k -> exists q, k = cls q /\ n = kind_name q.
Proof.
  rewrite lin_elems_eq. intros H. apply sfind_In in H. apply in_map_iff in H as (q & E & _).
  injection E as <- <-. eauto.
Qed.

Lemma kind_id_inj k k' : kind_id k = kind_id k' -> k = k'.
Proof. destruct k, k'; simpl; congruence. Qed.
Lemma lin_tidy : tidy (lin_info num new_state apply base).
Proof.
  intros n k H. apply lin_find in H as (q & -> & ->). split; [reflexivity|].
  intros n' k' H' E. apply lin_find in H' as (q' & -> & ->). simpl in E.
  rewrite (kind_id_inj q q'); auto. lia.
Qed.
Lemma lin_transparent k : k <> KSource -> transparent (cls k).
Proof.
  intros Hk. exists (fun c d => transfer_of num k c = Ok (ld_transfer d)). split; [|split; [|split]].
  - intros c d H. simpl in H. unfold lin_ctor in H. destruct (transfer_of num k c) as [T|]; [|discriminate].
    simpl in H. destruct k; try congruence; injection H as <-; reflexivity.
  - intros c c' d s _ H. exact H.
  - intros b d st H. simpl. unfold lin_advance.
    destruct k; try congruence; destruct (ld_istate d); auto.
  - intros b d1 d2 st H1 H2. assert (E : ld_transfer d1 = ld_transfer d2) by congruence.
    simpl. unfold lin_advance. destruct k; try congruence; rewrite E; reflexivity.
Qed.

(** A lattice entry and the element made of it. *)
Lemma lin_describes j ec e :
  describes (lin_info num new_state apply base) j ec e ->
  exists q T, el_class e = cls q /\ tfind "type" ec = Some (TStr (kind_name q)) /\
    eb_len (el_base e) = get_num_def ec "L" dzero /\
    transfer_of num q ec = Ok T /\ ld_transfer (el_data e) = T /\
    (q <> KSource -> ld_istate (el_data e) = None) /\
    (q = KSource -> exists s, new_state ec = Ok s /\ ld_istate (el_data e) = Some s).
Proof.
  intros (k & nm & d & H1 & H2 & H3 & H4 & ->). cbn [si_elems lin_info] in H2.
  apply lin_find in H2 as (q & -> & _). simpl in *. unfold lin_ctor in H4.
  destruct (transfer_of num q ec) as [T|] eqn:ET; [|discriminate]. simpl in H4.
  exists q, T. split; [auto|]. split; [auto|]. split; [unfold get_num_def; destruct (tfind "L" ec) as [[]|]; auto|].
  split; [auto|]. destruct q; try (injection H4 as <-; simpl; split; [auto|split; [auto|discriminate]]).
  destruct (new_state ec) as [s|]; [|discriminate]. simpl in H4. injection H4 as <-. simpl.
  split; [auto|split; [congruence|eauto]].
Qed.
Lemma lin_described_elem j ec e : describes (lin_info num new_state apply base) j ec e -> lin_elem e.
Proof.
  intros H. apply lin_describes in H as (q & T & H1 & H2 & H3 & H4 & H5 & H6 & H7).
  exists q. split; auto. split.
  - intros E. destruct (H7 E) as (s & _ & ->). discriminate.
  - intros E. destruct q; auto; exfalso; apply E, H6; discriminate.
Qed.

End Lin.

Lemma reg_one {D B} (a t : string) (i : sinfo D B) x : sfind t [(a, i)] = Some x -> t = a /\ x = i.
Proof. intros H. apply sfind_In in H as [H|[]]. injection H as -> ->. auto. Qed.

(** What is known of a machine built from the registry of one linear type. *)
Lemma lin_machine num {V} new_state (apply : mat -> V -> V) base name c m :
  new_machine [(name, lin_info num new_state apply base)] c = Ok m ->
  exists es, tfind "elements" c = Some (TCfgs es) /\ tfind "sim_type" c = Some (TStr name) /\
    List.length (m_elems m) = List.length es /\
    (forall j ec e, nth_error es j = Some ec -> nth_error (m_elems m) j = Some e ->
       describes (lin_info num new_state apply base) j ec e) /\
    (forall e, In e (m_elems m) -> lin_elem num new_state apply base e).
Proof.
  intros H. apply new_machine_ok in H as (t & i & es & H1 & H2 & H3 & H4 & H5 & H6 & H7 & H8 & H9 & H10).
  destruct (reg_one _ _ _ _ H2) as [-> ->]. exists es. repeat (split; [solve [auto]|]).
   intros e He. apply In_nth_error in He as [j Hj].
  destruct (nth_error es j) as [ec|] eqn:E.
  - eapply lin_described_elem; eauto.
  - apply nth_error_None in E. assert (nth_error (m_elems m) j <> None) by congruence.
    apply nth_error_Some in H. lia.
Qed.

(** ** Vector against TransferMatrix *)
Section Two.
Variable num : double -> R.

Lemma same_passes (u : vec) (ev : list (elem (ldata vec) (lstate vec)))
    (em : list (elem (ldata mat) (lstate mat))) vs : forall sv sm,
  (forall i a b, In i vs -> nth_error ev i = Some a -> nth_error em i = Some b ->
     ld_istate (el_data a) = None /\ ld_istate (el_data b) = None /\
     ld_transfer (el_data a) = ld_transfer (el_data b) /\ eb_len (el_base a) = eb_len (el_base b)) ->
  List.length ev = List.length em ->
  ls_pos sv = ls_pos sm -> veq lsize (ls_val sv) (mapp lsize (ls_val sm) u) ->
  let fv := passes num (mapp lsize) ev vs sv in
  let fm := passes num (mmul lsize) em vs sm in
  ls_pos fv = ls_pos fm /\ veq lsize (ls_val fv) (mapp lsize (ls_val fm) u).
Proof.
  induction vs as [|i vs IH]; intros sv sm H HL Hp Hv; [simpl; auto|].
  cbn [passes fold_left]. apply IH; auto.
  - intros j a b Hj. apply H. right; auto.
  - destruct (nth_error ev i) as [a|] eqn:Ea, (nth_error em i) as [b|] eqn:Eb; auto.
    + destruct (H i a b (or_introl eq_refl) Ea Eb) as (H1 & H2 & H3 & H4).
      unfold step. rewrite H1, H2, H4. simpl. rewrite Hp. auto.
    + apply nth_error_None in Eb. assert (A : nth_error ev i <> None) by congruence. apply nth_error_Some in A. lia.
    + apply nth_error_None in Ea. assert (A : nth_error em i <> None) by congruence. apply nth_error_Some in A. lia.
  - destruct (nth_error ev i) as [a|] eqn:Ea, (nth_error em i) as [b|] eqn:Eb; auto.
    + destruct (H i a b (or_introl eq_refl) Ea Eb) as (H1 & H2 & H3 & H4).
      unfold step. rewrite H1, H2, H3. simpl. rewrite Hv. symmetry. apply mapp_mmul.
    + apply nth_error_None in Eb. assert (A : nth_error ev i <> None) by congruence. apply nth_error_Some in A. lia.
    + apply nth_error_None in Ea. assert (A : nth_error em i <> None) by congruence. apply nth_error_Some in A. lia.
Qed.

Lemma vector_matrix cv cm mv mm es start max sv sm u :
  tfind "elements" cv = Some (TCfgs es) -> tfind "elements" cm = Some (TCfgs es) ->
  new_machine (vector_reg num) cv = Ok mv -> new_machine (matrix_reg num) cm = Ok mm ->
  (N.of_nat (List.length es) <= SIZE_MAX)%N -> (INT_MIN < max <= INT_MAX)%Z ->
  no_source (m_elems mv) (visits (List.length es) start max) ->
  ls_pos (st_body sv) = ls_pos (st_body sm) ->
  veq lsize (ls_val (st_body sv)) (mapp lsize (ls_val (st_body sm)) u) ->
  exists pv pm fv fm,
    propagate mv sv start max = Some pv /\ pr_end pv = Ok fv /\
    propagate mm sm start max = Some pm /\ pr_end pm = Ok fm /\
    ls_pos (st_body fv) = ls_pos (st_body fm) /\
    veq lsize (ls_val (st_body fv)) (mapp lsize (ls_val (st_body fm)) u).
Proof.
  intros Hev Hem Hmv Hmm Hn Hmax Hs Hp Hv.
  apply lin_machine in Hmv as (es1 & A1 & _ & A2 & A3 & A4).
  apply lin_machine in Hmm as (es2 & B1 & _ & B2 & B3 & B4).
  assert (es1 = es) as -> by congruence. assert (es2 = es) as -> by congruence.
  destruct (lin_propagate _ _ _ _ mv sv start max A4) as (e1 & f1 & P1 & Q1); [rewrite A2; auto|auto|].
  destruct (lin_propagate _ _ _ _ mm sm start max B4) as (e2 & f2 & P2 & Q2); [rewrite B2; auto|auto|].
  eexists _, _, f1, f2. split; [exact P1|]. split; [reflexivity|]. split; [exact P2|]. split; [reflexivity|].
  rewrite Q1, Q2, A2, B2. apply same_passes; auto; [|congruence].
  intros i a b Hi Ha Hb.
  assert (Hle : (i < List.length es)%nat) by (eapply visits_bound; eauto).
  destruct (nth_error es i) as [ec|] eqn:E; [|apply nth_error_None in E; lia].
  destruct (lin_describes _ _ _ _ _ _ _ (A3 _ _ _ E Ha)) as (q & T & C1 & C2 & C3 & C4 & C5 & C6 & C7).
  destruct (lin_describes _ _ _ _ _ _ _ (B3 _ _ _ E Hb)) as (q' & T' & D1 & D2 & D3 & D4 & D5 & D6 & D7).
  assert (q = q').
  { rewrite C2 in D2. injection D2 as D2. destruct q, q'; simpl in D2; congruence. }
  subst q'. assert (Hq : q <> KSource).
  { intros ->. apply (Hs i a Hi Ha). unfold el_tname. rewrite C1. reflexivity. }
  repeat split; auto; congruence.
Qed.

(** ** Symplectic lines *)
Lemma optical_symplectic q c T :
  optical (kind_name q) -> transfer_of num q c = Ok T -> symplectic lsize T.
Proof.
  intros H. unfold optical in H. destruct q; simpl.
  - simpl in H. decompose [or] H; try discriminate; tauto.
  - intros [= <-]. apply symplectic_mid.
  - intros [= <-]. apply drift_symplectic.
  - destruct (get_num c "phi") as [p|]; simpl; [|discriminate]. intros [= <-]. apply sbend_symplectic.
  - intros [= <-]. apply quad_symplectic.
  - intros [= <-]. apply solenoid_symplectic.
  - simpl in H. decompose [or] H; try discriminate; tauto.
Qed.

Lemma line_symplectic c m start max s :
  new_machine (matrix_reg num) c = Ok m ->
  (N.of_nat (List.length (m_elems m)) <= SIZE_MAX)%N -> (INT_MIN < max <= INT_MAX)%Z ->
  (forall i e, In i (visits (List.length (m_elems m)) start max) -> nth_error (m_elems m) i = Some e ->
               optical (el_tname e) /\ proper_bend num (eb_conf (el_base e))) ->
  symplectic lsize (ls_val (st_body s)) ->
  exists p f, propagate m s start max = Some p /\ pr_end p = Ok f /\
    symplectic lsize (ls_val (st_body f)).
Proof.
  intros Hm Hn Hmax Ho Hs. apply lin_machine in Hm as (es & A1 & _ & A2 & A3 & A4).
  destruct (lin_propagate _ _ _ _ m s start max A4 Hn Hmax) as (e1 & f & P & Q).
  eexists _, f. split; [exact P|]. split; [reflexivity|]. rewrite Q.
  assert (Hb : forall i, In i (visits (List.length (m_elems m)) start max) -> (i < List.length es)%nat).
  { intros i Hi. rewrite <- A2. eapply visits_bound; eauto. }
  clear P Q f e1. revert Ho Hb Hs. generalize (st_body s). generalize (visits (List.length (m_elems m)) start max).
  induction l as [|i l IH]; intros b Ho Hb Hs; [exact Hs|].
  cbn [passes fold_left]. apply IH; [intros; eapply Ho; eauto; right; auto|intros; apply Hb; right; auto|].
  destruct (nth_error (m_elems m) i) as [e|] eqn:E; [|exact Hs].
  assert (Hi := Hb i (or_introl eq_refl)). destruct (Ho i e (or_introl eq_refl) E) as [Ho1 _]. clear Ho. rename Ho1 into Ho.
  destruct (nth_error es i) as [ec|] eqn:Eec; [|apply nth_error_None in Eec; lia].
  destruct (lin_describes _ _ _ _ _ _ _ (A3 _ _ _ Eec E)) as (q & T & C1 & C2 & C3 & C4 & C5 & C6 & C7).
  unfold el_tname in Ho. rewrite C1 in Ho. simpl in Ho.
  assert (Hq : q <> KSource).
  { intros ->. unfold optical in Ho. simpl in Ho. decompose [or] Ho; try discriminate; tauto. }
  unfold step. rewrite (C6 Hq), C5. simpl. apply symplectic_mmul; auto.
  eapply optical_symplectic; eauto.
Qed.

(** ** Splitting an entry of a lattice *)
Section Split.
Context {V : Type}.
Variable eqv : V -> V -> Prop.
Variable new_state : tcfg -> res (lstate V).
Variable apply : mat -> V -> V.
Variable base : nat.
Hypothesis eqv_refl : forall v, eqv v v.
Hypothesis eqv_trans : forall a b c, eqv a b -> eqv b c -> eqv a c.
Hypothesis apply_eqv : forall A B a b, meq lsize A B -> eqv a b -> eqv (apply A a) (apply B b).
Hypothesis apply_mul : forall A B v, eqv (apply (mmul lsize A B) v) (apply A (apply B v)).

Definition same_state (a b : lstate V) : Prop := ls_pos a = ls_pos b /\ eqv (ls_val a) (ls_val b).
Definition run (els : list (elem (ldata V) (lstate V))) (s : lstate V) : lstate V :=
  fold_left (fun s e => step num apply e s) els s.

Lemma passes_seq els : forall pre s,
  passes num apply (pre ++ els) (seq (List.length pre) (List.length els)) s = run els s.
Proof.
  induction els as [|e els IH]; intros pre s; [reflexivity|].
  cbn [List.length seq passes fold_left run].
  rewrite nth_error_app2, Nat.sub_diag by lia. simpl.
  specialize (IH (pre ++ [e]) (step num apply e s)). rewrite <- app_assoc in IH. simpl in IH.
  rewrite app_length in IH. simpl in IH. rewrite Nat.add_1_r in IH. exact IH.
Qed.

Lemma run_same els els' : forall s s',
  Forall2 (fun e e' => ld_istate (el_data e) = ld_istate (el_data e') /\
                       ld_transfer (el_data e) = ld_transfer (el_data e') /\
                       eb_len (el_base e) = eb_len (el_base e')) els els' ->
  same_state s s' -> same_state (run els s) (run els' s').
Proof.
  intros s s' H. revert s s'. induction H as [|e e' els els' (H1 & H2 & H3) H IH]; intros s s' Hs; simpl; auto.
  apply IH. unfold step. rewrite H1, H2, H3. destruct (ld_istate (el_data e')).
  - split; auto.
  - destruct Hs as [P1 P2]. split; simpl; [congruence|]. apply apply_eqv; auto. intros i j _ _; reflexivity.
Qed.

Notation made := (fun ec e => exists j, describes (lin_info num new_state apply base) j ec e).
Lemma made_same ec e e' : made ec e -> made ec e' ->
  ld_istate (el_data e) = ld_istate (el_data e') /\
  ld_transfer (el_data e) = ld_transfer (el_data e') /\
  eb_len (el_base e) = eb_len (el_base e').
Proof.
  intros (j & k & nm & d & H1 & H2 & H3 & H4 & ->) (j' & k' & nm' & d' & H1' & H2' & H3' & H4' & ->).
  rewrite H1 in H1'. injection H1' as E. rewrite E in H2. assert (k = k') by congruence. subst k'.
  assert (d = d') by congruence. subst d'. simpl. auto.
Qed.
Lemma made_all es : forall els j0,
  List.length els = List.length es ->
  (forall j ec e, nth_error es j = Some ec -> nth_error els j = Some e ->
     describes (lin_info num new_state apply base) (j0 + j)%nat ec e) ->
  Forall2 made es els.
Proof.
  induction es as [|ec es IH]; intros [|e els] j0 HL H; try discriminate; constructor.
  - exists (j0 + 0)%nat. apply H with (j := 0%nat); auto.
  - apply IH with (j0 := S j0); [simpl in HL; lia|]. intros j a b Ha Hb.
    replace (S j0 + j)%nat with (j0 + S j)%nat by lia. apply H; auto.
Qed.
Lemma made_twice es els els' : Forall2 made es els -> Forall2 made es els' ->
  Forall2 (fun e e' => ld_istate (el_data e) = ld_istate (el_data e') /\
                       ld_transfer (el_data e) = ld_transfer (el_data e') /\
                       eb_len (el_base e) = eb_len (el_base e')) els els'.
Proof.
  intros H. revert els'. induction H as [|ec e es els H Hs IH]; intros els' H'; inversion H'; subst; constructor.
  - eapply made_same; eauto.
  - auto.
Qed.

Lemma transfer_len q c :
  transfer_of num q c =
  match q with
  | KSource | KMark => Ok mid
  | KDrift => Ok (drift_matrix (length_of num c))
  | KSBend => rbind (get_num c "phi") (fun phi => Ok (sbend_matrix (length_of num c) (num phi) (strength_of num c)))
  | KQuad => Ok (quad_matrix (length_of num c) (strength_of num c))
  | KSolenoid => Ok (solenoid_matrix (length_of num c) (strength_of num c))
  | KGeneric => generic_matrix num c
  end.
Proof. destruct q; reflexivity. Qed.
Lemma cut_transfer c a b q T Ta Tb :
  cut num c a b -> tfind "type" c = Some (TStr (kind_name q)) ->
  transfer_of num q c = Ok T -> transfer_of num q a = Ok Ta -> transfer_of num q b = Ok Tb ->
  meq lsize T (mmul lsize Tb Ta).
Proof.
  intros (t & Ht & H1 & H2 & H3 & HL & HKa & HKb & Hphi & Bc & Ba & Bb) Hq.
  rewrite H1 in Hq. injection Hq as ->.
  assert (NZ : q = KSBend -> (forall p, tfind "phi" c = Some (TNum p) -> num p <> 0) /\
     (forall p, tfind "phi" a = Some (TNum p) -> num p <> 0) /\ (forall p, tfind "phi" b = Some (TNum p) -> num p <> 0)).
  { intros ->. split; [|split]; [apply Bc|apply Ba|apply Bb]; auto. }
  clear Bc Ba Bb.
  rewrite !transfer_len. generalize dependent (length_of num c). generalize dependent (strength_of num c).
  intros K HKa HKb l HL. rewrite HKa, HKb. clear HKa HKb. subst l.
  destruct q; unfold optical in Ht; simpl in *; try (exfalso; decompose [or] Ht; try discriminate; tauto); intros E Ea Eb.
  - injection E as <-; injection Ea as <-; injection Eb as <-. symmetry. apply mid_l.
  - injection E as <-; injection Ea as <-; injection Eb as <-. apply drift_split.
  - unfold get_num in *.
    destruct (tfind "phi" c) as [[p| | |]|] eqn:Pc; try discriminate.
    destruct (tfind "phi" a) as [[pa| | |]|] eqn:Pa; try discriminate.
    destruct (tfind "phi" b) as [[pb| | |]|] eqn:Pb; try discriminate.
    simpl in *. injection E as <-; injection Ea as <-; injection Eb as <-.
    destruct (Hphi eq_refl p pa pb eq_refl eq_refl eq_refl) as (F1 & F5).
    destruct (NZ eq_refl) as (F2 & F3 & F4).
    rewrite F1. apply sbend_split; auto. rewrite <- F1. auto.
  - injection E as <-; injection Ea as <-; injection Eb as <-. apply quad_split.
  - injection E as <-; injection Ea as <-; injection Eb as <-. apply solenoid_split.
Qed.

Lemma step_cut ec ea eb e a b s : cut num ec ea eb -> made ec e -> made ea a -> made eb b ->
  same_state (step num apply e s) (step num apply b (step num apply a s)).
Proof.
  intros Hc [j He] [ja Ha] [jb Hb]. assert (Hc' := Hc).
  destruct Hc' as (t & Ht & H1 & H2 & H3 & HL & _).
  destruct (lin_describes _ _ _ _ _ _ _ He) as (q & T & C1 & C2 & C3 & C4 & C5 & C6 & C7).
  destruct (lin_describes _ _ _ _ _ _ _ Ha) as (qa & Ta & A1 & A2 & A3 & A4 & A5 & A6 & A7).
  destruct (lin_describes _ _ _ _ _ _ _ Hb) as (qb & Tb & B1 & B2 & B3 & B4 & B5 & B6 & B7).
  assert (qa = q). { rewrite H1 in C2. rewrite H2 in A2. injection C2 as C2. injection A2 as A2.
                     destruct q, qa; simpl in *; congruence. }
  assert (qb = q). { rewrite H1 in C2. rewrite H3 in B2. injection C2 as C2. injection B2 as B2.
                     destruct q, qb; simpl in *; congruence. }
  subst qa qb.
  assert (Hq : q <> KSource).
  { intros ->. rewrite H1 in C2. injection C2 as ->. unfold optical in Ht; simpl in Ht. decompose [or] Ht; try discriminate; tauto. }
  assert (M := cut_transfer _ _ _ _ _ _ _ Hc C2 C4 A4 B4).
  unfold step. rewrite (C6 Hq), (A6 Hq), (B6 Hq), C3, A3, B3, C5, A5, B5. split; simpl.
  - unfold length_of in HL. unfold get_num_def. rewrite HL. ring.
  - eapply eqv_trans; [apply apply_eqv; [exact M|apply eqv_refl]|]. apply apply_mul.
Qed.

Lemma run_app l1 l2 s : run (l1 ++ l2) s = run l2 (run l1 s).
Proof. apply fold_left_app. Qed.

Lemma lattice_split name c c' m m' pre ec ea eb post st :
  new_machine [(name, lin_info num new_state apply base)] c = Ok m ->
  new_machine [(name, lin_info num new_state apply base)] c' = Ok m' ->
  tfind "elements" c = Some (TCfgs (pre ++ ec :: post)) ->
  tfind "elements" c' = Some (TCfgs (pre ++ ea :: eb :: post)) ->
  cut num ec ea eb ->
  (Z.of_nat (List.length (pre ++ ea :: eb :: post)) <= INT_MAX)%Z ->
  exists p p' f f',
    propagate m st 0 INT_MAX = Some p /\ pr_end p = Ok f /\
    propagate m' st 0 INT_MAX = Some p' /\ pr_end p' = Ok f' /\
    same_state (st_body f) (st_body f').
Proof.
  intros Hm Hm' He He' Hc Hn.
  apply lin_machine in Hm as (es1 & A1 & _ & A2 & A3 & A4).
  apply lin_machine in Hm' as (es2 & B1 & _ & B2 & B3 & B4).
  rewrite He in A1. injection A1 as <-. rewrite He' in B1. injection B1 as <-.
  assert (L : (List.length (pre ++ ec :: post) < List.length (pre ++ ea :: eb :: post))%nat)
    by (rewrite !app_length; simpl; lia).
  assert (MX : (INT_MIN < INT_MAX <= INT_MAX)%Z) by (unfold INT_MIN, INT_MAX; lia).
  destruct (lin_propagate _ _ _ _ m st 0 INT_MAX A4) as (e1 & f1 & P1 & Q1);
    [rewrite A2; unfold INT_MAX, SIZE_MAX in *; lia|auto|].
  destruct (lin_propagate _ _ _ _ m' st 0 INT_MAX B4) as (e2 & f2 & P2 & Q2);
    [rewrite B2; unfold INT_MAX, SIZE_MAX in *; lia|auto|].
  eexists _, _, f1, f2. split; [exact P1|]. split; [reflexivity|]. split; [exact P2|]. split; [reflexivity|].
  assert (VS : forall n, (Z.of_nat n <= INT_MAX)%Z -> visits n 0 INT_MAX = seq 0 n).
  { intros n Hle. unfold visits. destruct (N.ltb_spec 0 (N.of_nat n)).
    - replace (0 <=? INT_MAX)%Z with true by reflexivity. f_equal. change (N.to_nat 0) with 0%nat.
      rewrite Nat.sub_0_r. apply Nat.min_l. lia.
    - replace n with 0%nat by lia. reflexivity. }
  rewrite VS in Q1 by (rewrite A2; lia). rewrite VS in Q2 by (rewrite B2; lia).
  rewrite (passes_seq (m_elems m) [] (st_body st) : passes num apply (m_elems m) (seq 0 _) _ = _) in Q1.
  rewrite (passes_seq (m_elems m') [] (st_body st) : passes num apply (m_elems m') (seq 0 _) _ = _) in Q2.
  rewrite Q1, Q2.
  assert (F1 := made_all _ (m_elems m) 0 A2 A3). assert (F2 := made_all _ (m_elems m') 0 B2 B3).
  apply Forall2_app_inv_l in F1 as (x1 & y1 & X1 & Y1 & ->). apply Forall2_app_inv_l in F2 as (x2 & y2 & X2 & Y2 & ->).
  inversion Y1 as [|? e ? z1 Me Z1]; subst. inversion Y2 as [|? a ? z2 Ma Z2]; subst.
  inversion Z2 as [|? b ? z3 Mb Z3]; subst.
  rewrite !run_app. cbn [run fold_left]. apply run_same; [eapply made_twice; eauto|].
  fold (run x1 (st_body st)). fold (run x2 (st_body st)).
  assert (S1 : same_state (run x1 (st_body st)) (run x2 (st_body st))).
  { apply run_same; [eapply made_twice; eauto|]. split; auto. }
  assert (S2 := step_cut ec ea eb e a b (run x1 (st_body st)) Hc Me Ma Mb).
  assert (S3 : same_state (step num apply b (step num apply a (run x1 (st_body st))))
                          (step num apply b (step num apply a (run x2 (st_body st))))).
  { apply (run_same [a; b] [a; b]); auto. }
  destruct S2 as [S2a S2b], S3 as [S3a S3b]. split; [congruence|]. eapply eqv_trans; eauto.
Qed.
End Split.
End Two.

(** ** Reconfiguration *)
Lemma linear_reconfigured num {V} new_state (apply : mat -> V -> V) base name c m es us c' :
  let r := [(name, lin_info num new_state apply base)] in
  new_machine r c = Ok m -> tfind "elements" c = Some (TCfgs es) ->
  (forall e, In e (m_elems m) -> el_tname e <> "source") ->
  tfind "sim_type" c' = Some (TStr name) -> tfind "elements" c' = Some (TCfgs (entries m es us)) ->
  exists m2, new_machine r c' = Ok m2 /\
    forall st start max,
      option_map pr_end (propagate (uses m us) st start max)
      = option_map pr_end (propagate m2 st start max).
Proof.
  intros r Hm He Hs Hs' He'. assert (Hm' := Hm).
  apply lin_machine in Hm' as (es0 & A1 & A0 & A2 & A3 & A4).
  eapply (reconfigured_like_new r c m name (lin_info num new_state apply base) es us c'); auto.
  - unfold r. simpl. rewrite String.eqb_refl. reflexivity.
  - apply lin_tidy.
  - intros e Hin. destruct (A4 e Hin) as [k [E _]]. rewrite E. apply lin_transparent.
    intros ->. apply (Hs e Hin). unfold el_tname. rewrite E. reflexivity.
Qed.

(** ** Lattices for the examples and refutations *)
Definition lentry (nm ty : string) (more : smap tval) : tcfg :=
  TCfg (sset "name" (TStr nm) (sset "type" (TStr ty) more)) [].
Definition lconf (sim : string) (es : list tcfg) : tcfg :=
  TCfg [("elements", TCfgs es); ("sim_type", TStr sim)] [].
Definition half : double := ddiv done (dadd done done).
Definition line1 : list tcfg :=
  [lentry "d" "drift" [("L", TNum half)]; lentry "q" "quadrupole" [("K", TNum done); ("L", TNum half)];
   lentry "b" "sbend" [("L", TNum done); ("phi", TNum half)]; lentry "s" "solenoid" [("K", TNum done); ("L", TNum done)];
   lentry "m" "marker" []].
Lemma line1_vector num : exists m, new_machine (vector_reg num) (lconf "Vector" line1) = Ok m /\
  List.length (m_elems m) = 5%nat /\ (forall e, In e (m_elems m) -> optical (el_tname e)) /\
  (num done <> 0 -> num half <> 0 -> forall e, In e (m_elems m) -> proper_bend num (eb_conf (el_base e))).
Proof.
  eexists. split; [reflexivity|]. split; [reflexivity|]. cbn [m_elems app]. split.
  - intros e He. unfold optical. repeat (destruct He as [<-|He]; [simpl; tauto|]). destruct He.
  - intros H1 H2 e He. unfold proper_bend, length_of.
    repeat (destruct He as [<-|He]; [intros [=]; try (split; [exact H1|intros p [= <-]; exact H2])|]). destruct He.
Qed.
Lemma line1_matrix num : exists m, new_machine (matrix_reg num) (lconf "TransferMatrix" line1) = Ok m /\
  List.length (m_elems m) = 5%nat /\ (forall e, In e (m_elems m) -> optical (el_tname e)) /\
  (num done <> 0 -> num half <> 0 -> forall e, In e (m_elems m) -> proper_bend num (eb_conf (el_base e))).
Proof.
  eexists. split; [reflexivity|]. split; [reflexivity|]. cbn [m_elems app]. split.
  - intros e He. unfold optical. repeat (destruct He as [<-|He]; [simpl; tauto|]). destruct He.
  - intros H1 H2 e He. unfold proper_bend, length_of.
    repeat (destruct He as [<-|He]; [intros [=]; try (split; [exact H1|intros p [= <-]; exact H2])|]). destruct He.
Qed.
Lemma optical_not_source {D B} (els : list (elem D B)) vs :
  (forall e, In e els -> optical (el_tname e)) -> no_source els vs.
Proof.
  intros H i e _ E C. apply nth_error_In in E. specialize (H e E). rewrite C in H.
  unfold optical in H. simpl in H. decompose [or] H; try discriminate; tauto.
Qed.

Definition src_line (l : list double) : list tcfg := [lentry "src" "source" [("initial", TVec l)]].

Lemma C27_through_a_source_refuted_w num : num dzero = 0 -> num done = 1 ->
  exists mv mm pv pm fv fm u,
    new_machine (vector_reg num) (lconf "Vector" (src_line [dzero; done])) = Ok mv /\
    new_machine (matrix_reg num) (lconf "TransferMatrix" (src_line [dzero; done])) = Ok mm /\
    propagate mv (mkSt 0 false (mkLS 0 u)) 0 1 = Some pv /\ pr_end pv = Ok fv /\
    propagate mm (mkSt 0 false (mkLS 0 mid)) 0 1 = Some pm /\ pr_end pm = Ok fm /\
    ~ veq lsize (ls_val (st_body fv)) (mapp lsize (ls_val (st_body fm)) u).
Proof.
  intros H0 H1. do 6 eexists. exists (fun i => match i with O => 1 | _ => 0 end).
  split; [reflexivity|]. split; [reflexivity|]. split; [reflexivity|]. split; [reflexivity|].
  split; [reflexivity|]. split; [reflexivity|]. intros C.
  assert (L : (1 < lsize)%nat) by (unfold lsize; lia). specialize (C 1%nat L).
  assert (E : num done = 0).
  { etransitivity; [exact C|]. cbv [mapp sumn lsize]. unfold fill_matrix, mid. cbn. lra. }
  lra.
Qed.

Lemma C24_linear_source_refuted_w num : num dzero <> num done ->
  exists m m' m2 p p2 f f2,
    new_machine (vector_reg num) (lconf "Vector" (src_line [dzero])) = Ok m /\
    reconfigure m 0 (lentry "src" "source" [("initial", TVec [done])]) = (m', Ok tt) /\
    new_machine (vector_reg num) (lconf "Vector" (src_line [done])) = Ok m2 /\
    propagate m' (mkSt 0 false (mkLS 0 (fun _ => 0))) 0 1 = Some p /\ pr_end p = Ok f /\
    propagate m2 (mkSt 0 false (mkLS 0 (fun _ => 0))) 0 1 = Some p2 /\ pr_end p2 = Ok f2 /\
    ~ veq lsize (ls_val (st_body f)) (ls_val (st_body f2)).
Proof.
  intros H. do 7 eexists. repeat (split; [reflexivity|]).
  intros C. specialize (C 0%nat). apply H. apply C. unfold lsize. lia.
Qed.

Lemma linear_determinants l k phi i : i = 0%nat \/ i = 2%nat ->
  det2 (drift_matrix l) i = 1 /\ det2 (quad_matrix l k) i = 1 /\ det2 (sbend_matrix l phi k) i = 1.
Proof.
  intros [-> | ->]; (split; [|split]).
  1,4: cbv [det2 drift_matrix mset mid PS_X PS_PX PS_Y PS_PY Nat.eqb andb]; ring.
  all: cbv [det2 quad_matrix sbend_matrix get2by2 mset mid PS_X PS_PX PS_Y PS_PY Nat.eqb andb]; apply plane_det.
Qed.

Lemma split_vector num c c' m m' pre ec ea eb post st :
  new_machine (vector_reg num) c = Ok m -> new_machine (vector_reg num) c' = Ok m' ->
  tfind "elements" c = Some (TCfgs (pre ++ ec :: post)) ->
  tfind "elements" c' = Some (TCfgs (pre ++ ea :: eb :: post)) ->
  cut num ec ea eb ->
  (Z.of_nat (List.length (pre ++ ea :: eb :: post)) <= INT_MAX)%Z ->
  exists p p' f f',
    propagate m st 0 INT_MAX = Some p /\ pr_end p = Ok f /\
    propagate m' st 0 INT_MAX = Some p' /\ pr_end p' = Ok f' /\
    ls_pos (st_body f) = ls_pos (st_body f') /\ veq lsize (ls_val (st_body f)) (ls_val (st_body f')).
Proof.
  intros H1 H2 H3 H4 H5 H6.
  exact (lattice_split num (veq lsize) (new_vector num) (mapp lsize) 0
    (fun v => reflexivity v) (fun a b c0 => @transitivity _ _ _ a b c0)
    (fun A B a b HA Ha => ltac:(rewrite HA, Ha; reflexivity)) (mapp_mmul lsize)
    "Vector" c c' m m' pre ec ea eb post st H1 H2 H3 H4 H5 H6).
Qed.
Lemma split_matrix num c c' m m' pre ec ea eb post st :
  new_machine (matrix_reg num) c = Ok m -> new_machine (matrix_reg num) c' = Ok m' ->
  tfind "elements" c = Some (TCfgs (pre ++ ec :: post)) ->
  tfind "elements" c' = Some (TCfgs (pre ++ ea :: eb :: post)) ->
  cut num ec ea eb ->
  (Z.of_nat (List.length (pre ++ ea :: eb :: post)) <= INT_MAX)%Z ->
  exists p p' f f',
    propagate m st 0 INT_MAX = Some p /\ pr_end p = Ok f /\
    propagate m' st 0 INT_MAX = Some p' /\ pr_end p' = Ok f' /\
    ls_pos (st_body f) = ls_pos (st_body f') /\ meq lsize (ls_val (st_body f)) (ls_val (st_body f')).
Proof.
  intros H1 H2 H3 H4 H5 H6.
  exact (lattice_split num (meq lsize) (new_matrix num) (mmul lsize) 100
    (fun v => reflexivity v) (fun a b c0 => @transitivity _ _ _ a b c0)
    (fun A B a b HA Ha => ltac:(rewrite HA, Ha; reflexivity))
    (fun A B v => symmetry (mmul_assoc lsize A B v))
    "TransferMatrix" c c' m m' pre ec ea eb post st H1 H2 H3 H4 H5 H6).
Qed.

Lemma cut_example num : num done = 1 -> num half = / 2 -> num dzero = 0 ->
  let ec := lentry "q" "quadrupole" [("K", TNum done); ("L", TNum done)] in
  let eh := lentry "q" "quadrupole" [("K", TNum done); ("L", TNum half)] in
  let bc := lentry "b" "sbend" [("L", TNum done); ("phi", TNum done)] in
  let bh := lentry "b" "sbend" [("L", TNum half); ("phi", TNum half)] in
  cut num ec eh eh /\ cut num bc bh bh /\
  (exists m m', new_machine (vector_reg num) (lconf "Vector" (line1 ++ ec :: line1)) = Ok m /\
                new_machine (vector_reg num) (lconf "Vector" (line1 ++ eh :: eh :: line1)) = Ok m') /\
  (exists m m', new_machine (matrix_reg num) (lconf "TransferMatrix" (line1 ++ ec :: line1)) = Ok m /\
                new_machine (matrix_reg num) (lconf "TransferMatrix" (line1 ++ eh :: eh :: line1)) = Ok m').
Proof.
  intros H1 H2 H0 ec eh bc bh. split; [|split; [|split]].
  - exists "quadrupole". split; [unfold optical; simpl; tauto|]. repeat (split; [reflexivity|]).
    split; [unfold length_of; change (num done = num half + num half); lra|].
    split; [reflexivity|]. split; [reflexivity|]. split; [discriminate|].
    split; [|split]; intros [=].
  - exists "sbend". split; [unfold optical; simpl; tauto|]. repeat (split; [reflexivity|]).
    split; [unfold length_of; change (num done = num half + num half); lra|].
    split; [reflexivity|]. split; [reflexivity|].
    split; [|split; [|split; intros _]].
    2:{ intros _. split; [change (num done <> 0); lra|]. intros p [= <-]. rewrite H1. lra. }
    2,3: (split; [change (num half <> 0); lra|]); intros p [= <-]; rewrite H2; lra.
    intros _ p pa pb P1 P2 P3. injection P1 as <-. injection P2 as <-. injection P3 as <-.
    change (num done = num half + num half /\ num half * num half = num half * num half). lra.
  - eexists _, _. split; reflexivity.
  - eexists _, _. split; reflexivity.
Qed.
