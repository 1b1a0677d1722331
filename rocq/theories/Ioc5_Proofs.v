(** Simulations as they can be in an IOC, and the initialisation of records. *)
From Coq Require Import List String Ascii Bool NArith ZArith Arith Lia.
From Verif Require Import SMap SMap_Proofs Dbl Lexer_Model Config_Spec Machine_Model Machine_Spec Machine_Proofs Machine2_Proofs
  Util_Model Array_Model Array_Spec Array_Proofs Array2_Proofs Ioc_Model Ioc_Spec Ioc_Proofs Ioc4_Proofs.
Import ListNotations.
Open Scope string_scope.
Open Scope list_scope.

Section Serve.
Context {D B : Type}.
Variables (ab : abi) (kindof : B -> kind) (memof : B -> mem) (what : exn -> string).
Notation atomic := (atomic (D:=D) (B:=B) ab kindof memof).
Notation run_once := (run_once (D:=D) (B:=B) what).
Notation serves := (serves (D:=D) (B:=B) ab kindof memof what).
Implicit Types (s : vsim D B).

Lemma uses_snoc (m : machine D B) us u : uses m (us ++ [u]) = use1 (uses m us) u.
Proof. unfold uses. rewrite fold_left_app. reflexivity. Qed.
Lemma keep_snoc us : forall (m : machine D B) u, keep_names m us -> keeps_name (uses m us) u -> keep_names m (us ++ [u]).
Proof.
  induction us as [|v us IH]; intros m u H1 H2; simpl in *; auto. destruct H1 as [H1 H3]. split; [exact H1|]. apply IH; auto.
Qed.

Record sound (r : registry D B) s : Prop := {
  sd_uses : exists c m us, new_machine r c = Ok m /\ (N.of_nat (List.length (m_elems m)) <= SIZE_MAX)%N /\ keep_names m us /\
            v_machine s = uses m us;
  sd_named : forall j e, nth_error (m_elems (v_machine s)) j = Some e -> tfind "name" (eb_conf (el_base e)) = Some (TStr (el_name e));
  sd_index : forall j e, nth_error (m_elems (v_machine s)) j = Some e -> el_index e = N.of_nat j;
  sd_obs : forall j e, nth_error (m_elems (v_machine s)) j = Some e -> el_obs e = mfind (N.of_nat j) (v_measures s);
  sd_last : forall i o, mfind i (v_measures s) = Some o -> o < List.length (v_last s) /\ N.to_nat i < List.length (m_elems (v_machine s));
  sd_one : forall i j o, mfind i (v_measures s) = Some o -> mfind j (v_measures s) = Some o -> i = j
}.

Lemma mfind_app i l l' : mfind i (l ++ l') = match mfind i l with Some o => Some o | None => mfind i l' end.
Proof. induction l as [|[j o] l IH]; simpl; auto. destruct (N.eqb i j); auto. Qed.

Lemma views_length evs : forall (l l' : list (option (pstate B))), views l evs = Some l' -> List.length l' = List.length l.
Proof.
  induction evs as [|ev evs IH]; intros l l' H; simpl in H; [congruence|].
  destruct (viewed l _ _) as [l1|] eqn:E; [|discriminate]. rewrite (IH _ _ H). unfold viewed in E.
  destruct (nth_error l _) as [[old|]|]; [| |discriminate]; injection E as <-; apply update_length.
Qed.

Lemma static_nth (els els' : list (elem D B)) j e : map static els' = map static els -> nth_error els' j = Some e ->
  exists e0, nth_error els j = Some e0 /\ el_class e = el_class e0 /\ el_base e = el_base e0 /\ el_obs e = el_obs e0.
Proof.
  intros H E. apply (map_nth_error static) in E. rewrite H in E. rewrite nth_error_map in E.
  destruct (nth_error els j) as [e0|]; [|discriminate]. injection E as E1 E2 E3. exists e0. auto.
Qed.
Lemma static_length (els els' : list (elem D B)) : map static els' = map static els -> List.length els' = List.length els.
Proof. intros H. apply (f_equal (@List.length _)) in H. rewrite !map_length in H. auto. Qed.

(** What a run changes. *)
Lemma run_once_parts s s' : run_once s = Some s' ->
  (exists e, alloc_state (v_machine s) (TCfg [] []) = Throw e /\ caught e = true /\ s' = scan (set_bad what (set_dosim s false) e)) \/
  (exists st p l, alloc_state (v_machine s) (TCfg [] []) = Ok st /\ propagate (v_machine s) st 0 INT_MAX = Some p /\
     views (v_last s) (pr_events p) = Some l /\
     let s1 := set_last (set_elems (set_dosim s false) (pr_elems p)) l in
     ((exists st', pr_end p = Ok st' /\ s' = scan (set_good s1)) \/
      (exists e, pr_end p = Throw e /\ caught e = true /\ s' = scan (set_bad what s1 e)))).
Proof.
  unfold Ioc_Spec.run_once. destruct (alloc_state _ _) as [st|e] eqn:Ea.
  - destruct (propagate _ _ _ _) as [p|] eqn:Ep; [|discriminate]. destruct (views _ _) as [l|] eqn:Ev; [|discriminate].
    intros H. right. exists st, p, l. split; [auto|]. split; [auto|]. split; [auto|]. cbv zeta.
    destruct (pr_end p) as [st'|e]; [left; eexists; split; [reflexivity|congruence]|].
    right. destruct (caught e) eqn:Ec; [|discriminate]. exists e. split; [auto|]. split; [auto|]. congruence.
  - intros H. left. destruct (caught e) eqn:Ec; [|discriminate]. exists e. split; [auto|]. split; [auto|]. congruence.
Qed.

Lemma sound_measure r s i s' o : sound r s -> get_measure s i = Ok (s', o) -> sound r s' /\ only_watches s s' /\
  mfind i (v_measures s') = Some o.
Proof.
  intros S0 H. unfold get_measure in H. destruct (mfind i (v_measures s)) as [o0|] eqn:Em.
  - injection H as <- <-. split; auto. split; auto. unfold only_watches. repeat split; auto.
  - rewrite slot_nth in H. destruct (nth_error (m_elems (v_machine s)) (N.to_nat i)) as [e|] eqn:Ee; [|discriminate].
    destruct (el_obs e) eqn:Eo; [discriminate|]. injection H as <- <-.
    destruct S0 as [(c & m & us & H1 & H2 & H3 & H4) Hn Hi Ho Hl H1o].
    assert (Eset : set_observer (m_elems (v_machine s)) (N.to_nat i) (Some (List.length (v_last s))) =
      update (m_elems (v_machine s)) (N.to_nat i) (with_obs e (Some (List.length (v_last s))))).
    { unfold set_observer. rewrite Ee. reflexivity. }
    assert (Hmf : mfind i (v_measures s ++ [(i, List.length (v_last s))]) = Some (List.length (v_last s))).
    { rewrite mfind_app, Em. simpl. rewrite N.eqb_refl. reflexivity. }
    assert (Hii : N.of_nat (N.to_nat i) = i) by apply N2Nat.id.
    split; [constructor; simpl|split; [|exact Hmf]].
    + exists c, m, (us ++ [UObs (N.to_nat i) (Some (List.length (v_last s)))]). split; [exact H1|]. split; [exact H2|].
      split; [apply keep_snoc; auto; exact I|]. rewrite uses_snoc. rewrite <- H4. reflexivity.
    + rewrite Eset. intros j e' Hj. destruct (Nat.eq_dec (N.to_nat i) j) as [Ej|Ej].
      * subst j. rewrite (nth_update_eq _ _ _ _ Ee) in Hj. injection Hj as <-. apply (Hn _ _ Ee).
      * rewrite nth_update_neq in Hj by auto. eauto.
    + rewrite Eset. intros j e' Hj. destruct (Nat.eq_dec (N.to_nat i) j) as [Ej|Ej].
      * subst j. rewrite (nth_update_eq _ _ _ _ Ee) in Hj. injection Hj as <-. apply (Hi _ _ Ee).
      * rewrite nth_update_neq in Hj by auto. eauto.
    + rewrite Eset. intros j e' Hj. destruct (Nat.eq_dec (N.to_nat i) j) as [Ej|Ej].
      * subst j. rewrite (nth_update_eq _ _ _ _ Ee) in Hj. injection Hj as <-. simpl. rewrite Hii. auto.
      * rewrite nth_update_neq in Hj by auto. rewrite mfind_app. rewrite (Ho _ _ Hj).
        destruct (mfind (N.of_nat j) (v_measures s)); auto. simpl. destruct (N.eqb_spec (N.of_nat j) i) as [E|E]; auto. lia.
    + intros i' o' H'. rewrite mfind_app in H'. rewrite Eset, update_length, app_length. simpl.
      destruct (mfind i' (v_measures s)) as [o1|] eqn:E1.
      * injection H' as <-. destruct (Hl _ _ E1). lia.
      * simpl in H'. destruct (N.eqb_spec i' i) as [->|]; [|discriminate]. injection H' as <-.
        assert (N.to_nat i < List.length (m_elems (v_machine s))) by (apply nth_error_Some; congruence). lia.
    + intros i1 i2 o' A1 A2. rewrite mfind_app in A1, A2.
      destruct (mfind i1 (v_measures s)) as [o1|] eqn:E1, (mfind i2 (v_measures s)) as [o2|] eqn:E2.
      * eapply H1o; [rewrite E1; exact A1|rewrite E2; exact A2].
      * injection A1 as <-. simpl in A2. destruct (N.eqb i2 i); [|discriminate]. injection A2 as <-. destruct (Hl _ _ E1). lia.
      * injection A2 as <-. simpl in A1. destruct (N.eqb i1 i); [|discriminate]. injection A1 as <-. destruct (Hl _ _ E2). lia.
      * simpl in A1, A2. destruct (N.eqb_spec i1 i); [|discriminate]. destruct (N.eqb_spec i2 i); [congruence|discriminate].
    + unfold only_watches. simpl. repeat (split; [auto; fail|]). split; [|split; [auto|split]].
      * rewrite Eset. apply list_ext. intros j. rewrite !nth_error_map. destruct (Nat.eq_dec (N.to_nat i) j) as [Ej|Ej].
        -- subst j. rewrite (nth_update_eq _ _ _ _ Ee), Ee. reflexivity.
        -- rewrite nth_update_neq by auto. reflexivity.
      * intros i' o' H'. rewrite mfind_app, H'. reflexivity.
      * intros o' x H'. rewrite nth_error_app1; auto. apply nth_error_Some. congruence.
Qed.
Lemma watches_refl s : only_watches s s.
Proof. unfold only_watches. repeat split; auto. Qed.
Lemma watches_trans s1 s2 s3 : only_watches s1 s2 -> only_watches s2 s3 -> only_watches s1 s3.
Proof.
  intros (A1 & A2 & A3 & A4 & A5 & A6 & A7 & A8 & A9) (B1 & B2 & B3 & B4 & B5 & B6 & B7 & B8 & B9).
  unfold only_watches. repeat split; try congruence; eauto.
Qed.
Lemma measure_can s r i e : sound r s -> nth_error (m_elems (v_machine s)) (N.to_nat i) = Some e ->
  exists s' o, get_measure s i = Ok (s', o).
Proof.
  intros [_ _ _ Ho _ _] Ee. unfold get_measure. destruct (mfind i (v_measures s)) as [o0|] eqn:Em; [eauto|].
  rewrite slot_nth, Ee. rewrite (Ho _ _ Ee), N2Nat.id, Em. eauto.
Qed.

Lemma tfind_tset n n' v c : tfind n' (tset n v c) = if String.eqb n' n then Some v else tfind n' c.
Proof. unfold tfind, tset. cbn [town touter]. rewrite sfind_sset. destruct (String.eqb n' n); reflexivity. Qed.

Lemma sound_set r s i param x m u e : sound r s -> nth_error (m_elems (v_machine s)) (N.to_nat i) = Some e ->
  reconfigure (v_machine s) i (tset param (TNum x) (eb_conf (el_base e))) = (m, Ok u) -> sound r (set_machine s m).
Proof.
  intros [(c & m0 & us & H1 & H2 & H3 & H4) Hn Hi Ho Hl H1o] Ee R. pose proof R as R0.
  apply reconfigure_ok in R as (ob & t & k & nm & d & A1 & A2 & A3 & A4 & A5 & A6 & ->).
  rewrite Ee in A1. injection A1 as <-.
  assert (En : nm = el_name e).
  { rewrite tfind_tset in A4. destruct (String.eqb "name" param); [discriminate|]. rewrite (Hn _ _ Ee) in A4. congruence. }
  subst nm. assert (Hii : N.of_nat (N.to_nat i) = i) by apply N2Nat.id.
  constructor; simpl.
  - exists c, m0, (us ++ [UReconf i (tset param (TNum x) (eb_conf (el_base e)))]). split; [exact H1|]. split; [exact H2|].
    split.
    + apply keep_snoc; auto. intros e' He'. rewrite <- H4, Ee in He'. injection He' as <-. exact A4.
    + rewrite uses_snoc, <- H4. simpl. rewrite R0. reflexivity.
  - intros j e' Hj. destruct (Nat.eq_dec (N.to_nat i) j) as [Ej|Ej].
    + subst j. rewrite (nth_update_eq _ _ _ _ Ee) in Hj. injection Hj as <-. exact A4.
    + rewrite nth_update_neq in Hj by auto. eauto.
  - intros j e' Hj. destruct (Nat.eq_dec (N.to_nat i) j) as [Ej|Ej].
    + subst j. rewrite (nth_update_eq _ _ _ _ Ee) in Hj. injection Hj as <-. unfold el_index. simpl. auto.
    + rewrite nth_update_neq in Hj by auto. eauto.
  - intros j e' Hj. destruct (Nat.eq_dec (N.to_nat i) j) as [Ej|Ej].
    + subst j. rewrite (nth_update_eq _ _ _ _ Ee) in Hj. injection Hj as <-. simpl. eauto.
    + rewrite nth_update_neq in Hj by auto. eauto.
  - intros i' o' H'. rewrite update_length. eauto.
  - auto.
Qed.
Lemma sound_same r s s' : sound r s -> v_machine s' = v_machine s -> v_measures s' = v_measures s ->
  List.length (v_last s') = List.length (v_last s) -> sound r s'.
Proof. intros [H1 Hn Hi Ho Hl H1o] E1 E2 E3. constructor; rewrite ?E1, ?E2, ?E3; auto. Qed.

Lemma sound_do r s o s' x : sound r s -> atomic o s = Some (s', x) -> sound r s'.
Proof.
  intros S0 H. destruct o as [|i p a v|i p a|d a|d buf|d buf|n|]; cbn [Ioc_Spec.atomic] in H.
  - injection H as <- <-. eapply sound_same; eauto.
  - destruct (nth_error _ _) as [e|] eqn:Ee; [|injection H as <- <-; auto].
    destruct (reconfigure _ _ _) as [m [u|ex]] eqn:R.
    + injection H as <- <-. eapply sound_set; eauto.
    + destruct (caught ex); [|discriminate]. injection H as <- <-. auto.
  - injection H as <- <-. auto.
  - destruct (kept _ _ _ _ _ _ _) as [[v|]|]; [| |discriminate]; injection H as <- <-; auto.
  - destruct (collect _ _); [|discriminate]. injection H as <- <-. auto.
  - destruct (collect _ _); [|discriminate]. injection H as <- <-. auto.
  - injection H as <- <-. auto.
  - injection H as <- <-. eapply sound_same; eauto.
Qed.

Lemma sound_static r s s' : sound r s -> (exists st, v_machine s' = use1 (v_machine s) (UProp st 0 INT_MAX)) ->
  map static (m_elems (v_machine s')) = map static (m_elems (v_machine s)) -> v_measures s' = v_measures s ->
  List.length (v_last s') = List.length (v_last s) -> sound r s'.
Proof.
  intros [(c & m0 & us & H1 & H2 & H3 & H4) Hn Hi Ho Hl H1o] [st Eu] Es E2 E3.
  constructor; rewrite ?E2, ?E3.
  - exists c, m0, (us ++ [UProp st 0 INT_MAX]). split; [exact H1|]. split; [exact H2|]. split; [apply keep_snoc; auto; exact I|].
    rewrite uses_snoc, <- H4. exact Eu.
  - intros j e Hj. destruct (static_nth _ _ _ _ Es Hj) as (e0 & E0 & Q1 & Q2 & Q3). unfold el_name. rewrite Q2. apply (Hn _ _ E0).
  - intros j e Hj. destruct (static_nth _ _ _ _ Es Hj) as (e0 & E0 & Q1 & Q2 & Q3). unfold el_index. rewrite Q2. apply (Hi _ _ E0).
  - intros j e Hj. destruct (static_nth _ _ _ _ Es Hj) as (e0 & E0 & Q1 & Q2 & Q3). rewrite Q3. apply (Ho _ _ E0).
  - intros i o H. rewrite (static_length _ _ Es). auto.
  - auto.
Qed.
Lemma sound_run r s s' : sound r s -> run_once s = Some s' -> sound r s'.
Proof.
  intros S0 H. apply run_once_parts in H as [(e & Ha & Hc & ->)|(st & p & l & Ha & Hp & Hv & H)].
  - eapply sound_same; eauto.
  - pose proof (propagate_static _ _ _ _ _ Hp) as Hs. apply views_length in Hv.
    assert (Eu : with_elems (v_machine s) (pr_elems p) = use1 (v_machine s) (UProp st 0 INT_MAX)).
    { unfold use1. rewrite Hp. reflexivity. }
    destruct H as [(st' & He & ->)|(e & He & Hc & ->)]; (eapply sound_static; [exact S0|exists st; exact Eu|exact Hs|reflexivity|exact Hv]).
Qed.

Lemma sound_new (r : registry D B) c m : new_machine r c = Ok m -> (N.of_nat (List.length (m_elems m)) <= SIZE_MAX)%N -> sound r (new_sim m).
Proof.
  intros H HL. pose proof (new_machine_indexed _ _ _ H) as Hi.
  pose proof H as H0. apply new_machine_ok in H0 as (t & i & es & _ & _ & _ & _ & _ & _ & Hl & _ & _ & Hd).
  assert (De : forall j e, nth_error (m_elems m) j = Some e -> exists ec, describes i j ec e).
  { intros j e He. destruct (nth_error es j) as [ec|] eqn:Ec; [eauto|].
    apply nth_error_None in Ec. assert (j < List.length (m_elems m)) by (apply nth_error_Some; congruence). lia. }
  constructor; simpl.
  - exists c, m, []. split; [exact H|]. split; [exact HL|]. split; [exact I|reflexivity].
  - intros j e He. destruct (De _ _ He) as (ec & k & nm & d & _ & _ & Hn & _ & ->). exact Hn.
  - intros j e He. eapply indexed_nth; eauto.
  - intros j e He. destruct (De _ _ He) as (ec & k & nm & d & _ & _ & Hn & _ & ->). reflexivity.
  - discriminate.
  - discriminate.
Qed.
Lemma serves_sound r s : serves r s -> sound r s.
Proof.
  induction 1; [eapply sound_new; eauto| |eapply sound_do; eauto|eapply sound_run; eauto].
  eapply sound_measure; eauto.
Qed.

(** ** Elements by name *)
Lemma find_index_iff r s n k i e : sound r s -> (find_index s n k = Some (i, e) <->
  exists j, nth_error (slots_named n (m_elems (v_machine s))) (N.to_nat k) = Some j /\
            nth_error (m_elems (v_machine s)) j = Some e /\ i = N.of_nat j).
Proof.
  intros [(c & m & us & H1 & H2 & H3 & H4) _ Hi _ _ _].
  unfold find_index. rewrite find_is_nth, H4, (lookups_names _ _ _ _ H1 H2 H3), <- H4. split.
  - destruct (nth_error _ _) as [j|] eqn:E1; [|discriminate]. destruct (nth_error (m_elems (v_machine s)) j) as [e0|] eqn:E2; [|discriminate].
    intros [= <- <-]. exists j. repeat split; auto.
  - intros (j & -> & E2 & ->). rewrite E2. rewrite (Hi _ _ E2). reflexivity.
Qed.
Lemma types_slots r s t : sound r s -> equal_range_type (v_machine s) t = slots_typed t (m_elems (v_machine s)).
Proof. intros [(c & m & us & H1 & H2 & H3 & H4) _ _ _ _ _]. rewrite H4. eapply lookups_types; eauto. Qed.

(** ** Numbers in links *)
Lemma to_size_iff d n : to_size d = Some n <-> (number d <= SIZE_MAX)%N /\ n = number d.
Proof.
  unfold to_size, number. destruct (N.leb_spec (Z.to_N (digits_val (list_ascii_of_string d))) SIZE_MAX).
  - split; [intros [= <-]; auto|intros [_ ->]; auto].
  - split; [discriminate|lia].
Qed.


Lemma str_of (s : string) : string_of_list_ascii (list_ascii_of_string s) = s.
Proof. apply string_of_list_ascii_of_string. Qed.
Lemma size_none c n : group c n = None -> size_group c n = Some None.
Proof. unfold size_group. intros ->. reflexivity. Qed.
Lemma size_some c n d : group c n = Some d -> size_group c n = if N.leb (number d) SIZE_MAX then Some (Some (number d)) else None.
Proof. unfold size_group. intros ->. unfold to_size, number. destruct (N.leb _ _); reflexivity. Qed.
Lemma size_inst c n inst : group c n = inst ->
  size_group c n = if N.leb (inst_number inst) SIZE_MAX then Some (option_map number inst) else None.
Proof.
  destruct inst as [d|]; simpl.
  - intros H. rewrite (size_some _ _ _ H). reflexivity.
  - intros H. rewrite (size_none _ _ H). destruct (N.leb_spec 0 SIZE_MAX); [reflexivity|unfold SIZE_MAX in *; lia].
Qed.
Lemma or0_inst inst : or0 (option_map number inst) = inst_number inst.
Proof. destruct inst; reflexivity. Qed.
Definition dim_fst (d : dimtext) : option string := match d with D0 => None | D1 i => Some i | D2 i _ => Some i end.
Definition dim_snd (d : dimtext) : option string := match d with D2 _ j => Some j | _ => None end.
Lemma dims_of_text d : dims_of (option_map number (dim_fst d)) (option_map number (dim_snd d)) = dim_numbers d.
Proof. destruct d; reflexivity. Qed.
Lemma dim_small_iff d : dim_small d <-> ((inst_number (dim_fst d) <= SIZE_MAX)%N /\ (inst_number (dim_snd d) <= SIZE_MAX)%N).
Proof.
  unfold dim_small. assert (Z0 : (0 <= SIZE_MAX)%N) by (unfold SIZE_MAX; lia). destruct d as [|i|i j]; simpl.
  - split; auto.
  - split; [intros H; inversion H; auto|intros [H _]; repeat constructor; auto].
  - split; [intros H; inversion H as [|? ? H1 H2]; inversion H2; auto|intros [H H']; repeat constructor; auto].
Qed.

(** ** Settings *)
Lemma init_setting_iff r (g : simmap D B) link a dev v : (forall n s, sfind n g = Some s -> sound r s) ->
  (init_setting g link a = IOk (dev, v) <->
   exists sim el inst par s j e x,
     link = (sim ++ " " ++ el ++ bracket inst ++ " " ++ par)%string /\ ws sim /\ wn el /\ inst_ok inst /\ ws par /\
     sfind sim g = Some s /\ (inst_number inst <= SIZE_MAX)%N /\
     nth_error (slots_named el (m_elems (v_machine s))) (N.to_nat (inst_number inst)) = Some j /\
     nth_error (m_elems (v_machine s)) j = Some e /\ tfind par (eb_conf (el_base e)) = Some (TNum x) /\
     dev = mkSD sim (N.of_nat j) par /\ v = to_val a x).
Proof.
  intros G. unfold init_setting.
  assert (S1 : forall sim el inst par, str (set_caps sim el inst par) 1 = sim) by (intros sim el [d|] par; apply str_of).
  assert (S2 : forall sim el inst par, str (set_caps sim el inst par) 2 = el) by (intros sim el [d|] par; apply str_of).
  assert (S4 : forall sim el inst par, str (set_caps sim el inst par) 4 = par) by (intros sim el [d|] par; apply str_of).
  assert (S3 : forall sim el inst par, group (set_caps sim el inst par) 3 = inst).
  { intros sim el [d|] par; cbn [set_caps inst_caps group cap1 Nat.eqb]; rewrite ?str_of; reflexivity. }
  split.
  - destruct (regex_match setting_pat link) as [c|] eqn:E; [|discriminate].
    apply set_iff in E as (sim & el & inst & par & W1 & W2 & W3 & W4 & -> & ->). cbn [of_opt ibind].
    rewrite S1, S2, S4, (size_inst _ _ _ (S3 sim el inst par)). destruct (sfind sim g) as [s|] eqn:Es; [|discriminate]. cbn [of_opt ibind].
    destruct (N.leb_spec (inst_number inst) SIZE_MAX) as [L|]; [|discriminate]. cbn [of_opt ibind]. rewrite or0_inst.
    destruct (find_index s el (inst_number inst)) as [[i e]|] eqn:Ef; [|discriminate]. cbn [of_opt ibind].
    apply (find_index_iff r) in Ef as (j & F1 & F2 & ->); [|eauto].
    unfold get_num. destruct (tfind par _) as [[x| | |]|] eqn:Et; try discriminate. cbn [of_res ibind].
    intros [= <- <-]. exists sim, el, inst, par, s, j, e, x. repeat (split; [auto; fail|]). auto.
  - intros (sim & el & inst & par & s & j & e & x & -> & W1 & W2 & W3 & W4 & Es & L & F1 & F2 & Et & -> & ->).
    rewrite (proj2 (set_iff _ (set_caps sim el inst par))); [|exists sim, el, inst, par; repeat (split; [auto; fail|]); reflexivity].
    cbn [of_opt ibind]. rewrite S1, S2, S4, (size_inst _ _ _ (S3 sim el inst par)), Es. cbn [of_opt ibind].
    rewrite (proj2 (N.leb_le _ _) L). cbn [of_opt ibind]. rewrite or0_inst.
    rewrite (proj2 (find_index_iff r s el (inst_number inst) (N.of_nat j) e (G _ _ Es))) by eauto.
    cbn [of_opt ibind]. unfold get_num. rewrite Et. reflexivity.
Qed.
Lemma init_setting_defined (g : simmap D B) link a : init_setting g link a <> IUndef.
Proof.
  unfold init_setting. destruct (regex_match _ _); [|discriminate]. cbn [of_opt ibind]. destruct (sfind _ _); [|discriminate].
  cbn [of_opt ibind]. destruct (size_group _ _); [|discriminate]. cbn [of_opt ibind]. destruct (find_index _ _ _) as [[i e]|]; [|discriminate].
  cbn [of_opt ibind]. unfold get_num. destruct (tfind _ _) as [[]|]; discriminate.
Qed.

(** ** Indices *)
Lemma init_elem_iff r (g : simmap D B) link i : (forall n s, sfind n g = Some s -> sound r s) ->
  (init_elem g link = IOk i <->
   exists sim el inst s j,
     link = (sim ++ " " ++ el ++ bracket inst)%string /\ ws sim /\ wn el /\ inst_ok inst /\
     sfind sim g = Some s /\ (inst_number inst <= SIZE_MAX)%N /\
     nth_error (slots_named el (m_elems (v_machine s))) (N.to_nat (inst_number inst)) = Some j /\ i = N.of_nat j).
Proof.
  intros G. unfold init_elem.
  assert (S1 : forall sim el inst, str (elem_caps sim el inst) 1 = sim) by (intros sim el [d|]; apply str_of).
  assert (S2 : forall sim el inst, str (elem_caps sim el inst) 2 = el) by (intros sim el [d|]; apply str_of).
  assert (S3 : forall sim el inst, group (elem_caps sim el inst) 3 = inst).
  { intros sim el [d|]; cbn [elem_caps inst_caps group cap1 Nat.eqb]; rewrite ?str_of; reflexivity. }
  split.
  - destruct (regex_match elem_pat link) as [c|] eqn:E; [|discriminate].
    apply elem_iff in E as (sim & el & inst & W1 & W2 & W3 & -> & ->). cbn [of_opt ibind].
    rewrite S1, S2, (size_inst _ _ _ (S3 sim el inst)). destruct (sfind sim g) as [s|] eqn:Es; [|discriminate]. cbn [of_opt ibind].
    destruct (N.leb_spec (inst_number inst) SIZE_MAX) as [L|]; [|discriminate]. cbn [of_opt ibind]. rewrite or0_inst.
    destruct (find_index s el (inst_number inst)) as [[i0 e]|] eqn:Ef; [|discriminate]. cbn [of_opt ibind].
    apply (find_index_iff r) in Ef as (j & F1 & F2 & ->); [|eauto].
    intros [= <-]. exists sim, el, inst, s, j. repeat (split; [auto; fail|]). auto.
  - intros (sim & el & inst & s & j & -> & W1 & W2 & W3 & Es & L & F1 & ->).
    rewrite (proj2 (elem_iff _ (elem_caps sim el inst))); [|exists sim, el, inst; repeat (split; [auto; fail|]); reflexivity].
    cbn [of_opt ibind]. rewrite S1, S2, (size_inst _ _ _ (S3 sim el inst)), Es. cbn [of_opt ibind].
    rewrite (proj2 (N.leb_le _ _) L). cbn [of_opt ibind]. rewrite or0_inst.
    destruct (nth_error (m_elems (v_machine s)) j) as [e|] eqn:F2.
    + rewrite (proj2 (find_index_iff r s el (inst_number inst) (N.of_nat j) e (G _ _ Es))) by eauto. reflexivity.
    + exfalso. apply nth_error_In in F1. unfold slots_named, slots_where in F1. apply filter_In in F1 as [_ F1]. rewrite F2 in F1. discriminate.
Qed.
Lemma init_elem_defined (g : simmap D B) link : init_elem g link <> IUndef.
Proof.
  unfold init_elem. destruct (regex_match _ _); [|discriminate]. cbn [of_opt ibind]. destruct (sfind _ _); [|discriminate].
  cbn [of_opt ibind]. destruct (size_group _ _); [|discriminate]. cbn [of_opt ibind]. destruct (find_index _ _ _) as [[i e]|]; discriminate.
Qed.

(** ** Attributes *)
Lemma attr_type_iff kd i a : populated kd -> get_array ab kd i = AInfo a -> (a_type a = TSizet <-> a_name a = "next_elem").
Proof.
  intros P. destruct kd as [| |n].
  - do 3 (destruct i as [|i]; [cbn; intros [= <-]; cbn; split; congruence|]). cbn. destruct i; discriminate.
  - do 3 (destruct i as [|i]; [cbn; intros [= <-]; cbn; split; congruence|]). cbn. destruct i; discriminate.
  - destruct P as [P _]. destruct n as [|n]; [lia|].
    do 31 (destruct i as [|i]; [cbn; intros [= <-]; cbn; split; congruence|]). cbn. destruct i; discriminate.
Qed.
Lemma attr_count kd : List.length (attributes kd) <= 31.
Proof. destruct kd; simpl; lia. Qed.
Lemma attr_unique kd i j nm sh den sh' den' : nth_error (attributes kd) i = Some (nm, sh, den) ->
  nth_error (attributes kd) j = Some (nm, sh', den') -> i = j.
Proof.
  intros H1 H2. pose proof (names_distinct kd) as N. rewrite NoDup_nth_error in N. apply N.
  - rewrite map_length. apply nth_error_Some. congruence.
  - rewrite !nth_error_map, H1, H2. reflexivity.
Qed.
Lemma find_attr_iff kd par n : populated kd -> forall fuel idx, idx <= List.length (attributes kd) < idx + fuel ->
  (forall i sh den, i < idx -> nth_error (attributes kd) i <> Some (par, sh, den)) ->
  (find_attr ab fuel kd par n idx <> IUndef /\ forall k, find_attr ab fuel kd par n idx = IOk k <-> showable kd par n k).
Proof.
  intros P. induction fuel as [|fuel IH]; intros idx Hf Hn.
  - exfalso. lia.
  - simpl. pose proof (get_array_spec ab kd idx P) as G. destruct (get_array ab kd idx) as [a| |] eqn:Ga.
    + destruct (nth_error (attributes kd) idx) as [[[nm sh] den]|] eqn:E; [|destruct G].
      destruct G as (G1 & G2 & G3 & G4 & G5). destruct (String.eqb_spec (a_name a) par) as [Ep|Ep].
      * pose proof (attr_type_iff _ _ _ P Ga) as T. subst nm. rewrite Ep in *. destruct (a_type a).
        -- rewrite G2. destruct (Nat.eqb_spec (List.length sh) n) as [El|El]; (split; [discriminate|]).
           ++ intros k. split.
              ** intros [= <-]. exists sh, den. split; auto. split; auto. intros Hc. apply T in Hc. discriminate.
              ** intros (sh' & den' & H1 & _ & _). f_equal. eapply attr_unique; eauto.
           ++ intros k. split; [discriminate|]. intros (sh' & den' & H1 & _ & H2).
              assert (idx = k) by (eapply attr_unique; eauto). subst k. rewrite E in H1. injection H1 as <- <-. congruence.
        -- split; [discriminate|]. intros k. split; [discriminate|]. intros (sh' & den' & _ & H2 & _). destruct H2. apply T. reflexivity.
      * apply IH; [assert (idx < List.length (attributes kd)) by (apply nth_error_Some; congruence); lia|]. intros i sh' den' Hi H. destruct (Nat.eq_dec i idx) as [->|Hd].
        -- rewrite E in H. injection H as -> _ _. congruence.
        -- apply (Hn i sh' den'); auto. lia.
    + destruct (nth_error (attributes kd) idx) eqn:E; [destruct G|]. split; [discriminate|]. intros k. split; [discriminate|].
      intros (sh & den & H1 & _). exfalso. apply (Hn k sh den); auto.
      apply nth_error_None in E. assert (k < List.length (attributes kd)) by (apply nth_error_Some; congruence). lia.
    + destruct (nth_error (attributes kd) idx); destruct G.
Qed.
Lemma attr_number_iff s par dims k : fresh_ok kindof s ->
  (attr_number ab kindof s par dims = IOk k <->
   exists st, alloc_state (v_machine s) (TCfg [] []) = Ok st /\ showable (kindof (st_body st)) par (List.length dims) k).
Proof.
  intros F. unfold attr_number. split.
  - destruct (alloc_state _ _) as [st|e] eqn:E; [|simpl; destruct (caught e); discriminate]. cbn [of_res ibind]. intros H. exists st. split; auto.
    apply (find_attr_iff _ par (List.length dims) (F _ E) 100 0); auto; [pose proof (attr_count (kindof (st_body st))); lia|intros; lia].
  - intros (st & E & H). rewrite E. cbn [of_res ibind].
    apply (find_attr_iff _ par (List.length dims) (F _ E) 100 0); auto; [pose proof (attr_count (kindof (st_body st))); lia|intros; lia].
Qed.
Lemma attr_number_defined s par dims : fresh_ok kindof s -> fresh_defined s -> attr_number ab kindof s par dims <> IUndef.
Proof.
  intros F Fd. unfold attr_number. destruct (alloc_state _ _) as [st|e] eqn:E.
  - cbn [of_res ibind]. apply (find_attr_iff _ par (List.length dims) (F _ E) 100 0); [pose proof (attr_count (kindof (st_body st))); lia|intros; lia].
  - cbn [of_res]. rewrite (Fd _ E). discriminate.
Qed.
Lemma watches_alloc s s' c : only_watches s s' -> alloc_state (v_machine s') c = alloc_state (v_machine s) c.
Proof. intros (_ & _ & _ & _ & _ & _ & E & _). unfold alloc_state. rewrite E. reflexivity. Qed.
Lemma get_measures_ok r : forall l s, serves r s -> (forall j, In j l -> j < List.length (m_elems (v_machine s))) ->
  exists s', get_measures s l = Ok s' /\ serves r s' /\ only_watches s s' /\
    forall j, In j l -> exists o, mfind (N.of_nat j) (v_measures s') = Some o.
Proof.
  induction l as [|j l IH]; intros s Hs Hl.
  - exists s. simpl. split; auto. split; auto. split; [apply watches_refl|]. intros j [].
  - pose proof (serves_sound _ _ Hs) as S0. simpl.
    destruct (nth_error (m_elems (v_machine s)) j) as [e|] eqn:Ee.
    2:{ apply nth_error_None in Ee. specialize (Hl j (or_introl eq_refl)). lia. }
    rewrite (sd_index _ _ S0 _ _ Ee). destruct (measure_can s r (N.of_nat j) e) as (s1 & o & Em); auto; [rewrite Nat2N.id; auto|].
    rewrite Em. cbn [rbind]. destruct (sound_measure _ _ _ _ _ S0 Em) as (_ & W & Mf).
    assert (Len : List.length (m_elems (v_machine s1)) = List.length (m_elems (v_machine s))).
    { destruct W as (_ & _ & _ & _ & _ & E & _). apply (f_equal (@List.length _)) in E. rewrite !map_length in E. auto. }
    assert (V1 : serves r s1) by (eapply sv_measure; eauto).
    destruct (IH s1 V1) as (s2 & E2 & Hs2 & W2 & Hm2); [intros j1 Hj1; rewrite Len; apply Hl; right; auto|].
    exists s2. split; auto. split; auto. split; [eapply watches_trans; eauto|].
    intros j' [<-|Hj']; auto. exists o. destruct W2 as (_ & _ & _ & _ & _ & _ & _ & K & _). auto.
Qed.

(** ** Readings *)
Lemma init_state_group sim el inst par d :
  let c := state_caps sim el inst par d in
  str c 1 = sim /\ str c 2 = el /\ str c 4 = par /\ group c 3 = inst /\ group c 5 = dim_fst d /\ group c 6 = dim_snd d.
Proof.
  cbv zeta. unfold str. repeat split; destruct inst, d; cbn [state_caps dims_caps inst_caps cap1 group Nat.eqb dim_fst dim_snd]; rewrite ?str_of; reflexivity.
Qed.
Lemma size_dims c n m d : group c n = dim_fst d -> group c m = dim_snd d -> dim_small d ->
  size_group c n = Some (option_map number (dim_fst d)) /\ size_group c m = Some (option_map number (dim_snd d)).
Proof.
  intros G1 G2 Sm. apply dim_small_iff in Sm as [L1 L2]. rewrite (size_inst _ _ _ G1), (size_inst _ _ _ G2).
  rewrite (proj2 (N.leb_le _ _) L1), (proj2 (N.leb_le _ _) L2). auto.
Qed.

Lemma init_state_ok r (g g' : simmap D B) link dev : (forall n s, sfind n g = Some s -> serves r s /\ fresh_ok kindof s) ->
  init_state ab kindof g link = (g', IOk dev) ->
   exists sim el inst par d s j s' st,
     link = (sim ++ " " ++ el ++ bracket inst ++ " " ++ par ++ dim_text d)%string /\
     ws sim /\ wn el /\ inst_ok inst /\ wn par /\ dim_ok d /\
     sfind sim g = Some s /\ (inst_number inst <= SIZE_MAX)%N /\ dim_small d /\
     nth_error (slots_named el (m_elems (v_machine s))) (N.to_nat (inst_number inst)) = Some j /\
     alloc_state (v_machine s) (TCfg [] []) = Ok st /\
     showable (kindof (st_body st)) par (List.length (dim_numbers d)) (md_attr dev) /\
     g' = sset sim s' g /\ serves r s' /\ only_watches s s' /\
     md_sim dev = sim /\ md_index dev = N.of_nat j /\ md_dims dev = dim_numbers d /\
     mfind (N.of_nat j) (v_measures s') = Some (md_obs dev).
Proof.
  intros G H. unfold init_state in H. destruct (regex_match state_pat link) as [c|] eqn:E; [|discriminate].
  apply state_iff in E as (sim & el & inst & par & d & W1 & W2 & W3 & W4 & W5 & -> & ->).
  destruct (init_state_group sim el inst par d) as (S1 & S2 & S4 & S3 & S5 & S6).
  rewrite S1, S2, S4, (size_inst _ _ _ S3), (size_inst _ _ _ S5), (size_inst _ _ _ S6) in H.
  destruct (sfind sim g) as [s|] eqn:Es; [|discriminate]. destruct (G _ _ Es) as [Hs Hf].
  destruct (N.leb_spec (inst_number inst) SIZE_MAX) as [L|]; [|discriminate].
  destruct (N.leb_spec (inst_number (dim_fst d)) SIZE_MAX) as [L1|]; [|discriminate].
  destruct (N.leb_spec (inst_number (dim_snd d)) SIZE_MAX) as [L2|]; [|discriminate].
  rewrite or0_inst in H.
  destruct (find_index s el (inst_number inst)) as [[i e]|] eqn:Ef; [|discriminate].
  pose proof (serves_sound _ _ Hs) as S0. apply (find_index_iff r) in Ef as (j & F1 & F2 & ->); [|auto].
  destruct (get_measure s (N.of_nat j)) as [[s' o]|x] eqn:Em; [|destruct (caught x); discriminate].
  destruct (sound_measure _ _ _ _ _ S0 Em) as (S0' & W & Mf). rewrite dims_of_text in H.
  assert (Hf' : fresh_ok kindof s') by (intros st Hst; rewrite (watches_alloc _ _ _ W) in Hst; auto).
  destruct (attr_number ab kindof s' par (dim_numbers d)) as [k| |] eqn:Ek; cbn [ibind] in H; try discriminate.
  injection H as <- <-. apply attr_number_iff in Ek as (st & Est & Sh); [|auto]. rewrite (watches_alloc _ _ _ W) in Est.
  exists sim, el, inst, par, d, s, j, s', st. repeat (split; [auto; fail|]).
  split; [apply dim_small_iff; auto|]. repeat (split; [auto; fail|]). split; [econstructor; eauto|]. repeat (split; [auto; fail|]). auto.
Qed.
Lemma init_state_can r (g : simmap D B) sim el inst par d s j st k : serves r s -> fresh_ok kindof s ->
     ws sim -> wn el -> inst_ok inst -> wn par -> dim_ok d ->
     sfind sim g = Some s -> (inst_number inst <= SIZE_MAX)%N -> dim_small d ->
     nth_error (slots_named el (m_elems (v_machine s))) (N.to_nat (inst_number inst)) = Some j ->
     alloc_state (v_machine s) (TCfg [] []) = Ok st ->
     showable (kindof (st_body st)) par (List.length (dim_numbers d)) k ->
  exists g' dev, init_state ab kindof g (sim ++ " " ++ el ++ bracket inst ++ " " ++ par ++ dim_text d)%string = (g', IOk dev) /\
    md_attr dev = k.
Proof.
  intros Hs Hf W1 W2 W3 W4 W5 Es L Sm F1 Est Sh. unfold init_state.
  rewrite (proj2 (state_iff _ (state_caps sim el inst par d))); [|exists sim, el, inst, par, d; repeat (split; [auto; fail|]); reflexivity].
  destruct (init_state_group sim el inst par d) as (S1 & S2 & S4 & S3 & S5 & S6).
  rewrite S1, S2, S4, (size_inst _ _ _ S3), Es, (proj2 (N.leb_le _ _) L).
  destruct (size_dims _ _ _ _ S5 S6 Sm) as [-> ->]. rewrite or0_inst.
  pose proof (serves_sound _ _ Hs) as S0.
  assert (F2 : exists e, nth_error (m_elems (v_machine s)) j = Some e).
  { apply nth_error_In in F1. unfold slots_named, slots_where in F1. apply filter_In in F1 as [_ F1].
    destruct (nth_error _ j); [eauto|discriminate]. }
  destruct F2 as [e F2].
  rewrite (proj2 (find_index_iff r s el (inst_number inst) (N.of_nat j) e S0)) by eauto.
  destruct (measure_can s r (N.of_nat j) e) as (s1 & o & Em); auto; [rewrite Nat2N.id; auto|]. rewrite Em.
  destruct (sound_measure _ _ _ _ _ S0 Em) as (S0' & W & Mf). rewrite dims_of_text.
  assert (Hf' : fresh_ok kindof s1) by (intros st' Hst; rewrite (watches_alloc _ _ _ W) in Hst; auto).
  rewrite (proj2 (attr_number_iff s1 par (dim_numbers d) k Hf')); [|exists st; rewrite (watches_alloc _ _ _ W); auto].
  eexists _, _. split; [reflexivity|reflexivity].
Qed.
Lemma init_state_refused r (g g' : simmap D B) link x :
  (forall n s, sfind n g = Some s -> serves r s /\ fresh_ok kindof s /\ fresh_defined s) ->
  init_state ab kindof g link = (g', x) -> (forall dev, x <> IOk dev) ->
  x = IErr /\ (g' = g \/ exists sim s s', sfind sim g = Some s /\ g' = sset sim s' g /\ serves r s' /\ only_watches s s').
Proof.
  intros G H Hx. unfold init_state in H. destruct (regex_match state_pat link) as [c|] eqn:E; [|injection H as <- <-; auto].
  destruct (sfind (str c 1) g) as [s|] eqn:Es; [|injection H as <- <-; auto]. destruct (G _ _ Es) as (Hs & Hf & Hd).
  destruct (size_group c 3) as [o3|]; [|injection H as <- <-; auto].
  destruct (size_group c 5) as [o5|]; [|injection H as <- <-; auto].
  destruct (size_group c 6) as [o6|]; [|injection H as <- <-; auto].
  destruct (find_index s (str c 2) (or0 o3)) as [[i e]|] eqn:Ef; [|injection H as <- <-; auto].
  pose proof (serves_sound _ _ Hs) as S0. apply (find_index_iff r) in Ef as (j & F1 & F2 & ->); [|auto].
  destruct (measure_can s r (N.of_nat j) e) as (s1 & o & Em); auto; [rewrite Nat2N.id; auto|]. rewrite Em in H.
  destruct (sound_measure _ _ _ _ _ S0 Em) as (S0' & W & Mf).
  assert (Hf' : fresh_ok kindof s1) by (intros st' Hst; rewrite (watches_alloc _ _ _ W) in Hst; auto).
  assert (Hd' : fresh_defined s1) by (intros st' Hst; rewrite (watches_alloc _ _ _ W) in Hst; auto).
  pose proof (attr_number_defined s1 (str c 4) (dims_of o5 o6) Hf' Hd') as Nd.
  injection H as <- <-. destruct (attr_number _ _ _ _ _) as [k| |]; cbn [ibind] in *; [destruct (Hx _ eq_refl)| |congruence].
  split; auto. right. exists (str c 1), s, s1. repeat (split; [auto; fail|]). split; auto. econstructor; eauto.
Qed.

(** ** Orbits *)
Lemma init_orbit_group sim ty par d :
  let c := orbit_caps sim ty par d in
  str c 1 = sim /\ str c 2 = ty /\ str c 3 = par /\ group c 4 = dim_fst d /\ group c 5 = dim_snd d.
Proof.
  cbv zeta. unfold str. repeat split; destruct d; cbn [orbit_caps dims_caps cap1 group Nat.eqb dim_fst dim_snd]; rewrite ?str_of; reflexivity.
Qed.
Lemma typed_in t (els : list (elem D B)) j : In j (slots_typed t els) -> j < List.length els.
Proof. unfold slots_typed, slots_where. intros H. apply filter_In in H as [H _]. apply in_seq in H. lia. Qed.
Lemma init_orbit_ok r (g g' : simmap D B) link dev : (forall n s, sfind n g = Some s -> serves r s /\ fresh_ok kindof s) ->
  init_orbit ab kindof g link = (g', IOk dev) ->
   exists sim ty par d s s' st,
     link = (sim ++ " " ++ ty ++ " " ++ par ++ dim_text d)%string /\ ws sim /\ wn ty /\ wn par /\ dim_ok d /\
     sfind sim g = Some s /\ dim_small d /\ slots_typed ty (m_elems (v_machine s)) <> [] /\
     alloc_state (v_machine s) (TCfg [] []) = Ok st /\
     showable (kindof (st_body st)) par (List.length (dim_numbers d)) (od_attr dev) /\
     g' = sset sim s' g /\ serves r s' /\ only_watches s s' /\
     od_sim dev = sim /\ od_slots dev = slots_typed ty (m_elems (v_machine s)) /\ od_dims dev = dim_numbers d /\
     forall j, In j (od_slots dev) -> exists o, mfind (N.of_nat j) (v_measures s') = Some o.
Proof.
  intros G H. unfold init_orbit in H. destruct (regex_match orbit_pat link) as [c|] eqn:E; [|discriminate].
  apply orbit_iff in E as (sim & ty & par & d & W1 & W2 & W4 & W5 & -> & ->).
  destruct (init_orbit_group sim ty par d) as (S1 & S2 & S3 & S4 & S5).
  rewrite S1, S2, S3, (size_inst _ _ _ S4), (size_inst _ _ _ S5) in H.
  destruct (sfind sim g) as [s|] eqn:Es; [|discriminate]. destruct (G _ _ Es) as [Hs Hf].
  destruct (N.leb_spec (inst_number (dim_fst d)) SIZE_MAX) as [L1|]; [|discriminate].
  destruct (N.leb_spec (inst_number (dim_snd d)) SIZE_MAX) as [L2|]; [|discriminate].
  pose proof (serves_sound _ _ Hs) as S0. rewrite (types_slots r) in H by auto. rewrite dims_of_text in H.
  remember (slots_typed ty (m_elems (v_machine s))) as l eqn:El. destruct l as [|j0 l0]; [discriminate|].
  destruct (get_measures_ok r (j0 :: l0) s Hs) as (s' & E2 & Hs' & W & Hm).
  { intros j. rewrite El. apply typed_in. }
  rewrite E2 in H.
  assert (Hf' : fresh_ok kindof s') by (intros st Hst; rewrite (watches_alloc _ _ _ W) in Hst; auto).
  destruct (attr_number ab kindof s' par (dim_numbers d)) as [k| |] eqn:Ek; cbn [ibind] in H; try discriminate.
  injection H as <- <-. apply attr_number_iff in Ek as (st & Est & Sh); [|auto]. rewrite (watches_alloc _ _ _ W) in Est.
  exists sim, ty, par, d, s, s', st. rewrite <- El. repeat (split; [auto; fail|]).
  split; [apply dim_small_iff; auto|]. split; [discriminate|]. repeat (split; [auto; fail|]). auto.
Qed.
Lemma init_orbit_can r (g : simmap D B) sim ty par d s st k : serves r s -> fresh_ok kindof s ->
     ws sim -> wn ty -> wn par -> dim_ok d -> sfind sim g = Some s -> dim_small d ->
     slots_typed ty (m_elems (v_machine s)) <> [] ->
     alloc_state (v_machine s) (TCfg [] []) = Ok st -> showable (kindof (st_body st)) par (List.length (dim_numbers d)) k ->
  exists g' dev, init_orbit ab kindof g (sim ++ " " ++ ty ++ " " ++ par ++ dim_text d)%string = (g', IOk dev) /\ od_attr dev = k.
Proof.
  intros Hs Hf W1 W2 W4 W5 Es Sm Ne Est Sh. unfold init_orbit.
  rewrite (proj2 (orbit_iff _ (orbit_caps sim ty par d))); [|exists sim, ty, par, d; repeat (split; [auto; fail|]); reflexivity].
  destruct (init_orbit_group sim ty par d) as (S1 & S2 & S3 & S4 & S5).
  rewrite S1, S2, S3, Es. destruct (size_dims _ _ _ _ S4 S5 Sm) as [-> ->].
  pose proof (serves_sound _ _ Hs) as S0. rewrite (types_slots r) by auto. rewrite dims_of_text.
  remember (slots_typed ty (m_elems (v_machine s))) as l eqn:El. destruct l as [|j0 l0]; [congruence|].
  destruct (get_measures_ok r (j0 :: l0) s Hs) as (s' & E2 & Hs' & W & Hm).
  { intros j. rewrite El. apply typed_in. }
  rewrite E2.
  assert (Hf' : fresh_ok kindof s') by (intros st' Hst; rewrite (watches_alloc _ _ _ W) in Hst; auto).
  rewrite (proj2 (attr_number_iff s' par (dim_numbers d) k Hf')); [|exists st; rewrite (watches_alloc _ _ _ W); auto].
  eexists _, _. split; [reflexivity|reflexivity].
Qed.
Lemma init_orbit_refused r (g g' : simmap D B) link x :
  (forall n s, sfind n g = Some s -> serves r s /\ fresh_ok kindof s /\ fresh_defined s) ->
  init_orbit ab kindof g link = (g', x) -> (forall dev, x <> IOk dev) ->
  x = IErr /\ (g' = g \/ exists sim s s', sfind sim g = Some s /\ g' = sset sim s' g /\ serves r s' /\ only_watches s s').
Proof.
  intros G H Hx. unfold init_orbit in H. destruct (regex_match orbit_pat link) as [c|] eqn:E; [|injection H as <- <-; auto].
  destruct (sfind (str c 1) g) as [s|] eqn:Es; [|injection H as <- <-; auto]. destruct (G _ _ Es) as (Hs & Hf & Hd).
  destruct (size_group c 4) as [o5|]; [|injection H as <- <-; auto].
  destruct (size_group c 5) as [o6|]; [|injection H as <- <-; auto].
  pose proof (serves_sound _ _ Hs) as S0. rewrite (types_slots r) in H by auto.
  remember (slots_typed (str c 2) (m_elems (v_machine s))) as l eqn:El. destruct l as [|j0 l0]; [injection H as <- <-; auto|].
  destruct (get_measures_ok r (j0 :: l0) s Hs) as (s1 & E2 & Hs' & W & Hm).
  { intros j. rewrite El. apply typed_in. }
  rewrite E2 in H.
  assert (Hf' : fresh_ok kindof s1) by (intros st' Hst; rewrite (watches_alloc _ _ _ W) in Hst; auto).
  assert (Hd' : fresh_defined s1) by (intros st' Hst; rewrite (watches_alloc _ _ _ W) in Hst; auto).
  pose proof (attr_number_defined s1 (str c 3) (dims_of o5 o6) Hf' Hd') as Nd.
  injection H as <- <-. destruct (attr_number _ _ _ _ _) as [k| |]; cbn [ibind] in *; [destruct (Hx _ eq_refl)| |congruence].
  split; auto. right. exists (str c 1), s, s1. repeat (split; [auto; fail|]). auto.
Qed.

Lemma links_settings r (g : simmap D B) link a : (forall n s, sfind n g = Some s -> serves r s) ->
  init_setting g link a <> IUndef /\
  forall dev v, init_setting g link a = IOk (dev, v) <->
   exists sim el inst par s j e x,
     link = (sim ++ " " ++ el ++ bracket inst ++ " " ++ par)%string /\ ws sim /\ wn el /\ inst_ok inst /\ ws par /\
     sfind sim g = Some s /\ (inst_number inst <= SIZE_MAX)%N /\
     nth_error (slots_named el (m_elems (v_machine s))) (N.to_nat (inst_number inst)) = Some j /\
     nth_error (m_elems (v_machine s)) j = Some e /\ tfind par (eb_conf (el_base e)) = Some (TNum x) /\
     dev = mkSD sim (N.of_nat j) par /\ v = to_val a x.
Proof.
  intros G. split; [apply init_setting_defined|]. intros dev v. apply (init_setting_iff r).
  intros n s H. apply serves_sound. eauto.
Qed.
Lemma links_elems r (g : simmap D B) link : (forall n s, sfind n g = Some s -> serves r s) ->
  init_elem g link <> IUndef /\
  forall i, init_elem g link = IOk i <->
   exists sim el inst s j,
     link = (sim ++ " " ++ el ++ bracket inst)%string /\ ws sim /\ wn el /\ inst_ok inst /\
     sfind sim g = Some s /\ (inst_number inst <= SIZE_MAX)%N /\
     nth_error (slots_named el (m_elems (v_machine s))) (N.to_nat (inst_number inst)) = Some j /\ i = N.of_nat j.
Proof.
  intros G. split; [apply init_elem_defined|]. intros i. apply (init_elem_iff r).
  intros n s H. apply serves_sound. eauto.
Qed.

(** ** flamePrepare *)
Lemma prepare_ok (r : registry D B) g name conf g' x : prepare r g name conf = (g', x) ->
  (g' = g /\ x <> IOk tt) \/
  (exists c m, sfind name g = None /\ conf = Some c /\ new_machine r c = Ok m /\ g' = sset name (new_sim m) g /\ x = IOk tt).
Proof.
  unfold prepare. destruct (sfind name g) eqn:E; [intros [= <- <-]; left; split; auto; discriminate|].
  destruct conf as [c|]; [|intros [= <- <-]; left; split; auto; discriminate].
  destruct (new_machine r c) as [m|e] eqn:Em.
  - intros [= <- <-]. right. eauto 8.
  - intros [= <- <-]. left. split; auto. destruct (caught e); discriminate.
Qed.
End Serve.
