(** What the records of a generated database find in the simulation. *)
From Coq Require Import List String Ascii Bool NArith ZArith Arith Lia.
From Verif Require Import SMap SMap_Proofs Dbl Lexer_Model Config_Spec Machine_Model Machine_Spec Machine_Proofs Machine2_Proofs Machine3_Proofs
  Util_Model Array_Model Array_Spec Array3_Proofs Ioc_Model Ioc_Spec Ioc3_Proofs Ioc4_Proofs Ioc5_Proofs Ioc6_Proofs
  Gen_Model Gen_Spec Gen_Proofs Gen2_Proofs Gen3_Proofs.
Import ListNotations.
Open Scope string_scope.
Open Scope list_scope.
Local Notation la := list_ascii_of_string.

Lemma inner_no c : inner c = true -> unbracketed c = true /\ c <> "$"%char.
Proof.
  assert (X : forall c, (implb (inner c) (unbracketed c && negb (Ascii.eqb c "$")) = true)%bool).
  { intros [a b d e f g h i]. destruct a, b, d, e, f, g, h, i; vm_compute; reflexivity. }
  intros H. specialize (X c). rewrite H in X. cbn in X. apply andb_true_iff in X as [X1 X2]. split; auto.
  apply negb_true_iff in X2. apply Ascii.eqb_neq. auto.
Qed.
Lemma element_wn n : element_name n -> wn n /\ ~ In "$"%char (la n).
Proof.
  intros (N & F & _). rewrite forallb_forall in F. split; [split; auto; apply forallb_forall; intros c I; apply inner_no; auto|].
  intros I. destruct (inner_no _ (F _ I)) as [_ X]. congruence.
Qed.
Lemma inst_props k : inst_ok (inst k) /\ inst_number (inst k) = N.of_nat k.
Proof. destruct k as [|k]; [split; [exact I|reflexivity]|]. exact (dec_word (S k)). Qed.

Lemma emit_rows is_file es o : emit default_mangler is_file es = Some (Ok o) -> exists all gs,
  o = mkOut (("common.template", all) :: map (fun g => (fst g ++ ".template", snd g)%string) gs) (markers es) /\
  Forall2 (row_of es) (covered is_file es) all /\ NoDup (map w_rname all) /\ NoDup (map fst gs) /\
  (forall t ws, In (t, ws) gs -> ws = filter (fun w => String.eqb (g_type (w_elem w)) t) all /\ ws <> []) /\
  (forall w, In w all -> is_file (g_type (w_elem w)) = true).
Proof.
  destruct (rows_slots is_file es) as (all & R & F).
  destruct (rows_some default_mangler is_file es []) as (l & R' & M & ND & _). rewrite R in R'. injection R' as <-.
  destruct (groups_spec all) as (G1 & G2 & _). unfold emit. rewrite R. intros E. exists all, (groups all).
  destruct (groups all) as [|g gs] eqn:Eg; [discriminate|]. injection E as <-. split; auto. split; auto. split; auto. split; auto. split; auto.
  intros w I. apply (in_map w_elem) in I. rewrite M in I. apply filter_In in I as [_ I]. exact I.
Qed.
Lemma row_good es j w : (forall e, In e es -> element_name (g_name e)) -> row_of es j w -> good_row w.
Proof.
  intros N (e & En & ->). split; [eexists; reflexivity|]. cbn [row_name w_elem]. apply element_wn, N. eapply nth_error_In; eauto.
Qed.
Lemma Forall2_In_r {A C} (R : A -> C -> Prop) l m c : Forall2 R l m -> In c m -> exists a, In a l /\ R a c.
Proof. induction 1; intros []; subst; [eexists; split; [left|]; eauto|]. destruct IHForall2 as (a & I & H'); auto. exists a. split; [right|]; auto. Qed.

Lemma Forall2_weaken {A C} (R Q : A -> C -> Prop) l m : (forall a c, R a c -> Q a c) -> Forall2 R l m -> Forall2 Q l m.
Proof. intros H. induction 1; constructor; auto. Qed.

(** ** Names *)
Lemma names_of pref sim es o : (forall e, In e es -> element_name (g_name e) /\ g_type e <> "common") ->
  emit default_mangler has_template es = Some (Ok o) -> exists recs, database pref sim o = Some recs /\ NoDup (map r_name recs).
Proof.
  intros N E. destruct (emit_rows _ _ _ E) as (all & gs & -> & F & ND & NG & T & H).
  assert (G : forall w, In w all -> good_row w).
  { intros w I. destruct (Forall2_In_r _ _ _ _ F I) as (j & _ & R). eapply row_good; eauto. intros e Ie. apply N, Ie. }
  assert (C : forall w, In w all -> g_type (w_elem w) <> "common").
  { intros w I. destruct (Forall2_In_r _ _ _ _ F I) as (j & _ & e & Ej & ->). apply N. eapply nth_error_In; eauto. }
  assert (T' : forall t ws, In (t, ws) gs -> has_template t = true /\ t <> "common" /\ ws = filter (fun w => String.eqb (g_type (w_elem w)) t) all).
  { intros t ws I. destruct (T t ws I) as [-> Ne]. destruct (filter (fun w => String.eqb (g_type (w_elem w)) t) all) as [|w r] eqn:Ef; [congruence|].
    assert (Iw : In w all /\ String.eqb (g_type (w_elem w)) t = true) by (apply (filter_In (fun w => String.eqb (g_type (w_elem w)) t)); rewrite Ef; left; auto).
    destruct Iw as [Iw Et]. apply String.eqb_eq in Et. split; [rewrite <- Et; auto|]. split; [rewrite <- Et; auto|reflexivity]. }
  exists (whole pref sim all gs). split; [|apply names_distinct; auto]. apply database_ok; auto.
  intros t ws I. destruct (T' t ws I) as (A & B & ->). split; auto. split; auto. intros w Iw. apply filter_In in Iw. tauto.
Qed.

Definition initialises {D B} ab kindof (g : simmap D B) (r : rec) : Prop :=
  if String.eqb (r_dtyp r) "FLAME Index" then exists i, init_elem g (r_link r) = IOk i
  else if String.eqb (r_dtyp r) "FLAME State" then exists g' d, init_state ab kindof g (r_link r) = (g', IOk d)
  else if String.eqb (r_dtyp r) "FLAME Setting" then forall a, exists d v, init_setting g (r_link r) a = IOk (d, v)
  else if (String.eqb (r_dtyp r) "FLAME State Orbit" || String.eqb (r_dtyp r) "FLAME Index Orbit")%bool then
    exists g' d, init_orbit ab kindof g (r_link r) = (g', IOk d)
  else if String.eqb (r_dtyp r) "" then True
  else exists s, sfind (r_link r) g = Some s.
Lemma starts_iff {D B} ab kindof (g : simmap D B) r : initialises ab kindof g r -> exists g', starts ab kindof g r g'.
Proof.
  unfold initialises, starts. repeat match goal with |- (if ?b then _ else _) -> _ => destruct b end; eauto.
Qed.

(** ** Records by what they want *)
Definition showing (rest : string) : Prop := exists par d, rest = (" " ++ par ++ dim_text d)%string /\ wn par /\ dim_ok d /\ dim_small d /\
  forall n, exists k, showable (KMoment n) par (List.length (dim_numbers d)) k.
Lemma showable_in kd par sh den n : In (par, sh, den) (attributes kd) -> par <> "next_elem" -> List.length sh = n -> exists k, showable kd par n k.
Proof. intros I N L. apply In_nth_error in I as [k I]. exists k, sh, den. auto. Qed.
Ltac word_ok := split; [discriminate|reflexivity].
Ltac here := first [left; reflexivity|right; here].
Ltac show par d := exists par, d; split; [reflexivity|]; split; [word_ok|]; split; [first [exact I|word_ok]|]; split;
  [repeat constructor; vm_compute; discriminate|intros n; eapply showable_in; [cbn [attributes app base_attrs]; here|discriminate|reflexivity]].
Ltac shown := first [show "pos" D0|show "ref_IonEk" D0|show "ref_phis" D0|show "IonEk" (D1 "0")|show "phis" (D1 "0")
  |show "moment0_env" (D1 "0")|show "moment0_env" (D1 "1")|show "moment0_env" (D1 "2")|show "moment0_env" (D1 "3")|show "moment0_env" (D1 "4")|show "moment0_env" (D1 "5")
  |show "moment0_rms" (D1 "0")|show "moment0_rms" (D1 "1")|show "moment0_rms" (D1 "2")|show "moment0_rms" (D1 "3")|show "moment0_rms" (D1 "4")|show "moment0_rms" (D1 "5")].
Definition wants (t : string) (r : rec) : Prop :=
  (r_dtyp r = "FLAME Index" /\ r_link r <> "" /\ elem_rest r = "") \/ r_dtyp r = "" \/
  (r_dtyp r = "FLAME State" /\ r_link r <> "" /\ showing (elem_rest r)) \/
  (r_dtyp r = "FLAME Setting" /\ r_link r <> "" /\ exists p, In p (wanted t) /\ ws p /\ elem_rest r = (" " ++ p)%string).
Ltac setting p := exists p; split; [here|]; split; [word_ok|reflexivity].
Ltac wanting := first [left; split; [reflexivity|split; [discriminate|reflexivity]]|right; left; reflexivity
  |right; right; left; split; [reflexivity|split; [discriminate|shown]]
  |right; right; right; split; [reflexivity|split; [discriminate|first [setting "phi"|setting "V"|setting "B2"|setting "scl_fac"|setting "B3"|setting "B"]]]].
Lemma common_wants t : Forall (wants t) common_template.
Proof. unfold common_template. repeat (constructor; [wanting|]). constructor. Qed.
Lemma types_wants : Forall (fun p => Forall (wants (fst p)) (snd p)) shipped.
Proof. unfold shipped. repeat (constructor; [cbn [fst snd]; repeat (constructor; [wanting|]); constructor|]). constructor. Qed.
Definition top_wants (r : rec) : Prop :=
  (~ In (r_dtyp r) ["FLAME Index"; ""; "FLAME State"; "FLAME Setting"; "FLAME State Orbit"; "FLAME Index Orbit"] /\ sim_rest r = "") \/
  (In (r_dtyp r) ["FLAME State Orbit"; "FLAME Index Orbit"] /\ exists u, sim_rest r = (" marker" ++ u)%string /\ showing u).
Ltac topping u := right; split; [here|exists u; split; [reflexivity|shown]].
Lemma tops_want : Forall top_wants (core_db ++ orbit_db).
Proof.
  unfold core_db, orbit_db. cbn [app].
  repeat (constructor; [first [left; split; [cbn [In r_dtyp]; intuition discriminate|reflexivity]
    |topping " pos"|topping " ref_IonEk"|topping " ref_phis"|topping " IonEk[0]"|topping " phis[0]"|topping " moment0_env[0]"|topping " moment0_env[1]"
    |topping " moment0_env[2]"|topping " moment0_env[3]"|topping " moment0_env[4]"|topping " moment0_env[5]"]|]). constructor.
Qed.

Section Finds.
Context {D B : Type}.
Variables (ab : abi) (kindof : B -> kind) (memof : B -> mem) (what : exn -> string).
Notation serves := (serves ab kindof memof what).

Lemma sound_size r (s : vsim D B) : sound r s -> (N.of_nat (List.length (m_elems (v_machine s))) <= SIZE_MAX)%N.
Proof. intros [(c & m & us & _ & L & _ & ->) _ _ _ _ _]. rewrite uses_length. exact L. Qed.
Lemma filter_length_le' {A} (f : A -> bool) l : List.length (filter f l) <= List.length l.
Proof. induction l; cbn; auto. destruct (f a); cbn; lia. Qed.
Lemma before_lt es j n : j < List.length es -> before es j n < List.length es.
Proof. intros L. unfold before. pose proof (filter_length_le' (fun e => String.eqb (g_name e) n) (firstn j es)). rewrite firstn_length in H. lia. Qed.

(** ** Resolution *)
Lemma resolves r (g : simmap D B) sim s es is_file o :
  (forall n s, sfind n g = Some s -> serves r s) -> sfind sim g = Some s -> ws sim -> same_elements s es ->
  (forall e, In e es -> element_name (g_name e)) -> emit default_mangler is_file es = Some (Ok o) ->
  exists all rest, o_sections o = ("common.template", all) :: rest /\
    Forall2 (fun j w => nth_error es j = Some (w_elem w) /\ init_elem g (sim ++ " " ++ w_ename w) = IOk (N.of_nat j)) (covered is_file es) all.
Proof.
  intros G Es W Sm N E. destruct (emit_rows _ _ _ E) as (all & gs & -> & F & _). eexists _, _. split; [reflexivity|].
  eapply Forall2_weaken; [|exact F]. intros j w (e & En & ->). cbn [w_elem w_ename]. split; auto.
  destruct (element_wn _ (N e (nth_error_In _ _ En))) as [Wn _]. destruct (inst_props (before es j (g_name e))) as [Io In'].
  assert (L : j < List.length es) by (apply nth_error_Some; congruence). pose proof (before_lt es j (g_name e) L).
  assert (SD : forall n s, sfind n g = Some s -> sound r s) by (intros n0 s0 H0; eapply serves_sound; eauto).
  pose proof (sound_size r s (SD _ _ Es)) as Z. rewrite (same_length s es Sm) in Z.
  apply (init_elem_iff r); auto. exists sim, (g_name e), (inst (before es j (g_name e))), s, j.
  split; [reflexivity|]. do 4 (split; auto). rewrite In'. split; [lia|]. rewrite Nat2N.id. split; auto. apply slot_of; auto.
Qed.

(** ** Acceptance *)
Section Accept.
Variables (r0 : registry D B) (g : simmap D B) (sim : string) (s : vsim D B) (st : pstate B) (n : nat) (es : list gelem).
Hypothesis G : forall n s, sfind n g = Some s -> serves r0 s /\ fresh_ok kindof s.
Hypothesis Es : sfind sim g = Some s.
Hypothesis W : ws sim.
Hypothesis Sm : same_elements s es.
Hypothesis Nm : forall e, In e es -> element_name (g_name e).
Hypothesis St : alloc_state (v_machine s) (TCfg [] []) = Ok st.
Hypothesis Kd : kindof (st_body st) = KMoment n.
Hypothesis Eq : equipped s.

Lemma row_accepts j w p r : row_of es j w -> wants (g_type (w_elem w)) r -> initialises ab kindof g (loaded sim p (w_ename w) r).
Proof.
  intros (e & En & ->) Wt. cbn [w_elem w_ename] in *.
  destruct (element_wn _ (Nm e (nth_error_In _ _ En))) as [Wn _]. destruct (inst_props (before es j (g_name e))) as [Io In'].
  assert (L : j < List.length es) by (apply nth_error_Some; congruence). pose proof (before_lt es j (g_name e) L).
  assert (SD : forall n s, sfind n g = Some s -> sound r0 s) by (intros n0 s0 H0; eapply serves_sound; apply G in H0; apply H0).
  pose proof (sound_size r0 s (SD _ _ Es)) as Z. rewrite (same_length s es Sm) in Z.
  assert (Sl : nth_error (slots_named (g_name e) (m_elems (v_machine s))) (N.to_nat (inst_number (inst (before es j (g_name e))))) = Some j)
    by (rewrite In', Nat2N.id; apply slot_of; auto).
  assert (Sz : (inst_number (inst (before es j (g_name e))) <= SIZE_MAX)%N) by (rewrite In'; lia).
  unfold initialises, loaded. cbn [r_dtyp r_link]. destruct Wt as [(T & Nl & R)|[T|[(T & Nl & R)|(T & Nl & q & Iq & Wq & R)]]]; rewrite T; cbn [String.eqb Ascii.eqb Bool.eqb orb]; try exact I;
    apply String.eqb_neq in Nl; rewrite Nl; try rewrite R.
  - exists (N.of_nat j). apply (init_elem_iff r0); auto. exists sim, (g_name e), (inst (before es j (g_name e))), s, j.
    split; [unfold ename; rewrite append_nil; reflexivity|]. do 4 (split; auto).
  - destruct R as (par & d & -> & Wp & Dk & Ds & Sh). destruct (Sh n) as [k Sk]. rewrite <- Kd in Sk.
    destruct (G _ _ Es) as [Sv Fr].
    destruct (init_state_can ab kindof memof what r0 g sim (g_name e) (inst (before es j (g_name e))) par d s j st k) as (g' & dev & X & _); auto.
    exists g', dev. rewrite <- X. f_equal. unfold ename. rewrite !app_assoc_s. reflexivity.
  - intros a. destruct (same_nth s es j e Sm En) as (el & El & _ & Et). destruct (Eq el q (nth_error_In _ _ El)) as [x Ex]; [rewrite Et; auto|].
    eexists _, _. apply (init_setting_iff r0); auto. exists sim, (g_name e), (inst (before es j (g_name e))), q, s, j, el, x.
    split; [unfold ename; rewrite !app_assoc_s; reflexivity|]. do 9 (split; auto).
Qed.
Lemma top_accepts r p : slots_typed "marker" (m_elems (v_machine s)) <> [] -> top_wants r -> initialises ab kindof g (loaded_top sim p r).
Proof.
  intros Mk [(N & R)|(T & u & R & par & d & -> & Wp & Dk & Ds & Sh)]; unfold initialises, loaded_top; cbn [r_dtyp r_link]; rewrite R.
  - repeat match goal with |- context [String.eqb (r_dtyp r) ?x] => destruct (String.eqb_spec (r_dtyp r) x) as [E|_]; [exfalso; apply N; rewrite E; cbn [In]; tauto|] end.
    exists s. rewrite append_nil. exact Es.
  - destruct (Sh n) as [k Sk]. rewrite <- Kd in Sk. destruct (G _ _ Es) as [Sv Fr].
    destruct (init_orbit_can ab kindof memof what r0 g sim "marker" par d s st k) as (g' & dev & X & _); auto; [word_ok|].
    assert (Y : exists g' d0, init_orbit ab kindof g (sim ++ " marker" ++ " " ++ par ++ dim_text d) = (g', IOk d0)) by (exists g', dev; exact X).
    destruct T as [T|[T|[]]]; rewrite <- T; cbn [String.eqb Ascii.eqb Bool.eqb orb]; exact Y.
Qed.
End Accept.

(** What is needed stays true. *)
Definition fit (r0 : registry D B) sim es (g : simmap D B) : Prop := exists s st n,
  (forall n s, sfind n g = Some s -> serves r0 s /\ fresh_ok kindof s) /\ sfind sim g = Some s /\ same_elements s es /\
  alloc_state (v_machine s) (TCfg [] []) = Ok st /\ kindof (st_body st) = KMoment n /\ equipped s.
Lemma watches_same (s s' : vsim D B) : only_watches s s' ->
  (forall es, same_elements s es -> same_elements s' es) /\ (equipped s -> equipped s') /\
  alloc_state (v_machine s') (TCfg [] []) = alloc_state (v_machine s) (TCfg [] []).
Proof.
  intros (_ & _ & _ & _ & _ & E & I & _).
  assert (X : forall {C} (f : elem D B -> C), (forall e, f (mkEl (el_class e) (el_base e) None (el_data e)) = f e) ->
    map f (m_elems (v_machine s')) = map f (m_elems (v_machine s))).
  { intros C f Hf. assert (Y : forall l, map f l = map f (map (fun e : elem D B => mkEl (el_class e) (el_base e) None (el_data e)) l)).
    { intros l. rewrite map_map. apply map_ext. intros e. symmetry. apply Hf. }
    rewrite (Y (m_elems (v_machine s'))), E, <- Y. reflexivity. }
  split; [|split].
  - intros es H. unfold same_elements in *. rewrite X; auto.
  - intros H e p Ie Ip. assert (Q : In (el_tname e, eb_conf (el_base e)) (map (fun e => (el_tname e, eb_conf (el_base e))) (m_elems (v_machine s'))))
      by (apply (in_map (fun e => (el_tname e, eb_conf (el_base e)))); auto).
    rewrite X in Q by reflexivity. apply in_map_iff in Q as (e1 & E1 & I1). injection E1 as A1 A2. rewrite <- A2. apply H; auto. congruence.
  - unfold alloc_state. rewrite I. reflexivity.
Qed.
Lemma fit_sset r0 sim es (g : simmap D B) sim1 s1 s1' : fit r0 sim es g -> sfind sim1 g = Some s1 -> serves r0 s1' -> only_watches s1 s1' ->
  fit r0 sim es (sset sim1 s1' g).
Proof.
  intros (s & st & n & G & Es & Sm & St & Kd & Eq) E1 Sv Ow. destruct (watches_same s1 s1' Ow) as (W1 & W2 & W3).
  assert (G' : forall n s, sfind n (sset sim1 s1' g) = Some s -> serves r0 s /\ fresh_ok kindof s).
  { intros n0 s0. rewrite sfind_sset. destruct (String.eqb_spec n0 sim1) as [->|]; [|apply G]. intros [= <-]. split; auto.
    intros st0. rewrite W3. apply (G _ _ E1). }
  destruct (String.eqb_spec sim sim1) as [->|Ne].
  - assert (s1 = s) by congruence. subst s1. exists s1', st, n. split; auto. rewrite sfind_sset, String.eqb_refl. split; auto. split; auto. split; [congruence|]. auto.
  - exists s, st, n. split; auto. rewrite sfind_sset. destruct (String.eqb_spec sim sim1); [congruence|]. repeat split; auto.
Qed.
Lemma starts_fit r0 sim es (g : simmap D B) r g' : fit r0 sim es g -> starts ab kindof g r g' -> fit r0 sim es g'.
Proof.
  intros F. assert (F' := F). destruct F' as (s & st & n & G & _). unfold starts.
  destruct (String.eqb (r_dtyp r) "FLAME Index"); [intros [-> _]; auto|].
  destruct (String.eqb (r_dtyp r) "FLAME State").
  { intros (d & H). destruct (init_state_ok ab kindof memof what r0 g g' (r_link r) d G H) as (sim1 & el & i & par & dd & s1 & j & s1' & st1 & H').
    destruct H' as (_ & _ & _ & _ & _ & _ & E1 & _ & _ & _ & _ & _ & -> & Sv & Ow & _). eapply fit_sset; eauto. }
  destruct (String.eqb (r_dtyp r) "FLAME Setting"); [intros [-> _]; auto|].
  destruct (String.eqb (r_dtyp r) "FLAME State Orbit" || String.eqb (r_dtyp r) "FLAME Index Orbit")%bool.
  { intros (d & H). destruct (init_orbit_ok ab kindof memof what r0 g g' (r_link r) d G H) as (sim1 & ty & par & dd & s1 & s1' & st1 & H').
    destruct H' as (_ & _ & _ & _ & _ & E1 & _ & _ & _ & _ & -> & Sv & Ow & _). eapply fit_sset; eauto. }
  destruct (String.eqb (r_dtyp r) ""); [intros ->; auto|]. intros [-> _]; auto.
Qed.
Lemma boots_fit r0 sim es recs : (forall (g : simmap D B) r, fit r0 sim es g -> In r recs -> initialises ab kindof g r) ->
  forall g, fit r0 sim es g -> exists g', boots ab kindof g recs g' /\ fit r0 sim es g'.
Proof.
  induction recs as [|r recs IH]; intros H g F; [exists g; split; [constructor|auto]|].
  destruct (starts_iff _ _ _ _ (H g r F (or_introl eq_refl))) as [g1 S1]. assert (F1 := starts_fit _ _ _ _ _ _ F S1).
  destruct (IH (fun g r Fg I => H g r Fg (or_intror I)) g1 F1) as (g' & Bt & F'). exists g'. split; auto. econstructor; eauto.
Qed.
Lemma accepts r0 (g : simmap D B) sim s st n es pref o recs : (forall n s, sfind n g = Some s -> serves r0 s /\ fresh_ok kindof s) -> sfind sim g = Some s -> ws sim ->
  same_elements s es -> (forall e, In e es -> element_name (g_name e)) -> alloc_state (v_machine s) (TCfg [] []) = Ok st -> kindof (st_body st) = KMoment n -> equipped s ->
  markers es <> 0 -> emit default_mangler has_template es = Some (Ok o) -> (forall e, In e es -> g_type e <> "common") ->
  database pref sim o = Some recs -> forall r, In r recs -> initialises ab kindof g r.
Proof.
  intros G Es W Sm Nm St Kd Eq Mk E Nc Db. destruct (emit_rows _ _ _ E) as (all & gs & Eo & F & ND & NG & T & H).
  assert (Gd : forall w, In w all -> good_row w) by (intros w I; destruct (Forall2_In_r _ _ _ _ F I) as (j & _ & R); eapply row_good; eauto).
  assert (C : forall w, In w all -> g_type (w_elem w) <> "common").
  { intros w I. destruct (Forall2_In_r _ _ _ _ F I) as (j & _ & e & Ej & ->). apply Nc. eapply nth_error_In; eauto. }
  assert (T' : forall t ws, In (t, ws) gs -> has_template t = true /\ t <> "common" /\ incl ws all).
  { intros t ws I. destruct (T t ws I) as [-> Ne]. split; [|split].
    - destruct (filter (fun w => String.eqb (g_type (w_elem w)) t) all) as [|w r] eqn:Ef; [congruence|].
      assert (Iw : In w all /\ String.eqb (g_type (w_elem w)) t = true) by (apply (filter_In (fun w => String.eqb (g_type (w_elem w)) t)); rewrite Ef; left; auto).
      destruct Iw as [Iw Et]. apply String.eqb_eq in Et. rewrite <- Et. auto.
    - destruct (filter (fun w => String.eqb (g_type (w_elem w)) t) all) as [|w r] eqn:Ef; [congruence|].
      assert (Iw : In w all /\ String.eqb (g_type (w_elem w)) t = true) by (apply (filter_In (fun w => String.eqb (g_type (w_elem w)) t)); rewrite Ef; left; auto).
      destruct Iw as [Iw Et]. apply String.eqb_eq in Et. rewrite <- Et. auto.
    - intros w Iw. apply filter_In in Iw. tauto. }
  rewrite Eo, (database_ok pref sim all gs _ Gd T') in Db. injection Db as <-. intros r I. unfold whole in I. rewrite !in_app_iff in I.
  pose proof tops_want as TW. rewrite Forall_forall in TW.
  assert (Ms : slots_typed "marker" (m_elems (v_machine s)) <> []).
  { intros Z. apply Mk. unfold markers. rewrite <- (types_of s es "marker" Sm), Z. reflexivity. }
  destruct I as [I|[I|[I|I]]].
  - apply in_map_iff in I as (r1 & <- & I). apply (top_accepts r0 g sim s st n); auto. apply TW. rewrite in_app_iff. auto.
  - apply in_map_iff in I as (r1 & <- & I). apply (top_accepts r0 g sim s st n); auto. apply TW. rewrite in_app_iff. auto.
  - apply in_flat_map in I as (w & Iw & I). apply in_map_iff in I as (r1 & <- & I). destruct (Forall2_In_r _ _ _ _ F Iw) as (j & _ & R).
    apply (row_accepts r0 g sim s st n es) with (j := j); auto. pose proof (common_wants (g_type (w_elem w))) as CW. rewrite Forall_forall in CW. auto.
  - apply in_flat_map in I as ([t ws'] & Ig & I). cbn [fst snd] in I. apply in_flat_map in I as (w & Iw & I). apply in_map_iff in I as (r1 & <- & I).
    assert (Iw' := Iw). destruct (T t ws' Ig) as [Ews _]. rewrite Ews in Iw'. apply filter_In in Iw' as [Ia Et]. apply String.eqb_eq in Et.
    destruct (Forall2_In_r _ _ _ _ F Ia) as (j & _ & R). apply (row_accepts r0 g sim s st n es) with (j := j); auto. rewrite Et.
    unfold records_of in I. destruct (sfind t shipped) as [rs|] eqn:Ef; [|destruct I]. apply sfind_In in Ef.
    pose proof types_wants as TY. rewrite Forall_forall in TY. specialize (TY (t, rs) Ef). cbn [fst snd] in TY. rewrite Forall_forall in TY. auto.
Qed.
Lemma booting r0 (g : simmap D B) sim s st n es pref o : (forall n s, sfind n g = Some s -> serves r0 s /\ fresh_ok kindof s) -> sfind sim g = Some s -> ws sim ->
  same_elements s es -> (forall e, In e es -> element_name (g_name e) /\ g_type e <> "common") -> alloc_state (v_machine s) (TCfg [] []) = Ok st ->
  kindof (st_body st) = KMoment n -> equipped s -> markers es <> 0 -> emit default_mangler has_template es = Some (Ok o) ->
  exists recs g', database pref sim o = Some recs /\ boots ab kindof g recs g'.
Proof.
  intros G Es W Sm Nm St Kd Eq Mk E. destruct (names_of pref sim es o Nm E) as (recs & Db & _). exists recs.
  destruct (boots_fit r0 sim es recs) with (g := g) as (g' & Bt & _).
  - intros g1 r (s1 & st1 & n1 & G1 & Es1 & Sm1 & St1 & Kd1 & Eq1) I.
    eapply (accepts r0 g1 sim s1 st1 n1 es); eauto; intros e Ie; apply Nm, Ie.
  - exists s, st, n. repeat split; auto; apply G in H; apply H.
  - exists g'. auto.
Qed.
End Finds.
Lemma waveforms {D B : Type} (s : vsim D B) es mangle is_file o : same_elements s es ->
  emit mangle is_file es = Some (Ok o) -> o_nelm o = List.length (slots_typed "marker" (m_elems (v_machine s))).
Proof.
  intros Sm E. destruct (emit_spec mangle is_file es) as (all & gs & _ & _ & _ & _ & _ & X). rewrite X in E.
  destruct all; [discriminate|]. injection E as <-. cbn [o_nelm]. rewrite (types_of s es "marker" Sm). reflexivity.
Qed.
