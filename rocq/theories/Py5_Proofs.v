(** Proofs about the arguments of Machine() and about its methods conf(),
    allocState() and reconfigure(). *)
From Coq Require Import List String Ascii NArith ZArith Bool Lia Reals.
From Verif Require Import SMap SMap_Proofs Dbl Config_Model Config_Spec Glps_Model Glps_Spec Glps6_Proofs Machine_Model
  Machine_Proofs Machine2_Proofs Linear_Model Print_Spec Print6_Proofs Py_Model Py_Spec Py_Proofs Py2_Proofs Py3_Proofs Py4_Proofs.
Import ListNotations.
Local Open Scope list_scope.

(** ** extra *)
Lemma str_text u b : utf8 u = Some b -> text u (bytes (string_of_list_ascii b)).
Proof. intros H. apply text_string. rewrite chars_string. exact H. Qed.
Lemma key_fun k n n' : extra_key k n -> extra_key k n' -> n = n'.
Proof.
  intros [u b k1 T1 T2] H. inversion H as [? b' ? T3 T4]; subst.
  apply text_string in T2. apply text_string in T4. rewrite T2 in T4. apply some_inj in T4.
  rewrite <- (string_chars n'), <- (string_chars k1). f_equal. congruence.
Qed.
Lemma key_dec k n : extra_key k n \/ ~ extra_key k n.
Proof.
  destruct k as [|x|u|s|nd x|l|l|d|f|]; try (right; intros H; inversion H; fail).
  destruct (utf8 u) as [b|] eqn:U.
  - assert (E : extra_key (PyStr u) (string_of_list_ascii (cstr b))).
    { econstructor; [apply str_text; exact U|]. apply text_string. rewrite chars_string. apply utf8_before. exact U. }
    destruct (String.eqb_spec n (string_of_list_ascii (cstr b))) as [->|N]; [left; exact E|].
    right. intros H. apply N. exact (key_fun _ _ _ H E).
  - right. intros H. inversion H as [? b ? T1 T2]; subst. apply text_utf8 in T1. rewrite U in T1. discriminate.
Qed.
Lemma key_utf8 u b : utf8 u = Some b -> extra_key (PyStr u) (string_of_list_ascii (cstr b)).
Proof.
  intros U. econstructor; [apply str_text; exact U|]. apply text_string. rewrite chars_string. apply utf8_before. exact U.
Qed.
Lemma value_fun v x y : extra_value v x -> extra_value v y -> x = y.
Proof.
  intros [d|nd d|u b s T1 T2] H; inversion H as [|?|? b' ? T3 T4]; subst; try reflexivity.
  apply text_string in T2. apply text_string in T4. rewrite T2 in T4. apply some_inj in T4.
  f_equal. rewrite <- (string_chars s), <- (string_chars s0). f_equal. congruence.
Qed.
(** One step of the loop. *)
Lemma extra_step vars k v l r : extra_vars vars ((k, v) :: l) = Ret (Some r) ->
  exists n x, extra_key k n /\ extra_value v x /\ extra_vars (sset n x vars) l = Ret (Some r).
Proof.
  cbn [extra_vars]. destruct k as [| |ks| | | | | | |]; try discriminate.
  destruct (utf8 ks) as [kb|] eqn:U; [|discriminate]. pose proof (key_utf8 _ _ U) as K.
  destruct v as [|[x|]|s|?|nd [[|x [|? ?]]|]|?|?|?|?|]; try discriminate.
  - intros H. exists (string_of_list_ascii (cstr kb)), (TNum x). split; [exact K|]. split; [constructor|exact H].
  - destruct (utf8 s) as [b|] eqn:Us; [|discriminate]. intros H.
    exists (string_of_list_ascii (cstr kb)), (TStr (string_of_list_ascii (cstr b))). split; [exact K|]. split; [|exact H].
    econstructor; [apply str_text; exact Us|]. apply text_string. rewrite chars_string. apply utf8_before. exact Us.
  - intros H. exists (string_of_list_ascii (cstr kb)), (TNum x). split; [exact K|]. split; [constructor|exact H].
Qed.
Lemma extra_inv l : forall vars r, extra_vars vars l = Ret (Some r) ->
  (ssorted vars -> ssorted r) /\
  (forall pre k v post n x, l = pre ++ (k, v) :: post -> extra_key k n -> extra_value v x ->
     (forall k' v', In (k', v') post -> ~ extra_key k' n) -> sfind n r = Some x) /\
  (forall n, (forall k v, In (k, v) l -> ~ extra_key k n) -> sfind n r = sfind n vars).
Proof.
  induction l as [|[k v] l IH]; intros vars r H.
  - injection H as <-. repeat split; try tauto. intros pre k v post n x E. destruct pre; discriminate.
  - destruct (extra_step _ _ _ _ _ H) as (n0 & x0 & K & V & H'). destruct (IH _ _ H') as (I1 & I2 & I3). repeat split.
    + intros S0. apply I1, sset_sorted, S0.
    + intros pre k1 v1 post n x E K1 V1 L. destruct pre as [|p pre].
      * injection E as <- <- <-. rewrite (I3 _ L), sfind_sset. rewrite (key_fun _ _ _ K1 K), String.eqb_refl.
        rewrite (value_fun _ _ _ V1 V). reflexivity.
      * injection E as <- ->. eapply I2; [reflexivity|exact K1|exact V1|exact L].
    + intros n L. rewrite I3 by (intros k1 v1 Hi; apply (L k1 v1); right; exact Hi). rewrite sfind_sset.
      destruct (String.eqb_spec n n0) as [->|N]; [|reflexivity]. elim (L k v (or_introl eq_refl) K).
Qed.
Theorem extra_presets w mem conf s d c : config_text mem conf s ->
  parse2config w mem (Some conf) (PyDict d) = Ret (Some c) ->
  exists vars, presets_of d vars /\ parse_text w vars true s = Parsed c.
Proof.
  intros T H. unfold parse2config in H. apply pbind_ret in H as ([vars|] & E & H); [|discriminate].
  exists vars. split.
  - destruct (extra_inv _ _ _ E) as (I1 & I2 & I3). split; [apply I1; exact I|]. split; [exact I2|].
    intros n L. rewrite (I3 n L). reflexivity.
  - assert (P : parsed w vars s = Ret (Some c)).
    { destruct T as [s|s|nd x s M|u b s T1 T2]; try exact H.
      - rewrite M in H. exact H.
      - apply text_utf8 in T1. rewrite T1 in H. apply utf8_before in T1. apply text_string in T2. rewrite T2 in T1.
        apply some_inj in T1. rewrite T1, string_chars in H. exact H. }
    unfold parsed in P. destruct (parse_text w vars true s); try discriminate. injection P as <-. reflexivity.
Qed.
(** For a dict or list nothing of it is used. *)
Lemma extra_all d : (forall k v, In (k, v) d -> (exists n, extra_key k n) /\ exists x, extra_value v x) ->
  forall vars, exists r, extra_vars vars d = Ret (Some r).
Proof.
  induction d as [|[k v] d IH]; intros H vars; [exists vars; reflexivity|].
  assert (H' : forall k v, In (k, v) d -> (exists n, extra_key k n) /\ exists x, extra_value v x)
    by (intros k1 v1 Hi; apply H; right; exact Hi).
  destruct (H k v (or_introl eq_refl)) as [(n & [u b n0 T1 T2]) (x & V)]. cbn [extra_vars]. apply text_utf8 in T1. rewrite T1.
  destruct V as [x|nd x|u' b' s T3 T4]; try (apply IH; exact H'). apply text_utf8 in T3. rewrite T3. apply IH. exact H'.
Qed.
Theorem extra_unused {D B} (reg : @registry D B) w mem conf d : (exists l, conf = PyDict l) \/ (exists l, conf = PyList l) ->
  (forall k v, In (k, v) d -> (exists n, extra_key k n) /\ exists x, extra_value v x) ->
  py_machine reg w mem (Some conf) (PyDict d) = py_machine reg w mem (Some conf) PyNone.
Proof.
  intros C H. destruct (extra_all d H sempty) as (r & E).
  destruct C as [(l & ->)|(l & ->)]; unfold py_machine, parse2config; rewrite E; reflexivity.
Qed.

(** ** Crashes *)
Lemma good_extra_ok l vars : (forall k v, In (k, v) l -> (exists u, k = PyStr u) /\
      ((exists x, v = PyNumber x) \/ (exists nd x, v = PyArray nd x) \/ (exists u, v = PyStr u))) ->
  (exists r, extra_vars vars l = Ret (Some r)) \/ extra_vars vars l = Raise.
Proof.
  revert vars. induction l as [|[k v] l IH]; intros vars G; [left; exists vars; reflexivity|].
  destruct (G k v (or_introl eq_refl)) as [(u & ->) V].
  assert (G' : forall k v, In (k, v) l -> (exists u, k = PyStr u) /\
      ((exists x, v = PyNumber x) \/ (exists nd x, v = PyArray nd x) \/ (exists u, v = PyStr u)))
    by (intros k1 v1 Hi; apply G; right; exact Hi).
  cbn [extra_vars]. destruct (utf8 u) as [kb|]; [|right; reflexivity].
  destruct V as [([x|] & ->)|[(nd & [[|x [|? ?]]|] & ->)|(s & ->)]]; try (right; reflexivity); try (apply IH; exact G').
  destruct (utf8 s); [apply IH; exact G'|right; reflexivity].
Qed.
Lemma parsed_ok w vars s : well_parsed w s -> (exists c, parsed w vars s = Ret (Some c)) \/ parsed w vars s = Raise.
Proof.
  intros H. specialize (H vars). unfold parsed. destruct (parse_text w vars true s) as [c| | | | |]; try contradiction; auto.
  left. exists c. reflexivity.
Qed.
Section Machine.
Context {D B : Type}.
Theorem no_crash (reg : @registry D B) w mem conf e : good_extra e -> conf <> PyFile None ->
  (forall s, config_text mem conf s -> well_parsed w s) ->
  py_machine reg w mem (Some conf) e <> Crash.
Proof.
  intros Ge Nf W. unfold py_machine.
  assert (A : (exists c, parse2config w mem (Some conf) e = Ret (Some c)) \/ parse2config w mem (Some conf) e = Raise).
  { unfold parse2config.
    set (ev := match e with PyNone => _ | PyDict l => _ | _ => _ end).
    assert (X : (exists r, ev = Ret (Some r)) \/ ev = Raise).
    { unfold ev. destruct Ge as [-> |(d & -> & G)]; [left; eexists; reflexivity|apply good_extra_ok; exact G]. }
    destruct X as [(r & ->)| ->]; [|right; reflexivity]. cbn [pbind].
    destruct conf as [| |u|s|nd x|l|l|l|[s|]|]; try (right; reflexivity); try contradiction.
    - destruct (utf8 u) as [b|] eqn:U; [|right; reflexivity]. apply parsed_ok, W.
      econstructor; [apply str_text; exact U|]. apply text_string. rewrite chars_string. apply utf8_before. exact U.
    - apply parsed_ok, W. constructor.
    - destruct (mem nd x) as [s|] eqn:M; [|right; reflexivity]. apply parsed_ok, W. constructor. exact M.
    - unfold list2conf. pose proof (never_crash 4 (TCfg [] []) l) as N. destruct (list2config 4 (TCfg [] []) l) as [c| |]; cbn [pbind]; [left; exists c; reflexivity|right; reflexivity|contradiction].
    - unfold list2conf. pose proof (never_crash 4 (TCfg [] []) (dict_items l)) as N. destruct (list2config 4 (TCfg [] []) (dict_items l)) as [c| |]; cbn [pbind]; [left; exists c; reflexivity|right; reflexivity|contradiction].
    - apply parsed_ok, W. constructor. }
  destruct A as [(c & ->)| ->]; cbn [pbind]; [|discriminate]. unfold lift. destruct (new_machine reg c); discriminate.
Qed.
Theorem crashes (reg : @registry D B) w mem conf e :
  (conf = None \/ (e <> PyNone /\ (forall d, e <> PyDict d)) \/ (conf = Some (PyFile None) /\ e = PyNone)) ->
  py_machine reg w mem conf e = Crash.
Proof.
  intros [-> |[[N1 N2]|[-> ->]]]; [reflexivity| |reflexivity].
  destruct conf as [conf|]; [|reflexivity]. unfold py_machine, parse2config.
  destruct e as [| | | | | | |d| |]; try reflexivity; [congruence|elim (N2 d); reflexivity].
Qed.
End Machine.

(** ** conf(), reconfigure() and allocState() *)
Lemma level_takes_all room ret l c : list2config room ret l = Ret c -> takes (fun n => tfind n ret) l c.
Proof.
  intros H. destruct room as [|r]; [discriminate|]. cbn [list2config] in H.
  destruct (take_inv _ _ _ _ H) as (I1 & I2 & I3 & I4). split.
  - intros n Hn. unfold tfind. rewrite (I3 _ Hn), I1. reflexivity.
  - intros n pre v Hv. destruct (I4 _ _ _ Hv) as (c0 & x & E0 & Ex & Es).
    unfold tfind. rewrite Es. destruct (value_cases _ _ _ _ Ex) as [L|[[-> ->]|(es & cs & Hc & -> & F)]].
    + left. exists x. split; [exact L|reflexivity].
    + right. right. split; reflexivity.
    + right. left. exists es, cs. repeat split; [exact Hc|exact (Forall2_len _ _ _ F)].
Qed.
Section Methods.
Context {D B : Type}.
Implicit Types m : @machine D B.
Theorem reconfigure_takes m m' i d replace : py_reconfigure m i d replace = (m', Ret tt) ->
  exists o c, kept_conf m (N.to_nat i) = Some o /\ kept_conf m' (N.to_nat i) = Some c /\
    takes (fun n => if replace then None else tfind n o) (dict_items d) c /\
    forall j, j <> N.to_nat i -> kept_conf m' j = kept_conf m j.
Proof.
  unfold py_reconfigure. rewrite slot_nth. destruct (nth_error (m_elems m) (N.to_nat i)) as [e|] eqn:E; [|discriminate].
  destruct (list2config 1 _ (dict_items d)) as [c| |] eqn:L; try discriminate.
  destruct (reconfigure m i c) as [m1 r] eqn:R. destruct r as [u|x]; [|discriminate]. intros H. injection H as <-.
  destruct (reconfigure_ok _ _ _ _ _ R) as (o & t & k & nm & dd & H1 & H2 & H3 & H4 & H5 & H6 & ->).
  exists (eb_conf (el_base e)), c. unfold kept_conf. rewrite E. split; [reflexivity|].
  cbn [m_elems with_elems]. split.
  { rewrite (nth_update_eq _ _ _ _ E). reflexivity. }
  split.
  - apply level_takes_all in L. destruct replace; exact L.
  - intros j N. rewrite nth_update_neq by congruence. reflexivity.
Qed.
(** What cannot be converted changes nothing. *)
Theorem reconfigure_raises m i d replace : ~ convertible_items 0 (dict_items d) ->
  py_reconfigure m i d replace = (m, Raise).
Proof.
  intros H. unfold py_reconfigure. rewrite slot_nth. destruct (nth_error (m_elems m) (N.to_nat i)) as [e|]; [|reflexivity].
  destruct (list2config 1 _ (dict_items d)) as [c| |] eqn:L; [|reflexivity|].
  - elim H. apply (items_accepted (list2config 0) 0 (if replace then TCfg [] [] else eb_conf (el_base e)) _ (value_accepted 0)). exists c. exact L.
  - elim (never_crash _ _ _ L).
Qed.

Theorem conf_reconfigure m i o l d : kept_conf m (N.to_nat i) = Some o -> plain_conf o ->
  py_conf m (Some (Z.of_N i)) = Ret l -> dict_of l d ->
  exists c, (forall n, tfind n c = tfind n o) /\
    py_reconfigure m i d true = (let (m', r) := reconfigure m i c in (m', lift r)).
Proof.
  intros K (S1 & S2 & P) H E. unfold kept_conf in K. unfold py_conf in H. unfold py_reconfigure.
  assert (Z0 : (Z.of_N i <? 0)%Z = false) by (apply Z.ltb_ge; lia). rewrite Z0 in H.
  assert (Z1 : Z.to_N (Z.of_N i) = i) by lia. rewrite Z1 in H.
  rewrite slot_nth in *. destruct (nth_error (m_elems m) (N.to_nat i)) as [e|]; [|discriminate]. injection K as K. rewrite K in H.
  assert (St : ssorted (town (tflatten o))) by (cbn [town tflatten]; apply smerge_sorted; assumption).
  assert (Ft : forall n, sfind n (town (tflatten o)) = tfind n o) by (intros n; cbn [town tflatten]; apply sfind_smerge).
  assert (Pt : forall n v, In (n, v) (town (tflatten o)) -> scalar v /\ ~ has_nul (bytes n) /\ nul_free v).
  { intros n v Hi. apply P. rewrite <- Ft. apply ssorted_In_sfind; assumption. }
  destruct (back 0 (tflatten o) l) as (m' & T & F).
  - apply Forall_forall. intros [n v] Hi. apply scalar_levels. exact (proj1 (Pt _ _ Hi)).
  - constructor; [exact St|]. apply Forall_forall. intros [n v] Hi. apply scalar_proper. exact (proj1 (Pt _ _ Hi)).
  - constructor. apply Forall_forall. intros [n v] Hi. exact (proj2 (Pt _ _ Hi)).
  - exact H.
  - unfold dict_of in E. fold (dict_items d) in E. rewrite <- E, T.
    exists (TCfg m' []). split.
    + intros n. rewrite <- Ft. rewrite (scalars_same _ _ F) by (intros k v Hi; exact (proj1 (Pt _ _ Hi))).
      unfold tfind. cbn [town touter sfind]. destruct (sfind n (town (tflatten o))); reflexivity.
    + destruct (reconfigure m i (TCfg m' [])); reflexivity.
Qed.
Theorem alloc_takes m d inherit st : py_alloc m (Some d) inherit = Ret st ->
  exists c, takes (fun n => if inherit then tfind n (m_conf m) else None) (dict_items d) c /\ alloc_state m c = Ok st.
Proof.
  unfold py_alloc. intros H. apply pbind_ret in H as (c & L & H). exists c. split.
  - apply level_takes_all in L. destruct inherit; [|exact L]. destruct L as [L1 L2]. split; [|exact L2].
    intros n Hn. rewrite (L1 n Hn). unfold tpush, tfind. cbn [town touter tflatten sfind]. apply sfind_smerge.
  - destruct (alloc_state m c); [|discriminate]. injection H as <-. reflexivity.
Qed.
End Methods.

(** ** Witnesses *)
Definition str (s : string) : pyobj := PyStr (bytes s).
Definition later_text : string := "sim_type = ""Vector""; phi = 1; b: sbend, L = 1; l: LINE = (b);".
Definition no_mem (nd : nat) (x : option (list double)) : option string := None.
Lemma C59_later_variables_refuted_w num : exists l,
  (exists m, py_machine (vector_reg num) demo no_mem (Some (PyBytes later_text)) PyNone = Ret m) /\
  py_parse demo no_mem (Some (PyBytes later_text)) PyNone = Ret (PyList l) /\
  py_machine (vector_reg num) demo no_mem (Some (PyList l)) PyNone = Raise.
Proof.
  eexists. split; [|split].
  - assert (E : match py_machine (vector_reg num) demo no_mem (Some (PyBytes later_text)) PyNone with Ret _ => true | _ => false end = true)
      by (vm_compute; reflexivity).
    destruct (py_machine (vector_reg num) demo no_mem (Some (PyBytes later_text)) PyNone) as [m| |]; try discriminate.
    exists m. reflexivity.
  - vm_compute. reflexivity.
  - vm_compute. reflexivity.
Qed.
