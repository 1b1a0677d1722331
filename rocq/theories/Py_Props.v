(** Properties of the Python interface: conversions between Python objects and
    Config, arguments of Machine(), conf(), reconfigure() and allocState()
    (C59-C62).  Specification: Py_Spec. *)
From Coq Require Import List String Ascii NArith ZArith Bool.
From Coq.Floats Require Import SpecFloat.
From Verif Require Import SMap Dbl Config_Model Config_Spec Glps_Model Glps6_Proofs Machine_Model
  Machine3_Proofs Linear_Model Py_Model Py_Spec Py_Proofs Py2_Proofs Py3_Proofs Py4_Proofs Py5_Proofs Py6_Proofs Print_Model Moment_Model Py7_Proofs.
Import ListNotations.
Open Scope string_scope.
Open Scope list_scope.

(** ** C59: a lattice handed through Python *)
(** Shown as a list and read again, a Config has the same entries at every level,
    as long as it has at most three levels and no null characters. *)
Theorem C59_entries_partial c l : cfg_levels 3 c -> proper_cfg c -> nul_free_cfg c -> conf2dict c = Ret l ->
  exists c', list2conf l = Ret c' /\ same_cfg c c' /\ forall n, osame (sfind n (town c)) (tfind n c').
Proof. exact (config_round_trip c l). Qed.
Print Assumptions C59_entries_partial.
Example C59_entries_partial_ex : exists l, cfg_levels 3 small_cfg /\ proper_cfg small_cfg /\ nul_free_cfg small_cfg /\
  conf2dict small_cfg = Ret l /\ List.length l = 4.
Proof.
  eexists. destruct small_elements as (es & H1 & H2). destruct (parsed_proper demo [] _ _ _ I small_parsed H1 H2) as [H3 H4].
  split; [exact H3|]. split; [exact H4|]. split; [exact small_nul_free|]. split; vm_compute; reflexivity.
Qed.

(** What the elements of such a Config see: their own entries, and of the others
    only those whose names come before "elements" in byte order. *)
Theorem C59_elements_partial c l es : cfg_levels 3 c -> proper_cfg c -> nul_free_cfg c -> elements c es -> conf2dict c = Ret l ->
  exists c' es', list2conf l = Ret c' /\ same_cfg c c' /\ touter c' = [] /\ elements c' es' /\
    Forall2 (fun g g' => same_cfg g g' /\ forall n, sfind n (town g) = None ->
      (str_lt n "elements" -> osame (sfind n (town c)) (tfind n g')) /\
      (~ str_lt n "elements" -> tfind n g' = None)) es es'.
Proof. exact (elements_back c l es). Qed.
Print Assumptions C59_elements_partial.
Example C59_elements_partial_ex : exists l es, cfg_levels 3 small_cfg /\ proper_cfg small_cfg /\ nul_free_cfg small_cfg /\
  elements small_cfg es /\ conf2dict small_cfg = Ret l /\ List.length es = 2.
Proof.
  eexists. eexists. destruct small_elements as (es & H1 & H2). destruct (parsed_proper demo [] _ _ _ I small_parsed H1 H2) as [H3 H4].
  split; [exact H3|]. split; [exact H4|]. split; [exact small_nul_free|].
  split; [vm_compute; reflexivity|]. split; [vm_compute; reflexivity|vm_compute; reflexivity].
Qed.

(** The same for a lattice read from a text, against what its elements saw. *)
Theorem C59_lattice_partial w vars s c es l : ssorted vars -> parse_text w vars true s = Parsed c -> elements c es ->
  simple_lattice c es -> nul_free_cfg c -> conf2dict c = Ret l ->
  exists c' es', list2conf l = Ret c' /\ elements c' es' /\
    (forall n, n <> "elements" -> tfind n c' = tfind n c) /\ Forall2 sees_earlier es es'.
Proof. exact (parsed_back w vars s c es l). Qed.
Print Assumptions C59_lattice_partial.
Example C59_lattice_partial_ex : exists es l, parse_text demo [] true small_text = Parsed small_cfg /\ elements small_cfg es /\
  simple_lattice small_cfg es /\ nul_free_cfg small_cfg /\ conf2dict small_cfg = Ret l.
Proof.
  destruct small_elements as (es & H1 & H2). exists es. eexists. split; [exact small_parsed|]. split; [exact H1|].
  split; [exact H2|]. split; [exact small_nul_free|]. vm_compute. reflexivity.
Qed.

(** Not the same lattice: a file that builds a machine, whose parsed form does
    not. *)
Theorem C59_later_variables_refuted : forall num, exists w mem text l,
  (exists m, py_machine (vector_reg num) w mem (Some (PyBytes text)) PyNone = Ret m) /\
  py_parse w mem (Some (PyBytes text)) PyNone = Ret (PyList l) /\
  py_machine (vector_reg num) w mem (Some (PyList l)) PyNone = Raise.
Proof. intros num. exists demo, no_mem, later_text. exact (C59_later_variables_refuted_w num). Qed.
Print Assumptions C59_later_variables_refuted.
(** Strings are cut at a null character. *)
Theorem C59_null_characters_refuted : exists c l c', proper_cfg c /\ conf2dict c = Ret l /\ list2conf l = Ret c' /\
  tfind "x" c <> tfind "x" c'.
Proof.
  destruct C59_null_characters_refuted_w as [H1 H2]. eexists. eexists. eexists.
  split; [|split; [exact H1|split; [exact H2|discriminate]]].
  repeat constructor. intros k v [].
Qed.
Print Assumptions C59_null_characters_refuted.
(** Four levels are shown but not read. *)
Theorem C59_depth_refuted : exists c l, conf2dict c = Ret l /\ list2conf l = Raise.
Proof. exists (deep 4 (TCfg [] [])). exact C59_depth_refuted_w. Qed.
Print Assumptions C59_depth_refuted.
(** A string that is not UTF-8 cannot be shown at all. *)
Theorem C59_unreadable_refuted : exists c, proper_cfg c /\ nul_free_cfg c /\ conf2dict c = Raise.
Proof.
  eexists. split; [|split; [|exact C59_unreadable_refuted_w]].
  - repeat constructor. intros k v [].
  - constructor. apply Forall_cons; [|apply Forall_nil]. split; [no_nul|]. constructor. no_nul.
Qed.
Print Assumptions C59_unreadable_refuted.

(** ** C60: from Python objects to Config *)
(** The last value given for a name counts; names not given are not there. *)
Theorem C60_last_value l c : list2conf l = Ret c -> takes (fun _ => None) l c.
Proof. exact (top_takes l c). Qed.
Print Assumptions C60_last_value.
Example C60_last_value_ex : list2conf toy_list = Ret toy_cfg /\ tfind "phi" toy_cfg = Some (TNum n2) /\
  tfind "zz" toy_cfg = Some (TVec [n1; n2]).
Proof. split; [exact toy_cfg_eq|]. split; vm_compute; reflexivity. Qed.

(** A list of Configs becomes as many Configs; each has its own entries and
    otherwise sees what was given before the list, and only that. *)
Theorem C60_nested l c k pre v es : list2conf l = Ret c -> last_entry k l pre v -> configs v es ->
  exists c0 cs, takes (fun _ => None) pre c0 /\ tfind k c = Some (TCfgs cs) /\
    Forall2 (fun e g => exists its, holds e its /\ takes (fun n => tfind n c0) its g) es cs.
Proof. exact (nested_take l c k pre v es). Qed.
Print Assumptions C60_nested.
Example C60_nested_ex : list2conf toy_list = Ret toy_cfg /\
  last_entry "elements" toy_list toy_pre (PyList [elem_a; elem_b]) /\ configs (PyList [elem_a; elem_b]) [elem_a; elem_b].
Proof. split; [exact toy_cfg_eq|]. split; [exact toy_last|constructor]. Qed.

(** Exactly the lists of entries of at most three levels are accepted; for
    anything else an exception is raised. *)
Theorem C60_accepted l : (convertible_items 3 l -> exists c, list2conf l = Ret c) /\
  (~ convertible_items 3 l -> list2conf l = Raise).
Proof. exact (conj (proj2 (accepted l)) (otherwise_raises l)). Qed.
Print Assumptions C60_accepted.
Example C60_accepted_ex : convertible_items 3 toy_list /\ ~ convertible_items 3 [pair "x" PyNone].
Proof.
  split; [apply accepted; exists toy_cfg; exact toy_cfg_eq|].
  intros H. apply accepted in H as (c & H). vm_compute in H. discriminate H.
Qed.

(** Shown again, the entries are those given, each name once, in byte order. *)
Theorem C60_shown_again l c : list2conf l = Ret c -> exists l', conf2dict c = Ret l' /\ tidied_items l l'.
Proof. exact (python_round_trip l c). Qed.
Print Assumptions C60_shown_again.
Example C60_shown_again_ex : exists l', list2conf toy_list = Ret toy_cfg /\ conf2dict toy_cfg = Ret l' /\ List.length l' = 4.
Proof. eexists. split; [exact toy_cfg_eq|]. split; vm_compute; reflexivity. Qed.

(** GLPSPrinter gives the text printed for the Config made of a dict or a list; anything
    else, and what cannot be converted or printed, raises. *)
Theorem C60_printed inp : match py_print inp with
  | Ret p => exists l c s, holds inp l /\ list2conf l = Ret c /\ glps_print c = Ok s /\ shown (TStr s) p
  | Raise => (forall l, ~ holds inp l) \/ exists l, holds inp l /\
      (~ convertible_items 3 l \/ exists c, list2conf l = Ret c /\
         ((exists e, glps_print c = Throw e) \/ exists s, glps_print c = Ok s /\ forall u, ~ text u (before_nul (bytes s))))
  | Crash => False
  end.
Proof. exact (printed inp). Qed.
Print Assumptions C60_printed.
Example C60_printed_ex : (exists p, py_print (PyList toy_list) = Ret p) /\ py_print num1 = Raise.
Proof. split; [eexists; vm_compute; reflexivity|reflexivity]. Qed.

(** ** C61: arguments of Machine() *)
(** Presets given as extra are those of the parser. *)
Theorem C61_extra_partial w mem conf s d c : config_text mem conf s ->
  parse2config w mem (Some conf) (PyDict d) = Ret (Some c) ->
  exists vars, presets_of d vars /\ parse_text w vars true s = Parsed c.
Proof. exact (extra_presets w mem conf s d c). Qed.
Print Assumptions C61_extra_partial.
Example C61_extra_partial_ex : exists c, config_text no_mem (PyBytes small_text) small_text /\
  parse2config demo no_mem (Some (PyBytes small_text)) (PyDict [(str "c", num1); (str "q", str "z")]) = Ret (Some c) /\
  tfind "q" c = Some (TStr "z").
Proof. eexists. split; [constructor|]. split; vm_compute; reflexivity. Qed.

(** With a dict or a list extra has no effect. *)
Theorem C61_extra_ignored {D B} (reg : @registry D B) w mem conf d :
  (exists l, conf = PyDict l) \/ (exists l, conf = PyList l) ->
  (forall k v, In (k, v) d -> (exists n, extra_key k n) /\ exists x, extra_value v x) ->
  py_machine reg w mem (Some conf) (PyDict d) = py_machine reg w mem (Some conf) PyNone.
Proof. exact (extra_unused reg w mem conf d). Qed.
Print Assumptions C61_extra_ignored.
Example C61_extra_ignored_ex : exists d,
  (forall k v, In (k, v) d -> (exists n, extra_key k n) /\ exists x, extra_value v x) /\
  py_machine toy_reg demo no_mem (Some (PyList toy_list)) (PyDict d) = Ret list_machine /\ List.length d = 1.
Proof.
  exists [(str "phi", num1)]. split; [|split; [vm_compute; reflexivity|reflexivity]].
  intros k v [E|[]]. injection E as <- <-. split; [exists "phi"; apply (key_utf8 (bytes "phi") (list_ascii_of_string "phi")); vm_compute; reflexivity|].
  exists (TNum n1). constructor.
Qed.

(** So what extra says need not hold of the machine. *)
Theorem C61_extra_refuted : exists d m,
  (forall k v, In (k, v) d -> (exists n, extra_key k n) /\ exists x, extra_value v x) /\
  extra_key (str "phi") "phi" /\ extra_value num1 (TNum n1) /\ d = [(str "phi", num1)] /\
  py_machine toy_reg demo no_mem (Some (PyList toy_list)) (PyDict d) = Ret m /\
  tfind "phi" (m_conf m) = Some (TNum n2).
Proof.
  exists [(str "phi", num1)], list_machine.
  assert (K : extra_key (str "phi") "phi") by (apply (key_utf8 (bytes "phi") (list_ascii_of_string "phi")); vm_compute; reflexivity).
  assert (V : extra_value num1 (TNum n1)) by constructor.
  split; [|split; [exact K|split; [exact V|split; [reflexivity|split; vm_compute; reflexivity]]]].
  intros k v [E|[]]. injection E as <- <-. split; [exists "phi"; exact K|exists (TNum n1); exact V].
Qed.
Print Assumptions C61_extra_refuted.

(** Arguments of the right kind never crash the interpreter, provided the parser
    gets through the text in a defined way. *)
Theorem C61_no_crash_partial {D B} (reg : @registry D B) w mem conf e : good_extra e -> conf <> PyFile None ->
  (forall s, config_text mem conf s -> well_parsed w s) ->
  py_machine reg w mem (Some conf) e <> Crash.
Proof. exact (no_crash reg w mem conf e). Qed.
Print Assumptions C61_no_crash_partial.
Example C61_no_crash_partial_ex : good_extra (PyDict [(str "b", num1)]) /\ PyList toy_list <> PyFile None /\
  forall s, config_text no_mem (PyList toy_list) s -> well_parsed demo s.
Proof.
  split; [|split; [discriminate|intros s H; inversion H]].
  right. eexists. split; [reflexivity|]. intros k v [E|[]]. injection E as <- <-.
  split; [eexists; reflexivity|]. left. eexists. reflexivity.
Qed.

(** Others do: no config, an extra that is neither None nor a dict, a file whose
    read() gives no buffer. *)
Theorem C61_wrong_arguments_crash {D B} (reg : @registry D B) w mem conf e :
  conf = None \/ (e <> PyNone /\ (forall d, e <> PyDict d)) \/ (conf = Some (PyFile None) /\ e = PyNone) ->
  py_machine reg w mem conf e = Crash.
Proof. exact (crashes reg w mem conf e). Qed.
Print Assumptions C61_wrong_arguments_crash.
Example C61_wrong_arguments_crash_ex : num1 <> PyNone /\ forall d, num1 <> PyDict d.
Proof. split; discriminate. Qed.

Theorem C61_never_crashes_refuted : exists conf e, forall w mem, py_machine toy_reg w mem conf e = Crash.
Proof. exists (Some (PyBytes small_text)), num1. reflexivity. Qed.
Print Assumptions C61_never_crashes_refuted.

(** The function GLPSParse raises for the same arguments. *)
Theorem C61_parse_raises w mem conf e :
  conf = None \/ (e <> PyNone /\ (forall d, e <> PyDict d)) \/ (conf = Some (PyFile None) /\ e = PyNone) ->
  py_parse w mem conf e = Raise.
Proof. exact (parse_raises w mem conf e). Qed.
Print Assumptions C61_parse_raises.
Example C61_parse_raises_ex : num1 <> PyNone /\ forall d, num1 <> PyDict d.
Proof. split; discriminate. Qed.

(** ** C62: conf(), reconfigure() and allocState() *)
(** After reconfigure(i, d) element i has the values of d over its former ones
    (with replace: over nothing); no other element has changed. *)
Theorem C62_reconfigured {D B} (m m' : @machine D B) i d replace : py_reconfigure m i d replace = (m', Ret tt) ->
  exists o c, kept_conf m (N.to_nat i) = Some o /\ kept_conf m' (N.to_nat i) = Some c /\
    takes (fun n => if replace then None else tfind n o) (dict_items d) c /\
    forall j, j <> N.to_nat i -> kept_conf m' j = kept_conf m j.
Proof. exact (reconfigure_takes m m' i d replace). Qed.
Print Assumptions C62_reconfigured.
Example C62_reconfigured_ex : exists m' c, py_reconfigure list_machine 0 [(str "L", num2)] false = (m', Ret tt) /\
  kept_conf m' 0 = Some c /\ tfind "L" c = Some (TNum n2) /\ tfind "phi" c = Some (TNum n1).
Proof. eexists. eexists. split; [vm_compute; reflexivity|]. split; [vm_compute; reflexivity|]. split; vm_compute; reflexivity. Qed.

(** What cannot be converted raises, and changes nothing. *)
Theorem C62_refused {D B} (m : @machine D B) i d replace : ~ convertible_items 0 (dict_items d) ->
  py_reconfigure m i d replace = (m, Raise).
Proof. exact (reconfigure_raises m i d replace). Qed.
Print Assumptions C62_refused.
Example C62_refused_ex : ~ convertible_items 0 (dict_items [(str "x", PyNone)]).
Proof.
  intros H. apply (items_accepted (list2config 0) 0 (TCfg [] []) _ (value_accepted 0)) in H as (c & H). vm_compute in H. discriminate H.
Qed.

(** reconfigure(i, dict(conf(i)), replace=True) rebuilds element i from the same
    values, if no lists of Configs are visible from it. *)
Theorem C62_conf_back_partial {D B} (m : @machine D B) i o l d : kept_conf m (N.to_nat i) = Some o -> plain_conf o ->
  py_conf m (Some (Z.of_N i)) = Ret l -> dict_of l d ->
  exists c, (forall n, tfind n c = tfind n o) /\
    py_reconfigure m i d true = (let (m', r) := reconfigure m i c in (m', lift r)).
Proof. exact (conf_reconfigure m i o l d). Qed.
Print Assumptions C62_conf_back_partial.
Example C62_conf_back_partial_ex : exists o l d, kept_conf list_machine 0 = Some o /\ plain_conf o /\
  py_conf list_machine (Some 0%Z) = Ret l /\ dict_of l d /\ List.length l = 5.
Proof. exact list_conf. Qed.

(** If there are, the same call raises. *)
Theorem C62_config_lists_refuted : exists (m : @machine nat (list string)) l d,
  py_machine toy_reg demo no_mem (Some (PyList nested)) PyNone = Ret m /\
  py_conf m (Some 0%Z) = Ret l /\ dict_of l d /\
  py_reconfigure m 0 d true = (m, Raise) /\ snd (py_reconfigure m 0 [] false) = Ret tt.
Proof.
  exists nested_machine. destruct C62_config_lists_refuted_w as (l & d & H). exists l, d. split; [exact nested_built|exact H].
Qed.
Print Assumptions C62_config_lists_refuted.

(** allocState(d, inherit=True) makes the state from the values of d over those of
    the machine; without inherit from those of d alone. *)
Theorem C62_allocated {D B} (m : @machine D B) d inherit st : py_alloc m (Some d) inherit = Ret st ->
  exists c, takes (fun n => if inherit then tfind n (m_conf m) else None) (dict_items d) c /\ alloc_state m c = Ok st.
Proof. exact (alloc_takes m d inherit st). Qed.
Print Assumptions C62_allocated.
Example C62_allocated_ex : exists st, py_alloc list_machine (Some [(str "x", num1)]) true = Ret st.
Proof. eexists. vm_compute. reflexivity. Qed.

(** allocState() without arguments is allocState({}, inherit=True): the state of the
    values of the machine. *)
Theorem C62_allocated_default {D B} (m : @machine D B) inherit : state_by_values m ->
  py_alloc m None inherit = py_alloc m (Some []) true.
Proof. exact (alloc_default m inherit). Qed.
Print Assumptions C62_allocated_default.
Example C62_allocated_default_ex : (forall w c m, new_machine (moment_reg w) c = Ok m -> state_by_values m) /\
  (forall num c m, new_machine (vector_reg num) c = Ok m -> state_by_values m) /\
  (forall num c m, new_machine (matrix_reg num) c = Ok m -> state_by_values m).
Proof. split; [exact moment_by_values|]. split; [exact vector_by_values|exact matrix_by_values]. Qed.

(** conf() shows every name visible in the configuration of the machine once, with its
    value, conf(i) those of element i; names and strings are cut at a null character. *)
Theorem C62_conf_shows {D B} (m : @machine D B) index l : py_conf m index = Ret l ->
  exists c, match index with None => c = m_conf m | Some i => (0 <= i)%Z /\ kept_conf m (Z.to_nat i) = Some c end /\
    (ssorted (town c) -> shows_all c l).
Proof. exact (conf_shown m index l). Qed.
Print Assumptions C62_conf_shows.
Example C62_conf_shows_ex : (exists l, py_conf list_machine None = Ret l /\ List.length l = 4) /\ ssorted (town (m_conf list_machine)) /\
  exists l, py_conf list_machine (Some 0%Z) = Ret l /\ List.length l = 5.
Proof. split; [eexists; split; vm_compute; reflexivity|]. split; [vm_compute; repeat split; intros ? ? H; repeat (destruct H as [H|H]; [injection H as <- _; reflexivity|]); destruct H|]. eexists. split; vm_compute; reflexivity. Qed.
(** There is no element of a negative number, or beyond the last. *)
Theorem C62_conf_raises {D B} (m : @machine D B) i : (i < 0)%Z \/ kept_conf m (Z.to_nat i) = None -> py_conf m (Some i) = Raise.
Proof. exact (conf_refused m i). Qed.
Print Assumptions C62_conf_raises.
Example C62_conf_raises_ex : kept_conf list_machine (Z.to_nat 2) = None.
Proof. vm_compute. reflexivity. Qed.
