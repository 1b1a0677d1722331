(** C80: databases generated for a virtual accelerator. *)
From Coq Require Import List String Ascii Bool NArith ZArith Arith Lia.
From Verif Require Import SMap Dbl Lexer_Model Config_Spec Machine_Model Machine_Spec Machine3_Proofs Util_Model Array_Model
  Array_Spec Array3_Proofs Ioc_Model Ioc_Spec Ioc3_Proofs Ioc6_Proofs Gen_Model Gen_Spec Gen_Proofs Gen2_Proofs Gen4_Proofs Gen5_Proofs.
Import ListNotations.
Open Scope string_scope.
Open Scope list_scope.

(** ** C80 *)
(** Whatever the mangler and the templates: the generator ends.  It writes one row for
    every element that has a template, in the order of the lattice, with prefixes that are
    all different; and the same rows again by type, one section for each type there is.
    It fails only if there is no such element. *)
Theorem C80_complete : forall mangle is_file es, exists all gs,
  map w_elem all = filter (fun e => is_file (g_type e)) es /\ NoDup (map w_rname all) /\
  NoDup (map fst gs) /\ (forall t ws, In (t, ws) gs -> ws = filter (fun w => String.eqb (g_type (w_elem w)) t) all /\ ws <> []) /\
  (forall w, In w all -> exists ws, In (g_type (w_elem w), ws) gs) /\
  emit mangle is_file es =
    Some (match all with
          | [] => Throw RuntimeError
          | _ => Ok (mkOut (("common.template", all) :: map (fun g => (fst g ++ ".template", snd g)%string) gs) (markers es))
          end).
Proof. exact emit_spec. Qed.
Print Assumptions C80_complete.
Example C80_complete_ex : emit default_mangler has_template [mkG "p" "probe"] = Some (Throw RuntimeError) /\
  emit default_mangler has_template lat_es = Some (Ok lat_out) /\
  map (fun s => (fst s, map w_ename (snd s))) (o_sections lat_out) =
    [("common.template", ["m"; "L1:S"; "L1:S[1]"; "m[1]"]); ("marker.template", ["m"; "m[1]"]); ("solenoid.template", ["L1:S"; "L1:S[1]"])].
Proof. repeat split; vm_compute; reflexivity. Qed.

(** With the mangler that is there: each row's element, looked up in the simulation, is the
    one the row was written for, also among elements of equal names. *)
Theorem C80_resolves : forall (D B : Type) ab kindof memof what r (g : simmap D B) sim s es is_file o,
  (forall n s, sfind n g = Some s -> serves ab kindof memof what r s) -> sfind sim g = Some s -> ws sim -> same_elements s es ->
  (forall e, In e es -> element_name (g_name e)) -> emit default_mangler is_file es = Some (Ok o) ->
  exists all rest, o_sections o = ("common.template", all) :: rest /\
    Forall2 (fun j w => nth_error es j = Some (w_elem w) /\ init_elem g (sim ++ " " ++ w_ename w) = IOk (N.of_nat j)) (covered is_file es) all.
Proof. exact @resolves. Qed.
Print Assumptions C80_resolves.
Example C80_resolves_ex : (forall n s, sfind n lat_g = Some s -> serves ab0 lat_kind toy_mem toy_what lat_reg s) /\
  sfind "S" lat_g = Some lat_sim /\ ws "S" /\ same_elements lat_sim lat_es /\ (forall e, In e lat_es -> element_name (g_name e)) /\
  emit default_mangler has_template lat_es = Some (Ok lat_out) /\ covered has_template lat_es = [0; 1; 3; 4] /\
  init_elem lat_g "S L1:S[1]" = IOk 3%N.
Proof.
  split; [intros n s H; apply lat_all in H as [_ ->]; apply lat_served|]. split; [reflexivity|]. split; [split; [discriminate|reflexivity]|].
  split; [exact lat_same|]. split; [intros e H; apply lat_names, H|]. split; [exact lat_emit|]. split; vm_compute; reflexivity.
Qed.

(** With it and the templates that are there, the database can be loaded, and no two
    records have the same name. *)
Theorem C80_names : forall pref sim es o, (forall e, In e es -> element_name (g_name e) /\ g_type e <> "common") ->
  emit default_mangler has_template es = Some (Ok o) -> exists recs, database pref sim o = Some recs /\ NoDup (map r_name recs).
Proof. exact names_of. Qed.
Print Assumptions C80_names.
Example C80_names_ex : (forall e, In e lat_es -> element_name (g_name e) /\ g_type e <> "common") /\
  emit default_mangler has_template lat_es = Some (Ok lat_out) /\
  exists recs, database "P:" "S" lat_out = Some recs /\ List.length recs = 58 /\
    In "P:L1:S:1B-SP" (map r_name recs) /\ In "P:m:X-I" (map r_name recs) /\ In "P:X-I" (map r_name recs).
Proof.
  split; [exact lat_names|]. split; [exact lat_emit|]. eexists. split; [vm_compute; reflexivity|]. split; [reflexivity|].
  repeat split; repeat (first [left; reflexivity|right]).
Qed.

(** In a MomentMatrix simulation with a marker, whose elements have the parameters that
    the templates are about, all records of the database are initialised, one after the
    other; and the waveforms have room for all markers. *)
Theorem C80_starts_partial : forall (D B : Type) ab kindof memof what r0 (g : simmap D B) sim s st n es pref o,
  (forall n s, sfind n g = Some s -> serves ab kindof memof what r0 s /\ fresh_ok kindof s) -> sfind sim g = Some s -> ws sim ->
  same_elements s es -> (forall e, In e es -> element_name (g_name e) /\ g_type e <> "common") ->
  alloc_state (v_machine s) (TCfg [] []) = Ok st -> kindof (st_body st) = KMoment n -> equipped s -> markers es <> 0 ->
  emit default_mangler has_template es = Some (Ok o) ->
  exists recs g', database pref sim o = Some recs /\ boots ab kindof g recs g'.
Proof. exact @booting. Qed.
Print Assumptions C80_starts_partial.
Example C80_starts_partial_ex : (forall n s, sfind n lat_g = Some s -> serves ab0 lat_kind toy_mem toy_what lat_reg s /\ fresh_ok lat_kind s) /\
  sfind "S" lat_g = Some lat_sim /\ same_elements lat_sim lat_es /\
  alloc_state (v_machine lat_sim) (TCfg [] []) = Ok (mkSt 0 false []) /\ equipped lat_sim /\ markers lat_es = 2.
Proof.
  split; [intros n s H; apply lat_all in H as [_ ->]; apply lat_served|]. split; [reflexivity|].
  split; [exact lat_same|]. split; [reflexivity|]. split; [exact lat_equipped|reflexivity].
Qed.
Theorem C80_waveforms : forall (D B : Type) (s : vsim D B) es mangle is_file o, same_elements s es ->
  emit mangle is_file es = Some (Ok o) -> o_nelm o = List.length (slots_typed "marker" (m_elems (v_machine s))).
Proof. exact @waveforms. Qed.
Print Assumptions C80_waveforms.
Example C80_waveforms_ex : same_elements lat_sim lat_es /\ emit default_mangler has_template lat_es = Some (Ok lat_out) /\ o_nelm lat_out = 2.
Proof. split; [exact lat_same|]. split; [exact lat_emit|reflexivity]. Qed.

(** With another mangler a row can have an instance number of no meaning: here "c" is the
    only element of its name but its row says "c[2]", which is not found. *)
Theorem C80_manglers_refuted : same_elements set_sim two_es /\
  exists o all rest w, emit by_type (fun _ => true) two_es = Some (Ok o) /\ o_sections o = ("common.template", all) :: rest /\
    In w all /\ g_name (w_elem w) = "c" /\ w_ename w = "c[2]" /\ init_elem set_g "S c" = IOk 3%N /\ init_elem set_g ("S " ++ w_ename w) = IErr.
Proof. exact C80_manglers_refuted_w. Qed.
Print Assumptions C80_manglers_refuted.
(** The templates do not depend on sim_type, so that for Vector they do not fit. *)
Theorem C80_other_simulations_refuted : exists recs r, serves ab0 toy_kind toy_mem toy_what lat_reg lat_sim /\ fresh_ok toy_kind lat_sim /\
  database "P:" "S" lat_out = Some recs /\ In r recs /\ r_dtyp r = "FLAME State" /\
  forall g', ~ starts ab0 toy_kind lat_g r g'.
Proof. exact C80_other_simulations_refuted_w. Qed.
Print Assumptions C80_other_simulations_refuted.
(** Without a marker the records of orbit.db are refused. *)
Theorem C80_without_markers_refuted : exists o recs r, serves ab0 lat_kind toy_mem toy_what lat_reg (new_sim bare_m) /\
  same_elements (new_sim bare_m) [mkG "s" "solenoid"] /\ emit default_mangler has_template [mkG "s" "solenoid"] = Some (Ok o) /\
  o_nelm o = 0 /\ database "P:" "S" o = Some recs /\ In r recs /\ r_name r = "P:S-I" /\ forall g', ~ starts ab0 lat_kind bare_g r g'.
Proof. exact C80_without_markers_refuted_w. Qed.
Print Assumptions C80_without_markers_refuted.
(** Those of a solenoid given by a field table (ncurve) instead of B also. *)
Theorem C80_field_tables_refuted : exists o recs r, serves ab0 lat_kind toy_mem toy_what lat_reg (new_sim curve_m) /\
  same_elements (new_sim curve_m) [mkG "m" "marker"; mkG "s" "solenoid"] /\
  emit default_mangler has_template [mkG "m" "marker"; mkG "s" "solenoid"] = Some (Ok o) /\
  database "P:" "S" o = Some recs /\ In r recs /\ r_name r = "P:s:B-SP" /\ forall g', ~ starts ab0 lat_kind curve_g r g'.
Proof. exact C80_field_tables_refuted_w. Qed.
Print Assumptions C80_field_tables_refuted.
