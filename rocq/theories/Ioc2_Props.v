(** C77: the links of a virtual accelerator's records. *)
From Coq Require Import List String Ascii Bool NArith ZArith Arith Lia.
From Verif Require Import SMap Dbl Lexer_Model Config_Spec Machine_Model Machine_Spec Machine3_Proofs Util_Model Array_Model
  Array_Spec Array3_Proofs Ioc_Model Ioc_Spec Ioc3_Proofs Ioc5_Proofs Ioc6_Proofs.
Import ListNotations.
Open Scope string_scope.
Open Scope list_scope.

(** ** C77 *)
(** Which links a setting takes: "simulation element parameter" or "simulation
    element[i] parameter", where the simulation is known, it has more than i elements of
    that name (0 if i is left out) and the element has a number of that name.  The device
    is then that element and the record's value is that number.  Otherwise the record is
    refused, and behaviour is always defined. *)
Theorem C77_settings : forall (D B : Type) ab kindof memof what r (g : simmap D B) link a,
  (forall n s, sfind n g = Some s -> serves ab kindof memof what r s) ->
  init_setting g link a <> IUndef /\
  forall dev v, init_setting g link a = IOk (dev, v) <->
   exists sim el inst par s j e x,
     link = (sim ++ " " ++ el ++ bracket inst ++ " " ++ par)%string /\ ws sim /\ wn el /\ inst_ok inst /\ ws par /\
     sfind sim g = Some s /\ (inst_number inst <= SIZE_MAX)%N /\
     nth_error (slots_named el (m_elems (v_machine s))) (N.to_nat (inst_number inst)) = Some j /\
     nth_error (m_elems (v_machine s)) j = Some e /\ tfind par (eb_conf (el_base e)) = Some (TNum x) /\
     dev = mkSD sim (N.of_nat j) par /\ v = to_val a x.
Proof. exact @links_settings. Qed.
Print Assumptions C77_settings.
Example C77_settings_ex : (forall n s, sfind n set_g = Some s -> serves ab0 toy_kind toy_mem toy_what toy_reg s) /\
  init_setting set_g "S a[1] gain" plain_ana = IOk (mkSD "S" 2 "gain", d_of_Z 4) /\
  init_setting set_g "S a gain" plain_ana = IOk (mkSD "S" 0 "gain", d_of_Z 2) /\
  init_setting set_g "S a[2] gain" plain_ana = IErr /\ init_setting set_g "S  a gain" plain_ana = IErr /\
  init_setting set_g "S c gain" plain_ana = IErr /\ init_setting set_g "T a gain" plain_ana = IErr.
Proof. split; [intros n s H; apply (set_good_g n s H)|]. repeat split; vm_compute; reflexivity. Qed.

(** The number of an element: "simulation element" or "simulation element[i]". *)
Theorem C77_indices : forall (D B : Type) ab kindof memof what r (g : simmap D B) link,
  (forall n s, sfind n g = Some s -> serves ab kindof memof what r s) ->
  init_elem g link <> IUndef /\
  forall i, init_elem g link = IOk i <->
   exists sim el inst s j,
     link = (sim ++ " " ++ el ++ bracket inst)%string /\ ws sim /\ wn el /\ inst_ok inst /\
     sfind sim g = Some s /\ (inst_number inst <= SIZE_MAX)%N /\
     nth_error (slots_named el (m_elems (v_machine s))) (N.to_nat (inst_number inst)) = Some j /\ i = N.of_nat j.
Proof. exact @links_elems. Qed.
Print Assumptions C77_indices.
Example C77_indices_ex : (forall n s, sfind n set_g = Some s -> serves ab0 toy_kind toy_mem toy_what toy_reg s) /\
  init_elem set_g "S a[1]" = IOk 2%N /\ init_elem set_g "S c" = IOk 3%N /\ init_elem set_g "S a[01]" = IOk 2%N /\
  init_elem set_g "S a[-1]" = IErr.
Proof. split; [intros n s H; apply (set_good_g n s H)|]. repeat split; vm_compute; reflexivity. Qed.

(** A reading that is accepted has a link "simulation element[i] attribute[j,k]", where
    [i] and the others may be left out: element and simulation are known as before, and
    the attribute has as many dimensions as are given.  From then on what leaves that
    element is kept; nothing else in the simulation changes. *)
Theorem C77_readings : forall (D B : Type) ab kindof memof what r (g g' : simmap D B) link dev,
  (forall n s, sfind n g = Some s -> serves ab kindof memof what r s /\ fresh_ok kindof s) ->
  init_state ab kindof g link = (g', IOk dev) ->
   exists sim el inst par d s j s' st,
     link = (sim ++ " " ++ el ++ bracket inst ++ " " ++ par ++ dim_text d)%string /\
     ws sim /\ wn el /\ inst_ok inst /\ wn par /\ dim_ok d /\
     sfind sim g = Some s /\ (inst_number inst <= SIZE_MAX)%N /\ dim_small d /\
     nth_error (slots_named el (m_elems (v_machine s))) (N.to_nat (inst_number inst)) = Some j /\
     alloc_state (v_machine s) (TCfg [] []) = Ok st /\
     showable (kindof (st_body st)) par (List.length (dim_numbers d)) (md_attr dev) /\
     g' = sset sim s' g /\ serves ab kindof memof what r s' /\ only_watches s s' /\
     md_sim dev = sim /\ md_index dev = N.of_nat j /\ md_dims dev = dim_numbers d /\
     mfind (N.of_nat j) (v_measures s') = Some (md_obs dev).
Proof. exact @init_state_ok. Qed.
Print Assumptions C77_readings.
Example C77_readings_ex : exists g' dev, init_state ab0 toy_kind set_g "S a[1] state[3]" = (g', IOk dev) /\
  md_index dev = 2%N /\ md_dims dev = [3%N] /\ md_attr dev = 0 /\ md_obs dev = 0 /\
  (forall n s, sfind n set_g = Some s -> serves ab0 toy_kind toy_mem toy_what toy_reg s /\ fresh_ok toy_kind s).
Proof.
  eexists _, _. split; [vm_compute; reflexivity|]. repeat (split; [reflexivity|]).
  intros n s H. destruct (set_good_g n s H) as (H1 & H2 & _). auto.
Qed.

(** All such links are accepted. *)
Theorem C77_readings_accepted : forall (D B : Type) ab kindof memof what r (g : simmap D B) sim el inst par d s j st k,
  serves ab kindof memof what r s -> fresh_ok kindof s ->
  ws sim -> wn el -> inst_ok inst -> wn par -> dim_ok d ->
  sfind sim g = Some s -> (inst_number inst <= SIZE_MAX)%N -> dim_small d ->
  nth_error (slots_named el (m_elems (v_machine s))) (N.to_nat (inst_number inst)) = Some j ->
  alloc_state (v_machine s) (TCfg [] []) = Ok st ->
  showable (kindof (st_body st)) par (List.length (dim_numbers d)) k ->
  exists g' dev, init_state ab kindof g (sim ++ " " ++ el ++ bracket inst ++ " " ++ par ++ dim_text d)%string = (g', IOk dev) /\
    md_attr dev = k.
Proof. exact @init_state_can. Qed.
Print Assumptions C77_readings_accepted.
Example C77_readings_accepted_ex : serves ab0 toy_kind toy_mem toy_what toy_reg set_sim /\ fresh_ok toy_kind set_sim /\
  ws "S" /\ wn "a" /\ inst_ok (Some "1") /\ wn "state" /\ dim_ok (D1 "3") /\ sfind "S" set_g = Some set_sim /\
  (inst_number (Some "1"%string) <= SIZE_MAX)%N /\ dim_small (D1 "3") /\
  nth_error (slots_named "a" (m_elems (v_machine set_sim))) (N.to_nat (inst_number (Some "1"))) = Some 2 /\
  alloc_state (v_machine set_sim) (TCfg [] []) = Ok (mkSt 0 false []) /\
  showable KVector "state" (List.length (dim_numbers (D1 "3"))) 0.
Proof.
  split; [exact set_served|]. split; [apply set_fresh|]. do 5 (split; [vm_compute; (discriminate || (split; [discriminate|reflexivity]))|]).
  split; [reflexivity|]. split; [vm_compute; discriminate|]. split; [repeat constructor; vm_compute; discriminate|].
  split; [reflexivity|]. split; [reflexivity|]. eexists _, _. split; [reflexivity|]. split; [discriminate|reflexivity].
Qed.

(** What is not accepted is refused in a defined way: nothing changes, but that one more
    element may be watched. *)
Theorem C77_readings_refused_partial : forall (D B : Type) ab kindof memof what r (g g' : simmap D B) link x,
  (forall n s, sfind n g = Some s -> serves ab kindof memof what r s /\ fresh_ok kindof s /\ fresh_defined s) ->
  init_state ab kindof g link = (g', x) -> (forall dev, x <> IOk dev) ->
  x = IErr /\ (g' = g \/ exists sim s s', sfind sim g = Some s /\ g' = sset sim s' g /\
                          serves ab kindof memof what r s' /\ only_watches s s').
Proof. exact @init_state_refused. Qed.
Print Assumptions C77_readings_refused_partial.
Example C77_readings_refused_partial_ex :
  (forall n s, sfind n set_g = Some s -> serves ab0 toy_kind toy_mem toy_what toy_reg s /\ fresh_ok toy_kind s /\ fresh_defined s) /\
  init_state ab0 toy_kind set_g "S a[7] pos" = (set_g, IErr).
Proof. split; [exact set_good_g|vm_compute; reflexivity]. Qed.

(** A record that is refused can leave a trace. *)
Theorem C77_leaves_no_trace_refuted : exists g' s', init_state ab0 toy_kind set_g "S b nothing" = (g', IErr) /\
  sfind "S" g' = Some s' /\ v_measures s' <> v_measures set_sim.
Proof. exact C77_leaves_no_trace_refuted_w. Qed.
Print Assumptions C77_leaves_no_trace_refuted.

(** Orbits: "simulation type attribute[j,k]": all elements of the type, in order. *)
Theorem C77_orbits : forall (D B : Type) ab kindof memof what r (g g' : simmap D B) link dev,
  (forall n s, sfind n g = Some s -> serves ab kindof memof what r s /\ fresh_ok kindof s) ->
  init_orbit ab kindof g link = (g', IOk dev) ->
   exists sim ty par d s s' st,
     link = (sim ++ " " ++ ty ++ " " ++ par ++ dim_text d)%string /\ ws sim /\ wn ty /\ wn par /\ dim_ok d /\
     sfind sim g = Some s /\ dim_small d /\ slots_typed ty (m_elems (v_machine s)) <> [] /\
     alloc_state (v_machine s) (TCfg [] []) = Ok st /\
     showable (kindof (st_body st)) par (List.length (dim_numbers d)) (od_attr dev) /\
     g' = sset sim s' g /\ serves ab kindof memof what r s' /\ only_watches s s' /\
     od_sim dev = sim /\ od_slots dev = slots_typed ty (m_elems (v_machine s)) /\ od_dims dev = dim_numbers d /\
     forall j, In j (od_slots dev) -> exists o, mfind (N.of_nat j) (v_measures s') = Some o.
Proof. exact @init_orbit_ok. Qed.
Print Assumptions C77_orbits.
Example C77_orbits_ex : exists g' dev, init_orbit ab0 toy_kind set_g "S mark state[5]" = (g', IOk dev) /\
  od_slots dev = [0; 2; 3] /\ od_dims dev = [5%N] /\
  (forall n s, sfind n set_g = Some s -> serves ab0 toy_kind toy_mem toy_what toy_reg s /\ fresh_ok toy_kind s).
Proof.
  eexists _, _. split; [vm_compute; reflexivity|]. repeat (split; [reflexivity|]).
  intros n s H. destruct (set_good_g n s H) as (H1 & H2 & _). auto.
Qed.
Theorem C77_orbits_accepted : forall (D B : Type) ab kindof memof what r (g : simmap D B) sim ty par d s st k,
  serves ab kindof memof what r s -> fresh_ok kindof s ->
  ws sim -> wn ty -> wn par -> dim_ok d -> sfind sim g = Some s -> dim_small d ->
  slots_typed ty (m_elems (v_machine s)) <> [] ->
  alloc_state (v_machine s) (TCfg [] []) = Ok st -> showable (kindof (st_body st)) par (List.length (dim_numbers d)) k ->
  exists g' dev, init_orbit ab kindof g (sim ++ " " ++ ty ++ " " ++ par ++ dim_text d)%string = (g', IOk dev) /\ od_attr dev = k.
Proof. exact @init_orbit_can. Qed.
Print Assumptions C77_orbits_accepted.
Example C77_orbits_accepted_ex : serves ab0 toy_kind toy_mem toy_what toy_reg set_sim /\ fresh_ok toy_kind set_sim /\
  ws "S" /\ wn "mark" /\ wn "pos" /\ dim_ok D0 /\ sfind "S" set_g = Some set_sim /\ dim_small D0 /\
  slots_typed "mark" (m_elems (v_machine set_sim)) <> [] /\
  alloc_state (v_machine set_sim) (TCfg [] []) = Ok (mkSt 0 false []) /\
  showable KVector "pos" (List.length (dim_numbers D0)) 2.
Proof.
  split; [exact set_served|]. split; [apply set_fresh|]. do 3 (split; [vm_compute; (discriminate || (split; [discriminate|reflexivity]))|]).
  split; [exact I|]. split; [reflexivity|]. split; [constructor|]. split; [vm_compute; discriminate|]. split; [reflexivity|].
  eexists _, _. split; [reflexivity|]. split; [discriminate|reflexivity].
Qed.
Theorem C77_orbits_refused_partial : forall (D B : Type) ab kindof memof what r (g g' : simmap D B) link x,
  (forall n s, sfind n g = Some s -> serves ab kindof memof what r s /\ fresh_ok kindof s /\ fresh_defined s) ->
  init_orbit ab kindof g link = (g', x) -> (forall dev, x <> IOk dev) ->
  x = IErr /\ (g' = g \/ exists sim s s', sfind sim g = Some s /\ g' = sset sim s' g /\
                          serves ab kindof memof what r s' /\ only_watches s s').
Proof. exact @init_orbit_refused. Qed.
Print Assumptions C77_orbits_refused_partial.
Example C77_orbits_refused_partial_ex :
  (forall n s, sfind n set_g = Some s -> serves ab0 toy_kind toy_mem toy_what toy_reg s /\ fresh_ok toy_kind s /\ fresh_defined s) /\
  init_orbit ab0 toy_kind set_g "S quadrupole pos" = (set_g, IErr).
Proof. split; [exact set_good_g|vm_compute; reflexivity]. Qed.

(** The source describes the link of an orbit as holding the name of an element; it is
    the type that is looked up. *)
Theorem C77_orbit_by_name_refuted :
  slots_named "b" (m_elems (v_machine set_sim)) <> [] /\
  init_orbit ab0 toy_kind set_g "S b pos" = (set_g, IErr) /\
  slots_named "probe" (m_elems (v_machine set_sim)) = [] /\
  exists g' dev, init_orbit ab0 toy_kind set_g "S probe pos" = (g', IOk dev).
Proof. exact C77_orbit_by_name_refuted_w. Qed.
Print Assumptions C77_orbit_by_name_refuted.

(** No link reads attributes of three dimensions, so no moment1 and no transmat. *)
Theorem C77_three_dimensions : forall (D B : Type) ab kindof memof what r (g g' : simmap D B) link dev,
  (forall n s, sfind n g = Some s -> serves ab kindof memof what r s /\ fresh_ok kindof s) ->
  init_state ab kindof g link = (g', IOk dev) ->
  exists s st sh nm den, sfind (md_sim dev) g = Some s /\ alloc_state (v_machine s) (TCfg [] []) = Ok st /\
    nth_error (attributes (kindof (st_body st))) (md_attr dev) = Some (nm, sh, den) /\ List.length sh <= 2 /\
    nm <> "moment1" /\ nm <> "transmat" /\ nm <> "next_elem".
Proof. exact @no_three. Qed.
Print Assumptions C77_three_dimensions.
Example C77_three_dimensions_ex : exists g' dev, init_state ab0 toy_kind set_g "S b pos" = (g', IOk dev) /\
  (forall n s, sfind n set_g = Some s -> serves ab0 toy_kind toy_mem toy_what toy_reg s /\ fresh_ok toy_kind s) /\
  snd (init_state ab0 (fun _ => KMoment 1) set_g "S b moment1[0,1]") = IErr /\
  exists d, snd (init_state ab0 (fun _ => KMoment 1) set_g "S b moment1_env[0,1]") = IOk d.
Proof.
  eexists _, _. split; [vm_compute; reflexivity|]. split; [intros n s H; destruct (set_good_g n s H) as (H1 & H2 & _); auto|].
  split; [vm_compute; reflexivity|]. eexists. vm_compute. reflexivity.
Qed.

(** flamePrepare adds a simulation that is as new, and only under a name that is not in
    use; if it reports an error nothing has changed. *)
Theorem C77_prepare : forall (D B : Type) (r : registry D B) g name conf g' x, prepare r g name conf = (g', x) ->
  (g' = g /\ x <> IOk tt) \/
  (exists c m, sfind name g = None /\ conf = Some c /\ new_machine r c = Ok m /\ g' = sset name (new_sim m) g /\ x = IOk tt).
Proof. exact @prepare_ok. Qed.
Print Assumptions C77_prepare.
Example C77_prepare_ex : prepare toy_reg [] "S" (Some set_conf) = (set_g, IOk tt) /\
  prepare toy_reg set_g "S" (Some set_conf) = (set_g, IErr) /\ prepare toy_reg set_g "T" None = (set_g, IErr).
Proof. repeat split; vm_compute; reflexivity. Qed.
