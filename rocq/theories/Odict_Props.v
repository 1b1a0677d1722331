(** C82: Machine.conf() of the Python package. *)
From Coq Require Import List String Ascii NArith ZArith Bool.
From Verif Require Import SMap Dbl Config_Model Config_Spec Glps_Model Machine_Model Py_Model Py_Spec Glps6_Proofs Machine3_Proofs Py_Proofs Py2_Proofs Py3_Proofs Py4_Proofs Py5_Proofs Py6_Proofs Odict_Model Odict_Spec Odict_Proofs.
Import ListNotations.
Open Scope string_scope.
Open Scope list_scope.

(** ** C82 *)
(** conf() gives a dict whenever the method of the extension module gives a list. *)
Theorem C82_given {D B} (m : @machine D B) index l : py_conf m index = Ret l -> exists d, machine_conf m index = Ret d.
Proof. exact (dict_given m index l). Qed.
Print Assumptions C82_given.
Example C82_given_ex : exists l, py_conf list_machine None = Ret l /\ List.length l = 4.
Proof. eexists. split; vm_compute; reflexivity. Qed.

(** It has every name visible once, in byte order, with its value; a list of Configs is a
    list of dicts, each with the names of its own. *)
Theorem C82_shows {D B} (m : @machine D B) index d : machine_conf m index = Ret d ->
  exists c, match index with None => c = m_conf m | Some i => (0 <= i)%Z /\ kept_conf m (Z.to_nat i) = Some c end /\
    (names_ok c -> dict_shows held (fun n => tfind n c) d).
Proof. exact (dict_shown m index d). Qed.
Print Assumptions C82_shows.
Example C82_shows_ex : names_ok (m_conf list_machine) /\ exists d es, machine_conf list_machine None = Ret d /\ In (str "elements", PyList es) d /\ List.length es = 2.
Proof. split; [exact list_names|]. eexists. eexists. split; [vm_compute; reflexivity|]. split; [left; reflexivity|reflexivity]. Qed.

(** A Machine made from it is the one made from the list. *)
Theorem C82_rebuilt {D B} (m : @machine D B) l d reg w mem e : py_conf m None = Ret l -> machine_conf m None = Ret d -> names_ok (m_conf m) ->
  @py_machine D B reg w mem (Some (PyDict d)) e = py_machine reg w mem (Some (PyList l)) e.
Proof. exact (rebuilt m l d reg w mem e). Qed.
Print Assumptions C82_rebuilt.
Example C82_rebuilt_ex : exists l d m, py_conf list_machine None = Ret l /\ machine_conf list_machine None = Ret d /\ names_ok (m_conf list_machine) /\
  py_machine toy_reg demo no_mem (Some (PyDict d)) PyNone = Ret m.
Proof. eexists. eexists. eexists. split; [vm_compute; reflexivity|]. split; [vm_compute; reflexivity|]. split; [exact list_names|vm_compute; reflexivity]. Qed.

(** reconfigure(i, conf(i), replace=True) rebuilds element i from the same values, if no
    lists of Configs are visible from it. *)
Theorem C82_put_back_partial {D B} (m : @machine D B) i o d : kept_conf m (N.to_nat i) = Some o -> plain_conf o ->
  machine_conf m (Some (Z.of_N i)) = Ret d ->
  exists c, (forall n, tfind n c = tfind n o) /\
    py_reconfigure m i d true = (let (m', r) := reconfigure m i c in (m', lift r)).
Proof. exact (put_back m i o d). Qed.
Print Assumptions C82_put_back_partial.
Example C82_put_back_partial_ex : exists o d, kept_conf list_machine 0 = Some o /\ plain_conf o /\ machine_conf list_machine (Some 0%Z) = Ret d /\ List.length d = 5.
Proof.
  destruct list_conf as (o & l & d & H1 & H2 & _). exists o. eexists. split; [exact H1|]. split; [exact H2|].
  split; [vm_compute; reflexivity|reflexivity].
Qed.

(** Of names that differ after a null character only one is left. *)
Theorem C82_null_characters_refuted : exists (m : @machine nat (list string)) d, new_machine toy_reg nul_cfg = Ok m /\ machine_conf m None = Ret d /\
  tfind "a" (m_conf m) = Some (TNum n1) /\ List.length d = 5 /\ In (str "a", num2) d.
Proof. exact C82_null_characters_refuted_w. Qed.
Print Assumptions C82_null_characters_refuted.
(** Not recursively: lists in elements stay lists of lists of pairs. *)
Theorem C82_recursively_refuted : exists (m : @machine nat (list string)) d es e, py_machine toy_reg demo no_mem (Some (PyList inner_list)) PyNone = Ret m /\
  machine_conf m None = Ret d /\ In (str "elements", PyList es) d /\ In (PyDict e) es /\ In (str "f", PyList [PyList [pair "x" num1]]) e.
Proof. exact C82_recursively_refuted_w. Qed.
Print Assumptions C82_recursively_refuted.
(** GLPSParser.parse() returns a list, not an OrderedDict. *)
Theorem C82_parsed_refuted : exists l, py_parse demo no_mem (Some (PyBytes small_text)) PyNone = Ret (PyList l).
Proof. exact C82_parsed_refuted_w. Qed.
Print Assumptions C82_parsed_refuted.
