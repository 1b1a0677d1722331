(** A lattice for the examples about generated databases, and the witnesses of the
    refutations. *)
From Coq Require Import List String Ascii Bool NArith ZArith Arith Lia.
From Verif Require Import SMap SMap_Proofs Dbl Lexer_Model Config_Spec Machine_Model Machine_Spec Machine3_Proofs
  Util_Model Array_Model Array_Spec Array3_Proofs Ioc_Model Ioc_Spec Ioc3_Proofs Ioc5_Proofs Ioc6_Proofs Gen_Model Gen_Spec.
Import ListNotations.
Open Scope string_scope.
Open Scope list_scope.

Definition lat_marker : class nat (list string) := mkCls 0 "marker" toy_ctor (fun _ s => s) toy_advance.
Definition lat_solenoid : class nat (list string) := mkCls 1 "solenoid" toy_ctor (fun _ s => s) toy_advance.
Definition lat_reg : registry nat (list string) :=
  match reg_all [] [RegState "toy" (fun _ => Ok []); RegElem "toy" "marker" lat_marker; RegElem "toy" "solenoid" lat_solenoid; RegElem "toy" "probe" probe] with
  | Some r => r | None => [] end.
Definition lat_sol (n : string) : tcfg := TCfg [("B", TNum (d_of_Z 2)); ("name", TStr n); ("type", TStr "solenoid")] [].
Definition lat_conf : tcfg :=
  TCfg [("elements", TCfgs [entry "m" "marker"; lat_sol "L1:S"; entry "p" "probe"; lat_sol "L1:S"; entry "m" "marker"]); ("sim_type", TStr "toy")] [].
Definition lat_m : machine nat (list string) := match new_machine lat_reg lat_conf with Ok m => m | Throw _ => toy_machine end.
Definition lat_sim : vsim nat (list string) := new_sim lat_m.
Definition lat_g : simmap nat (list string) := sset "S" lat_sim [].
Definition lat_es : list gelem := [mkG "m" "marker"; mkG "L1:S" "solenoid"; mkG "p" "probe"; mkG "L1:S" "solenoid"; mkG "m" "marker"].
Definition lat_kind : list string -> kind := fun _ => KMoment 1.
Lemma lat_all n s : sfind n lat_g = Some s -> n = "S" /\ s = lat_sim.
Proof. unfold lat_g. rewrite sfind_sset. destruct (String.eqb_spec n "S") as [->|]; [intros [= <-]; auto|discriminate]. Qed.
Lemma lat_served : serves ab0 lat_kind toy_mem toy_what lat_reg lat_sim /\ fresh_ok lat_kind lat_sim.
Proof.
  split; [eapply (sv_new _ _ _ _ lat_reg lat_conf lat_m); vm_compute; [reflexivity|discriminate]|].
  intros st _. cbn. split; [lia|reflexivity].
Qed.
Lemma lat_same : same_elements lat_sim lat_es.
Proof. vm_compute. reflexivity. Qed.
Lemma lat_names e : In e lat_es -> element_name (g_name e) /\ g_type e <> "common".
Proof. intros I. repeat (destruct I as [<-|I]; [split; [split; [discriminate|split; [reflexivity|discriminate]]|discriminate]|]). destruct I. Qed.
Lemma lat_equipped : equipped lat_sim.
Proof.
  intros e p Ie Ip. vm_compute in Ie. repeat (destruct Ie as [<-|Ie]; [vm_compute in Ip; repeat (destruct Ip as [<-|Ip]; [eexists; vm_compute; reflexivity|]); destruct Ip|]).
  destruct Ie.
Qed.
Definition lat_out : output :=
  match emit default_mangler has_template lat_es with Some (Ok o) => o | _ => mkOut [] 0 end.
Lemma lat_emit : emit default_mangler has_template lat_es = Some (Ok lat_out).
Proof. vm_compute. reflexivity. Qed.

(** A mangler that names by type: the second solenoid, although the only one of its name,
    is taken for the second of its name. *)
Definition by_type (e : gelem) : string := ("$(PREF)" ++ g_type e ++ ":")%string.
Definition two_es : list gelem := [mkG "a" "mark"; mkG "b" "probe"; mkG "a" "mark"; mkG "c" "mark"].
Lemma C80_manglers_refuted_w : same_elements set_sim two_es /\
  exists o all rest w, emit by_type (fun _ => true) two_es = Some (Ok o) /\ o_sections o = ("common.template", all) :: rest /\
    In w all /\ g_name (w_elem w) = "c" /\ w_ename w = "c[2]" /\ init_elem set_g "S c" = IOk 3%N /\ init_elem set_g ("S " ++ w_ename w) = IErr.
Proof.
  split; [vm_compute; reflexivity|]. eexists _, _, _, (mkRow (mkG "c" "mark") "c[2]" "$(PREF)mark:2").
  split; [vm_compute; reflexivity|]. split; [reflexivity|]. split; [cbn; tauto|]. repeat split; vm_compute; reflexivity.
Qed.
(** Other than MomentMatrix. *)
Lemma C80_other_simulations_refuted_w : exists recs r, serves ab0 toy_kind toy_mem toy_what lat_reg lat_sim /\ fresh_ok toy_kind lat_sim /\
  database "P:" "S" lat_out = Some recs /\ In r recs /\ r_dtyp r = "FLAME State" /\
  forall g', ~ starts ab0 toy_kind lat_g r g'.
Proof.
  eexists _, (mkR "P:m:X-I" "FLAME State" "S m moment0_env[0]"). split; [eapply (sv_new _ _ _ _ lat_reg lat_conf lat_m); vm_compute; [reflexivity|discriminate]|].
  split; [intros st _; exact I|]. split; [vm_compute; reflexivity|]. split; [|split; [reflexivity|]].
  - repeat (first [left; reflexivity|right]).
  - intros g' (d & H). vm_compute in H. discriminate.
Qed.
(** Without a marker. *)
Definition bare_conf : tcfg := TCfg [("elements", TCfgs [lat_sol "s"]); ("sim_type", TStr "toy")] [].
Definition bare_m : machine nat (list string) := match new_machine lat_reg bare_conf with Ok m => m | Throw _ => toy_machine end.
Definition bare_g : simmap nat (list string) := sset "S" (new_sim bare_m) [].
Lemma C80_without_markers_refuted_w : exists o recs r, serves ab0 lat_kind toy_mem toy_what lat_reg (new_sim bare_m) /\
  same_elements (new_sim bare_m) [mkG "s" "solenoid"] /\ emit default_mangler has_template [mkG "s" "solenoid"] = Some (Ok o) /\
  o_nelm o = 0 /\ database "P:" "S" o = Some recs /\ In r recs /\ r_name r = "P:S-I" /\ forall g', ~ starts ab0 lat_kind bare_g r g'.
Proof.
  eexists _, _, (mkR "P:S-I" "FLAME State Orbit" "S marker pos"). split; [eapply (sv_new _ _ _ _ lat_reg bare_conf bare_m); vm_compute; [reflexivity|discriminate]|].
  split; [vm_compute; reflexivity|]. split; [vm_compute; reflexivity|]. split; [reflexivity|]. split; [vm_compute; reflexivity|].
  split; [repeat (first [left; reflexivity|right])|]. split; [reflexivity|]. intros g' (d & H). vm_compute in H. discriminate.
Qed.
(** A solenoid with a field table instead of a field. *)
Definition curve_conf : tcfg :=
  TCfg [("elements", TCfgs [entry "m" "marker"; TCfg [("name", TStr "s"); ("ncurve", TNum (d_of_Z 1)); ("type", TStr "solenoid")] []]); ("sim_type", TStr "toy")] [].
Definition curve_m : machine nat (list string) := match new_machine lat_reg curve_conf with Ok m => m | Throw _ => toy_machine end.
Definition curve_g : simmap nat (list string) := sset "S" (new_sim curve_m) [].
Lemma C80_field_tables_refuted_w : exists o recs r, serves ab0 lat_kind toy_mem toy_what lat_reg (new_sim curve_m) /\
  same_elements (new_sim curve_m) [mkG "m" "marker"; mkG "s" "solenoid"] /\
  emit default_mangler has_template [mkG "m" "marker"; mkG "s" "solenoid"] = Some (Ok o) /\
  database "P:" "S" o = Some recs /\ In r recs /\ r_name r = "P:s:B-SP" /\ forall g', ~ starts ab0 lat_kind curve_g r g'.
Proof.
  eexists _, _, (mkR "P:s:B-SP" "FLAME Setting" "S s B"). split; [eapply (sv_new _ _ _ _ lat_reg curve_conf curve_m); vm_compute; [reflexivity|discriminate]|].
  split; [vm_compute; reflexivity|]. split; [vm_compute; reflexivity|]. split; [vm_compute; reflexivity|].
  split; [repeat (first [left; reflexivity|right])|]. split; [reflexivity|]. intros g' (_ & H). destruct (H plain_ana) as (d & v & X). vm_compute in X. discriminate.
Qed.
