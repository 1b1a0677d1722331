(** C79: what the readings of a virtual accelerator show. *)
From Coq Require Import List String Ascii Bool NArith ZArith Arith Lia SpecFloat.
From Verif Require Import SMap Dbl Lexer_Model Config_Spec Machine_Model Machine_Spec Machine3_Proofs Util_Model Util_Spec Array_Model
  Array_Spec Array3_Proofs Ioc_Model Ioc_Spec Ioc3_Proofs Ioc5_Proofs Ioc6_Proofs Ioc8_Proofs Ioc9_Proofs Ioc10_Proofs Ioc11_Proofs.
Import ListNotations.
Open Scope string_scope.
Open Scope list_scope.

(** ** C79 *)
(** A run simulates the lattice from its beginning to its end, or until an exception is
    thrown.  Its message is then kept, and readings get an alarm.  What leaves the watched
    elements that were passed is kept; what was kept of the others stays. *)
Theorem C79_run : forall (D B : Type) ab kindof memof what r (s s' : vsim D B),
  serves ab kindof memof what r s -> all_classes r steady -> (Z.of_nat (List.length (m_elems (v_machine s))) <= INT_MAX)%Z ->
  run_once what s = Some s' ->
  let '(bs, e) := simulation (v_machine s) in
  v_valid s' = (match e with Ok _ => true | Throw _ => false end) /\
  v_msg s' = (match e with Ok _ => v_msg s | Throw x => what x end) /\
  (e = Ok tt -> List.length bs = List.length (m_elems (v_machine s))) /\
  v_scans s' = S (v_scans s) /\ v_dosim s' = false /\ v_stop s' = v_stop s /\ v_measures s' = v_measures s /\
  lattice s' = lattice s /\
  forall i, left_by s' i = match nth_error bs (N.to_nat i) with
                           | Some b => if mfind i (v_measures s) then Some b else None
                           | None => left_by s i
                           end.
Proof. exact @run_is. Qed.
Print Assumptions C79_run.
Example C79_run_ex : serves ab0 gm_kind gm_mem toy_what gm_reg gm_sim /\ all_classes gm_reg steady /\
  (Z.of_nat (List.length (m_elems (v_machine gm_sim))) <= INT_MAX)%Z /\ (exists s', run_once toy_what gm_sim = Some s') /\
  simulation (v_machine gm_sim) = ([[d_of_Z 2]; [d_of_Z 2; d_of_Z 3]], Ok tt).
Proof.
  split; [exact gm_served|]. split; [exact gm_steady|]. split; [exact gm_size|]. split; [exact gm_runs|]. vm_compute. reflexivity.
Qed.

(** Readings are without alarm only if there has been a run, and a new machine, with the
    settings as they were at the latest run, simulates without exception. *)
Theorem C79_alarm : forall (D B : Type) ab kindof memof what r (s : vsim D B) h s',
  serves ab kindof memof what r s -> all_classes r steady -> tidy_all r -> all_classes r transparent ->
  (Z.of_nat (List.length (m_elems (v_machine s))) <= INT_MAX)%Z -> v_valid s = false -> replays ab kindof memof what s h s' ->
  (v_valid s' = true <->
   exists h1 h2 m2, h = h1 ++ HRun :: h2 /\ count is_run h2 = 0 /\
     new_machine r (lattice_of (m_simtype (v_machine s)) (edits h1 (lattice s))) = Ok m2 /\ snd (simulation m2) = Ok tt).
Proof. exact @valid_iff. Qed.
Print Assumptions C79_alarm.
Example C79_alarm_ex : serves ab0 gm_kind gm_mem toy_what gm_reg gm_sim /\ all_classes gm_reg steady /\ tidy_all gm_reg /\
  all_classes gm_reg transparent /\ (Z.of_nat (List.length (m_elems (v_machine gm_sim))) <= INT_MAX)%Z /\ v_valid gm_sim = false /\
  replays ab0 gm_kind gm_mem toy_what gm_sim [HDo 0 (put 0) ODone; HDo 0 VDoSim ODone; HRun] (y_sim gm_bad) /\
  replays ab0 gm_kind gm_mem toy_what gm_sim
    [HDo 0 (put 0) ODone; HDo 0 VDoSim ODone; HRun; HDo 0 (put 4) ODone; HDo 0 VDoSim ODone; HRun] (y_sim gm_good) /\
  v_valid (y_sim gm_bad) = false /\ v_valid (y_sim gm_good) = true.
Proof.
  split; [exact gm_served|]. split; [exact gm_steady|]. split; [exact gm_tidy|]. split; [exact gm_transparent|].
  split; [exact gm_size|]. split; [exact gm_never|]. split; [exact gm_bad_is|]. split; [exact gm_good_is|]. split; vm_compute; reflexivity.
Qed.

(** Without alarm, a reading is what a new machine, with the settings as they were at the
    latest run, has at the record's element, attribute and index. *)
Theorem C79_reading : forall (D B : Type) ab kindof memof what r (s : vsim D B) h s' s'' d a v,
  serves ab kindof memof what r s -> all_classes r steady -> tidy_all r -> all_classes r transparent ->
  (Z.of_nat (List.length (m_elems (v_machine s))) <= INT_MAX)%Z -> well_stored ab kindof memof -> v_valid s = false ->
  replays ab kindof memof what s h s' -> watching s d -> atomic ab kindof memof (VMeas d a) s' = Some (s'', OVal v false) ->
  exists h1 h2 m2 b x, h = h1 ++ HRun :: h2 /\ count is_run h2 = 0 /\
    new_machine r (lattice_of (m_simtype (v_machine s)) (edits h1 (lattice s))) = Ok m2 /\ snd (simulation m2) = Ok tt /\
    nth_error (fst (simulation m2)) (N.to_nat (md_index d)) = Some b /\
    attr_value ab kindof memof b (md_attr d) (md_dims d) x /\ v = to_val a x.
Proof. exact @reading_is. Qed.
Print Assumptions C79_reading.
Example C79_reading_ex : serves ab0 gm_kind gm_mem toy_what gm_reg gm_sim /\ all_classes gm_reg steady /\ tidy_all gm_reg /\
  all_classes gm_reg transparent /\ (Z.of_nat (List.length (m_elems (v_machine gm_sim))) <= INT_MAX)%Z /\
  well_stored ab0 gm_kind gm_mem /\ v_valid gm_sim = false /\
  replays ab0 gm_kind gm_mem toy_what gm_sim
    [HDo 0 (put 0) ODone; HDo 0 VDoSim ODone; HRun; HDo 0 (put 4) ODone; HDo 0 VDoSim ODone; HRun] (y_sim gm_good) /\
  watching gm_sim gm_b /\
  atomic ab0 gm_kind gm_mem (VMeas gm_b plain_ana) (y_sim gm_good) = Some (y_sim gm_good, OVal (d_of_Z 4) false).
Proof.
  split; [exact gm_served|]. split; [exact gm_steady|]. split; [exact gm_tidy|]. split; [exact gm_transparent|].
  split; [exact gm_size|]. split; [exact gm_stored|]. split; [exact gm_never|]. split; [exact gm_good_is|]. split; [exact (proj1 gm_watching)|].
  vm_compute. reflexivity.
Qed.

(** With or without alarm, a reading shows what was last kept at its element; if that has
    no such number, it shows 0, with alarm. *)
Theorem C79_shown : forall (D B : Type) ab kindof memof what (s s' : vsim D B) d a v al r,
  serves ab kindof memof what r s -> well_stored ab kindof memof -> watching s d ->
  atomic ab kindof memof (VMeas d a) s = Some (s', OVal v al) ->
  s' = s /\
  ((exists b x, left_by s (md_index d) = Some b /\ attr_value ab kindof memof b (md_attr d) (md_dims d) x /\
      v = to_val a x /\ al = negb (v_valid s)) \/
   ((forall b x, left_by s (md_index d) = Some b -> ~ attr_value ab kindof memof b (md_attr d) (md_dims d) x) /\
      v = to_val a dzero /\ al = true)).
Proof. exact @meas_ok. Qed.
Print Assumptions C79_shown.
Example C79_shown_ex : serves ab0 gm_kind gm_mem toy_what gm_reg (y_sim gm_y1) /\ well_stored ab0 gm_kind gm_mem /\
  watching (y_sim gm_y1) gm_b /\
  atomic ab0 gm_kind gm_mem (VMeas gm_b plain_ana) (y_sim gm_y1) = Some (y_sim gm_y1, OVal (d_of_Z 2) false) /\
  atomic ab0 gm_kind gm_mem (VMeas gm_b plain_ana) gm_sim = Some (gm_sim, OVal dzero true).
Proof.
  split; [apply gm_serves_y1|]. split; [exact gm_stored|]. split; [apply gm_serves_y1|]. split; vm_compute; reflexivity.
Qed.

(** An orbit shows the same for its elements, in their order; where there is no such
    number the waveform stays as it was.  There is an alarm unless the latest run was
    without exception, all elements fit into the waveform and all have the number. *)
Theorem C79_orbit : forall (D B : Type) ab kindof memof what r (s s' : vsim D B) d buf out n al,
  serves ab kindof memof what r s -> well_stored ab kindof memof -> watching_all s d ->
  atomic ab kindof memof (VOrbit d buf) s = Some (s', OWave out n al) ->
  s' = s /\ n = Nat.min (List.length buf) (List.length (od_slots d)) /\ List.length out = List.length buf /\
  (forall k j old, nth_error (od_slots d) k = Some j -> nth_error buf k = Some old ->
     (exists b x, left_by s (N.of_nat j) = Some b /\ attr_value ab kindof memof b (od_attr d) (od_dims d) x /\ nth_error out k = Some x) \/
     ((forall b x, left_by s (N.of_nat j) = Some b -> ~ attr_value ab kindof memof b (od_attr d) (od_dims d) x) /\ nth_error out k = Some old)) /\
  (forall k, n <= k -> nth_error out k = nth_error buf k) /\
  (al = false <-> v_valid s = true /\ List.length (od_slots d) <= List.length buf /\
     forall j, In j (od_slots d) -> exists b x, left_by s (N.of_nat j) = Some b /\ attr_value ab kindof memof b (od_attr d) (od_dims d) x).
Proof. exact @orbit_ok. Qed.
Print Assumptions C79_orbit.
Example C79_orbit_ex : serves ab0 gm_kind gm_mem toy_what gm_reg (y_sim gm_y1) /\ well_stored ab0 gm_kind gm_mem /\
  watching_all (y_sim gm_y1) gm_orb /\
  exists out n, atomic ab0 gm_kind gm_mem (VOrbit gm_orb [d_of_Z 7; d_of_Z 8; d_of_Z 9]) (y_sim gm_y1) = Some (y_sim gm_y1, OWave out n false) /\
    out = [d_of_Z 2; d_of_Z 2; d_of_Z 9] /\ n = 2.
Proof. split; [apply gm_serves_y1|]. split; [exact gm_stored|]. split; [apply gm_serves_y1|]. exact gm_orbit_is. Qed.

(** The elements' numbers, for the waveform of an orbit. *)
Theorem C79_numbers : forall (D B : Type) ab kindof memof what r (s s' : vsim D B) d buf out n al,
  serves ab kindof memof what r s -> atomic ab kindof memof (VIndex d buf) s = Some (s', OWave out n al) ->
  s' = s /\ n = Nat.min (List.length buf) (List.length (od_slots d)) /\ List.length out = List.length buf /\
  (forall k j, k < n -> nth_error (od_slots d) k = Some j -> nth_error out k = Some (d_of_Z (Z.of_nat j))) /\
  (forall k, n <= k -> nth_error out k = nth_error buf k) /\
  (al = false <-> List.length (od_slots d) <= List.length buf).
Proof. exact @index_ok. Qed.
Print Assumptions C79_numbers.
Example C79_numbers_ex : serves ab0 gm_kind gm_mem toy_what gm_reg gm_sim /\
  atomic ab0 gm_kind gm_mem (VIndex gm_orb [d_of_Z 7; d_of_Z 8; d_of_Z 9]) gm_sim =
    Some (gm_sim, OWave [d_of_Z 0; d_of_Z 1; d_of_Z 9] 2 false) /\
  atomic ab0 gm_kind gm_mem (VIndex gm_orb [d_of_Z 7]) gm_sim = Some (gm_sim, OWave [d_of_Z 0] 1 true).
Proof. split; [exact gm_served|]. split; vm_compute; reflexivity. Qed.

(** With records of links that were accepted (C77), whatever the threads do, behaviour
    stays defined. *)
Theorem C79_defined : forall (D B : Type) ab kindof memof what r (s : vsim D B) scripts y,
  serves ab kindof memof what r s -> all_classes r steady -> all_classes r polite -> fresh_defined s ->
  (Z.of_nat (List.length (m_elems (v_machine s))) <= INT_MAX)%Z -> well_stored ab kindof memof ->
  (forall b b', alike (kindof b) (kindof b')) ->
  (forall script o, In script scripts -> In o script -> usable kindof s o) ->
  reach ab kindof memof what (start s scripts) y ->
  wstep what y <> Gone /\ forall i, cstep ab kindof memof i y <> Gone.
Proof. exact @never_undefined. Qed.
Print Assumptions C79_defined.
Example C79_defined_ex : serves ab0 gm_kind gm_mem toy_what gm_reg gm_sim /\ all_classes gm_reg steady /\ all_classes gm_reg polite /\
  fresh_defined gm_sim /\ (Z.of_nat (List.length (m_elems (v_machine gm_sim))) <= INT_MAX)%Z /\ well_stored ab0 gm_kind gm_mem /\
  (forall b b', alike (gm_kind b) (gm_kind b')) /\
  (forall script o, In script [[VDoSim; VMeas gm_b plain_ana]; [VOrbit gm_orb [dzero; dzero]]] -> In o script -> usable gm_kind gm_sim o).
Proof.
  split; [exact gm_served|]. split; [exact gm_steady|]. split; [exact gm_polite|]. split; [exact gm_fresh|].
  split; [exact gm_size|]. split; [exact gm_stored|]. split; [exact gm_alike|].
  intros script o [<-|[<-|[]]]; [intros [<-|[<-|[]]]|intros [<-|[]]]; apply gm_usable.
Qed.

(** Readings without alarm need not fit the settings: after a setting was changed they
    stay without alarm, though the lattice now gives another number. *)
Theorem C79_current_refuted : exists h s', replays ab0 gm_kind gm_mem toy_what gm_sim h s' /\
  atomic ab0 gm_kind gm_mem (VMeas gm_b plain_ana) s' = Some (s', OVal (d_of_Z 2) false) /\
  exists m b, new_machine gm_reg (lattice_of (m_simtype (v_machine s')) (lattice s')) = Ok m /\ snd (simulation m) = Ok tt /\
    nth_error (fst (simulation m)) 1 = Some b /\ attr_value ab0 gm_kind gm_mem b (md_attr gm_b) (md_dims gm_b) (d_of_Z 10).
Proof. exact C79_current_refuted_w. Qed.
Print Assumptions C79_current_refuted.

(** The record of the latest message shows the message of a failure even after a later
    simulation succeeded. *)
Theorem C79_message_refuted : exists h s', replays ab0 gm_kind gm_mem toy_what gm_sim h s' /\
  v_msg gm_sim = "" /\ v_valid s' = true /\ atomic ab0 gm_kind gm_mem (VMsg 9) s' = Some (s', OText (firstn 9 (list_ascii_of_string (toy_what RuntimeError)))) /\
  firstn 9 (list_ascii_of_string (toy_what RuntimeError)) <> [].
Proof. exact C79_message_refuted_w. Qed.
Print Assumptions C79_message_refuted.
