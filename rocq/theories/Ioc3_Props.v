(** C78: what settings of a virtual accelerator do. *)
From Coq Require Import List String Ascii Bool NArith ZArith Arith Lia SpecFloat.
From Verif Require Import SMap Dbl Lexer_Model Config_Spec Machine_Model Machine_Spec Machine3_Proofs Util_Model Util_Spec Array_Model
  Array_Spec Array3_Proofs Ioc_Model Ioc_Spec Ioc3_Proofs Ioc5_Proofs Ioc6_Proofs Ioc7_Proofs Ioc11_Proofs Ioc2_Spec Ioc12_Proofs.
Import ListNotations.
Open Scope string_scope.
Open Scope list_scope.

(** ** C78 *)
(** After a setting was written without alarm, any readback of it shows what was written
    (as far as its scale allows), and all other readbacks show what they did. *)
Theorem C78_write : forall (D B : Type) ab kindof memof i p a x (s s' : vsim D B),
  atomic ab kindof memof (VSet i p a x) s = Some (s', ODone) ->
  forall i' p' a', atomic ab kindof memof (VGet i' p' a') s' =
    if (N.eqb i' i && String.eqb p' p)%bool then Some (s', OVal (to_val a' (of_val a x)) false)
    else Some (s', match atomic ab kindof memof (VGet i' p' a') s with Some (_, o) => o | None => OAlarm end).
Proof. exact @write_read. Qed.
Print Assumptions C78_write.
Example C78_write_ex : exists s', atomic ab0 gm_kind gm_mem (put 10) gm_sim = Some (s', ODone) /\
  atomic ab0 gm_kind gm_mem (VGet 0 "gain" plain_ana) s' = Some (s', OVal (d_of_Z 10) false) /\
  atomic ab0 gm_kind gm_mem (VGet 1 "gain" plain_ana) s' = Some (s', OVal (d_of_Z 3) false) /\
  atomic ab0 gm_kind gm_mem (VGet 1 "name" plain_ana) s' = Some (s', OAlarm).
Proof. eexists. split; [vm_compute; reflexivity|]. split; [|split]; vm_compute; reflexivity. Qed.

(** Nothing else changes: neither what was simulated before nor which elements have which
    names and types. *)
Theorem C78_rest : forall (D B : Type) ab kindof memof what r i p a x (s s' : vsim D B),
  serves ab kindof memof what r s -> atomic ab kindof memof (VSet i p a x) s = Some (s', ODone) ->
  v_stop s' = v_stop s /\ v_dosim s' = v_dosim s /\ v_valid s' = v_valid s /\ v_msg s' = v_msg s /\
  v_measures s' = v_measures s /\ v_last s' = v_last s /\ v_scans s' = v_scans s /\
  (forall n, slots_named n (m_elems (v_machine s')) = slots_named n (m_elems (v_machine s))) /\
  (forall n, slots_typed n (m_elems (v_machine s')) = slots_typed n (m_elems (v_machine s))).
Proof. exact @set_rest_all. Qed.
Print Assumptions C78_rest.
Example C78_rest_ex : exists s', serves ab0 gm_kind gm_mem toy_what gm_reg gm_sim /\
  atomic ab0 gm_kind gm_mem (put 10) gm_sim = Some (s', ODone) /\ v_measures s' = [(0%N, 0); (1%N, 1)].
Proof. eexists. split; [exact gm_served|]. split; vm_compute; reflexivity. Qed.

(** A write is taken if the element exists, its type takes the Config with the number, and
    it is neither its name nor its type that would change.  Otherwise there is an alarm,
    and nothing has changed. *)
Theorem C78_accepted : forall (D B : Type) ab kindof memof what r i p a x (s : vsim D B),
  serves ab kindof memof what r s -> tidy_all r -> atomic ab kindof memof (VSet i p a x) s <> None ->
  ((exists s', atomic ab kindof memof (VSet i p a x) s = Some (s', ODone)) <->
   exists e d, nth_error (m_elems (v_machine s)) (N.to_nat i) = Some e /\ p <> "name" /\ p <> "type" /\
     cl_ctor (el_class e) (tset p (TNum (of_val a x)) (eb_conf (el_base e))) = Ok d) /\
  (~ (exists s', atomic ab kindof memof (VSet i p a x) s = Some (s', ODone)) -> atomic ab kindof memof (VSet i p a x) s = Some (s, OAlarm)).
Proof. exact @set_answers. Qed.
Print Assumptions C78_accepted.
Example C78_accepted_ex : serves ab0 gm_kind gm_mem toy_what gm_reg gm_sim /\ tidy_all gm_reg /\
  (exists s', atomic ab0 gm_kind gm_mem (put 10) gm_sim = Some (s', ODone)) /\
  atomic ab0 gm_kind gm_mem (VSet 0 "name" plain_ana (d_of_Z 1)) gm_sim = Some (gm_sim, OAlarm) /\
  atomic ab0 gm_kind gm_mem (VSet 2 "gain" plain_ana (d_of_Z 1)) gm_sim = Some (gm_sim, OAlarm).
Proof.
  split; [exact gm_served|]. split; [exact gm_tidy|]. split; [eexists; vm_compute; reflexivity|]. split; vm_compute; reflexivity.
Qed.

(** Whatever is done by whom in which order: a readback shows what was last written
    without alarm. *)
Theorem C78_last : forall (D B : Type) ab kindof memof what (s s' : vsim D B) h i p a,
  replays ab kindof memof what s h s' ->
  atomic ab kindof memof (VGet i p a) s' = Some (s', shown a (last_written i p h (reading s i p))).
Proof. exact @history_shown. Qed.
Print Assumptions C78_last.
Example C78_last_ex : replays ab0 gm_kind gm_mem toy_what gm_sim
    [HDo 0 (put 0) ODone; HDo 0 VDoSim ODone; HRun; HDo 0 (put 4) ODone; HDo 0 VDoSim ODone; HRun] (y_sim gm_good) /\
  reading gm_sim 0 "gain" = Some (d_of_Z 2) /\
  atomic ab0 gm_kind gm_mem (VGet 0 "gain" plain_ana) (y_sim gm_good) = Some (y_sim gm_good, OVal (d_of_Z 4) false).
Proof. split; [exact gm_good_is|]. split; vm_compute; reflexivity. Qed.

(** A record without scale and offset reads back what was written to it, except that -0
    becomes 0. *)
Theorem C78_scaled_partial : forall a x,
  deq (a_aslo a) dzero = true -> a_aoff a = dzero -> (a_linr a = false \/ deq (a_eslo a) dzero = true) ->
  to_val a (of_val a x) = x \/ (x = S754_zero true /\ to_val a (of_val a x) = dzero).
Proof. exact plain_trip. Qed.
Print Assumptions C78_scaled_partial.
Example C78_scaled_partial_ex : deq (a_aslo plain_ana) dzero = true /\ a_aoff plain_ana = dzero /\ a_linr plain_ana = false /\
  to_val plain_ana (of_val plain_ana (d_of_Z 7)) = d_of_Z 7.
Proof. repeat split; vm_compute; reflexivity. Qed.

(** With whole scales and offsets, what is shown is the device's number, scaled and moved;
    writing that gives the device this number; and what was written is read back. *)
Theorem C78_scaled_whole : forall a n, fits a n ->
  deq (to_val (fields a) (d_of_Z n)) (d_of_Z (eng a n)) = true /\
  deq (of_val (fields a) (d_of_Z (eng a n))) (d_of_Z n) = true /\
  deq (to_val (fields a) (of_val (fields a) (d_of_Z (eng a n)))) (d_of_Z (eng a n)) = true.
Proof. exact whole_scaled. Qed.
Print Assumptions C78_scaled_whole.
Example C78_scaled_whole_ex : fits (mkZA 49 (-3) true (-1000) 7) 5 /\ eng (mkZA 49 (-3) true (-1000) 7) 5 = (-241993)%Z.
Proof. repeat split; vm_compute; auto. Qed.

(** Other records may read back something else than was written: with ASLO 49, what is
    shown after writing 1 is not 1, and offsets do it too. *)
Theorem C78_scaled_refuted : to_val by49 (of_val by49 (d_of_Z 1)) <> d_of_Z 1 /\
  exists x, to_val off_tenth (of_val off_tenth x) <> x.
Proof. exact C78_scaled_refuted_w. Qed.
Print Assumptions C78_scaled_refuted.
