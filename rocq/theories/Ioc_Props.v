(** C76: the threads of a virtual accelerator. *)
From Coq Require Import List String Ascii Bool NArith ZArith Arith Lia.
From Verif Require Import SMap Dbl Lexer_Model Config_Spec Machine_Model Machine_Spec Machine3_Proofs Util_Model Array_Model
  Array_Spec Array3_Proofs Ioc_Model Ioc_Spec Ioc_Proofs Ioc2_Proofs Ioc3_Proofs.
Import ListNotations.
Open Scope string_scope.
Open Scope list_scope.

(** ** C76 *)
(** Whatever the order in which threads get to make their steps, what they have done
    together is a sequence of whole simulations and whole records, each as if alone; a
    simulation is in it only where one had been requested, and not after the end. *)
Theorem C76_one_at_a_time : forall (D B : Type) ab kindof memof what (s : vsim D B) scripts y,
  reach ab kindof memof what (start s scripts) y -> y_lock y = None ->
  replays ab kindof memof what s (y_hist y) (y_sim y).
Proof. exact @serial. Qed.
Print Assumptions C76_one_at_a_time.
Example C76_one_at_a_time_ex : toy_reach (start toy_sim toy_scripts) toy_mid /\ y_lock toy_mid = None /\
  y_hist toy_mid = [HDo 0 VDoSim ODone; HDo 1 (VSet 1 "gain" plain_ana (d_of_Z 5)) ODone; HRun;
                    HDo 0 (VGet 1 "gain" plain_ana) (OVal (d_of_Z 5) false)].
Proof. split; [exact toy_mid_reached|]. split; vm_compute; reflexivity. Qed.

(** Also while some thread is inside, what has been completed is such a sequence. *)
Theorem C76_always : forall (D B : Type) ab kindof memof what (s : vsim D B) scripts y,
  reach ab kindof memof what (start s scripts) y -> exists s1, replays ab kindof memof what s (y_hist y) s1.
Proof. exact @always_replays. Qed.
Print Assumptions C76_always.
Example C76_always_ex : toy_reach (start toy_sim toy_scripts) toy_mid /\ List.length (y_hist toy_mid) = 4.
Proof. split; [exact toy_mid_reached|vm_compute; reflexivity]. Qed.

(** Each thread's records are processed in its order, none twice and none left out. *)
Theorem C76_in_order : forall (D B : Type) ab kindof memof what (s : vsim D B) scripts y,
  reach ab kindof memof what (start s scripts) y ->
  List.length (y_clients y) = List.length scripts /\
  forall i script c, nth_error scripts i = Some script -> nth_error (y_clients y) i = Some c ->
    script = made_by i (y_hist y) ++ left c.
Proof. exact @in_order. Qed.
Print Assumptions C76_in_order.
Example C76_in_order_ex : toy_reach (start toy_sim toy_scripts) toy_mid /\
  made_by 1 (y_hist toy_mid) = [VSet 1 "gain" plain_ana (d_of_Z 5)] /\
  nth_error (y_clients toy_mid) 1 = Some (CReady [VStop]).
Proof. split; [exact toy_mid_reached|]. split; vm_compute; reflexivity. Qed.

(** It always comes to rest: there is no endless sequence of steps. *)
Theorem C76_comes_to_rest : forall (D B : Type) ab kindof memof what (y : sys D B),
  Acc (fun b a => ystep ab kindof memof what a b) y /\
  ((forall y', reach ab kindof memof what y y' -> wstep what y' <> Gone /\ forall i, cstep ab kindof memof i y' <> Gone) ->
   exists y', reach ab kindof memof what y y' /\ stuck ab kindof memof what y').
Proof. exact (fun D B ab k m w y => conj (all_end ab k m w y) (comes_to_rest ab k m w y)). Qed.
Print Assumptions C76_comes_to_rest.
Example C76_comes_to_rest_ex : toy_reach (start toy_sim toy_scripts) toy_end /\ stuck ab0 toy_kind toy_mem toy_what toy_end.
Proof. split; [exact toy_end_reached|exact toy_end_stuck]. Qed.

(** When nothing can happen any more, nobody is stuck: all threads have processed all
    their records; the worker waits and every request has been followed by a simulation,
    or it has been told to end, and has. *)
Theorem C76_at_rest : forall (D B : Type) ab kindof memof what (s : vsim D B) scripts y,
  v_dosim s = false -> v_stop s = false ->
  reach ab kindof memof what (start s scripts) y -> stuck ab kindof memof what y ->
  (forall i script, nth_error scripts i = Some script -> made_by i (y_hist y) = script) /\
  (existsb is_end (y_hist y) = false -> ~ unserved (y_hist y) /\ y_worker y = WWait) /\
  (existsb is_end (y_hist y) = true -> y_worker y = WDone).
Proof. exact @rest_done. Qed.
Print Assumptions C76_at_rest.
Example C76_at_rest_ex : v_dosim toy_sim = false /\ v_stop toy_sim = false /\
  toy_reach (start toy_sim [[VDoSim]]) toy_rest /\ stuck ab0 toy_kind toy_mem toy_what toy_rest /\
  y_hist toy_rest = [HDo 0 VDoSim ODone; HRun] /\
  toy_reach (start toy_sim toy_scripts) toy_end /\ stuck ab0 toy_kind toy_mem toy_what toy_end /\
  existsb is_end (y_hist toy_end) = true.
Proof.
  repeat split; try exact toy_rest_reached; try exact toy_end_reached; try apply toy_rest_stuck; try apply toy_end_stuck;
    vm_compute; reflexivity.
Qed.

(** No simulation without a request. *)
Theorem C76_no_more_than_asked : forall (D B : Type) ab kindof memof what (s : vsim D B) scripts y, v_dosim s = false ->
  reach ab kindof memof what (start s scripts) y -> count is_run (y_hist y) <= count is_request (y_hist y).
Proof. exact @few_runs. Qed.
Print Assumptions C76_no_more_than_asked.
Example C76_no_more_than_asked_ex : v_dosim toy_sim = false /\ toy_reach (start toy_sim toy_scripts) toy_end /\
  count is_run (y_hist toy_end) = 1.
Proof. split; [reflexivity|]. split; [exact toy_end_reached|vm_compute; reflexivity]. Qed.

(** After the end is announced nothing is simulated, and the thread that announced it
    goes on only when the worker has returned. *)
Theorem C76_the_end : forall (D B : Type) ab kindof memof what (s : vsim D B) scripts y,
  reach ab kindof memof what (start s scripts) y ->
  (forall h1 x h2, y_hist y = h1 ++ x :: h2 -> is_end x = true -> count is_run h2 = 0) /\
  (forall i t, nth_error (y_clients y) i = Some (CReady t) -> In VStop (made_by i (y_hist y)) -> y_worker y = WDone).
Proof. exact (fun D B ab k m w s sc y H => conj (none_after_end ab k m w s sc y H) (fun i t => stopped ab k m w s sc y i t H)). Qed.
Print Assumptions C76_the_end.
Example C76_the_end_ex : toy_reach (start toy_sim toy_scripts) toy_end /\
  nth_error (y_clients toy_end) 1 = Some (CReady []) /\ In VStop (made_by 1 (y_hist toy_end)).
Proof. split; [exact toy_end_reached|]. split; [vm_compute; reflexivity|]. vm_compute. auto. Qed.

(** Behaviour becomes undefined in no other way than it would without threads. *)
Theorem C76_undefined : forall (D B : Type) ab kindof memof what (s : vsim D B) scripts y,
  reach ab kindof memof what (start s scripts) y ->
  (wstep what y = Gone \/ exists i, cstep ab kindof memof i y = Gone) ->
  exists s1, replays ab kindof memof what s (y_hist y) s1 /\
    ((v_dosim s1 = true /\ v_stop s1 = false /\ run_once what s1 = None) \/
     exists i script o, nth_error scripts i = Some script /\ In o script /\ atomic ab kindof memof o s1 = None).
Proof. exact @undefined. Qed.
Print Assumptions C76_undefined.
Example C76_undefined_ex : let bad := VMeas (mkMD "S" 0 7 0 []) plain_ana in exists y,
  toy_reach (start toy_sim [[bad]]) y /\ cstep ab0 toy_kind toy_mem 0 y = Gone.
Proof.
  intros bad. destruct (toy_drive [1; 1] (start toy_sim [[bad]])) as [y|] eqn:E; [|vm_compute in E; discriminate].
  exists y. split; [eapply drive_reach; exact E|]. vm_compute in E. injection E as <-. vm_compute. reflexivity.
Qed.
