(** Histories of a virtual accelerator that are played through, for the examples. *)
From Coq Require Import List String Ascii Bool NArith ZArith Arith Lia.
From Verif Require Import SMap Dbl Lexer_Model Config_Spec Machine_Model Machine_Spec Machine3_Proofs Util_Model Array_Model
  Array_Spec Array3_Proofs Ioc_Model Ioc_Spec Ioc_Proofs Ioc2_Proofs.
Import ListNotations.
Open Scope string_scope.
Open Scope list_scope.

Section Drive.
Context {D B : Type}.
Variables (ab : abi) (kindof : B -> kind) (memof : B -> mem) (what : exn -> string).
(** Steps in the given order: 0 is the worker, [S i] is thread [i]. *)
Fixpoint drive (sched : list nat) (y : sys D B) : option (sys D B) :=
  match sched with
  | [] => Some y
  | 0 :: r => match wstep what y with Went y' => drive r y' | _ => None end
  | S i :: r => match cstep ab kindof memof i y with Went y' => drive r y' | _ => None end
  end.
Lemma drive_reach sched : forall y y', drive sched y = Some y' -> reach ab kindof memof what y y'.
Proof.
  induction sched as [|[|i] r IH]; simpl; intros y y' H.
  - injection H as <-. constructor.
  - destruct (wstep what y) eqn:E; try discriminate. eapply reach_trans; [|apply IH; exact H].
    econstructor; [constructor|constructor 1; exact E].
  - destruct (cstep ab kindof memof i y) eqn:E; try discriminate. eapply reach_trans; [|apply IH; exact H].
    econstructor; [constructor|econstructor 2; exact E].
Qed.
End Drive.

(** The toy simulation: its state is shown as a VectorState in which all numbers are the
    number of elements passed. *)
Definition toy_kind (l : list string) : kind := KVector.
Definition toy_mem (l : list string) : mem := fun b _ =>
  match b with BNext => Some (CN 0) | _ => Some (CD (d_of_Z (Z.of_nat (List.length l)))) end.
Definition toy_what (e : exn) : string := match e with RuntimeError => "oops" | _ => "other" end.
Definition toy_sim : vsim nat (list string) := new_sim toy_machine.
Definition toy_reach := reach ab0 toy_kind toy_mem toy_what (D:=nat).
Definition toy_drive := drive ab0 toy_kind toy_mem toy_what (D:=nat).
Definition plain_ana : ana := mkAna dzero dzero false dzero dzero.

(** Two threads: one asks for a simulation while the other changes a setting, then the
    first looks at it and the other ends it all. *)
Definition toy_scripts : list (list vop) :=
  [[VDoSim; VGet 1 "gain" plain_ana]; [VSet 1 "gain" plain_ana (d_of_Z 5); VStop]].
Definition toy_sched : list nat :=
  [0; 0;                 (* the worker waits *)
   1; 1; 1; 1; 1;        (* the request *)
   2; 2; 2; 2;           (* the setting *)
   0; 0; 0;              (* the worker wakes up *)
   0; 0; 0; 0; 0; 0; 0; 0;
   1; 1; 1].
Definition toy_mid : sys nat (list string) :=
  match toy_drive toy_sched (start toy_sim toy_scripts) with Some y => y | None => start toy_sim toy_scripts end.
Definition toy_end : sys nat (list string) :=
  match toy_drive [2; 2; 2; 2; 0; 0; 0; 2] toy_mid with Some y => y | None => start toy_sim toy_scripts end.
Lemma toy_mid_reached : toy_reach (start toy_sim toy_scripts) toy_mid.
Proof. eapply (drive_reach ab0 toy_kind toy_mem toy_what toy_sched). vm_compute. reflexivity. Qed.
Lemma toy_end_reached : toy_reach (start toy_sim toy_scripts) toy_end.
Proof.
  eapply reach_trans; [apply toy_mid_reached|].
  eapply (drive_reach ab0 toy_kind toy_mem toy_what [2; 2; 2; 2; 0; 0; 0; 2]). vm_compute. reflexivity.
Qed.
Lemma toy_end_stuck : stuck ab0 toy_kind toy_mem toy_what toy_end.
Proof. split; [vm_compute; reflexivity|]. intros [|[|[|i]]]; vm_compute; reflexivity. Qed.
(** Without the end. *)
Definition toy_rest : sys nat (list string) :=
  match toy_drive [0; 0; 1; 1; 1; 1; 1; 0; 0; 0; 0; 0; 0; 0; 0; 0; 0; 0] (start toy_sim [[VDoSim]]) with Some y => y | None => start toy_sim [] end.
Lemma toy_rest_reached : toy_reach (start toy_sim [[VDoSim]]) toy_rest.
Proof. eapply (drive_reach ab0 toy_kind toy_mem toy_what [0; 0; 1; 1; 1; 1; 1; 0; 0; 0; 0; 0; 0; 0; 0; 0; 0; 0]). vm_compute. reflexivity. Qed.
Lemma toy_rest_stuck : stuck ab0 toy_kind toy_mem toy_what toy_rest.
Proof. split; [vm_compute; reflexivity|]. intros [|[|i]]; vm_compute; reflexivity. Qed.

Section Rest.
Context {D B : Type}.
Variables (ab : abi) (kindof : B -> kind) (memof : B -> mem) (what : exn -> string).
Notation reach := (reach (D:=D) (B:=B) ab kindof memof what).
Notation stuck := (stuck (D:=D) (B:=B) ab kindof memof what).
Notation replays := (replays (D:=D) (B:=B) ab kindof memof what).
Implicit Types (s : vsim D B) (y : sys D B).

Lemma serial s scripts y : reach (start s scripts) y -> y_lock y = None -> replays s (y_hist y) (y_sim y).
Proof.
  intros Hr El. destruct (inv_reach _ _ _ _ _ _ _ Hr) as [(s1 & R & Hh) _]. unfold held in Hh. rewrite El in Hh.
  destruct Hh as [-> _]. exact R.
Qed.
Lemma always_replays s scripts y : reach (start s scripts) y -> exists s1, replays s (y_hist y) s1.
Proof. intros Hr. destruct (inv_reach _ _ _ _ _ _ _ Hr) as [(s1 & R & _) _]. eauto. Qed.

Lemma rest_done s scripts y : v_dosim s = false -> v_stop s = false -> reach (start s scripts) y -> stuck y ->
  (forall i script, nth_error scripts i = Some script -> made_by i (y_hist y) = script) /\
  (existsb is_end (y_hist y) = false -> ~ unserved (y_hist y) /\ y_worker y = WWait) /\
  (existsb is_end (y_hist y) = true -> y_worker y = WDone).
Proof.
  intros Hd Hs Hr St. destruct (stuck_idle _ _ _ _ _ _ _ Hd Hs Hr St) as (El & Cl & W).
  pose proof (serial _ _ _ Hr El) as R. destruct (in_order _ _ _ _ _ _ _ Hr) as [Len Ord].
  pose proof (replay_stop _ _ _ _ _ _ _ R) as E. rewrite Hs in E. simpl in E.
  split; [|split].
  - intros i sc Hi. destruct (nth_error (y_clients y) i) as [c|] eqn:Ec.
    + rewrite (Ord _ _ _ Hi Ec), (Cl _ _ Ec). simpl. rewrite app_nil_r. reflexivity.
    + exfalso. apply nth_error_None in Ec. assert (i < List.length scripts) by (apply nth_error_Some; congruence). lia.
  - intros Hn. destruct W as [(Ww & Wd & Ws)|[_ Ws]]; [|congruence]. split; auto.
    intros U. apply (replay_dosim _ _ _ _ _ _ _ Hd R) in U. congruence.
  - intros He. destruct W as [(_ & _ & Ws)|[Ww _]]; [congruence|auto].
Qed.
Lemma few_runs s scripts y : v_dosim s = false -> reach (start s scripts) y ->
  count is_run (y_hist y) <= count is_request (y_hist y).
Proof.
  intros Hd Hr. destruct (always_replays _ _ _ Hr) as [s1 R]. pose proof (replay_runs _ _ _ _ _ _ _ Hd R). lia.
Qed.
Lemma none_after_end s scripts y : reach (start s scripts) y -> forall h1 x h2, y_hist y = h1 ++ x :: h2 ->
  is_end x = true -> count is_run h2 = 0.
Proof. intros Hr. destruct (always_replays _ _ _ Hr) as [s1 R]. intros h1 x h2 E. eapply replay_no_run_after_stop; eauto. Qed.
Lemma stopped s scripts y i t : reach (start s scripts) y -> nth_error (y_clients y) i = Some (CReady t) ->
  In VStop (made_by i (y_hist y)) -> y_worker y = WDone.
Proof. intros Hr Hi Hin. destruct (joins _ _ _ _ _ _ _ _ _ Hr Hi Hin) as [[t' [?|?]]|?]; [discriminate|discriminate|auto]. Qed.
Lemma undefined s scripts y : reach (start s scripts) y ->
  (wstep what y = Gone \/ exists i, cstep ab kindof memof i y = Gone) ->
  exists s1, replays s (y_hist y) s1 /\
    ((v_dosim s1 = true /\ v_stop s1 = false /\ run_once what s1 = None) \/
     exists i script o, nth_error scripts i = Some script /\ In o script /\ atomic ab kindof memof o s1 = None).
Proof.
  intros Hr [G|[i G]].
  - destruct (gone_worker _ _ _ _ _ _ _ Hr G) as (s1 & R & H). eauto.
  - destruct (gone_client _ _ _ _ _ _ _ _ Hr G) as (s1 & o & R & Ha & c & Hc & Hin). exists s1. split; auto. right.
    destruct (in_order _ _ _ _ _ _ _ Hr) as [Len Ord].
    destruct (nth_error scripts i) as [sc|] eqn:Es.
    + exists i, sc, o. split; auto. split; auto. rewrite (Ord _ _ _ Es Hc). apply in_app_iff. auto.
    + exfalso. apply nth_error_None in Es. assert (i < List.length (y_clients y)) by (apply nth_error_Some; congruence). lia.
Qed.
End Rest.
