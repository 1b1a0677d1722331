(** C88: who frees what - Machines, elements, observers. *)
From Coq Require Import List String Bool NArith ZArith Arith.
From Verif Require Import SMap Dbl Config_Spec Machine_Model Machine_Spec Cli_Model Own_Model Own_Spec.
From Verif Require Import Machine3_Proofs Own_Proofs Own2_Proofs Own3_Proofs Own4_Proofs Own5_Proofs Own6_Proofs.
Import ListNotations.
Open Scope string_scope.
Open Scope list_scope.

(** A program which keeps to the rules of Own_Spec - machines are used while they exist;
    an observer is attached to one element at a time and left to it, or taken back by
    set_observer - accesses no object that is gone and deletes nothing twice, whether or
    not constructions, propagations and reconfigurations fail. *)
Theorem C88_safe : forall D B (reg : registry D B) l b,
  obeys reg b_start l b -> exists p, run reg p_start l = Fine p.
Proof. intros D B. exact safe. Qed.
Print Assumptions C88_safe.
Example C88_safe_ex : obeys toy_reg b_start own_prog own_end.
Proof. exact own_obeys. Qed.

(** When it has deleted its machines and its own observers in the end, and every
    construction succeeded, nothing is left in memory. *)
Theorem C88_freed : forall D B (reg : registry D B) l b p,
  obeys reg b_start l b -> run reg p_start l = Fine p -> all_built reg l -> all_gone b ->
  h_live (p_heap p) = [].
Proof. intros D B. exact freed. Qed.
Print Assumptions C88_freed.
Example C88_freed_ex : obeys toy_reg b_start own_prog own_end /\ all_built toy_reg own_prog /\ all_gone own_end.
Proof. split; [exact own_obeys|]. split; [exact own_built|]. split; repeat constructor. Qed.

(** An element deletes its observer: the owner of an observer who keeps it until the
    element is gone, as base.h:203-207 asks, and deletes it then, deletes it twice. *)
Theorem C88_owner_frees_refuted : exists (reg : registry nat (list string)) c m st,
  run reg p_start [New c; NewObs; SetObs 0 1 (Some 0); Propagate 0 st 0 10; Del 0; DelObs 0] = Bad /\
  new_machine reg c = Ok m.
Proof. exact (ex_intro _ _ (ex_intro _ _ (ex_intro _ _ (ex_intro _ _ C88_owner_frees_refuted_w)))). Qed.
Print Assumptions C88_owner_frees_refuted.

(** One observer for two elements works until the machine is deleted. *)
Theorem C88_shared_refuted : exists (reg : registry nat (list string)) c m st,
  (exists p, run reg p_start [New c; NewObs; SetObs 0 0 (Some 0); SetObs 0 1 (Some 0); Propagate 0 st 0 10] = Fine p /\
    step reg p (Del 0) = Bad) /\ new_machine reg c = Ok m.
Proof. exact (ex_intro _ _ (ex_intro _ _ (ex_intro _ _ (ex_intro _ _ C88_shared_refuted_w)))). Qed.
Print Assumptions C88_shared_refuted.

(** A constructor of Machine that throws leaves the elements built so far in memory, for
    ever: as many as there are in front of the one that failed. *)
Theorem C88_leak : forall D B (reg : registry D B) p c t i good bad rest,
  get_str c "sim_type" = Ok t -> sfind t reg = Some i ->
  get_cfgs c "elements" = Ok (good ++ bad :: rest) -> Forall (buildable i) good -> ~ constructs i bad ->
  exists p', step reg p (New c) = Fine p' /\ p_ms p' = p_ms p ++ [None] /\
    (exists e, new_machine reg c = Throw e) /\
    List.length (h_live (p_heap p')) = List.length good + List.length (h_live (p_heap p)) /\
    forall a, In a (h_live (p_heap p)) -> In a (h_live (p_heap p')).
Proof. intros D B. exact leak. Qed.
Print Assumptions C88_leak.
Example C88_leak_ex : get_str bad_conf "sim_type" = Ok "toy"%string /\ sfind "toy" toy_reg = Some toy_info /\
  get_cfgs bad_conf "elements" = Ok ([entry "a" "mark"; entry "b" "probe"] ++ TCfg [("type", TStr "mark")] [] :: [entry "c" "mark"]) /\
  Forall (buildable toy_info) [entry "a" "mark"; entry "b" "probe"] /\
  ~ constructs toy_info (TCfg [("type", TStr "mark")] []).
Proof. exact bad_conf_parts. Qed.

Theorem C88_failed_refuted : exists (reg : registry nat (list string)) c p,
  obeys reg b_start [New c] (mkBk [None] []) /\ all_gone (mkBk [None] []) /\
  run reg p_start [New c] = Fine p /\ List.length (h_live (p_heap p)) = 2.
Proof. exact (ex_intro _ _ (ex_intro _ _ C88_failed_refuted_w)). Qed.
Print Assumptions C88_failed_refuted.

(** From Python nothing goes wrong with Machines that have been initialised, once each:
    the observer of propagate() is a local variable, but no element keeps it, also when
    propagate() or the list observe= fails. *)
Theorem C88_python_safe : forall D B (reg : registry D B) l s,
  pyobeys reg [] l s -> exists p, pyrun reg y_start l = Fine p.
Proof. intros D B. exact py_safe. Qed.
Print Assumptions C88_python_safe.
Example C88_python_safe_ex : pyobeys toy_reg [] own_calls [Freed; Freed; Freed].
Proof. exact own_calls_obey. Qed.

(** ... and nothing is left when the initialised ones have been freed. *)
Theorem C88_python_freed : forall D B (reg : registry D B) l s p,
  pyobeys reg [] l s -> pyrun reg y_start l = Fine p -> py_all_built reg l -> ~ In Ready s ->
  h_live (y_heap p) = [].
Proof. intros D B. exact py_freed. Qed.
Print Assumptions C88_python_freed.
Example C88_python_freed_ex : pyobeys toy_reg [] own_calls [Freed; Freed; Freed] /\ py_all_built toy_reg own_calls /\
  ~ In Ready [Freed; Freed; Freed].
Proof. split; [exact own_calls_obey|]. split; [exact own_calls_built|]. intros [H|[H|[H|[]]]]; discriminate. Qed.

(** A Machine made by __new__ alone, or whose __init__ failed, has a NULL pointer, which
    no method checks. *)
Theorem C88_uninitialised_refuted : exists (reg : registry nat (list string)) c,
  pyrun reg y_start [PyNew; PyUse 0] = Bad /\ pyrun reg y_start [PyNew; PyInit 0 c; PyUse 0] = Bad.
Proof. exact (ex_intro _ _ (ex_intro _ _ C88_uninitialised_refuted_w)). Qed.
Print Assumptions C88_uninitialised_refuted.

(** A second __init__ forgets the first Machine. *)
Theorem C88_twice_refuted : exists (reg : registry nat (list string)) c m p,
  pyrun reg y_start [PyNew; PyInit 0 c; PyInit 0 c; PyFree 0] = Fine p /\
  new_machine reg c = Ok m /\ List.length (h_live (y_heap p)) = 5.
Proof. exact (ex_intro _ _ (ex_intro _ _ (ex_intro _ _ C88_twice_refuted_w))). Qed.
Print Assumptions C88_twice_refuted.

(** The command line tool makes one observer for each selected element, whatever the
    options select and however often, and has freed everything in the end. *)
Theorem C88_tool_freed : forall D B (reg : registry D B) mk a max c m st1 st2,
  new_machine reg c = Ok m -> max <> INT_MIN ->
  exists h, cli_mem reg (mkH 0 [] []) mk a max c st1 st2 = Fine h /\ h_live h = [].
Proof. intros D B. exact cli_freed. Qed.
Print Assumptions C88_tool_freed.
Example C88_tool_freed_ex : exists h, new_machine toy_reg toy_conf = Ok toy_machine /\
  cli_mem toy_reg (mkH 0 [] []) true (mkArgs [] None None "txt" true ["mark"; "mark"] ["a"; "b"] true true) 10 toy_conf own_st own_st = Fine h /\
  h_next h = 9.
Proof. eexists. split; [exact toy_built|]. split; vm_compute; reflexivity. Qed.

(** The elements which have observers are those of C68. *)
Theorem C88_tool_selected : forall D B mk a h h' (m m' : omach D B),
  cli_select mk a (h, m) = Fine (h', m') ->
  map observed (om_elems m') = map observed (m_elems (select a (if mk then Some 0 else None) (om_m m))).
Proof. intros D B. exact cli_selected. Qed.
Print Assumptions C88_tool_selected.
Example C88_tool_selected_ex : exists h m h' m', new_mem toy_reg (mkH 0 [] []) toy_conf = (h, Ok m) /\
  cli_select true (mkArgs [] None None "txt" false ["probe"; "none"] ["c"] false false) (h, m) = Fine (h', m') /\
  map observed (om_elems m') = [false; true; false; true].
Proof. do 4 eexists. split; [vm_compute; reflexivity|]. split; vm_compute; reflexivity. Qed.
