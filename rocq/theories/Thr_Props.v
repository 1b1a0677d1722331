(** C92: the framework's static calls from several threads. *)
From Coq Require Import List String Bool NArith ZArith Arith Lia.
From Verif Require Import SMap Dbl Config_Spec Machine_Model Reg_Model Reg3_Proofs Thr_Model Thr_Spec Thr_Proofs Thr2_Proofs.
Import ListNotations.
Open Scope string_scope.
Open Scope list_scope.

(** Whatever turns threads take, there is an order of the calls made so far, the same
    for all, that keeps the order of each thread: types, logger and each thread's
    answers are those of the calls made one after another in this order.  At most the
    last answer of a thread is still on its way; once it has no step left, it has made
    all its calls and has all its answers. *)
Theorem C92_atomic {D B} detail (inner : shared D B -> tcfg -> list (call D B)) g ps sched : quiet detail inner ->
  exists l,
    y_sh (turns detail inner (start detail g ps) sched) = after g l /\ Forall (fun p => fst p < List.length ps) l /\
    forall i p, nth_error ps i = Some p -> exists t rest last,
      nth_error (y_th (turns detail inner (start detail g ps) sched)) i = Some t /\
      kept detail p (mine i l ++ rest) /\
      mine i (gave g l) = mine i (y_out (turns detail inner (start detail g ps) sched)) ++ last /\ List.length last <= 1 /\
      (t_code t = [] -> rest = [] /\ last = []).
Proof. intros Q. exact (atomic detail inner Q g ps sched). Qed.
Print Assumptions C92_atomic.
(** Two threads register the same type and build a machine; one of them is refused. *)
Definition race92 : list (list (call double double)) :=
  [[CState "Toy" (fun _ => Ok dzero); CElem "Toy" "keep" keep_cls; CLog 10 "no"; CMake conf90];
   [CState "Toy" (fun _ => Ok dzero); CMake conf90; CLog 40 "yes"]].
Example C92_atomic_ex : quiet 30 hush92 /\
  map (fun p => (fst p, match snd p with AnsUnit (Ok _) | AnsNew (Ok _) => 1 | AnsMsg _ _ _ => 2 | _ => 0 end))
      (y_out (turns 30 hush92 (start 30 none92 race92) (flat_map (fun _ => [1; 0]) (seq 0 40)))) =
  [(1, 1); (0, 0); (1, 0); (0, 1); (1, 2); (0, 1)].
Proof. split; [exact quiet_hush|]. vm_compute. reflexivity. Qed.

(** Calls one after another: each message goes to the logger set last, each
    registration and each machine has the types that are known by then. *)
Theorem C92_alone {D B} n (l1 l2 : list (nat * call D B)) i c :
  nth_error (gave (mkSh [] n) (l1 ++ (i, c) :: l2)) (List.length l1) = Some (i, due n l1 c).
Proof. exact (alone n l1 l2 i c). Qed.
Print Assumptions C92_alone.
Example C92_alone_ex : due 3 [(0, CLogger 5); (1, CState "Toy" (fun _ => Ok dzero)); (1, CLogger 7)] (CLog 40 "a" : call double double) = AnsMsg 7 40 "a" /\
  due 3 [(1, CState "Toy" (fun _ => Ok dzero))] (CState "Toy" (fun _ => Ok dzero) : call double double) = AnsUnit (Throw LogicError) /\
  due 3 [(1, CState "Toy" (fun _ => Ok dzero)); (0, CClean)] (CState "Toy" (fun _ => Ok dzero) : call double double) = AnsUnit (Ok tt).
Proof. repeat split. Qed.

(** No thread waits for ever: from any point of any run, all calls are made as soon as
    each thread has had a turn in each of six rounds for each call. *)
Theorem C92_finishes {D B} detail (inner : shared D B -> tcfg -> list (call D B)) g ps sched rounds :
  quiet detail inner ->
  (forall r, In r rounds -> forall i, i < List.length ps -> In i r) ->
  6 * List.length (List.concat ps) <= List.length rounds ->
  finished (turns detail inner (start detail g ps) (sched ++ List.concat rounds)).
Proof. intros Q. exact (finishes detail inner Q g ps sched rounds). Qed.
Print Assumptions C92_finishes.
Example C92_finishes_ex : quiet 30 hush92 /\
  (forall r, In r (map (fun _ => [1; 0]) (seq 0 42)) -> forall i, i < List.length race92 -> In i r) /\
  6 * List.length (List.concat race92) <= List.length (map (fun _ => [1; 0]) (seq 0 42)) /\
  ~ finished (turns 30 hush92 (start 30 none92 race92) [0; 0; 0]).
Proof.
  split; [exact quiet_hush|]. split.
  - intros r H i Hi. apply in_map_iff in H. destruct H as (? & <- & _). simpl in *. lia.
  - split; [simpl; lia|]. intros F. inversion F as [|t l E]. discriminate.
Qed.

(** Constructors of elements must not call the framework: as soon as one that does, by
    a message that is not below the level of detail, by registering, or by making a
    machine, is reached, its thread waits for ever, so does every thread that waits for
    the mutex, and nothing that is shared changes any more. *)
Theorem C92_deadlock {D B} detail (inner : shared D B -> tcfg -> list (call D B)) g ps sched i t c k more :
  nth_error (y_th (turns detail inner (start detail g ps) sched)) i = Some t -> t_code t = IBuild c :: k ->
  Exists (real_call detail) (inner (t_seen t) c) ->
  let y := turns detail inner (start detail g ps) (sched ++ i :: more) in
  ~ finished y /\ waits y i /\ y_lock y = Some i /\ y_sh y = y_sh (turns detail inner (start detail g ps) sched) /\
  forall j, waits (turns detail inner (start detail g ps) sched) j -> waits y j.
Proof. exact (deadlock detail inner g ps sched i t c k more). Qed.
Print Assumptions C92_deadlock.
Example C92_deadlock_ex :
  match nth_error (y_th (turns 30 warn92 (start 30 toy92 [[CMake conf90]; [CClean]]) [0; 0])) 0 with
  | Some t => (exists c k, t_code t = IBuild c :: k) /\ Exists (real_call 30) (warn92 (t_seen t) conf90)
  | None => False
  end /\ waits (turns 30 warn92 (start 30 toy92 [[CMake conf90]; [CClean]]) [0; 0]) 1.
Proof.
  split.
  - split; [do 2 eexists; reflexivity|]. constructor. simpl. lia.
  - do 2 eexists. split; [reflexivity|]. split; [reflexivity|]. discriminate.
Qed.

(** "Any thread may create a Machine at any time" (base.h:230) and "This method may be
    called from any thread at any time" (base.h:475) fail if the constructor of an
    element writes a warning: the machine is a good one, but neither its construction nor
    another thread's registration ever returns. *)
Theorem C92_anytime_refuted : exists (inner : shared double double -> tcfg -> list (call double double)) g c k,
  (forall g' c', inner g' c' = [CLog 30 "odd"]) /\
  (exists m, new_machine (sh_reg g) c = Ok m) /\
  forall more, ~ finished (turns 30 inner (start 30 g [[CMake c]; [CElem "Toy" "other" k]]) ([0; 0; 0] ++ more)) /\
    y_out (turns 30 inner (start 30 g [[CMake c]; [CElem "Toy" "other" k]]) ([0; 0; 0] ++ more)) = [].
Proof. exact anytime_w. Qed.
Print Assumptions C92_anytime_refuted.

(** Nor can an element be made of a machine of its own. *)
Theorem C92_nested_refuted : exists (inner : shared double double -> tcfg -> list (call double double)) g c,
  (exists m, new_machine (sh_reg g) c = Ok m) /\ (forall g' c', inner g' c' = [CMake c]) /\
  forall more, ~ finished (turns 30 inner (start 30 g [[CMake c]]) ([0; 0; 0] ++ more)).
Proof. exact nested_w. Qed.
Print Assumptions C92_nested_refuted.

(** A logger can be called after set_logger(), in another thread, has replaced it and
    returned. *)
Theorem C92_replaced_refuted : exists sched, forall g : shared double double, forall old new msg, sh_logger g = old -> old <> new ->
  let y := turns 30 still92 (start 30 g [[CLog 40 msg]; [CLogger new]]) sched in
  finished y /\ y_out y = [(1, AnsUnit (Ok tt)); (0, AnsMsg old 40 msg)].
Proof. exact late_w. Qed.
Print Assumptions C92_replaced_refuted.
