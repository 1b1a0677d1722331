(** Example programs of several threads, and the refutations' witnesses. *)
From Coq Require Import List String Bool NArith ZArith Arith Lia.
From Verif Require Import SMap Dbl Config_Spec Machine_Model Reg_Model Reg3_Proofs Thr_Model Thr_Spec Thr_Proofs.
Import ListNotations.
Open Scope string_scope.
Open Scope list_scope.

(** The types of C90's example registered; level WARN (base.cpp:295). *)
Definition none92 : shared double double := mkSh [] 0.
Definition toy92 : shared double double := after none92 [(0, CState "Toy" (fun _ => Ok dzero)); (0, CElem "Toy" "keep" keep_cls)].
(** Constructors that make no call, that warn, that build a machine of their own. *)
Definition still92 (_ : shared double double) (_ : tcfg) : list (call double double) := [].
Definition hush92 (_ : shared double double) (_ : tcfg) : list (call double double) := [CLog 20 "made"].
Definition warn92 (_ : shared double double) (_ : tcfg) : list (call double double) := [CLog 30 "odd"].
Definition nest92 (_ : shared double double) (_ : tcfg) : list (call double double) := [CMake conf90].

Lemma quiet_hush : quiet 30 hush92.
Proof. intros g c. constructor; [|constructor]. simpl. lia. Qed.

Lemma anytime_w : exists (inner : shared double double -> tcfg -> list (call double double)) g c k,
  (forall g' c', inner g' c' = [CLog 30 "odd"]) /\
  (exists m, new_machine (sh_reg g) c = Ok m) /\
  forall more, ~ finished (turns 30 inner (start 30 g [[CMake c]; [CElem "Toy" "other" k]]) ([0; 0; 0] ++ more)) /\
    y_out (turns 30 inner (start 30 g [[CMake c]; [CElem "Toy" "other" k]]) ([0; 0; 0] ++ more)) = [].
Proof.
  exists warn92, toy92, conf90, keep_cls. split; [reflexivity|]. split; [eexists; reflexivity|].
  intros more. rewrite turns_app.
  set (y := turns 30 warn92 _ [0; 0; 0]).
  assert (Hf : forall s, turns 30 warn92 y s = y).
  { induction s as [|i s IH]; auto. change (turns 30 warn92 y (i :: s)) with (turns 30 warn92 (turn 30 warn92 y i) s).
    replace (turn 30 warn92 y i) with y; auto. destruct i as [|[|i]]; try reflexivity. simpl. destruct i; reflexivity. }
  rewrite Hf. split; [|reflexivity]. intros F. inversion F as [|t l E]. discriminate.
Qed.
Lemma nested_w : exists (inner : shared double double -> tcfg -> list (call double double)) g c,
  (exists m, new_machine (sh_reg g) c = Ok m) /\ (forall g' c', inner g' c' = [CMake c]) /\
  forall more, ~ finished (turns 30 inner (start 30 g [[CMake c]]) ([0; 0; 0] ++ more)).
Proof.
  exists nest92, toy92, conf90. split; [eexists; reflexivity|]. split; [reflexivity|].
  intros more. rewrite turns_app. set (y := turns 30 nest92 _ [0; 0; 0]).
  assert (Hf : forall s, turns 30 nest92 y s = y).
  { induction s as [|i s IH]; auto. change (turns 30 nest92 y (i :: s)) with (turns 30 nest92 (turn 30 nest92 y i) s).
    replace (turn 30 nest92 y i) with y; auto. destruct i as [|i]; try reflexivity. simpl. destruct i; reflexivity. }
  rewrite Hf. intros F. inversion F as [|t l E]. discriminate.
Qed.
Lemma late_w : exists sched, forall g : shared double double, forall old new msg, sh_logger g = old -> old <> new ->
  let y := turns 30 still92 (start 30 g [[CLog 40 msg]; [CLogger new]]) sched in
  finished y /\ y_out y = [(1, AnsUnit (Ok tt)); (0, AnsMsg old 40 msg)].
Proof.
  exists [0; 0; 0; 0; 1; 1; 1; 1; 1; 0]. intros [r lg] old new msg E _. simpl in E. subst old. simpl.
  split; [|reflexivity]. repeat constructor.
Qed.
