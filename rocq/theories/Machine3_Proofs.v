(** A small simulation type with which the hypotheses of the machine theorems are
    exercised, and the witnesses of the refutations. *)
From Coq Require Import List String Bool NArith ZArith Arith Lia Permutation.
From Verif Require Import SMap SMap_Proofs Dbl Config_Spec Machine_Model Machine_Spec
  Machine_Proofs Machine2_Proofs.
Import ListNotations.
Open Scope string_scope.

(** Private data: a counter.  State: the names passed so far. *)
Definition toy_advance (b : ebase) (d : nat) (st : pstate (list string)) : nat * res (pstate (list string)) :=
  (S d, Ok (mkSt (st_next st) (st_retreat st) (st_body st ++ [eb_name b])%list)).
Definition toy_ctor (c : tcfg) : res nat :=
  match tfind "gain" c with Some (TStr _) => Throw RuntimeError | _ => Ok 0 end.
Definition mark : class nat (list string) := mkCls 0 "mark" toy_ctor (fun _ s => s) toy_advance.
Definition probe : class nat (list string) := mkCls 1 "probe" toy_ctor (fun _ s => s) toy_advance.
Definition crash : class nat (list string) :=
  mkCls 2 "crash" toy_ctor (fun _ s => s) (fun _ d _ => (S d, Throw RuntimeError)).

Definition toy_ops : list (regop nat (list string)) :=
  [RegState "toy" (fun _ => Ok []); RegElem "toy" "mark" mark; RegElem "toy" "probe" probe;
   RegElem "toy" "crash" crash].
Definition toy_ops' : list (regop nat (list string)) :=
  [RegState "toy" (fun _ => Ok []); RegElem "toy" "crash" crash; RegElem "toy" "mark" mark;
   RegElem "toy" "probe" probe].
Definition toy_reg : registry nat (list string) :=
  match reg_all [] toy_ops with Some r => r | None => [] end.
Definition toy_info : sinfo nat (list string) :=
  match sfind "toy" toy_reg with Some i => i | None => mkSI (fun _ => Ok []) [] end.

Definition entry (n t : string) : tcfg := TCfg [("name", TStr n); ("type", TStr t)] [].
Definition toy_es : list tcfg := [entry "a" "mark"; entry "b" "probe"; entry "a" "mark"; entry "c" "mark"].
Definition toy_conf : tcfg := TCfg [("elements", TCfgs toy_es); ("sim_type", TStr "toy")] [].
Definition toy_machine : machine nat (list string) :=
  match new_machine toy_reg toy_conf with Ok m => m | Throw _ => mkM [] [] [] "" toy_conf toy_info end.

Lemma toy_built : new_machine toy_reg toy_conf = Ok toy_machine.
Proof. vm_compute. reflexivity. Qed.

Lemma toy_undirected : undirected (m_elems toy_machine).
Proof.
  intros e He b d st d' st'. simpl in He.
  repeat (destruct He as [<-|He]; [simpl; intros [= _ <-]; auto|]). destruct He.
Qed.
Lemma toy_keeps : keeps_direction (m_elems toy_machine).
Proof. intros e He b d st d' st' H. eapply toy_undirected; eauto. Qed.

Lemma toy_size : (N.of_nat (List.length (m_elems toy_machine)) <= SIZE_MAX)%N.
Proof. vm_compute. discriminate. Qed.

Lemma toy_find n k : sfind n (si_elems toy_info) = Some k ->
  (n = "mark" /\ k = mark) \/ (n = "probe" /\ k = probe) \/ (n = "crash" /\ k = crash).
Proof.
  change (si_elems toy_info) with [("crash", crash); ("mark", mark); ("probe", probe)].
  cbn [sfind]. destruct (String.eqb_spec n "crash"); [intros [= <-]; auto|].
  destruct (String.eqb_spec n "mark"); [intros [= <-]; auto|].
  destruct (String.eqb_spec n "probe"); [intros [= <-]; auto|]. discriminate.
Qed.

Lemma toy_tidy : tidy toy_info.
Proof.
  intros n k H. apply toy_find in H as [[-> ->]|[[-> ->]|[-> ->]]]; (split; [reflexivity|]);
    intros n' k' H'; apply toy_find in H' as [[-> ->]|[[-> ->]|[-> ->]]]; simpl; congruence.
Qed.
Lemma toy_transparent e : In e (m_elems toy_machine) -> transparent (el_class e).
Proof.
  intros H. exists (fun _ _ => True). repeat (split; [auto|]). intros b d1 d2 st _ _.
  simpl in H. repeat (destruct H as [<-|H]; [reflexivity|]). destruct H.
Qed.

(** Renaming through reconfigure. *)
Lemma C20_lookup_after_rename_refuted_w :
  let m := fst (reconfigure toy_machine 1 (entry "z" "probe")) in
  snd (reconfigure toy_machine 1 (entry "z" "probe")) = Ok tt /\
  option_map el_name (nth_error (m_elems m) 1) = Some "z" /\
  find m "z" 0 = None /\ find m "b" 0 = Some 1.
Proof. vm_compute. repeat split. Qed.

(** A bound beyond the range of int. *)
Lemma C21_python_large_max_refuted_w :
  exists m' s l,
    py_propagate toy_machine (mkSt 0 false []) 0 (Some 4294967297%Z) [] 0 = Some (m', Ok (s, l)) /\
    st_body s = ["a"] /\ List.length (m_elems toy_machine) = 4.
Proof. vm_compute. eexists _, _, _. repeat split. Qed.

Lemma C21_most_negative_max_refuted_w :
  propagate toy_machine (mkSt 0 false []) 3 INT_MIN = None.
Proof. vm_compute. reflexivity. Qed.

(** Constructors of elements, for the history examples. *)
Definition toy_uses : list (use (list string)) :=
  [UProp (mkSt 0 false []) 0 2; UReconf 1 (entry "b" "probe"); UObs 2 (Some 7);
   UReconf 9 (entry "q" "mark"); UReconf 0 (entry "a" "nosuch"); UProp (mkSt 0 false []) 3 (-2)].
Lemma toy_keep_names : keep_names toy_machine toy_uses.
Proof.
  unfold toy_uses. cbn [keep_names keeps_name].
  repeat split; intros e He; vm_compute in He; try discriminate; injection He as <-; reflexivity.
Qed.
Definition toy_uses2 : list (use (list string)) :=
  [UProp (mkSt 0 false []) 0 2; UReconf 1 (entry "z" "probe"); UReconf 3 (entry "y" "mark")].
Definition toy_conf2 : tcfg :=
  TCfg [("elements", TCfgs [entry "a" "mark"; entry "z" "probe"; entry "a" "mark"; entry "y" "mark"]);
        ("sim_type", TStr "toy")] [].
