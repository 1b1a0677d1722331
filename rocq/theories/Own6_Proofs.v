From Coq Require Import List String Bool NArith ZArith Arith Lia.
From Verif Require Import SMap SMap_Proofs Dbl Config_Spec Machine_Model Machine_Spec Machine_Proofs Machine3_Proofs
  Cli_Model Own_Model Own_Spec Own_Proofs Own2_Proofs.
Import ListNotations.
Open Scope list_scope.

(** ** The command line tool selects the same elements as in Cli_Model *)
Section P.
Context {D B : Type}.
Definition shape (els : list (elem D B)) : list bool := map observed els.

Lemma shape_nth els s e : nth_error els s = Some e -> nth_error (shape els) s = Some (observed e).
Proof. intros H. unfold shape. now rewrite nth_error_map, H. Qed.
Lemma shape_set els s o : shape (set_observer els s o) = update (shape els) s (match o with Some _ => true | None => false end).
Proof.
  unfold set_observer. revert s; induction els as [|x els IH]; destruct s; simpl; auto.
  specialize (IH s). destruct (nth_error els s) eqn:E; simpl; f_equal; auto.
Qed.
Definition pick (mk : bool) : option nat := if mk then Some 0 else None.

Lemma cli_set_shape mk (hm hm' : heap * omach D B) s els : cli_set mk hm s = Fine hm' ->
  shape (om_elems (snd hm)) = shape els -> shape (om_elems (snd hm')) = shape (set_observer els s (pick mk)).
Proof.
  destruct hm as [h m]. unfold cli_set, set_mem. cbn [snd]. intros H E.
  assert (X : exists o, om_elems (snd hm') = set_observer (om_elems m) s o /\
     match o with Some _ => true | None => false end = mk).
  { destruct mk.
    - unfold h_new in H. destruct (h_ok _ (om_addr m)); [|discriminate].
      destruct (nth_error (om_els m) s); [|discriminate]. destruct (h_ok _ n); [|discriminate].
      cbn [mbind] in H. injection H as <-. eexists. split; reflexivity.
    - destruct (h_ok _ (om_addr m)); [|discriminate].
      destruct (nth_error (om_els m) s); [|discriminate]. destruct (h_ok _ n); [|discriminate].
      cbn [mbind] in H. injection H as <-. eexists. split; reflexivity. }
  destruct X as (o & -> & Ho). rewrite !shape_set, E, Ho. unfold pick. destruct mk; reflexivity.
Qed.
Lemma cli_attach_shape mk (hm hm' : heap * omach D B) s els : cli_attach mk hm s = Fine hm' ->
  shape (om_elems (snd hm)) = shape els -> shape (om_elems (snd hm')) = shape (attach (pick mk) els s).
Proof.
  unfold cli_attach, attach. intros H E.
  destruct (nth_error (om_elems (snd hm)) s) as [e|] eqn:He; [|discriminate].
  pose proof (shape_nth _ _ _ He) as S1. rewrite E in S1. unfold shape in S1. rewrite nth_error_map in S1.
  destruct (nth_error els s) as [e'|]; [|discriminate]. cbn in S1. injection S1 as S1.
  unfold observed in S1. destruct (el_obs e) eqn:O, (el_obs e') eqn:O'; try discriminate.
  - injection H as <-. exact E.
  - now apply (cli_set_shape mk hm hm').
Qed.
Lemma attaches_shape mk (f : heap * omach D B -> nat -> mem (heap * omach D B)) (g : list (elem D B) -> nat -> list (elem D B)) :
  (forall hm hm' s els, f hm s = Fine hm' -> shape (om_elems (snd hm)) = shape els ->
      shape (om_elems (snd hm')) = shape (g els s)) -> mk = true \/ mk = false ->
  forall l hm hm' els, cli_attaches f hm l = Fine hm' -> shape (om_elems (snd hm)) = shape els ->
      shape (om_elems (snd hm')) = shape (fold_left g l els).
Proof.
  intros F _ l. induction l as [|s l IH]; cbn [cli_attaches fold_left]; intros hm hm' els H E.
  - injection H as <-. exact E.
  - destruct (f hm s) as [hm1|] eqn:H1; [|discriminate]. cbn [mbind] in H.
    apply (IH hm1 hm' _ H). apply (F hm hm1 s els H1 E).
Qed.
Lemma fold_flat {A} (g : list (elem D B) -> nat -> list (elem D B)) (r : A -> list nat) ts : forall els,
  fold_left (fun els t => fold_left g (r t) els) ts els = fold_left g (flat_map r ts) els.
Proof. induction ts as [|t ts IH]; intros els; simpl; auto. now rewrite IH, fold_left_app. Qed.

Lemma cli_selected mk a (h h' : heap) (m m' : omach D B) : cli_select mk a (h, m) = Fine (h', m') ->
  map observed (om_elems m') = map observed (m_elems (select a (if mk then Some 0 else None) (om_m m))).
Proof.
  unfold cli_select, select. cbn [snd]. change (m_elems (om_m m)) with (om_elems m).
  set (n := List.length (om_elems m)). fold (pick mk). cbn [with_elems m_elems].
  rewrite !fold_flat. intros H.
  assert (M : mk = true \/ mk = false) by (destruct mk; auto).
  destruct (if a_all a then cli_attaches (cli_set mk) (h, m) (seq 0 n) else Fine (h, m)) as [hm1|] eqn:H1; [|discriminate].
  cbn [mbind] in H.
  assert (S1 : shape (om_elems (snd hm1)) = shape (if a_all a then fold_left (fun els i => set_observer els i (pick mk)) (seq 0 n) (om_elems m) else om_elems m)).
  { destruct (a_all a).
    - apply (attaches_shape mk (cli_set mk) (fun els i => set_observer els i (pick mk)) (cli_set_shape mk) M _ (h, m) hm1); auto.
    - injection H1 as <-. reflexivity. }
  destruct (cli_attaches (cli_attach mk) hm1 (flat_map (equal_range_type (om_m m)) (a_types a))) as [hm2|] eqn:H2; [|discriminate].
  cbn [mbind] in H.
  pose proof (attaches_shape mk _ (attach (pick mk)) (cli_attach_shape mk) M _ _ _ _ H2 S1) as S2.
  destruct (cli_attaches (cli_attach mk) hm2 (flat_map (equal_range (om_m m)) (a_names a))) as [hm3|] eqn:H3; [|discriminate].
  cbn [mbind] in H.
  pose proof (attaches_shape mk _ (attach (pick mk)) (cli_attach_shape mk) M _ _ _ _ H3 S2) as S3.
  destruct (a_last a && negb (Nat.eqb n 0))%bool.
  - apply (cli_attach_shape mk hm3 (h', m') _ _ H S3).
  - injection H as ->. exact S3.
Qed.
End P.

(** ** Cases *)
Definition own_st : pstate (list string) := mkSt 0 false [].
Definition own_prog : list (cmd (list string)) :=
  [New toy_conf; NewObs; NewObs; SetObs 0 1 (Some 0); Propagate 0 own_st 0 10; SetObs 0 1 (Some 1);
   SetObs 0 3 (Some 0); Reconf 0 1 (entry "z" "probe"); New toy_conf; Del 0; Propagate 1 own_st 3 (-4); NewObs;
   DelObs 2; Del 1].
Definition own_end : book := mkBk [None; None] [Gone; Gone; Gone].
Ltac obey :=
  unfold b_start;
  repeat (first [apply ob_nil | apply ob_new; rewrite toy_built | apply ob_obs
               | eapply ob_set; [reflexivity|vm_compute; lia|reflexivity|]
               | eapply ob_reconf; [reflexivity|] | eapply ob_prop; [reflexivity|discriminate|]
               | eapply ob_del; [reflexivity|] | eapply ob_delobs; [reflexivity|]]; cbn [b_ms b_obs map give_back take_along put_at app Nat.eqb andb]).
Lemma own_obeys : obeys toy_reg b_start own_prog own_end.
Proof. unfold own_prog, own_end. obey. Qed.
Lemma own_built : all_built toy_reg own_prog.
Proof.
  intros c H. exists toy_machine. unfold own_prog in H. cbn [In] in H.
  repeat match goal with H : _ \/ _ |- _ => destruct H as [H|H] end; try discriminate; try contradiction;
    injection H as <-; exact toy_built.
Qed.
Definition bad_conf : tcfg :=
  TCfg [("elements", TCfgs [entry "a" "mark"; entry "b" "probe"; TCfg [("type", TStr "mark")] []; entry "c" "mark"]);
        ("sim_type", TStr "toy")] [].
Lemma bad_conf_parts : get_str bad_conf "sim_type" = Ok "toy"%string /\ sfind "toy" toy_reg = Some toy_info /\
  get_cfgs bad_conf "elements" = Ok ([entry "a" "mark"; entry "b" "probe"] ++ TCfg [("type", TStr "mark")] [] :: [entry "c" "mark"]) /\
  Forall (buildable toy_info) [entry "a" "mark"; entry "b" "probe"] /\
  ~ constructs toy_info (TCfg [("type", TStr "mark")] []).
Proof.
  split; [reflexivity|]. split; [reflexivity|]. split; [reflexivity|]. split.
  - repeat constructor; do 4 eexists; vm_compute; repeat split.
  - intros (t & k & e & H1 & H2 & H3). vm_compute in H1. injection H1 as <-. vm_compute in H2. injection H2 as <-.
    vm_compute in H3. discriminate.
Qed.

Lemma C88_owner_frees_refuted_w :
  run toy_reg p_start [New toy_conf; NewObs; SetObs 0 1 (Some 0); Propagate 0 own_st 0 10; Del 0; DelObs 0] = Bad /\
  new_machine toy_reg toy_conf = Ok toy_machine.
Proof. split; [vm_compute; reflexivity|exact toy_built]. Qed.
Lemma C88_shared_refuted_w :
  (exists p, run toy_reg p_start [New toy_conf; NewObs; SetObs 0 0 (Some 0); SetObs 0 1 (Some 0); Propagate 0 own_st 0 10] = Fine p /\
    step toy_reg p (Del 0) = Bad) /\ new_machine toy_reg toy_conf = Ok toy_machine.
Proof.
  split; [|exact toy_built].
  destruct (run toy_reg p_start [New toy_conf; NewObs; SetObs 0 0 (Some 0); SetObs 0 1 (Some 0); Propagate 0 own_st 0 10]) as [p|] eqn:E.
  - exists p. split; auto. vm_compute in E. injection E as <-. vm_compute. reflexivity.
  - exfalso. vm_compute in E. discriminate.
Qed.
Lemma bad_throws : new_machine toy_reg bad_conf = Throw KeyError.
Proof. vm_compute. reflexivity. Qed.
Lemma C88_failed_refuted_w : exists p, obeys toy_reg b_start [New bad_conf] (mkBk [None] []) /\
  all_gone (mkBk [None] []) /\ run toy_reg p_start [New bad_conf] = Fine p /\ List.length (h_live (p_heap p)) = 2.
Proof.
  destruct (run toy_reg p_start [New bad_conf]) as [p|] eqn:E.
  - exists p. split. { apply ob_new. rewrite bad_throws. apply ob_nil. }
    split. { split; repeat constructor. }
    split; auto. vm_compute in E. injection E as <-. reflexivity.
  - exfalso. vm_compute in E. discriminate.
Qed.
Lemma C88_uninitialised_refuted_w : pyrun toy_reg y_start [PyNew; PyUse 0] = Bad /\
  pyrun toy_reg y_start [PyNew; PyInit 0 bad_conf; PyUse 0] = Bad.
Proof. split; vm_compute; reflexivity. Qed.
Lemma C88_twice_refuted_w : exists p,
  pyrun toy_reg y_start [PyNew; PyInit 0 toy_conf; PyInit 0 toy_conf; PyFree 0] = Fine p /\
  new_machine toy_reg toy_conf = Ok toy_machine /\ List.length (h_live (y_heap p)) = 5.
Proof.
  destruct (pyrun toy_reg y_start [PyNew; PyInit 0 toy_conf; PyInit 0 toy_conf; PyFree 0]) as [p|] eqn:E.
  - exists p. split; auto. split; [exact toy_built|]. vm_compute in E. injection E as <-. reflexivity.
  - exfalso. vm_compute in E. discriminate.
Qed.

Definition own_calls : list (pycall (list string)) :=
  [PyNew; PyInit 0 toy_conf; PyProp 0 own_st 0 (Some 10%Z) [1%Z; 3%Z]; PyNew; PyProp 0 own_st 0 None [0%Z; 9%Z];
   PyInit 1 toy_conf; PyReconf 0 1 (entry "z" "probe"); PyFree 0; PyUse 1; PyProp 1 own_st 3 (Some (-4)%Z) []; PyNew; PyFree 1; PyFree 2].
Lemma own_calls_obey : pyobeys toy_reg [] own_calls [Freed; Freed; Freed].
Proof.
  unfold own_calls.
  repeat (first [apply py_nil | apply py_new | apply py_init; [reflexivity|rewrite toy_built]
    | apply py_prop; [reflexivity|first [exact I|vm_compute; discriminate]|] | apply py_reconf; [reflexivity|]
    | apply py_use; [reflexivity|] | eapply py_free; [reflexivity|discriminate|]]; cbn [put_at app]).
Qed.
Lemma own_calls_built : py_all_built toy_reg own_calls.
Proof.
  intros x c H. exists toy_machine. unfold own_calls in H. cbn [In] in H.
  repeat match goal with H : _ \/ _ |- _ => destruct H as [H|H] end; try discriminate; try contradiction;
    injection H as <- <-; exact toy_built.
Qed.
