(** A virtual accelerator with settings, for the examples, and the witnesses of the
    refutations about links. *)
From Coq Require Import List String Ascii Bool NArith ZArith Arith Lia.
From Verif Require Import SMap Dbl Lexer_Model Config_Spec Machine_Model Machine_Spec Machine3_Proofs Util_Model Array_Model
  Array_Spec Array3_Proofs Ioc_Model Ioc_Spec Ioc_Proofs Ioc2_Proofs Ioc3_Proofs Ioc5_Proofs.
Import ListNotations.
Open Scope string_scope.
Open Scope list_scope.

Definition gained (n t : string) (z : Z) : tcfg := TCfg [("gain", TNum (d_of_Z z)); ("name", TStr n); ("type", TStr t)] [].
Definition set_es : list tcfg := [gained "a" "mark" 2; gained "b" "probe" 3; gained "a" "mark" 4; entry "c" "mark"].
Definition set_conf : tcfg := TCfg [("elements", TCfgs set_es); ("sim_type", TStr "toy")] [].
Definition set_m : machine nat (list string) :=
  match new_machine toy_reg set_conf with Ok m => m | Throw _ => toy_machine end.
Definition set_sim : vsim nat (list string) := new_sim set_m.
Definition set_g : simmap nat (list string) := sset "S" set_sim [].
Lemma set_built : new_machine toy_reg set_conf = Ok set_m.
Proof. vm_compute. reflexivity. Qed.
Lemma set_served : serves ab0 toy_kind toy_mem toy_what toy_reg set_sim.
Proof. econstructor; [exact set_built|vm_compute; discriminate]. Qed.
Lemma set_fresh : fresh_ok toy_kind set_sim /\ fresh_defined set_sim.
Proof. split; [intros st _; exact I|intros e H; vm_compute in H; discriminate]. Qed.
Lemma set_all n s : sfind n set_g = Some s -> n = "S" /\ s = set_sim.
Proof.
  unfold set_g. rewrite SMap_Proofs.sfind_sset. destruct (String.eqb_spec n "S") as [->|]; [intros [= <-]; auto|discriminate].
Qed.
Lemma set_good_g n s : sfind n set_g = Some s -> serves ab0 toy_kind toy_mem toy_what toy_reg s /\ fresh_ok toy_kind s /\ fresh_defined s.
Proof. intros H. apply set_all in H as [_ ->]. split; [exact set_served|exact set_fresh]. Qed.

(** "probe" is the type of the element named "b". *)
Lemma C77_orbit_by_name_refuted_w :
  slots_named "b" (m_elems (v_machine set_sim)) <> [] /\
  init_orbit ab0 toy_kind set_g "S b pos" = (set_g, IErr) /\
  slots_named "probe" (m_elems (v_machine set_sim)) = [] /\
  exists g' dev, init_orbit ab0 toy_kind set_g "S probe pos" = (g', IOk dev).
Proof.
  split; [vm_compute; discriminate|]. split; [vm_compute; reflexivity|]. split; [vm_compute; reflexivity|].
  eexists _, _. vm_compute. reflexivity.
Qed.
Lemma C77_leaves_no_trace_refuted_w : exists g' s', init_state ab0 toy_kind set_g "S b nothing" = (g', IErr) /\
  sfind "S" g' = Some s' /\ v_measures s' <> v_measures set_sim.
Proof. eexists _, _. split; [vm_compute; reflexivity|]. split; [vm_compute; reflexivity|]. vm_compute. discriminate. Qed.

Section Three.
Context {D B : Type}.
Variables (ab : abi) (kindof : B -> kind) (memof : B -> mem) (what : exn -> string).
Lemma no_three r (g g' : simmap D B) link dev :
  (forall n s, sfind n g = Some s -> serves ab kindof memof what r s /\ fresh_ok kindof s) ->
  init_state ab kindof g link = (g', IOk dev) ->
  exists s st sh nm den, sfind (md_sim dev) g = Some s /\ alloc_state (v_machine s) (TCfg [] []) = Ok st /\
    nth_error (attributes (kindof (st_body st))) (md_attr dev) = Some (nm, sh, den) /\ List.length sh <= 2 /\
    nm <> "moment1" /\ nm <> "transmat" /\ nm <> "next_elem".
Proof.
  intros G H. destruct (init_state_ok ab kindof memof what r _ _ _ _ G H) as
    (sim & el & inst & par & d & s & j & s' & st & _ & _ & _ & _ & _ & _ & Es & _ & _ & _ & Est & (sh & den & A & Nn & L) & _ & _ & _ & Es' & _).
  exists s, st, sh, par, den. rewrite Es'. split; auto. split; auto. split; auto.
  assert (L2 : List.length sh <= 2) by (rewrite L; destruct d; simpl; lia). split; auto.
  assert (X : par = "moment1" \/ par = "transmat" -> False).
  { intros X. apply nth_error_In in A. destruct (kindof (st_body st)) as [| |n]; cbn [attributes base_attrs app In] in A;
      repeat (destruct A as [A|A]; [injection A as <- <- _; cbn in L2; destruct X as [X|X]; (discriminate X || lia)|]); destruct A. }
  split; [tauto|]. split; [tauto|auto].
Qed.
End Three.
