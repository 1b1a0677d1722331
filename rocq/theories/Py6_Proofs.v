(** Witnesses and examples for the conversions between Python and Config. *)
From Coq Require Import List String Ascii NArith ZArith Bool Lia.
From Coq.Floats Require Import SpecFloat.
From Verif Require Import SMap SMap_Proofs Dbl Config_Model Config_Spec Glps_Model Glps6_Proofs Machine_Model
  Machine3_Proofs Linear_Model Py_Model Py_Spec Py_Proofs Py2_Proofs Py3_Proofs Py4_Proofs Py5_Proofs.
Import ListNotations.
Open Scope string_scope.
Open Scope list_scope.

Definition n1 : double := S754_finite false 1 0.
Definition n2 : double := S754_finite false 1 1.
Definition pair (k : string) (v : pyobj) : pyobj := PyTuple [str k; v].
Definition num1 : pyobj := PyNumber (Some n1).
Definition num2 : pyobj := PyNumber (Some n2).
Definition elem_a : pyobj := PyList [pair "name" (str "a"); pair "type" (str "mark"); pair "L" num1].
Definition elem_b : pyobj := PyDict [(str "name", str "b"); (str "type", str "probe")].
(** A machine as it is written down in Python. *)
Definition toy_list : list pyobj :=
  [pair "sim_type" (str "toy"); pair "phi" num1; pair "elements" (PyList [elem_a; elem_b]);
   pair "zz" (PyArray 2 (Some [n1; n2])); pair "phi" num2].
Definition toy_pre : list pyobj := [pair "sim_type" (str "toy"); pair "phi" num1].
Definition toy_cfg : tcfg := match list2conf toy_list with Ret c => c | _ => TCfg [] [] end.
Lemma toy_cfg_eq : list2conf toy_list = Ret toy_cfg. Proof. vm_compute. reflexivity. Qed.
Lemma entry_compute it k v : parse_item it = Some (k, v) -> entry it k v.
Proof. apply parse_entry. Qed.
Lemma no_entry_compute k l :
  forallb (fun it => match parse_item it with Some (k', _) => negb (String.eqb k k') | None => true end) l = true -> no_entry k l.
Proof.
  intros H it v Hi He. rewrite forallb_forall in H. specialize (H _ Hi). apply parse_entry in He. rewrite He in H.
  rewrite String.eqb_refl in H. discriminate.
Qed.
Lemma last_compute k pre it post l v : l = pre ++ it :: post -> parse_item it = Some (k, v) ->
  forallb (fun it => match parse_item it with Some (k', _) => negb (String.eqb k k') | None => true end) post = true ->
  last_entry k l pre v.
Proof. intros E H1 H2. exists it, post. split; [exact E|]. split; [apply parse_entry; exact H1|apply no_entry_compute; exact H2]. Qed.
Lemma toy_last : last_entry "elements" toy_list toy_pre (PyList [elem_a; elem_b]).
Proof. eapply last_compute; reflexivity. Qed.

(** ** A lattice and its list *)
Definition small_text : string := "sim_type = ""toy""; b = 2; a: mark, L = 1; l: LINE = (a, a);".
Definition small_cfg : tcfg := match parse_text demo [] true small_text with Parsed c => c | _ => TCfg [] [] end.
Lemma small_parsed : parse_text demo [] true small_text = Parsed small_cfg.
Proof. vm_compute. reflexivity. Qed.
Ltac no_nul := let X := fresh in intros X; vm_compute in X; repeat (destruct X as [X|X]; [discriminate X|]); exact X.
Ltac plain_values := repeat first [apply Forall_nil | apply Forall_cons; [split; [no_nul|] |]];
  first [constructor; no_nul | constructor].

Lemma small_nul_free : nul_free_cfg small_cfg.
Proof.
  constructor. vm_compute (town small_cfg). repeat apply Forall_cons; try apply Forall_nil; (split; [no_nul|]); cbn [snd].
  - constructor.
  - constructor. repeat apply Forall_cons; try apply Forall_nil; constructor; cbn [town];
      repeat apply Forall_cons; try apply Forall_nil; (split; [no_nul|]); cbn [snd]; constructor; no_nul.
  - constructor. no_nul.
  - constructor. no_nul.
Qed.
Lemma small_elements : exists es, elements small_cfg es /\ simple_lattice small_cfg es.
Proof.
  eexists. split; [vm_compute; reflexivity|]. split.
  - intros n v Hi N. vm_compute in Hi.
    repeat (destruct Hi as [Hi|Hi]; [injection Hi as <- <-; first [exact I|elim N; reflexivity]|]). destruct Hi.
  - intros g n v Hg Hi. destruct Hg as [<-|[<-|[]]]; cbn [town] in Hi;
      repeat (destruct Hi as [Hi|Hi]; [injection Hi as <- <-; exact I|]); destruct Hi.
Qed.
(** ** Refutations *)
Definition nul_str : string := String "a" (String (ascii_of_N 0) "b").
Lemma C59_null_characters_refuted_w :
  conf2dict (TCfg [("x", TStr nul_str)] []) = Ret [pair "x" (str "a")] /\
  list2conf [pair "x" (str "a")] = Ret (TCfg [("x", TStr "a")] []).
Proof. split; vm_compute; reflexivity. Qed.
Fixpoint deep (n : nat) (c : tcfg) : tcfg :=
  match n with O => c | S n' => TCfg [("x", TCfgs [deep n' c])] [] end.
Lemma C59_depth_refuted_w : exists l, conf2dict (deep 4 (TCfg [] [])) = Ret l /\ list2conf l = Raise.
Proof. eexists. split; [vm_compute; reflexivity|vm_compute; reflexivity]. Qed.
(** A string that is no UTF-8 cannot be shown. *)
Lemma C59_unreadable_refuted_w : conf2dict (TCfg [("x", TStr (String (ascii_of_N 255) ""))] []) = Raise.
Proof. vm_compute. reflexivity. Qed.

Definition nested : list pyobj :=
  [pair "sim_type" (str "toy"); pair "foo" (PyList [PyList [pair "a" num1]]); pair "elements" (PyList [elem_a])].
Definition nested_machine : machine nat (list string) :=
  match py_machine toy_reg demo no_mem (Some (PyList nested)) PyNone with Ret m => m | _ => toy_machine end.
Lemma nested_built : py_machine toy_reg demo no_mem (Some (PyList nested)) PyNone = Ret nested_machine.
Proof. vm_compute. reflexivity. Qed.
Lemma C62_config_lists_refuted_w : exists l d, py_conf nested_machine (Some 0%Z) = Ret l /\ dict_of l d /\
  py_reconfigure nested_machine 0 d true = (nested_machine, Raise) /\
  snd (py_reconfigure nested_machine 0 [] false) = Ret tt.
Proof.
  eexists. exists (match py_conf nested_machine (Some 0%Z) with
                   | Ret l => map (fun it => match it with PyTuple [a; b] => (a, b) | _ => (PyNone, PyNone) end) l
                   | _ => [] end).
  split; [vm_compute; reflexivity|]. split; [vm_compute; reflexivity|]. split; vm_compute; reflexivity.
Qed.
Definition list_machine : machine nat (list string) :=
  match py_machine toy_reg demo no_mem (Some (PyList toy_list)) PyNone with Ret m => m | _ => toy_machine end.
Lemma list_machine_built : py_machine toy_reg demo no_mem (Some (PyList toy_list)) PyNone = Ret list_machine.
Proof. vm_compute. reflexivity. Qed.
Lemma list_conf : exists o l d, kept_conf list_machine 0 = Some o /\ plain_conf o /\
  py_conf list_machine (Some 0%Z) = Ret l /\ dict_of l d /\ List.length l = 5.
Proof.
  eexists. eexists. exists (match py_conf list_machine (Some 0%Z) with
                   | Ret l => map (fun it => match it with PyTuple [a; b] => (a, b) | _ => (PyNone, PyNone) end) l
                   | _ => [] end).
  split; [vm_compute; reflexivity|]. split.
  - split; [|split].
    + repeat split; intros ? ? Hi; repeat (destruct Hi as [Hi|Hi]; [injection Hi as <- <-; reflexivity|]); destruct Hi.
    + repeat split; intros ? ? Hi; repeat (destruct Hi as [Hi|Hi]; [injection Hi as <- <-; reflexivity|]); destruct Hi.
    + intros n v H. unfold tfind in H. cbn [town touter] in H.
      assert (Hi : In (n, v) (town (tflatten (match kept_conf list_machine 0 with Some o => o | None => TCfg [] [] end)))).
      { apply sfind_In. cbn [town tflatten]. rewrite sfind_smerge. exact H. }
      vm_compute in Hi. repeat (destruct Hi as [Hi|Hi]; [injection Hi as <- <-; split; [exact I|]; split; [no_nul|first [constructor; no_nul|constructor]]|]).
      destruct Hi.
  - split; [vm_compute; reflexivity|]. split; [vm_compute; reflexivity|vm_compute; reflexivity].
Qed.
