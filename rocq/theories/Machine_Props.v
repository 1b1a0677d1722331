(** C19-C26: the simulation engine.  Statements use Machine_Spec.v and the model's
    observations; every theorem is followed by a concrete case meeting its
    hypotheses. *)
From Coq Require Import List String Bool NArith ZArith Arith Lia Permutation.
From Verif Require Import SMap Dbl Config_Spec Machine_Model Machine_Spec
  Machine_Proofs Machine2_Proofs Machine3_Proofs.
Import ListNotations.
Open Scope string_scope.

(** ** C19 *)

(** A machine that was built has one element per lattice entry, in order; the
    element at position j reports index j, the entry's name and type, the entry
    itself as its conf(), its L (default 0) as length, no observer, and holds
    what the constructor registered for its type made of the entry. *)
Theorem C19_beamline_order : forall D B (r : registry D B) c m,
  new_machine r c = Ok m ->
  exists t i es,
    tfind "sim_type" c = Some (TStr t) /\ sfind t r = Some i /\
    tfind "elements" c = Some (TCfgs es) /\
    m_simtype m = t /\ m_conf m = c /\
    List.length (m_elems m) = List.length es /\
    forall j ec e, nth_error es j = Some ec -> nth_error (m_elems m) j = Some e ->
                   describes i j ec e.
Proof.
  intros D B r c m H.
  destruct (new_machine_ok r c m H) as (t & i & es & H1 & H2 & H3 & H4 & H5 & _ & H7 & _ & _ & H10).
  exists t, i, es. exact (conj H1 (conj H2 (conj H3 (conj H4 (conj H5 (conj H7 H10)))))).
Qed.
Print Assumptions C19_beamline_order.
Example C19_beamline_order_ex :
  new_machine toy_reg toy_conf = Ok toy_machine /\
  map el_name (m_elems toy_machine) = ["a"; "b"; "a"; "c"] /\
  map el_tname (m_elems toy_machine) = ["mark"; "probe"; "mark"; "mark"] /\
  map el_index (m_elems toy_machine) = [0%N; 1%N; 2%N; 3%N].
Proof. vm_compute. repeat split. Qed.

(** Construction succeeds exactly when the simulation type is named and
    registered, there is a list of entries, and each entry names a type
    registered for it, has a name, and is accepted by that type's constructor. *)
Theorem C19_buildable : forall D B (r : registry D B) c,
  (exists m, new_machine r c = Ok m) <->
  exists t i es,
    tfind "sim_type" c = Some (TStr t) /\ sfind t r = Some i /\
    tfind "elements" c = Some (TCfgs es) /\ forall ec, In ec es -> buildable i ec.
Proof. intros D B. exact new_machine_iff. Qed.
Print Assumptions C19_buildable.
Example C19_buildable_ex :
  (exists m, new_machine toy_reg toy_conf = Ok m) /\
  new_machine toy_reg (TCfg [("elements", TCfgs [entry "a" "mark"; TCfg [("type", TStr "mark")] []]);
                             ("sim_type", TStr "toy")] []) = Throw KeyError.
Proof. split; [exact (ex_intro _ _ toy_built)|vm_compute; reflexivity]. Qed.

(** ** C20 *)

(** After any history of propagations, observer changes and reconfigurations that
    keep names, equal_range(n) lists the elements named n in beamline order and
    find(n,k) is the k-th of them.  Missing: histories that rename. *)
Theorem C20_find_by_name_partial : forall D B (r : registry D B) c m us n k,
  new_machine r c = Ok m -> (N.of_nat (List.length (m_elems m)) <= SIZE_MAX)%N ->
  keep_names m us ->
  equal_range (uses m us) n = slots_named n (m_elems (uses m us)) /\
  find (uses m us) n k = nth_error (slots_named n (m_elems (uses m us))) (N.to_nat k).
Proof.
  intros D B r c m us n k H HL HK. rewrite find_is_nth.
  rewrite (lookups_names r c m us H HL HK n). exact (conj eq_refl eq_refl).
Qed.
Print Assumptions C20_find_by_name_partial.
Example C20_find_by_name_partial_ex :
  new_machine toy_reg toy_conf = Ok toy_machine /\ keep_names toy_machine toy_uses /\
  slots_named "a" (m_elems (uses toy_machine toy_uses)) = [0; 2] /\
  find (uses toy_machine toy_uses) "a" 1 = Some 2 /\ find (uses toy_machine toy_uses) "a" 2 = None.
Proof. split; [exact toy_built|]. split; [exact toy_keep_names|]. vm_compute. repeat split. Qed.

(** equal_range_type(n) lists the elements of type n in beamline order after any
    history whatsoever. *)
Theorem C20_find_by_type : forall D B (r : registry D B) c m us n,
  new_machine r c = Ok m -> (N.of_nat (List.length (m_elems m)) <= SIZE_MAX)%N ->
  equal_range_type (uses m us) n = slots_typed n (m_elems (uses m us)).
Proof. intros D B r c m us n H HL. exact (lookups_types r c m us H HL n). Qed.
Print Assumptions C20_find_by_type.
Example C20_find_by_type_ex :
  slots_typed "mark" (m_elems (uses toy_machine toy_uses2)) = [0; 2; 3].
Proof. vm_compute. reflexivity. Qed.

(** all_range() lists every element once. *)
Theorem C20_all_elements_listed : forall D B (r : registry D B) c m us,
  new_machine r c = Ok m ->
  Permutation (all_range (uses m us)) (seq 0 (List.length (m_elems (uses m us)))).
Proof. intros D B. exact all_range_perm. Qed.
Print Assumptions C20_all_elements_listed.
Example C20_all_elements_listed_ex : all_range toy_machine = [0; 2; 1; 3].
Proof. vm_compute. reflexivity. Qed.

(** The full claim is false: after a reconfiguration that changes the name, the
    element is found under the old name only. *)
Theorem C20_lookup_after_rename_refuted :
  exists (r : registry nat (list string)) c m i c' m',
    new_machine r c = Ok m /\ reconfigure m i c' = (m', Ok tt) /\
    exists e, nth_error (m_elems m') (N.to_nat i) = Some e /\ el_name e = "z" /\ find m' "z" 0 = None.
Proof.
  exists toy_reg, toy_conf, toy_machine, 1%N, (entry "z" "probe"), (fst (reconfigure toy_machine 1 (entry "z" "probe"))).
  split; [exact toy_built|]. vm_compute. split; [reflexivity|]. eexists; repeat split.
Qed.
Print Assumptions C20_lookup_after_rename_refuted.

(** ** C21 *)

(** propagate does to the state and to the elements what passing the state
    through the slots of [visits], one after the other, does. *)
Theorem C21_visits : forall D B (m : machine D B) st start max,
  (N.of_nat (List.length (m_elems m)) <= SIZE_MAX)%N -> (INT_MIN < max <= INT_MAX)%Z ->
  undirected (m_elems m) ->
  let '(t, els, r) :=
    journey (m_elems m) (Z.leb 0 max) (visits (List.length (m_elems m)) start max)
            (mkSt start (Z.ltb max 0) (st_body st)) in
  option_map (fun p => (pr_elems p, pr_end p)) (propagate m st start max) = Some (els, r).
Proof.
  intros D B m st start max HL HM HU. destruct (journey _ _ _ _) as [[t els] r] eqn:J.
  rewrite (propagate_visits m st start max HL HM HU t els r J). exact eq_refl.
Qed.
Print Assumptions C21_visits.
Example C21_visits_ex :
  undirected (m_elems toy_machine) /\
  visits 4 1 INT_MAX = [1; 2; 3] /\ visits 4 2 (-5) = [2; 1; 0] /\ visits 4 4 7 = [] /\
  exists p s, propagate toy_machine (mkSt 0 false ["x"]) 2 (-2) = Some p /\ pr_end p = Ok s /\
              st_body s = ["x"; "a"; "b"] /\ st_next s = 0%N.
Proof.
  split; [exact toy_undirected|]. split; [|vm_compute; repeat (split; [reflexivity|]); eexists _, _; repeat split].
  unfold visits. simpl N.ltb. replace (0 <=? INT_MAX)%Z with true by reflexivity.
  rewrite Nat.min_l; [reflexivity|]. unfold INT_MAX; lia.
Qed.

(** The visits forward: slot start+k is the k-th, for every k below max that is
    still in the machine. *)
Theorem C21_visits_forward : forall n start max k, (0 <= max)%Z ->
  nth_error (visits n start max) k
  = if (N.ltb (start + N.of_nat k) (N.of_nat n) && Z.ltb (Z.of_nat k) max)%bool
    then Some (N.to_nat start + k) else None.
Proof. exact visits_forward. Qed.
Print Assumptions C21_visits_forward.
Example C21_visits_forward_ex : nth_error (visits 9 3 4) 3 = Some 6 /\ nth_error (visits 9 3 4) 4 = None.
Proof. vm_compute. repeat split. Qed.

(** ... and backward. *)
Theorem C21_visits_backward : forall n start max k, (max < 0)%Z ->
  nth_error (visits n start max) k
  = if (N.ltb start (N.of_nat n) && N.leb (N.of_nat k) start && Z.ltb (Z.of_nat k) (- max))%bool
    then Some (N.to_nat start - k) else None.
Proof. exact visits_backward. Qed.
Print Assumptions C21_visits_backward.
Example C21_visits_backward_ex : nth_error (visits 9 3 (-4)) 3 = Some 0 /\ nth_error (visits 9 9 (-4)) 0 = None.
Proof. vm_compute. repeat split. Qed.

(** A propagation that ends normally has visited them all, and leaves next_elem
    where the next one would start. *)
Theorem C21_ends_after_the_visits : forall D B (m : machine D B) st start max p s,
  (N.of_nat (List.length (m_elems m)) <= SIZE_MAX)%N -> (INT_MIN < max <= INT_MAX)%Z ->
  undirected (m_elems m) ->
  propagate m st start max = Some p -> pr_end p = Ok s ->
  st_retreat s = Z.ltb max 0 /\
  (visits (List.length (m_elems m)) start max = [] -> st_next s = start /\ st_body s = st_body st) /\
  (visits (List.length (m_elems m)) start max <> [] ->
   st_next s = next_of (Z.leb 0 max) (last (visits (List.length (m_elems m)) start max) 0)) /\
  map fst (fst (fst (journey (m_elems m) (Z.leb 0 max) (visits (List.length (m_elems m)) start max)
            (mkSt start (Z.ltb max 0) (st_body st))))) = visits (List.length (m_elems m)) start max.
Proof.
  intros D B m st start max p s HL HM HU HP HE. destruct (journey _ _ _ _) as [[t els] r] eqn:J.
  rewrite (propagate_visits m st start max HL HM HU t els r J) in HP. injection HP as <-. simpl in HE. subst r.
  destruct (journey_end _ _ _ _ _ _ _ HU (visits_bound _ _ _) J) as [E1 E2].
  pose proof (journey_trail _ _ _ _ _ _ _ (visits_bound _ _ _) J) as T.
  assert (R : st_retreat s = Z.ltb max 0).
  { destruct (visits _ _ _) eqn:V.
    - rewrite E1 by reflexivity. reflexivity.
    - destruct (E2 ltac:(discriminate)) as [_ ->]. destruct (Z.leb_spec 0 max), (Z.ltb_spec max 0); auto; lia. }
  split; [exact R|]. split; [intros V; rewrite (E1 V); exact (conj eq_refl eq_refl)|].
  split; [intros V; exact (proj1 (E2 V))|exact T].
Qed.
Print Assumptions C21_ends_after_the_visits.
Example C21_ends_after_the_visits_ex :
  exists p s, propagate toy_machine (mkSt 0 false []) 1 (-7) = Some p /\ pr_end p = Ok s /\
              st_next s = SIZE_MAX /\ st_body s = ["b"; "a"].
Proof. vm_compute. eexists _, _. repeat split. Qed.

(** False for the one bound excluded above: abs(INT_MIN) is undefined. *)
Theorem C21_most_negative_max_refuted :
  exists (m : machine nat (list string)) st start, propagate m st start INT_MIN = None.
Proof. exact (ex_intro _ _ (ex_intro _ _ (ex_intro _ _ C21_most_negative_max_refuted_w))). Qed.
Print Assumptions C21_most_negative_max_refuted.

(** From Python, false for bounds beyond int: max = 2^32 + 1 visits one element. *)
Theorem C21_python_large_max_refuted :
  exists (m m' : machine nat (list string)) st s l,
    py_propagate m st 0 (Some 4294967297%Z) [] 0 = Some (m', Ok (s, l)) /\
    st_body s = ["a"] /\ List.length (m_elems m) = 4.
Proof.
  destruct C21_python_large_max_refuted_w as (m' & s & l & H).
  exact (ex_intro _ _ (ex_intro _ m' (ex_intro _ _ (ex_intro _ s (ex_intro _ l H))))).
Qed.
Print Assumptions C21_python_large_max_refuted.

(** ** C22 *)

(** Going a elements and then b more from where the state stands is going a+b,
    for elements that do not turn the state around: same state, same elements,
    same observer calls. *)
Theorem C22_composes : forall D B (m : machine D B) st start a b p1 s1 p2,
  keeps_direction (m_elems m) -> same_direction a b ->
  propagate m st start a = Some p1 -> pr_end p1 = Ok s1 ->
  propagate (with_elems m (pr_elems p1)) s1 (st_next s1) b = Some p2 ->
  propagate m st start (a + b)
  = Some (mkRun (pr_elems p2) (pr_events p1 ++ pr_events p2) (pr_end p2)).
Proof. intros D B. exact propagate_composes. Qed.
Print Assumptions C22_composes.
Example C22_composes_ex :
  keeps_direction (m_elems toy_machine) /\ same_direction (-1) (-2) /\
  exists p1 s1 p2, propagate toy_machine (mkSt 0 false []) 2 (-1) = Some p1 /\ pr_end p1 = Ok s1 /\
    propagate (with_elems toy_machine (pr_elems p1)) s1 (st_next s1) (-2) = Some p2 /\
    exists s2, pr_end p2 = Ok s2 /\ st_body s2 = ["a"; "b"; "a"].
Proof.
  split; [exact toy_keeps|]. split; [right; unfold INT_MIN; lia|].
  eexists _, _, _. vm_compute. repeat (split; [reflexivity|]). eexists. repeat split.
Qed.

(** If the first part throws, so does the whole. *)
Theorem C22_throws : forall D B (m : machine D B) st start a b p1 x,
  keeps_direction (m_elems m) -> same_direction a b ->
  propagate m st start a = Some p1 -> pr_end p1 = Throw x ->
  propagate m st start (a + b) = Some p1.
Proof. intros D B. exact propagate_composes_throw. Qed.
Print Assumptions C22_throws.
Example C22_throws_ex :
  exists m, new_machine toy_reg (TCfg [("elements", TCfgs [entry "a" "mark"; entry "x" "crash"]);
                                       ("sim_type", TStr "toy")] []) = Ok m /\
  option_map pr_end (propagate m (mkSt 0 false []) 0 2) = Some (Throw RuntimeError).
Proof. vm_compute. eexists. repeat split. Qed.

(** ** C23 *)

(** A reconfigure that throws changes nothing. *)
Theorem C23_throw_changes_nothing : forall D B (m m' : machine D B) idx c x,
  reconfigure m idx c = (m', Throw x) -> m' = m.
Proof. intros D B. exact reconfigure_throw. Qed.
Print Assumptions C23_throw_changes_nothing.
Example C23_throw_changes_nothing_ex :
  snd (reconfigure toy_machine 4 (entry "a" "mark")) = Throw InvalidArgument /\
  snd (reconfigure toy_machine 0 (TCfg [("name", TStr "a")] [])) = Throw KeyError /\
  snd (reconfigure toy_machine 0 (entry "a" "nosuch")) = Throw KeyError /\
  snd (reconfigure toy_machine 0 (entry "a" "probe")) = Throw RuntimeError /\
  snd (reconfigure toy_machine 0 (TCfg [("gain", TStr "?"); ("name", TStr "a"); ("type", TStr "mark")] [])) = Throw RuntimeError.
Proof. vm_compute. repeat split. Qed.

(** A reconfigure that succeeds changes element idx only: its class and observer
    stay, it reports idx as index and takes name, length and conf from c, and its
    private data are what assign() makes of the newly constructed. *)
Theorem C23_changes_one_element : forall D B (m m' : machine D B) idx c u,
  reconfigure m idx c = (m', Ok u) ->
  m_lookup m' = m_lookup m /\ m_types m' = m_types m /\ m_simtype m' = m_simtype m /\
  m_conf m' = m_conf m /\ m_info m' = m_info m /\
  List.length (m_elems m') = List.length (m_elems m) /\
  (forall j, j <> N.to_nat idx -> nth_error (m_elems m') j = nth_error (m_elems m) j) /\
  exists o e t k d,
    nth_error (m_elems m) (N.to_nat idx) = Some o /\ nth_error (m_elems m') (N.to_nat idx) = Some e /\
    el_class e = el_class o /\ el_obs e = el_obs o /\ el_index e = idx /\
    tfind "name" c = Some (TStr (el_name e)) /\ eb_conf (el_base e) = c /\
    eb_len (el_base e) = (match tfind "L" c with Some (TNum x) => x | _ => dzero end) /\
    tfind "type" c = Some (TStr t) /\ sfind t (si_elems (m_info m)) = Some k /\
    cl_id k = cl_id (el_class o) /\ cl_ctor k c = Ok d /\ el_data e = cl_assign k (el_data o) d.
Proof.
  intros D B m m' idx c u H.
  destruct (reconfigure_ok m m' idx c u H) as (o & t & k & nm & d & H1 & H2 & H3 & H4 & H5 & H6 & ->).
  simpl. repeat (split; [reflexivity|]). split; [apply update_length|].
  split; [intros j Hj; apply nth_update_neq; congruence|].
  eexists o, _, t, k, d. split; [exact H1|]. split; [exact (nth_update_eq _ _ _ _ H1)|].
  repeat (split; [first [reflexivity|assumption]|]). reflexivity.
Qed.
Print Assumptions C23_changes_one_element.
Example C23_changes_one_element_ex :
  snd (reconfigure toy_machine 1 (entry "z" "probe")) = Ok tt /\
  map el_name (m_elems (fst (reconfigure toy_machine 1 (entry "z" "probe")))) = ["a"; "z"; "a"; "c"].
Proof. vm_compute. repeat split. Qed.

(** Asking for another type is refused. *)
Theorem C23_type_is_fixed : forall D B (m : machine D B) idx c o t k,
  nth_error (m_elems m) (N.to_nat idx) = Some o ->
  tfind "type" c = Some (TStr t) -> sfind t (si_elems (m_info m)) = Some k ->
  cl_id k <> cl_id (el_class o) ->
  exists x, reconfigure m idx c = (m, Throw x).
Proof.
  intros D B m idx c o t k H1 H2 H3 H4.
  destruct (reconfigure m idx c) as [m' [u|x]] eqn:R.
  - destruct (reconfigure_ok m m' idx c u R) as (o' & t' & k' & nm & d & P1 & P2 & P3 & P4 & P5 & P6 & _).
    exfalso. congruence.
  - pose proof (reconfigure_throw _ _ _ _ _ R) as ->. exact (ex_intro _ x eq_refl).
Qed.
Print Assumptions C23_type_is_fixed.
Example C23_type_is_fixed_ex : reconfigure toy_machine 2 (entry "a" "crash") = (toy_machine, Throw RuntimeError).
Proof. vm_compute. reflexivity. Qed.

(** ** C24 *)

(** Whatever reconfigurations, propagations and observer changes a machine went
    through, it propagates every state as a machine built from the entries now in
    force -- provided the element classes are [transparent], that is, assign()
    replaces everything advance() depends on.  Missing: classes that are not (see
    the refutations for the linear source and others). *)
Theorem C24_reconfigured_like_new_partial : forall D B (r : registry D B) c m t i es us c',
  tfind "sim_type" c = Some (TStr t) -> sfind t r = Some i -> tfind "elements" c = Some (TCfgs es) ->
  tidy i -> new_machine r c = Ok m ->
  (forall e, In e (m_elems m) -> transparent (el_class e)) ->
  tfind "sim_type" c' = Some (TStr t) -> tfind "elements" c' = Some (TCfgs (entries m es us)) ->
  exists m2, new_machine r c' = Ok m2 /\
    forall st start max,
      option_map pr_end (propagate (uses m us) st start max)
      = option_map pr_end (propagate m2 st start max).
Proof. intros D B. exact reconfigured_like_new. Qed.
Print Assumptions C24_reconfigured_like_new_partial.
Example C24_reconfigured_like_new_partial_ex :
  tidy toy_info /\ (forall e, In e (m_elems toy_machine) -> transparent (el_class e)) /\
  tfind "elements" toy_conf2 = Some (TCfgs (entries toy_machine toy_es toy_uses2)).
Proof. split; [exact toy_tidy|]. split; [exact toy_transparent|]. vm_compute. reflexivity. Qed.

(** ** C25 *)

(** Registering what is registered already, or for an unknown simulation type,
    fails and changes nothing; otherwise registration succeeds. *)
Theorem C25_duplicates_rejected : forall D B (r : registry D B) o,
  (snd (reg1 r o) = Throw LogicError /\ fst (reg1 r o) = r) \/
  (snd (reg1 r o) = Ok tt /\
   match o with
   | RegState n _ => sfind n r = None
   | RegElem s n _ => exists i, sfind s r = Some i /\ sfind n (si_elems i) = None
   end).
Proof.
  intros D B r [n b|s n k]; simpl; unfold reg_state, reg_elem.
  - destruct (sfind n r); [left; exact (conj eq_refl eq_refl)|right; exact (conj eq_refl eq_refl)].
  - destruct (sfind s r) as [i|]; [|left; exact (conj eq_refl eq_refl)].
    destruct (sfind n (si_elems i)) eqn:E; [left; exact (conj eq_refl eq_refl)|].
    right. exact (conj eq_refl (ex_intro _ i (conj eq_refl E))).
Qed.
Print Assumptions C25_duplicates_rejected.
Example C25_duplicates_rejected_ex :
  reg1 toy_reg (RegElem "toy" "mark" crash) = (toy_reg, Throw LogicError) /\
  reg1 toy_reg (RegElem "nosuch" "mark" crash) = (toy_reg, Throw LogicError) /\
  reg1 toy_reg (RegState "toy" (fun _ => Ok [])) = (toy_reg, Throw LogicError).
Proof. vm_compute. repeat split. Qed.

(** After registrations that all succeeded the registry holds them and nothing
    else. *)
Theorem C25_holds_what_was_registered : forall D B (os : list (regop D B)) r,
  reg_all [] os = Some r ->
  (forall s b, (exists l, sfind s r = Some (mkSI b l)) <-> In (RegState s b) os) /\
  (forall s n k, (exists i, sfind s r = Some i /\ sfind n (si_elems i) = Some k) <-> In (RegElem s n k) os).
Proof. intros D B. exact reg_all_content. Qed.
Print Assumptions C25_holds_what_was_registered.
Example C25_holds_what_was_registered_ex : reg_all [] toy_ops = Some toy_reg.
Proof. vm_compute. reflexivity. Qed.

(** The order of registration does not matter. *)
Theorem C25_order_irrelevant : forall D B (os os' : list (regop D B)) r r',
  Permutation os os' -> reg_all [] os = Some r -> reg_all [] os' = Some r' -> r = r'.
Proof. intros D B. exact reg_order. Qed.
Print Assumptions C25_order_irrelevant.
Example C25_order_irrelevant_ex :
  Permutation toy_ops toy_ops' /\ reg_all [] toy_ops <> None /\ reg_all [] toy_ops' <> None.
Proof.
  split; [|split; vm_compute; discriminate].
  unfold toy_ops, toy_ops'. apply perm_skip. apply Permutation_sym.
  exact (Permutation_cons_append [RegElem "toy" "mark" mark; RegElem "toy" "probe" probe] (RegElem "toy" "crash" crash)).
Qed.

(** ** C26 *)

(** The observer calls are exactly: for every visit, in order, if the visited
    element has an observer, one call of it with that element and the state
    leaving that element. *)
Theorem C26_observer_calls : forall D B (m : machine D B) st start max,
  (N.of_nat (List.length (m_elems m)) <= SIZE_MAX)%N -> (INT_MIN < max <= INT_MAX)%Z ->
  undirected (m_elems m) ->
  let '(t, els, r) :=
    journey (m_elems m) (Z.leb 0 max) (visits (List.length (m_elems m)) start max)
            (mkSt start (Z.ltb max 0) (st_body st)) in
  option_map pr_events (propagate m st start max) = Some (seen (m_elems m) t).
Proof.
  intros D B m st start max HL HM HU. destruct (journey _ _ _ _) as [[t els] r] eqn:J.
  rewrite (propagate_visits m st start max HL HM HU t els r J). exact eq_refl.
Qed.
Print Assumptions C26_observer_calls.
Example C26_observer_calls_ex :
  let m := uses toy_machine [UObs 1 (Some 5); UObs 3 (Some 6); UObs 0 (Some 7)] in
  option_map pr_events (propagate m (mkSt 0 false []) 1 9)
  = Some [mkEv 5 1 (mkSt 2 false ["b"]); mkEv 6 3 (mkSt 4 false ["b"; "a"; "c"])].
Proof. vm_compute. reflexivity. Qed.

(** Python's propagate(state, start, max, observe=l): returns, in visiting order,
    one pair for every visited element whose number is in l: its index and a copy
    of the state that left it; afterwards no element has an observer. *)
Theorem C26_python_observe : forall D B (m : machine D B) st start pymax l o,
  (N.of_nat (List.length (m_elems m)) <= SIZE_MAX)%N ->
  map el_index (m_elems m) = map N.of_nat (seq 0 (List.length (m_elems m))) ->
  undirected (m_elems m) ->
  (forall e, In e (m_elems m) -> el_obs e = None) ->
  (forall z, In z l -> (0 <= z < Z.of_nat (List.length (m_elems m)))%Z) ->
  (forall z, pymax = Some z -> (INT_MIN < z <= INT_MAX)%Z) ->
  let max := match pymax with Some z => z | None => INT_MAX end in
  forall t els r,
  journey (m_elems m) (Z.leb 0 max) (visits (List.length (m_elems m)) start max)
          (mkSt start (Z.ltb max 0) (st_body st)) = (t, els, r) ->
  py_propagate m st start pymax l o
  = Some (with_elems m els, match r with Ok s => Ok (s, report l t) | Throw e => Throw e end)
  /\ (forall e, In e els -> el_obs e = None).
Proof. intros D B. exact py_propagate_ok. Qed.
Print Assumptions C26_python_observe.
Example C26_python_observe_ex :
  (forall e, In e (m_elems toy_machine) -> el_obs e = None) /\
  option_map (fun x => match snd x with Ok (s, l) => Some (st_body s, l) | Throw _ => None end)
    (py_propagate toy_machine (mkSt 0 false []) 3 (Some (-3)%Z) [0%Z; 1%Z; 3%Z] 0)
  = Some (Some (["c"; "a"; "b"], [(3%N, mkSt 0 false ["c"]); (1%N, mkSt 0 false ["c"; "a"; "b"])])).
Proof.
  split; [|vm_compute; reflexivity]. intros e He. simpl in He.
  repeat (destruct He as [<-|He]; [reflexivity|]). destruct He.
Qed.

(** The indices reported are slots: every machine in use numbers its elements. *)
Theorem C26_indices_are_slots : forall D B (r : registry D B) c m us,
  new_machine r c = Ok m ->
  map el_index (m_elems (uses m us)) = map N.of_nat (seq 0 (List.length (m_elems (uses m us)))).
Proof.
  intros D B r c m us H. destruct (uses_keeps us m) as (_ & _ & _ & _ & K & _).
  exact (K (new_machine_indexed r c m H)).
Qed.
Print Assumptions C26_indices_are_slots.
Example C26_indices_are_slots_ex : map el_index (m_elems (uses toy_machine toy_uses)) = [0%N; 1%N; 2%N; 3%N].
Proof. vm_compute. reflexivity. Qed.

(** A number that is not a slot is refused, and nothing happens. *)
Theorem C26_python_observe_out_of_range : forall D B (m : machine D B) st start pymax l o z,
  (forall e, In e (m_elems m) -> el_obs e = None) ->
  In z l -> ~ (0 <= z < Z.of_nat (List.length (m_elems m)))%Z ->
  py_propagate m st start pymax l o = Some (m, Throw RuntimeError).
Proof. intros D B. exact py_propagate_bad. Qed.
Print Assumptions C26_python_observe_out_of_range.
Example C26_python_observe_out_of_range_ex :
  py_propagate toy_machine (mkSt 0 false []) 0 None [1%Z; (-1)%Z] 0 = Some (toy_machine, Throw RuntimeError).
Proof. vm_compute. reflexivity. Qed.
