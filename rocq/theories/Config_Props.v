(** Property theorems about Config: C01-C05, C46. *)
From Coq Require Import List String Bool Arith Lia.
From Verif Require Import SMap SMap_Proofs Dbl Config_Model Config_Spec Config_Proofs Config2_Proofs Config3_Proofs.
Import ListNotations.
Local Open Scope string_scope.

(** ** C01  Lookups behave as if every copy were a private deep copy. *)
Theorem C01_lookups_see_private_copies :
  forall os : list (op * bool),
    forallb (fun ou => lookup_only (fst ou)) os = true ->
    legal_run init os ->
    run init os = frun finit (map fst os).
Proof. exact (fun os H L => run_sim os init finit Rel_init H L). Qed.
Print Assumptions C01_lookups_see_private_copies.

(** A program that copies a Config with a nested Config vector and an outer scope,
    writes through the copy, flattens it, and looks values up through both. *)
Definition demo : list op :=
  [OpNew 0; OpLit 0 (VStr "outer"); OpSet 0 "a" 0; OpNewScope 1 0;
   OpLit 0 (VStr "inner"); OpSet 1 "b" 0; OpPack 1 [0; 1]; OpSet 1 "kids" 1;
   OpCopy 2 1; OpLit 0 (VStr "changed"); OpSet 2 "a" 0; OpFlatten 2; OpSet 0 "a" 0;
   OpTryGet TyStr 3 1 "a"; OpShow 3; OpTryGet TyStr 3 2 "a"; OpShow 3;
   OpGet TyCfgs 4 2 "kids"; OpElem 5 4 0; OpTryGet TyStr 3 5 "a"; OpShow 3].

Example C01_demo_legal :
  forallb (fun ou => lookup_only (fst ou)) (map (fun o => (o, false)) demo) = true /\
  legal_run init (map (fun o => (o, false)) demo).
Proof. split; [reflexivity|apply legal_run_false]. Qed.

Example C01_demo_output :
  run init (map (fun o => (o, false)) demo) =
  Some [OUnit; OUnit; OUnit; OUnit; OUnit; OUnit; OUnit; OUnit; OUnit; OUnit; OUnit; OUnit; OUnit;
        OBool true; OShape (ShStr "outer"); OBool true; OShape (ShStr "changed");
        OUnit; OUnit; OBool true; OShape (ShStr "outer")].
Proof. vm_compute. reflexivity. Qed.

(** Writing in place ([unique()] answering true) is a legal answer too. *)
Example C01_in_place_legal :
  legal_run init [(OpNew 0, false); (OpLit 0 (VStr "x"), false); (OpSet 0 "a" 0, true);
                  (OpCopy 1 0, false); (OpSet 1 "a" 0, false)].
Proof.
  simpl. split; [exact I|]. split; [exact I|]. split; [|split; [exact I|split; [intros H; discriminate|exact I]]].
  intros _ hd E. unfold upd in E; simpl in E. injection E as <-.
  apply exclusive_check.
  - split; [reflexivity|]. intros v. unfold upd; simpl. destruct (Nat.eqb v 0); reflexivity.
  - discriminate.
  - intros r' hd' Hr E. unfold upd in E; simpl in E. apply Nat.eqb_neq in Hr. rewrite Hr in E. discriminate.
Qed.

(** The answers of the uniqueness test are unobservable. *)
Theorem C01_sharing_unobservable :
  forall os1 os2 : list (op * bool),
    map fst os1 = map fst os2 ->
    forallb (fun ou => lookup_only (fst ou)) os1 = true ->
    forallb (fun ou => lookup_only (fst ou)) os2 = true ->
    legal_run init os1 -> legal_run init os2 ->
    run init os1 = run init os2.
Proof.
  exact (fun os1 os2 E H1 H2 L1 L2 =>
    eq_trans (run_sim os1 init finit Rel_init H1 L1)
      (eq_trans (f_equal (frun finit) E) (eq_sym (run_sim os2 init finit Rel_init H2 L2)))).
Qed.
Print Assumptions C01_sharing_unobservable.

(** ** C02  Iteration is not isolated: flattening a copy changes the entries of
    the original. *)

Theorem C02_iteration_isolation_refuted :
  exists st st' out before after,
    reachable st /\ legal st (OpFlatten 2) false /\ step st (OpFlatten 2) false = Some (st', out) /\
    own_entries st 1 = Some before /\ own_entries st' 1 = Some after /\ before <> after.
Proof. exact C02_iteration_isolation_refuted_w. Qed.
Print Assumptions C02_iteration_isolation_refuted.

(** Everything observable, iteration and swapAny included, is as if every copy
    were private, for programs that flatten (or push a scope on) only Configs
    which have no outer scope or whose inner map is not shared.  Missing from the
    full claim: the shared two-scope case, where it fails (above). *)
Theorem C02_iteration_isolation_partial :
  forall os : list (op * bool),
    safe_run init os -> legal_run init os ->
    run init os = trun tinit (map fst os).
Proof. exact (fun os S L => run_sim2 os init tinit Rel2_init S L). Qed.
Print Assumptions C02_iteration_isolation_partial.

Example C02_safe_run :
  let os := map (fun o => (o, false))
    [OpNew 0; OpLit 0 (VStr "x"); OpSet 0 "a" 0; OpNewScope 1 0; OpLit 1 (VStr "y"); OpSet 1 "b" 1;
     OpFlatten 1; OpCopy 2 1; OpSet 2 "c" 0; OpKeys 0; OpKeys 1; OpKeys 2] in
  safe_run init os /\ legal_run init os /\
  run init os = Some [OUnit; OUnit; OUnit; OUnit; OUnit; OUnit; OUnit; OUnit; OUnit;
     OKeys [("a", ShStr "x")]; OKeys [("a", ShStr "x"); ("b", ShStr "y")];
     OKeys [("a", ShStr "x"); ("b", ShStr "y"); ("c", ShStr "x")]].
Proof.
  split; [|split; [apply legal_run_false|vm_compute; reflexivity]].
  simpl. do 6 (split; [exact I|]). split; [|repeat (split; [exact I|]); exact I].
  intros hd E. unfold upd in E; simpl in E. injection E as <-. right.
  apply exclusive_check.
  - split; [reflexivity|]. intros v. unfold upd; simpl.
    destruct (Nat.eqb v 1); [reflexivity|]. destruct (Nat.eqb v 0); reflexivity.
  - discriminate.
  - intros r' hd' Hr E. unfold upd in E; simpl in E. apply Nat.eqb_neq in Hr. rewrite Hr in E.
    destruct (Nat.eqb r' 0); [|discriminate]. injection E as <-. intros [H|H]; discriminate.
Qed.

(** ** C03  Scoped lookup.  [see st r n] is what a lookup of [n] through variable
    [r] finds; the law states it for every variable after the operation. *)
Theorem C03_scoped_lookup :
  forall st o u st' x r' n',
    reachable st -> legal st o u -> step st o u = Some (st', x) ->
    match o with
    | OpNewScope r s => see st' r' n' = if Nat.eqb r' r then see st s n' else see st r' n'
    | OpPush _ | OpFlatten _ => see st' r' n' = see st r' n'
    | OpSet r n v =>
        see st' r' n' = if Nat.eqb r' r && String.eqb n' n then Some (Some (vregs st v)) else see st r' n'
    | OpSwapAny r n v =>
        see st' r' n' = if Nat.eqb r' r && String.eqb n' n then Some (Some (vregs st v)) else see st r' n'
    | _ => True
    end.
Proof. exact scope_laws. Qed.
Print Assumptions C03_scoped_lookup.

Example C03_case :
  exists st st' x, reachable st /\ legal st (OpNewScope 3 1) false /\
    step st (OpNewScope 3 1) false = Some (st', x) /\
    see st 1 "a" = Some (Some (VStr "x")) /\ own_entries st 1 = Some [("b", VStr "x")] /\
    see st' 3 "a" = Some (Some (VStr "x")) /\ see st' 3 "zz" = Some None.
Proof.
  pose (os := [OpNew 0; OpLit 0 (VStr "x"); OpSet 0 "a" 0; OpNewScope 1 0; OpSet 1 "b" 0]).
  destruct (exec init (map (fun o => (o, false)) os)) as [st|] eqn:E; [|discriminate E].
  assert (R : reachable st).
  { apply (reachable_run (map (fun o => (o, false)) os) init); [apply reach_init| |exact E].
    apply legal_run_false. }
  vm_compute in E. injection E as <-.
  eexists _, _, _. split; [exact R|]. split; [exact I|]. split; [reflexivity|]. repeat split; reflexivity.
Qed.

(** Creating a scope is, for lookups, the same as copying: nothing done later to
    the parent is seen, whatever the program. *)
Theorem C03_new_scope_is_a_copy :
  forall os1 os2 : list (op * bool),
    forallb (fun ou => lookup_only (fst ou)) os1 = true ->
    legal_run init os1 -> legal_run init os2 ->
    map fst os2 = map (fun o => match o with OpNewScope r s => OpCopy r s | _ => o end) (map fst os1) ->
    run init os1 = run init os2.
Proof. exact run_scope_is_copy. Qed.
Print Assumptions C03_new_scope_is_a_copy.

(** ** C04  Typed access. *)
Theorem C04_typed_access :
  forall st v r n t, reachable st -> regs st r <> None ->
  exists found,
    see st r n = Some found /\
    let hit := match found with Some x => if vty_eqb t (vtype x) then Some x else None | None => None end in
    let put x := mkS (hp st) (regs st) (upd (vregs st) v x) in
    (forall u, step st (OpGet t v r n) u =
       Some (match hit with Some x => (put x, OUnit) | None => (st, OKeyError) end)) /\
    (forall u, step st (OpGetDef t v r n) u =
       Some (match hit with Some x => (put x, OUnit) | None => (st, OUnit) end)) /\
    (forall u, step st (OpTryGet t v r n) u =
       Some (match hit with Some x => (put x, OBool true) | None => (st, OBool false) end)).
Proof. exact typed_access. Qed.
Print Assumptions C04_typed_access.

(** A string asked for as a number: default kept, KeyError thrown. *)
Example C04_case :
  run init (map (fun o => (o, false))
    [OpNew 0; OpLit 0 (VStr "x"); OpSet 0 "a" 0; OpLit 1 (VNum done);
     OpGetDef TyNum 1 0 "a"; OpShow 1; OpGet TyNum 1 0 "a"; OpTryGet TyStr 1 0 "a"; OpShow 1]) =
  Some [OUnit; OUnit; OUnit; OUnit; OUnit; OShape (ShNum done); OKeyError; OBool true; OShape (ShStr "x")].
Proof. vm_compute. reflexivity. Qed.

(** ** C05  The typed swap discards the stored value. *)
Theorem C05_typed_swap_refuted :
  exists st st' out old new,
    reachable st /\ legal st (OpSwapT TyStr 0 "a" 1) false /\
    step st (OpSwapT TyStr 0 "a" 1) false = Some (st', out) /\
    see st 0 "a" = Some (Some old) /\ vregs st 1 = new /\ old <> new /\
    see st' 0 "a" = Some (Some new) /\ vregs st' 1 <> old.
Proof. exact C05_typed_swap_refuted_w. Qed.
Print Assumptions C05_typed_swap_refuted.

(** The untyped swap does exchange, with the entry of the inner scope; with a
    name present only in an outer scope (or nowhere) the caller receives 0.0. *)
Theorem C05_swap_any_partial :
  forall st r n v u st' x,
    reachable st -> legal st (OpSwapAny r n v) u ->
    step st (OpSwapAny r n v) u = Some (st', x) ->
    exists m, own_entries st r = Some m /\
      vregs st' v = (match sfind n m with Some w => w | None => VNum dzero end) /\
      own_entries st' r = Some (sset n (vregs st v) m) /\
      (forall w, w <> v -> vregs st' w = vregs st w) /\
      (forall r', r' <> r -> own_entries st' r' = own_entries st r').
Proof. exact swap_any_law. Qed.
Print Assumptions C05_swap_any_partial.

Example C05_case :
  run init (map (fun o => (o, false))
    [OpNew 0; OpLit 0 (VStr "old"); OpSet 0 "a" 0; OpLit 1 (VNum done); OpSwapAny 0 "a" 1; OpShow 1; OpKeys 0]) =
  Some [OUnit; OUnit; OUnit; OUnit; OUnit; OShape (ShStr "old"); OKeys [("a", ShNum done)]].
Proof. vm_compute. reflexivity. Qed.

(** ** C46  Reading one element's configuration changes what the machine's own
    configuration lists for that element.  Variable 0: the machine's Config, 1:
    the element's Config (also stored in "elements" of 0). *)


Theorem C46_inspection_changes_machine_refuted :
  exists l1 l2,
    legal_run init (map (fun o => (o, false)) (c46_machine ++ c46_list)) /\
    legal_run init (map (fun o => (o, false)) c46_machine ++ py_conf 1 9 ++ map (fun o => (o, false)) c46_list) /\
    option_map (@List.rev out) (run init (map (fun o => (o, false)) (c46_machine ++ c46_list))) = Some (OKeys [("type", ShStr "drift")] :: l1) /\
    option_map (@List.rev out) (run init (map (fun o => (o, false)) c46_machine ++ py_conf 1 9 ++ map (fun o => (o, false)) c46_list))
      = Some (OKeys [("L", ShNum done); ("type", ShStr "drift")] :: l2).
Proof. exact C46_inspection_changes_machine_refuted_w. Qed.
Print Assumptions C46_inspection_changes_machine_refuted.

(** Values found by lookup are never affected by the inspection.  Missing from
    the full claim: the listing of entries, which does change (above). *)
Theorem C46_inspection_keeps_lookups_partial :
  forall st e tmp st' outs,
    reachable st -> legal_run st (py_conf e tmp) -> e <> tmp ->
    exec st (py_conf e tmp) = Some st' -> run st (py_conf e tmp) = Some outs ->
    forall r n, r <> tmp -> see st' r n = see st r n.
Proof. exact run_py_conf_see. Qed.
Print Assumptions C46_inspection_keeps_lookups_partial.
