(** C49 for the simulation types Vector and TransferMatrix, in exact arithmetic. *)
From Coq Require Import Reals List String Bool NArith ZArith Arith Lia Lra.
From Verif Require Import SMap Dbl Config_Spec Mat Mat_Proofs Machine_Model Machine_Spec
  Linear_Model Linear_Spec Linear_Proofs Linear2_Proofs Linear3_Proofs.
Import ListNotations.
Open Scope R_scope.
Open Scope string_scope.
Open Scope list_scope.

(** Propagating through one element takes the state vector along a solution of the
    element's equations of motion, over the element's length (in mm). *)
Theorem C49_follows_the_motion : forall num c m es i ec t st,
  new_machine (vector_reg num) c = Ok m -> tfind "elements" c = Some (TCfgs es) ->
  (N.of_nat (List.length es) <= SIZE_MAX)%N ->
  nth_error es i = Some ec -> tfind "type" ec = Some (TStr t) -> optical t -> proper_bend num ec ->
  exists p f x, propagate m st (N.of_nat i) 1 = Some p /\ pr_end p = Ok f /\
    ls_pos (st_body f) = ls_pos (st_body st) + length_of num ec /\
    trajectory (motion num ec) x /\ veq 6 (x 0) (ls_val (st_body st)) /\
    veq 6 (x (length_of num ec * 1000)) (ls_val (st_body f)).
Proof. exact element_motion. Qed.
Print Assumptions C49_follows_the_motion.
Example C49_follows_the_motion_ex : forall num, num done = 1 -> num dzero = 0 ->
  let q := lentry "q" "quadrupole" [("K", TNum done); ("L", TNum done)] in
  let b := lentry "b" "sbend" [("L", TNum done); ("phi", TNum done)] in
  (exists m, new_machine (vector_reg num) (lconf "Vector" [q; b]) = Ok m) /\
  optical "quadrupole" /\ optical "sbend" /\ proper_bend num q /\ proper_bend num b /\
  motion num q 1%nat 0%nat = - (1 / 1000 / 1000) /\ motion num q 3%nat 2%nat = 1 / 1000 / 1000 /\
  motion num b 1%nat 0%nat = - (1 / 1000 / 1000) /\ motion num b 3%nat 2%nat = 0.
Proof.
  intros num H1 H0 q b. split; [eexists; reflexivity|]. split; [unfold optical; simpl; auto 8|]. split; [unfold optical; simpl; auto 8|].
  split; [intros H; discriminate|]. split.
  { intros _. split; [change (num done <> 0); lra|]. intros p E. injection E as <-. lra. }
  change (motion num q) with (focusing (num done / 1000 / 1000) (- (num done / 1000 / 1000))).
  change (motion num b) with (focusing (num dzero / 1000 / 1000 + num done / (num done * 1000) * (num done / (num done * 1000)))
    (- (num dzero / 1000 / 1000))).
  rewrite H1, H0. unfold focusing. repeat split; lra.
Qed.

(** There is only one such solution. *)
Theorem C49_motion_is_unique : forall A x y, trajectory A x -> trajectory A y -> veq 6 (x 0) (y 0) ->
  forall s, veq 6 (x s) (y s).
Proof. exact trajectory_unique. Qed.
Print Assumptions C49_motion_is_unique.
Example C49_motion_is_unique_ex : trajectory (focusing 1 (-1)) (fun s => mapp 6 (planes 1 (-1) s) (fun _ => 1)).
Proof. apply flow_trajectory, planes_flow. Qed.
