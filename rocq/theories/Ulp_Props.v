(** C85, and C84 again *)
From Coq Require Import Reals List ZArith Arith Lia Floats.SpecFloat.
From Verif Require Import Dbl Number_Spec Bits_Model Bits_Spec Bits_Proofs Ulp_Spec Ulp_Proofs.
Import ListNotations.
Open Scope R_scope.

Theorem C85_centroid : forall e s, Forall2 (fun c d =>
    well_formed_vec 7 (c_m0 c) -> well_formed_mat 7 (c_tm d) -> forall i, (i < 7)%nat -> is_finite (c_m0 d i) = true ->
    Rabs (dval (c_m0 d i) - exact_vec 7 (c_tm d) (fun k => dval (c_m0 c k)) i) <=
      gamma 7 * abs_vec 7 (c_tm d) (fun k => Rabs (dval (c_m0 c k))) i + lost 7) (f_cells s) (f_cells (fadvance e s)).
Proof. exact centroid_error. Qed.
Print Assumptions C85_centroid.
Example C85_centroid_ex : exists c d, f_cells ulp_ex = [c] /\ f_cells (fadvance (fdrift w_3) ulp_ex) = [d] /\
  well_formed_vec 7 (c_m0 c) /\ well_formed_mat 7 (c_tm d) /\ forallb (fun i => is_finite (c_m0 d i)) (seq 0 7) = true.
Proof.
  do 2 eexists. split; [reflexivity|]. split; [reflexivity|]. split; [intros i Hi; reflexivity|].
  split; [apply all_wf|]; vm_compute; reflexivity.
Qed.

Theorem C85_covariance : forall e s, Forall2 (fun c d =>
    well_formed_mat 7 (c_m1 c) -> well_formed_mat 7 (c_tm d) -> forall i j, (i < 7)%nat -> (j < 7)%nat -> is_finite (c_m1 d i j) = true ->
    Rabs (dval (c_m1 d i j) - exact_cov 7 (c_tm d) (c_m1 c) i j) <= cov_error 7 (c_tm d) (c_m1 c) i j)
  (f_cells s) (f_cells (fadvance e s)).
Proof. exact covariance_error. Qed.
Print Assumptions C85_covariance.
Example C85_covariance_ex : exists c d, f_cells ulp_ex = [c] /\ f_cells (fadvance (fdrift w_3) ulp_ex) = [d] /\
  well_formed_mat 7 (c_m1 c) /\ well_formed_mat 7 (c_tm d) /\
  forallb (fun i => forallb (fun j => is_finite (c_m1 d i j)) (seq 0 7)) (seq 0 7) = true.
Proof.
  do 2 eexists. split; [reflexivity|]. split; [reflexivity|].
  split; [apply all_wf|split; [apply all_wf|]]; vm_compute; reflexivity.
Qed.

Theorem C85_vector_line : forall es s i, Forall (fun e => well_formed_mat 6 (snd e)) es -> well_formed_vec 6 (fl_state s) -> (i < 6)%nat ->
  is_finite (fl_state (fold_left (fun s e => lin_advance e s) es s) i) = true ->
  Rabs (dval (fl_state (fold_left (fun s e => lin_advance e s) es s) i) - exact_line 6 (map snd es) (fun k => dval (fl_state s k)) i) <=
  ((1 + u_round) ^ (7 * List.length es) - 1) * abs_line 6 (map snd es) (fun k => Rabs (dval (fl_state s k))) i +
  small_line 6 (map snd es) (fun _ => 0) i.
Proof. exact vector_line. Qed.
Print Assumptions C85_vector_line.
Example C85_vector_line_ex :
  let es := [(w_1, fset fid 0 1 w_1); (w_3, fset fid 0 1 w_3)] in
  Forall (fun e => well_formed_mat 6 (snd e)) es /\ well_formed_vec 6 (fun _ => w_3) /\
  is_finite (fl_state (fold_left (fun s e => lin_advance e s) es (mkFL dzero (fun _ => w_3))) 0%nat) = true.
Proof.
  split; [|split; [intros i Hi; reflexivity|vm_compute; reflexivity]].
  repeat apply Forall_cons; [| |apply Forall_nil]; intros i j Hi Hj; simpl; unfold fset, fid;
    destruct (_ && _)%bool; try reflexivity; destruct (Nat.eqb i j); reflexivity.
Qed.

Theorem C85_position : forall es s, well_formed (f_pos s) -> Forall (fun e => well_formed (e_len e)) es ->
  is_finite (f_pos (frun es s)) = true ->
  Rabs (dval (f_pos (frun es s)) - (dval (f_pos s) + rlist (map e_len es))) <=
  ((1 + u_round) ^ List.length es - 1) * (Rabs (dval (f_pos s)) + rlist_abs (map e_len es)).
Proof. exact position_error. Qed.
Print Assumptions C85_position.
Example C85_position_ex : well_formed (f_pos ulp_ex) /\ Forall (fun e => well_formed (e_len e)) [fdrift w_1; fmarker; fdrift w_3] /\
  is_finite (f_pos (frun [fdrift w_1; fmarker; fdrift w_3] ulp_ex)) = true.
Proof. split; [reflexivity|]. split; [repeat constructor|vm_compute; reflexivity]. Qed.

(** What these errors amount to. *)
Theorem C85_sizes : gamma 7 < / 10 ^ 15 /\ (1 + gamma 7) ^ 2 - 1 < 2 / 10 ^ 15 /\ lost 7 < / 10 ^ 300.
Proof. exact sizes. Qed.
Print Assumptions C85_sizes.

Theorem C84_variance_near : forall e s, Forall2 (fun c d =>
    covariance_of_doubles (c_m1 c) -> well_formed_mat 7 (c_tm d) -> forall i, (i < 7)%nat -> is_finite (c_m1 d i i) = true ->
    - cov_error 7 (c_tm d) (c_m1 c) i i <= dval (c_m1 d i i)) (f_cells s) (f_cells (fadvance e s)).
Proof. exact variance_near. Qed.
Print Assumptions C84_variance_near.
Example C84_variance_near_ex : exists c d, f_cells ulp_ex = [c] /\ f_cells (fadvance (fdrift w_3) ulp_ex) = [d] /\
  covariance_of_doubles (c_m1 c) /\ well_formed_mat 7 (c_tm d) /\ forallb (fun i => is_finite (c_m1 d i i)) (seq 0 7) = true.
Proof.
  do 2 eexists. split; [reflexivity|]. split; [reflexivity|]. split; [exact mix_cov|].
  split; [apply all_wf|]; vm_compute; reflexivity.
Qed.

Theorem C84_symmetric_near : forall e s, Forall2 (fun c d =>
    covariance_of_doubles (c_m1 c) -> well_formed_mat 7 (c_tm d) -> forall i j, (i < 7)%nat -> (j < 7)%nat ->
    is_finite (c_m1 d i j) = true -> is_finite (c_m1 d j i) = true ->
    Rabs (dval (c_m1 d i j) - dval (c_m1 d j i)) <= cov_error 7 (c_tm d) (c_m1 c) i j + cov_error 7 (c_tm d) (c_m1 c) j i)
  (f_cells s) (f_cells (fadvance e s)).
Proof. exact symmetric_near. Qed.
Print Assumptions C84_symmetric_near.
Example C84_symmetric_near_ex : exists c d, f_cells ulp_ex = [c] /\ f_cells (fadvance (fdrift w_3) ulp_ex) = [d] /\
  covariance_of_doubles (c_m1 c) /\ well_formed_mat 7 (c_tm d) /\
  is_finite (c_m1 d 0%nat 2%nat) = true /\ is_finite (c_m1 d 2%nat 0%nat) = true.
Proof.
  do 2 eexists. split; [reflexivity|]. split; [reflexivity|]. split; [exact mix_cov|].
  split; [apply all_wf|split]; vm_compute; reflexivity.
Qed.
