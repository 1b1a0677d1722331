(** C83 and C84 *)
From Coq Require Import Reals List ZArith Arith Floats.SpecFloat.
From Verif Require Import Dbl Number_Spec Bits_Model Bits_Spec Bits_Proofs.
Import ListNotations.
Open Scope nat_scope.

Theorem C83_marker : forall s, up_to_date s -> all_finite s -> shown_alike false (fadvance fmarker s) s.
Proof. exact marker_alike. Qed.
Print Assumptions C83_marker.
(** Variances 10, covariances 0.1, 0.3 and 1, at 0.5 MeV/u. *)
Example C83_marker_ex : up_to_date (w_state half_mega (fun _ => w_1) w_mix) /\
  all_finite (w_state half_mega (fun _ => w_1) w_mix).
Proof.
  split; [apply w_fresh|]. split; [reflexivity|]. constructor; [|constructor]. split; [reflexivity|].
  split; [split; reflexivity|]. apply mix_cov.
Qed.

Theorem C83_line : forall A B s, Forall phase_blind B -> up_to_date s -> all_finite (frun A s) ->
  shown_alike (match B with [] => false | _ => true end) (frun (A ++ fmarker :: B) s) (frun (A ++ B) s).
Proof. exact line_alike. Qed.
Print Assumptions C83_line.
Example C83_line_ex : Forall phase_blind [fdrift w_3; fmarker; fdrift done] /\
  up_to_date (w_state half_mega (fun _ => w_1) w_mix) /\
  all_finite (frun [fdrift w_1] (w_state half_mega (fun _ => w_1) w_mix)).
Proof.
  split; [repeat constructor|]. split; [apply w_fresh|]. split; [vm_compute; reflexivity|].
  constructor; [|constructor]. split; [vm_compute; reflexivity|]. split.
  - intros i Hi. do 7 (destruct i as [|i]; [split; vm_compute; reflexivity|]). exfalso. Lia.lia.
  - intros i j Hi Hj. revert j Hj. do 7 (destruct i as [|i]; [intros j Hj;
      do 7 (destruct j as [|j]; [split; vm_compute; reflexivity|]); exfalso; Lia.lia|]). exfalso. Lia.lia.
Qed.

Theorem C83_untouched : forall (I : nat -> Prop) es s,
  Forall (fun e => forall r p i, I i -> i < 7 /\ unit_row 7 (e_mat e r p) i) es ->
  (forall A B, es = A ++ B -> B <> [] -> all_finite (frun A s)) -> Forall2 (kept I) (f_cells s) (f_cells (frun es s)).
Proof. exact kept_run. Qed.
Print Assumptions C83_untouched.
(** Momenta and the constant in a drift of any length. *)
Example C83_untouched_ex : forall len,
  Forall (fun e => forall r p i, In i [1; 3; 5; 6] -> i < 7 /\ unit_row 7 (e_mat e r p) i) [fdrift len] /\
  forall A B, [fdrift len] = A ++ B -> B <> [] -> all_finite (frun A (w_state half_mega (fun _ => w_1) w_mix)).
Proof.
  intros len. split; [constructor; [intros; apply drift_unit; auto|constructor]|].
  intros A B E N. destruct A as [|a [|]]; [|injection E as _ <-; congruence|discriminate].
  apply C83_marker_ex.
Qed.

(** Drifts of any lengths keep the momenta, bit for bit. *)
Theorem C83_momenta : forall lens s, (forall A B, lens = A ++ B -> B <> [] -> all_finite (frun (map fdrift A) s)) ->
  Forall2 (kept (fun i => In i [1; 3; 5; 6])) (f_cells s) (f_cells (frun (map fdrift lens) s)).
Proof. exact drifts_keep. Qed.
Print Assumptions C83_momenta.
Example C83_momenta_ex : forall A B, [w_1; w_3] = A ++ B -> B <> [] ->
  all_finite (frun (map fdrift A) (w_state half_mega (fun _ => w_1) w_mix)).
Proof.
  intros A B E N. destruct A as [|a [|a' [|]]]; [apply C83_marker_ex| |injection E as _ _ <-; congruence|discriminate].
  injection E as <- _. apply C83_line_ex.
Qed.

Theorem C83_linear : forall s, (forall i, i < 6 -> number (fl_state s i)) ->
  alike (fl_pos (lin_advance (dzero, fid) s)) (fl_pos s) /\
  forall i, i < 6 -> alike (fl_state (lin_advance (dzero, fid) s) i) (fl_state s i).
Proof. exact lin_marker. Qed.
Print Assumptions C83_linear.
Example C83_linear_ex : forall i, i < 6 -> number (fl_state (mkFL w_1 (fun i => d_of_Z (Z.of_nat i))) i).
Proof. intros i Hi. do 6 (destruct i as [|i]; [split; reflexivity|]). exfalso. Lia.lia. Qed.

Theorem C83_at_rest_refuted : exists s, up_to_date s /\
  Forall (fun c => forall i, i < 7 -> number (c_m0 c i) /\ forall j, j < 7 -> number (c_m1 c i j)) (f_cells s) /\
  fEk (f_ref s) = dzero /\ fphis (f_ref s) = dzero /\ fphis (f_ref (fadvance fmarker s)) = S754_nan.
Proof. exact rest_w. Qed.
Print Assumptions C83_at_rest_refuted.

Theorem C83_infinite_refuted : exists s, up_to_date s /\ is_finite (fK (f_ref s)) = true /\
  exists c, f_cells s = [c] /\ c_m0 c 0 = S754_infinity false /\ number (c_m0 c 2) /\
  exists d, f_cells (fadvance fmarker s) = [d] /\ c_m0 d 2 = S754_nan.
Proof. exact infinite_w. Qed.
Print Assumptions C83_infinite_refuted.

Theorem C84_root : forall s,
  Forall (fun c => not_below_zero (fQ (c_p c)) /\ forall i, i < 6 -> not_below_zero (c_m1 c i i)) (f_cells s) ->
  forall i, i < 6 -> not_below_zero (f_env1 (fcalc s) i i) /\ not_below_zero (f_rms (fcalc s) i) /\
    (f_rms (fcalc s) i = S754_nan -> f_env1 (fcalc s) i i = S754_nan).
Proof. exact root_real. Qed.
Print Assumptions C84_root.
Example C84_root_ex :
  Forall (fun c => not_below_zero (fQ (c_p c)) /\ forall i, i < 6 -> not_below_zero (c_m1 c i i))
    (f_cells (w_state half_mega (fun _ => w_1) w_mix)).
Proof. constructor; [|constructor]. split; [exact I|]. intros i Hi. do 6 (destruct i as [|i]; [exact I|]). exfalso. Lia.lia. Qed.

Theorem C84_shown_symmetric : forall s i j, Forall (fun c => c_m1 c i j = c_m1 c j i) (f_cells s) ->
  f_env1 (fcalc s) i j = f_env1 (fcalc s) j i.
Proof. exact shown_symmetric. Qed.
Print Assumptions C84_shown_symmetric.
Example C84_shown_symmetric_ex :
  Forall (fun c => c_m1 c 0 2 = c_m1 c 2 0) (f_cells (w_state half_mega (fun _ => w_1) w_mix)).
Proof. repeat constructor. Qed.

Theorem C84_planes : forall es s, Forall (fun e => forall r p, planes_apart (e_mat e r p)) es ->
  Forall (fun c => uncorrelated (c_m1 c)) (f_cells s) -> Forall (fun c => uncorrelated (c_m1 c)) (f_cells (frun es s)).
Proof. exact uncorrelated_run. Qed.
Print Assumptions C84_planes.
Example C84_planes_ex : Forall (fun e => forall r p, planes_apart (e_mat e r p)) [fdrift w_1; fdrift w_3] /\
  Forall (fun c => uncorrelated (c_m1 c)) (f_cells (w_state half_mega (fun _ => w_1) w_conv)).
Proof.
  split; [do 2 (apply Forall_cons; [intros; apply drift_apart|]); apply Forall_nil|].
  apply Forall_cons; [|apply Forall_nil].
  intros i j Hi Hj N. left. exists false.
  do 2 (destruct i as [|i]; [do 2 (destruct j as [|j]; [exfalso; destruct N as [N|N]; [apply N; reflexivity|discriminate]|]); reflexivity|]).
  reflexivity.
Qed.

Theorem C84_variance_refuted : exists e s, up_to_date s /\ all_finite s /\ (exists len, e = fdrift len) /\
  (exists c, f_cells s = [c] /\ fQ (c_p c) = done /\ covariance_of_doubles (c_m1 c)) /\
  dlt (f_env1 (fadvance e s) 0 0) dzero = true /\ f_rms (fadvance e s) 0 = S754_nan.
Proof. exact conv_w. Qed.
Print Assumptions C84_variance_refuted.

Theorem C84_symmetric_refuted : exists e s, up_to_date s /\ all_finite s /\ (exists len, e = fdrift len) /\
  (exists c, f_cells s = [c] /\ fQ (c_p c) = done /\ covariance_of_doubles (c_m1 c)) /\
  deq (f_env1 (fadvance e s) 0 2) (f_env1 (fadvance e s) 2 0) = false.
Proof. exact mix_w. Qed.
Print Assumptions C84_symmetric_refuted.
