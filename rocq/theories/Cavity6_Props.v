(** C56 again *)
From Coq Require Import Reals List String Bool NArith ZArith Lia Lra Psatz.
From Verif Require Import SMap Dbl Config_Spec Mat Machine_Model Machine_Spec Machine_Proofs Machine2_Proofs Machine3_Proofs Machine4_Proofs Util_Model Moment_Model
  Moment_Spec Moment_Proofs Moment2_Proofs Moment3_Proofs Moment4_Proofs Moment5_Proofs Moment6_Proofs Cavity_Model Cavity_Spec Cavity_Proofs Cavity2_Proofs
  Cavity3_Proofs Cavity4_Proofs Cavity5_Proofs Cavity19_Proofs.
Import ListNotations.
Open Scope R_scope.
Open Scope string_scope.
Open Scope list_scope.

(** The cavity is built, but the first propagation reads the missing end of the
    limit. *)
Theorem C56_short_limit_refuted : forall num a k, (k < 2)%nat -> exists m p,
  let w := with_cavities (world0 num a) (files_of (Some (limit_of (repeat done k)))) in
  new_machine (moment_reg w) (mconf [cavity1]) = Ok m /\ aligned (state0 1) /\
  propagate m (mkSt 0 false (state0 1)) 0 1 = Some p /\ pr_end p = Throw BadIndex.
Proof. exact C56_short_limit_refuted_w. Qed.
Print Assumptions C56_short_limit_refuted.
