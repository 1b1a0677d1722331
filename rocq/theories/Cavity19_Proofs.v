(** A limit that lacks an end. *)
From Coq Require Import Reals List String Bool NArith ZArith Lia Lra Psatz.
From Verif Require Import SMap Dbl Config_Spec Mat Machine_Model Machine_Spec Machine_Proofs Machine2_Proofs Machine3_Proofs Machine4_Proofs Util_Model Moment_Model
  Moment_Spec Moment_Proofs Moment2_Proofs Moment3_Proofs Moment4_Proofs Moment5_Proofs Moment6_Proofs Cavity_Model Cavity_Spec Cavity_Proofs Cavity2_Proofs
  Cavity3_Proofs Cavity4_Proofs Cavity5_Proofs.
Import ListNotations.
Open Scope R_scope.
Open Scope string_scope.
Open Scope list_scope.

Definition limit_of (l : list double) : tcfg :=
  TCfg [("EnergyLimit", TVec l); ("Ez", TVec ez4); ("Rm", TNum done); ("elements", TCfgs [piece0; gap_of 23; piece0])] [].
Lemma C56_short_limit_refuted_w : forall num a k, (k < 2)%nat -> exists m p,
  let w := with_cavities (world0 num a) (files_of (Some (limit_of (repeat done k)))) in
  new_machine (moment_reg w) (mconf [cavity1]) = Ok m /\ aligned (state0 1) /\
  propagate m (mkSt 0 false (state0 1)) 0 1 = Some p /\ pr_end p = Throw BadIndex.
Proof.
  intros num a k Hk. set (w := with_cavities (world0 num a) (files_of (Some (limit_of (repeat done k))))).
  assert (X : exists m e, new_machine (moment_reg w) (mconf [cavity1]) = Ok m /\ nth_error (m_elems m) 0 = Some e /\
    el_class e = mom_class w KRFCavity /\ eb_conf (el_base e) = cavity1 /\ mom_ctor w KRFCavity cavity1 = Ok (el_data e)).
  { destruct k as [|[|k]]; [| |lia]; (do 2 eexists; split; [reflexivity|repeat split]). }
  destruct X as (m & e & Hm & He & K & Cf & D).
  assert (CC : w_cav_ref w cavity1 (ms_ref (ms_recalc (state0 1))) = Throw BadIndex).
  { assert (L : exists cv, load_cavity (world0 num a) (files_of (Some (limit_of (repeat done k)))) cavity1 = Ok cv /\ cv_cavi cv = 0%nat /\
      cv_eklim cv = Some (repeat (num done) k)).
    { destruct k as [|[|k]]; [| |lia]; (eexists; split; [reflexivity|]; split; reflexivity). }
    destruct L as (cv & L & C0 & CE). unfold w, with_cavities. cbn [w_cav_ref]. rewrite L.
    cbn [rbind]. unfold propagate_long. change (num_of (world0 num a) cavity1 "scl_fac") with (Ok (num done)). cbn [rbind].
    destruct (Req_EM_T _ 0) as [Z|Z]; [cbn in Z; lra|].
    unfold driven_phase. rewrite C0, CE. cbn [Nat.eqb].
    assert (CL : check_limit (Some (repeat (num done) k)) = Throw BadIndex) by (destruct k as [|[|k]]; [reflexivity|reflexivity|lia]).
    rewrite CL. reflexivity. }
  destruct (run_any m (mkSt 0 false (state0 1)) 0 1 e (note_input (el_data e) (ms_recalc (state0 1))) (Throw BadIndex)) as (p & P1 & P2 & _).
  - exact He.
  - auto.
  - rewrite K. cbn [cl_advance mom_class]. unfold mom_advance. cbn [advance_of st_retreat st_body]. rewrite Cf. unfold advance_cav.
    change (1 <? 0)%Z with false. cbv iota. cbv zeta.
    assert (CK : check_cache (el_data e) (ms_recalc (state0 1)) = false).
    { apply fresh_miss. eapply ctor_fresh. exact D. }
    rewrite CK, CC. reflexivity.
  - exists m, p. split; [exact Hm|]. split; [apply state0_aligned|]. split; [exact P1|exact P2].
Qed.
