(** Settings that count mean one thing. *)
From Coq Require Import Reals ZArith NArith List String Bool Lia Lra.
From Coq Require Import Floats.SpecFloat.
From Flocq Require Import Core IEEE754.BinarySingleNaN.
From Verif Require Import Dbl Number_Proofs.
Open Scope R_scope.

Lemma integer_not_zero p s : d_of_Z (Zpos p) <> S754_zero s.
Proof.
  unfold d_of_Z, SpecFloat.binary_normalize. rewrite round_same. intros E.
  pose proof (binary_round_correct dprec demax dprec_gt_0 dprec_lt_emax mode_NE false p 0) as [V C].
  rewrite E in C. cbn [cond_Zopp] in C.
  set (x := F2R {| Fnum := Z.pos p; Fexp := 0 |}) in *.
  assert (X : 1 <= x).
  { unfold x, F2R. cbn [Fnum Fexp bpow]. rewrite Rmult_1_r. apply IZR_le. lia. }
  assert (R1 : 1 <= round radix2 (SpecFloat.fexp dprec demax) (round_mode mode_NE) x).
  { apply round_ge_generic; try typeclasses eauto; [|exact X].
    replace 1 with (bpow radix2 0) by reflexivity. apply generic_format_bpow. vm_compute. discriminate. }
  destruct (Rlt_bool _ _).
  - destruct C as [C _]. cbn [SF2R] in C. lra.
  - discriminate C.
Qed.
