(** A quadrupole with a field curve, whole and cut. *)
From Coq Require Import Reals List String Bool NArith ZArith Arith Lia Lra.
From Coq Require Import Floats.SpecFloat.
From Flocq Require Import Core IEEE754.BinarySingleNaN.
From Verif Require Import SMap SMap_Proofs Dbl Number_Proofs Config_Spec Mat Mat_Proofs Minv Minv_Proofs Machine_Model Machine_Spec Machine_Proofs
  Machine2_Proofs Linear_Model Linear_Spec Linear_Proofs Linear2_Proofs Linear3_Proofs.
From Verif Require Import Moment_Model Moment_Spec Motion_Spec Moment_Proofs Moment2_Proofs Moment3_Proofs Moment4_Proofs
  Moment5_Proofs Moment6_Proofs Motion_Proofs Motion2_Proofs Motion3_Proofs Motion4_Proofs Motion5_Proofs Frame_Spec Frame_Proofs Area_Spec Area_Proofs Area2_Proofs Cut_Proofs
  Line_Spec Line_Proofs Line2_Proofs Slice_Spec Slice_Proofs.
Import ListNotations.
Open Scope R_scope.
Open Scope string_scope.
Open Scope list_scope.

Lemma deq_finite x m e : deq x (S754_finite false m e) = true -> x = S754_finite false m e.
Proof.
  unfold deq, SFeqb, SFcompare. destruct x as [[]|[]| |[] n f]; try discriminate.
  destruct (Z.compare_spec f e) as [->|?|?]; try discriminate.
  change (Pos.compare_cont Eq n m) with (Pos.compare n m). destruct (Pos.compare_spec n m) as [->|?|?]; try discriminate. reflexivity.
Qed.
Lemma integer_one p : deq (d_of_Z (Zpos p)) done = true -> p = 1%positive.
Proof.
  intros D. destruct (Pos.eq_dec p 1) as [E|NE]; [exact E|exfalso].
  assert (E : d_of_Z (Zpos p) = done).
  { exact (deq_finite _ _ _ D). }
  unfold d_of_Z, SpecFloat.binary_normalize in E. rewrite round_same in E.
  pose proof (binary_round_correct dprec demax dprec_gt_0 dprec_lt_emax mode_NE false p 0) as [V C].
  rewrite E in C. cbn [cond_Zopp] in C.
  set (x := F2R {| Fnum := Z.pos p; Fexp := 0 |}) in *.
  assert (X : 2 <= x).
  { unfold x, F2R. cbn [Fnum Fexp bpow]. rewrite Rmult_1_r. apply IZR_le. lia. }
  assert (R1 : 2 <= round radix2 (SpecFloat.fexp dprec demax) (round_mode mode_NE) x).
  { apply round_ge_generic; try typeclasses eauto; [|exact X].
    replace 2 with (bpow radix2 1) by reflexivity. apply generic_format_bpow. vm_compute. discriminate. }
  destruct (Rlt_bool _ _).
  - change done with (S754_finite false 4503599627370496 (-52)) in C. destruct C as [C _]. cbn [SF2R] in C. unfold F2R in C. cbn [Fnum Fexp cond_Zopp bpow] in C. rewrite <- C in R1. clear - R1.
    change (Z.pow_pos radix2 52) with 4503599627370496%Z in R1. lra.
  - discriminate C.
Qed.

Definition dtwo : double := d_of_Z 2.
(** The whole, or samples [a] to [b] of it. *)
Definition quad_of (L : double) (r : list (string * tval)) : tcfg :=
  TCfg ([("L", TNum L); ("curve0", TVec [done; dhalf]); ("dx", TNum done); ("name", TStr "q"); ("ncurve", TNum done); ("roll", TNum done); ("scl_fac0", TNum done);
        ("type", TStr "quadrupole")] ++ r) [].
Definition quad_c := quad_of done [].
Definition quad_a := quad_of dhalf [("use_range", TVec [dzero; done])].
Definition quad_b := quad_of dhalf [("use_range", TVec [done; dtwo])].
Lemma quad_parts a : parts (world0 nums a) quad_c quad_a quad_b.
Proof.
  split; [apply Exists_exists; exists "quadrupole"; split; [cbn; tauto|reflexivity]|]. split.
  { intros n Hn. cbn in Hn. unfold quad_c, quad_a, quad_b, quad_of, tfind, town. cbn [app sfind].
    repeat (match goal with |- context [String.eqb n ?k] => destruct (String.eqb_spec n k) as [->|?] end; [tauto || auto|]); auto. }
  split; [split; reflexivity|]. split.
  { exists 1%N. split; [discriminate|]. intros k. unfold flagged. cbn. intros H. destruct k as [|k]; [discriminate H|]. f_equal. apply integer_one. exact H. }
  exists 0%nat, 1%nat, 2%nat. split; [lia|].
  split; [exists dzero, done; split; [reflexivity|]; split; [reflexivity|]; cbn; lia|].
  split; [exists done, dtwo; split; [reflexivity|]; split; cbn; lia|].
  split.
  - right. split; [reflexivity|]. split; [reflexivity|]. intros cv all H. cbn in H. subst cv. cbn. intros H. injection H as <-. reflexivity.
  - change (real_at (w_num (world0 nums a)) quad_a "L" 0) with (/ 2). change (real_at (w_num (world0 nums a)) quad_b "L" 0) with (/ 2). change (real_at (w_num (world0 nums a)) quad_c "L" 0) with 1. cbn. split; lra.
Qed.
Lemma quad_described L r : described (quad_of L r).
Proof. apply Exists_exists. exists "quadrupole". split; [cbn; tauto|reflexivity]. Qed.
Lemma quad_proper L r : proper_magnet nums (quad_of L r).
Proof. split; discriminate. Qed.
Lemma quad_goes a ec s : In ec [quad_c; quad_a; quad_b] -> aligned s -> moving (ms_ref s) -> Forall moving (ms_real s) ->
  exists f, goes_through (world0 nums a) ec s f.
Proof.
  intros HI A HR HRs. set (w := world0 nums a).
  assert (X : (exists m, new_machine (moment_reg w) (mconf [ec]) = Ok m) /\ Forall strips_to_some [ec] /\ described ec /\ is_a "quadrupole" ec /\
    forall d, exists f, setup w KQuad d ec (recalc (ms_ref s)) = Ok f /\ forall p T, moving p -> exists T', f (recalc p) T = (T', None)).
  { destruct HI as [<-|[<-|[<-|[]]]]; (split; [eexists; reflexivity|]); (split; [repeat constructor; unfold strips_to_some; discriminate|]);
      (split; [apply quad_described|]); (split; [reflexivity|]); intros d; (eexists; split; [reflexivity|]);
      intros p T HP; apply misaligned_runs; auto; apply HR. }
  destruct X as ([m Hm] & HQ & HD & HK & X).
  destruct (propagates (uses m []) (mkSt 0 false s) (N.of_nat 0) 1%Z) as [p HP]; [discriminate|].
  destruct (one_step w false (mconf [ec]) m [ec] [] 0 ec (mkSt 0 false s) p 1%Z (world0_sane nums a) Hm eq_refl HQ I eq_refl A eq_refl HP) as (k & d0 & Hk & HC & EE).
  assert (K : k = KQuad) by (pose proof (is_a_inj _ _ _ HK Hk) as E; destruct k; try discriminate E; reflexivity). subst k.
  destruct (X d0) as (f & F1 & F2).
  destruct (advance_runs w false KQuad ec d0 s f HC) as [s' ES]; auto; [cbn; tauto|discriminate|].
  cbn [st_body] in EE. rewrite ES in EE. cbn [rbind] in EE.
  exists s', (mconf [ec]), m, [ec], [], 0%nat, (mkSt 0 false s), p. eexists.
  split; [exact Hm|]. split; [reflexivity|]. split; [exact HQ|]. split; [exact I|]. split; [reflexivity|]. split; [reflexivity|]. split; [exact A|].
  split; [exact HP|]. split; [exact EE|reflexivity].
Qed.
Lemma parts_example a : exists f f1 f2, let w := world0 nums a in
  sane w /\ parts w quad_c quad_a quad_b /\ proper_magnet nums quad_c /\ moving (ms_ref (state0 2)) /\ Forall moving (ms_real (state0 2)) /\
  goes_through w quad_c (state0 2) f /\ goes_through w quad_a (state0 2) f1 /\ goes_through w quad_b f1 f2.
Proof.
  destruct state2 as (A & B & C). assert (W := world0_sane nums a).
  destruct (quad_goes a quad_c (state0 2)) as [f G]; [cbn; tauto|assumption..|].
  destruct (quad_goes a quad_a (state0 2)) as [f1 G1]; [cbn; tauto|assumption..|].
  destruct (extent_ex (world0 nums a) quad_a) as [x EX].
  assert (P := moment_pass (world0 nums a) _ _ _ _ W G1 (quad_described _ _) (quad_proper _ _) EX B C).
  destruct (pass_moving (world0 nums a) _ _ _ _ A P B C) as [B1 C1].
  destruct (quad_goes a quad_b f1) as [f2 G2]; [cbn; tauto|apply P|assumption..|].
  exists f, f1, f2. cbv zeta. split; [exact W|]. split; [apply quad_parts|]. split; [apply quad_proper|]. auto.
Qed.

(** In a line. *)
Theorem line_parts w : sane w -> forall pre ec ea eb post s f f', parts w ec ea eb -> proper_magnet (w_num w) ec ->
  Forall described pre -> Forall (proper_magnet (w_num w)) pre -> Forall described post ->
  moving (ms_ref s) -> Forall moving (ms_real s) ->
  in_turn w (pre ++ ec :: post) s f -> in_turn w (pre ++ ea :: eb :: post) s f' -> same_beam f f'.
Proof.
  intros W pre ec ea eb post s f f' HH PM DP PP DQ HR HRs H H'.
  apply turn_app in H as (s1 & H1 & H2). apply turn_app in H' as (s1' & H1' & H2').
  assert (s1' = s1) as -> by exact (turn_det _ W _ _ _ _ H1' H1).
  destruct (turn_moving w W pre DP PP _ _ H1 HR HRs) as [HR1 HRs1].
  inversion H2 as [|? ? ? s2 ? G2 T2]; subst. inversion H2' as [|? ? ? s3 ? G3 T3]; subst. inversion T3 as [|? ? ? s4 ? G4 T4]; subst.
  eapply (turn_same w W post DQ); [exact T2|exact T4|].
  exact (proj1 (moment_parts w ec ea eb HH s1 s2 s3 s4 W PM HR1 HRs1 G2 G3 G4)).
Qed.
Lemma line_parts_example a : exists f f', let w := world0 nums a in
  sane w /\ parts w quad_c quad_a quad_b /\ proper_magnet nums quad_c /\ Forall described [quad0] /\ Forall (proper_magnet nums) [quad0] /\
  moving (ms_ref (state0 2)) /\ Forall moving (ms_real (state0 2)) /\
  in_turn w ([quad0] ++ quad_c :: []) (state0 2) f /\ in_turn w ([quad0] ++ quad_a :: quad_b :: []) (state0 2) f'.
Proof.
  destruct state2 as (A & B & C). assert (W := world0_sane nums a).
  assert (D0 : described quad0) by (apply Exists_exists; exists "quadrupole"; split; [cbn; tauto|reflexivity]).
  assert (P0 : proper_magnet nums quad0) by (split; discriminate).
  destruct (one_goes a quad0 (state0 2)) as [s1 G0]; [left; reflexivity|assumption..|].
  destruct (extent_ex (world0 nums a) quad0) as [x0 EX0].
  assert (Q := moment_pass (world0 nums a) _ _ _ _ W G0 D0 P0 EX0 B C). assert (A1 := proj1 Q).
  destruct (pass_moving (world0 nums a) _ _ _ _ A Q B C) as [B0 C0].
  destruct (quad_goes a quad_c s1) as [f G]; [cbn; tauto|assumption..|].
  destruct (quad_goes a quad_a s1) as [f1 G1]; [cbn; tauto|assumption..|].
  destruct (extent_ex (world0 nums a) quad_a) as [x EX].
  assert (P := moment_pass (world0 nums a) _ _ _ _ W G1 (quad_described _ _) (quad_proper _ _) EX B0 C0).
  destruct (pass_moving (world0 nums a) _ _ _ _ A1 P B0 C0) as [B1 C1].
  destruct (quad_goes a quad_b f1) as [f2 G2]; [cbn; tauto|apply P|assumption..|].
  exists f, f2. cbv zeta. split; [exact W|]. split; [apply quad_parts|]. split; [apply quad_proper|].
  split; [apply Forall_cons; [exact D0|apply Forall_nil]|]. split; [apply Forall_cons; [exact P0|apply Forall_nil]|]. split; [exact B|]. split; [exact C|].
  split; cbn [app]; repeat (eapply it_next; [eassumption|]); apply it_none.
Qed.
