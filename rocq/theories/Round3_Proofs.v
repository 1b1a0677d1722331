(** Elements that undo backward what they did forward. *)
From Coq Require Import Reals List String Bool NArith ZArith Arith Lia Lra.
From Verif Require Import SMap SMap_Proofs Dbl Config_Spec Mat Mat_Proofs Minv Minv_Proofs Machine_Model Machine_Spec Machine_Proofs
  Machine2_Proofs Machine4_Proofs Linear_Model Linear_Spec Linear_Proofs Linear2_Proofs Linear3_Proofs.
From Verif Require Import Moment_Model Moment_Spec Motion_Spec Round_Spec Moment_Proofs Moment2_Proofs Moment3_Proofs Moment4_Proofs
  Moment5_Proofs Moment6_Proofs Motion_Proofs Motion2_Proofs Motion3_Proofs Motion4_Proofs Motion5_Proofs Round_Proofs Round2_Proofs.
Import ListNotations.
Open Scope R_scope.
Open Scope string_scope.
Open Scope list_scope.

(** ** Elements that guide the beam *)
Definition rel_Ek (p q : particle) : Prop := same_ion p q /\ p_Ek q = p_Ek p.
Lemma rel_moving p q : rel_Ek p q -> moving p -> moving q.
Proof. intros [H1 H2]. apply moving_same; auto. Qed.
Lemma rel_all l l' : Forall2 rel_Ek l l' -> Forall moving l -> Forall moving l'.
Proof. induction 1; intros F; inversion F; subst; constructor; auto. eapply rel_moving; eauto. Qed.

Section W.
Variable w : world.
Notation num := (w_num w).

Lemma guided_moving k c d0 r s d s1 : mom_ctor w k c = Ok d0 -> is_a (mkind_name k) c -> guiding c ->
  advance_of w k c d0 r s = (d, Ok s1) -> all_moving s -> all_moving s1.
Proof.
  intros HC Hk HG H [M1 M2]. assert (HK := guiding_kind _ _ Hk HG).
  assert (NS : k <> KStripper) by (intros ->; cbn [In] in HK; decompose [or] HK; try contradiction; discriminate).
  assert (NR : k <> KRFCavity) by (intros ->; cbn [In] in HK; decompose [or] HK; try contradiction; discriminate).
  assert (NO : k <> KSource) by (intros ->; cbn [In] in HK; decompose [or] HK; try contradiction; discriminate).
  destruct (step_kept w rel_Ek) with (k := k) (c := c) (d := d0) (r := r) (s := s) (d' := d) (s' := s1) as [_ [K1 K2]]; auto.
  - intros p. repeat split.
  - intros p q t [(A1 & A2 & A3 & A4) A5] [(B1 & B2 & B3 & B4) B5]. repeat split; congruence.
  - intros p. repeat split.
  - intros p x. repeat split.
  - intros p x. repeat split.
  - intros p q E. apply peqb_fields in E as (E1 & E2 & E3 & E4 & E5 & E6). repeat split; congruence.
  - intros ->. contradiction.
  - apply (ctor_ok w) in HC; auto.
  - eapply ctor_noted; eauto.
  - split; [eapply rel_moving; eauto|eapply rel_all; eauto].
Qed.
Lemma guides_bounce : bounces w all_moving guiding.
Proof.
  intros k c d0 s d s1 Hk HG HC A I H A1. assert (HK := guiding_kind _ _ Hk HG). split; [eapply guided_moving; eauto|].
  intros t d2 t2 At R HT At2. eapply there_and_back; [exact HC|exact HK|exact A|exact At|apply I|exact H|exact A1|exact R|exact HT|exact At2].
Qed.

(** ** Misalignment without pitch and yaw *)
Lemma scl_at ref p v : veq 7 (mapp 7 (scl_mat ref p) v) (fun i =>
  match i with 4 => (1 / - p_K p * v 4%nat)%R | 5 => (1 / (sqr (p_beta p) * p_gamma p * p_Es ref / MeVtoeV) * v 5%nat)%R | _ => v i end%nat).
Proof.
  unfold scl_mat. generalize (1 / - p_K p) (1 / (sqr (p_beta p) * p_gamma p * p_Es ref / MeVtoeV)). intros a b i Hi.
  idx7 i Hi; cbv [mapp sumn mset mid PS_S PS_PS Nat.eqb andb]; ring.
Qed.
Lemma shift_at x v : veq 7 (mapp 7 (shift_mat x) v) (fun i =>
  match i with 4 => (v 4%nat + x * v 6%nat)%R | 5 => (v 5%nat + v 6%nat)%R | _ => v i end%nat).
Proof. intros i Hi. unfold shift_mat. idx7 i Hi; cbv [mapp sumn mset mid PS_S PS_PS Nat.eqb andb]; ring. Qed.
Lemma mat_by_vec A B : (forall v, veq 7 (mapp 7 A v) (mapp 7 B v)) -> meq 7 A B.
Proof.
  intros H i j Hi Hj. pose proof (H (fun k => if Nat.eqb k j then 1 else 0) i Hi) as E. unfold mapp in E. cbn [sumn] in E.
  idx7 j Hj; cbn [Nat.eqb] in E; lra.
Qed.
Lemma level_rot dx dy r v : veq 7 (mapp 7 (rot_mat dx dy 0 0 r) v) (fun i => match i with
  | 0 => (cos r * (v 0%nat - dx * v 6%nat) + sin r * (v 2%nat - dy * v 6%nat))%R
  | 1 => (cos r * v 1%nat + sin r * v 3%nat)%R
  | 2 => (- sin r * (v 0%nat - dx * v 6%nat) + cos r * (v 2%nat - dy * v 6%nat))%R
  | 3 => (- sin r * v 1%nat + cos r * v 3%nat)%R
  | _ => v i end%nat).
Proof.
  pose proof (rot_at dx dy 0 0 r v) as E. cbv beta iota delta [turned] in E. rewrite !cos_0, !sin_0 in E.
  intros i Hi. rewrite (E i Hi). idx7 i Hi; ring.
Qed.
Lemma level_commutes dx dy r ref p x :
  meq 7 (mmul 7 (rot_mat dx dy 0 0 r) (mmul 7 (shift_mat x) (scl_mat ref p)))
        (mmul 7 (mmul 7 (shift_mat x) (scl_mat ref p)) (rot_mat dx dy 0 0 r)).
Proof.
  apply mat_by_vec. intros v. rewrite !mapp_mmul. rewrite level_rot, (shift_at x (mapp 7 (scl_mat ref p) (mapp 7 (rot_mat dx dy 0 0 r) v))).
  intros i Hi.
  assert (A := shift_at x (mapp 7 (scl_mat ref p) v)). assert (B := scl_at ref p v).
  assert (C := scl_at ref p (mapp 7 (rot_mat dx dy 0 0 r) v)). assert (D := level_rot dx dy r v).
  unfold veq in A, B, C, D.
  idx7 i Hi; cbv beta iota; rewrite ?A, ?B, ?C, ?D by lia; rewrite ?B, ?C, ?D by lia; rewrite ?D by lia; reflexivity.
Qed.
Lemma through si t T S R : meq 7 (mmul 7 t T) mid -> meq 7 (mmul 7 si S) mid ->
  meq 7 (mmul 7 R (mmul 7 T S)) (mmul 7 (mmul 7 T S) R) -> meq 7 (mmul 7 si (mmul 7 t (mmul 7 R (mmul 7 T S)))) R.
Proof.
  intros H1 H2 C. rewrite C, <- (mmul_assoc 7 T S R), (mmul_assoc 7 t T (mmul 7 S R)), H1, mid_l, (mmul_assoc 7 si S R), H2. apply mid_l.
Qed.
Lemma level_misalign sh len ref p M IM : sh_pitch sh = 0 -> sh_yaw sh = 0 -> get_misalign sh len ref p = Ok (M, IM) ->
  exists RI, inverse (rot_mat (sh_dx sh) (sh_dy sh) 0 0 (sh_roll sh)) = Ok RI /\
    meq 7 M (rot_mat (sh_dx sh) (sh_dy sh) 0 0 (sh_roll sh)) /\ meq 7 IM RI.
Proof.
  intros H1 H2 H. unfold get_misalign in H. rewrite H1, H2 in H.
  set (R := rot_mat (sh_dx sh) (sh_dy sh) 0 0 (sh_roll sh)) in *.
  apply rbind_ok in H as (si & I1 & H). apply rbind_ok in H as (t1 & I2 & H). apply rbind_ok in H as (RI & I3 & H).
  apply rbind_ok in H as (t2 & I4 & H). exists RI. split; auto.
  assert (E : (M, IM) = (mmul msize si (mmul msize t1 (mmul msize R (mmul msize (shift_mat (- len / 2 * MtoMM)) (scl_mat ref p)))),
    mmul msize si (mmul msize t2 (mmul msize RI (mmul msize (shift_mat (len / 2 * MtoMM)) (scl_mat ref p)))))) by congruence.
  apply pair_eq in E as [-> ->]. clear H. change msize with 7%nat.
  apply inverse_ok in I1 as [I1 _], I2 as [I2 _], I4 as [I4 _]. apply inverse_ok in I3 as [I3 I3'].
  split.
  - apply through; auto. apply level_commutes.
  - apply through; auto. assert (C := level_commutes (sh_dx sh) (sh_dy sh) (sh_roll sh) ref p (len / 2 * MtoMM)). fold R in C.
    set (A := mmul 7 (shift_mat (len / 2 * MtoMM)) (scl_mat ref p)) in *.
    rewrite <- (mid_r 7 (mmul 7 RI A)), <- I3'. rewrite (mmul_assoc 7 _ R RI), <- (mmul_assoc 7 RI A R), <- C, (mmul_assoc 7 RI R A), I3, mid_l. reflexivity.
Qed.
End W.
