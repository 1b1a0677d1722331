(** Scales and offsets of analog records on whole numbers. *)
From Coq Require Import Reals List ZArith Bool Lia Lra Floats.SpecFloat.
From Flocq Require Import Core IEEE754.BinarySingleNaN.
From Verif Require Import Dbl Number_Spec Number_Proofs Ioc_Model Ioc2_Spec.
Import ListNotations.
Local Open Scope R_scope.

Definition holds (x : double) (z : Z) : Prop :=
  exists a : b64, x = B2SF a /\ BinarySingleNaN.is_finite a = true /\ B2R a = IZR z.

Lemma whole_format z : whole z -> generic_format radix2 fexp (IZR z).
Proof.
  intros H. unfold whole in H. replace (IZR z) with (F2R (Float radix2 z 0)) by (unfold F2R; simpl; lra).
  apply generic_format_FLT. exists (Float radix2 z 0); [reflexivity|exact H|]. vm_compute. discriminate.
Qed.
Lemma whole_round z : whole z -> rnd (IZR z) = IZR z.
Proof. intros H. apply round_generic; [apply valid_rnd_N|apply whole_format; exact H]. Qed.
Lemma whole_range z : whole z -> Rlt_bool (Rabs (rnd (IZR z))) (bpow radix2 demax) = true.
Proof.
  intros H. rewrite whole_round by auto. apply Rlt_bool_true. unfold whole in H. rewrite <- abs_IZR.
  apply Rlt_trans with (IZR (2 ^ 53)); [apply IZR_lt; exact H|]. change (2 ^ 53)%Z with (radix2 ^ 53)%Z. rewrite (IZR_Zpower radix2 53) by lia. apply bpow_lt. reflexivity.
Qed.
Ltac inside C := match type of C with if ?b then _ else _ => replace b with true in C by (symmetry; apply whole_range; assumption) end.
Lemma of_Z_holds z : whole z -> holds (d_of_Z z) z.
Proof.
  intros H. unfold d_of_Z. rewrite normalize_same. eexists. split; [reflexivity|].
  pose proof (binary_normalize_correct dprec demax _ _ mode_NE z 0 false) as C. cbv zeta in C. replace (F2R (Float radix2 z 0)) with (IZR z) in C by (unfold F2R; simpl; lra).
  inside C. destruct C as (C & F & _). split; [exact F|]. etransitivity; [exact C|]. apply whole_round. assumption.
Qed.
Lemma add_holds x y i j : holds x i -> holds y j -> whole (i + j) -> holds (dadd x y) (i + j).
Proof.
  intros (a & -> & Fa & Va) (b & -> & Fb & Vb) W. rewrite add_same. eexists. split; [reflexivity|].
  pose proof (Bplus_correct dprec demax _ _ mode_NE a b Fa Fb) as C. rewrite Va, Vb, <- plus_IZR in C.
  inside C. destruct C as (C & F & _). split; [exact F|]. etransitivity; [exact C|]. apply whole_round. assumption.
Qed.
Lemma sub_holds x y i j : holds x i -> holds y j -> whole (i - j) -> holds (dsub x y) (i - j).
Proof.
  intros (a & -> & Fa & Va) (b & -> & Fb & Vb) W. rewrite sub_same. eexists. split; [reflexivity|].
  pose proof (Bminus_correct dprec demax _ _ mode_NE a b Fa Fb) as C. rewrite Va, Vb, <- minus_IZR in C.
  inside C. destruct C as (C & F & _). split; [exact F|]. etransitivity; [exact C|]. apply whole_round. assumption.
Qed.
Lemma mul_holds x y i j : holds x i -> holds y j -> whole (i * j) -> holds (dmul x y) (i * j).
Proof.
  intros (a & -> & Fa & Va) (b & -> & Fb & Vb) W. rewrite mul_same. eexists. split; [reflexivity|].
  pose proof (Bmult_correct dprec demax _ _ mode_NE a b) as C. rewrite Va, Vb, <- mult_IZR in C.
  inside C. destruct C as (C & F & _). rewrite Fa, Fb in F. split; [exact F|]. etransitivity; [exact C|]. apply whole_round. assumption.
Qed.
Lemma div_holds x y i j : holds x (i * j) -> holds y j -> j <> 0%Z -> whole i -> holds (ddiv x y) i.
Proof.
  intros (a & -> & Fa & Va) (b & -> & Fb & Vb) J W. rewrite div_same. eexists. split; [reflexivity|].
  assert (N : B2R b <> 0) by (rewrite Vb; apply not_0_IZR; exact J).
  pose proof (Bdiv_correct dprec demax _ _ mode_NE a b N) as C. rewrite Va, Vb in C. replace (IZR (i * j) / IZR j) with (IZR i) in C
    by (rewrite mult_IZR; field; apply not_0_IZR; exact J).
  inside C. destruct C as (C & F & _). rewrite Fa in F. split; [exact F|]. etransitivity; [exact C|]. apply whole_round. assumption.
Qed.
Lemma holds_deq x y i j : holds x i -> holds y j -> deq x y = Z.eqb i j.
Proof.
  intros (a & -> & Fa & Va) (b & -> & Fb & Vb). unfold deq. change (SFeqb (B2SF a) (B2SF b)) with (Beqb a b).
  rewrite Beqb_correct by auto. rewrite Va, Vb. destruct (Z.eqb_spec i j) as [->|N]; [apply Req_bool_true; reflexivity|].
  apply Req_bool_false. intros E. apply eq_IZR in E. auto.
Qed.
Lemma nonzero_whole s : whole s -> nonzero (d_of_Z s) = negb (Z.eqb s 0).
Proof.
  intros H. unfold nonzero. f_equal. apply holds_deq; [apply of_Z_holds; exact H|]. apply (of_Z_holds 0). reflexivity.
Qed.

Lemma whole_there a n : fits a n -> holds (to_val (fields a) (d_of_Z n)) (eng a n).
Proof.
  destruct a as [s o l es eo]. unfold fits, eng, fields, to_val. cbn [z_aslo z_aoff z_linr z_eslo z_eoff a_aslo a_aoff a_linr a_eslo a_eoff raw].
  intros (Wn & Ws & Wo & Wes & Weo & Wns & Wv & Wve & Ww). unfold raw in *. cbn [z_aslo z_aoff] in *.
  rewrite (nonzero_whole s), (nonzero_whole es) by auto.
  assert (V : holds (dadd (if negb (Z.eqb s 0) then dmul (d_of_Z n) (d_of_Z s) else d_of_Z n) (d_of_Z o)) ((if Z.eqb s 0 then n else n * s) + o)).
  { destruct (Z.eqb_spec s 0); cbn [negb].
    - apply add_holds; auto using of_Z_holds.
    - apply add_holds; auto using of_Z_holds. apply mul_holds; auto using of_Z_holds. }
  destruct l; [|exact V]. destruct (Z.eqb es 0); [exact V|]. cbn [andb negb] in *. apply add_holds; auto using of_Z_holds. apply mul_holds; auto using of_Z_holds.
Qed.
Lemma whole_back a n : fits a n -> holds (of_val (fields a) (d_of_Z (eng a n))) n.
Proof.
  destruct a as [s o l es eo]. unfold fits, eng, fields, of_val. cbn [z_aslo z_aoff z_linr z_eslo z_eoff a_aslo a_aoff a_linr a_eslo a_eoff raw].
  intros (Wn & Ws & Wo & Wes & Weo & Wns & Wv & Wve & Ww). unfold raw in *. cbn [z_aslo z_aoff] in *.
  rewrite (nonzero_whole s), (nonzero_whole es) by auto. set (v := ((if Z.eqb s 0 then n else n * s) + o)%Z) in *.
  assert (V : forall x, holds x v -> holds (if negb (Z.eqb s 0) then ddiv (dsub x (d_of_Z o)) (d_of_Z s) else dsub x (d_of_Z o)) n).
  { intros x H. assert (Q : holds (dsub x (d_of_Z o)) (v - o)) by (apply sub_holds; auto using of_Z_holds; unfold v; replace (_ + o - o)%Z with (if Z.eqb s 0 then n else n * s)%Z by lia; destruct (Z.eqb s 0); auto).
    unfold v in Q. replace (_ + o - o)%Z with (if Z.eqb s 0 then n else n * s)%Z in Q by lia. destruct (Z.eqb_spec s 0); cbn [negb]; [exact Q|].
    apply (div_holds _ _ n s); auto using of_Z_holds. }
  destruct l; [|apply V; apply of_Z_holds; auto]. destruct (Z.eqb_spec es 0) as [E|E]; cbn [negb andb] in *; [apply V; apply of_Z_holds; auto|].
  apply V. apply (div_holds _ _ v es); auto using of_Z_holds.
  assert (K : (v * es + eo - eo = v * es)%Z) by lia.
  assert (Q : holds (dsub (d_of_Z (v * es + eo)) (d_of_Z eo)) (v * es + eo - eo)) by (apply sub_holds; auto using of_Z_holds; rewrite K; exact Wve).
  rewrite K in Q. exact Q.
Qed.
Lemma of_holds a x n : holds x n -> fits a n -> holds (to_val (fields a) x) (eng a n).
Proof.
  intros H. destruct a as [s o l es eo]. unfold fits, eng, fields, to_val. cbn [z_aslo z_aoff z_linr z_eslo z_eoff a_aslo a_aoff a_linr a_eslo a_eoff raw].
  intros (Wn & Ws & Wo & Wes & Weo & Wns & Wv & Wve & Ww). unfold raw in *. cbn [z_aslo z_aoff] in *.
  rewrite (nonzero_whole s), (nonzero_whole es) by auto.
  assert (V : holds (dadd (if negb (Z.eqb s 0) then dmul x (d_of_Z s) else x) (d_of_Z o)) ((if Z.eqb s 0 then n else n * s) + o)).
  { destruct (Z.eqb_spec s 0); cbn [negb].
    - apply add_holds; auto using of_Z_holds.
    - apply add_holds; auto using of_Z_holds. apply mul_holds; auto using of_Z_holds. }
  destruct l; [|exact V]. destruct (Z.eqb es 0); [exact V|]. cbn [andb negb] in *. apply add_holds; auto using of_Z_holds. apply mul_holds; auto using of_Z_holds.
Qed.
Lemma whole_scaled a n : fits a n ->
  deq (to_val (fields a) (d_of_Z n)) (d_of_Z (eng a n)) = true /\
  deq (of_val (fields a) (d_of_Z (eng a n))) (d_of_Z n) = true /\
  deq (to_val (fields a) (of_val (fields a) (d_of_Z (eng a n)))) (d_of_Z (eng a n)) = true.
Proof.
  intros F. assert (Wn : whole n) by apply F. assert (Ww : whole (eng a n)) by apply F.
  rewrite (holds_deq _ _ (eng a n) (eng a n)), (holds_deq _ _ n n), (holds_deq _ _ (eng a n) (eng a n)); rewrite ?Z.eqb_refl;
    auto using of_Z_holds, whole_there, whole_back. apply of_holds; auto using whole_back.
Qed.
