(** The digits of numbers in scientific format. *)
From Coq Require Import Reals List String Ascii Bool ZArith Lia Lra.
From Coq Require Import Floats.SpecFloat.
From Flocq Require Import Core IEEE754.BinarySingleNaN.
From Verif Require Import SMap Dbl Lexer_Model Lexer_Spec Number_Spec Number_Proofs Print_Model Print_Spec Print_Proofs Print2_Proofs Show_Model.
Import ListNotations.
Open Scope R_scope.

Lemma sci_digits_spec (p : nat) n d : (0 < n)%Z -> (0 < d)%Z -> (d <= n * 10 ^ 400)%Z ->
  exists q x, sci_digits p n d = Some (q, x) /\ (10 ^ Z.of_nat p <= q < 10 ^ (Z.of_nat p + 1))%Z /\ (-400 <= x)%Z /\
    ten x <= 10 * (IZR n / IZR d) /\ Rabs (IZR q * ten (x - Z.of_nat p) - IZR n / IZR d) <= ten (x - Z.of_nat p) / 2.
Proof.
  intros Hn Hd Hs. unfold sci_digits. cbv zeta. set (P := Z.of_nat p). assert (HP : (0 <= P)%Z) by lia.
  assert (K : (1 <= n * 10 ^ 400 / d)%Z) by (apply Z.div_le_lower_bound; lia).
  destruct (log10_spec _ K) as (k & -> & K0 & B1 & B2). clear K. set (x := (k - 400)%Z).
  set (v := IZR n / IZR d).
  assert (Dp : 0 < IZR d) by (apply IZR_lt; lia). assert (Np : 0 < IZR n) by (apply IZR_lt; lia).
  assert (Vd : v * IZR d = IZR n) by (unfold v; field; lra).
  assert (T : (10 ^ k * d <= n * 10 ^ 400 /\ n * 10 ^ 400 < 10 ^ (k + 1) * d)%Z).
  { pose proof (Z.div_mod (n * 10 ^ 400) d ltac:(lia)). pose proof (Z.mod_pos_bound (n * 10 ^ 400) d Hd).
    set (w := (n * 10 ^ 400 / d)%Z) in *. set (N := (n * 10 ^ 400)%Z) in *. split; nia. }
  destruct T as [T1 T2]. apply IZR_le in T1. apply IZR_lt in T2. rewrite !mult_IZR, !ten_nonneg in T1, T2 by lia.
  pose proof (ten_pos (-400)) as P4. pose proof (ten_opp 400) as O4. simpl Z.opp in O4.
  assert (En : IZR n = ten (-400) * (IZR n * ten 400)) by (transitivity (ten (-400) * ten 400 * IZR n); [rewrite O4; ring|ring]).
  assert (V1 : ten x <= v).
  { replace (ten x) with (ten k * ten (-400)) by (rewrite <- ten_add; reflexivity).
    apply Rmult_le_reg_r with (IZR d); [lra|]. rewrite Vd, En.
    replace (ten k * ten (-400) * IZR d) with (ten (-400) * (ten k * IZR d)) by ring. apply Rmult_le_compat_l; lra. }
  assert (V2 : v < ten (x + 1)).
  { replace (ten (x + 1)) with (ten (k + 1) * ten (-400)) by (rewrite <- ten_add; f_equal; unfold x; lia).
    apply Rmult_lt_reg_r with (IZR d); [lra|]. rewrite Vd, En.
    replace (ten (k + 1) * ten (-400) * IZR d) with (ten (-400) * (ten (k + 1) * IZR d)) by ring. apply Rmult_lt_compat_l; lra. }
  clear T1 T2 B1 B2 En. set (u := ten (x - P)). assert (U : 0 < u) by apply ten_pos.
  assert (U1 : ten P * u <= v). { unfold u. rewrite <- ten_add. replace (P + (x - P))%Z with x by lia. exact V1. }
  assert (U2 : v < ten (P + 1) * u). { unfold u. rewrite <- ten_add. replace (P + 1 + (x - P))%Z with (x + 1)%Z by lia. exact V2. }
  set (q := if (P <=? x)%Z then _ else _).
  assert (Q : Rabs (IZR q - v / u) <= / 2).
  { assert (G : forall N D, (0 < D)%Z -> (0 <= N)%Z -> IZR N / IZR D = v / u -> Rabs (IZR (div_even N D) - v / u) <= / 2).
    { intros N D HD HN E. rewrite <- E. destruct (div_even_spec N D HD HN) as [[A B] _].
      apply IZR_le in A. apply IZR_le in B. rewrite opp_IZR, mult_IZR, minus_IZR, mult_IZR in A. rewrite mult_IZR, minus_IZR, mult_IZR in B.
      assert (PD : 0 < IZR D) by (apply IZR_lt; lia). set (k' := div_even N D) in *.
      assert (C : IZR N / IZR D * IZR D = IZR N) by (field; lra). apply Rabs_le.
      split; apply Rmult_le_reg_r with (IZR D); try lra; rewrite Rmult_minus_distr_r, C; lra. }
    unfold q. destruct (Z.leb_spec P x) as [L|L]; apply G; try lia.
    - rewrite mult_IZR, ten_nonneg by lia. fold u. unfold v. field. split; lra.
    - rewrite mult_IZR, ten_nonneg by lia. unfold v, u. replace (x - P)%Z with (- (P - x))%Z by lia.
      pose proof (ten_opp (P - x)) as O. pose proof (ten_pos (P - x)). pose proof (ten_pos (- (P - x))).
      apply Rmult_eq_reg_r with (ten (- (P - x))); [|lra].
      transitivity (IZR n * (ten (- (P - x)) * ten (P - x)) / IZR d); [field; lra|]. rewrite O. field. split; lra. }
  assert (R : ten P <= v / u < ten (P + 1)).
  { split; [apply Rmult_le_reg_r with u|apply Rmult_lt_reg_r with u]; try lra; unfold Rdiv; rewrite Rmult_assoc, Rinv_l by lra; lra. }
  rewrite <- !ten_nonneg in R by lia.
  assert (Q1 : (10 ^ P <= q <= 10 ^ (P + 1))%Z).
  { apply Rabs_le_inv in Q. split; apply Znot_gt_le; intros H; apply Z.gt_lt, Zlt_le_succ, IZR_le in H; rewrite succ_IZR in H; lra. }
  assert (A : Rabs (IZR q * u - v) <= u / 2).
  { replace (IZR q * u - v) with ((IZR q - v / u) * u) by (field; lra). rewrite Rabs_mult, (Rabs_pos_eq u) by lra. nra. }
  assert (S : (10 ^ (P + 1) = 10 * 10 ^ P)%Z) by (rewrite Z.pow_add_r by lia; change (10 ^ 1)%Z with 10%Z; ring).
  pose proof (Z.pow_pos_nonneg 10 P ltac:(lia) HP) as PP.
  exists (if (q =? 10 ^ (P + 1))%Z then (10 ^ P)%Z else q), (if (q =? 10 ^ (P + 1))%Z then (x + 1)%Z else x).
  destruct (Z.eqb_spec q (10 ^ (P + 1))) as [E|E]; (split; [reflexivity|]); (split; [lia|]); (split; [lia|]); (split).
  - rewrite ten_add, ten_1. lra.
  - rewrite E in A. rewrite S, mult_IZR in A. replace (x + 1 - P)%Z with (1 + (x - P))%Z by lia. rewrite ten_add, ten_1. fold u.
    replace (IZR (10 ^ P) * (10 * u)) with (10 * IZR (10 ^ P) * u) by ring. lra.
  - pose proof (ten_pos x). lra.
  - exact A.
Qed.

Lemma sci_text_ok (p : nat) q x : (10 ^ Z.of_nat p <= q < 10 ^ (Z.of_nat p + 1))%Z -> (Z.abs x < 1000)%Z ->
  decimal (sci_text p q x) q (x - Z.of_nat p).
Proof.
  intros Q X. destruct (digit_list_ok (S p) q) as (D & L & V).
  { replace (Z.of_nat (S p)) with (Z.of_nat p + 1)%Z by lia. pose proof (Z.pow_pos_nonneg 10 (Z.of_nat p)). lia. }
  specialize (V 0%Z). simpl Z.mul in V. simpl Z.add in V. unfold sci_text. cbv zeta. set (ds := digit_list (S p) q) in *. clearbody ds.
  destruct ds as [|c ds]; [discriminate|]. cbn [firstn skipn]. cbn [List.length] in L. injection L as L.
  simpl in D. apply andb_prop in D as [D0 D].
  assert (M : decimal ([c] ++ ("."%char :: ds) ++ exp_digits x) (dec 0 ([c] ++ ds)) (x - Z.of_nat (List.length ds))).
  { constructor; [discriminate|simpl; rewrite D0; reflexivity|constructor; exact D|apply exp_ok; exact X]. }
  assert (M' : p = O -> decimal ([c] ++ [] ++ exp_digits x) (dec 0 ([c] ++ [])) (x - Z.of_nat (List.length (@nil ascii)))).
  { intros _. constructor; [discriminate|simpl; rewrite D0; reflexivity|constructor|apply exp_ok; exact X]. }
  destruct p as [|p].
  - destruct ds; [|discriminate]. specialize (M' eq_refl). cbn [List.app List.length] in *. rewrite V in M'. exact M'.
  - rewrite L in M. cbn [List.app] in M |- *. rewrite V in M. exact M.
Qed.

Lemma two_split : (2 ^ 1024 = 2 ^ 53 * 2 ^ 971)%Z.
Proof. rewrite <- Z.pow_add_r by lia. f_equal. Qed.
Lemma two_ten : (10 * 2 ^ 1024 < 10 ^ 1000)%Z.
Proof.
  assert (A : (2 ^ 1024 <= 2 ^ (3 * 342))%Z) by (apply Z.pow_le_mono_r; lia). rewrite Z.pow_mul_r in A by lia.
  assert (B : ((2 ^ 3) ^ 342 <= 10 ^ 342)%Z) by (apply Z.pow_le_mono_l; lia).
  assert (C : (10 ^ Z.succ 342 < 10 ^ 1000)%Z) by (apply Z.pow_lt_mono_r; lia). rewrite Z.pow_succ_r in C by lia.
  set (a := (2 ^ 1024)%Z) in *. set (b := ((2 ^ 3) ^ 342)%Z) in *. set (c := (10 ^ 342)%Z) in *. set (e := (10 ^ 1000)%Z) in *. clearbody a b c e. lia.
Qed.

Lemma show_sci_finite (p : nat) s m e : well_formed (S754_finite s m e) ->
  exists t k d, show_sci p (S754_finite s m e) = sign_text s ++ t /\ decimal t k d /\
    (10 ^ Z.of_nat p <= k < 10 ^ (Z.of_nat p + 1))%Z /\ Rabs (decval k d - dval (S754_finite false m e)) <= powerRZ 10 d / 2.
Proof.
  intros W. assert (W' : well_formed (S754_finite false m e)) by exact W.
  pose proof (frac_of_pos m e) as P. pose proof (frac_of_val m e) as V. pose proof (frac_of_large m e W') as G.
  unfold show_sci. destruct (frac_of m e) as [n d]. destruct P as [Pn Pd].
  destruct (sci_digits_spec p n d Pn Pd G) as (q & x & -> & Q & X & U & C). rewrite V in U, C.
  assert (X' : (x < 1000)%Z).
  { apply Znot_ge_lt. intros H. apply Z.ge_le, ten_le in H.
    destruct (finite_bounds _ _ _ W) as [B1 B2].
    assert (D : (dval (S754_finite false m e) <= IZR (2 ^ 1024))%R).
    { simpl dval. rewrite Rmult_1_l. rewrite two_split, mult_IZR.
      apply Rmult_le_compat; [apply IZR_le; lia|apply powerRZ_le; lra|apply IZR_le; lia|].
      change 2%R with (IZR radix2). rewrite <- bpow_powerRZ. apply Rle_trans with (bpow radix2 971); [apply bpow_le; lia|].
      rewrite <- (IZR_Zpower radix2 971) by lia. apply Rle_refl. }
    rewrite <- ten_nonneg in H by lia.
    assert (10 * IZR (2 ^ 1024) < IZR (10 ^ 1000))%R; [|lra]. rewrite <- mult_IZR. apply IZR_lt. exact two_ten. }
  exists (sci_text p q x), q, (x - Z.of_nat p)%Z. split; [reflexivity|]. split; [apply sci_text_ok; [exact Q|lia]|]. split; [exact Q|]. exact C.
Qed.
