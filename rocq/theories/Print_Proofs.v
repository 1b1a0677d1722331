(** The digits GLPSPrint writes for a number. *)
From Coq Require Import Reals List String Ascii Bool ZArith Lia Lra.
From Coq Require Import Floats.SpecFloat.
From Flocq Require Import Core IEEE754.BinarySingleNaN.
From Verif Require Import SMap Dbl Lexer_Model Lexer_Spec Lexer_Proofs Number_Spec Number_Proofs Print_Model Print_Spec.
Import ListNotations.
Open Scope Z_scope.

(** ** Integers *)
Lemma log10_fuel_spec f : forall k, 1 <= k < 10 ^ Z.of_nat f ->
  exists x, log10_fuel f k = Some x /\ 0 <= x /\ 10 ^ x <= k < 10 ^ (x + 1).
Proof.
  induction f as [|f IH]; intros k Hk; [simpl in Hk; lia|]. simpl log10_fuel.
  destruct (Z.ltb_spec k 10) as [L|L].
  - exists 0. split; [reflexivity|]. split; [lia|]. simpl. lia.
  - replace (Z.of_nat (S f)) with (Z.of_nat f + 1) in Hk by lia. rewrite Z.pow_add_r in Hk by lia.
    change (10 ^ 1) with 10 in Hk.
    pose proof (Z.div_mod k 10 ltac:(lia)). pose proof (Z.mod_pos_bound k 10 ltac:(lia)).
    destruct (IH (k / 10)) as (x & E & X & B); [nia|].
    exists (Z.succ x). rewrite E. split; [reflexivity|]. split; [lia|].
    replace (Z.succ x) with (x + 1) by lia. rewrite !Z.pow_add_r in * by lia. change (10 ^ 1) with 10 in *. nia.
Qed.
Lemma log10_spec k : 1 <= k -> exists x, log10 k = Some x /\ 0 <= x /\ 10 ^ x <= k < 10 ^ (x + 1).
Proof.
  intros Hk. apply log10_fuel_spec. split; [exact Hk|].
  pose proof (Z.log2_spec k ltac:(lia)) as [_ U]. pose proof (Z.log2_nonneg k).
  replace (Z.of_nat (Z.to_nat (Z.log2 k) + 1)) with (Z.succ (Z.log2 k)) by lia.
  eapply Z.lt_le_trans; [exact U|]. apply Z.pow_le_mono_l. lia.
Qed.
Lemma div_even_spec n d : 0 < d -> 0 <= n -> - d <= 2 * (n - div_even n d * d) <= d /\ 0 <= div_even n d.
Proof.
  intros Hd Hn. unfold div_even. pose proof (Z.div_mod n d ltac:(lia)) as E. pose proof (Z.mod_pos_bound n d Hd) as B.
  pose proof (Z.div_pos n d Hn Hd). set (q := n / d) in *.
  replace (n - q * d) with (n mod d) by lia.
  destruct (Z.compare_spec (2 * (n mod d)) d) as [C|C|C]; [destruct (Z.even q)|..]; split; try lia.
Qed.

(** ** Reals *)
Open Scope R_scope.
Definition ten (e : Z) : R := powerRZ 10 e.
Lemma ten_add a b : ten (a + b) = ten a * ten b.
Proof. apply powerRZ_add. lra. Qed.
Lemma ten_pos e : 0 < ten e.
Proof. apply powerRZ_lt. lra. Qed.
Lemma ten_nonneg k : (0 <= k)%Z -> IZR (10 ^ k) = ten k.
Proof.
  intros H. rewrite <- (Z2Nat.id k H) at 1. rewrite <- pow_IZR. unfold ten.
  rewrite <- (Z2Nat.id k H) at 2. rewrite <- pow_powerRZ. reflexivity.
Qed.
Lemma ten_opp k : ten (- k) * ten k = 1.
Proof. rewrite <- ten_add. replace (- k + k)%Z with 0%Z by lia. reflexivity. Qed.
Lemma ten_le a b : (a <= b)%Z -> ten a <= ten b.
Proof.
  intros H. replace b with (a + (b - a))%Z by lia. rewrite ten_add.
  assert (1 <= ten (b - a)). { rewrite <- ten_nonneg by lia. apply IZR_le. pose proof (Z.pow_pos_nonneg 10 (b - a)). lia. }
  pose proof (ten_pos a). nra.
Qed.
Lemma ten_5 : ten 5 = 100000. Proof. rewrite <- ten_nonneg by lia. reflexivity. Qed.
Lemma ten_6 : ten 6 = 1000000. Proof. rewrite <- ten_nonneg by lia. reflexivity. Qed.
Lemma ten_1 : ten 1 = 10. Proof. unfold ten. simpl. lra. Qed.

(** q is an integer nearest to r, so q * u is a nearest multiple of u. *)
Lemma nearest_int q r j : Rabs (IZR q - r) <= / 2 -> Rabs (IZR q - r) <= Rabs (IZR j - r).
Proof.
  intros H. destruct (Z.eq_dec q j) as [->|N]; [lra|].
  assert (1 <= Rabs (IZR j - IZR q)).
  { rewrite <- minus_IZR, <- abs_IZR. apply IZR_le. lia. }
  unfold Rabs in *. repeat destruct (Rcase_abs _); lra.
Qed.
Lemma six_nearest q x v u m e : u = ten (x - 5) -> 100000 * u <= v -> Rabs (IZR q - v / u) <= / 2 ->
  (0 <= m < 1000000)%Z -> Rabs (IZR q * u - v) <= Rabs (IZR m * ten e - v).
Proof.
  intros U V N M. assert (P : 0 < u) by (rewrite U; apply ten_pos).
  assert (S : forall j, Rabs (IZR q * u - v) <= Rabs (IZR j * u - v)).
  { intros j. replace (IZR q * u - v) with ((IZR q - v / u) * u) by (field; lra).
    replace (IZR j * u - v) with ((IZR j - v / u) * u) by (field; lra). rewrite !Rabs_mult, (Rabs_pos_eq u) by lra.
    apply Rmult_le_compat_r; [lra|]. apply nearest_int. exact N. }
  destruct (Z_le_gt_dec (x - 5) e) as [L|L].
  - replace (IZR m * ten e) with (IZR (m * 10 ^ (e - (x - 5))) * u); [apply S|].
    rewrite mult_IZR, ten_nonneg, Rmult_assoc by lia. f_equal. rewrite U, <- ten_add. f_equal. lia.
  - eapply Rle_trans; [apply (S 100000%Z)|]. assert (IZR m * ten e < 100000 * u).
    { assert (IZR m <= 999999) by (apply IZR_le; lia). pose proof (ten_pos e).
      assert (10 * ten e <= u). { rewrite U. replace (10 * ten e) with (ten (e + 1)) by (rewrite ten_add, ten_1; ring). apply ten_le. lia. }
      nra. }
    unfold Rabs. repeat destruct (Rcase_abs _); lra.
Qed.

(** The digits computed: a number of at most six digits nearest to n/d. *)
Lemma six_digits_spec n d : (0 < n)%Z -> (0 < d)%Z -> (d <= n * 10 ^ 400)%Z ->
  exists q x, six_digits n d = Some (q, x) /\ (100000 <= q < 1000000)%Z /\ (-400 <= x)%Z /\
    ten x <= 10 * (IZR n / IZR d) /\ Rabs (IZR q * ten (x - 5) - IZR n / IZR d) <= IZR n / IZR d / 200000 /\
    nearest_six (IZR n / IZR d) (IZR q * ten (x - 5)).
Proof.
  intros Hn Hd Hs. unfold six_digits.
  assert (K : (1 <= n * 10 ^ 400 / d)%Z) by (apply Z.div_le_lower_bound; lia).
  destruct (log10_spec _ K) as (k & -> & K0 & B1 & B2). clear K. set (x := (k - 400)%Z).
  set (v := IZR n / IZR d).
  assert (Dp : 0 < IZR d) by (apply IZR_lt; lia). assert (Np : 0 < IZR n) by (apply IZR_lt; lia).
  assert (Vd : v * IZR d = IZR n) by (unfold v; field; lra).
  assert (T : (10 ^ k * d <= n * 10 ^ 400 /\ n * 10 ^ 400 < 10 ^ (k + 1) * d)%Z).
  { pose proof (Z.div_mod (n * 10 ^ 400) d ltac:(lia)). pose proof (Z.mod_pos_bound (n * 10 ^ 400) d Hd).
    set (w := (n * 10 ^ 400 / d)%Z) in *. set (N := (n * 10 ^ 400)%Z) in *. split; nia. }
  destruct T as [T1 T2]. apply IZR_le in T1. apply IZR_lt in T2. rewrite !mult_IZR, !ten_nonneg in T1, T2 by lia.
  assert (V1 : ten x <= v).
  { replace (ten x) with (ten k * ten (-400)) by (rewrite <- ten_add; reflexivity). pose proof (ten_pos (-400)). pose proof (ten_opp 400) as O. simpl Z.opp in O.
    apply Rmult_le_reg_r with (IZR d); [lra|]. rewrite Vd.
    replace (ten k * ten (-400) * IZR d) with (ten (-400) * (ten k * IZR d)) by ring.
    replace (IZR n) with (ten (-400) * (IZR n * ten 400)) by (transitivity (ten (-400) * ten 400 * IZR n); [ring|rewrite O; ring]).
    apply Rmult_le_compat_l; lra. }
  assert (V2 : v < ten (x + 1)).
  { replace (ten (x + 1)) with (ten (k + 1) * ten (-400)) by (rewrite <- ten_add; f_equal; unfold x; lia).
    pose proof (ten_pos (-400)). pose proof (ten_opp 400) as O. simpl Z.opp in O.
    apply Rmult_lt_reg_r with (IZR d); [lra|]. rewrite Vd.
    replace (ten (k + 1) * ten (-400) * IZR d) with (ten (-400) * (ten (k + 1) * IZR d)) by ring.
    replace (IZR n) with (ten (-400) * (IZR n * ten 400)) by (transitivity (ten (-400) * ten 400 * IZR n); [ring|rewrite O; ring]).
    apply Rmult_lt_compat_l; lra. }
  clear T1 T2 B1 B2. set (u := ten (x - 5)). assert (U : 0 < u) by apply ten_pos.
  assert (U1 : 100000 * u <= v). { unfold u. rewrite <- ten_5, <- ten_add. replace (5 + (x - 5))%Z with x by lia. exact V1. }
  assert (U2 : v < 1000000 * u). { unfold u. rewrite <- ten_6, <- ten_add. replace (6 + (x - 5))%Z with (x + 1)%Z by lia. exact V2. }
  set (q := if (5 <=? x)%Z then _ else _).
  assert (Q : Rabs (IZR q - v / u) <= / 2).
  { assert (G : forall N D, (0 < D)%Z -> (0 <= N)%Z -> IZR N / IZR D = v / u -> Rabs (IZR (div_even N D) - v / u) <= / 2).
    { intros N D HD HN E. rewrite <- E. destruct (div_even_spec N D HD HN) as [[A B] _].
      apply IZR_le in A. apply IZR_le in B. rewrite opp_IZR, mult_IZR, minus_IZR, mult_IZR in A. rewrite mult_IZR, minus_IZR, mult_IZR in B.
      assert (PD : 0 < IZR D) by (apply IZR_lt; lia). set (k' := div_even N D) in *.
      assert (C : IZR N / IZR D * IZR D = IZR N) by (field; lra). apply Rabs_le.
      split; apply Rmult_le_reg_r with (IZR D); try lra; rewrite Rmult_minus_distr_r, C; lra. }
    unfold q. destruct (Z.leb_spec 5 x) as [L|L]; apply G; try lia.
    - rewrite mult_IZR, ten_nonneg by lia. fold u. unfold v. field. split; lra.
    - rewrite mult_IZR, ten_nonneg by lia. unfold v, u. replace (x - 5)%Z with (- (5 - x))%Z by lia.
      pose proof (ten_opp (5 - x)) as O. pose proof (ten_pos (5 - x)). pose proof (ten_pos (- (5 - x))).
      apply Rmult_eq_reg_r with (ten (- (5 - x))); [|lra].
      transitivity (IZR n * (ten (- (5 - x)) * ten (5 - x)) / IZR d); [field; lra|]. rewrite O. field. split; lra. }
  assert (R : 100000 <= v / u < 1000000).
  { split; [apply Rmult_le_reg_r with u|apply Rmult_lt_reg_r with u]; try lra; unfold Rdiv; rewrite Rmult_assoc, Rinv_l by lra; lra. }
  assert (Q1 : (100000 <= q <= 1000000)%Z).
  { apply Rabs_le_inv in Q. split; apply Znot_gt_le; intros H; apply Z.gt_lt, Zlt_le_succ, IZR_le in H; rewrite succ_IZR in H; lra. }
  assert (A : Rabs (IZR q * u - v) <= v / 200000).
  { replace (IZR q * u - v) with ((IZR q - v / u) * u) by (field; lra). rewrite Rabs_mult, (Rabs_pos_eq u) by lra. nra. }
  assert (M : nearest_six v (IZR q * ten (x - 5))).
  { intros m e Hm. apply (six_nearest q x); auto. }
  exists (if (q =? 1000000)%Z then 100000%Z else q), (if (q =? 1000000)%Z then (x + 1)%Z else x).
  destruct (Z.eqb_spec q 1000000) as [E|E]; (split; [reflexivity|]); (split; [lia|]); (split; [lia|]); (split; [|split]).
  - rewrite ten_add, ten_1. lra.
  - rewrite E in A. replace (x + 1 - 5)%Z with (1 + (x - 5))%Z by lia. rewrite ten_add, ten_1.
    replace (100000 * (10 * ten (x - 5))) with (1000000 * u) by (unfold u; ring). exact A.
  - intros m e Hm. specialize (M m e Hm). rewrite E in M.
    replace (x + 1 - 5)%Z with (1 + (x - 5))%Z by lia. rewrite ten_add, ten_1. replace (100000 * (10 * ten (x - 5))) with (1000000 * ten (x - 5)) by ring. exact M.
  - pose proof (ten_pos x). lra.
  - exact A.
  - exact M.
Qed.
