(** The text GLPSPrint writes for a number, and reading it again. *)
From Coq Require Import Reals List String Ascii Bool ZArith Lia Lra.
From Coq Require Import Floats.SpecFloat.
From Flocq Require Import Core Relative IEEE754.BinarySingleNaN.
From Verif Require Import SMap Dbl Lexer_Model Lexer_Spec Lexer_Proofs Number_Spec Number_Proofs Print_Model Print_Spec Print_Proofs.
Import ListNotations.
Open Scope Z_scope.

(** ** Digits *)
Lemma dec_app l r a : dec a (l ++ r) = dec (dec a l) r.
Proof. revert a. induction l as [|c l IH]; intros a; simpl; auto. Qed.
Lemma dec_zeros k a : dec a (repeat "0"%char k) = a * 10 ^ Z.of_nat k.
Proof.
  revert a. induction k as [|k IH]; intros a; [simpl; lia|]. simpl repeat. cbn [dec]. rewrite IH.
  replace (Z.of_N (N_of_ascii "0") - 48) with 0 by reflexivity.
  replace (Z.of_nat (S k)) with (Z.of_nat k + 1) by lia. rewrite Z.pow_add_r by lia. change (10 ^ 1) with 10. ring.
Qed.
Lemma digit_char_ok z : 0 <= z < 10 -> c_digit (digit_char z) = true /\ Z.of_N (N_of_ascii (digit_char z)) - 48 = z.
Proof.
  intros H. assert (z = 0 \/ z = 1 \/ z = 2 \/ z = 3 \/ z = 4 \/ z = 5 \/ z = 6 \/ z = 7 \/ z = 8 \/ z = 9) as C by lia.
  repeat destruct C as [-> | C]; try (split; reflexivity). subst z. split; reflexivity.
Qed.
Lemma digit_list_ok k : forall n, 0 <= n < 10 ^ Z.of_nat k ->
  forallb c_digit (digit_list k n) = true /\ List.length (digit_list k n) = k /\ forall a, dec a (digit_list k n) = a * 10 ^ Z.of_nat k + n.
Proof.
  induction k as [|k IH]; intros n H.
  - simpl in *. repeat split; auto. intros a. lia.
  - replace (Z.of_nat (S k)) with (Z.of_nat k + 1) in * by lia. rewrite Z.pow_add_r in * by lia. change (10 ^ 1) with 10 in *.
    pose proof (Z.div_mod n 10 ltac:(lia)) as E. pose proof (Z.mod_pos_bound n 10 ltac:(lia)) as B.
    destruct (IH (n / 10)) as (D & L & V); [nia|]. destruct (digit_char_ok (n mod 10) B) as [D1 V1]. simpl digit_list.
    split; [|split].
    + rewrite forallb_app, D. simpl. rewrite D1. reflexivity.
    + rewrite app_length, L. simpl. lia.
    + intros a. rewrite dec_app, V. cbn [dec]. rewrite V1. nia.
Qed.
Lemma drop_zeros_spec l : exists k, l = drop_zeros l ++ repeat "0"%char k.
Proof.
  induction l as [|c l (k & E)]; [exists O; reflexivity|]. simpl. destruct (drop_zeros l) as [|d t] eqn:D.
  - destruct (Ascii.eqb_spec c "0") as [->|N].
    + exists (S k). simpl. f_equal. exact E.
    + exists k. simpl. f_equal. exact E.
  - exists k. simpl. f_equal. exact E.
Qed.
Lemma fraction_ok l : forallb c_digit l = true -> fraction (fraction_text l) (drop_zeros l).
Proof.
  intros D. unfold fraction_text. destruct (drop_zeros_spec l) as (k & E). rewrite E in D. rewrite forallb_app in D.
  apply andb_prop in D as [D _]. destruct (drop_zeros l); [constructor|]. constructor. exact D.
Qed.

(** A decimal number written as digits, a fraction without trailing zeros and an exponent. *)
Lemma number_text d l t xe Q : d <> [] -> forallb c_digit d = true -> forallb c_digit l = true -> exponent t xe ->
  dec 0 (d ++ l) = Q -> (0 < Q < 1000000) ->
  exists m e, decimal (d ++ fraction_text l ++ t) m e /\ 0 < m < 1000000 /\
    decval m e = (IZR Q * ten (xe - Z.of_nat (List.length l)))%R.
Proof.
  intros Hd Dd Dl X E B. destruct (drop_zeros_spec l) as (k & K).
  exists (dec 0 (d ++ drop_zeros l)), (xe - Z.of_nat (List.length (drop_zeros l))).
  assert (V : dec 0 (d ++ drop_zeros l) * 10 ^ Z.of_nat k = Q).
  { rewrite <- E. transitivity (dec 0 (d ++ drop_zeros l ++ repeat "0"%char k)); [|rewrite <- K; reflexivity]. rewrite app_assoc, (dec_app (d ++ drop_zeros l)), dec_zeros. reflexivity. }
  pose proof (Z.pow_pos_nonneg 10 (Z.of_nat k) ltac:(lia) ltac:(lia)).
  split; [|split].
  - constructor; auto. apply fraction_ok. exact Dl.
  - nia.
  - unfold decval. fold (ten (xe - Z.of_nat (List.length (drop_zeros l)))). rewrite <- V, mult_IZR, ten_nonneg, Rmult_assoc by lia.
    f_equal. rewrite <- ten_add. f_equal. apply (f_equal (@List.length ascii)) in K. rewrite app_length, repeat_length in K. lia.
Qed.
Lemma exp_ok x : Z.abs x < 1000 -> exponent (exp_digits x) x.
Proof.
  intros H. unfold exp_digits. set (k := if _ <? 100 then 2%nat else 3%nat).
  assert (B : 0 <= Z.abs x < 10 ^ Z.of_nat k) by (unfold k; destruct (Z.ltb_spec (Z.abs x) 100); simpl; lia).
  destruct (digit_list_ok k _ B) as (D & L & V). specialize (V 0).
  assert (N : digit_list k (Z.abs x) <> []). { intros E. rewrite E in L. unfold k in L. destruct (_ <? _); discriminate. }
  destruct (Z.ltb_spec x 0).
  - replace x with (- dec 0 (digit_list k (Z.abs x))) at 2 by (rewrite V; lia). apply ex_minus; simpl; auto.
  - replace x with (dec 0 (digit_list k (Z.abs x))) at 2 by (rewrite V; lia). apply ex_plus; simpl; auto.
Qed.
Lemma forallb_cut (p : ascii -> bool) n l : forallb p l = true -> forallb p (firstn n l) = true /\ forallb p (skipn n l) = true.
Proof. intros H. rewrite <- (firstn_skipn n l), forallb_app in H. apply andb_prop in H. exact H. Qed.
Lemma digits_text_ok q x : 100000 <= q < 1000000 -> Z.abs x < 1000 ->
  exists m e, decimal (digits_text q x) m e /\ 0 < m < 1000000 /\ decval m e = (IZR q * ten (x - 5))%R.
Proof.
  intros Q X. destruct (digit_list_ok 6 q ltac:(simpl; lia)) as (D & L & V). specialize (V 0). simpl Z.mul in V. simpl Z.add in V.
  unfold digits_text. cbv zeta. set (ds := digit_list 6 q) in *.
  assert (Z0 : forall n, forallb c_digit (repeat "0"%char n) = true) by (induction n; simpl; auto).
  destruct ((x <? -4) || (6 <=? x))%bool eqn:C.
  - destruct (forallb_cut c_digit 1 ds D) as [D1 D2].
    destruct (number_text (firstn 1 ds) (skipn 1 ds) (exp_digits x) x q) as (m & e & A & B & E); auto.
    + destruct ds; [discriminate|]. discriminate.
    + apply exp_ok. exact X.
    + lia.
    + exists m, e. split; [exact A|]. split; [exact B|]. rewrite E. rewrite skipn_length, L. reflexivity.
  - apply orb_false_elim in C as [C1 C2]. apply Z.ltb_ge in C1. apply Z.leb_gt in C2.
    destruct (Z.ltb_spec x 0) as [Hx|Hx].
    + destruct (number_text ["0"%char] (repeat "0"%char (Z.to_nat (- x - 1)) ++ ds) [] 0 q) as (m & e & A & B & E); auto.
      * discriminate.
      * rewrite forallb_app, D, Z0. reflexivity.
      * constructor.
      * rewrite app_assoc. change (["0"%char] ++ repeat "0"%char (Z.to_nat (- x - 1))) with (repeat "0"%char (S (Z.to_nat (- x - 1)))).
        rewrite dec_app, dec_zeros. simpl Z.mul. exact V.
      * lia.
      * exists m, e. rewrite app_nil_r in A. split; [exact A|]. split; [exact B|]. rewrite E. f_equal. f_equal.
        rewrite app_length, repeat_length, L. lia.
    + destruct (forallb_cut c_digit (Z.to_nat x + 1) ds D) as [D1 D2].
      destruct (number_text (firstn (Z.to_nat x + 1) ds) (skipn (Z.to_nat x + 1) ds) [] 0 q) as (m & e & A & B & E); auto.
      * destruct ds; [discriminate|]. rewrite Nat.add_comm. discriminate.
      * constructor.
      * rewrite firstn_skipn. exact V.
      * lia.
      * exists m, e. rewrite app_nil_r in A. split; [exact A|]. split; [exact B|]. rewrite E. f_equal. f_equal. rewrite skipn_length, L. lia.
Qed.

(** ** Doubles *)
Lemma frac_of_pos m e : let (n, d) := frac_of m e in 0 < n /\ 0 < d.
Proof.
  unfold frac_of. destruct (Z.leb_spec 0 e); split; lia.
Qed.
Lemma frac_of_val m e : let (n, d) := frac_of m e in (IZR n / IZR d = dval (S754_finite false m e))%R.
Proof.
  unfold frac_of, dval. destruct (Z.leb_spec 0 e) as [H|H].
  - rewrite mult_IZR. rewrite <- (Z2Nat.id e H) at 1. rewrite <- pow_IZR, pow_powerRZ, Z2Nat.id by lia. field.
  - assert (E : IZR (2 ^ (- e)) = (/ powerRZ 2 e)%R).
    { rewrite <- (Z2Nat.id (- e)) by lia. rewrite <- pow_IZR, pow_powerRZ, Z2Nat.id by lia. apply powerRZ_neg'. }
    rewrite E. field. apply powerRZ_NOR. lra.
Qed.
Lemma finite_bounds s m e : well_formed (S754_finite s m e) -> -1074 <= e <= 971 /\ Zpos m < 2 ^ 53.
Proof.
  intros W. unfold well_formed in W. simpl in W. unfold bounded in W. apply andb_prop in W as [W1 W2].
  apply Zle_bool_imp_le in W2. unfold canonical_mantissa in W1. apply Zeq_bool_eq in W1.
  unfold SpecFloat.fexp in W1. change (SpecFloat.emin dprec demax) with (-1074) in W1. change (demax - dprec) with 971 in W2.
  split; [lia|].
  assert (P : Zpos (digits2_pos m) <= 53) by (unfold dprec in W1; lia).
  rewrite Zpos_digits2_pos in P. apply (Zpower_gt_Zdigits radix2 53 (Zpos m)). exact P.
Qed.
Lemma frac_of_large m e : well_formed (S754_finite false m e) -> let (n, d) := frac_of m e in d <= n * 10 ^ 400.
Proof.
  intros W. destruct (finite_bounds _ _ _ W) as [B _]. unfold frac_of. destruct (Z.leb_spec 0 e).
  - pose proof (Z.pow_pos_nonneg 2 e). pose proof (Z.pow_pos_nonneg 10 400). nia.
  - assert (2 ^ (- e) <= 2 ^ 1074) by (apply Z.pow_le_mono_r; lia).
    assert (2 ^ 1074 <= 10 ^ 400) by (apply Z.leb_le; vm_compute; reflexivity).
    pose proof (Zle_0_pos m). nia.
Qed.

Lemma strtod_same p e p' e' : decval (Zpos p) e = decval (Zpos p') e' -> dval (strtod_val (Zpos p) e) <> 0%R ->
  strtod_val (Zpos p') e' = strtod_val (Zpos p) e.
Proof.
  intros E N. destruct (strtod_correct p e) as [W C]. destruct (strtod_correct p' e') as [W' C']. rewrite <- E in C'.
  destruct (Rlt_bool _ _); [|rewrite C, C'; reflexivity].
  destruct C as [C F]. destruct C' as [C' F']. rewrite <- C in C'. rewrite dval_SF2R in N.
  set (x := strtod_val (Zpos p) e) in *. set (y := strtod_val (Zpos p') e') in *. clearbody x y.
  rewrite <- (B2SF_SF2B _ _ x W), <- (B2SF_SF2B _ _ y W'). f_equal. apply B2R_inj.
  - apply is_finite_strict_B2R. rewrite B2R_SF2B, C'. exact N.
  - apply is_finite_strict_B2R. rewrite B2R_SF2B. exact N.
  - rewrite !B2R_SF2B. exact C'.
Qed.

(** Two numbers of at most six digits are not close to each other. *)
Lemma six_apart m e m' e' : 0 < m < 1000000 -> 0 < m' < 1000000 -> (e <= e')%Z ->
  (IZR m * ten e <> IZR m' * ten e')%R ->
  (IZR m * ten e <= 1000000 * Rabs (IZR m * ten e - IZR m' * ten e'))%R.
Proof.
  intros M M' L N. assert (E : ten e' = (IZR (10 ^ (e' - e)) * ten e)%R).
  { rewrite ten_nonneg, <- ten_add by lia. f_equal. lia. }
  rewrite E in *. clear E. set (k := 10 ^ (e' - e)) in *. pose proof (ten_pos e) as T.
  assert (D : m <> m' * k). { intros D. apply N. rewrite D, mult_IZR. ring. }
  replace (IZR m * ten e - IZR m' * (IZR k * ten e))%R with (IZR (m - m' * k) * ten e)%R by (rewrite minus_IZR, mult_IZR; ring).
  rewrite Rabs_mult, (Rabs_pos_eq (ten e)) by lra. rewrite <- abs_IZR.
  assert (1 <= IZR (Z.abs (m - m' * k)))%R by (apply IZR_le; lia). assert (IZR m <= 1000000)%R by (apply IZR_le; lia). nra.
Qed.
Lemma six_unique m e m' e' x : 0 < m < 1000000 -> 0 < m' < 1000000 -> (0 < x)%R ->
  (Rabs (IZR m * ten e - x) <= x / 10000000)%R -> (Rabs (IZR m' * ten e' - x) <= x / 10000000)%R ->
  (IZR m * ten e = IZR m' * ten e')%R.
Proof.
  intros M M' X A B. apply Rabs_le_inv in A. apply Rabs_le_inv in B.
  destruct (Req_dec (IZR m * ten e) (IZR m' * ten e')) as [|N]; auto. exfalso.
  destruct (Z_le_gt_dec e e') as [L|L].
  - pose proof (six_apart m e m' e' M M' L N) as C.
    assert (Rabs (IZR m * ten e - IZR m' * ten e') <= 2 * (x / 10000000))%R by (apply Rabs_le; lra). lra.
  - pose proof (six_apart m' e' m e M' M ltac:(lia) ltac:(auto)) as C.
    assert (Rabs (IZR m' * ten e' - IZR m * ten e) <= 2 * (x / 10000000))%R by (apply Rabs_le; lra). lra.
Qed.
(** A normal double is within 2^-53 of the number it was rounded from. *)
Lemma rounded_close v : (powerRZ 2 (-1022) <= rnd v)%R -> (Rabs (v - rnd v) <= rnd v / 9007199254740992)%R.
Proof.
  intros H. pose proof (error_le_half_ulp_round radix2 fexp (fun z => negb (Z.even z)) v) as E.
  assert (P : (0 < powerRZ 2 (-1022))%R) by (apply powerRZ_lt; lra).
  assert (U : (ulp radix2 fexp (rnd v) <= Rabs (rnd v) * bpow radix2 (1 - 53))%R).
  { apply (ulp_FLT_le radix2 (-1074) 53). rewrite Rabs_pos_eq by lra. rewrite bpow_powerRZ. exact H. }
  rewrite Rabs_pos_eq in U by lra. rewrite Rabs_minus_sym.
  change (bpow radix2 (1 - 53)) with (/ 4503599627370496)%R in U. lra.
Qed.

(** ** What is written for a number *)
(** The text denotes a number of at most six digits, and none is nearer. *)
Lemma show_finite s m e : well_formed (S754_finite s m e) ->
  exists p k d, show_num (S754_finite s m e) = sign_text s ++ p /\ decimal p k d /\ 0 < k < 1000000 /\
    nearest_six (dval (S754_finite false m e)) (decval k d) /\
    (Rabs (decval k d - dval (S754_finite false m e)) <= dval (S754_finite false m e) / 200000)%R.
Proof.
  intros W. assert (W' : well_formed (S754_finite false m e)) by exact W.
  pose proof (frac_of_pos m e) as P. pose proof (frac_of_val m e) as V. pose proof (frac_of_large m e W') as G.
  unfold show_num. destruct (frac_of m e) as [n d]. destruct P as [Pn Pd].
  destruct (six_digits_spec n d Pn Pd G) as (q & x & -> & Q & X & U & C & N). rewrite V in U, C, N.
  assert (X' : x < 1000).
  { apply Znot_ge_lt. intros H. apply Z.ge_le, ten_le in H.
    destruct (finite_bounds _ _ _ W) as [B1 B2].
    assert (D : (dval (S754_finite false m e) <= IZR (2 ^ 1024))%R).
    { simpl dval. rewrite Rmult_1_l. replace (2 ^ 1024) with (2 ^ 53 * 2 ^ 971) by reflexivity. rewrite mult_IZR.
      apply Rmult_le_compat; [apply IZR_le; lia|apply powerRZ_le; lra|apply IZR_le; lia|].
      change 2%R with (IZR radix2). rewrite <- bpow_powerRZ. apply Rle_trans with (bpow radix2 971); [apply bpow_le; lia|].
      rewrite <- (IZR_Zpower radix2 971) by lia. apply Rle_refl. }
    rewrite <- ten_nonneg in H by lia.
    assert (10 * IZR (2 ^ 1024) < IZR (10 ^ 1000))%R; [|lra]. rewrite <- mult_IZR. apply IZR_lt. apply Z.ltb_lt. vm_compute. reflexivity. }
  destruct (digits_text_ok q x Q) as (k & c & D & K & E); [lia|].
  exists (digits_text q x), k, c. split; [reflexivity|]. split; [exact D|]. split; [exact K|]. rewrite E. split; [exact N|exact C].
Qed.
(** A number with at most six digits is read back. *)
Lemma show_short s m e k d : well_formed (S754_finite s m e) -> 0 < k < 1000000 ->
  S754_finite false m e = strtod_val k d -> (powerRZ 2 (-1022) <= dval (S754_finite false m e))%R ->
  exists p k' d', show_num (S754_finite s m e) = sign_text s ++ p /\ decimal p k' d' /\ strtod_val k' d' = S754_finite false m e.
Proof.
  intros W K E N. destruct (show_finite s m e W) as (p & k' & d' & S & D & K' & M & _).
  exists p, k', d'. split; [exact S|]. split; [exact D|]. rewrite E in *. clear E S W.
  destruct k as [|k|k]; try lia. destruct k' as [|k'|k']; try lia.
  assert (P : (0 < powerRZ 2 (-1022))%R) by (apply powerRZ_lt; lra).
  apply strtod_same; [|intros Z; rewrite Z in N; lra].
  destruct (strtod_correct k d) as [_ C]. destruct (Rlt_bool _ _); [|rewrite C in N; simpl in N; lra].
  destruct C as [C _]. rewrite <- dval_SF2R in C. rewrite C in *. set (v := decval (Zpos k) d) in *.
  pose proof (rounded_close v N) as R. set (x := rnd v) in *. specialize (M (Zpos k) d ltac:(lia)). fold v in M.
  change (IZR (Zpos k) * ten d)%R with v in M.
  apply (six_unique (Zpos k) d (Zpos k') d' x K K'); [lra|..].
  - change (IZR (Zpos k) * ten d)%R with v. lra.
  - change (IZR (Zpos k') * ten d')%R with (decval (Zpos k') d'). lra.
Qed.

(** ** Any finite number can be read again. *)
Lemma six_below v k d : 0 < k < 1000000 -> nearest_six v (decval k d) -> (v < 1797694 * ten 302)%R ->
  (decval k d <= 179769 * ten 303)%R.
Proof.
  intros K N V. assert (T : ten 303 = (10 * ten 302)%R) by (change 303 with (1 + 302); rewrite ten_add, ten_1; reflexivity).
  pose proof (ten_pos 302) as P. specialize (N 179769 303 ltac:(lia)). unfold decval in *. fold (ten d) in *. fold (ten 303) in *.
  destruct (Rle_lt_dec (IZR k * ten d) (179769 * ten 303)) as [|G]; [assumption|exfalso].
  destruct (Z_le_gt_dec 303 d) as [L|L].
  - assert (E : ten d = (IZR (10 ^ (d - 303)) * ten 303)%R) by (rewrite ten_nonneg, <- ten_add by lia; f_equal; lia).
    rewrite E, <- Rmult_assoc, <- mult_IZR in *. set (j := k * 10 ^ (d - 303)) in *.
    assert (J : 179770 <= j).
    { apply Znot_gt_le. intros J. assert (J' : (IZR j <= 179769)%R) by (apply IZR_le; lia). pose proof (ten_pos 303). nra. }
    apply IZR_le in J. rewrite T in *. assert (A : (1797700 * ten 302 <= IZR j * (10 * ten 302))%R) by nra.
    unfold Rabs in N. destruct (Rcase_abs _), (Rcase_abs _); lra.
  - assert (H : (ten d <= ten 302)%R) by (apply ten_le; lia). assert (IZR k <= 999999)%R by (apply IZR_le; lia). pose proof (ten_pos d). nra.
Qed.
Lemma max_double m e s : well_formed (S754_finite s m e) -> (dval (S754_finite false m e) < 1797694 * ten 302)%R.
Proof.
  intros W. destruct (finite_bounds _ _ _ W) as [B1 B2]. simpl dval. rewrite Rmult_1_l.
  apply Rlt_le_trans with (IZR (2 ^ 53 * 2 ^ 971)).
  - rewrite mult_IZR. change 2%R with (IZR radix2). rewrite <- bpow_powerRZ. pose proof (bpow_gt_0 radix2 e).
    apply Rlt_le_trans with (IZR (2 ^ 53) * bpow radix2 e)%R; [apply Rmult_lt_compat_r; [assumption|apply IZR_lt; exact B2]|].
    apply Rmult_le_compat_l; [apply IZR_le; lia|]. apply Rle_trans with (bpow radix2 971); [apply bpow_le; lia|].
    rewrite <- (IZR_Zpower radix2 971) by lia. apply Rle_refl.
  - rewrite <- (ten_nonneg 302) by lia. rewrite <- mult_IZR. apply IZR_le. apply Z.leb_le. vm_compute. reflexivity.
Qed.
Lemma overflow_num : (179769 * ten 303 < overflow_bound)%R.
Proof.
  rewrite <- ten_nonneg by lia. rewrite <- mult_IZR. unfold overflow_bound.
  change 2%R with (IZR radix2). rewrite <- !bpow_powerRZ, <- !IZR_Zpower, <- minus_IZR by lia.
  apply IZR_lt. apply Z.ltb_lt. vm_compute. reflexivity.
Qed.
Lemma min_double m e : well_formed (S754_finite false m e) -> (2 * underflow_bound <= dval (S754_finite false m e))%R.
Proof.
  intros W. destruct (finite_bounds _ _ _ W) as [B1 _]. simpl dval. rewrite Rmult_1_l. unfold underflow_bound.
  change 2%R with (IZR radix2). rewrite <- !bpow_powerRZ. apply Rle_trans with (bpow radix2 (-1074)).
  - change (-1074) with (1 + -1075). rewrite bpow_plus. apply Rle_refl.
  - apply Rle_trans with (bpow radix2 e); [apply bpow_le; lia|]. pose proof (bpow_gt_0 radix2 e).
    assert (1 <= IZR (Z.pos m))%R by (apply IZR_le; lia). nra.
Qed.
Lemma rounded_error v : (0 < v)%R -> (Rabs (rnd v - v) <= v / 4503599627370496 + powerRZ 2 (-1075))%R.
Proof.
  intros P. destruct (error_N_FLT radix2 (-1074) 53 eq_refl (fun z => negb (Z.even z)) v) as (eps & eta & H1 & H2 & _ & E).
  change (round radix2 (FLT_exp (-1074) 53) (Znearest (fun z => negb (Z.even z))) v) with (rnd v) in E. rewrite E.
  replace (v * (1 + eps) + eta - v)%R with (v * eps + eta)%R by ring.
  assert (B : (/ 2 * bpow radix2 (-1074) = powerRZ 2 (-1075))%R).
  { change 2%R with (IZR radix2) at 2. rewrite <- bpow_powerRZ. change (-1074) with (1 + -1075). rewrite bpow_plus. change (bpow radix2 1) with 2%R. lra. }
  rewrite B in H2. change (bpow radix2 (- (53) + 1)) with (/ 4503599627370496)%R in H1.
  eapply Rle_trans; [apply Rabs_triang|]. rewrite Rabs_mult, (Rabs_pos_eq v) by lra. nra.
Qed.
Lemma show_reads s m e : well_formed (S754_finite s m e) ->
  exists p k d, show_num (S754_finite s m e) = sign_text s ++ p /\ decimal p k d /\ representable k (strtod_val k d) /\
    is_finite (strtod_val k d) = true /\
    (Rabs (dval (strtod_val k d) - dval (S754_finite false m e)) <= dval (S754_finite false m e) / 100000 + powerRZ 2 (-1074))%R.
Proof.
  intros W. destruct (show_finite s m e W) as (p & k & d & S & D & K & N & C). exists p, k, d.
  split; [exact S|]. split; [exact D|].
  pose proof (max_double m e s W) as Mx. pose proof (min_double m e W) as Mn. pose proof (six_below _ _ _ K N Mx) as U.
  assert (P : (0 < underflow_bound)%R) by (apply powerRZ_lt; lra).
  set (x := dval (S754_finite false m e)) in *. apply Rabs_le_inv in C.
  assert (R : representable k (strtod_val k d)).
  { apply representable_range; [lia|]. right. pose proof overflow_num. lra. }
  split; [exact R|]. destruct k as [|k|k]; try lia. destruct (strtod_correct k d) as [_ V]. destruct (Rlt_bool _ _).
  - destruct V as [V F]. split; [rewrite finite_SF; exact F|]. rewrite dval_SF2R, V.
    pose proof (rounded_error (decval (Zpos k) d) ltac:(lra)) as E. apply Rabs_le_inv in E.
    assert (Q : (2 * powerRZ 2 (-1075) = powerRZ 2 (-1074))%R).
    { change (-1074) with (1 + -1075). rewrite powerRZ_add by lra. simpl (powerRZ 2 1). ring. }
    apply Rabs_le. lra.
  - destruct R as [R _]. exfalso. exact (R _ V).
Qed.
