(** Numeric literals are rounded correctly. *)
From Coq Require Import Reals ZArith List Ascii String Bool Lia Lra.
From Coq Require Import Floats.SpecFloat.
From Flocq Require Import Core IEEE754.BinarySingleNaN.
From Verif Require Import Dbl Lexer_Model Lexer_Spec Lexer_Proofs Number_Spec.
Import ListNotations.
Open Scope R_scope.

Notation fexp := (SpecFloat.fexp dprec demax).
Notation rnd := (round radix2 fexp ZnearestE).

Global Instance dprec_gt_0 : Prec_gt_0 dprec. Proof. reflexivity. Qed.
Global Instance dprec_lt_emax : Prec_lt_emax dprec demax. Proof. reflexivity. Qed.

(** The rounding of the standard library is the one of Flocq. *)
Lemma round_even_same s m l : SpecFloat.round_nearest_even m l = choice_mode mode_NE s m l.
Proof.
  case l; [reflexivity|intro c]. case c; [|reflexivity..].
  now simpl; unfold Round.cond_incr; case Z.even.
Qed.
Lemma round_aux_same s m e l :
  SpecFloat.binary_round_aux dprec demax s m e l = BinarySingleNaN.binary_round_aux dprec demax mode_NE s m e l.
Proof.
  unfold SpecFloat.binary_round_aux, BinarySingleNaN.binary_round_aux.
  set (mrse' := shr_fexp _ _ _ _ _). case mrse' as [mrs' e']; simpl.
  now rewrite (round_even_same s).
Qed.
Lemma round_same s m e :
  SpecFloat.binary_round dprec demax s m e = BinarySingleNaN.binary_round dprec demax mode_NE s m e.
Proof.
  unfold SpecFloat.binary_round, BinarySingleNaN.binary_round, shl_align_fexp.
  set (mze := shl_align _ _ _). case mze as [mz ez]. apply round_aux_same.
Qed.

Lemma dval_SF2R x : dval x = SF2R radix2 x.
Proof.
  destruct x as [s|s| |s m e]; try reflexivity. unfold dval, SF2R, F2R. simpl Fnum. simpl Fexp.
  rewrite bpow_powerRZ. change (IZR radix2) with 2. destruct s; unfold cond_Zopp.
  - rewrite opp_IZR. ring.
  - ring.
Qed.
Lemma finite_SF x : is_finite x = is_finite_SF x.
Proof. destruct x; reflexivity. Qed.

Lemma decval_pos p e : 0 < decval (Zpos p) e.
Proof. apply Rmult_lt_0_compat; [apply IZR_lt; reflexivity|apply powerRZ_lt; lra]. Qed.

(** What the model of strtod computes. *)
Lemma strtod_correct p e :
  let x := strtod_val (Zpos p) e in
  let v := decval (Zpos p) e in
  valid_binary dprec demax x = true /\
  (if Rlt_bool (Rabs (rnd v)) (bpow radix2 demax)
   then SF2R radix2 x = rnd v /\ is_finite_SF x = true
   else x = S754_infinity false).
Proof.
  cbv zeta. unfold strtod_val. destruct (Z.leb_spec 0 e) as [He|He].
  - assert (E : exists q, (Zpos p * 10 ^ e)%Z = Zpos q).
    { assert (0 < Zpos p * 10 ^ e)%Z by (apply Z.mul_pos_pos; [reflexivity|apply Z.pow_pos_nonneg; lia]).
      destruct (Zpos p * 10 ^ e)%Z as [|q|q]; try lia. eauto. }
    destruct E as [q E]. rewrite E. simpl binary_normalize.
    assert (V : F2R (Float radix2 (Zpos q) 0) = decval (Zpos p) e).
    { unfold F2R. simpl Fnum. simpl Fexp. change (bpow radix2 0) with 1. rewrite <- E, mult_IZR. unfold decval.
      rewrite Rmult_1_r. f_equal. destruct e as [|e|e]; try lia; [reflexivity|].
      rewrite <- (positive_nat_Z e) at 1. rewrite <- pow_IZR. reflexivity. }
    pose proof (BinarySingleNaN.binary_round_correct dprec demax _ _ mode_NE false q 0) as C.
    cbv zeta in C. rewrite <- round_same in C. destruct C as [C1 C2]. split; [exact C1|].
    simpl cond_Zopp in C2. rewrite V in C2. change (round_mode mode_NE) with ZnearestE in C2.
    destruct (Rlt_bool _ _); [tauto|exact C2].
  - assert (E : exists q, (10 ^ (- e))%Z = Zpos q).
    { assert (0 < 10 ^ (- e))%Z by (apply Z.pow_pos_nonneg; lia).
      destruct (10 ^ (- e))%Z as [|q|q]; try lia. eauto. }
    destruct E as [q E]. rewrite E.
    pose proof (Bdiv_correct_aux dprec demax _ _ mode_NE false p 0 false q 0) as C.
    cbv zeta in C. simpl cond_Zopp in C. simpl xorb in C.
    destruct (SFdiv_core_binary dprec demax (Zpos p) 0 (Zpos q) 0) as [[mz ez] lz].
    rewrite <- round_aux_same in C.
    assert (V : F2R (Float radix2 (Zpos p) 0) / F2R (Float radix2 (Zpos q) 0) = decval (Zpos p) e).
    { unfold F2R. simpl Fnum. simpl Fexp. change (bpow radix2 0) with 1. rewrite !Rmult_1_r.
      unfold decval, Rdiv. f_equal. rewrite <- E.
      destruct e as [|e|e]; try lia. simpl (- Z.neg e)%Z.
      rewrite <- (positive_nat_Z e), <- pow_IZR. reflexivity. }
    rewrite V in C. change (round_mode mode_NE) with ZnearestE in C. destruct C as [C1 C2]. split; [exact C1|].
    destruct (Rlt_bool _ _); [tauto|exact C2].
Qed.

Lemma fexp_FLT e : fexp e = FLT_exp (3 - demax - dprec) dprec e.
Proof. reflexivity. Qed.

Lemma format_dval y : well_formed y -> is_finite y = true -> generic_format radix2 fexp (dval y).
Proof.
  intros W F. rewrite dval_SF2R.
  pose proof (generic_format_B2R dprec demax (SF2B y W)) as G.
  rewrite B2R_SF2B in G. exact G.
Qed.

Global Instance fexp_NE : Exists_NE radix2 fexp.
Proof. change (Exists_NE radix2 (FLT_exp (3 - demax - dprec) dprec)). apply exists_NE_FLT. right. reflexivity. Qed.

Lemma rounded_nearest x v :
  valid_binary dprec demax x = true -> is_finite_SF x = true -> SF2R radix2 x = rnd v -> nearest v x.
Proof.
  intros W F E. rewrite <- finite_SF in F. rewrite <- dval_SF2R in E.
  destruct (round_NE_pt radix2 fexp v) as [[G N] U].
  rewrite <- E in G, N, U.
  split; [exact W|]. split; [exact F|]. split.
  - intros y Wy Fy. rewrite (Rabs_minus_sym v), (Rabs_minus_sym v (dval y)). apply N. apply format_dval; auto.
  - intros y Wy Fy D. destruct U as [[g (E1 & C & Ev)]|U].
    + right. destruct x as [s|s| |s m e]; simpl; auto.
      assert (C' : canonical radix2 fexp (Float radix2 (cond_Zopp s (Zpos m)) e)).
      { apply canonical_canonical_mantissa. unfold well_formed in W. simpl in W. unfold bounded in W.
        apply andb_prop in W as [W _]. exact W. }
      rewrite dval_SF2R in E1. simpl SF2R in E1.
      pose proof (canonical_unique _ _ _ _ C' C E1) as Eg. rewrite <- Eg in Ev. simpl in Ev.
      destruct s; exact Ev.
    + left. apply U. split; [apply format_dval; auto|]. intros g Hg.
      rewrite (Rabs_minus_sym v), (Rabs_minus_sym v (dval y)) in D. rewrite <- D. apply N. exact Hg.
Qed.

Lemma zero_nearest : nearest 0 (S754_zero false).
Proof.
  split; [reflexivity|]. split; [reflexivity|]. split.
  - intros y _ _. simpl. rewrite Rminus_0_r, Rabs_R0. apply Rabs_pos.
  - intros y _ _ _. right. exact I.
Qed.

Lemma strtod_nearest m e : (0 <= m)%Z -> representable m (strtod_val m e) ->
  nearest (decval m e) (strtod_val m e).
Proof.
  intros Hm [R1 R2]. destruct m as [|p|p]; [|..].
  - unfold decval. rewrite Rmult_0_l. exact zero_nearest.
  - pose proof (strtod_correct p e) as C. cbv zeta in C. destruct C as [C1 C2].
    destruct (Rlt_bool _ _).
    + apply rounded_nearest; tauto.
    + exfalso. exact (R1 _ C2).
  - lia.
Qed.

Lemma dec_nonneg l : forall a, (0 <= a)%Z -> forallb c_digit l = true -> (0 <= dec a l)%Z.
Proof.
  induction l as [|c l IH]; intros a Ha H; simpl in *; auto.
  apply andb_prop in H as [H1 H2]. apply IH; auto.
  unfold c_digit, range in H1. apply andb_prop in H1 as [H1 _]. apply N.leb_le in H1.
  change (N_of_ascii "0"%char) with 48%N in H1. lia.
Qed.
Lemma decimal_nonneg p m e : decimal p m e -> (0 <= m)%Z.
Proof.
  intros H. destruct H as [d f fd x xe _ D F X]. apply dec_nonneg; [lia|].
  rewrite forallb_app, D. destruct F; auto.
Qed.

Lemma value_nearest r p x : value r p (Some (KNum x)) ->
  exists m e, decimal p m e /\ nearest (decval m e) x.
Proof.
  intros H. inversion H; subst. exists m, e. split; auto. apply strtod_nearest; auto.
  eapply decimal_nonneg; eauto.
Qed.

Lemma tokens_nearest s ts : tokenises s ts -> forall x, In (KNum x) ts ->
  exists a p b m e, s = (a ++ p ++ b)%list /\ decimal p m e /\ nearest (decval m e) x.
Proof.
  induction 1 as [|r p rest ts L V T IH|r p rest t ts L V T IH]; intros x Hx; [destruct Hx|..].
  - destruct (IH x Hx) as (a & q & b & m & e & -> & D). exists (p ++ a)%list, q, b, m, e.
    rewrite <- app_assoc. auto.
  - destruct Hx as [->|Hx].
    + apply value_nearest in V as (m & e & D & Nr). exists [], p, rest, m, e. auto.
    + destruct (IH x Hx) as (a & q & b & m & e & -> & D). exists (p ++ a)%list, q, b, m, e.
      rewrite <- app_assoc. auto.
Qed.

Lemma literal_nearest s ts x : lex s = Some (ts, false) -> In (KNum x) ts ->
  exists a p b m e, list_ascii_of_string s = (a ++ p ++ b)%list /\ decimal p m e /\ nearest (decval m e) x.
Proof. intros H. apply lex_tokenises in H. apply tokens_nearest. exact H. Qed.

(** ** Range *)
Lemma decimal_matches p m e : decimal p m e -> matches (rule_re LNumber) p.
Proof.
  intros H. apply num_matches. destruct H as [d f fd x xe D1 D2 F X].
  exists d, f, fd, x. rewrite <- (forallb_ext c_digit is_digit _ digit_digit).
  repeat split; auto. apply frac_fraction; auto. eapply exponent_exp_text; eauto.
Qed.

Lemma literal_lex p m e : decimal p m e ->
  (exists x, lex (string_of_list_ascii p) = Some ([KNum x], false)) <-> representable m (strtod_val m e).
Proof.
  intros D. pose proof (decimal_matches _ _ _ D) as M.
  assert (LL : longest LNumber p []).
  { split; auto. intros r' p' rest' E _. rewrite app_nil_r in E. subst. rewrite app_length. lia. }
  split.
  - intros [x H]. apply lex_tokenises in H. rewrite list_ascii_of_string_of_list_ascii in H.
    inversion H as [E1 E2|r q rest ts L V T E1 E2|r q rest t ts L V T E1 E2].
    + assert (E : (q ++ rest)%list = (p ++ [])%list) by (rewrite app_nil_r; auto).
      destruct (longest_unique _ _ _ _ _ _ E L LL) as (-> & -> & ->). inversion V.
    + assert (E : (q ++ rest)%list = (p ++ [])%list) by (rewrite app_nil_r; auto).
      destruct (longest_unique _ _ _ _ _ _ E L LL) as (-> & -> & ->). inversion V; subst.
      match goal with H5 : decimal _ _ _ |- _ => destruct (decimal_fun _ _ _ _ _ D H5) as [-> ->] end. auto.
  - intros R. exists (strtod_val m e). apply lex_tokenises. rewrite list_ascii_of_string_of_list_ascii.
    rewrite <- (app_nil_r p). eapply tk_tok; [exact LL| |constructor]. constructor; auto.
Qed.

Lemma rnd_le a b : a <= b -> rnd a <= rnd b.
Proof. apply round_le. apply (FLT_exp_valid (3 - demax - dprec) dprec). apply valid_rnd_N. Qed.

Lemma b53 : bpow radix2 53 = 9007199254740992. Proof. reflexivity. Qed.
Lemma b1024 : bpow radix2 1024 = 9007199254740992 * bpow radix2 971.
Proof. rewrite <- b53, <- bpow_plus. reflexivity. Qed.
Lemma b1023 : bpow radix2 1023 = 4503599627370496 * bpow radix2 971.
Proof. change 4503599627370496 with (bpow radix2 52). rewrite <- bpow_plus. reflexivity. Qed.
Lemma b970 : 2 * bpow radix2 970 = bpow radix2 971.
Proof. change 2 with (bpow radix2 1). rewrite <- bpow_plus. reflexivity. Qed.
Lemma ob : overflow_bound = (9007199254740992 - / 2) * bpow radix2 971.
Proof.
  unfold overflow_bound. rewrite <- !(bpow_powerRZ radix2). rewrite b1024, <- b970. lra.
Qed.

Lemma binade v : bpow radix2 1023 <= v < bpow radix2 1024 ->
  rnd v = IZR (ZnearestE (v * bpow radix2 (-971))) * bpow radix2 971.
Proof.
  intros H. unfold round, scaled_mantissa, cexp.
  assert (M : mag radix2 v = 1024%Z :> Z).
  { apply mag_unique_pos. exact H. }
  rewrite M. reflexivity.
Qed.
Lemma scaled v : v * bpow radix2 (-971) * bpow radix2 971 = v.
Proof. rewrite Rmult_assoc, <- bpow_plus. simpl. lra. Qed.

Lemma nearest_below u k : u < IZR k - / 2 -> (ZnearestE u <= k - 1)%Z.
Proof.
  intros H. pose proof (Znearest_half (fun x => negb (Z.even x)) u) as Hh.
  apply Rabs_le_inv in Hh. destruct (Z.le_gt_cases (ZnearestE u) (k - 1)) as [?|G]; auto. exfalso.
  assert (IZR k <= IZR (ZnearestE u)) by (apply IZR_le; lia). lra.
Qed.

Lemma half_floor n : Zfloor (IZR n - / 2) = (n - 1)%Z.
Proof. apply Zfloor_imp. rewrite plus_IZR, minus_IZR. simpl. lra. Qed.
Lemma half_ceil n : Zceil (IZR n - / 2) = n.
Proof. apply Zceil_imp. rewrite minus_IZR. simpl. lra. Qed.
Lemma nearest_half_even n : Z.even n = true -> ZnearestE (IZR n - / 2) = n.
Proof.
  intros H. unfold Znearest. rewrite half_floor, half_ceil, minus_IZR.
  rewrite Rcompare_Eq by lra. replace (Z.even (n - 1)) with false; [reflexivity|].
  rewrite <- Z.odd_pred in H. rewrite <- Z.negb_odd. unfold Z.pred in H.
  replace (n - 1)%Z with (n + -1)%Z by lia. rewrite H. reflexivity.
Qed.

Lemma overflow_iff v : 0 < v -> (rnd v < bpow radix2 demax <-> v < overflow_bound).
Proof.
  intros Hv. change demax with 1024%Z. pose proof (bpow_gt_0 radix2 971) as P.
  assert (F : forall e, (-1074 <= e)%Z -> generic_format radix2 fexp (bpow radix2 e)).
  { intros e He. apply generic_format_bpow. unfold fexp, SpecFloat.emin, dprec, demax. lia. }
  assert (RB : rnd overflow_bound = bpow radix2 1024).
  { rewrite binade by (rewrite ob, b1023, b1024; nra).
    rewrite ob, Rmult_assoc, <- bpow_plus. change (bpow radix2 (971 + -971)) with 1. rewrite Rmult_1_r.
    rewrite nearest_half_even by reflexivity. rewrite b1024. reflexivity. }
  split; intros H.
  - destruct (Rlt_le_dec v overflow_bound) as [?|G]; auto. exfalso.
    apply (Rlt_not_le _ _ H). rewrite <- RB. apply rnd_le. exact G.
  - destruct (Rlt_le_dec v (bpow radix2 1023)) as [L|L].
    + assert (rnd v <= bpow radix2 1023).
      { rewrite <- (round_generic radix2 fexp ZnearestE (bpow radix2 1023)) by (apply F; lia).
        apply rnd_le; lra. }
      eapply Rle_lt_trans; [eassumption|]. apply bpow_lt. lia.
    + rewrite binade by (rewrite ob in H; rewrite b1024; nra).
      assert (U : v * bpow radix2 (-971) < 9007199254740992 - / 2).
      { apply (Rmult_lt_reg_r (bpow radix2 971)); auto. rewrite scaled, <- ob. exact H. }
      apply nearest_below in U. apply IZR_le in U. change (9007199254740992 - 1)%Z with 9007199254740991%Z in U.
      rewrite b1024. apply Rmult_lt_compat_r; [exact P|lra].
Qed.

Lemma underflow_iff v : 0 < v -> (rnd v = 0 <-> v <= underflow_bound).
Proof.
  intros Hv. unfold underflow_bound. rewrite <- (bpow_powerRZ radix2).
  pose proof (bpow_gt_0 radix2 (-1074)) as P.
  assert (E : bpow radix2 (-1074) = 2 * bpow radix2 (-1075)).
  { change 2 with (bpow radix2 1). rewrite <- bpow_plus. reflexivity. }
  assert (S : forall u, 0 < u -> u < bpow radix2 (-1074) ->
     rnd u = IZR (ZnearestE (u * bpow radix2 1074)) * bpow radix2 (-1074)).
  { intros u Hu1 Hu2. unfold round, scaled_mantissa, cexp.
    assert (M : (mag radix2 u <= -1074)%Z).
    { apply mag_le_bpow; [lra|]. rewrite Rabs_pos_eq by lra. exact Hu2. }
    replace (fexp (mag radix2 u)) with (-1074)%Z; [reflexivity|].
    unfold fexp, SpecFloat.emin, dprec, demax. lia. }
  assert (SC : forall u, u * bpow radix2 1074 * bpow radix2 (-1074) = u).
  { intros u. rewrite Rmult_assoc, <- bpow_plus. simpl. lra. }
  split; intros H.
  - destruct (Rle_lt_dec v (bpow radix2 (-1075))) as [?|G]; auto. exfalso.
    destruct (Rlt_le_dec v (bpow radix2 (-1074))) as [L|L].
    + rewrite S in H by auto. assert (Z0 : IZR (ZnearestE (v * bpow radix2 1074)) = 0) by nra.
      pose proof (Znearest_half (fun x => negb (Z.even x)) (v * bpow radix2 1074)) as Hh.
      rewrite Z0 in Hh. apply Rabs_le_inv in Hh. specialize (SC v).
      assert (v * bpow radix2 1074 * bpow radix2 (-1074) <= / 2 * bpow radix2 (-1074)) by nra. lra.
    + assert (bpow radix2 (-1074) <= rnd v); [|lra].
      rewrite <- (round_generic radix2 fexp ZnearestE (bpow radix2 (-1074))).
      * apply rnd_le; exact L.
      * apply generic_format_bpow. unfold fexp, SpecFloat.emin, dprec, demax. lia.
  - rewrite S by lra. set (u := v * bpow radix2 1074). specialize (SC v). fold u in SC.
    assert (U0 : 0 < u) by nra. assert (U1 : u <= / 2) by nra.
    replace (ZnearestE u) with 0%Z; [lra|]. symmetry. destruct (Req_dec u (/ 2)) as [->|N].
    + unfold Znearest. assert (FF : Zfloor (/ 2) = 0%Z) by (apply Zfloor_imp; simpl; lra).
      rewrite FF. simpl. rewrite Rcompare_Eq by lra. reflexivity.
    + apply Znearest_imp. simpl. rewrite Rminus_0_r, Rabs_pos_eq by lra. lra.
Qed.

Lemma representable_range m e : (0 <= m)%Z ->
  representable m (strtod_val m e) <->
  m = 0%Z \/ (underflow_bound < decval m e /\ decval m e < overflow_bound).
Proof.
  intros Hm. destruct m as [|p|p]; [|..|lia].
  - split; [auto|]. intros _. split; [discriminate|auto].
  - pose proof (strtod_correct p e) as C. cbv zeta in C. destruct C as [C1 C2].
    pose proof (decval_pos p e) as V.
    assert (RP : 0 <= rnd (decval (Zpos p) e)).
    { rewrite <- (round_0 radix2 fexp ZnearestE). apply rnd_le; lra. }
    rewrite Rabs_pos_eq in C2 by auto. pose proof (overflow_iff _ V) as O. pose proof (underflow_iff _ V) as U.
    destruct (Rlt_bool_spec (rnd (decval (Zpos p) e)) (bpow radix2 demax)) as [L|L].
    + destruct C2 as [C2 C3]. apply O in L. split.
      * intros [R1 R2]. right. split; auto.
        destruct (Rlt_le_dec underflow_bound (decval (Zpos p) e)) as [?|G]; auto. exfalso.
        apply U in G. rewrite G in C2. destruct (strtod_val (Zpos p) e) as [s|s| |s q k]; try discriminate.
        -- specialize (R2 s eq_refl). discriminate.
        -- simpl in C2. apply eq_0_F2R in C2. destruct s; discriminate.
      * intros [E|[G _]]; [discriminate|]. split.
        -- intros s E. rewrite E in C3. discriminate.
        -- intros s E. rewrite E in C2. simpl in C2. symmetry in C2. apply U in C2. lra.
    + split.
      * intros [R1 _]. exfalso. exact (R1 _ C2).
      * intros [E|[_ G]]; [discriminate|]. apply O in G. lra.
Qed.

Lemma literal_range s m e : decimal (list_ascii_of_string s) m e ->
  (exists x, lex s = Some ([KNum x], false)) <->
  (m = 0%Z \/ (underflow_bound < decval m e /\ decval m e < overflow_bound)).
Proof.
  intros D. rewrite <- (representable_range m e) by (eapply decimal_nonneg; eauto).
  rewrite <- (literal_lex _ _ _ D), string_of_list_ascii_of_string. reflexivity.
Qed.

(** ** Arithmetic on doubles *)
Lemma normalize_same m e z :
  SpecFloat.binary_normalize dprec demax m e z
  = B2SF (BinarySingleNaN.binary_normalize dprec demax _ _ mode_NE m e z).
Proof.
  destruct m as [|p|p]; simpl; [reflexivity|..]; rewrite B2SF_SF2B; apply round_same.
Qed.

Notation b64 := (binary_float dprec demax).
Lemma add_same (a b : b64) : dadd (B2SF a) (B2SF b) = B2SF (Bplus mode_NE a b).
Proof.
  destruct a as [sx|sx| |sx mx ex Bx]; destruct b as [sy|sy| |sy my ey By];
    try reflexivity; try (unfold dadd; simpl; case Bool.eqb; reflexivity).
  apply normalize_same.
Qed.
Lemma sub_same (a b : b64) : dsub (B2SF a) (B2SF b) = B2SF (Bminus mode_NE a b).
Proof.
  destruct a as [sx|sx| |sx mx ex Bx]; destruct b as [sy|sy| |sy my ey By];
    try reflexivity; try (unfold dsub; simpl; case Bool.eqb; reflexivity).
  unfold dsub; simpl. unfold Zminus. rewrite <- cond_Zopp_negb. apply normalize_same.
Qed.
Lemma mul_same (a b : b64) : dmul (B2SF a) (B2SF b) = B2SF (Bmult mode_NE a b).
Proof.
  destruct a as [sx|sx| |sx mx ex Bx]; destruct b as [sy|sy| |sy my ey By]; try reflexivity.
  unfold dmul; simpl. rewrite B2SF_SF2B. apply round_aux_same.
Qed.
Lemma div_same (a b : b64) : ddiv (B2SF a) (B2SF b) = B2SF (Bdiv mode_NE a b).
Proof.
  destruct a as [sx|sx| |sx mx ex Bx]; destruct b as [sy|sy| |sy my ey By]; try reflexivity.
  unfold ddiv; simpl. rewrite B2SF_SF2B.
  set (melz := SFdiv_core_binary _ _ _ _ _ _). case melz as [[mz ez] lz]. apply round_aux_same.
Qed.

Lemma in_range v : Rabs v < overflow_bound -> Rabs (rnd v) < bpow radix2 demax.
Proof.
  intros H. destruct (Rtotal_order v 0) as [N|[->|P]].
  - replace v with (- - v) by lra. rewrite round_NE_opp, Rabs_Ropp.
    rewrite Rabs_left in H by auto. rewrite Rabs_pos_eq.
    + apply overflow_iff; lra.
    + rewrite <- (round_0 radix2 fexp ZnearestE). apply rnd_le; lra.
  - rewrite round_0 by apply valid_rnd_N. rewrite Rabs_R0. apply bpow_gt_0.
  - rewrite Rabs_pos_eq in H by lra. rewrite Rabs_pos_eq.
    + apply overflow_iff; lra.
    + rewrite <- (round_0 radix2 fexp ZnearestE). apply rnd_le; lra.
Qed.

Lemma nearest_B2SF (a : b64) v : B2R a = rnd v -> BinarySingleNaN.is_finite a = true -> nearest v (B2SF a).
Proof.
  intros H F. apply rounded_nearest.
  - apply valid_binary_B2SF.
  - rewrite is_finite_SF_B2SF. exact F.
  - rewrite SF2R_B2SF. exact H.
Qed.

Lemma arith_nearest x y :
  well_formed x -> is_finite x = true -> well_formed y -> is_finite y = true ->
  (Rabs (dval x + dval y) < overflow_bound -> nearest (dval x + dval y) (dadd x y)) /\
  (Rabs (dval x - dval y) < overflow_bound -> nearest (dval x - dval y) (dsub x y)) /\
  (Rabs (dval x * dval y) < overflow_bound -> nearest (dval x * dval y) (dmul x y)) /\
  (dval y <> 0 -> Rabs (dval x / dval y) < overflow_bound -> nearest (dval x / dval y) (ddiv x y)).
Proof.
  intros Wx Fx Wy Fy. rewrite !dval_SF2R. rewrite finite_SF in Fx, Fy.
  assert (Ex : exists a : b64, x = B2SF a) by (exists (SF2B x Wx); symmetry; apply B2SF_SF2B).
  assert (Ey : exists b : b64, y = B2SF b) by (exists (SF2B y Wy); symmetry; apply B2SF_SF2B).
  destruct Ex as [a ->], Ey as [b ->]. rewrite is_finite_SF_B2SF in Fx, Fy. rewrite !SF2R_B2SF.
  rewrite add_same, sub_same, mul_same, div_same.
  split; [|split; [|split]]; intros H.
  - pose proof (Bplus_correct dprec demax _ _ mode_NE a b Fx Fy) as C.
    rewrite Rlt_bool_true in C by (apply in_range; exact H). apply nearest_B2SF; tauto.
  - pose proof (Bminus_correct dprec demax _ _ mode_NE a b Fx Fy) as C.
    rewrite Rlt_bool_true in C by (apply in_range; exact H). apply nearest_B2SF; tauto.
  - pose proof (Bmult_correct dprec demax _ _ mode_NE a b) as C.
    rewrite Rlt_bool_true in C by (apply in_range; exact H). destruct C as (C1 & C2 & _).
    apply nearest_B2SF; auto. rewrite C2, Fx, Fy. reflexivity.
  - intros H2. pose proof (Bdiv_correct dprec demax _ _ mode_NE a b H) as C.
    rewrite Rlt_bool_true in C by (apply in_range; exact H2). destruct C as (C1 & C2 & _).
    apply nearest_B2SF; auto. rewrite C2. exact Fx.
Qed.
