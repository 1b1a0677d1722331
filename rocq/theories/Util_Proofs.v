(** Numeric tables. *)
From Coq Require Import Reals List String Ascii Bool ZArith NArith Arith Lia Lra.
From Flocq Require Import Core.
From Verif Require Import SMap SMap_Proofs Dbl Config_Spec Lexer_Model Lexer_Spec Lexer_Proofs
  Number_Spec Number_Proofs Machine_Model Util_Model Util_Spec.
Import ListNotations.
Open Scope char_scope.
Open Scope nat_scope.
Open Scope list_scope.

(** ** Doubles *)
Lemma dopp_wf x : well_formed x -> well_formed (dopp x).
Proof. destruct x; simpl; auto. Qed.
Lemma dopp_fin x : is_finite (dopp x) = is_finite x.
Proof. destruct x; reflexivity. Qed.
Lemma dopp_val x : dval (dopp x) = (- dval x)%R.
Proof. destruct x as [[]|[]| |[] m e]; simpl; ring. Qed.
Lemma dopp_opp x : dopp (dopp x) = x.
Proof. destruct x as [[]|[]| |[] m e]; reflexivity. Qed.
Lemma dopp_nearest v x : nearest v x -> nearest (- v) (dopp x).
Proof.
  intros (W & F & N & U).
  assert (D : forall y, Rabs (- v - dval y) = Rabs (v - dval (dopp y))).
  { intros y. rewrite dopp_val, <- Rabs_Ropp. f_equal. ring. }
  split; [apply dopp_wf, W|]. split; [rewrite dopp_fin; exact F|]. split.
  - intros y Wy Fy. rewrite !D, dopp_opp. apply N; [apply dopp_wf, Wy|rewrite dopp_fin; exact Fy].
  - intros y Wy Fy. rewrite !D, dopp_opp. intros E.
    destruct (U (dopp y)) as [H|H]; [apply dopp_wf, Wy|rewrite dopp_fin; exact Fy|exact E|left|right].
    + rewrite dopp_val in H. rewrite dopp_val, <- H. ring.
    + destruct x; exact H.
Qed.
Lemma strtod_near m e : (0 <= m)%Z -> is_inf (strtod_val m e) = false -> nearest (decval m e) (strtod_val m e).
Proof.
  intros Hm I. destruct m as [|p|p]; [|..|lia].
  - unfold decval. rewrite Rmult_0_l. exact zero_nearest.
  - pose proof (strtod_correct p e) as C. cbv zeta in C. destruct C as [C1 C2].
    destruct (Rlt_bool _ _); [apply rounded_nearest; tauto|]. rewrite C2 in I. discriminate.
Qed.
Lemma strtod_fits m e : (0 <= m)%Z -> (decval m e < overflow_bound)%R -> is_inf (strtod_val m e) = false.
Proof.
  intros Hm B. destruct m as [|p|p]; [reflexivity|..|lia].
  pose proof (strtod_correct p e) as C. cbv zeta in C. destruct C as [C1 C2].
  pose proof (decval_pos p e) as V.
  assert (RP : (0 <= rnd (decval (Zpos p) e))%R).
  { rewrite <- (round_0 radix2 fexp ZnearestE). apply rnd_le; lra. }
  rewrite Rabs_pos_eq in C2 by auto. apply (overflow_iff _ V) in B.
  destruct (Rlt_bool_spec (rnd (decval (Zpos p) e)) (bpow radix2 demax)) as [L|L]; [|lra].
  destruct (strtod_val (Zpos p) e); try reflexivity. destruct C2 as [_ C2]. discriminate.
Qed.

Lemma strtod_inf m e : (0 <= m)%Z -> is_inf (strtod_val m e) = false -> (decval m e < overflow_bound)%R.
Proof.
  intros Hm I. destruct m as [|p|p]; [|..|lia].
  - unfold decval. rewrite Rmult_0_l. rewrite ob. apply Rmult_lt_0_compat; [lra|apply bpow_gt_0].
  - pose proof (strtod_correct p e) as C. cbv zeta in C. destruct C as [C1 C2].
    pose proof (decval_pos p e) as V. apply (overflow_iff _ V).
    assert (RP : (0 <= rnd (decval (Zpos p) e))%R).
    { rewrite <- (round_0 radix2 fexp ZnearestE). apply rnd_le; lra. }
    rewrite Rabs_pos_eq in C2 by auto.
    destruct (Rlt_bool_spec (rnd (decval (Zpos p) e)) (bpow radix2 demax)) as [L|L]; [exact L|]. rewrite C2 in I. discriminate.
Qed.

(** ** One number *)
Definition junk (c : ascii) : Prop := c_digit c = true \/ In c ["+"; "-"; "."; "e"; "E"].
Lemma digits_junk d : forallb is_digit d = true -> Forall junk d.
Proof.
  intros H. apply Forall_forall. intros c Hc. left. rewrite digit_digit. rewrite forallb_forall in H. auto.
Qed.
Lemma frac_junk f fd : fraction f fd -> Forall junk f.
Proof.
  intros F. destruct F; constructor; [right; simpl; auto|]. apply digits_junk.
  rewrite <- (forallb_ext _ _ _ digit_digit). assumption.
Qed.
Lemma exp_in c : is_exp c = true -> In c ["e"; "E"].
Proof. all_chars c; simpl; try discriminate; auto. Qed.
Lemma sign_in c : is_sign c = true -> c = "+" \/ c = "-".
Proof. all_chars c; simpl; try discriminate; auto. Qed.
Lemma exponent_junk x xe : exponent x xe -> Forall junk x.
Proof.
  intros H. destruct H as [|c d _ H Hin|c d _ H Hin|c d _ H Hin]; [constructor|..];
    rewrite (forallb_ext _ _ _ digit_digit) in H; apply digits_junk in H;
    (constructor; [right; simpl; destruct Hin as [<-|[<-|[]]]; tauto|]); auto;
    (constructor; [right; simpl; tauto|]); auto.
Qed.
Lemma signed_junk s n : signed s n -> Forall junk s.
Proof. intros H. destruct H; repeat constructor; right; simpl; tauto. Qed.

Lemma take_sign_spec l s r : take_sign l = (s, r) -> exists t, l = t ++ r /\ signed t s.
Proof.
  unfold take_sign. intros H. destruct l as [|c l]; [injection H as <- <-; exists []; split; constructor|].
  destruct (is_sign c) eqn:E.
  - injection H as <- <-. exists [c]. split; [reflexivity|]. destruct (sign_in c E) as [-> | ->]; constructor.
  - injection H as <- <-. exists []. split; constructor.
Qed.
Lemma take_sign_exact t s r : signed t s -> (forall c r', r = c :: r' -> is_sign c = false) -> take_sign (t ++ r) = (s, r).
Proof.
  intros H N. destruct H; try reflexivity. unfold take_sign. cbn [app]. destruct r as [|c r]; [reflexivity|].
  rewrite (N c r eq_refl). reflexivity.
Qed.

Lemma take_exp_spec l o r : take_exp l = (o, r) -> exists t, l = t ++ r /\ Forall junk t /\
  match o with Some e => exponent t e | None => True end.
Proof.
  unfold take_exp. intros H. destruct l as [|c l].
  { injection H as <- <-. exists []. repeat split; constructor. }
  destruct (is_exp c) eqn:E; [|injection H as <- <-; exists []; repeat split; constructor].
  destruct (take_sign l) as [s l2] eqn:S. destruct (take_sign_spec _ _ _ S) as (t & -> & Hs).
  destruct (span is_digit l2) as [d l3] eqn:D. destruct (span_spec _ _ _ _ D) as (-> & Hd & _).
  injection H as <- <-. exists (c :: t ++ d). split; [cbn; rewrite <- app_assoc; reflexivity|].
  split.
  - constructor; [right; simpl; destruct (exp_in c E) as [<-|[<-|[]]]; tauto|]. apply Forall_app. split.
    + apply (signed_junk _ _ Hs).
    + apply digits_junk, Hd.
  - destruct d as [|d0 d]; [exact I|]. rewrite digits_val_dec.
    assert (Hd' : forallb c_digit (d0 :: d) = true) by (rewrite (forallb_ext _ _ _ digit_digit); exact Hd).
    destruct Hs; [apply (ex_plain c (d0 :: d))|apply (ex_plus c (d0 :: d))|apply (ex_minus c (d0 :: d))];
      try discriminate; auto using exp_in.
Qed.

Lemma nonneg_digits d : forallb is_digit d = true -> (0 <= digits_val d)%Z.
Proof. intros H. rewrite digits_val_dec. apply dec_nonneg; [lia|]. rewrite (forallb_ext _ _ _ digit_digit). exact H. Qed.

Lemma extract_shape l o r : extract l = (o, r) -> exists p, l = p ++ r /\
  match o with Some x => reads_as p x /\ fits p | None => Forall junk p end.
Proof.
  unfold extract. intros H.
  destruct (take_sign l) as [s l1] eqn:S. destruct (take_sign_spec _ _ _ S) as (t & -> & Hs). clear S.
  destruct (span is_digit l1) as [d1 l2] eqn:D. destruct (span_spec _ _ _ _ D) as (-> & Hd & _). clear D.
  destruct (scan_frac l2) as [[d2 f] l3] eqn:F. destruct (scan_frac_spec _ _ _ _ F) as (-> & Hf & _). clear F.
  apply frac_fraction in Hf.
  assert (Hd2 : forallb is_digit d2 = true).
  { destruct Hf; [reflexivity|]. rewrite <- (forallb_ext _ _ _ digit_digit). assumption. }
  destruct (d1 ++ d2) as [|dc dd] eqn:E.
  - injection H as <- <-. exists (t ++ d1 ++ f). split; [rewrite !app_assoc; reflexivity|].
    rewrite !Forall_app. split; [apply (signed_junk _ _ Hs)|]. split; [apply digits_junk, Hd|apply (frac_junk _ _ Hf)].
  - destruct (take_exp l3) as [oe l4] eqn:X. destruct (take_exp_spec _ _ _ X) as (x & -> & Jx & Hx). clear X.
    injection H as H1 <-. exists (t ++ d1 ++ f ++ x). split; [rewrite !app_assoc; reflexivity|].
    assert (J : Forall junk (t ++ d1 ++ f ++ x)).
    { rewrite !Forall_app. split; [apply (signed_junk _ _ Hs)|]. split; [apply digits_junk, Hd|].
      split; [apply (frac_junk _ _ Hf)|exact Jx]. }
    destruct oe as [e|]; [|subst o; exact J].
    destruct (is_inf _) eqn:I in H1; [subst o; exact J|]. subst o.
    rewrite <- E in I |- *.
    assert (Nn : (0 <= digits_val (d1 ++ d2))%Z) by (apply nonneg_digits; rewrite forallb_app, Hd, Hd2; reflexivity).
    split; exists s, (dec 0 (d1 ++ d2)), (e - Z.of_nat (List.length d2))%Z; (split;
      [constructor; auto; try (rewrite (forallb_ext _ _ _ digit_digit); exact Hd); try (rewrite E; discriminate)|]).
    2:{ rewrite <- digits_val_dec. apply strtod_inf; assumption. }
    + rewrite <- digits_val_dec. unfold numval.
      assert (Nr : nearest (decval (digits_val (d1 ++ d2)) (e - Z.of_nat (List.length d2)))
                           (strtod_val (digits_val (d1 ++ d2)) (e - Z.of_nat (List.length d2)))).
      { apply strtod_near; assumption. }
      destruct s; [|rewrite Rmult_1_l; exact Nr].
      replace (-1 * decval _ _)%R with (- decval (digits_val (d1 ++ d2)) (e - Z.of_nat (List.length d2)))%R by ring.
      apply dopp_nearest, Nr.
Qed.

Definition stops (r : list ascii) : Prop := r = [] \/ exists c r', r = c :: r' /\ white c.
Lemma white_other c : white c -> is_digit c = false /\ is_sign c = false /\ is_exp c = false /\ Ascii.eqb c "." = false.
Proof. intros H. repeat (destruct H as [<-|H]; [repeat split|]). destruct H. Qed.

Lemma exponent_take x xe r : exponent x xe -> stops r -> take_exp (x ++ r) = (Some xe, r).
Proof.
  intros H St.
  assert (Sd : forall d, forallb is_digit d = true -> span is_digit (d ++ r) = (d, r)).
  { intros d Hd. apply span_exact; auto. destruct St as [->|(c & r' & -> & W)]; [auto|right].
    exists c, r'. split; [reflexivity|apply white_other, W]. }
  assert (G : forall c t s d, is_exp c = true -> signed t s -> d <> [] -> forallb is_digit d = true ->
    take_exp ((c :: t ++ d) ++ r) = (Some (if s then - digits_val d else digits_val d)%Z, r)).
  { intros c t s d Hc Hs N Hd. unfold take_exp. cbn [app]. rewrite Hc, <- app_assoc.
    rewrite (take_sign_exact t s); [rewrite (Sd d Hd); destruct d; [congruence|reflexivity]|exact Hs|].
    intros c' r' Hc'. destruct d as [|d0 d]; [congruence|]. injection Hc' as -> _.
    destruct (is_sign c') eqn:E; [|reflexivity]. apply sign_not_digit in E. simpl in Hd. rewrite E in Hd. discriminate. }
  destruct H as [|c d Hd H Hin|c d Hd H Hin|c d Hd H Hin].
  - destruct St as [->|(c & r' & -> & W)]; [reflexivity|]. unfold take_exp. cbn [app].
    destruct (white_other c W) as (_ & _ & -> & _). reflexivity.
  - rewrite (forallb_ext _ _ _ digit_digit) in H. rewrite <- digits_val_dec.
    apply (G c [] false d); auto; [destruct Hin as [<-|[<-|[]]]; reflexivity|constructor].
  - rewrite (forallb_ext _ _ _ digit_digit) in H. rewrite <- digits_val_dec.
    apply (G c ["+"] false d); auto; [destruct Hin as [<-|[<-|[]]]; reflexivity|constructor].
  - rewrite (forallb_ext _ _ _ digit_digit) in H. rewrite <- digits_val_dec.
    apply (G c ["-"] true d); auto; [destruct Hin as [<-|[<-|[]]]; reflexivity|constructor].
Qed.

Lemma exp_stop x xe r : exponent x xe -> stops r ->
  x ++ r = [] \/ exists c r', x ++ r = c :: r' /\ is_digit c = false /\ Ascii.eqb c "." = false.
Proof.
  intros H St. destruct H as [|c d _ _ Hin|c d _ _ Hin|c d _ _ Hin].
  1: destruct St as [->|(c & r' & -> & W)]; [auto|right; exists c, r'; split; [reflexivity|]; split; apply white_other, W].
  all: right; exists c; eexists; split; [reflexivity|]; destruct Hin as [<-|[<-|[]]]; split; reflexivity.
Qed.

Lemma extract_fits p r : fits p -> stops r -> exists x, extract (p ++ r) = (Some x, r) /\ reads_as p x.
Proof.
  intros (neg & m & e & Np & B) St.
  assert (Q : exists x, extract (p ++ r) = (Some x, r)).
  { destruct Np as [s neg d f fd x xe Hs Hd Hf Hn Hx]. rewrite (forallb_ext _ _ _ digit_digit) in Hd.
    unfold extract. rewrite <- !app_assoc.
    rewrite (take_sign_exact s neg); [|exact Hs|].
    2:{ intros c r' E. destruct d as [|d0 d].
        - destruct Hf; [exfalso; apply Hn; reflexivity|]. injection E as <- _. reflexivity.
        - injection E as -> _. destruct (is_sign c) eqn:E; [|reflexivity].
          apply sign_not_digit in E. simpl in Hd. rewrite E in Hd. discriminate. }
    pose proof (exp_stop x xe r Hx St) as Sx.
    assert (Fr : span is_digit (d ++ f ++ x ++ r) = (d, f ++ x ++ r)).
    { apply span_exact; auto. destruct Hf as [|fd Hfd].
      - cbn [app]. destruct Sx as [->|(c & r' & -> & Hc & _)]; eauto.
      - right. exists ".", (fd ++ x ++ r). split; reflexivity. }
    rewrite Fr.
    assert (Fs : scan_frac (f ++ x ++ r) = (fd, f, x ++ r)).
    { destruct Hf as [|fd Hfd].
      - cbn [app]. unfold scan_frac. destruct Sx as [->|(c & r' & -> & _ & ->)]; reflexivity.
      - rewrite (forallb_ext _ _ _ digit_digit) in Hfd. cbn [app scan_frac]. cbn.
        rewrite (span_exact is_digit fd (x ++ r) Hfd); [reflexivity|].
        destruct Sx as [->|(c & r' & -> & Hc & _)]; eauto. }
    rewrite Fs. destruct (d ++ fd) as [|dc dd] eqn:E; [congruence|]. rewrite <- E.
    rewrite (exponent_take x xe r Hx St).
    assert (Hdd : forallb is_digit (d ++ fd) = true).
    { rewrite forallb_app, Hd. destruct Hf; [reflexivity|]. rewrite <- (forallb_ext _ _ _ digit_digit). assumption. }
    rewrite strtod_fits; [eexists; reflexivity|apply nonneg_digits, Hdd|].
    rewrite digits_val_dec. rewrite <- E in B. exact B. }
  destruct Q as [x Q]. exists x. split; [exact Q|]. destruct (extract_shape _ _ _ Q) as (p' & E & R & _).
  apply app_inv_tail in E. subst p'. exact R.
Qed.

(** A numeral that fits is one that is read. *)
Lemma fits_read p : fits p <-> exists x, extract p = (Some x, []).
Proof.
  split.
  - intros F. destruct (extract_fits p [] F (or_introl eq_refl)) as (x & X & _). rewrite app_nil_r in X. eauto.
  - intros [x X]. destruct (extract_shape _ _ _ X) as (q & E & _ & F). rewrite app_nil_r in E. subst q. exact F.
Qed.

(** The number read is the longest there is. *)
Lemma span_max p d r : forallb p d = true -> forall a b, span p (d ++ r) = (a, b) -> (List.length b <= List.length r)%nat.
Proof.
  induction d as [|c d IH]; intros H a b E.
  - destruct (span_spec _ _ _ _ E) as (E' & _ & _). cbn [app] in E'. rewrite E', app_length. lia.
  - cbn in H. apply andb_prop in H as [Hc H]. cbn [app span] in E. rewrite Hc in E.
    destruct (span p (d ++ r)) as [a' b'] eqn:S. injection E as <- <-. eauto.
Qed.
Lemma digit_no_sign c : is_digit c = true -> is_sign c = false.
Proof. intros H. destruct (is_sign c) eqn:E; [|reflexivity]. apply sign_not_digit in E. congruence. Qed.
Lemma take_exp_max x xe r : exponent x xe -> forall o b, take_exp (x ++ r) = (o, b) -> (List.length b <= List.length r)%nat.
Proof.
  intros H o b E.
  assert (G : forall c t s d, is_exp c = true -> signed t s -> d <> [] -> forallb is_digit d = true ->
    take_exp ((c :: t ++ d) ++ r) = (o, b) -> (List.length b <= List.length r)%nat).
  { intros c t s d Hc Hs N Hd. unfold take_exp. cbn [app]. rewrite Hc, <- app_assoc.
    rewrite (take_sign_exact t s); [|exact Hs|].
    - destruct (span is_digit (d ++ r)) as [d' r'] eqn:S. intros Q. injection Q as _ <-. exact (span_max _ _ _ Hd _ _ S).
    - intros c' r' Hc'. destruct d as [|d0 d]; [congruence|]. injection Hc' as -> _.
      apply digit_no_sign. simpl in Hd. apply andb_prop in Hd. tauto. }
  destruct H as [|c d Hd H Hin|c d Hd H Hin|c d Hd H Hin].
  - destruct (take_exp_spec _ _ _ E) as (t & Et & _). cbn [app] in Et. rewrite Et, app_length. lia.
  - rewrite (forallb_ext _ _ _ digit_digit) in H.
    apply (G c [] false d); auto; [destruct Hin as [<-|[<-|[]]]; reflexivity|constructor].
  - rewrite (forallb_ext _ _ _ digit_digit) in H.
    apply (G c ["+"] false d); auto; [destruct Hin as [<-|[<-|[]]]; reflexivity|constructor].
  - rewrite (forallb_ext _ _ _ digit_digit) in H.
    apply (G c ["-"] true d); auto; [destruct Hin as [<-|[<-|[]]]; reflexivity|constructor].
Qed.
Lemma take_exp_le l o b : take_exp l = (o, b) -> (List.length b <= List.length l)%nat.
Proof. intros E. destruct (take_exp_spec _ _ _ E) as (t & -> & _). rewrite app_length. lia. Qed.
Lemma scan_frac_le l a f b : scan_frac l = (a, f, b) -> (List.length b <= List.length l)%nat.
Proof. intros E. destruct (scan_frac_spec _ _ _ _ E) as (-> & _). rewrite app_length. lia. Qed.
Lemma extract_max q neg m e r x b : numeral q neg m e -> extract (q ++ r) = (Some x, b) -> (List.length b <= List.length r)%nat.
Proof.
  intros Nu X. destruct Nu as [s neg d f fd y xe Hs Hd Hf Hn Hx]. rewrite (forallb_ext _ _ _ digit_digit) in Hd.
  unfold extract in X. rewrite <- !app_assoc in X.
  rewrite (take_sign_exact s neg) in X; [|exact Hs|].
  2:{ intros c r' E. destruct d as [|d0 d].
      - destruct Hf; [exfalso; apply Hn; reflexivity|]. injection E as <- _. reflexivity.
      - injection E as -> _. apply digit_no_sign. simpl in Hd. apply andb_prop in Hd. tauto. }
  assert (Ty : y = [] \/ exists c y', y = c :: y' /\ is_digit c = false /\ Ascii.eqb c "." = false).
  { destruct (exp_stop y xe [] Hx (or_introl eq_refl)) as [E|(c & r' & E & H)]; rewrite app_nil_r in E; [auto|right; eauto]. }
  destruct (span is_digit (d ++ f ++ y ++ r)) as [d1 l2] eqn:D.
  destruct Hf as [|fd Hfd].
  - cbn [app] in *. destruct Ty as [->|(c & y' & -> & Hc & Hc')].
    + pose proof (span_max _ _ _ Hd _ _ D) as L. cbn [app] in L.
      destruct (scan_frac l2) as [[d2 f2] l3] eqn:F. apply scan_frac_le in F.
      destruct (d1 ++ d2); [discriminate|]. destruct (take_exp l3) as [oe l4] eqn:T. apply take_exp_le in T.
      injection X as _ <-. cbn [app]. lia.
    + rewrite (span_exact is_digit d _ Hd) in D by (right; exists c, (y' ++ r); auto). injection D as <- <-.
      unfold scan_frac in X. cbn [app] in X. rewrite Hc' in X.
      destruct (d ++ []); [discriminate|]. destruct (take_exp (c :: y' ++ r)) as [oe l4] eqn:T.
      apply (take_exp_max (c :: y') xe r Hx) in T. injection X as _ <-. exact T.
  - rewrite (forallb_ext _ _ _ digit_digit) in Hfd.
    rewrite (span_exact is_digit d _ Hd) in D by (right; exists ".", (fd ++ y ++ r); auto). injection D as <- <-.
    unfold scan_frac in X. cbn [app] in X. cbn in X. destruct (span is_digit (fd ++ y ++ r)) as [fd2 l3] eqn:F.
    destruct (d ++ fd2); [discriminate|].
    destruct (take_exp l3) as [oe l4] eqn:T. injection X as _ <-.
    destruct Ty as [->|(c & y' & -> & Hc & Hc')].
    + apply (span_max _ _ _ Hfd) in F. apply take_exp_le in T. cbn [app] in F. lia.
    + rewrite (span_exact is_digit fd _ Hfd) in F by (right; exists c, (y' ++ r); auto). injection F as <- <-.
      apply (take_exp_max (c :: y') xe r Hx) in T. exact T.
Qed.

(** ** One line *)
Lemma space_white c : is_nl c = false -> is_space c = true <-> white c.
Proof.
  intros N. split.
  - revert N. unfold white. all_chars c; simpl; try discriminate; tauto.
  - intros H. repeat (destruct H as [<-|H]; [reflexivity|]). destruct H.
Qed.
Lemma white_space c : white c -> is_space c = true.
Proof. intros H. repeat (destruct H as [<-|H]; [reflexivity|]). destruct H. Qed.
Lemma drop_split p l : exists a, l = a ++ drop p l /\ forallb p a = true /\
  (drop p l = [] \/ exists c r, drop p l = c :: r /\ p c = false).
Proof.
  induction l as [|c l (a & E & H & T)]; [exists []; auto|]. cbn [drop]. destruct (p c) eqn:P.
  - exists (c :: a). cbn. rewrite P, H, <- E. auto.
  - exists []. repeat split; auto. right. exists c, l. auto.
Qed.
Lemma drop_app p a l : forallb p a = true -> drop p (a ++ l) = drop p l.
Proof. induction a as [|c a IH]; intros H; [reflexivity|]. cbn in *. apply andb_prop in H as [-> H]. auto. Qed.

Lemma numeral_some w neg m e : numeral w neg m e -> w <> [].
Proof.
  intros H. destruct H as [s neg d f fd x xe Hs Hd Hf Hn Hx]. intros E.
  apply app_eq_nil in E as [_ E]. apply app_eq_nil in E as [E1 E]. apply app_eq_nil in E as [E2 _].
  destruct Hf; [|discriminate]. rewrite E1 in Hn. apply Hn. reflexivity.
Qed.
Lemma extract_consumes l x r : extract l = (Some x, r) -> (List.length r < List.length l)%nat.
Proof.
  intros H. destruct (extract_shape _ _ _ H) as (p & E & (n & m & e & N & _) & _). rewrite E, app_length.
  apply numeral_some in N. destruct p as [|]; [congruence|simpl; lia].
Qed.

(** The loop always ends. *)
Lemma read_row_total f : forall l, (List.length l <= f)%nat -> exists r, read_row f l = Some r.
Proof.
  induction f as [|f IH]; intros l L.
  - destruct l; [|simpl in L; lia]. exists (Ok []). reflexivity.
  - cbn [read_row]. destruct (drop_split is_space l) as (a & E & _ & _).
    assert (Ld : (List.length (drop is_space l) <= List.length l)%nat) by (rewrite E at 2; rewrite app_length; lia).
    destruct (drop is_space l) as [|c r0] eqn:D; [eauto|].
    destruct (extract (c :: r0)) as [[x|] r] eqn:X; [|destruct r; eauto].
    destruct r as [|c' r]; [eauto|]. apply (extract_consumes _ _ _) in X.
    destruct (IH (c' :: r)) as [o Ho]; [lia|]. rewrite Ho. destruct o; eauto.
Qed.

Lemma all_white a : ~ In nl a -> forallb is_space a = true -> Forall white a.
Proof.
  intros N H. apply Forall_forall. intros c Hc. rewrite forallb_forall in H. apply space_white; auto.
  destruct (is_nl c) eqn:E; [|reflexivity]. apply Ascii.eqb_eq in E. subst. contradiction.
Qed.
Lemma whites a : Forall white a -> forallb is_space a = true.
Proof. intros H. apply forallb_forall. intros c Hc. rewrite Forall_forall in H. apply white_space; auto. Qed.

Lemma read_row_sound f : forall l xs, ~ In nl l -> read_row f l = Some (Ok xs) -> numbers l xs.
Proof.
  induction f as [|f IH]; intros l xs N H.
  - cbn [read_row] in H. destruct (drop_split is_space l) as (a & E & Ha & _).
    destruct (drop is_space l); [|discriminate]. injection H as <-. rewrite app_nil_r in E. subst a.
    apply ns_end, all_white; auto.
  - cbn [read_row] in H. destruct (drop_split is_space l) as (a & E & Ha & _).
    destruct (drop is_space l) as [|c r0] eqn:D.
    { injection H as <-. rewrite app_nil_r in E. subst a. apply ns_end, all_white; auto. }
    assert (Wa : Forall white a) by (apply all_white; [rewrite E, in_app_iff in N; tauto|exact Ha]).
    destruct (extract (c :: r0)) as [[x|] r] eqn:X; destruct (extract_shape _ _ _ X) as (p & Ep & Hp).
    + destruct Hp as [Hp _]. assert (Mx : forall q neg m e r', numeral q neg m e -> p ++ r = q ++ r' -> (List.length q <= List.length p)%nat).
      { intros q neg m e r' Nq Eq. rewrite Ep, Eq in X. pose proof (extract_max _ _ _ _ _ _ _ Nq X) as L.
        apply (f_equal (@List.length ascii)) in Eq. rewrite !app_length in Eq. lia. }
      rewrite E, Ep. destruct r as [|c' r].
      * injection H as <-. apply ns_num; auto. apply ns_end. constructor.
      * destruct (read_row f (c' :: r)) as [[ys|]|] eqn:R; try discriminate. injection H as <-.
        apply ns_num; auto. apply IH; auto. intros Hn. apply N. rewrite E, Ep, !in_app_iff. auto.
    + destruct r; [|discriminate]. injection H as <-. rewrite E, Ep, app_nil_r. apply ns_rest; auto.
      intros Ft. destruct (extract_fits p [] Ft (or_introl eq_refl)) as (x & Q & _). congruence.
Qed.

Lemma row_read l ws : row l ws -> forall f, (List.length l <= f)%nat -> exists xs,
  read_row f l = Some (Ok xs) /\ Forall2 reads_as ws xs.
Proof.
  induction 1 as [sp W|sp p rest ws W Hp St R IH]; intros f L.
  - exists []. split; [|constructor]. destruct f; cbn [read_row];
      rewrite <- (app_nil_r sp), drop_app by (apply whites; exact W); reflexivity.
  - destruct (extract_fits p rest Hp St) as (x & X & Rx).
    assert (Hc : exists c r0, p ++ rest = c :: r0 /\ is_space c = false).
    { destruct Rx as (n & m & e & Nu & _). destruct Nu as [s neg d ff fd y xe Hs Hd Hf Hn Hx].
      destruct Hs; [|eexists; eexists; split; reflexivity..]. cbn [app].
      destruct d as [|d0 d].
      - destruct Hf; [exfalso; apply Hn; reflexivity|]. eexists; eexists; split; reflexivity.
      - cbn in Hd. apply andb_prop in Hd as [Hd _]. eexists; eexists; split; [reflexivity|].
        revert Hd. clear. all_chars d0; simpl; try discriminate; reflexivity. }
    destruct Hc as (c & r0 & E & Hc).
    destruct f as [|f]; [exfalso; rewrite !app_length, <- app_length, E in L; simpl in L; lia|].
    cbn [read_row]. rewrite drop_app by (apply whites; exact W). rewrite E. cbn [drop]. rewrite Hc, <- E, X.
    destruct rest as [|c' rest].
    + destruct (IH O (le_n _)) as (xs & Hxs & F). destruct ws; [|exfalso; inversion R as [sp0 H0 H1|sp0 p0 rest0 ws0 _ Hp0 _ _ H1]].
      * exists [x]. split; [reflexivity|]. constructor; [exact Rx|constructor].
      * apply app_eq_nil in H1 as [_ H1]. apply app_eq_nil in H1 as [H1 _].
        destruct Hp0 as (n & m & e & Nu & _). apply numeral_some in Nu. congruence.
    + destruct (IH f) as (xs & Hxs & F).
      { rewrite !app_length in L. assert (List.length (p ++ c' :: rest) = S (List.length r0)) by (rewrite E; reflexivity).
        destruct p as [|pc p]; [|simpl in L |- *; lia]. exfalso. apply (extract_consumes _ _ _) in X. simpl in X. lia. }
      exists (x :: xs). rewrite Hxs. split; [reflexivity|constructor; auto].
Qed.
