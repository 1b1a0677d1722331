(** Proofs about the RF cavity: polynomials and energies. *)
From Coq Require Import Reals List String Bool NArith ZArith Lia Lra Psatz.
From Verif Require Import SMap Dbl Config_Spec Mat Machine_Model Machine_Proofs Moment_Model Moment_Spec Moment_Proofs
  Cavity_Model Cavity_Spec.
Import ListNotations.
Open Scope R_scope.

(** ** Powers *)
Lemma ipow_loop_pos fuel : forall r b e, (0 <= e < 2 ^ Z.of_nat fuel)%Z ->
  ipow_loop (S fuel) r b e = Some (r * b ^ Z.to_nat e).
Proof.
  induction fuel as [|fuel IH]; intros r b e He.
  - simpl in He. assert (e = 0)%Z as -> by lia. simpl. f_equal. ring.
  - change (ipow_loop (S (S fuel)) r b e) with
      (if Z.eqb e 0 then Some r else ipow_loop (S fuel) (if Z.odd e then r * b else r) (b * b) (Z.shiftr e 1)).
    destruct (Z.eqb_spec e 0) as [->|N]; [simpl; f_equal; ring|].
    rewrite Nat2Z.inj_succ, Z.pow_succ_r in He by lia.
    rewrite Z.shiftr_div_pow2, Z.pow_1_r by lia.
    rewrite IH. 2: { split; [apply Z.div_pos; lia|apply Z.div_lt_upper_bound; lia]. }
    f_equal. assert (E : (e = 2 * (e / 2) + (if Z.odd e then 1 else 0))%Z).
    { rewrite (Z.div_mod e 2) at 1 by lia. rewrite Zmod_odd. reflexivity. }
    assert (P := Z.div_pos e 2 ltac:(lia) ltac:(lia)). set (h := Z.to_nat (e / 2)).
    assert (Eh : Z.to_nat e = (h + h + (if Z.odd e then 1 else 0))%nat).
    { unfold h. destruct (Z.odd e); lia. }
    rewrite Eh, !pow_add. rewrite Rpow_mult_distr. destruct (Z.odd e); simpl; ring.
Qed.
Lemma ipow_power b n : (Z.of_nat n <= INT_MAX)%Z -> ipow b (Z.of_nat n) = Some (b ^ n).
Proof.
  intros H. unfold ipow. rewrite ipow_loop_pos.
  - rewrite Nat2Z.id. f_equal. ring.
  - unfold INT_MAX in H. simpl. lia.
Qed.
Lemma ipow_negative fuel : forall r b e, (e < 0)%Z -> ipow_loop fuel r b e = None.
Proof.
  induction fuel as [|fuel IH]; intros r b e He; simpl; auto.
  destruct (Z.eqb_spec e 0); [lia|]. apply IH. apply Z.shiftr_neg. exact He.
Qed.

(** ** Polynomials *)
Lemma poly_snoc x l a : poly x (l ++ [a]) = poly x l + a * x ^ List.length l.
Proof. induction l as [|b l IH]; simpl; [ring|]. rewrite IH. ring. Qed.
Lemma fit_from_sum x n : forall l i acc, (0 <= i)%Z -> (i + Z.of_nat (List.length l) = n)%Z -> (n <= INT_MAX)%Z ->
  fit_from x n i l acc = Some (acc + poly x (rev l)).
Proof.
  induction l as [|a l IH]; intros i acc Hi Hn HM; simpl; [f_equal; ring|]. simpl List.length in Hn.
  replace (n - i - 1)%Z with (Z.of_nat (List.length l)) by lia. rewrite ipow_power by lia.
  rewrite IH by lia. f_equal. rewrite poly_snoc, rev_length. ring.
Qed.
Lemma fit_poly x l : (Z.of_nat (List.length l) <= INT_MAX)%Z -> cal_fit_pow x l = Some (poly x (rev l)).
Proof. intros H. unfold cal_fit_pow. rewrite fit_from_sum by lia. f_equal. ring. Qed.
Lemma series_from_sum x : forall l k f, series_from x k l f = f + x ^ k * poly x l.
Proof. induction l as [|a l IH]; intros k f; simpl; [ring|]. rewrite IH. simpl. ring. Qed.
Lemma series_poly x l : pwr_series x l = poly x l.
Proof. destruct l as [|a l]; simpl; auto. rewrite series_from_sum. simpl. ring. Qed.

(** ** Energies *)
Definition fed (q Es wl h : R) (F E k : R) (l : list R) : option (R * R * option R) :=
  fold_left (fun x e => boost_step q Es 1 wl h (e, e) x) l (Some (F, E, Some k)).
Lemma step_mean Z Es scl wl h EE x :
  boost_step Z Es scl wl h EE x = boost_step (Z * scl) Es 1 wl h ((fst EE + snd EE) / 2, (fst EE + snd EE) / 2) x.
Proof.
  destruct x as [[[F E] [k|]]|]; auto. unfold boost_step. cbn [fst snd].
  replace (E + Z * scl * 1 * ((fst EE + snd EE) / 2 + (fst EE + snd EE) / 2) / 2 * cos ((F + (F + k * h)) / 2) * h / MtoMM)
    with (E + Z * scl * (fst EE + snd EE) / 2 * cos ((F + (F + k * h)) / 2) * h / MtoMM) by (unfold MtoMM; field).
  reflexivity.
Qed.
Lemma loop_mean Z Es scl wl h fields x :
  boost_loop Z Es scl wl h fields x
  = fold_left (fun x e => boost_step (Z * scl) Es 1 wl h (e, e) x) (mean_fields fields) x.
Proof.
  unfold boost_loop, mean_fields. generalize (combine fields (tl fields)) as l. intros l. revert x.
  induction l as [|[a b] l IH]; intros x; simpl; auto. rewrite IH. f_equal. apply (step_mean _ _ _ _ _ (a, b)).
Qed.
Lemma fed_none q Es wl h l : fold_left (fun x e => boost_step q Es 1 wl h (e, e) x) l None = None.
Proof. induction l; simpl; auto. Qed.
Lemma fed_stuck q Es wl h F E l : l <> [] ->
  fold_left (fun x e => boost_step q Es 1 wl h (e, e) x) l (Some (F, E, None)) = None.
Proof. destruct l as [|e l]; [congruence|]. intros _. simpl. apply fed_none. Qed.

Lemma last_any {A} (l : list A) d d' : l <> [] -> last l d = last l d'.
Proof. induction l as [|a [|b l] IH]; intros H; [congruence|reflexivity|]. apply IH. congruence. Qed.

(** One step, in the terms of the specification. *)
Lemma step_is q Es wl h F E k e : 0 < Es ->
  let E' := E + q * e * cos ((F + (F + k * h)) / 2) * (h / 1000) in
  boost_step q Es 1 wl h (e, e) (Some (F, E, Some k))
  = if Rlt_dec E' Es then Some (F + k * h, Es, None)
    else if Req_EM_T E' Es then Some (F + k * h, Es, None)
    else Some (F + k * h, E', Some (2 * PI / (sqrt (1 - (Es / E') ^ 2) * wl))).
Proof.
  intros P E'. unfold boost_step. cbn [fst snd].
  replace (E + q * 1 * (e + e) / 2 * cos ((F + (F + k * h)) / 2) * h / MtoMM) with E'
    by (unfold E', MtoMM; field).
  destruct (Rlt_dec (E' - Es) 0) as [L|L]; destruct (Rlt_dec E' Es) as [L'|L']; try lra.
  - destruct (Req_EM_T 0 0); [reflexivity|lra].
  - destruct (Req_EM_T E' Es) as [Q|Q].
    + rewrite Q. replace (1 - 1 / sqr (Es / Es)) with 0 by (unfold sqr; field; lra). rewrite sqrt_0.
      destruct (Req_EM_T 0 0); [reflexivity|lra].
    + assert (B : 1 - 1 / sqr (E' / Es) = 1 - (Es / E') ^ 2) by (unfold sqr; field; lra). rewrite B.
      assert (S : 0 < sqrt (1 - (Es / E') ^ 2)).
      { apply sqrt_lt_R0. assert (0 < Es / E') by (apply Rdiv_lt_0_compat; lra).
        assert (Es / E' < 1) by (apply Rmult_lt_reg_r with E'; [lra|]; unfold Rdiv; rewrite Rmult_assoc, Rinv_l; lra). nra. }
      destruct (Req_EM_T _ 0); [lra|]. reflexivity.
Qed.
Definition fed_spec (Es F E : R) (l : list R) (tr : list (R * R)) (o : option (R * R * option R)) : Prop :=
  match o with
  | Some (F', W, _) =>
      (forall a b, In (a, b) (removelast tr) -> Es < b) /\
      (l <> [] -> F' = fst (last tr (F, E)) /\ W = Rmax Es (snd (last tr (F, E))))
  | None => exists a b, In (a, b) (removelast tr) /\ b <= Es
  end.
Lemma fed_facts q Es wl h : 0 < Es -> forall l F E k,
  fed_spec Es F E l (track q Es wl h F E k l) (fed q Es wl h F E k l).
Proof.
  intros P. induction l as [|e l IH]; intros F E k; unfold fed; cbn [fold_left].
  - split; [intros a b []|]. congruence.
  - rewrite step_is by exact P. cbn [track]. set (E' := E + q * e * cos ((F + (F + k * h)) / 2) * (h / 1000)).
    set (k' := 2 * PI / (sqrt (1 - (Es / E') ^ 2) * wl)). set (F' := F + k * h).
    assert (ST : Es >= E' -> fed_spec Es F E (e :: l) ((F', E') :: track q Es wl h F' E' k' l)
       (fold_left (fun x e0 => boost_step q Es 1 wl h (e0, e0) x) l (Some (F', Es, None)))).
    { intros G. destruct l as [|e' l'].
      - simpl. split; [intros a b []|]. intros _. split; auto. rewrite Rmax_left; lra.
      - rewrite fed_stuck by congruence. exists F', E'. split; [|lra]. cbn [track removelast]. left. reflexivity. }
    destruct (Rlt_dec E' Es) as [L|L]; [apply ST; lra|]. destruct (Req_EM_T E' Es) as [Q|Q]; [apply ST; lra|].
    fold k'. specialize (IH F' E' k'). unfold fed in IH.
    destruct l as [|e' l'].
    + simpl. split; [intros a b []|]. intros _. split; auto. rewrite Rmax_right; lra.
    + assert (T : track q Es wl h F' E' k' (e' :: l') <> []) by (simpl; congruence).
      set (tr := track q Es wl h F' E' k' (e' :: l')) in *.
      assert (RL : removelast ((F', E') :: tr) = (F', E') :: removelast tr) by (destruct tr; [congruence|reflexivity]).
      assert (LL : last ((F', E') :: tr) (F, E) = last tr (F', E')).
      { transitivity (last tr (F, E)); [destruct tr; [congruence|reflexivity]|]. apply last_any. exact T. }
      unfold fed_spec in *. rewrite RL, LL.
      destruct (fold_left _ (e' :: l') (Some (F', E', Some k'))) as [[[F'' W] o]|].
      * destruct IH as (I1 & I2). split.
        -- intros a b [[= <- <-]|H]; [lra|]. eauto.
        -- intros _. apply I2. congruence.
      * destruct IH as (a & b & H & Lb). exists a, b. split; [right|]; auto.
Qed.

Lemma mean_len fields : List.length (mean_fields fields) = (List.length fields - 1)%nat.
Proof. unfold mean_fields. rewrite map_length, combine_length. destruct fields as [|x l]; [reflexivity|]. cbn [tl List.length]. rewrite Nat.min_r by lia. lia. Qed.
Lemma last_nth {A} (l : list A) d : last l d = nth (List.length l - 1) l d.
Proof.
  induction l as [|a [|b l] IH]; auto. change (last (a :: b :: l) d) with (last (b :: l) d). rewrite IH.
  simpl. rewrite Nat.sub_0_r. reflexivity.
Qed.
Lemma boost_eq a cv p E F scl : enters cv p E ->
  boost a cv p E F scl = Ok
    match fed (p_Z p * scl) (p_Es p) (299792458 * 1000 / cv_f cv) (step_of (cv_data cv)) F E
              (2 * PI * cv_f cv / (p_beta p * (299792458 * 1000))) (mean_fields (map snd (cv_data cv))) with
    | Some (F', W, _) => Some (W, F')
    | None => None
    end.
Proof.
  intros (P1 & P2 & P3 & P4 & P5). unfold boost, fed.
  assert ((a && Nat.leb (List.length (cv_data cv)) 1)%bool = false) as ->.
  { apply andb_false_iff. right. apply Nat.leb_gt. lia. }
  destruct (Nat.eqb_spec (List.length (cv_data cv)) 0); [lia|].
  destruct (Rle_dec (p_Es p) 0); [lra|]. destruct (Req_EM_T (cv_f cv) 0); [lra|].
  destruct (Req_EM_T (p_beta p) 0); [lra|]. cbv zeta. rewrite loop_mean.
  assert (H1 : (fst (nth (List.length (cv_data cv) - 1) (cv_data cv) (0, 0)) - fst (nth 0 (cv_data cv) (0, 0))) /
     INR (List.length (cv_data cv) - 1) = step_of (cv_data cv)).
  { unfold step_of. rewrite last_nth, minus_INR by lia. destruct (cv_data cv); simpl; auto. }
  rewrite H1. assert (H2 : cav_lambda cv = 299792458 * 1000 / cv_f cv) by (unfold cav_lambda, C0, MtoMM; field; lra).
  rewrite H2. replace (2 * PI * cv_f cv / (p_beta p * C0 * MtoMM)) with (2 * PI * cv_f cv / (p_beta p * (299792458 * 1000)))
    by (unfold C0, MtoMM; field; lra). reflexivity.
Qed.

Lemma boost_tracks a cv p E F scl : enters cv p E ->
  (gets_through cv p E F scl ->
     let x := last (track_in cv p E F scl) (F, E) in boost a cv p E F scl = Ok (Some (Rmax (p_Es p) (snd x), fst x))) /\
  (~ gets_through cv p E F scl -> boost a cv p E F scl = Ok None).
Proof.
  intros En. rewrite (boost_eq a _ _ _ _ _ En). destruct En as (P1 & P2 & P3 & P4 & P5).
  assert (X := fed_facts (p_Z p * scl) (p_Es p) (299792458 * 1000 / cv_f cv) (step_of (cv_data cv)) P1
     (mean_fields (map snd (cv_data cv))) F E (2 * PI * cv_f cv / (p_beta p * (299792458 * 1000)))).
  unfold gets_through, track_in. unfold fed_spec in X.
  assert (NE : mean_fields (map snd (cv_data cv)) <> []).
  { intros H. apply (f_equal (@List.length R)) in H. rewrite mean_len, map_length in H. simpl in H. lia. }
  destruct (fed _ _ _ _ _ _ _ _) as [[[F' W] o]|].
  - destruct X as (X1 & X2). destruct (X2 NE) as [-> ->]. split; [reflexivity|]. intros H. elim H. eauto.
  - destruct X as (a' & b & H & L). split; [|reflexivity]. intros G. specialize (G _ _ H). lra.
Qed.
Lemma boost_above a cv p E F scl E' F' : enters cv p E -> boost a cv p E F scl = Ok (Some (E', F')) -> p_Es p <= E'.
Proof.
  intros En H. rewrite (boost_eq a _ _ _ _ _ En) in H. destruct En as (P1 & P2 & P3 & P4 & P5).
  assert (X := fed_facts (p_Z p * scl) (p_Es p) (299792458 * 1000 / cv_f cv) (step_of (cv_data cv)) P1
     (mean_fields (map snd (cv_data cv))) F E (2 * PI * cv_f cv / (p_beta p * (299792458 * 1000)))).
  unfold fed_spec in X.
  assert (NE : mean_fields (map snd (cv_data cv)) <> []).
  { intros H0. apply (f_equal (@List.length R)) in H0. rewrite mean_len, map_length in H0. simpl in H0. lia. }
  destruct (fed _ _ _ _ _ _ _ _) as [[[F'' W] o]|]; [|discriminate]. injection H as <- <-.
  destruct X as (X1 & X2). destruct (X2 NE) as [_ ->]. apply Rmax_l.
Qed.

(** ** The gain is bounded *)
Definition total (h : R) (l : list R) : R := fold_right Rplus 0 (map (fun e => Rabs (e * (h / 1000))) l).
Lemma total_pos h l : 0 <= total h l.
Proof. induction l as [|e l IH]; unfold total in *; simpl; [lra|]. assert (X := Rabs_pos (e * (h / 1000))). lra. Qed.
Lemma kick_bound q e x h : Rabs (q * e * cos x * (h / 1000)) <= Rabs q * Rabs (e * (h / 1000)).
Proof.
  replace (q * e * cos x * (h / 1000)) with (q * (e * (h / 1000)) * cos x) by ring. rewrite !Rabs_mult.
  assert (C : Rabs (cos x) <= 1) by (apply Rabs_le; apply COS_bound).
  assert (0 <= Rabs q * (Rabs e * Rabs (h / 1000))) by (repeat apply Rmult_le_pos; apply Rabs_pos).
  assert (0 <= Rabs (cos x)) by apply Rabs_pos. nra.
Qed.
Lemma track_bound q Es wl h : forall l F E k, Es <= E ->
  (forall a b, In (a, b) (removelast (track q Es wl h F E k l)) -> Es < b) ->
  Rabs (Rmax Es (snd (last (track q Es wl h F E k l) (F, E))) - E) <= Rabs q * total h l.
Proof.
  induction l as [|e l IH]; intros F E k L G.
  - simpl. rewrite Rmax_right by lra. unfold total. simpl. rewrite Rmult_0_r, Rminus_diag_eq by reflexivity. rewrite Rabs_R0. lra.
  - cbn [track] in *. set (E' := E + q * e * cos ((F + (F + k * h)) / 2) * (h / 1000)) in *.
    set (k' := 2 * PI / (sqrt (1 - (Es / E') ^ 2) * wl)) in *. set (F' := F + k * h) in *.
    assert (KB := kick_bound q e ((F + F') / 2) h). assert (ED : E' - E = q * e * cos ((F + F') / 2) * (h / 1000)) by (unfold E'; ring).
    rewrite <- ED in KB. assert (TC : total h (e :: l) = Rabs (e * (h / 1000)) + total h l) by reflexivity. rewrite TC.
    assert (PL := total_pos h l). assert (QP := Rabs_pos q).
    destruct l as [|e' l'].
    + simpl last. cbn [snd]. assert (Rabs (Rmax Es E' - E) <= Rabs (E' - E)).
      { unfold Rmax. destruct (Rle_dec Es E'); [lra|]. rewrite !Rabs_left1 by lra. lra. }
      nra.
    + assert (T : track q Es wl h F' E' k' (e' :: l') <> []) by (simpl; congruence).
      specialize (IH F' E' k'). set (tr := track q Es wl h F' E' k' (e' :: l')) in *.
      assert (RL : removelast ((F', E') :: tr) = (F', E') :: removelast tr) by (destruct tr; [congruence|reflexivity]).
      assert (LL : last ((F', E') :: tr) (F, E) = last tr (F', E')).
      { transitivity (last tr (F, E)); [destruct tr; [congruence|reflexivity]|]. apply last_any. exact T. }
      rewrite RL in G. rewrite LL. assert (X : Es < E') by (eapply G; left; reflexivity).
      specialize (IH ltac:(lra) ltac:(intros a b H; eapply G; right; exact H)).
      set (x := Rmax Es (snd (last tr (F', E')))) in *.
      replace (x - E) with ((x - E') + (E' - E)) by ring. eapply Rle_trans; [apply Rabs_triang|]. nra.
Qed.
Lemma boost_bound a cv p E F scl E' F' : enters cv p E -> boost a cv p E F scl = Ok (Some (E', F')) ->
  Rabs (E' - E) <= Rabs (p_Z p * scl) * field_integral cv.
Proof.
  intros En H. destruct (boost_tracks a cv p E F scl En) as [B1 B2].
  assert (G : gets_through cv p E F scl).
  { destruct (Classical_Prop.classic (gets_through cv p E F scl)) as [G|G]; auto. rewrite (B2 G) in H. discriminate. }
  cbv zeta in B1. rewrite (B1 G) in H. injection H as <- <-. unfold gets_through, track_in in *.
  apply track_bound; auto. apply En.
Qed.
