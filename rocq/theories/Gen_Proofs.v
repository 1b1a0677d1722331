(** Generated names. *)
From Coq Require Import List String Ascii Bool NArith ZArith Arith Lia FinFun.
From Verif Require Import SMap SMap_Proofs Lexer_Model Lexer_Proofs Config_Spec Machine_Model Machine_Spec Array_Model Array_Spec Ioc_Model Ioc_Spec
  Ioc4_Proofs Gen_Model Gen_Spec.
Import ListNotations.
Open Scope string_scope.
Open Scope list_scope.
Local Notation la := list_ascii_of_string.

(** ** Decimals *)
Lemma digit_is n : n < 10 -> is_digit (digit n) = true /\ (Z.of_N (N_of_ascii (digit n)) - 48)%Z = Z.of_nat n.
Proof. intros H. do 10 (destruct n as [|n]; [split; reflexivity|]). lia. Qed.
Lemma digits_val_snoc l c : digits_val (l ++ [c]) = (10 * digits_val l + digits_val [c])%Z.
Proof. unfold digits_val. rewrite fold_left_app. cbn [fold_left]. rewrite (Z.add_comm (_ * 10)), (Z.add_comm (0 * 10)). lia. Qed.
Lemma digits_val_digit n : n < 10 -> digits_val [digit n] = Z.of_nat n.
Proof. intros H. do 10 (destruct n as [|n]; [reflexivity|]). lia. Qed.
Lemma dec_fuel_ok f : forall n, n < f -> forallb is_digit (dec_fuel f n) = true /\ dec_fuel f n <> [] /\ digits_val (dec_fuel f n) = Z.of_nat n.
Proof.
  induction f as [|f IH]; intros n H; [lia|]. cbn [dec_fuel]. destruct (Nat.ltb_spec n 10) as [L|L].
  - cbn [forallb]. rewrite (proj1 (digit_is n L)). split; auto. split; [discriminate|apply digits_val_digit; auto].
  - assert (Q : n / 10 < f) by (assert (n / 10 < n) by (apply Nat.div_lt; lia); lia).
    assert (M : n mod 10 < 10) by (apply Nat.mod_upper_bound; lia).
    destruct (IH _ Q) as (A & Bn & V). split; [|split].
    + rewrite forallb_app, A. cbn [forallb]. rewrite (proj1 (digit_is _ M)). auto.
    + destruct (dec_fuel f (n / 10)); discriminate.
    + rewrite digits_val_snoc, V, digits_val_digit by auto. pose proof (Nat.div_mod n 10). lia.
Qed.
Lemma la_of l : la (string_of_list_ascii l) = l.
Proof. apply list_ascii_of_string_of_list_ascii. Qed.
Lemma dec_word n : wd (dec n) /\ number (dec n) = N.of_nat n.
Proof.
  destruct (dec_fuel_ok (S n) n) as (A & Bn & V); [lia|]. unfold dec, wd, word, number. rewrite la_of, V. split; [split|].
  - destruct (dec_fuel (S n) n); [congruence|discriminate].
  - exact A.
  - lia.
Qed.
Lemma dec_inj n m : dec n = dec m -> n = m.
Proof. intros H. apply (f_equal number) in H. rewrite !(proj2 (dec_word _)) in H. lia. Qed.
Lemma dec_no c n : is_digit c = false -> ~ In c (la (dec n)).
Proof.
  intros H I. destruct (dec_word n) as [[_ A] _]. rewrite forallb_forall in A. apply A in I. congruence.
Qed.

(** ** Numbers that are free *)
Lemma is_in_iff x l : is_in x l = true <-> In x l.
Proof.
  unfold is_in. rewrite existsb_exists. split.
  - intros (y & I & E). apply String.eqb_eq in E. subst. auto.
  - intros I. exists x. split; auto. apply String.eqb_refl.
Qed.
Lemma is_in_false x l : is_in x l = false <-> ~ In x l.
Proof. rewrite <- is_in_iff. destruct (is_in x l); intuition congruence. Qed.
Lemma append_inj a b c : (a ++ b = a ++ c)%string -> b = c.
Proof. induction a as [|x a IH]; simpl; intros H; auto. injection H as H. auto. Qed.
Lemma free_spec out r f : forall n, match free_number f r n out with
  | Some m => n <= m < n + f /\ ~ In (r ++ dec m)%string out /\ forall i, n <= i < m -> In (r ++ dec i)%string out
  | None => forall i, n <= i < n + f -> In (r ++ dec i)%string out
  end.
Proof.
  induction f as [|f IH]; intros n; cbn [free_number]; [intros; lia|].
  destruct (is_in (r ++ dec n) out) eqn:E.
  - apply is_in_iff in E. specialize (IH (S n)). destruct (free_number f r (S n) out) as [m|].
    + destruct IH as (A & Bn & C). split; [lia|]. split; auto. intros i Hi. destruct (Nat.eq_dec i n) as [->|]; [auto|apply C; lia].
    + intros i Hi. destruct (Nat.eq_dec i n) as [->|]; [auto|apply IH; lia].
  - apply is_in_false in E. split; [lia|]. split; auto. intros; lia.
Qed.
Lemma free_some out r n : exists m, free_number (S (List.length out)) r n out = Some m.
Proof.
  pose proof (free_spec out r (S (List.length out)) n) as H. destruct (free_number _ r n out) as [m|]; [eauto|]. exfalso.
  assert (L : List.length (map (fun i => r ++ dec i)%string (seq n (S (List.length out)))) <= List.length out).
  { apply NoDup_incl_length.
    - apply Injective_map_NoDup; [|apply seq_NoDup]. intros a b E. apply append_inj in E. apply dec_inj; auto.
    - intros x I. apply in_map_iff in I as (i & <- & I). apply in_seq in I. apply H. lia. }
  rewrite map_length, seq_length in L. lia.
Qed.

Section Any.
Variables (mangle : gelem -> string) (is_file : string -> bool).
Notation rows := (rows mangle is_file).
Lemma name_it_some out e : exists en rn, name_it mangle out e = Some (en, rn) /\ ~ In rn out.
Proof.
  unfold name_it. destruct (is_in (mangle e) out) eqn:E.
  - destruct (free_some out (mangle e) 1) as [m Em]. rewrite Em. eexists _, _. split; eauto.
    pose proof (free_spec out (mangle e) (S (List.length out)) 1) as H. rewrite Em in H. apply H.
  - apply is_in_false in E. eauto.
Qed.
Lemma rows_some es : forall out, exists l, rows out es = Some l /\
  map w_elem l = filter (fun e => is_file (g_type e)) es /\ NoDup (map w_rname l) /\ forall w, In w l -> ~ In (w_rname w) out.
Proof.
  induction es as [|e es IH]; intros out; cbn [Gen_Model.rows].
  - exists []. split; auto. split; auto. split; [constructor|]. intros w [].
  - destruct (name_it_some out e) as (en & rn & -> & N). destruct (IH (rn :: out)) as (l & -> & M & ND & O).
    cbn [filter]. destruct (is_file (g_type e)).
    + eexists. split; eauto. cbn [map w_elem w_rname]. split; [f_equal; auto|]. split.
      * constructor; auto. intros I. apply in_map_iff in I as (w & E & I). apply (O w I). left. auto.
      * intros w [<-|I]; auto. intros I'. apply (O w I). right. auto.
    + eexists. split; eauto. split; auto. split; auto. intros w I I'. apply (O w I). right. auto.
Qed.
End Any.

(** ** Groups *)
Notation tyw w := (g_type (w_elem w)).
Lemma put_row_fst w l : NoDup (map fst l) -> (forall t ws, In (t, ws) (put_row w l) <->
   (t <> tyw w /\ In (t, ws) l) \/ (t = tyw w /\ ((exists ws0, In (t, ws0) l /\ ws = ws0 ++ [w]) \/ (~ In t (map fst l) /\ ws = [w])))) /\
  NoDup (map fst (put_row w l)).
Proof.
  induction l as [|[t0 ws0] l IH]; cbn [put_row map fst]; intros ND.
  - split.
    + intros t ws. cbn. split.
      * intros [[= <- <-]|[]]. right. split; auto.
      * intros [[_ []]|[-> [(x & [] & _)|[_ ->]]]]. auto.
    + constructor; [intros []|constructor].
  - inversion ND as [|a b N ND']; subst. specialize (IH ND') as [IH1 IH2]. destruct (String.eqb_spec t0 (tyw w)) as [E|E].
    + split.
      * intros t ws. cbn [In map fst]. split.
        -- intros [[= <- <-]|I].
           ++ right. split; auto. left. exists ws0. auto.
           ++ left. split; auto. intros ->. apply N. rewrite E. exact (in_map fst _ _ I).
        -- intros [[Nt [[= <- <-]|I]]|[-> [(x & [[= _ <-]|I] & ->)|[Nt ->]]]].
           ++ congruence.
           ++ auto.
           ++ left. f_equal. auto.
           ++ exfalso. apply N. rewrite E. exact (in_map fst _ _ I).
           ++ exfalso. apply Nt. left. auto.
      * cbn. constructor; auto.
    + split.
      * intros t ws. cbn [In map fst]. rewrite IH1. split.
        -- intros [[= <- <-]|[[Nt I]|[-> [(x & I & ->)|[Nt ->]]]]].
           ++ left. auto.
           ++ left. auto.
           ++ right. split; auto. left. eauto.
           ++ right. split; auto. right. split; auto. intros [X|X]; auto.
        -- intros [[Nt [[= <- <-]|I]]|[-> [(x & [[= X _]|I] & ->)|[Nt ->]]]].
           ++ left. auto.
           ++ right. left. auto.
           ++ congruence.
           ++ right. right. split; auto. left. eauto.
           ++ right. right. split; auto. right. split; auto.
      * cbn. constructor; auto. intros I. apply in_map_iff in I as ([t ws] & E' & I). cbn in E'. subst t.
        apply IH1 in I as [[_ I]|[E' _]]; [|congruence]. apply N. exact (in_map fst _ _ I).
Qed.
Lemma groups_snoc l w : groups (l ++ [w]) = put_row w (groups l).
Proof. unfold groups. rewrite fold_left_app. reflexivity. Qed.
Lemma groups_spec l : NoDup (map fst (groups l)) /\
  (forall t ws, In (t, ws) (groups l) -> ws = filter (fun w => String.eqb (tyw w) t) l /\ ws <> []) /\
  (forall w, In w l -> exists ws, In (tyw w, ws) (groups l)).
Proof.
  induction l as [|w l IH] using rev_ind.
  - cbn. split; [constructor|]. split; [intros ? ? []|intros ? []].
  - destruct IH as (ND & IH & C). rewrite groups_snoc. destruct (put_row_fst w (groups l) ND) as [P ND']. split; auto. split.
    + intros t ws I. apply P in I as [[Nt I]|[-> [(ws0 & I & ->)|[Nt ->]]]]; rewrite filter_app; cbn [filter].
      * apply IH in I as [-> Ne]. split; auto. replace (String.eqb (tyw w) t) with false by (symmetry; apply String.eqb_neq; auto). symmetry; apply app_nil_r.
      * apply IH in I as [-> Ne]. rewrite String.eqb_refl. split; auto. destruct (filter _ l); discriminate.
      * rewrite String.eqb_refl. split; [|discriminate].
        assert (F : filter (fun w0 => String.eqb (tyw w0) (tyw w)) l = []).
        { destruct (filter _ l) as [|x r] eqn:F; auto. exfalso.
          assert (I : In x (filter (fun w0 => String.eqb (tyw w0) (tyw w)) l)) by (rewrite F; left; auto).
          apply filter_In in I as [I E]. apply String.eqb_eq in E. destruct (C x I) as [ws I']. rewrite E in I'.
          exact (Nt (in_map fst _ _ I')). }
        rewrite F. reflexivity.
    + intros w' I. apply in_app_iff in I as [I|[<-|[]]].
      * destruct (C w' I) as [ws I']. destruct (String.eqb_spec (tyw w') (tyw w)) as [E|E].
        -- exists (ws ++ [w]). apply P. right. split; auto. left. eauto.
        -- exists ws. apply P. left. auto.
      * destruct (in_dec string_dec (tyw w) (map fst (groups l))) as [I|N].
        -- apply in_map_iff in I as ([t ws] & E & I). cbn in E. subst t. exists (ws ++ [w]). apply P. right. split; auto. left. eauto.
        -- exists [w]. apply P. right. split; auto.
Qed.

Lemma emit_spec mangle is_file es : exists all gs,
  map w_elem all = filter (fun e => is_file (g_type e)) es /\ NoDup (map w_rname all) /\
  NoDup (map fst gs) /\ (forall t ws, In (t, ws) gs -> ws = filter (fun w => String.eqb (tyw w) t) all /\ ws <> []) /\
  (forall w, In w all -> exists ws, In (tyw w, ws) gs) /\
  emit mangle is_file es =
    Some (match all with
          | [] => Throw RuntimeError
          | _ => Ok (mkOut (("common.template", all) :: map (fun g => (fst g ++ ".template", snd g)%string) gs) (markers es))
          end).
Proof.
  destruct (rows_some mangle is_file es []) as (l & E & M & ND & _). exists l, (groups l).
  destruct (groups_spec l) as (G1 & G2 & G3). do 5 (split; auto). unfold emit. rewrite E. destruct l as [|w l]; [reflexivity|].
  destruct (groups (w :: l)) as [|g gs] eqn:Eg; [|rewrite <- Eg; reflexivity]. exfalso.
  destruct (G3 w (or_introl eq_refl)) as [ws []].
Qed.
