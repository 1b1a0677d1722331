(** Any text as a table; the table cache; index tuples. *)
From Coq Require Import Reals List String Ascii Bool ZArith NArith Arith Lia.
From Verif Require Import SMap SMap_Proofs Dbl Config_Spec Lexer_Model Lexer_Spec Lexer_Proofs
  Number_Spec Machine_Model Util_Model Util_Spec Util_Proofs Util2_Proofs.
Import ListNotations.
Open Scope char_scope.
Open Scope nat_scope.
Open Scope list_scope.

Lemma pct_dec (l : list ascii) : (exists r, l = "%" :: r) \/ (forall r, l <> "%" :: r).
Proof.
  destruct l as [|c l]; [right; discriminate|]. destruct (Ascii.ascii_dec c "%") as [->|D]; [left; eauto|].
  right. intros r E. injection E as -> _. congruence.
Qed.
Lemma other_line l ls cols rows : ~ blanks l -> (forall r, trim l <> "%" :: r) ->
  read_lines (l :: ls) cols rows =
  match read_row (List.length (trim l)) (trim l) with
  | None => (cols, None)
  | Some (Throw e) => (cols, Some (Throw e))
  | Some (Ok xs) =>
      match rows with
      | r :: _ => if Nat.eqb (List.length r) (List.length xs)
                  then read_lines ls cols (xs :: rows)
                  else (cols, Some (Throw RuntimeError))
      | [] => read_lines ls cols [xs]
      end
  end.
Proof.
  intros B D. cbn [read_lines]. destruct (drop is_blank l) as [|c0 l0] eqn:E; [exfalso; apply B, drop_blanks, E|].
  cbv zeta. destruct (trim l) as [|c t]; [reflexivity|].
  assert (Hc : c <> "%") by (intros ->; apply (D t); reflexivity). revert Hc. clear. intros Hc.
  destruct c as [[] [] [] [] [] [] [] []]; try reflexivity. exfalso. apply Hc. reflexivity.
Qed.
Lemma pct_line l h ls cols rows : trim l = "%" :: h -> read_lines (l :: ls) cols rows =
  match drop is_blank l with [] => read_lines ls cols rows | _ => read_lines ls (number_cols 0 (words h) []) rows end.
Proof. intros T. cbn [read_lines]. cbv zeta. rewrite T. reflexivity. Qed.

(** Every text is read to the end, and the numbers are those of the data lines. *)
Lemma read_lines_sound ls : Forall (fun l => ~ In c_nl l) ls -> forall cols rows,
  match snd (read_lines ls cols rows) with
  | None => False
  | Some (Throw e) => e = RuntimeError
  | Some (Ok rows') => exists xs ds, rows' = rev xs ++ rows /\ data_lines ls ds /\ Forall2 line_numbers ds xs /\
      (forall x r y, rows = x :: r -> In y xs -> List.length y = List.length x) /\
      (forall x y, In x xs -> In y xs -> List.length x = List.length y)
  end.
Proof.
  induction 1 as [|l ls Nl H IH]; intros cols rows.
  - exists [], []. repeat split; try constructor; intros; contradiction.
  - destruct (drop is_blank l) as [|c0 l0] eqn:D.
    + cbn [read_lines]. rewrite D. specialize (IH cols rows).
      destruct (snd (read_lines ls cols rows)) as [[rows'|]|]; auto.
      destruct IH as (xs & ds & E & Dl & R). exists xs, ds. split; [exact E|]. split; [|exact R].
      apply dl_skip; [|exact Dl]. intros [B _]. apply B, drop_blanks, D.
    + assert (B : ~ blanks l) by (intros B; apply drop_blanks in B; congruence).
      assert (Nn : l <> []) by (intros ->; discriminate D).
      destruct (trim_spec l Nl Nn) as (cs & E & C & T).
      destruct (pct_dec (trim l)) as [[h Th]|Np].
      * rewrite (pct_line l h) by exact Th. rewrite D. specialize (IH (number_cols 0 (words h) []) rows).
        destruct (snd (read_lines ls _ rows)) as [[rows'|]|]; auto.
        destruct IH as (xs & ds & E' & Dl & R). exists xs, ds. split; [exact E'|]. split; [|exact R].
        apply dl_skip; [|exact Dl]. intros [_ P]. rewrite Th in E. apply (P (h ++ cs)). exact E.
      * rewrite other_line by auto.
        destruct (read_row_total (List.length (trim l)) (trim l) (le_n _)) as [[xs|e] R]; rewrite R.
        2:{ cbn [snd]. revert R. generalize (List.length (trim l)) as f. generalize (trim l) as t.
            intros t f. revert t. induction f as [|f IHf]; intros t; cbn [read_row]; destruct (drop is_space t); try discriminate.
            destruct (extract (a :: l1)) as [[x|] r]; destruct r as [|c r]; try discriminate; [|congruence].
            destruct (read_row f (c :: r)) as [[|]|] eqn:Q; try discriminate. intros Q'. injection Q' as <-. eauto. }
        assert (DL : data_line l).
        { split; [exact B|]. intros r El. revert E T Np. rewrite El. generalize (trim ("%" :: r)) as u. intros u E T' Np.
          destruct u as [|c u]; [congruence|]. injection E as <- _. apply (Np u). reflexivity. }
        assert (LN : line_numbers l xs).
        { exists (trim l), cs. repeat split; auto. apply (read_row_sound _ _ _) with (2 := R).
          intros Hn. apply Nl. rewrite E. apply in_or_app. left. exact Hn. }
        assert (G : forall rows0, (forall x r, rows0 = x :: r -> List.length xs = List.length x) ->
          match snd (read_lines ls cols (xs :: rows0)) with
          | None => False
          | Some (Throw e) => e = RuntimeError
          | Some (Ok rows') => exists xs ds, rows' = rev xs ++ rows0 /\ data_lines (l :: ls) ds /\ Forall2 line_numbers ds xs /\
              (forall x r y, rows0 = x :: r -> In y xs -> List.length y = List.length x) /\
              (forall x y, In x xs -> In y xs -> List.length x = List.length y)
          end).
        { intros rows0 H0. specialize (IH cols (xs :: rows0)).
          destruct (snd (read_lines ls cols (xs :: rows0))) as [[rows'|]|]; auto.
          destruct IH as (ys & ds & -> & Dl & F & A1 & A2). exists (xs :: ys), (l :: ds).
          split; [cbn [rev]; rewrite <- app_assoc; reflexivity|]. split; [apply dl_keep; auto|]. split; [constructor; auto|].
          split.
          - intros x r y Ex [<-|Hy]; [apply (H0 _ _ Ex)|]. rewrite (A1 xs rows0 y eq_refl Hy). apply (H0 _ _ Ex).
          - intros x y [<-|Hx] [<-|Hy]; auto; [symmetry|]; apply (A1 xs rows0); auto. }
        destruct rows as [|r rows]; [apply G; discriminate|].
        destruct (Nat.eqb_spec (List.length r) (List.length xs)) as [El|El]; [|reflexivity].
        apply G. intros x r' Ex. injection Ex as <- _. symmetry. exact El.
Qed.

(** ** The theorems on tables *)
Lemma read_described s ls names rows : made_of (txt s) ls -> describes ls names rows ->
  (forall a b, In a rows -> In b rows -> List.length a = List.length b) ->
  exists t, nt_read nt_empty (Some s) = (t, Some (Ok tt)) /\ Forall2 (Forall2 reads_as) rows (nt_rows t) /\
    forall name k, sfind name (nt_cols t) = Some k <-> named names name k.
Proof.
  intros M D L. pose proof (lines_made _ _ M) as E. destruct M as [N _].
  destruct (describes_reads _ _ _ D N) as (xs & F & R).
  assert (K : exists k, forall x, In x xs -> List.length x = k).
  { destruct F as [|a x rows xs Fa F]; [exists 0; intros ? []|]. exists (List.length a).
    intros y Hy. assert (Fl : Forall2 (fun a x => List.length a = List.length x) (a :: rows) (x :: xs)).
    { constructor; [apply (Forall2_len _ _ _ Fa)|]. clear -F. induction F; constructor; auto. apply (Forall2_len _ _ _ H). }
    assert (Q : exists b, In b (a :: rows) /\ List.length b = List.length y).
    { clear -Fl Hy. induction Fl as [|u v us vs H _ IH]; [destruct Hy|]. destruct Hy as [<-|Hy]; [exists u; split; [left|]; auto|].
      destruct (IH Hy) as (b & Hb & Eb). exists b. split; [right|]; auto. }
    destruct Q as (b & Hb & <-). apply L; [exact Hb|left; reflexivity]. }
  destruct K as [k K].
  destruct (R [] []) as [R1 _]. specialize (R1 k K ltac:(discriminate)). rewrite app_nil_r in R1.
  exists (mkNT (cols_of names []) xs). split.
  - unfold nt_read. fold (txt s). rewrite E. cbn [nt_cols nt_empty]. rewrite R1. destruct (rev xs) as [|y ys] eqn:Rx.
    + apply (f_equal (@rev _)) in Rx. rewrite rev_involutive in Rx. subst xs. reflexivity.
    + rewrite <- Rx, rev_involutive. reflexivity.
  - split; [exact F|]. intros name j. cbn [nt_cols]. destruct names as [ns|]; [apply cols_named|]. cbn. split; [discriminate|tauto].
Qed.
Lemma read_ragged s ls names rows a b t : made_of (txt s) ls -> describes ls names rows ->
  In a rows -> In b rows -> List.length a <> List.length b -> snd (nt_read t (Some s)) = Some (Throw RuntimeError).
Proof.
  intros M D Ha Hb L. pose proof (lines_made _ _ M) as E. destruct M as [N _].
  unfold nt_read. fold (txt s). rewrite E. pose proof (describes_differ _ _ _ D N a b (nt_cols t) Ha Hb L) as H.
  destruct (read_lines ls (nt_cols t) []) as [c o]. cbn [snd] in H. subst o. reflexivity.
Qed.
Lemma read_any t s ls t' o : made_of (txt s) ls -> nt_read t (Some s) = (t', o) ->
  (o = Some (Throw RuntimeError) /\ nt_rows t' = nt_rows t) \/
  (o = Some (Ok tt) /\ exists ds, data_lines ls ds /\
    (ds <> [] -> Forall2 line_numbers ds (nt_rows t') /\ forall x y, In x (nt_rows t') -> In y (nt_rows t') -> List.length x = List.length y) /\
    (ds = [] -> nt_rows t = [] -> nt_rows t' = [])).
Proof.
  intros M. pose proof (lines_made _ _ M) as E. destruct M as [N _]. unfold nt_read. fold (txt s). rewrite E.
  pose proof (read_lines_sound ls N (nt_cols t) []) as S.
  destruct (read_lines ls (nt_cols t) []) as [c [[rows|e]|]]; cbn [snd] in S; [..|destruct S]; intros H.
  - right. destruct S as (xs & ds & Er & Dl & F & _ & A). rewrite app_nil_r in Er.
    destruct rows as [|r rows].
    + apply (f_equal (@rev _)) in Er. rewrite rev_involutive in Er. cbn in Er. subst xs. inversion F; subst.
      injection H as <- <-. split; [reflexivity|]. exists []. split; [exact Dl|]. split; [congruence|]. intros _ ->. reflexivity.
    + rewrite Er, rev_involutive in H. destruct (rev xs) eqn:Rx; [discriminate|]. injection H as <- <-. split; [reflexivity|].
      exists ds. split; [exact Dl|]. cbn [nt_rows]. split; [auto|]. intros ->. inversion F; subst. discriminate Rx.
  - left. injection H as <- <-. subst e. auto.
Qed.
Lemma read_blank_line t s1 s2 a l b : blanks l -> made_of (txt s1) (a ++ b) -> made_of (txt s2) (a ++ l :: b) ->
  nt_read t (Some s1) = nt_read t (Some s2).
Proof.
  intros B M1 M2. apply lines_made in M1. apply lines_made in M2. unfold nt_read. fold (txt s1) (txt s2). rewrite M1, M2.
  enough (G : forall cols rows, read_lines (a ++ b) cols rows = read_lines (a ++ l :: b) cols rows) by (rewrite G; reflexivity).
  clear M1 M2. induction a as [|x a IH]; intros cols rows; cbn [app]; [symmetry; apply (blank_line l B)|].
  cbn [read_lines]. destruct (drop is_blank x); [apply IH|]. cbv zeta.
  destruct (pct_dec (trim x)) as [[h ->]|D]; [apply IH|].
  destruct (trim x) as [|c u]; [cbn [read_row List.length drop]; destruct rows as [|r rows]; [apply IH|];
    destruct (Nat.eqb _ _); [apply IH|reflexivity]|].
  assert (Hc : c <> "%") by (intros ->; apply (D u); reflexivity).
  assert (G : match read_row (List.length (c :: u)) (c :: u) with
     | None => (cols, None)
     | Some (Throw e) => (cols, Some (Throw e))
     | Some (Ok xs) => match rows with
         | r :: _ => if Nat.eqb (List.length r) (List.length xs) then read_lines (a ++ b) cols (xs :: rows) else (cols, Some (Throw RuntimeError))
         | [] => read_lines (a ++ b) cols [xs] end
     end = match read_row (List.length (c :: u)) (c :: u) with
     | None => (cols, None)
     | Some (Throw e) => (cols, Some (Throw e))
     | Some (Ok xs) => match rows with
         | r :: _ => if Nat.eqb (List.length r) (List.length xs) then read_lines (a ++ l :: b) cols (xs :: rows) else (cols, Some (Throw RuntimeError))
         | [] => read_lines (a ++ l :: b) cols [xs] end
     end).
  { destruct (read_row _ _) as [[xs|]|]; auto. destruct rows as [|r rows]; [apply IH|]. destruct (Nat.eqb _ _); [apply IH|reflexivity]. }
  revert Hc G. generalize (read_row (List.length (c :: u)) (c :: u)). clear. intros o Hc G.
  destruct c as [[] [] [] [] [] [] [] []]; try exact G. exfalso. apply Hc. reflexivity.
Qed.

Lemma chop_concat n : forall k l, List.length l = k * n -> List.concat (chop n k l) = l /\
  Forall (fun r => List.length r = n) (chop n k l) /\ List.length (chop n k l) = k.
Proof.
  induction k as [|k IH]; intros l L; [destruct l; [|discriminate]; repeat split; constructor|].
  cbn [chop List.concat]. destruct (IH (skipn n l)) as (C & F & Lk); [rewrite skipn_length; lia|].
  rewrite C, firstn_skipn. split; [reflexivity|]. split; [constructor; [apply firstn_length_le; lia|exact F]|cbn; lia].
Qed.
Lemma readvec_full t l n : (0 < n)%Z -> (Z.of_nat (List.length l) mod n = 0)%Z ->
  exists t', readvec t l n = Ok t' /\ nt_cols t' = nt_cols t /\ List.concat (nt_rows t') = l /\
    Forall (fun r => Z.of_nat (List.length r) = n) (nt_rows t').
Proof.
  intros Ln M. unfold readvec. destruct (Z.leb_spec n 0) as [H|_]; [lia|]. cbv zeta.
  set (k := Z.to_nat n). assert (En : n = Z.of_nat k) by (unfold k; lia). assert (Hk : k <> 0) by lia.
  rewrite En, <- Nat2Z.inj_mod in M by exact Hk. destruct (Nat.eqb_spec (List.length l mod k) 0) as [M'|M']; [|lia].
  eexists. split; [reflexivity|]. split; [reflexivity|].
  destruct (chop_concat k (List.length l / k) l) as (C & F & _).
  { rewrite (Nat.div_mod (List.length l) k Hk) at 1. rewrite M'. lia. }
  split; [exact C|]. cbn [nt_rows]. eapply Forall_impl; [|exact F]. intros r ->. symmetry. exact En.
Qed.
Lemma readvec_part t l n : (0 < n)%Z -> (Z.of_nat (List.length l) mod n <> 0)%Z -> readvec t l n = Throw Abort.
Proof.
  intros Ln M. unfold readvec. destruct (Z.leb_spec n 0) as [H|_]; [lia|]. cbv zeta.
  set (k := Z.to_nat n). assert (En : n = Z.of_nat k) by (unfold k; lia). assert (Hk : k <> 0) by lia.
  rewrite En, <- Nat2Z.inj_mod in M by exact Hk. destruct (Nat.eqb_spec (List.length l mod k) 0) as [M'|M']; [lia|reflexivity].
Qed.

(** ** The cache *)
Lemma fs_touched ops : forall f p, fold_left fs_step ops f p = fold_left (touched p) ops (f p).
Proof.
  induction ops as [|o ops IH]; intros f p; [reflexivity|]. cbn [fold_left]. rewrite IH. f_equal.
  destruct o as [q m s|q]; reflexivity.
Qed.
Lemma tc_run_app h o : tc_run (h ++ [o]) = fst (tc_step (tc_run h) o).
Proof. unfold tc_run. rewrite fold_left_app. reflexivity. Qed.
Lemma file_after_app h o p : file_after (h ++ [o]) p = fold_left (touched p) (file_ops o) (file_after h p).
Proof. unfold file_after. rewrite flat_map_app. cbn [flat_map]. rewrite app_nil_r, fold_left_app. reflexivity. Qed.
Lemma run_files h p : fst (tc_run h) p = file_after h p.
Proof.
  revert p. induction h as [|o h IH] using rev_ind; intros p; [reflexivity|].
  rewrite tc_run_app, file_after_app. destruct (tc_run h) as [f ch]. cbn [fst] in IH. rewrite <- IH.
  destruct o as [o| |q d1 d2]; cbn [tc_step fst file_ops].
  - apply (fs_touched [o]).
  - reflexivity.
  - destruct (fetch f _ _ ch q) as [ch' r]. cbn [fst]. rewrite <- fold_left_app. apply fs_touched.
Qed.

Definition fresh (h : list tcop) (p : string) (m : Z) (t : ntable) : Prop :=
  (exists a b s0, h = a ++ OFetch p [] [] :: b /\ file_after a p = Some (m, s0)) /\
  match file_after h p with
  | None => True
  | Some (m', s) => (m < m')%Z \/ (m' = m /\ content (Some (m', s)) = Some (Ok t))
  end.
Lemma dated_pre h o : dated (h ++ [o]) -> dated h.
Proof.
  intros D a p d1 d2 b m s c -> m0 s0. apply (D a p d1 d2 b m s (c ++ [o])).
  rewrite <- !app_assoc. cbn [app]. rewrite <- !app_assoc. reflexivity.
Qed.
Lemma undisturbed_pre h o : undisturbed (h ++ [o]) -> undisturbed h.
Proof. intros U p d1 d2 H. apply (U p). apply in_or_app. left. exact H. Qed.

Lemma fetch_same f ch p : is_absolute p = true ->
  fetch f f f ch p =
  match f p with
  | None => (ch, Some (Throw RuntimeError))
  | Some (m', s) =>
      let miss := (match content (Some (m', s)) with Some (Ok t) => sset p (m', t) ch | _ => ch end, content (Some (m', s))) in
      match sfind p ch with None => miss | Some (m, t) => if Z.ltb m m' then miss else (ch, Some (Ok t)) end
  end.
Proof.
  intros A. unfold fetch. rewrite A. cbn [negb]. destruct (f p) as [[m' s]|]; [|reflexivity]. cbv zeta. cbn [content].
  destruct (nt_read nt_empty (Some s)) as [t [[[]|e]|]]; destruct (sfind p ch) as [[m t']|]; try reflexivity;
    destruct (Z.ltb m m'); reflexivity.
Qed.

Lemma cache_fresh h : undisturbed h -> dated h -> forall p m t, sfind p (snd (tc_run h)) = Some (m, t) -> fresh h p m t.
Proof.
  induction h as [|o h IH] using rev_ind; intros U D p m t; [discriminate|].
  specialize (IH (undisturbed_pre _ _ U) (dated_pre _ _ D)).
  rewrite tc_run_app. pose proof (run_files h) as RF. destruct (tc_run h) as [f ch] eqn:R. cbn [fst snd] in *.
  destruct o as [o| |q d1 d2].
  - cbn [tc_step fst snd]. intros H. destruct (IH p m t H) as [(a & b & s0 & E & Fa) Q]. split.
    + exists a, (b ++ [OFile o]), s0. rewrite E, <- app_assoc. auto.
    + rewrite file_after_app. cbn [file_ops fold_left]. destruct o as [q m' s|q]; cbn [touched].
      * destruct (String.eqb_spec p q) as [<-|_]; [|exact Q]. left.
        apply (D a p [] [] b m' s []) with (s0 := s0); auto. rewrite E, <- app_assoc. reflexivity.
      * destruct (String.eqb p q); [exact I|exact Q].
  - cbn [tc_step fst snd]. discriminate.
  - destruct (U q d1 d2) as [-> ->]; [apply in_or_app; right; left; reflexivity|].
    cbn [tc_step fold_left]. destruct (is_absolute q) eqn:A.
    + rewrite fetch_same by exact A. intros H.
      assert (Keep : sfind p ch = Some (m, t) -> fresh (h ++ [OFetch q [] []]) p m t).
      { intros K. destruct (IH p m t K) as [(a & b & s0 & E & Fa) Q]. split.
        - exists a, (b ++ [OFetch q [] []]), s0. rewrite E, <- app_assoc. auto.
        - rewrite file_after_app. exact Q. }
      assert (Miss : forall m' s, f q = Some (m', s) ->
        sfind p (match content (Some (m', s)) with Some (Ok t) => sset q (m', t) ch | _ => ch end) = Some (m, t) ->
        fresh (h ++ [OFetch q [] []]) p m t).
      { intros m' s Fq. destruct (content (Some (m', s))) as [[t'|e]|] eqn:C; auto. rewrite sfind_sset.
        destruct (String.eqb_spec p q) as [->|_]; [|auto]. intros K. injection K as <- <-. split.
        - exists h, [], s. split; [reflexivity|]. rewrite <- RF. exact Fq.
        - rewrite file_after_app. cbn [file_ops app fold_left]. rewrite <- RF, Fq. right. auto. }
      destruct (f q) as [[m' s]|] eqn:Fq; [|apply Keep, H]. cbv zeta in H.
      destruct (sfind q ch) as [[m1 t1]|]; [destruct (Z.ltb m1 m')|]; cbn [fst snd] in H; eauto.
    + unfold fetch. rewrite A. cbn [negb fst snd]. intros K.
      destruct (IH p m t K) as [(a & b & s0 & E & Fa) Q]. split.
      * exists a, (b ++ [OFetch q [] []]), s0. rewrite E, <- app_assoc. auto.
      * rewrite file_after_app. exact Q.
Qed.
Lemma fetch_current h p : undisturbed h -> dated h -> is_absolute p = true ->
  snd (tc_step (tc_run h) (OFetch p [] [])) = content (file_after h p).
Proof.
  intros U D A. pose proof (cache_fresh h U D p) as C. pose proof (run_files h p) as RF.
  destruct (tc_run h) as [f ch]. cbn [fst snd] in *. cbn [tc_step fold_left].
  rewrite fetch_same by exact A. rewrite <- RF. destruct (f p) as [[m' s]|] eqn:Fp; [|reflexivity]. cbv zeta.
  destruct (sfind p ch) as [[m t]|] eqn:K; [|reflexivity].
  destruct (Z.ltb_spec m m') as [L|L]; [reflexivity|]. destruct (C m t eq_refl) as [_ Q]. rewrite <- RF in Q.
  destruct Q as [Q|[_ Q]]; [lia|]. symmetry. exact Q.
Qed.
Lemma fetch_relative f1 f2 f3 ch p : is_absolute p = false -> fetch f1 f2 f3 ch p = (ch, Some (Throw LogicError)).
Proof. intros A. unfold fetch. rewrite A. reflexivity. Qed.

(** ** Index tuples *)
Fixpoint ndval (lim idx : list nat) : nat :=
  match lim, idx with m :: lim', i :: idx' => i + m * ndval lim' idx' | _, _ => 0 end.
Lemma ndval_lt lim idx : within lim idx -> ndval lim idx < ndprod lim.
Proof. induction 1 as [|i m idx lim H _ IH]; cbn [ndval ndprod fold_right]; [lia|]. fold (ndprod lim). nia. Qed.
Lemma ndval_inj lim a : within lim a -> forall b, within lim b -> ndval lim a = ndval lim b -> a = b.
Proof.
  induction 1 as [|i m a lim H _ IH]; intros b Hb E; inversion Hb as [|j m' b' lim' Hj Hb']; subst; [reflexivity|].
  cbn [ndval] in E. set (u := ndval lim a) in *. set (v := ndval lim b') in *.
  assert (u = v). { destruct (Nat.lt_trichotomy u v) as [L|[L|L]]; [exfalso|exact L|exfalso]; nia. }
  assert (i = j) by nia. subst j. f_equal. apply IH; auto.
Qed.
Lemma nd_bump_spec lim idx : within lim idx ->
  match nd_bump lim idx with
  | (idx', false) => within lim idx' /\ ndval lim idx' = S (ndval lim idx)
  | (_, true) => S (ndval lim idx) = ndprod lim
  end.
Proof.
  induction 1 as [|i m idx lim H W IH]; [reflexivity|]. cbn [nd_bump]. destruct (Nat.ltb_spec (S i) m) as [L|L].
  - split; [constructor; auto|reflexivity].
  - destruct (nd_bump lim idx) as [idx' []]; cbn [ndval ndprod fold_right].
    + fold (ndprod lim). nia.
    + destruct IH as [W' E]. split; [constructor; [lia|exact W']|]. cbn [ndval]. rewrite E. nia.
Qed.
Lemma nd_loop_spec lim : forall f idx, within lim idx -> ndprod lim - ndval lim idx <= f ->
  exists r, nd_loop f lim idx = Some r /\ Forall (fun i => within lim i /\ ndval lim idx <= ndval lim i) r /\ NoDup r /\
    forall i, within lim i -> ndval lim idx <= ndval lim i -> In i r.
Proof.
  induction f as [|f IH]; intros idx W L; [pose proof (ndval_lt _ _ W); lia|].
  cbn [nd_loop]. pose proof (nd_bump_spec lim idx W) as B. destruct (nd_bump lim idx) as [idx' []].
  - exists [idx]. split; [reflexivity|]. split; [repeat constructor; auto|]. split; [repeat constructor; intros []|].
    intros i Wi Li. left. apply (ndval_inj lim); auto. pose proof (ndval_lt _ _ Wi). lia.
  - destruct B as [W' E]. destruct (IH idx' W') as (r & -> & F & N & C); [lia|]. exists (idx :: r).
    split; [reflexivity|]. rewrite Forall_forall in F. split; [|split].
    + constructor; [auto|]. apply Forall_forall. intros i Hi. destruct (F i Hi). split; [auto|lia].
    + constructor; [|exact N]. intros Hi. destruct (F _ Hi). lia.
    + intros i Wi Li. destruct (Nat.eq_dec (ndval lim i) (ndval lim idx)) as [e|D].
      * left. apply (ndval_inj lim); auto.
      * right. apply C; [exact Wi|lia].
Qed.
Lemma nd_visit_spec lim fuel : Forall (lt 0) lim -> ndprod lim <= fuel ->
  exists r, nd_visit fuel lim = Some r /\ NoDup r /\ forall i, In i r <-> within lim i.
Proof.
  intros P L. assert (W : within lim (repeat 0 (List.length lim))) by (clear L; induction P; cbn; constructor; auto).
  assert (Z : ndval lim (repeat 0 (List.length lim)) = 0).
  { clear. induction lim as [|m lim IH]; [reflexivity|]. cbn. rewrite IH. lia. }
  destruct (nd_loop_spec lim fuel _ W) as (r & E & F & N & C); [lia|]. exists r. split; [exact E|]. split; [exact N|].
  intros i. rewrite Forall_forall in F. split; [intros Hi; apply (F i Hi)|]. intros Wi. apply C; [exact Wi|lia].
Qed.

(** ** Witnesses *)
Open Scope string_scope.
Open Scope list_scope.
Definition cnl : string := String c_nl "".
Definition ccr : string := String c_cr "".

(** The words of a row with one number: nothing else but white space. *)
Lemma row_single w : forall l, row l [w] -> exists a b, l = a ++ w ++ b /\ Forall white a /\ Forall white b /\ fits w.
Proof.
  intros l R. inversion R as [|sp p rest ws W F St R']; subst. inversion R' as [b Wb|]; subst.
  exists sp, rest. auto.
Qed.
Lemma dropped_no_row ws : ~ (row (txt "1 2e") ws /\ List.length ws = 1).
Proof.
  intros [R L]. destruct ws as [|w [|]]; try discriminate. destruct (row_single _ _ R) as (a & b & E & Wa & Wb & F).
  assert (a = []) as ->.
  { destruct a as [|c a]; [reflexivity|]. injection E as <- _. inversion Wa as [|? ? H _]; subst.
    repeat (destruct H as [H|H]; [discriminate|]). destruct H. }
  assert (b = []) as ->.
  { destruct b as [|c b] using rev_ind; [reflexivity|]. cbn [app] in E. rewrite !app_assoc in E.
    change (txt "1 2e") with ((txt "1 2") ++ ["e"%char]) in E. apply app_inj_tail in E as [_ <-].
    apply Forall_app in Wb as [_ H]. inversion H as [|? ? H' _]; subst.
    repeat (destruct H' as [H'|H']; [discriminate|]). destruct H'. }
  cbn [app] in E. rewrite app_nil_r in E. subst w. apply fits_read in F as [x X]. vm_compute in X. discriminate.
Qed.
Lemma C38_last_word_dropped_refuted_w : exists s ls l t, made_of (txt s) ls /\ data_lines ls [l] /\
  nt_read nt_empty (Some s) = (t, Some (Ok tt)) /\
  ~ exists ws, row l ws /\ Forall2 (Forall2 reads_as) [ws] (nt_rows t).
Proof.
  exists "1 2e", [txt "1 2e"], (txt "1 2e"), (mkNT [] [[done]]). split; [exact (made_lines (txt "1 2e"))|]. split; [|split].
  - apply dl_keep; [|constructor]. split; [|discriminate]. intros B. apply drop_blanks in B. discriminate.
  - vm_compute. reflexivity.
  - intros (ws & R & F). apply (dropped_no_row ws). split; [exact R|]. inversion F as [|? ? ? ? H _]; subst.
    apply Forall2_len in H. exact H.
Qed.

Lemma C38_crlf_blank_line_refuted_w : exists ls s1 s2 t,
  made_of (txt s1) ls /\ made_of (txt s2) (map (fun l => l ++ [c_cr]) ls) /\
  nt_read nt_empty (Some s1) = (t, Some (Ok tt)) /\ snd (nt_read nt_empty (Some s2)) = Some (Throw RuntimeError).
Proof.
  exists [txt "1 2"; []; txt "3 4"], ("1 2" ++ cnl ++ cnl ++ "3 4" ++ cnl)%string,
    ("1 2" ++ ccr ++ cnl ++ ccr ++ cnl ++ "3 4" ++ ccr ++ cnl)%string, (mkNT [] [[done; d_of_Z 2]; [d_of_Z 3; d_of_Z 4]]).
  split; [exact (made_lines (txt ("1 2" ++ cnl ++ cnl ++ "3 4" ++ cnl)))|].
  split; [exact (made_lines (txt ("1 2" ++ ccr ++ cnl ++ ccr ++ cnl ++ "3 4" ++ ccr ++ cnl)))|].
  split; vm_compute; reflexivity.
Qed.
Lemma C38_comment_line_refuted_w : exists s1 s2 ls note t1 t2, made_of (txt s1) ls /\ made_of (txt s2) (ls ++ [note]) /\
  (exists r, note = "%"%char :: r) /\
  nt_read nt_empty (Some s1) = (t1, Some (Ok tt)) /\ nt_read nt_empty (Some s2) = (t2, Some (Ok tt)) /\
  sfind "b" (nt_cols t1) = Some 1 /\ sfind "b" (nt_cols t2) = None.
Proof.
  exists ("% a b" ++ cnl ++ "1 2" ++ cnl)%string, ("% a b" ++ cnl ++ "1 2" ++ cnl ++ "% end")%string,
    [txt "% a b"; txt "1 2"], (txt "% end").
  eexists. eexists.
  split; [exact (made_lines (txt ("% a b" ++ cnl ++ "1 2" ++ cnl)))|].
  split; [exact (made_lines (txt ("% a b" ++ cnl ++ "1 2" ++ cnl ++ "% end")))|].
  split; [eexists; reflexivity|]. split; [vm_compute; reflexivity|]. split; [vm_compute; reflexivity|]. split; reflexivity.
Qed.
Lemma C38_reused_table_refuted_w : exists s1 s2 t1 t2 t, nt_read nt_empty (Some s1) = (t1, Some (Ok tt)) /\
  nt_read t1 (Some s2) = (t2, Some (Ok tt)) /\ nt_read nt_empty (Some s2) = (t, Some (Ok tt)) /\
  sfind "a" (nt_cols t2) = Some 0 /\ sfind "a" (nt_cols t) = None /\
  nt_rows t2 = [[dzero]] /\ nt_rows t = [].
Proof.
  exists ("% a" ++ cnl ++ "1")%string, "". eexists. eexists. eexists.
  repeat (split; [vm_compute; reflexivity|]). reflexivity.
Qed.

Lemma C39_same_second_refuted_w : exists h p, undisturbed h /\ is_absolute p = true /\
  (forall a m s b m' s' c, h = a ++ OFile (FWrite p m s) :: b ++ OFile (FWrite p m' s') :: c -> (m <= m')%Z) /\
  snd (tc_step (tc_run h) (OFetch p [] [])) <> content (file_after h p).
Proof.
  exists [OFile (FWrite "/t" 5 "1"); OFetch "/t" [] []; OFile (FWrite "/t" 5 "2")], "/t".
  split; [|split; [reflexivity|split]].
  - intros p d1 d2 H. repeat (destruct H as [H|H]; [try discriminate; injection H as <- <- <-; auto|]). destruct H.
  - intros a m s b m' s' c E. destruct a as [|x a]; [injection E as <- <- E|injection E as _ E; exfalso].
    + destruct b as [|? b]; [discriminate|]. injection E as _ E. destruct b as [|? b]; [injection E as <- <- _; lia|].
      injection E as _ E. destruct b; discriminate.
    + destruct a as [|x' a]; [discriminate|]. injection E as _ E. destruct a as [|x'' a].
      * injection E as _ _ E. destruct b; discriminate.
      * injection E as _ E. destruct a; discriminate.
  - intros E. vm_compute in E. discriminate.
Qed.
Lemma C39_older_file_refuted_w : exists h p m m', undisturbed h /\ is_absolute p = true /\
  h = [OFile (FWrite p m "1"); OFetch p [] []; OFile (FWrite p m' "2")] /\ (m' < m)%Z /\
  snd (tc_step (tc_run h) (OFetch p [] [])) <> content (file_after h p).
Proof.
  exists [OFile (FWrite "/t" 5 "1"); OFetch "/t" [] []; OFile (FWrite "/t" 4 "2")], "/t", 5%Z, 4%Z.
  split; [|split; [reflexivity|split; [reflexivity|split; [lia|]]]].
  - intros p d1 d2 H. repeat (destruct H as [H|H]; [try discriminate; injection H as <- <- <-; auto|]). destruct H.
  - intros E. vm_compute in E. discriminate.
Qed.
Lemma C39_changed_meanwhile_refuted_w : exists h p m m' s, dated h /\ is_absolute p = true /\
  h = [OFile (FWrite p m "1"); OFetch p [] [FWrite p m' s]] /\ (m < m')%Z /\
  snd (tc_step (tc_run h) (OFetch p [] [])) <> content (file_after h p).
Proof.
  exists [OFile (FWrite "/t" 5 "1"); OFetch "/t" [] [FWrite "/t" 6 "2"]], "/t", 5%Z, 6%Z, "2".
  split; [|split; [reflexivity|split; [reflexivity|split; [lia|]]]].
  - intros a p d1 d2 b m s c E. exfalso. destruct a as [|x a]; [discriminate|]. injection E as _ E.
    destruct a as [|x' a]; [|injection E as _ E; destruct a; discriminate]. injection E as _ _ _ E. destruct b; discriminate.
  - intros E. vm_compute in E. discriminate.
Qed.
Lemma C40_empty_dimension_refuted_w : exists lim r i, nd_visit 10 lim = Some r /\ In i r /\ ~ within lim i /\ ndprod lim = 0.
Proof.
  exists [2; 0], [[0; 0]; [1; 0]], [0; 0]. split; [reflexivity|]. split; [left; reflexivity|]. split; [|reflexivity].
  intros H. inversion H as [|? ? ? ? _ H']; subst. inversion H'; subst. lia.
Qed.
