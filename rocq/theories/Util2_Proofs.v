(** Tables, the table cache, index tuples. *)
From Coq Require Import Reals List String Ascii Bool ZArith NArith Arith Lia.
From Verif Require Import SMap SMap_Proofs Dbl Config_Spec Lexer_Model Lexer_Spec Lexer_Proofs
  Number_Spec Machine_Model Util_Model Util_Spec Util_Proofs.
Import ListNotations.
Open Scope char_scope.
Open Scope nat_scope.
Open Scope list_scope.

(** ** Lines *)
Lemma is_nl_spec c : is_nl c = true <-> c = c_nl.
Proof. unfold is_nl. rewrite Ascii.eqb_eq. reflexivity. Qed.
Lemma lines_cons l r : ~ In c_nl l -> lines (l ++ c_nl :: r) = l :: lines r.
Proof.
  induction l as [|c l IH]; intros N; [reflexivity|]. cbn [app lines].
  destruct (is_nl c) eqn:E; [apply is_nl_spec in E; subst; exfalso; apply N; left; reflexivity|].
  rewrite IH by (intros H; apply N; right; exact H). reflexivity.
Qed.
Lemma lines_last l : ~ In c_nl l -> l <> [] -> lines l = [l].
Proof.
  induction l as [|c l IH]; intros N H; [congruence|]. cbn [lines].
  destruct (is_nl c) eqn:E; [apply is_nl_spec in E; subst; exfalso; apply N; left; reflexivity|].
  destruct l as [|c' l]; [reflexivity|]. rewrite IH; [reflexivity| |discriminate]. intros Hn. apply N. right. exact Hn.
Qed.
Lemma lines_concat a r : Forall (fun l => ~ In c_nl l) a ->
  lines (List.concat (map (fun l => l ++ [c_nl]) a) ++ r) = a ++ lines r.
Proof.
  induction 1 as [|l a Hl H IH]; [reflexivity|]. cbn [map List.concat]. rewrite <- !app_assoc. cbn [app].
  rewrite lines_cons by exact Hl. rewrite IH. reflexivity.
Qed.
Lemma lines_made t ls : made_of t ls -> lines t = ls.
Proof.
  intros [N [->|(a & b & -> & Hb & ->)]].
  - rewrite <- (app_nil_r (List.concat _)), lines_concat by exact N. apply app_nil_r.
  - apply Forall_app in N as [Na Nb]. rewrite lines_concat by exact Na.
    inversion Nb; subst. rewrite lines_last; auto.
Qed.
Lemma made_lines t : made_of t (lines t).
Proof.
  induction t as [|c t [N IH]]; [split; [constructor|left; reflexivity]|]. cbn [lines].
  destruct (is_nl c) eqn:E.
  - apply is_nl_spec in E. subst c. split; [constructor; [intros []|exact N]|].
    destruct IH as [->|(a & b & Ha & Hb & ->)].
    + left. rewrite <- (app_nil_r (List.concat _)) at 2. rewrite lines_concat by exact N. cbn [lines].
      rewrite app_nil_r. reflexivity.
    + right. exists ([] :: a), b. rewrite Ha. repeat split; auto.
  - assert (Ec : c <> c_nl) by (intros ->; discriminate E).
    destruct (lines t) as [|x r] eqn:L.
    + assert (t = []) as ->.
      { destruct IH as [->|(a & b & Ha & _)]; [reflexivity|]. destruct a; discriminate. }
      split; [constructor; [intros [H|[]]; congruence|constructor]|].
      right. exists [], [c]. repeat split; auto. discriminate.
    + inversion N; subst. split; [constructor; auto; intros [H|H]; [congruence|contradiction]|].
      destruct IH as [->|(a & b & Ha & Hb & ->)].
      * left. reflexivity.
      * destruct a as [|a0 a].
        -- injection Ha as -> ->. right. exists [], (c :: b). repeat split; auto. discriminate.
        -- injection Ha as -> ->. right. exists ((c :: a0) :: a), b. repeat split; auto.
Qed.

Lemma blank_spec c : is_blank c = true <-> In c [" "; c_tab].
Proof.
  unfold is_blank. rewrite orb_true_iff, !Ascii.eqb_eq. split.
  - intros [->| ->]; [left|right; left]; reflexivity.
  - intros [<-|[<-|[]]]; auto.
Qed.
Lemma drop_blanks l : drop is_blank l = [] <-> blanks l.
Proof.
  unfold blanks. rewrite Forall_forall. induction l as [|c l IH]; [split; [intros _ x []|reflexivity]|].
  cbn [drop]. destruct (is_blank c) eqn:E.
  - rewrite IH. apply blank_spec in E. split; [intros H x [<-|Hx]; auto|intros H x Hx; apply H; right; exact Hx].
  - split; [discriminate|]. intros H. exfalso. specialize (H c (or_introl eq_refl)). apply blank_spec in H. congruence.
Qed.

Lemma eol_drop l cs : Forall (eq c_cr) cs -> drop is_eol (cs ++ l) = drop is_eol l.
Proof. induction 1 as [|c cs <- H IH]; [reflexivity|exact IH]. Qed.
(** A line is stripped of carriage returns; something is left. *)
Lemma trim_spec l : ~ In c_nl l -> l <> [] -> exists cs, l = trim l ++ cs /\ Forall (eq c_cr) cs /\ trim l <> [].
Proof.
  intros N H. unfold trim.
  destruct (drop_split is_eol (rev l)) as (a & E & Ha & _).
  destruct (rev (drop is_eol (rev l))) as [|c r] eqn:R; [exists []; rewrite app_nil_r; auto|].
  exists (rev a). apply (f_equal (@rev ascii)) in E. rewrite rev_involutive, rev_app_distr, R in E.
  split; [exact E|]. split; [|discriminate]. apply Forall_rev, Forall_forall. intros x Hx.
  rewrite forallb_forall in Ha. specialize (Ha x Hx). unfold is_eol in Ha. apply orb_prop in Ha as [Ha|Ha];
    apply Ascii.eqb_eq in Ha; [symmetry; exact Ha|]. exfalso. apply N. rewrite E. apply in_or_app. right.
  rewrite <- in_rev. subst. exact Hx.
Qed.
Lemma trim_exact l cs : l <> [] -> (forall a c, l = a ++ [c] -> c <> c_cr /\ c <> c_nl) -> Forall (eq c_cr) cs -> trim (l ++ cs) = l.
Proof.
  intros H L C. unfold trim. rewrite rev_app_distr, eol_drop by (apply Forall_rev, C).
  destruct (rev l) as [|c r] eqn:R.
  - apply (f_equal (@rev ascii)) in R. rewrite rev_involutive in R. contradiction.
  - apply (f_equal (@rev ascii)) in R. rewrite rev_involutive in R. cbn [rev] in R. destruct (L _ _ R) as [L1 L2].
    cbn [drop]. assert (Ec : is_eol c = false).
    { unfold is_eol. change cr with c_cr. change nl with c_nl.
      rewrite (proj2 (Ascii.eqb_neq _ _) L1), (proj2 (Ascii.eqb_neq _ _) L2). reflexivity. }
    rewrite Ec. cbn [rev]. rewrite <- R. destruct l; [contradiction|reflexivity].
Qed.

(** ** Rows *)
Lemma numeral_cr w neg m e : numeral w neg m e -> ~ In c_cr w.
Proof.
  intros H. assert (J : Forall junk w).
  { destruct H as [s neg d f fd x xe Hs Hd Hf Hn Hx]. rewrite !Forall_app.
    split; [apply (signed_junk _ _ Hs)|]. split; [apply digits_junk; rewrite <- (forallb_ext _ _ _ digit_digit); exact Hd|].
    split; [apply (frac_junk _ _ Hf)|apply (exponent_junk _ _ Hx)]. }
  intros Hc. rewrite Forall_forall in J. destruct (J _ Hc) as [D|D]; [discriminate|].
  repeat (destruct D as [D|D]; [discriminate|]). destruct D.
Qed.
Lemma row_trim l ws : row l ws -> forall l' cs, l = l' ++ cs -> Forall (eq c_cr) cs -> row l' ws.
Proof.
  induction 1 as [sp W|sp p rest ws W Hp St R IH]; intros l' cs E C.
  - subst. apply Forall_app in W as [W _]. constructor. exact W.
  - rewrite app_assoc in E. apply app_eq_app in E as [t [[E1 E2]|[E1 E2]]].
    + destruct t as [|c t].
      * rewrite app_nil_r in E1. cbn in E2. subst l' cs.
        rewrite <- (app_nil_r p) at 1. constructor; auto. apply (IH [] rest); auto.
      * exfalso. destruct Hp as (neg & m & e & Nu & _). pose proof (numeral_cr _ _ _ _ Nu) as Hc. apply numeral_some in Nu.
        destruct (exists_last Nu) as (p' & x & ->). assert (Nt : c :: t <> []) by discriminate.
        destruct (exists_last Nt) as (t' & y & Et). rewrite Et, !app_assoc in E1. apply app_inj_tail in E1 as [_ ->].
        apply Hc. apply in_or_app. right. left. rewrite Forall_forall in C. symmetry. apply C. rewrite E2, Et. apply in_or_app. left.
        apply in_or_app. right. left. reflexivity.
    + subst l'. rewrite <- app_assoc. constructor; auto; [|apply (IH t cs); auto].
      destruct t as [|c t]; [left; reflexivity|right]. destruct St as [->|(c' & r & -> & Wc)]; [discriminate|].
      injection E2 as <- _. eauto.
Qed.
Lemma row_starts l ws : row l ws -> ws <> [] -> drop is_blank l <> [] /\ forall r, l <> "%" :: r.
Proof.
  intros R N. destruct R as [|sp p rest ws W Hp St R]; [congruence|].
  destruct Hp as (neg & m & e & Nu & _).
  assert (Hc : exists c p', p = c :: p' /\ is_blank c = false /\ c <> "%").
  { assert (J : Forall junk p).
    { destruct Nu as [s neg d f fd x xe Hs Hd Hf Hn Hx]. rewrite !Forall_app.
      split; [apply (signed_junk _ _ Hs)|]. split; [apply digits_junk; rewrite <- (forallb_ext _ _ _ digit_digit); exact Hd|].
      split; [apply (frac_junk _ _ Hf)|apply (exponent_junk _ _ Hx)]. }
    apply numeral_some in Nu. destruct p as [|c p]; [congruence|]. exists c, p. split; [reflexivity|].
    inversion J as [|? ? H _]; subst. revert H. unfold junk. clear. all_chars c; simpl; intros H;
      (split; [reflexivity|discriminate]) || (exfalso; destruct H as [H|H]; [discriminate|];
        repeat (destruct H as [H|H]; [discriminate|]); destruct H). }
  destruct Hc as (c & p' & -> & Hb & Hp'). split.
  - intros D. apply drop_blanks in D. unfold blanks in D. rewrite Forall_forall in D.
    specialize (D c). rewrite <- blank_spec in D. rewrite D in Hb; [discriminate|]. apply in_or_app. right. left. reflexivity.
  - intros r E. destruct sp as [|w sp]; [injection E as -> _; congruence|].
    injection E as -> _. inversion W as [|? ? Hw _]; subst. repeat (destruct Hw as [Hw|Hw]; [discriminate|]). destruct Hw.
Qed.

(** ** Headers *)
Lemma words_blank sp l : blanks sp -> words (sp ++ l) = words l.
Proof.
  induction 1 as [|c sp H _ IH]; [reflexivity|]. cbn [app words]. apply blank_spec in H. rewrite H. exact IH.
Qed.
Lemma words_word p rest : p <> [] -> Forall (fun c => ~ In c [" "; c_tab]) p ->
  (rest = [] \/ exists c r, rest = c :: r /\ In c [" "; c_tab]) -> words (p ++ rest) = p :: words rest.
Proof.
  intros N H St. induction H as [|c p Hc H IH]; [congruence|]. cbn [app words].
  assert (Bc : is_blank c = false) by (destruct (is_blank c) eqn:E; [apply blank_spec in E; contradiction|reflexivity]).
  rewrite Bc. destruct p as [|c' p].
  - cbn [app]. destruct St as [->|(c' & r & -> & Hb)]; [reflexivity|].
    apply blank_spec in Hb. rewrite Hb. reflexivity.
  - cbn [app] in *. inversion H as [|? ? Hc' _]; subst.
    assert (Bc' : is_blank c' = false) by (destruct (is_blank c') eqn:E; [apply blank_spec in E; contradiction|reflexivity]).
    rewrite Bc'. rewrite IH by discriminate. reflexivity.
Qed.
Lemma words_spaced l ws : spaced l ws -> words l = ws.
Proof.
  induction 1 as [sp B|sp p rest ws B N Hp St R IH].
  - rewrite <- (app_nil_r sp), words_blank by exact B. reflexivity.
  - rewrite words_blank by exact B. rewrite words_word by auto. rewrite IH. reflexivity.
Qed.
Lemma number_cols_find ws : forall k m name,
  sfind name (number_cols k ws m) =
  match List.find (fun j => match nth_error ws j with Some w => String.eqb name (string_of_list_ascii w) | None => false end)
             (rev (seq 0 (List.length ws))) with
  | Some j => Some (k + j)
  | None => sfind name m
  end.
Proof.
  induction ws as [|x ws IH] using rev_ind; intros k m name; [reflexivity|].
  assert (A : forall ws k m, number_cols k (ws ++ [x]) m = sset (string_of_list_ascii x) (k + List.length ws) (number_cols k ws m)).
  { clear. induction ws as [|y ws IH]; intros k m; cbn; [rewrite Nat.add_0_r; reflexivity|]. rewrite IH. f_equal. lia. }
  rewrite A, sfind_sset, app_length. cbn [List.length]. rewrite Nat.add_1_r, seq_S, rev_app_distr. cbn [rev app List.find plus].
  rewrite nth_error_app2, Nat.sub_diag by lia. cbn [nth_error].
  destruct (String.eqb name (string_of_list_ascii x)) eqn:E; [reflexivity|]. rewrite IH.
  assert (F : forall l, Forall (fun j => j < List.length ws) l ->
    List.find (fun j => match nth_error (ws ++ [x]) j with Some w => String.eqb name (string_of_list_ascii w) | None => false end) l =
    List.find (fun j => match nth_error ws j with Some w => String.eqb name (string_of_list_ascii w) | None => false end) l).
  { induction 1 as [|j l Hj _ IHl]; [reflexivity|]. cbn [List.find]. rewrite nth_error_app1 by exact Hj. rewrite IHl. reflexivity. }
  rewrite F; [reflexivity|]. apply Forall_rev, Forall_forall. intros j Hj. apply in_seq in Hj. lia.
Qed.
Lemma find_rev_seq (p : nat -> bool) n : forall k, List.find p (rev (seq 0 n)) = Some k <->
  k < n /\ p k = true /\ forall j, k < j -> j < n -> p j = false.
Proof.
  induction n as [|n IH]; intros k; [simpl; split; [discriminate|lia]|].
  rewrite seq_S, rev_app_distr. cbn [rev app List.find plus]. destruct (p n) eqn:E.
  - split.
    + intros H. injection H as <-. repeat split; auto. intros j; lia.
    + intros (L & Hk & H). f_equal. destruct (Nat.eq_dec n k) as [e|D]; [exact e|]. rewrite (H n) in E by lia. discriminate.
  - rewrite IH. split; intros (L & Hk & H).
    + repeat split; auto. intros j Lj Ln. destruct (Nat.eq_dec j n) as [->|D]; [exact E|apply H; lia].
    + assert (k <> n) by (intros ->; congruence). split; [lia|]. split; [exact Hk|]. intros j Lj Ln. apply H; lia.
Qed.
Lemma name_eqb name w : String.eqb name (string_of_list_ascii w) = true <-> w = list_ascii_of_string name.
Proof.
  rewrite String.eqb_eq. split; [intros ->; symmetry; apply list_ascii_of_string_of_list_ascii|].
  intros ->. symmetry. apply string_of_list_ascii_of_string.
Qed.
Lemma cols_named ns name k : sfind name (number_cols 0 ns []) = Some k <-> named (Some ns) name k.
Proof.
  rewrite number_cols_find. cbn [named].
  set (p := fun j => match nth_error ns j with Some w => String.eqb name (string_of_list_ascii w) | None => false end).
  assert (P : forall j, p j = true <-> nth_error ns j = Some (list_ascii_of_string name)).
  { intros j. unfold p. destruct (nth_error ns j) as [w|]; [|split; discriminate]. rewrite name_eqb. split; congruence. }
  pose proof (find_rev_seq p (List.length ns) k) as F.
  destruct (List.find p (rev (seq 0 (List.length ns)))) as [j|].
  - cbn [plus]. rewrite F. split.
    + intros (L & Hk & H). rewrite <- P. split; [exact Hk|]. intros i Li. rewrite <- P.
      destruct (Nat.lt_ge_cases i (List.length ns)) as [Ln|Ln]; [rewrite H by auto; discriminate|].
      rewrite P. rewrite (proj2 (nth_error_None _ _) Ln). discriminate.
    + intros (Hk & H). repeat split; [apply nth_error_Some; congruence|apply P, Hk|].
      intros i Li _. specialize (H i Li). rewrite <- P in H. destruct (p i); congruence.
  - cbn. split; [discriminate|]. intros (Hk & H). destruct F as [_ F]. rewrite F; [reflexivity|].
    repeat split; [apply nth_error_Some; congruence|apply P, Hk|].
    intros i Li _. specialize (H i Li). rewrite <- P in H. destruct (p i); congruence.
Qed.

(** ** Whole texts *)
Lemma Forall2_len {A B} (P : A -> B -> Prop) a b : Forall2 P a b -> List.length a = List.length b.
Proof. induction 1; simpl; congruence. Qed.
Lemma Forall2_In_l {A B} (P : A -> B -> Prop) a b : Forall2 P a b -> forall x, In x a -> exists y, In y b /\ P x y.
Proof.
  induction 1 as [|u v a b H _ IH]; intros x Hx; [destruct Hx|]. destruct Hx as [<-|Hx]; [exists v; split; [left|]; auto|].
  destruct (IH x Hx) as (y & Hy & Py). exists y. split; [right|]; auto.
Qed.
Lemma row_line l ws : ~ In c_nl l -> row l ws -> ws <> [] -> exists xs, Forall2 reads_as ws xs /\
  forall ls cols rows, read_lines (l :: ls) cols rows =
    match rows with
    | r :: _ => if Nat.eqb (List.length r) (List.length xs) then read_lines ls cols (xs :: rows)
                else (cols, Some (Throw RuntimeError))
    | [] => read_lines ls cols [xs]
    end.
Proof.
  intros Nl R N. destruct (row_starts _ _ R N) as [D _].
  assert (Nn : l <> []) by (intros ->; apply D; reflexivity).
  destruct (trim_spec l Nl Nn) as (cs & E & C & T).
  pose proof (row_trim _ _ R _ _ E C) as Rt. destruct (row_starts _ _ Rt N) as [_ Dt].
  destruct (row_read _ _ Rt (List.length (trim l)) (le_n _)) as (xs & X & F).
  exists xs. split; [exact F|]. intros ls cols rows. cbn [read_lines].
  destruct (drop is_blank l) as [|c0 l0]; [congruence|]. cbv zeta.
  destruct (trim l) as [|c t]; [congruence|].
  assert (Hc : c <> "%") by (intros ->; apply (Dt t); reflexivity).
  rewrite X. revert Hc. clear. intros Hc.
  destruct c as [[] [] [] [] [] [] [] []]; try reflexivity. exfalso. apply Hc. reflexivity.
Qed.
Lemma header_line l ns : ~ In c_nl l -> header l ns ->
  forall ls cols rows, read_lines (l :: ls) cols rows = read_lines ls (number_cols 0 ns []) rows.
Proof.
  intros Nl H ls cols rows. destruct H as [l ws cs Sp L C].
  assert (T : trim (("%" :: l) ++ cs) = "%" :: l).
  { apply trim_exact; auto; [discriminate|]. intros a c E. destruct a as [|a0 a].
    - injection E as <- _. split; discriminate.
    - injection E as _ E. split; [apply (L _ _ E)|]. intros ->. apply Nl. right. apply in_or_app. left. rewrite E.
      apply in_or_app. right. left. reflexivity. }
  cbn [app] in T. cbn [read_lines drop]. change (is_blank "%") with false. cbv iota zeta. rewrite T. cbn [read_lines].
  rewrite (words_spaced _ _ Sp). reflexivity.
Qed.
Lemma blank_line l : blanks l -> forall ls cols rows, read_lines (l :: ls) cols rows = read_lines ls cols rows.
Proof. intros B ls cols rows. cbn [read_lines]. apply drop_blanks in B. rewrite B. reflexivity. Qed.

Definition cols_of (n : option (list (list ascii))) (cols : smap nat) : smap nat :=
  match n with Some ns => number_cols 0 ns [] | None => cols end.
Lemma describes_reads ls n r : describes ls n r -> Forall (fun l => ~ In c_nl l) ls ->
  exists xs, Forall2 (Forall2 reads_as) r xs /\
  forall cols rows,
    (forall k, (forall x, In x xs -> List.length x = k) -> (forall x r', rows = x :: r' -> List.length x = k) ->
      read_lines ls cols rows = (cols_of n cols, Some (Ok (rev xs ++ rows)))) /\
    (forall x r' y, rows = x :: r' -> In y xs -> List.length x <> List.length y ->
      snd (read_lines ls cols rows) = Some (Throw RuntimeError)).
Proof.
  induction 1 as [|l ls n r B H IH|l ns ls n r Hh H IH|l ws ls n r R N H IH]; intros Nl.
  - exists []. split; [constructor|]. intros cols rows. split; [reflexivity|]. intros x r' y _ [].
  - inversion Nl; subst. destruct IH as (xs & F & IH); auto. exists xs. split; [exact F|].
    intros cols rows. rewrite (blank_line l B). apply IH.
  - inversion Nl; subst. destruct IH as (xs & F & IH); auto. exists xs. split; [exact F|].
    intros cols rows. rewrite (header_line l ns) by auto. destruct (IH (number_cols 0 ns []) rows) as [I1 I2].
    split; [|exact I2]. intros k H1 H2'. rewrite (I1 k) by auto. destruct n; reflexivity.
  - inversion Nl as [|? ? Nl1 Nl2]; subst. destruct IH as (xs & F & IH); auto.
    destruct (row_line l ws Nl1 R N) as (x & Fx & RL). exists (x :: xs). split; [constructor; auto|].
    intros cols rows. rewrite RL. split.
    + intros k H1 H2. assert (Lx : List.length x = k) by (apply H1; left; reflexivity).
      replace (rev (x :: xs) ++ rows) with (rev xs ++ x :: rows) by (cbn [rev]; rewrite <- app_assoc; reflexivity).
      assert (G : read_lines ls cols (x :: rows) = (cols_of n cols, Some (Ok (rev xs ++ x :: rows)))).
      { apply (proj1 (IH cols (x :: rows)) k); [intros y Hy; apply H1; right; exact Hy|].
        intros y r' E. injection E as <- _. exact Lx. }
      destruct rows as [|r0 rows]; [exact G|]. rewrite (H2 r0 rows eq_refl), Lx, Nat.eqb_refl. exact G.
    + intros r0 r' y -> Hy D. destruct Hy as [<-|Hy].
      * rewrite (proj2 (Nat.eqb_neq _ _) D). reflexivity.
      * destruct (Nat.eqb_spec (List.length r0) (List.length x)) as [E|E]; [|reflexivity].
        apply (proj2 (IH cols (x :: r0 :: r')) x (r0 :: r') y); auto. congruence.
Qed.
Lemma describes_differ ls n r : describes ls n r -> Forall (fun l => ~ In c_nl l) ls -> forall a b cols, 
  In a r -> In b r -> List.length a <> List.length b -> snd (read_lines ls cols []) = Some (Throw RuntimeError).
Proof.
  induction 1 as [|l ls n r B H IH|l ns ls n r Hh H IH|l ws ls n r R N H IH]; intros Nl a b cols Ha Hb D.
  - destruct Ha.
  - inversion Nl; subst. rewrite (blank_line l B). eauto.
  - inversion Nl; subst. rewrite (header_line l ns) by auto. eauto.
  - inversion Nl as [|? ? Nl1 Nl2]; subst.
    destruct (row_line l ws Nl1 R N) as (x & Fx & RL). rewrite RL.
    destruct (describes_reads _ _ _ H Nl2) as (xs & F & RR).
    assert (W : exists c, In c r /\ List.length ws <> List.length c).
    { destruct Ha as [<-|Ha]; destruct Hb as [<-|Hb]; [congruence|exists b; auto|exists a; split; [auto|congruence]|].
      destruct (Nat.eq_dec (List.length ws) (List.length a)); [exists b; split; [auto|congruence]|exists a; auto]. }
    destruct W as (c & Hc & Dc).
    destruct (Forall2_In_l _ _ _ F c Hc) as (y & Hy & Ey). apply Forall2_len in Ey. apply Forall2_len in Fx.
    apply (proj2 (RR cols [x]) x [] y); auto. congruence.
Qed.
