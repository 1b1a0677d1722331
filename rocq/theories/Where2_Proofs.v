From Coq Require Import List String Ascii Bool ZArith NArith Lia Arith.
From Verif Require Import SMap Dbl Config_Model Config_Spec Lexer_Model Lexer_Spec Lexer_Proofs Glps_Model Glps_Spec
  Glps_Proofs Glps2_Proofs Glps3_Proofs Glps4_Proofs Glps5_Proofs Glps6_Proofs Where_Model Where_Spec Where_Proofs.
Import ListNotations.
Open Scope string_scope.
Open Scope list_scope.

(** * The scanner's count *)
Fixpoint nlc (l : list ascii) : N :=
  match l with [] => 0 | c :: r => (if is_nl c then 1 else 0) + nlc r end%N.
Lemma nlc_app a b : nlc (a ++ b) = (nlc a + nlc b)%N.
Proof. induction a as [|c a IH]; simpl; [reflexivity|]. rewrite IH. lia. Qed.
Lemma nlc_newlines s : nlc (list_ascii_of_string s) = newlines s.
Proof. induction s as [|c s IH]; simpl; [reflexivity|]. rewrite IH. reflexivity. Qed.
Lemma nlc_none p a : (forall c, p c = true -> is_nl c = false) -> forallb p a = true -> nlc a = 0%N.
Proof.
  intros H. induction a as [|c a IH]; simpl; [reflexivity|]. intros E. apply andb_true_iff in E as [E1 E2].
  rewrite (H _ E1), (IH E2). reflexivity.
Qed.
Lemma is_nl_eq c : is_nl c = true -> c = nl.
Proof. apply Ascii.eqb_eq. Qed.
Lemma no_nl (p : ascii -> bool) : p nl = false -> forall c, p c = true -> is_nl c = false.
Proof. intros H c Hc. destruct (is_nl c) eqn:E; [|reflexivity]. apply is_nl_eq in E. subst. congruence. Qed.

Definition ends (a : list ascii) : Prop := a = [] \/ exists l, a = l ++ [nl].

Lemma span_nl p l : p nl = false -> exists u l', span p (l ++ [nl]) = (u, l' ++ [nl]) /\ l = u ++ l' /\
  nlc u = 0%N /\ forall b, span p ((l ++ [nl]) ++ b) = (u, (l' ++ [nl]) ++ b).
Proof.
  intros Hp. induction l as [|c l (u & l' & H1 & H2 & H3 & H4)].
  - exists [], []. cbn [app span]. rewrite Hp. repeat split. 
  - cbn [app span]. destruct (p c) eqn:E.
    + exists (c :: u), l'. rewrite H1. subst l. split; [reflexivity|]. split; [reflexivity|].
      split; [cbn [nlc]; rewrite (no_nl p Hp c E), H3; reflexivity|].
      intros b. rewrite H4. reflexivity.
    + exists [], (c :: l). repeat split.
Qed.

Definition app_rest (y : sres) (b : list ascii) : sres :=
  match y with STok t p r => STok t p (r ++ b) | SSkip p r => SSkip p (r ++ b) | SErr => SErr end.

Lemma exp_nl l : exists e t l', scan_exp (l ++ [nl]) = (e, t, l' ++ [nl]) /\ nlc t = 0%N /\
  forall b, scan_exp ((l ++ [nl]) ++ b) = (e, t, (l' ++ [nl]) ++ b).
Proof.
  destruct l as [|c l]; [exists 0%Z, [], []; repeat split|].
  cbn [app scan_exp]. destruct (is_exp c) eqn:Ec; [|exists 0%Z, [], (c :: l); repeat split].
  assert (Hc : is_nl c = false) by (apply (no_nl is_exp eq_refl); exact Ec).
  destruct l as [|s l]; [exists 0%Z, [], [c]; repeat split|].
  cbn [app]. destruct (is_digit s) eqn:Es.
  - destruct (span_nl is_digit (s :: l) eq_refl) as (u & l' & H1 & _ & H3 & H4).
    cbn [app] in H1, H4. rewrite H1. eexists _, _, l'. split; [reflexivity|].
    split; [cbn [nlc]; rewrite Hc, H3; reflexivity|]. intros b. rewrite H4. reflexivity.
  - destruct (is_sign s) eqn:Ss; [|exists 0%Z, [], (c :: s :: l); repeat split].
    assert (Hs : is_nl s = false) by (apply (no_nl is_sign eq_refl); exact Ss).
    destruct l as [|d l]; [exists 0%Z, [], [c; s]; repeat split|].
    cbn [app]. destruct (is_digit d) eqn:Ed; [|exists 0%Z, [], (c :: s :: d :: l); repeat split].
    destruct (span_nl is_digit (d :: l) eq_refl) as (u & l' & H1 & _ & H3 & H4).
    cbn [app] in H1, H4. rewrite H1. eexists _, _, l'. split; [reflexivity|].
    split; [cbn [nlc]; rewrite Hc, Hs, H3; reflexivity|]. intros b. rewrite H4. reflexivity.
Qed.
Lemma frac_nl l : exists d t l', scan_frac (l ++ [nl]) = (d, t, l' ++ [nl]) /\ nlc t = 0%N /\
  forall b, scan_frac ((l ++ [nl]) ++ b) = (d, t, (l' ++ [nl]) ++ b).
Proof.
  destruct l as [|c l]; [exists [], [], []; repeat split|].
  cbn [app scan_frac]. destruct (Ascii.eqb c ".") eqn:Ec; [|exists [], [], (c :: l); repeat split].
  assert (Hc : is_nl c = false) by (apply (no_nl (fun c => Ascii.eqb c ".") eq_refl); exact Ec).
  destruct (span_nl is_digit l eq_refl) as (u & l' & H1 & _ & H3 & H4).
  rewrite H1. eexists _, _, l'. split; [reflexivity|].
  split; [cbn [nlc]; rewrite Hc, H3; reflexivity|]. intros b. rewrite H4. reflexivity.
Qed.
Lemma num_nl l : exists m e t l', scan_num (l ++ [nl]) = (m, e, t, l' ++ [nl]) /\ nlc t = 0%N /\
  forall b, scan_num ((l ++ [nl]) ++ b) = (m, e, t, (l' ++ [nl]) ++ b).
Proof.
  unfold scan_num. destruct (span_nl is_digit l eq_refl) as (u & l1 & H1 & _ & H3 & H4). rewrite H1.
  destruct (frac_nl l1) as (d & t2 & l2 & F1 & F3 & F4). rewrite F1.
  destruct (exp_nl l2) as (e & t3 & l3 & G1 & G3 & G4). rewrite G1.
  eexists _, _, _, l3. split; [reflexivity|]. split; [rewrite !nlc_app, H3, F3, G3; reflexivity|].
  intros b. rewrite H4, F4, G4. reflexivity.
Qed.
Lemma kw_nl l : exists t l', scan_kw (l ++ [nl]) = (t, l' ++ [nl]) /\ nlc t = 0%N /\
  forall b, scan_kw ((l ++ [nl]) ++ b) = (t, (l' ++ [nl]) ++ b).
Proof.
  unfold scan_kw. destruct (span_nl is_kwchar l eq_refl) as (u & l1 & H1 & _ & H3 & H4). rewrite H1.
  destruct (span is_colon (rev u)) as [cs core] eqn:E. pose proof (span_spec _ _ _ _ E) as (Er & _ & _).
  exists (rev core), (rev cs ++ l1). split; [f_equal; rewrite app_assoc; reflexivity|]. split.
  - assert (Hu : nlc (rev u) = 0%N).
    { clear -H3. induction u as [|c u IH]; [reflexivity|]. simpl in *. rewrite nlc_app. simpl.
      destruct (is_nl c); [lia|]. rewrite IH; lia. }
    rewrite Er, nlc_app in Hu. clear -Hu. assert (H : nlc core = 0%N) by lia. clear Hu.
    induction core as [|c u IH]; [reflexivity|]. simpl in *. rewrite nlc_app. simpl.
    destruct (is_nl c); [lia|]. rewrite IH; lia.
  - intros b. rewrite H4, E. f_equal. rewrite <- !app_assoc. reflexivity.
Qed.

Lemma ends_nl l : ends (l ++ [nl]).
Proof. right. eauto. Qed.

Lemma scan_app l b : scan ((l ++ [nl]) ++ b) = app_rest (scan (l ++ [nl])) b /\
  match scan (l ++ [nl]) with
  | STok _ p r => ends r /\ nlc p = 0%N
  | SSkip p r => ends r /\ forall n, exists c l', l ++ [nl] = c :: l' /\ bump c n = (n + nlc p)%N
  | SErr => True
  end.
Proof.
  destruct l as [|c l].
  { cbn. split; [reflexivity|]. split; [left; reflexivity|]. intros n. exists nl, []. split; [reflexivity|].
    cbn. lia. }
  cbn [app]. unfold scan. destruct (is_letter c) eqn:E1.
  { destruct (kw_nl (c :: l)) as (t & l' & H1 & H2 & H3). cbn [app] in H1, H3. rewrite H1, H3. cbn [app_rest].
    split; [reflexivity|]. split; [apply ends_nl|exact H2]. }
  destruct (is_digit c) eqn:E2.
  { destruct (num_nl (c :: l)) as (m & e & t & l' & H1 & H2 & H3). cbn [app] in H1, H3. rewrite H1, H3.
    destruct (num_in_range m (strtod_val m e)); cbn [app_rest]; [|auto].
    split; [reflexivity|]. split; [apply ends_nl|exact H2]. }
  destruct (Ascii.eqb c "#") eqn:E3.
  { destruct (span_nl (fun c => negb (is_nl c)) (c :: l) eq_refl) as (u & l' & H1 & _ & H2 & H3).
    cbn [app] in H1, H3. rewrite H1, H3.
    assert (Hc : is_nl c = false) by (apply Ascii.eqb_eq in E3; subst; reflexivity).
    pose proof (span_spec _ _ _ _ H1) as (_ & _ & Hn).
    destruct l' as [|d l']; cbn [app app_rest].
    - split; [reflexivity|]. split; [left; reflexivity|]. intros n. exists c, (l ++ [nl]). split; [reflexivity|].
      unfold bump. rewrite E3, orb_true_r, nlc_app, H2. cbn [nlc]. rewrite (eq_refl : is_nl nl = true). lia.
    - split; [reflexivity|]. split; [apply ends_nl|]. intros n. exists c, (l ++ [nl]). split; [reflexivity|].
      destruct Hn as [Hn|(c' & b' & Hn & Hd)]; [discriminate|]. injection Hn as <- _. apply negb_false_iff in Hd.
      unfold bump. rewrite E3, orb_true_r, nlc_app, H2. cbn [nlc]. rewrite Hd. lia. }
  destruct (is_blank c) eqn:E4.
  { cbn [app_rest]. split; [reflexivity|]. split; [apply ends_nl|]. intros n. exists c, (l ++ [nl]). split; [reflexivity|].
    unfold bump. rewrite E3. cbn [nlc]. rewrite (no_nl is_blank eq_refl c E4). cbn. lia. }
  destruct (is_nl c) eqn:E5.
  { cbn [app_rest]. split; [reflexivity|]. split; [apply ends_nl|]. intros n. exists c, (l ++ [nl]). split; [reflexivity|].
    unfold bump. cbn [nlc]. rewrite E5. cbn. lia. }
  destruct (Ascii.eqb c dquote) eqn:E6.
  { destruct (span_nl is_quoted l eq_refl) as (u & l' & H1 & _ & H2 & H3). rewrite H1, H3.
    destruct l' as [|d l']; cbn [app].
    - rewrite (eq_refl : Ascii.eqb nl dquote = false). cbn. auto.
    - destruct (Ascii.eqb d dquote) eqn:Ed; cbn [app_rest]; [|auto]. split; [reflexivity|]. split; [apply ends_nl|].
      cbn [nlc]. rewrite E5, nlc_app, H2. cbn [nlc]. 
      rewrite (no_nl (fun c => Ascii.eqb c dquote) eq_refl d Ed). reflexivity. }
  destruct (punct c); cbn [app_rest]; [|auto]. split; [reflexivity|]. split; [apply ends_nl|].
  cbn [nlc]. rewrite E5. reflexivity.
Qed.

(** * Tokens of a text, with lines *)
Lemma lines_lex f : forall n l,
  match lines_fuel f n l with
  | Some (ts, m, e) => lex_fuel f l = Some (toks ts, e)
  | None => lex_fuel f l = None
  end.
Proof.
  induction f as [|f IH]; intros n l; destruct l as [|c l]; try reflexivity.
  cbn [lines_fuel lex_fuel]. destruct (scan (c :: l)) as [t p r|p r|]; [| |reflexivity].
  - specialize (IH n r). destruct (lines_fuel f n r) as [[[ts m] e]|]; rewrite IH; reflexivity.
  - apply IH.
Qed.

Lemma lines_bounds f : forall n l ts m e, lines_fuel f n l = Some (ts, m, e) ->
  Forall (fun tn : ltok => n <= snd tn <= n + nlc l)%N ts /\ (n <= m <= n + nlc l)%N.
Proof.
  induction f as [|f IH]; intros n l ts m e H; destruct l as [|c l].
  - injection H as <- <- <-. split; [constructor|simpl; lia].
  - discriminate.
  - injection H as <- <- <-. split; [constructor|simpl; lia].
  - cbn [lines_fuel] in H. destruct (scan (c :: l)) as [t p r|p r|] eqn:Es.
    + apply scan_tok in Es as (El & _ & _). destruct (lines_fuel f n r) as [[[ts' m'] e']|] eqn:Er; [|discriminate].
      injection H as <- <- <-. apply IH in Er as [H1 H2]. rewrite El, nlc_app. split; [|lia].
      constructor; [simpl; lia|]. eapply Forall_impl; [|exact H1]. simpl. intros; lia.
    + pose proof (scan_skip _ _ _ Es) as (El & _ & _). apply IH in H as [H1 H2]. 
      assert (Hb : (n <= bump c n <= n + nlc p)%N).
      { unfold bump. destruct (is_nl c || Ascii.eqb c "#")%bool eqn:Eb; [|lia]. split; [lia|].
        enough (1 <= nlc p)%N by lia. unfold scan in Es.
        destruct (is_letter c) eqn:E1.
        { destruct (scan_kw (c :: l)); discriminate. }
        destruct (is_digit c) eqn:E2.
        { destruct (scan_num (c :: l)) as [[[? ?] ?] ?]. destruct (num_in_range z (strtod_val z z0)); discriminate. }
        destruct (Ascii.eqb c "#") eqn:E3.
        { destruct (span (fun c0 => negb (is_nl c0)) (c :: l)) as [u v] eqn:Sp. pose proof (span_spec _ _ _ _ Sp) as (_ & _ & Hn).
          destruct v as [|d v]; [discriminate|]. destruct Hn as [Hn|(c' & b' & Hn & Hd)]; [discriminate|].
          injection Hn as <- _. apply negb_false_iff in Hd. injection Es as <- <-. rewrite nlc_app. cbn [nlc]. rewrite Hd. lia. }
        destruct (is_blank c) eqn:E4.
        { injection Es as <- <-. rewrite (no_nl is_blank eq_refl c E4) in Eb. discriminate. }
        rewrite orb_false_r in Eb. rewrite Eb in Es. injection Es as <- <-. cbn [nlc]. rewrite Eb. lia. }
      rewrite El, nlc_app. split; [|lia]. eapply Forall_impl; [|exact H1]. simpl. intros; lia.
    + injection H as <- <- <-. split; [constructor|lia].
Qed.

Lemma lines_more f g : forall n l x, lines_fuel f n l = Some x -> (f <= g)%nat -> lines_fuel g n l = Some x.
Proof.
  revert g. induction f as [|f IH]; intros g n l x H Hg; destruct l as [|c l].
  - destruct g; exact H.
  - discriminate.
  - destruct g; exact H.
  - destruct g as [|g]; [lia|]. cbn [lines_fuel] in *. destruct (scan (c :: l)) as [t p r|p r|]; [| |exact H].
    + destruct (lines_fuel f n r) as [[[ts m] e]|] eqn:E; [|discriminate]. rewrite (IH g _ _ _ E); [exact H|lia].
    + apply IH; [exact H|lia].
Qed.

Definition prep (q : list ltok) (x : list ltok * N * bool) : list ltok * N * bool :=
  let '(ts, m, e) := x in (q ++ ts, m, e).

(** [b] has at most [g] characters; its lines are counted from where [a] ended. *)
Lemma lines_app k : forall a, (List.length a <= k)%nat -> ends a -> forall n,
  (exists q, forall b x, lines_fuel (List.length b) (n + nlc a) b = Some x -> exists g, lines_fuel g n (a ++ b) = Some (prep q x)) \/
  (exists q m, forall b, exists g, lines_fuel g n (a ++ b) = Some (q, m, true)).
Proof.
  induction k as [|k IH]; intros a Hk Ha n.
  - destruct a as [|c a]; [|simpl in Hk; lia]. left. exists []. intros b x Hx. exists (List.length b).
    rewrite N.add_0_r in Hx. destruct x as [[ts m] e]. exact Hx.
  - destruct Ha as [->|[l ->]].
    { left. exists []. intros b x Hx. exists (List.length b).
      rewrite N.add_0_r in Hx. destruct x as [[ts m] e]. exact Hx. }
    pose proof (fun b => proj1 (scan_app l b)) as Hs. pose proof (proj2 (scan_app l [])) as Hr.
    assert (Hc : exists c l', l ++ [nl] = c :: l') by (destruct l; cbn [app]; eauto). destruct Hc as (c & l' & Hc).
    destruct (scan (l ++ [nl])) as [t p r|p r|] eqn:Es.
    + destruct Hr as [Er Hp]. pose proof (scan_tok _ _ _ _ Es) as (El & Hne & _).
      assert (Hlen : (List.length r <= k)%nat).
      { rewrite El, app_length in Hk. destruct p; [congruence|]. simpl in Hk. lia. }
      destruct (IH r Hlen Er n) as [[q Hq]|(q & m & Hq)]; [left; exists ((t, n) :: q)|right; exists ((t, n) :: q), m].
      * intros b x Hx. rewrite El, nlc_app, Hp, N.add_0_l in Hx. destruct (Hq b x Hx) as [g Hg]. exists (S g).
        specialize (Hs b). rewrite Hc in *. cbn [app lines_fuel] in *. rewrite Hs. cbn [app_rest]. rewrite Hg.
        destruct x as [[ts m] e]. reflexivity.
      * intros b. destruct (Hq b) as [g Hg]. exists (S g).
        specialize (Hs b). rewrite Hc in *. cbn [app lines_fuel] in *. rewrite Hs. cbn [app_rest]. rewrite Hg. reflexivity.
    + destruct Hr as [Er Hb]. pose proof (scan_skip _ _ _ Es) as (El & Hne & _).
      assert (Hlen : (List.length r <= k)%nat).
      { rewrite El, app_length in Hk. destruct p; [congruence|]. simpl in Hk. lia. }
      destruct (Hb n) as (c' & l'' & Hc' & Hbump). rewrite Hc in Hc'. injection Hc' as <- <-.
      destruct (IH r Hlen Er (bump c n)) as [[q Hq]|(q & m & Hq)]; [left; exists q|right; exists q, m].
      * intros b x Hx. rewrite El, nlc_app, N.add_assoc, <- Hbump in Hx. destruct (Hq b x Hx) as [g Hg]. exists (S g).
        specialize (Hs b). rewrite Hc in *. cbn [app lines_fuel] in *. rewrite Hs. cbn [app_rest]. exact Hg.
      * intros b. destruct (Hq b) as [g Hg]. exists (S g).
        specialize (Hs b). rewrite Hc in *. cbn [app lines_fuel] in *. rewrite Hs. cbn [app_rest]. exact Hg.
    + right. exists [], n. intros b. exists 1%nat. specialize (Hs b). rewrite Hc in *. cbn [app lines_fuel] in *.
      rewrite Hs. reflexivity.
Qed.

Lemma lines_total s : exists x, lines s = Some x.
Proof.
  unfold lines. pose proof (lines_lex (List.length (list_ascii_of_string s)) 1 (list_ascii_of_string s)) as H.
  destruct (lex_fuel_total _ _ (le_n (List.length (list_ascii_of_string s)))) as (ts & e & He).
  destruct (lines_fuel _ _ _) as [x|]; [eauto|congruence].
Qed.
Lemma lines_any g s x : lines_fuel g 1 (list_ascii_of_string s) = Some x -> lines s = Some x.
Proof.
  intros H. destruct (lines_total s) as [y Hy]. rewrite Hy. unfold lines in Hy.
  apply (lines_more _ (Nat.max g (List.length (list_ascii_of_string s)))) in H; [|lia].
  apply (lines_more _ (Nat.max g (List.length (list_ascii_of_string s)))) in Hy; [|lia]. congruence.
Qed.
Lemma string_app a b : list_ascii_of_string (String.append a b) = list_ascii_of_string a ++ list_ascii_of_string b.
Proof. induction a as [|c a IH]; simpl; [reflexivity|]. rewrite IH. reflexivity. Qed.

Lemma whole_nlc ls : Forall is_line ls -> nlc (list_ascii_of_string (whole_lines ls)) = N.of_nat (List.length ls).
Proof.
  induction 1 as [|l ls Hl _ IH]; [reflexivity|]. cbn [whole_lines]. rewrite string_app, nlc_app, nlc_newlines, Hl.
  cbn [list_ascii_of_string nlc]. rewrite IH, (eq_refl : is_nl "010" = true). cbn [List.length]. lia.
Qed.
Lemma whole_ends ls : ends (list_ascii_of_string (whole_lines ls)).
Proof.
  induction ls as [|l ls IH]; [left; reflexivity|]. right. cbn [whole_lines]. rewrite string_app.
  cbn [list_ascii_of_string]. destruct IH as [->|[m ->]].
  - eauto.
  - exists (list_ascii_of_string l ++ nl :: m). rewrite <- app_assoc. reflexivity.
Qed.

(** * The report *)
Lemma file_ok w c ts m e x : same (w_file (glps w) c_err (m, e) (List.length ts) c ts x) (p_all (glps w) c (toks ts)).
Proof. unfold p_all, toks. rewrite map_length. apply file_same. Qed.

(** First messages *)
Definition sticky (w : world) : Prop := forall c,
  (forall s a c', s_assign (glps w) c s a = AOk c' -> c_err c' = false -> c_err c = false) /\
  (forall s t m c', s_elem (glps w) c s t m = AOk c' -> c_err c' = false -> c_err c = false) /\
  (forall s t l c', s_line (glps w) c s t l = AOk c' -> c_err c' = false -> c_err c = false) /\
  (forall s a c', s_call (glps w) c s a = AOk c' -> c_err c' = false -> c_err c = false) /\
  (forall s c', s_cmd (glps w) c s = AOk c' -> c_err c' = false -> c_err c = false).
Lemma is_sticky w : sticky w.
Proof.
  intros c. cbn [glps s_assign s_elem s_line s_call s_cmd]. repeat split.
  - intros s a c'. unfold assign. destruct (ety a); try (intros [= <-]; discriminate);
      (destruct (sfind s (c_var_idx c)); intros [= <-]; [discriminate|auto]).
  - intros s t m c'. unfold add_element. destruct (_ || _)%bool; [intros [= <-]; discriminate|].
    destruct (sfind s (c_elem_idx c)); intros [= <-]; [discriminate|auto].
  - intros s t l c'. unfold add_line. destruct (negb _); [intros [= <-]; discriminate|].
    destruct (sfind s (c_line_idx c)); intros [= <-]; [discriminate|auto].
  - intros s a c'. unfold call1. destruct (negb _); [intros [= <-]; discriminate|].
    destruct (ety a); try (intros [= <-]; auto);
    match goal with |- abind ?y _ = _ -> _ => destruct y; cbn [abind]; [intros [= <-]; auto|discriminate..] end.
  - intros s c'. unfold command. destruct (String.eqb s "END"); intros [= <-]; [auto|discriminate].
Qed.

(** No message: nothing but an error of a statement or of the scanner makes one in a run that
    ends well. *)
Section Quiet.
Variables (w : world) (m : N).
Notation quiet f := (fun x : wst => w_first x = f).
Definition calm {B} (x : wst) (y : wres B) : Prop := io (fun _ => True) (quiet (w_first x)) (fun _ => True) y.
Notation any := (Forall (fun _ : ltok => True)).
Lemma any_all r : any r. Proof. induction r; constructor; auto. Qed.
Notation X := (glps w).
Notation e := (m, false).

Ltac inst L := apply (L); try (intros; cbn in *; auto; congruence); try apply any_all.
Lemma calm_expr0 c ts x : calm x (w_expr0 X e c ts x).
Proof. inst (expr0_io X e (fun _ => True) (quiet (w_first x)) (quiet (w_first x)) (fun _ => True)). Qed.
Lemma calm_lines f c ts x : calm x (w_lines X e f c ts x).
Proof. inst (lines_io X e (fun _ => True) (quiet (w_first x)) (quiet (w_first x)) (fun _ => True)). Qed.
Lemma calm_props f c ts x : calm x (w_props X e f c ts x).
Proof. inst (props_io X e (fun _ => True) (quiet (w_first x)) (quiet (w_first x)) (fun _ => True)). Qed.

(** After a statement *)
Definition good (c : pctx) (x : wst) (y : wres pctx) : Prop :=
  match y with
  | WOk c' _ x' => c_err c' = false -> c_err c = false /\ w_first x' = w_first x
  | _ => True
  end.
Lemma good_bind {B} c x (y : wres B) f : calm x y ->
  (forall a r x', w_first x' = w_first x -> good c x (f a r x')) -> good c x (wbind y f).
Proof. intros Hy Hf. destruct y; simpl in *; auto. apply Hf. apply Hy. Qed.
Lemma good_semi c x ts x' (k : list ltok -> wst -> wres pctx) : w_first x' = w_first x ->
  (forall r x', w_first x' = w_first x -> good c x (k r x')) -> good c x (w_semi e ts x' k).
Proof.
  intros Hx Hk. destruct ts as [|[t n] ts]; [exact I|]. destruct t; try exact I. cbn [w_semi]. apply Hk. exact Hx.
Qed.
Lemma good_fin c x y r x' : (forall c', y = AOk c' -> c_err c' = false -> c_err c = false) ->
  w_first x' = w_first x -> good c x (fin c_err y r x').
Proof.
  intros Hy Hx. unfold fin. destruct y as [c'| | |]; cbn [wact]; try exact I. cbn [good]. intros Hc.
  split; [eapply Hy; eauto|]. unfold done. rewrite Hc. exact Hx.
Qed.
Lemma print_first s x : w_first (print s x) = w_first x.
Proof. unfold print. destruct (String.eqb s "print"); reflexivity. Qed.

Lemma good_entry c ts x : good c x (w_entry X c_err e c ts x).
Proof.
  destruct (is_sticky w c) as (Ha & He & Hl & Hc & Hm).
  destruct ts as [|[t n] ts]; [exact I|]. destruct t; try exact I. rewrite entry_eq. unfold after_name.
  destruct ts as [|[t n2] ts]; [exact I|]. destruct t; try exact I.
  - unfold st_assign. apply (good_bind c x); [apply (calm_expr0 c ts (at_line n2 x))|]. intros a r x' Hx'.
    apply good_semi; [exact Hx'|]. intros. apply good_fin; [apply Ha|assumption].
  - unfold after_colon. destruct ts as [|[t n3] ts]; [exact I|]. destruct t; try exact I.
    unfold after_type.
    assert (Hg : forall f ts, good c x (st_elem X c_err e c s s0 f ts (at_line n3 x))).
    { intros f ts'. unfold st_elem. apply (good_bind c x); [apply (calm_props f c ts' (at_line n3 x))|]. intros a r x' Hx'.
      apply good_semi; [exact Hx'|]. intros. apply good_fin; [apply He|assumption]. }
    destruct ts as [|[t n4] ts]; [apply Hg|]. destruct t; try apply Hg. clear Hg.
    unfold after_eq. destruct ts as [|[t n5] ts]; [exact I|]. destruct t; try exact I.
    unfold st_line. apply (good_bind c x); [apply (calm_lines _ c ts (at_line n5 x))|]. intros a r x' Hx'.
    destruct r as [|[t k] r]; [exact I|]. destruct t; try exact I.
    apply good_semi; [exact Hx'|]. intros. apply good_fin; [apply Hl|assumption].
  - apply good_fin; [apply Hm|reflexivity].
  - unfold st_call. apply (good_bind c x); [apply (calm_expr0 c ts (at_line n2 x))|]. intros a r x' Hx'.
    destruct r as [|[t k] r]; [exact I|]. destruct t; try exact I.
    apply good_semi; [exact Hx'|]. intros. apply good_fin; [apply Hc|]. rewrite print_first. assumption.
Qed.

Lemma good_file f : forall c ts x, good c x (w_file X c_err e f c ts x).
Proof.
  induction f as [|f IH]; intros c ts x.
  - destruct ts as [|tk ts]; [|exact I]. simpl. auto.
  - destruct ts as [|tk ts]; [simpl; auto|]. cbn [w_file]. pose proof (good_entry c (tk :: ts) x) as H.
    destruct (w_entry X c_err e c (tk :: ts) x) as [c1 r1 x1|x1| |u|]; try exact I. cbn [wbind good] in *.
    pose proof (IH c1 r1 x1) as H2. destruct (w_file X c_err e f c1 r1 x1); try exact I. cbn [good] in *.
    intros Hc. destruct (H2 Hc) as [Hc1 Hx]. destruct (H Hc1) as [Hc0 Hx0]. split; congruence.
Qed.
End Quiet.

(** The parser does not stop without a message. *)
Lemma note_some x : w_first (note x) <> None.
Proof. unfold note. destruct (w_first x) eqn:E; simpl; congruence. Qed.
Definition told {B} (b : bool) (y : wres B) : Prop :=
  match y with WOk _ _ x => b = true -> w_first x <> None | WStop x => w_first x <> None | _ => True end.
Lemma file_told w e f c ts x : told false (w_file (glps w) c_err e f c ts x).
Proof.
  assert (H : io (fun _ => True) (fun _ => True) (fun x => w_first x <> None) (w_file (glps w) c_err e f c ts x)).
  { apply (file_io (glps w) c_err e (fun _ => True) (fun _ => True)); auto using any_all. intros; apply note_some. }
  destruct (w_file _ _ _ _ _ _ _); simpl in *; auto. discriminate.
Qed.
(** At the end, the context's error and the scanner's have been told. *)
Lemma file_end w m e f : forall c ts x c' r x', w_file (glps w) c_err (m, e) f c ts x = WOk c' r x' ->
  (c_err c = true -> w_first x <> None) -> (c_err c' || e)%bool = true -> w_first x' <> None.
Proof.
  induction f as [|f IH]; intros c ts x c' r x' H Hc Hb.
  - destruct ts; [|discriminate]. simpl in H. injection H as <- <- <-.
    destruct e; [apply note_some|]. rewrite orb_false_r in Hb. simpl. auto.
  - destruct ts as [|tk ts].
    + simpl in H. injection H as <- <- <-. destruct e; [apply note_some|]. rewrite orb_false_r in Hb. simpl. auto.
    + cbn [w_file] in H. destruct (w_entry (glps w) c_err (m, e) c (tk :: ts) x) as [c1 r1 x1|x1| |u|] eqn:E; try discriminate.
      cbn [wbind] in H. eapply IH; [exact H| |exact Hb]. intros Hc1. clear -E Hc1.
      assert (Hf : forall y r x0 c1 r1 x1, fin c_err y r x0 = WOk c1 r1 x1 -> c_err c1 = true -> w_first x1 <> None).
      { clear. intros y r x0 c1 r1 x1 H Hc. unfold fin in H. destruct y; try discriminate. cbn [wact] in H.
        injection H as -> <- <-. unfold done. rewrite Hc. apply note_some. }
      assert (Hs : forall y g r x0 c1 r1 x1, w_semi (m, e) r x0 (fun r x => fin c_err y r (g x)) = WOk c1 r1 x1 -> c_err c1 = true -> w_first x1 <> None).
      { clear -Hf. intros y g r x0 c1 r1 x1 H Hc. destruct r as [|[t k] r]; [discriminate|]. destruct t; try discriminate.
        eapply Hf; eassumption. }
      destruct tk as [t n]. destruct t; try discriminate. rewrite entry_eq in E. unfold after_name in E.
      destruct ts as [|[t n2] ts]; [discriminate|]. destruct t; try discriminate.
      * unfold st_assign in E. destruct (w_expr0 _ _ _ _ _); try discriminate. cbn [wbind] in E.
        exact (Hs _ (fun x => x) _ _ _ _ _ E Hc1).
      * unfold after_colon in E. destruct ts as [|[t n3] ts]; [discriminate|]. destruct t; try discriminate.
        unfold after_type in E.
        assert (Hg : forall f ts, st_elem (glps w) c_err (m, e) c s s0 f ts (at_line n3 x) = WOk c1 r1 x1 -> w_first x1 <> None).
        { intros f ts' E'. unfold st_elem in E'. destruct (w_props _ _ _ _ _ _); try discriminate. cbn [wbind] in E'.
          exact (Hs _ (fun x => x) _ _ _ _ _ E' Hc1). }
        destruct ts as [|[t n4] ts]; [exact (Hg _ _ E)|]. destruct t; try exact (Hg _ _ E). clear Hg.
        unfold after_eq in E. destruct ts as [|[t n5] ts]; [discriminate|]. destruct t; try discriminate.
        unfold st_line in E. destruct (w_lines _ _ _ _ _ _); try discriminate. cbn [wbind] in E.
        destruct rest as [|[t k] r]; [discriminate|]. destruct t; try discriminate.
        exact (Hs _ (fun x => x) _ _ _ _ _ E Hc1).
      * exact (Hf _ _ _ _ _ _ E Hc1).
      * unfold st_call in E. destruct (w_expr0 _ _ _ _ _); try discriminate. cbn [wbind] in E.
        destruct rest as [|[t k] r]; [discriminate|]. destruct t; try discriminate.
        exact (Hs _ (print s) _ _ _ _ _ E Hc1).
Qed.

Lemma lines_text s ts m e : lines s = Some (ts, m, e) -> lex s = Some (toks ts, e).
Proof.
  unfold lines, lex. intros H. pose proof (lines_lex (List.length (list_ascii_of_string s)) 1 (list_ascii_of_string s)) as L.
  rewrite H in L. exact L.
Qed.

Lemma reported w vars s : ssorted vars ->
  match report_text w vars s with
  | Fine _ => exists t, parse_text w vars false s = Parsed t
  | OnLine _ _ => parse_text w vars false s = Failed \/ parse_text w vars false s = FailedKvFree
  | Broken => parse_text w vars false s = Undefined UBCast
  end.
Proof.
  intros Hs. unfold report_text. destruct (lines_total s) as [[[ts m] e] Hl]. rewrite Hl.
  unfold parse_text. rewrite (lines_text s ts m e Hl).
  pose proof (parse_safe w vars false (toks ts) e Hs) as Hsafe.
  destruct (start_rel vars Hs) as [R He]. unfold report_tokens.
  pose proof (file_ok w (fill_vars vars ctx0) ts m e (mkW 1 None [])) as H.
  pose proof (file_told w (m, e) (List.length ts) (fill_vars vars ctx0) ts (mkW 1 None [])) as Ht.
  pose proof (file_end w m e (List.length ts) (fill_vars vars ctx0) ts (mkW 1 None [])) as Hend.
  pose proof (good_file w m (List.length ts) (fill_vars vars ctx0) ts (mkW 1 None [])) as Hgood.
  pose proof (Glps4_Proofs.file_rel w (List.length (toks ts)) _ _ (toks ts) R) as HR.
  fold (p_all (glps w) (fill_vars vars ctx0) (toks ts)) in HR.
  unfold parse_tokens in *.
  destruct (w_file (glps w) c_err (m, e) (List.length ts) (fill_vars vars ctx0) ts (mkW 1 None [])) as [c r x|x| |u|] eqn:Ew;
    simpl in H, Ht.
  - rewrite H in *. specialize (Hend c r x eq_refl). simpl in HR. destruct HR as [env' R'].
    destruct (w_first x) as [k|] eqn:Ex.
    + destruct (c_err c || e)%bool eqn:Eb; [left; reflexivity|]. exfalso.
      apply orb_false_iff in Eb as [Eb ->]. rewrite Ew in Hgood. cbn [good] in Hgood.
      destruct (Hgood Eb) as [_ Hx]. simpl in Hx. congruence.
    + destruct (c_err c || e)%bool eqn:Eb; [exfalso; apply Hend; auto; congruence|].
      destruct (fill_spec c env' false R') as (t & -> & _). eauto.
  - destruct (w_first x) as [k|]; [|congruence]. destruct H as [[] ->]; auto.
  - rewrite H in Hsafe. contradiction.
  - rewrite H in *. destruct u; try contradiction. reflexivity.
  - rewrite H in Hsafe. contradiction.
Qed.

Lemma lattice_fine w vars s t : ssorted vars -> parse_text w vars true s = Parsed t -> exists pr, report_text w vars s = Fine pr.
Proof.
  intros Hs H. pose proof (reported w vars s Hs) as Hr.
  assert (Hp : exists c, parse_text w vars false s = Parsed c).
  { unfold parse_text in *. destruct (lex s) as [[ts e]|]; [|discriminate]. unfold parse_tokens in *.
    destruct (start_rel vars Hs) as [R He].
    pose proof (Glps4_Proofs.file_rel w (List.length ts) _ _ ts R) as HR.
    fold (p_all (glps w) (fill_vars vars ctx0) ts) in HR.
    destruct (p_all (glps w) (fill_vars vars ctx0) ts) as [c r|[]| |u|]; try discriminate.
    destruct (c_err c || e)%bool; [discriminate|]. simpl in HR. destruct HR as [env' R'].
    destruct (fill_spec c env' false R') as (t' & -> & _). eauto. }
  destruct Hp as [c Hp]. destruct (report_text w vars s) as [pr|k pr|]; [eauto| |].
  - destruct Hr as [Hr|Hr]; congruence.
  - congruence.
Qed.

Lemma in_text w vars s :
  match report_text w vars s with
  | Fine pr => Forall (fun k => 1 <= k <= 1 + newlines s)%N pr
  | OnLine n pr => (1 <= n <= 1 + newlines s)%N /\ Forall (fun k => 1 <= k <= 1 + newlines s)%N pr
  | Broken => True
  end.
Proof.
  unfold report_text. destruct (lines_total s) as [[[ts m] e] Hl]. rewrite Hl.
  unfold lines in Hl. apply lines_bounds in Hl as [Ht Hm]. rewrite nlc_newlines in *.
  set (P := fun k : N => (1 <= k <= 1 + newlines s)%N) in *.
  set (Wk := fun x : wst => (forall k, w_first x = Some k -> P k) /\ Forall P (w_prints x)).
  set (Iv := fun x : wst => P (w_line x) /\ Wk x).
  assert (HN : forall x, Iv x -> Iv (note x)).
  { intros x H. unfold note. destruct (w_first x) eqn:E; [exact H|]. destruct H as (H1 & H2 & H3).
    split; [exact H1|]. split; [|exact H3]. simpl. intros k [= <-]. exact H1. }
  assert (H : io P Iv Iv (w_file (glps w) c_err (m, e) (List.length ts) (fill_vars vars ctx0) ts (mkW 1 None []))).
  { apply (file_io (glps w) c_err (m, e) P Wk); auto.
    - intros n x [H1 H2] Hn. split; [exact Hn|]. split; assumption.
    - intros x [_ H]. exact H.
    - intros f x H. unfold print. destruct (String.eqb f "print"); [|exact H]. destruct H as (H1 & H2 & H3).
      split; [exact H1|]. split; [exact H2|]. constructor; assumption.
    - split; [discriminate|constructor]. }
  unfold report_tokens.
  assert (Hx : forall x, Iv x -> match (match w_first x with None => Fine (rev (w_prints x)) | Some n => OnLine n (rev (w_prints x)) end) with
    | Fine pr => Forall P pr | OnLine n pr => P n /\ Forall P pr | Broken => True end).
  { intros x (_ & H1 & H2). apply Forall_rev in H2. destruct (w_first x) eqn:E; [split; [apply H1; reflexivity|exact H2]|exact H2]. }
  destruct (w_file _ _ _ _ _ _ _); simpl in H; try exact I; apply Hx; tauto.
Qed.

Lemma file_nofuel w c ts m e x : w_file (glps w) c_err (m, e) (List.length ts) c ts x <> WFuel.
Proof.
  intros H. pose proof (file_ok w c ts m e x) as Hs. rewrite H in Hs. simpl in Hs. exact (all_fuel _ _ _ Hs).
Qed.

Lemma cause w vars ls b b' k pr : Forall is_line ls ->
  report_text w vars (whole_lines ls ++ b) = OnLine k pr -> (k <= N.of_nat (List.length ls))%N ->
  about k (report_text w vars (whole_lines ls ++ b')).
Proof.
  intros Hls. set (a := list_ascii_of_string (whole_lines ls)). intros H Hk.
  assert (Ha : nlc a = N.of_nat (List.length ls)) by (apply whole_nlc; exact Hls).
  destruct (lines_app (List.length a) a (le_n _) (whole_ends ls) 1) as [[q Hq]|(q & m & Hq)].
  - assert (Hb : forall b, exists s m e, lines (whole_lines ls ++ b)%string = Some (q ++ s, m, e) /\
        Forall (fun tn : ltok => N.of_nat (List.length ls) < snd tn)%N s /\ (N.of_nat (List.length ls) < m)%N).
    { intros d. set (l := list_ascii_of_string d).
      assert (Hd : exists x, lines_fuel (List.length l) (1 + nlc a) l = Some x).
      { pose proof (lines_lex (List.length l) (1 + nlc a) l) as L.
        destruct (lex_fuel_total _ _ (le_n (List.length l))) as (us & e & Hu).
        destruct (lines_fuel (List.length l) (1 + nlc a) l) as [y|]; [eauto|congruence]. }
      destruct Hd as [[[s m] e] Hd]. exists s, m, e. split.
      - destruct (Hq l _ Hd) as [g Hg]. apply (lines_any g). rewrite string_app. exact Hg.
      - apply lines_bounds in Hd as [H1 H2]. rewrite Ha in *. split; [|lia]. eapply Forall_impl; [|exact H1]. intros tn Hn. cbv beta in *. lia. }
    destruct (Hb b) as (s1 & m1 & e1 & L1 & B1 & M1). destruct (Hb b') as (s2 & m2 & e2 & L2 & B2 & M2).
    unfold report_text in *. rewrite L1 in H. rewrite L2. clear L1 L2 Hb. unfold report_tokens in *.
    set (n := N.of_nat (List.length ls)) in *.
    pose proof (file_rel (glps w) c_err n s1 s2 (m1, e1) (m2, e2) B1 B2 M1 M2
      (List.length (q ++ s1)) (List.length (q ++ s2)) (fill_vars vars ctx0) q (mkW 1 None [])) as R.
    pose proof (file_nofuel w (fill_vars vars ctx0) (q ++ s1) m1 e1 (mkW 1 None [])) as F1.
    pose proof (file_nofuel w (fill_vars vars ctx0) (q ++ s2) m2 e2 (mkW 1 None [])) as F2.
    destruct R as [R|[R|[(c & q' & x & _ & R1 & R2)|[(x & R1 & R2)|[[R1 R2]|[(u & R1 & R2)|(v & O1 & O2)]]]]]]; try contradiction.
    + rewrite R1 in H. rewrite R2. destruct (w_first x) as [k'|]; [|discriminate]. injection H as <- _. right. eauto.
    + rewrite R1 in H. rewrite R2. destruct (w_first x) as [k'|]; [|discriminate]. injection H as <- _. right. eauto.
    + rewrite R2. left. reflexivity.
    + rewrite R2. left. reflexivity.
    + assert (Hv : v = Some k).
      { destruct (w_file _ _ (m1, e1) _ _ _ _) as [c r x|x| |u|]; try discriminate; simpl in O1.
        - destruct O1 as [[Hx _] _]. unfold settle in Hx. destruct (w_first x) as [k'|]; [|discriminate].
          injection H as <- _. apply N.leb_le in Hk. rewrite Hk in Hx. congruence.
        - destruct O1 as [Hx _]. unfold settle in Hx. destruct (w_first x) as [k'|]; [|discriminate].
          injection H as <- _. apply N.leb_le in Hk. rewrite Hk in Hx. congruence. }
      subst v.
      assert (Hx : forall x, settle n x = Some k -> w_first x = Some k).
      { intros x. unfold settle. destruct (w_first x) as [k'|]; [|discriminate]. destruct (k' <=? n)%N; congruence. }
      destruct (w_file _ _ (m2, e2) _ _ _ _) as [c r x|x| |u|]; try (left; reflexivity); simpl in O2.
      * destruct O2 as [[Ho _] _]. rewrite (Hx x Ho). right. eauto.
      * destruct O2 as [Ho _]. rewrite (Hx x Ho). right. eauto.
  - assert (Hb : forall b, lines (whole_lines ls ++ b)%string = Some (q, m, true)).
    { intros d. destruct (Hq (list_ascii_of_string d)) as [g Hg]. apply (lines_any g). rewrite string_app. exact Hg. }
    unfold report_text in *. rewrite Hb in *. right. eauto.
Qed.

(** A name is looked up after the token behind it has been read. *)
Lemma culprit_refuted_w : report_text demo [] ("x = y" ++ whole_lines [""; ""] ++ ";") = OnLine 3 [] /\
  report_text demo [] (("y = 1;" ++ "x = y") ++ whole_lines [""; ""] ++ ";") = Fine [].
Proof. split; vm_compute; reflexivity. Qed.
Lemma culprit_refuted : exists w vars def use rest, is_line use /\
  report_text w vars (use ++ whole_lines [""; ""] ++ rest) = OnLine 3 [] /\
  report_text w vars ((def ++ use) ++ whole_lines [""; ""] ++ rest) = Fine [].
Proof. exists demo, [], "y = 1;", "x = y", ";". split; [reflexivity|exact culprit_refuted_w]. Qed.
