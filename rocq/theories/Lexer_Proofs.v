From Coq Require Import List String Ascii Bool ZArith Lia Arith.
From Verif Require Import Dbl Lexer_Model Lexer_Spec.
Import ListNotations.
Open Scope char_scope.

Ltac all_chars c := destruct c as [[] [] [] [] [] [] [] []].

Lemma alpha_letter c : c_alpha c = is_letter c.
Proof. all_chars c; reflexivity. Qed.
Lemma digit_digit c : c_digit c = is_digit c.
Proof. all_chars c; reflexivity. Qed.
Lemma word_kwchar c : por c_word (one ":") c = is_kwchar c.
Proof. all_chars c; reflexivity. Qed.
Lemma word_not_colon c : c_word c = (is_kwchar c && negb (is_colon c))%bool.
Proof. all_chars c; reflexivity. Qed.
Lemma nl_nl c : pnot (one c_nl) c = negb (is_nl c).
Proof. all_chars c; reflexivity. Qed.
Lemma quoted_quoted c : pnot (oneof [c_quote; c_nl; c_cr]) c = is_quoted c.
Proof. all_chars c; reflexivity. Qed.
Lemma blank_blank c : oneof [" "; c_tab] c = is_blank c.
Proof. all_chars c; reflexivity. Qed.
Lemma exp_exp c : oneof ["e"; "E"] c = is_exp c.
Proof. all_chars c; reflexivity. Qed.
Lemma sign_sign c : oneof ["+"; "-"] c = is_sign c.
Proof. all_chars c; reflexivity. Qed.

Lemma forallb_ext (p q : ascii -> bool) l : (forall c, p c = q c) -> forallb p l = forallb q l.
Proof. intros H. induction l as [|c l IH]; simpl; [reflexivity|]. rewrite H, IH. reflexivity. Qed.

(** ** span *)
Lemma span_spec p l a b : span p l = (a, b) ->
  l = a ++ b /\ forallb p a = true /\ (b = [] \/ exists c b', b = c :: b' /\ p c = false).
Proof.
  revert a b. induction l as [|c l IH]; simpl; intros a b H.
  - injection H as <- <-. auto.
  - destruct (p c) eqn:E.
    + destruct (span p l) as [a' b'] eqn:S. injection H as <- <-.
      destruct (IH _ _ eq_refl) as (H1 & H2 & H3). subst l. simpl. rewrite E, H2. auto.
    + injection H as <- <-. simpl. repeat split; auto. right. exists c, l. auto.
Qed.

Lemma span_exact p x y : forallb p x = true ->
  (y = [] \/ exists c y', y = c :: y' /\ p c = false) -> span p (x ++ y) = (x, y).
Proof.
  intros Hx Hy. induction x as [|c x IH]; simpl in *.
  - destruct Hy as [->|(c & y' & -> & Hc)]; simpl; [reflexivity|]. rewrite Hc. reflexivity.
  - apply andb_true_iff in Hx as [Hc Hx]. rewrite Hc, (IH Hx). reflexivity.
Qed.

Lemma span_prefix p x y a b : forallb p x = true -> span p (x ++ y) = (a, b) ->
  exists z, a = x ++ z /\ y = z ++ b.
Proof.
  revert a b. induction x as [|c x IH]; simpl; intros a b Hx H.
  - destruct (span_spec _ _ _ _ H) as (-> & _). exists a. auto.
  - apply andb_true_iff in Hx as [Hc Hx]. rewrite Hc in H.
    destruct (span p (x ++ y)) as [a' b'] eqn:S. injection H as <- <-.
    destruct (IH _ _ Hx eq_refl) as (z & -> & ->). exists z. auto.
Qed.

(** ** Regular expressions *)
Lemma inv_chr p l : matches (RChr p) l -> exists c, l = [c] /\ p c = true.
Proof. intros H. inversion H; subst. eauto. Qed.
Lemma inv_seq a b l : matches (RSeq a b) l -> exists s t, l = s ++ t /\ matches a s /\ matches b t.
Proof. intros H. inversion H; subst. eauto. Qed.
Lemma inv_opt a l : matches (ROpt a) l -> l = [] \/ matches a l.
Proof. intros H. inversion H; subst; auto. Qed.
Lemma star_chr p l : matches (RStar (RChr p)) l <-> forallb p l = true.
Proof.
  split.
  - intros H. remember (RStar (RChr p)) as r eqn:E. induction H; try discriminate; [reflexivity|].
    injection E as ->. apply inv_chr in H as (c & -> & Hc). simpl. rewrite Hc. auto.
  - induction l as [|c l IH]; simpl; intros H; [constructor|].
    apply andb_true_iff in H as [Hc H]. change (c :: l) with ([c] ++ l).
    constructor; [constructor; exact Hc|auto].
Qed.
Lemma m_chr' (p : ascii -> bool) c l : l = [c] -> p c = true -> matches (RChr p) l.
Proof. intros -> H. constructor. exact H. Qed.

(** Keywords *)
Lemma kw_matches l : matches (rule_re LKeyword) l <->
  exists c b, l = c :: b /\ is_letter c = true /\ forallb is_kwchar b = true /\
    (b = [] \/ exists b' d, b = b' ++ [d] /\ is_colon d = false).
Proof.
  simpl rule_re. split.
  - intros H. apply inv_seq in H as (s & t & -> & Hs & Ht).
    apply inv_chr in Hs as (c & -> & Hc). rewrite alpha_letter in Hc.
    exists c, t. simpl. split; [reflexivity|]. split; [exact Hc|].
    apply inv_opt in Ht as [->|Ht]; [auto|].
    apply inv_seq in Ht as (b' & e & -> & Hb & He).
    apply inv_chr in He as (d & -> & Hd). apply star_chr in Hb.
    rewrite (forallb_ext _ _ _ word_kwchar) in Hb. rewrite word_not_colon in Hd.
    apply andb_true_iff in Hd as [Hd1 Hd2]. apply negb_true_iff in Hd2.
    rewrite forallb_app. simpl. rewrite Hb, Hd1. split; [reflexivity|]. right. eauto.
  - intros (c & b & -> & Hc & Hb & Hl). change (c :: b) with ([c] ++ b).
    constructor; [constructor; rewrite alpha_letter; exact Hc|].
    destruct Hl as [->|(b' & d & -> & Hd)]; [constructor|].
    rewrite forallb_app in Hb. simpl in Hb. apply andb_true_iff in Hb as [Hb Hd'].
    rewrite andb_true_r in Hd'.
    apply m_opt. constructor.
    + apply star_chr. rewrite (forallb_ext _ _ _ word_kwchar). exact Hb.
    + constructor. rewrite word_not_colon, Hd', Hd. reflexivity.
Qed.

(** Digits *)
Lemma digits_matches l : matches (RSeq (RChr c_digit) (RStar (RChr c_digit))) l <->
  l <> [] /\ forallb is_digit l = true.
Proof.
  split.
  - intros H. apply inv_seq in H as (s & t & -> & Hs & Ht).
    apply inv_chr in Hs as (c & -> & Hc). apply star_chr in Ht.
    rewrite (forallb_ext _ _ _ digit_digit) in Ht. rewrite digit_digit in Hc.
    simpl. rewrite Hc, Ht. split; [discriminate|reflexivity].
  - intros [Hn H]. destruct l as [|c l]; [congruence|]. simpl in H. apply andb_true_iff in H as [Hc H].
    change (c :: l) with ([c] ++ l). constructor; [constructor; rewrite digit_digit; exact Hc|].
    apply star_chr. rewrite (forallb_ext _ _ _ digit_digit). exact H.
Qed.

Inductive frac_text : list ascii -> list ascii -> Prop :=
| ft0 : frac_text [] []
| ft1 d : forallb is_digit d = true -> frac_text ("." :: d) d.
Inductive exp_text : list ascii -> Prop :=
| et0 : exp_text []
| et1 c d : is_exp c = true -> d <> [] -> forallb is_digit d = true -> exp_text (c :: d)
| et2 c s d : is_exp c = true -> is_sign s = true -> d <> [] -> forallb is_digit d = true -> exp_text (c :: s :: d).

Lemma num_matches l : matches (rule_re LNumber) l <->
  exists d f fd x, l = d ++ f ++ x /\ d <> [] /\ forallb is_digit d = true /\ frac_text f fd /\ exp_text x.
Proof.
  cbn [rule_re]. split.
  - intros H. apply inv_seq in H as (d & t & -> & Hd & Ht). apply digits_matches in Hd as [Hd1 Hd2].
    apply inv_seq in Ht as (f & x & -> & Hf & Hx).
    assert (Hf' : exists fd, frac_text f fd).
    { apply inv_opt in Hf as [->|Hf]; [eexists; constructor|].
      apply inv_seq in Hf as (a & fd & -> & Ha & Hfd). apply inv_chr in Ha as (c & -> & Hc).
      unfold one in Hc. apply Ascii.eqb_eq in Hc. subst c. apply star_chr in Hfd.
      rewrite (forallb_ext _ _ _ digit_digit) in Hfd. exists fd. constructor. exact Hfd. }
    destruct Hf' as [fd Hf']. exists d, f, fd, x. repeat split; auto.
    apply inv_opt in Hx as [->|Hx]; [constructor|].
    apply inv_seq in Hx as (a & b & -> & Ha & Hb). apply inv_chr in Ha as (c & -> & Hc).
    rewrite exp_exp in Hc.
    apply inv_seq in Hb as (s & e & -> & Hs & He). apply digits_matches in He as [He1 He2].
    apply inv_opt in Hs as [->|Hs]; [apply et1; auto|].
    apply inv_chr in Hs as (sg & -> & Hsg). rewrite sign_sign in Hsg. apply et2; auto.
  - intros (d & f & fd & x & -> & Hd1 & Hd2 & Hf & Hx).
    constructor; [apply digits_matches; auto|]. constructor.
    + destruct Hf as [|fd Hfd]; [constructor|]. apply m_opt. change ("." :: fd) with (["."] ++ fd).
      constructor; [constructor; reflexivity|]. apply star_chr.
      rewrite (forallb_ext _ _ _ digit_digit). exact Hfd.
    + destruct Hx as [|c e Hc He1 He2|c s e Hc Hs He1 He2]; [constructor| |]; apply m_opt.
      * change (c :: e) with ([c] ++ ([] ++ e)). constructor; [constructor; rewrite exp_exp; exact Hc|].
        constructor; [constructor|]. apply digits_matches; auto.
      * change (c :: s :: e) with ([c] ++ ([s] ++ e)). constructor; [constructor; rewrite exp_exp; exact Hc|].
        constructor; [apply m_opt; constructor; rewrite sign_sign; exact Hs|]. apply digits_matches; auto.
Qed.

Lemma comment_matches l : matches (rule_re LComment) l <->
  exists t, l = "#" :: t ++ [nl] /\ forallb (fun c => negb (is_nl c)) t = true.
Proof.
  cbn [rule_re]. split.
  - intros H. apply inv_seq in H as (a & b & -> & Ha & Hb). apply inv_chr in Ha as (c & -> & Hc).
    unfold one in Hc. apply Ascii.eqb_eq in Hc. subst c.
    apply inv_seq in Hb as (t & n & -> & Ht & Hn). apply inv_chr in Hn as (c & -> & Hc).
    unfold one in Hc. apply Ascii.eqb_eq in Hc. subst c. apply star_chr in Ht.
    rewrite (forallb_ext _ _ _ nl_nl) in Ht. exists t. auto.
  - intros (t & -> & Ht). change ("#" :: t ++ [nl]) with (["#"] ++ (t ++ [nl])).
    constructor; [constructor; reflexivity|]. constructor.
    + apply star_chr. rewrite (forallb_ext _ _ _ nl_nl). exact Ht.
    + constructor. reflexivity.
Qed.

Lemma string_matches l : matches (rule_re LString) l <->
  exists t, l = dquote :: t ++ [dquote] /\ forallb is_quoted t = true.
Proof.
  cbn [rule_re]. split.
  - intros H. apply inv_seq in H as (a & b & -> & Ha & Hb). apply inv_chr in Ha as (c & -> & Hc).
    unfold one in Hc. apply Ascii.eqb_eq in Hc. subst c.
    apply inv_seq in Hb as (t & n & -> & Ht & Hn). apply inv_chr in Hn as (c & -> & Hc).
    unfold one in Hc. apply Ascii.eqb_eq in Hc. subst c. apply star_chr in Ht.
    rewrite (forallb_ext _ _ _ quoted_quoted) in Ht. exists t. auto.
  - intros (t & -> & Ht). change (dquote :: t ++ [dquote]) with ([dquote] ++ (t ++ [dquote])).
    constructor; [constructor; reflexivity|]. constructor.
    + apply star_chr. rewrite (forallb_ext _ _ _ quoted_quoted). exact Ht.
    + constructor. reflexivity.
Qed.

(** ** The first character selects the rule *)
Definition rule_of (c : ascii) : option rule :=
  if is_letter c then Some LKeyword
  else if is_digit c then Some LNumber
  else if Ascii.eqb c "#" then Some LComment
  else if is_blank c then Some LBlank
  else if is_nl c then Some LNewline
  else if Ascii.eqb c dquote then Some LString
  else match punct c with Some _ => Some LPunct | None => None end.

Lemma matches_first r p : matches (rule_re r) p -> exists c q, p = c :: q /\ rule_of c = Some r.
Proof.
  destruct r; intros H.
  - apply kw_matches in H as (c & b & -> & Hc & _). exists c, b. split; [reflexivity|].
    unfold rule_of. rewrite Hc. reflexivity.
  - apply num_matches in H as (d & f & fd & x & -> & Hd & Hd2 & _).
    destruct d as [|c d]; [congruence|]. simpl in Hd2. apply andb_true_iff in Hd2 as [Hc _].
    exists c, (d ++ f ++ x). split; [reflexivity|].
    revert Hc. clear. all_chars c; try discriminate; reflexivity.
  - apply comment_matches in H as (t & -> & _). eexists _, _. split; reflexivity.
  - simpl in H. apply inv_chr in H as (c & -> & Hc). exists c, []. split; [reflexivity|].
    revert Hc. clear. all_chars c; simpl; try discriminate; reflexivity.
  - simpl in H. apply inv_chr in H as (c & -> & Hc). exists c, []. split; [reflexivity|].
    revert Hc. clear. all_chars c; simpl; try discriminate; reflexivity.
  - simpl in H. apply inv_chr in H as (c & -> & Hc). exists c, []. split; [reflexivity|].
    revert Hc. clear. all_chars c; simpl; try discriminate; reflexivity.
  - apply string_matches in H as (t & -> & _). eexists _, _. split; reflexivity.
Qed.

(** Longest match, given the rule the first character selects. *)
Lemma longest_by_rule r p rest :
  matches (rule_re r) p ->
  (forall p' rest', p ++ rest = p' ++ rest' -> matches (rule_re r) p' -> List.length p' <= List.length p) ->
  longest r p rest.
Proof.
  intros Hp Hmax. split; [exact Hp|]. intros r' p' rest' E H'.
  assert (r' = r) as ->.
  { destruct (matches_first _ _ Hp) as (c & q & -> & Hc).
    destruct (matches_first _ _ H') as (c' & q' & -> & Hc').
    simpl in E. injection E as -> _. congruence. }
  eapply Hmax; eauto.
Qed.

Lemma app_prefix {A} (a b c d : list A) : a ++ b = c ++ d -> List.length c <= List.length a ->
  exists z, a = c ++ z /\ d = z ++ b.
Proof.
  revert c. induction a as [|x a IH]; intros c E L.
  - destruct c as [|y c]; [|simpl in L; lia]. exists []. simpl in *. auto.
  - destruct c as [|y c]; simpl in *.
    + exists (x :: a). auto.
    + injection E as -> E. destruct (IH c E ltac:(lia)) as (z & -> & ->). exists z. auto.
Qed.

Lemma longest_unique r p rest r' p' rest' :
  p ++ rest = p' ++ rest' -> longest r p rest -> longest r' p' rest' ->
  r = r' /\ p = p' /\ rest = rest'.
Proof.
  intros E [Hp Hm] [Hp' Hm'].
  pose proof (Hm _ _ _ E Hp') as L1. pose proof (Hm' _ _ _ (eq_sym E) Hp) as L2.
  destruct (app_prefix _ _ _ _ E L1) as (z & -> & ->).
  rewrite app_length in L2. destruct z; [|simpl in L2; lia]. rewrite app_nil_r in *.
  split; [|split; [reflexivity|reflexivity]].
  destruct (matches_first _ _ Hp) as (c & q & -> & Hc).
  destruct (matches_first _ _ Hp') as (c' & q' & E' & Hc'). injection E' as -> _. congruence.
Qed.

(** *** Keywords *)
Lemma colons_spec body : exists core colons,
  (let (cs, co) := span is_colon (rev body) in (rev co, rev cs)) = (core, colons) /\
  body = core ++ colons /\ forallb is_colon colons = true /\
  (core = [] \/ exists b d, core = b ++ [d] /\ is_colon d = false).
Proof.
  destruct (span is_colon (rev body)) as [cs co] eqn:S. exists (rev co), (rev cs).
  destruct (span_spec _ _ _ _ S) as (H1 & H2 & H3). split; [reflexivity|].
  split. { rewrite <- (rev_involutive body), H1, rev_app_distr. reflexivity. }
  split.
  { apply forallb_forall. intros x Hx. rewrite forallb_forall in H2. apply H2. apply in_rev. exact Hx. }
  destruct H3 as [->|(c & b' & -> & Hc)]; [left; reflexivity|]. right. exists (rev b'), c. auto.
Qed.

Lemma scan_kw_spec c l t r : is_letter c = true -> scan_kw (c :: l) = (t, r) ->
  c :: l = t ++ r /\ t <> [] /\ longest LKeyword t r.
Proof.
  intros Hc H. unfold scan_kw in H.
  destruct (span is_kwchar (c :: l)) as [body rest] eqn:S.
  destruct (span_spec _ _ _ _ S) as (H1 & H2 & H3).
  destruct (colons_spec body) as (core & colons & HS & Hb & Hcol & Hlast).
  destruct (span is_colon (rev body)) as [cs co]. injection HS as HS1 HS2.
  injection H as <- <-. rewrite HS1, HS2. clear HS1 HS2.
  assert (Hbody : exists b, body = c :: b).
  { simpl in S. assert (is_kwchar c = true) as K by (unfold is_kwchar; rewrite Hc; reflexivity).
    rewrite K in S. destruct (span is_kwchar l). injection S as <- _. eauto. }
  destruct Hbody as [b ->].
  assert (Hcore : exists k, core = c :: k).
  { destruct core as [|x core].
    - simpl in Hb. rewrite <- Hb in Hcol. simpl in Hcol. apply andb_true_iff in Hcol as [Hx _].
      revert Hc Hx. clear. all_chars c; discriminate.
    - simpl in Hb. injection Hb as <- _. eauto. }
  destruct Hcore as [k Hk].
  assert (Hsplit : c :: l = core ++ colons ++ rest).
  { rewrite H1, Hb, app_assoc. reflexivity. }
  split; [exact Hsplit|]. split; [rewrite Hk; discriminate|].
  apply longest_by_rule.
  - apply kw_matches. exists c, k. split; [exact Hk|]. split; [exact Hc|]. split.
    + rewrite Hb, forallb_app, Hk in H2. apply andb_true_iff in H2 as [H2 _]. simpl in H2.
      apply andb_true_iff in H2 as [_ H2]. exact H2.
    + destruct Hlast as [E|(b' & d & E & Hd)]; [congruence|]. rewrite Hk in E.
      destruct b' as [|x b']; simpl in E; injection E as -> ->; [auto|]. right. eauto.
  - intros p' rest' E Hp'. apply kw_matches in Hp' as (c' & b' & -> & Hc' & Hb' & Hl').
    rewrite app_assoc, <- Hb in E.
    assert (Hkw : forallb is_kwchar (c' :: b') = true).
    { simpl. rewrite Hb'. unfold is_kwchar. rewrite Hc'. reflexivity. }
    pose proof S as S2. rewrite H1, E in S2.
    destruct (span_prefix _ _ _ _ _ Hkw S2) as (z & Hz & _).
    destruct (le_lt_dec (List.length (c' :: b')) (List.length core)) as [Hle|Hlt]; [exact Hle|exfalso].
    rewrite Hb in Hz.
    destruct (app_prefix (c' :: b') z core colons (eq_sym Hz) ltac:(lia)) as (y & Hy & Hcy).
    destruct Hl' as [->|(b2 & d & -> & Hd)].
    + subst core. simpl in Hlt. lia.
    + destruct y as [|y0 y] using rev_ind; [rewrite app_nil_r in Hy; rewrite Hy in Hlt; lia|].
      rewrite app_assoc, app_comm_cons in Hy. apply app_inj_tail in Hy as [_ ->].
      rewrite Hcy, !forallb_app in Hcol. simpl in Hcol. rewrite Hd in Hcol.
      rewrite andb_true_r in Hcol. apply andb_true_iff in Hcol as [Hcol _].
      apply andb_true_iff in Hcol as [_ Hcol]. discriminate.
Qed.

(** *** Numbers *)
Lemma digits_val_dec l : digits_val l = dec 0 l.
Proof.
  unfold digits_val. generalize 0%Z. induction l as [|c l IH]; intros a; simpl; [reflexivity|].
  rewrite IH. reflexivity.
Qed.

Lemma exp_not_digit c : is_exp c = true -> is_digit c = false.
Proof. all_chars c; simpl; try discriminate; reflexivity. Qed.
Lemma sign_not_digit c : is_sign c = true -> is_digit c = false.
Proof. all_chars c; simpl; try discriminate; reflexivity. Qed.

Lemma exp_text_head x : exp_text x -> x <> [] -> exists c y, x = c :: y /\ is_exp c = true.
Proof. intros H Hn. destruct H; [congruence| |]; eauto. Qed.

Lemma scan_exp_spec l ex t r : scan_exp l = (ex, t, r) -> l = t ++ r /\ exp_text t /\ exponent t ex.
Proof.
  unfold scan_exp. intros H.
  assert (Z0 : forall r', (0%Z, [], r') = (ex, t, r) -> r' = t ++ r /\ exp_text t /\ exponent t ex).
  { intros r' E. injection E as <- <- <-. repeat split; constructor. }
  destruct l as [|c l1]; [auto|]. destruct (is_exp c) eqn:Ec; [|auto].
  assert (Hin : In c ["e"; "E"]).
  { revert Ec. clear. all_chars c; simpl; try discriminate; auto. }
  destruct l1 as [|s l2]; [auto|]. destruct (is_digit s) eqn:Es.
  - destruct (span is_digit (s :: l2)) as [d r'] eqn:S.
    destruct (span_spec _ _ _ _ S) as (H1 & H2 & H3). injection H as <- <- <-.
    assert (d <> []). { simpl in S. rewrite Es in S. destruct (span is_digit l2). injection S as <- _. discriminate. }
    split; [rewrite H1; reflexivity|]. split; [apply et1; auto|].
    rewrite digits_val_dec. apply (ex_plain c d); auto.
  - destruct (is_sign s) eqn:Eg; [|auto]. destruct l2 as [|d0 l3]; [auto|].
    destruct (is_digit d0) eqn:Ed; [|auto].
    destruct (span is_digit (d0 :: l3)) as [d r'] eqn:S.
    destruct (span_spec _ _ _ _ S) as (H1 & H2 & H3). injection H as <- <- <-.
    assert (d <> []). { simpl in S. rewrite Ed in S. destruct (span is_digit l3). injection S as <- _. discriminate. }
    split; [rewrite H1; reflexivity|]. split; [apply et2; auto|].
    assert (s = "+" \/ s = "-") as [-> | ->]
      by (revert Eg; clear; all_chars s; simpl; try discriminate; auto).
    + cbn. rewrite digits_val_dec. apply (ex_plus c d); auto.
    + cbn. rewrite digits_val_dec. apply (ex_minus c d); auto.
Qed.

Lemma scan_exp_max x rest ex t r : exp_text x -> scan_exp (x ++ rest) = (ex, t, r) ->
  List.length x <= List.length t.
Proof.
  intros Hx H. destruct Hx as [|c d Hc Hd1 Hd2|c s d Hc Hs Hd1 Hd2]; [simpl; lia| |].
  - simpl in H. rewrite Hc in H. destruct d as [|d0 d]; [congruence|].
    cbn [app] in H. simpl in Hd2. apply andb_true_iff in Hd2 as [Hd0 Hd2]. rewrite Hd0 in H.
    destruct (span is_digit (d0 :: d ++ rest)) as [dd rr] eqn:S.
    rewrite app_comm_cons in S.
    destruct (span_prefix is_digit (d0 :: d) rest dd rr) as (z & -> & _); [simpl; rewrite Hd0, Hd2; reflexivity|exact S|].
    injection H as _ <- _. cbn [List.length]. rewrite app_length. cbn [List.length]. lia.
  - cbn [app] in H. unfold scan_exp in H. rewrite Hc, (sign_not_digit _ Hs), Hs in H.
    destruct d as [|d0 d]; [congruence|]. cbn [app] in H. simpl in Hd2.
    apply andb_true_iff in Hd2 as [Hd0 Hd2]. rewrite Hd0 in H.
    destruct (span is_digit (d0 :: d ++ rest)) as [dd rr] eqn:S.
    rewrite app_comm_cons in S.
    destruct (span_prefix is_digit (d0 :: d) rest dd rr) as (z & -> & _); [simpl; rewrite Hd0, Hd2; reflexivity|exact S|].
    injection H as _ <- _. cbn [List.length]. rewrite app_length. cbn [List.length]. lia.
Qed.

Lemma scan_frac_spec l fd f r : scan_frac l = (fd, f, r) ->
  l = f ++ r /\ frac_text f fd /\
  (f = [] \/ (r = [] \/ exists c r', r = c :: r' /\ is_digit c = false)).
Proof.
  unfold scan_frac. intros H. destruct l as [|c l]; [injection H as <- <- <-; repeat split; auto; constructor|].
  destruct (Ascii.eqb c ".") eqn:E.
  - apply Ascii.eqb_eq in E. subst c. destruct (span is_digit l) as [d r'] eqn:S.
    destruct (span_spec _ _ _ _ S) as (H1 & H2 & H3). injection H as <- <- <-.
    rewrite H1. repeat split; auto. constructor; auto.
  - injection H as <- <- <-. repeat split; auto. constructor.
Qed.

Lemma nodigit_nil z y c (r1 : list ascii) : forallb is_digit z = true -> is_digit c = false ->
  c :: y = z ++ r1 -> z = [] /\ c :: y = r1.
Proof.
  intros Hz Hc E. destruct z as [|a z]; [auto|]. simpl in *. injection E as -> _.
  rewrite Hc in Hz. discriminate.
Qed.

Lemma scan_num_max d f fd x rest d1 r1 d2 t2 r2 ex t3 r3 :
  forallb is_digit d = true -> frac_text f fd -> exp_text x ->
  span is_digit (d ++ f ++ x ++ rest) = (d1, r1) ->
  scan_frac r1 = (d2, t2, r2) -> scan_exp r2 = (ex, t3, r3) ->
  List.length (d ++ f ++ x) <= List.length (d1 ++ t2 ++ t3).
Proof.
  intros Hd Hf Hx S1 S2 S3.
  destruct (span_prefix _ _ _ _ _ Hd S1) as (z & Hz & E).
  destruct (span_spec _ _ _ _ S1) as (_ & Hd1 & _). rewrite Hz, forallb_app in Hd1.
  apply andb_true_iff in Hd1 as [_ Hzd].
  assert (Lx : forall x', exp_text x' -> r2 = x' ++ rest -> List.length x' <= List.length t3).
  { intros x' Hx' ->. eapply scan_exp_max; eauto. }
  rewrite !app_length.
  destruct Hf as [|fd Hfd].
  - cbn [app] in *. destruct x as [|xc xs]; [subst d1; rewrite app_length; simpl; lia|].
    destruct (exp_text_head _ Hx ltac:(discriminate)) as (c & y & Ex & Hc). injection Ex as -> ->.
    destruct (nodigit_nil z (y ++ rest) c r1 Hzd (exp_not_digit _ Hc) E) as [-> E'].
    rewrite app_nil_r in Hz. subst d1 r1. unfold scan_frac in S2.
    assert (Ascii.eqb c "." = false) as Hdot by (revert Hc; clear; all_chars c; simpl; try discriminate; reflexivity).
    rewrite Hdot in S2. injection S2 as <- <- <-. pose proof (Lx _ Hx eq_refl). simpl in *. lia.
  - cbn [app] in E. destruct (nodigit_nil z _ "." r1 Hzd eq_refl E) as [-> <-].
    rewrite app_nil_r in Hz. subst d1. cbn [scan_frac] in S2. cbn in S2.
    destruct (span is_digit (fd ++ x ++ rest)) as [dd rr] eqn:S.
    injection S2 as <- <- <-.
    destruct (span_prefix _ _ _ _ _ Hfd S) as (z2 & -> & E2).
    destruct (span_spec _ _ _ _ S) as (_ & Hdd & _). rewrite forallb_app in Hdd.
    apply andb_true_iff in Hdd as [_ Hz2].
    cbn [List.length]. rewrite app_length.
    destruct x as [|xc xs]; [simpl; lia|].
    destruct (exp_text_head _ Hx ltac:(discriminate)) as (c & y & Ex & Hc). injection Ex as -> ->.
    destruct (nodigit_nil z2 (y ++ rest) c rr Hz2 (exp_not_digit _ Hc) E2) as [-> E'].
    pose proof (Lx _ Hx (eq_sym E')). simpl in *. lia.
Qed.

Lemma frac_fraction f fd : frac_text f fd <-> fraction f fd.
Proof.
  split; intros H; destruct H as [|d H]; constructor.
  - rewrite (forallb_ext _ _ _ digit_digit). exact H.
  - rewrite (forallb_ext _ _ _ digit_digit) in H. exact H.
Qed.

Lemma scan_num_spec c l m e t r : is_digit c = true -> scan_num (c :: l) = (m, e, t, r) ->
  c :: l = t ++ r /\ t <> [] /\ longest LNumber t r /\ decimal t m e.
Proof.
  intros Hc H. unfold scan_num in H.
  destruct (span is_digit (c :: l)) as [d1 r1] eqn:S1.
  destruct (scan_frac r1) as [[d2 t2] r2] eqn:S2.
  destruct (scan_exp r2) as [[ex t3] r3] eqn:S3.
  injection H as <- <- <- <-.
  destruct (span_spec _ _ _ _ S1) as (E1 & Hd1 & _).
  destruct (scan_frac_spec _ _ _ _ S2) as (E2 & Hf & _).
  destruct (scan_exp_spec _ _ _ _ S3) as (E3 & Hx & Hex).
  assert (Hn : d1 <> []).
  { simpl in S1. rewrite Hc in S1. destruct (span is_digit l). injection S1 as <- _. discriminate. }
  assert (E : c :: l = (d1 ++ t2 ++ t3) ++ r3).
  { rewrite E1, E2, E3, !app_assoc. reflexivity. }
  split; [exact E|]. split; [destruct d1; [congruence|discriminate]|]. split.
  - apply longest_by_rule.
    + apply num_matches. exists d1, t2, d2, t3. auto.
    + intros p' rest' E' Hp'. apply num_matches in Hp' as (d & f & fd & x & -> & Hd0 & Hd & Hf' & Hx').
      rewrite E, E', <- !app_assoc in S1. eapply scan_num_max; eauto.
  - rewrite digits_val_dec. constructor; auto. apply frac_fraction. exact Hf.
Qed.

Lemma exponent_exp_text x xe : exponent x xe -> exp_text x.
Proof.
  intros H. destruct H as [|c d Hd H Hin|c d Hd H Hin|c d Hd H Hin]; [constructor|..];
    rewrite (forallb_ext _ _ _ digit_digit) in H;
    assert (is_exp c = true) by (destruct Hin as [<-|[<-|[]]]; reflexivity).
  - apply et1; auto.
  - apply et2; auto.
  - apply et2; auto.
Qed.

Lemma scan_exp_exact x xe : exponent x xe -> scan_exp x = (xe, x, []).
Proof.
  intros H. pose proof (exponent_exp_text _ _ H) as Hx.
  destruct H as [|c d Hd H Hin|c d Hd H Hin|c d Hd H Hin]; [reflexivity|..];
    rewrite (forallb_ext _ _ _ digit_digit) in H; rewrite <- digits_val_dec;
    assert (Hc : is_exp c = true) by (destruct Hin as [<-|[<-|[]]]; reflexivity);
    unfold scan_exp; rewrite Hc; clear Hx;
    (destruct d as [|d0 d]; [congruence|]);
    assert (Hd0 : is_digit d0 = true) by (simpl in H; apply andb_true_iff in H as [? _]; assumption);
    pose proof (span_exact is_digit (d0 :: d) [] H (or_introl eq_refl)) as S; rewrite app_nil_r in S.
  - rewrite Hd0, S. reflexivity.
  - change (is_digit "+") with false. change (is_digit "-") with false. cbv iota.
    change (is_sign "+") with true. change (is_sign "-") with true. cbv iota.
    rewrite Hd0, S. reflexivity.
  - change (is_digit "+") with false. change (is_digit "-") with false. cbv iota.
    change (is_sign "+") with true. change (is_sign "-") with true. cbv iota.
    rewrite Hd0, S. reflexivity.
Qed.

Lemma decimal_scan p m e : decimal p m e -> scan_num p = (m, e, p, []).
Proof.
  intros H. destruct H as [d f fd x xe Hd0 Hd Hf Hx].
  rewrite (forallb_ext _ _ _ digit_digit) in Hd. unfold scan_num.
  pose proof (exponent_exp_text _ _ Hx) as Hxt.
  assert (Hxh : x = [] \/ exists c y, x = c :: y /\ is_digit c = false).
  { destruct x as [|c y]; [auto|]. right. exists c, y. split; [reflexivity|].
    destruct (exp_text_head _ Hxt ltac:(discriminate)) as (c' & y' & E & Hc). injection E as -> ->.
    apply exp_not_digit. exact Hc. }
  destruct Hf as [|fd Hfd].
  - cbn [app]. rewrite (span_exact _ _ _ Hd Hxh).
    assert (scan_frac x = ([], [], x)) as ->.
    { destruct x as [|c y]; [reflexivity|].
      destruct (exp_text_head _ Hxt ltac:(discriminate)) as (c' & y' & E & Hc). injection E as -> ->.
      unfold scan_frac. assert (Ascii.eqb c' "." = false) as ->
        by (revert Hc; clear; all_chars c'; simpl; try discriminate; reflexivity). reflexivity. }
    rewrite (scan_exp_exact _ _ Hx), digits_val_dec. reflexivity.
  - rewrite (forallb_ext _ _ _ digit_digit) in Hfd.
    rewrite (span_exact is_digit d (("." :: fd) ++ x) Hd); [|right; exists ".", (fd ++ x); auto].
    cbn [scan_frac app]. cbn. rewrite (span_exact _ _ _ Hfd Hxh).
    rewrite (scan_exp_exact _ _ Hx), digits_val_dec. reflexivity.
Qed.

Lemma decimal_fun p m e m' e' : decimal p m e -> decimal p m' e' -> m = m' /\ e = e'.
Proof. intros H H'. apply decimal_scan in H, H'. rewrite H in H'. injection H' as -> ->. auto. Qed.

Lemma value_fun r p v v' : value r p v -> value r p v' -> v = v'.
Proof.
  intros H H'. destruct H as [p|p m e Hd Hr|p|p|p|p| | | | | | | | | | | |];
    inversion H'; subst; try reflexivity; try discriminate.
  - match goal with H1 : decimal p _ _ |- _ => destruct (decimal_fun _ _ _ _ _ Hd H1) as [-> ->] end. reflexivity.
  - match goal with H1 : _ = _ |- _ => apply app_inj_tail in H1 as [-> _] end. reflexivity.
Qed.

(** *** One action *)
Lemma longest_single r c l : (forall q, matches (rule_re r) q -> List.length q <= 1) ->
  matches (rule_re r) [c] -> longest r [c] l.
Proof. intros H Hc. apply longest_by_rule; [exact Hc|]. intros p' rest' _ Hp. apply H. exact Hp. Qed.

Lemma chr_len p q : matches (RChr p) q -> List.length q <= 1.
Proof. intros H. apply inv_chr in H as (c & -> & _). simpl. lia. Qed.

Lemma first_stop (p : ascii -> bool) t t' r r' : forallb p t = true -> forallb p t' = true ->
  forall a b, p a = false -> p b = false -> t ++ a :: r = t' ++ b :: r' -> t = t'.
Proof.
  revert t'. induction t as [|x t IH]; intros t' Ht Ht' a b Ha Hb E; destruct t' as [|y t']; simpl in *; auto.
  - injection E as -> _. rewrite Ha in Ht'. discriminate.
  - injection E as -> _. rewrite Hb in Ht. discriminate.
  - injection E as -> E. apply andb_true_iff in Ht as [_ Ht]. apply andb_true_iff in Ht' as [_ Ht'].
    f_equal. exact (IH t' Ht Ht' a b Ha Hb E).
Qed.

Lemma longest_comment t r : forallb (fun c => negb (is_nl c)) t = true -> longest LComment ("#" :: t ++ [nl]) r.
Proof.
  intros Ht. apply longest_by_rule; [apply comment_matches; eauto|].
  intros p' rest' E Hp. apply comment_matches in Hp as (t' & -> & Ht'). simpl in E. injection E as E.
  rewrite <- !app_assoc in E. cbn [app] in E.
  rewrite (first_stop _ _ _ _ _ Ht Ht' nl nl eq_refl eq_refl E). lia.
Qed.

Lemma longest_string t r : forallb is_quoted t = true -> longest LString (dquote :: t ++ [dquote]) r.
Proof.
  intros Ht. apply longest_by_rule; [apply string_matches; eauto|].
  intros p' rest' E Hp. apply string_matches in Hp as (t' & -> & Ht'). injection E as E.
  rewrite <- !app_assoc in E. cbn [app] in E.
  rewrite (first_stop _ _ _ _ _ Ht Ht' dquote dquote eq_refl eq_refl E). lia.
Qed.

Lemma in_range_representable m x : num_in_range m x = true <-> representable m x.
Proof.
  unfold num_in_range, representable. destruct x as [s|s| |s k n]; simpl.
  - destruct (Z.eqb_spec m 0); simpl; split; intros H; auto.
    + split; [discriminate|auto].
    + discriminate.
    + destruct H as [_ H]. exfalso. apply n, (H s eq_refl).
  - split; [discriminate|]. intros [H _]. exfalso. apply (H s eq_refl).
  - split; [|reflexivity]. intros _. split; discriminate.
  - split; [|reflexivity]. intros _. split; discriminate.
Qed.

Lemma scan_tok l t p r : scan l = STok t p r ->
  l = p ++ r /\ p <> [] /\ exists k, longest k p r /\ value k p (Some t).
Proof.
  unfold scan. intros H. destruct l as [|c l]; [discriminate|].
  destruct (is_letter c) eqn:E1.
  { destruct (scan_kw (c :: l)) as [t0 r0] eqn:S. injection H as <- <- <-.
    destruct (scan_kw_spec _ _ _ _ E1 S) as (H1 & H2 & H3). repeat split; auto.
    exists LKeyword. split; [exact H3|constructor]. }
  destruct (is_digit c) eqn:E2.
  { destruct (scan_num (c :: l)) as [[[m e] t0] r0] eqn:S.
    destruct (num_in_range m (strtod_val m e)) eqn:R; [|discriminate]. injection H as <- <- <-.
    destruct (scan_num_spec _ _ _ _ _ _ E2 S) as (H1 & H2 & H3 & H4). repeat split; auto.
    exists LNumber. split; [exact H3|]. constructor; auto. apply in_range_representable; auto. }
  destruct (Ascii.eqb c "#") eqn:E3.
  { destruct (span _ (c :: l)) as [a [|b r0]]; discriminate. }
  destruct (is_blank c) eqn:E4; [discriminate|]. destruct (is_nl c) eqn:E5; [discriminate|].
  destruct (Ascii.eqb c dquote) eqn:E6.
  { apply Ascii.eqb_eq in E6. subst c. destruct (span is_quoted l) as [a [|b r0]] eqn:S; [discriminate|].
    destruct (Ascii.eqb b dquote) eqn:E7; [|discriminate]. apply Ascii.eqb_eq in E7. subst b.
    destruct (span_spec _ _ _ _ S) as (H1 & H2 & H3). injection H as <- <- <-.
    split; [rewrite H1; simpl; rewrite <- app_assoc; reflexivity|]. split; [discriminate|].
    exists LString. split; [apply longest_string; exact H2|constructor]. }
  destruct (punct c) as [t0|] eqn:E7; [|discriminate]. injection H as <- <- <-.
  split; [reflexivity|]. split; [discriminate|]. exists LPunct. split.
  - apply longest_single; [intros q; apply chr_len|]. constructor.
    revert E7. clear. all_chars c; simpl; try discriminate; reflexivity.
  - revert E7. clear. all_chars c; simpl; try discriminate; intros E; injection E as <-; constructor.
Qed.

Lemma scan_skip l p r : scan l = SSkip p r ->
  l = p ++ r /\ p <> [] /\ exists k, longest k p r /\ value k p None.
Proof.
  unfold scan. intros H. destruct l as [|c l]; [discriminate|].
  destruct (is_letter c) eqn:E1; [destruct (scan_kw (c :: l)); discriminate|].
  destruct (is_digit c) eqn:E2.
  { destruct (scan_num (c :: l)) as [[[m e] t0] r0]. destruct (num_in_range m (strtod_val m e)); discriminate. }
  destruct (Ascii.eqb c "#") eqn:E3.
  { apply Ascii.eqb_eq in E3. subst c. cbn [span] in H. cbn in H.
    destruct (span (fun c => negb (is_nl c)) l) as [a b] eqn:S.
    destruct (span_spec _ _ _ _ S) as (H1 & H2 & H3). destruct b as [|b r0]; [discriminate|].
    injection H as <- <-. destruct H3 as [H3|(c & b' & Eb & Hc)]; [discriminate|]. injection Eb as <- <-.
    apply negb_false_iff in Hc. unfold is_nl in Hc. apply Ascii.eqb_eq in Hc. subst b.
    split; [rewrite H1; simpl; rewrite <- app_assoc; reflexivity|]. split; [discriminate|].
    exists LComment. split; [apply longest_comment; exact H2|constructor]. }
  destruct (is_blank c) eqn:E4.
  { injection H as <- <-. repeat split; [discriminate|]. exists LBlank. split; [|constructor].
    apply longest_single; [intros q; apply chr_len|]. constructor. rewrite blank_blank. exact E4. }
  destruct (is_nl c) eqn:E5.
  { injection H as <- <-. repeat split; [discriminate|]. exists LNewline. split; [|constructor].
    apply longest_single; [intros q; apply chr_len|]. constructor. unfold is_nl in E5.
    apply Ascii.eqb_eq in E5. subst c. reflexivity. }
  destruct (Ascii.eqb c dquote) eqn:E6.
  { destruct (span is_quoted l) as [a [|b r0]]; [discriminate|]. destruct (Ascii.eqb b dquote); discriminate. }
  destruct (punct c); discriminate.
Qed.

Lemma scan_err l : scan l = SErr -> forall k p r v, l = p ++ r -> longest k p r -> value k p v -> False.
Proof.
  intros H k p r v -> Hl Hv.
  destruct (matches_first _ _ (proj1 Hl)) as (c & q & -> & Hk).
  unfold scan in H. cbn [app] in H. unfold rule_of in Hk.
  destruct (is_letter c) eqn:E1.
  { destruct (scan_kw (c :: q ++ r)); discriminate. }
  destruct (is_digit c) eqn:E2.
  { destruct (scan_num (c :: q ++ r)) as [[[m e] t0] r0] eqn:S.
    destruct (num_in_range m (strtod_val m e)) eqn:R; [discriminate|].
    destruct (scan_num_spec _ _ _ _ _ _ E2 S) as (H1 & H2 & H3 & H4).
    destruct (longest_unique k (c :: q) r LNumber t0 r0 H1 Hl H3) as (-> & Hp & _). subst t0.
    inversion Hv; subst.
    match goal with H5 : decimal _ _ _ |- _ => destruct (decimal_fun _ _ _ _ _ H4 H5) as [-> ->] end.
    match goal with H6 : representable _ _ |- _ => apply in_range_representable in H6; congruence end. }
  destruct (Ascii.eqb c "#") eqn:E3.
  { apply Ascii.eqb_eq in E3. subst c. injection Hk as <-. destruct Hl as [Hm _].
    apply comment_matches in Hm as (t & Et & Ht). injection Et as ->.
    cbn [span] in H. cbn in H. rewrite <- app_assoc in H. cbn [app] in H.
    rewrite (span_exact (fun c => negb (is_nl c)) t (nl :: r) Ht) in H; [discriminate|].
    right. exists nl, r. auto. }
  destruct (is_blank c) eqn:E4; [discriminate|]. destruct (is_nl c) eqn:E5; [discriminate|].
  destruct (Ascii.eqb c dquote) eqn:E6.
  { apply Ascii.eqb_eq in E6. subst c. injection Hk as <-. destruct Hl as [Hm _].
    apply string_matches in Hm as (t & Et & Ht). injection Et as ->.
    rewrite <- app_assoc in H. cbn [app] in H.
    rewrite (span_exact is_quoted t (dquote :: r) Ht) in H; [|right; exists dquote, r; auto].
    rewrite Ascii.eqb_refl in H. discriminate. }
  destruct (punct c); discriminate.
Qed.

(** ** Whole input *)
Lemma lex_fuel_total f l : List.length l <= f -> exists ts e, lex_fuel f l = Some (ts, e).
Proof.
  revert l. induction f as [|f IH]; intros l H.
  - destruct l; [|simpl in H; lia]. simpl. eauto.
  - destruct l as [|c l]; [simpl; eauto|]. cbn [lex_fuel].
    destruct (scan (c :: l)) as [t p r|p r|] eqn:S.
    + apply scan_tok in S as (E & Hp & _). destruct (IH r) as (ts & e & ->); [|eauto].
      rewrite E, app_length in H. destruct p; [congruence|]. simpl in H. lia.
    + apply scan_skip in S as (E & Hp & _). apply IH.
      rewrite E, app_length in H. destruct p; [congruence|]. simpl in H. lia.
    + eauto.
Qed.

Lemma lex_total s : exists ts e, lex s = Some (ts, e).
Proof. unfold lex. apply lex_fuel_total. lia. Qed.

Lemma lex_fuel_sound f l ts : lex_fuel f l = Some (ts, false) -> tokenises l ts.
Proof.
  revert l ts. induction f as [|f IH]; intros l ts H.
  - destruct l; simpl in H; [|discriminate]. injection H as <-. constructor.
  - destruct l as [|c l]; [simpl in H; injection H as <-; constructor|]. cbn [lex_fuel] in H.
    destruct (scan (c :: l)) as [t p r|p r|] eqn:S.
    + apply scan_tok in S as (-> & _ & k & Hl & Hv).
      destruct (lex_fuel f r) as [[ts' e]|] eqn:R; [|discriminate]. injection H as <- ->.
      eapply tk_tok; eauto.
    + apply scan_skip in S as (-> & _ & k & Hl & Hv). eapply tk_skip; eauto.
    + injection H as _ H. discriminate.
Qed.

Lemma longest_nonempty k p r : longest k p r -> exists c q, p = c :: q.
Proof. intros [H _]. apply matches_first in H as (c & q & -> & _). eauto. Qed.

Lemma scan_complete k p r v : longest k p r -> value k p v ->
  scan (p ++ r) = match v with Some t => STok t p r | None => SSkip p r end.
Proof.
  intros Hl Hv. destruct (scan (p ++ r)) as [t p' r'|p' r'|] eqn:S.
  - apply scan_tok in S as (E & _ & k' & Hl' & Hv').
    destruct (longest_unique _ _ _ _ _ _ E Hl Hl') as (-> & -> & ->).
    rewrite (value_fun _ _ _ _ Hv Hv'). reflexivity.
  - apply scan_skip in S as (E & _ & k' & Hl' & Hv').
    destruct (longest_unique _ _ _ _ _ _ E Hl Hl') as (-> & -> & ->).
    rewrite (value_fun _ _ _ _ Hv Hv'). reflexivity.
  - exfalso. eapply scan_err; eauto.
Qed.

Lemma lex_fuel_complete l ts : tokenises l ts -> forall f, List.length l <= f -> lex_fuel f l = Some (ts, false).
Proof.
  induction 1 as [|k p r ts Hl Hv H IH|k p r t ts Hl Hv H IH]; intros f Hf.
  - destruct f; reflexivity.
  - pose proof (scan_complete _ _ _ _ Hl Hv) as S.
    destruct (longest_nonempty _ _ _ Hl) as (c & q & ->).
    destruct f as [|f]; [simpl in Hf; lia|]. cbn [app lex_fuel] in *. rewrite S.
    apply IH. simpl in Hf. rewrite app_length in Hf. lia.
  - pose proof (scan_complete _ _ _ _ Hl Hv) as S.
    destruct (longest_nonempty _ _ _ Hl) as (c & q & ->).
    destruct f as [|f]; [simpl in Hf; lia|]. cbn [app lex_fuel] in *. rewrite S.
    rewrite IH; [reflexivity|]. simpl in Hf. rewrite app_length in Hf. lia.
Qed.

Lemma lex_tokenises s ts : lex s = Some (ts, false) <-> tokenises (list_ascii_of_string s) ts.
Proof.
  unfold lex. split; [apply lex_fuel_sound|]. intros H. apply lex_fuel_complete; auto.
Qed.

Lemma lex_error s : (exists ts, lex s = Some (ts, true)) <-> ~ exists ts, tokenises (list_ascii_of_string s) ts.
Proof.
  split.
  - intros (ts & H) (ts' & H'). apply lex_tokenises in H'. congruence.
  - intros H. destruct (lex_total s) as (ts & [|] & E); [eauto|]. exfalso. apply H.
    exists ts. apply lex_tokenises. exact E.
Qed.

(** ** Inserting blanks *)
Definition sep (c : ascii) : bool := (is_blank c || is_nl c || Ascii.eqb c "#")%bool.

(** A lexeme stays the longest one when it is followed by a blank or comment. *)
Lemma longest_cut k p a r r' : longest k p (a ++ r) ->
  (r' = [] \/ exists c q, r' = c :: q /\ sep c = true) -> longest k p (a ++ r').
Proof.
  intros [Hm Hmax] Hr. apply longest_by_rule; [exact Hm|].
  intros p' rest' E Hp'.
  destruct (le_lt_dec (List.length p') (List.length p)) as [L|L]; [exact L|exfalso].
  destruct (app_prefix p' rest' p (a ++ r') (eq_sym E) ltac:(lia)) as (z & -> & Ez).
  destruct (le_lt_dec (List.length z) (List.length a)) as [La|La].
  { destruct (app_prefix a r' z rest' Ez La) as (y & -> & _).
    specialize (Hmax k (p ++ z) (y ++ r)). rewrite <- !app_assoc in Hmax. specialize (Hmax eq_refl Hp'). lia. }
  destruct (app_prefix z rest' a r' (eq_sym Ez) ltac:(lia)) as (y & -> & Ey).
  destruct y as [|c y]; [rewrite app_nil_r in La; lia|].
  destruct Hr as [->|(c' & q & -> & Hc)]; [discriminate|]. simpl in Ey. injection Ey as -> _.
  clear La. remember (a ++ c :: y) as z eqn:Hz.
  assert (Hcz : In c z) by (subst z; rewrite in_app_iff; simpl; auto).
  assert (Hz0 : z <> []) by (subst z; destruct a; discriminate). clear Hz Ez E.
  assert (Hcs : is_blank c = true \/ is_nl c = true \/ c = "#").
  { unfold sep in Hc. rewrite !orb_true_iff in Hc. destruct Hc as [[?|?]|Hc]; auto.
    apply Ascii.eqb_eq in Hc. auto. }
  destruct k.
  - apply kw_matches in Hp' as (x & b & Eb & Hx & Hb & _).
    assert (Hin : In c (x :: b)) by (rewrite <- Eb, in_app_iff; auto).
    assert (is_kwchar c = true).
    { destruct Hin as [<-|Hin]; [unfold is_kwchar; rewrite Hx; reflexivity|].
      rewrite forallb_forall in Hb. auto. }
    revert H Hcs. clear. intros H [Hc|[Hc|Hc]]; [| |subst; discriminate]; revert H Hc; all_chars c; simpl; discriminate.
  - assert (Hin : In c (p ++ z)) by (rewrite in_app_iff; auto).
    apply num_matches in Hp' as (d & f & fd & x & Eb & Hd0 & Hd & Hf & Hx). rewrite Eb in Hin.
    rewrite !in_app_iff in Hin.
    assert (is_digit c = true \/ c = "." \/ is_exp c = true \/ is_sign c = true) as Hcc.
    { rewrite forallb_forall in Hd. destruct Hin as [Hin|[Hin|Hin]]; [auto| |].
      - destruct Hf as [|fd Hfd]; [destruct Hin|]. rewrite forallb_forall in Hfd.
        destruct Hin as [<-|Hin]; auto.
      - destruct Hx as [|xc e H1 H2 H3|xc s e H1 H2 H3 H4]; [destruct Hin| |];
        rewrite forallb_forall in *; simpl in Hin.
        + destruct Hin as [<-|Hin]; auto.
        + destruct Hin as [<-|[<-|Hin]]; auto. }
    revert Hcc Hcs. clear. all_chars c; cbv; intros [?|[?|[?|?]]] [?|[?|?]]; congruence.
  - apply comment_matches in Hm as (t & -> & Ht). apply comment_matches in Hp' as (t' & Et & Ht').
    simpl in Et. injection Et as Et. rewrite <- app_assoc in Et. cbn [app] in Et.
    pose proof (first_stop _ _ _ z [] Ht Ht' nl nl eq_refl eq_refl Et) as ->.
    apply app_inv_head in Et. injection Et as Et. congruence.
  - simpl in Hp'. apply chr_len in Hp'. rewrite app_length in Hp'. simpl in Hp'.
    apply matches_first in Hm as (y0 & yq & -> & _). simpl in Hp'. destruct z; [congruence|simpl in Hp'; lia].
  - simpl in Hp'. apply chr_len in Hp'. rewrite app_length in Hp'. simpl in Hp'.
    apply matches_first in Hm as (y0 & yq & -> & _). simpl in Hp'. destruct z; [congruence|simpl in Hp'; lia].
  - simpl in Hp'. apply chr_len in Hp'. rewrite app_length in Hp'. simpl in Hp'.
    apply matches_first in Hm as (y0 & yq & -> & _). simpl in Hp'. destruct z; [congruence|simpl in Hp'; lia].
  - apply string_matches in Hm as (t & -> & Ht). apply string_matches in Hp' as (t' & Et & Ht').
    injection Et as Et. rewrite <- app_assoc in Et. cbn [app] in Et.
    pose proof (first_stop _ _ _ z [] Ht Ht' dquote dquote eq_refl eq_refl Et) as ->.
    apply app_inv_head in Et. injection Et as Et. congruence.
Qed.

Lemma spaces_head w r : spaces w -> w ++ r = r \/ exists c q, w ++ r = c :: q /\ sep c = true.
Proof.
  intros H. destruct H as [|c w Hc _|t w _ _]; [left; reflexivity|right|right].
  - exists c, (w ++ r). split; [reflexivity|]. destruct Hc as [<-|[<-|[<-|[]]]]; reflexivity.
  - eexists _, _. split; reflexivity.
Qed.

Lemma tokenises_spaces w r ts : spaces w -> tokenises (w ++ r) ts <-> tokenises r ts.
Proof.
  intros H. induction H as [|c w Hc H IH|t w Ht H IH]; [reflexivity| |].
  - rewrite <- IH. clear IH.
    assert (HL : longest (if is_nl c then LNewline else LBlank) [c] (w ++ r) /\
                 value (if is_nl c then LNewline else LBlank) [c] None).
    { destruct Hc as [<-|[<-|[<-|[]]]]; simpl; (split; [|constructor]);
        (apply longest_single; [intros q; apply chr_len|constructor; reflexivity]). }
    destruct HL as [HL HV]. split; intros T.
    + apply (lex_fuel_complete _ _) with (f := List.length (c :: w ++ r)) in T; [|reflexivity].
      pose proof (scan_complete _ _ _ _ HL HV) as S. cbn [app lex_fuel List.length] in T, S.
      rewrite S in T. apply lex_fuel_sound in T. exact T.
    + change ((c :: w) ++ r) with ([c] ++ (w ++ r)). eapply tk_skip; eauto.
  - rewrite <- IH. clear IH.
    assert (Hnl : forallb (fun c => negb (is_nl c)) t = true).
    { apply forallb_forall. intros x Hx. apply negb_true_iff. unfold is_nl. apply Ascii.eqb_neq.
      intros ->. apply Ht. exact Hx. }
    assert (E : ("#" :: t ++ c_nl :: w) ++ r = ("#" :: t ++ [nl]) ++ (w ++ r)).
    { cbn [app]. rewrite <- !app_assoc. reflexivity. }
    pose proof (longest_comment t (w ++ r) Hnl) as HL.
    pose proof (v_comment ("#" :: t ++ [nl])) as HV. rewrite E. split; intros T.
    + apply (lex_fuel_complete _ _) with (f := List.length (("#" :: t ++ [nl]) ++ w ++ r)) in T; [|reflexivity].
      pose proof (scan_complete _ _ _ _ HL HV) as S. cbn [app lex_fuel List.length] in T, S.
      rewrite S in T. apply lex_fuel_sound in T. exact T.
    + eapply tk_skip; eauto.
Qed.


Lemma boundary_tokens a b ts : boundary a b ts ->
  forall us, tokenises (a ++ b) us <-> exists vs, us = ts ++ vs /\ tokenises b vs.
Proof.
  induction 1 as [b|k p a b ts Hl Hv H IH|k p a b t ts Hl Hv H IH]; intros us.
  - split; [intros T; exists us; auto|]. intros (vs & -> & T). exact T.
  - rewrite <- IH, <- app_assoc. split; intros T.
    + apply lex_fuel_complete with (f := List.length (p ++ a ++ b)) in T; [|reflexivity].
      pose proof (scan_complete _ _ _ _ Hl Hv) as S.
      destruct (longest_nonempty _ _ _ Hl) as (c & q & ->). cbn [app lex_fuel List.length] in T, S.
      rewrite S in T. apply lex_fuel_sound in T. exact T.
    + eapply tk_skip; eauto.
  - rewrite <- app_assoc. split.
    + intros T. apply lex_fuel_complete with (f := List.length (p ++ a ++ b)) in T; [|reflexivity].
      pose proof (scan_complete _ _ _ _ Hl Hv) as S.
      destruct (longest_nonempty _ _ _ Hl) as (c & q & ->). cbn [app lex_fuel List.length] in T, S.
      rewrite S in T. destruct (lex_fuel _ (a ++ b)) as [[us' e]|] eqn:R; [|discriminate].
      injection T as <- ->. apply lex_fuel_sound in R. apply IH in R as (vs & -> & T).
      exists vs. auto.
    + intros (vs & -> & T). cbn [app]. eapply tk_tok; eauto. apply IH. eauto.
Qed.

Lemma boundary_spaces a b ts w : boundary a b ts -> spaces w -> boundary a (w ++ b) ts.
Proof.
  intros H Hw. destruct (spaces_head w b Hw) as [E|(c & q & E & Hc)]; [rewrite E; exact H|].
  induction H as [b|k p a b ts Hl Hv H IH|k p a b t ts Hl Hv H IH]; [constructor| |].
  - eapply bd_skip; eauto. rewrite E. eapply longest_cut; eauto.
  - eapply bd_tok; eauto. rewrite E. eapply longest_cut; eauto.
Qed.

Lemma spaces_between a b ts w us : boundary a b ts -> spaces w ->
  tokenises (a ++ w ++ b) us <-> tokenises (a ++ b) us.
Proof.
  intros H Hw. rewrite (boundary_tokens _ _ _ H), (boundary_tokens _ _ _ (boundary_spaces _ _ _ _ H Hw)).
  split; intros (vs & -> & T); exists vs; (split; [reflexivity|]); apply (tokenises_spaces w b vs Hw); exact T.
Qed.

Lemma list_ascii_app s t : list_ascii_of_string (s ++ t) = list_ascii_of_string s ++ list_ascii_of_string t.
Proof. induction s as [|c s IH]; simpl; [reflexivity|]. rewrite IH. reflexivity. Qed.

Lemma lex_spaces s w t us ts : boundary (list_ascii_of_string s) (list_ascii_of_string t) ts ->
  spaces (list_ascii_of_string w) ->
  lex (s ++ w ++ t) = Some (us, false) <-> lex (s ++ t) = Some (us, false).
Proof.
  intros H Hw. rewrite !lex_tokenises, !list_ascii_app. apply (spaces_between _ _ ts _ _ H Hw).
Qed.

(** Every tokenised text has a boundary after each lexeme: the text before it. *)
Lemma lex_lexemes s ts : tokenises s ts -> exists ls : list (list ascii),
  s = List.concat ls /\ (forall p, In p ls -> exists r, matches (rule_re r) p) /\
  forall i, exists us vs, ts = us ++ vs /\ boundary (List.concat (firstn i ls)) (List.concat (skipn i ls)) us.
Proof.
  induction 1 as [|k p r ts Hl Hv H IH|k p r t ts Hl Hv H IH].
  - exists []. repeat split; [intros p []|]. intros i. exists [], []. split; [reflexivity|].
    rewrite firstn_nil, skipn_nil. constructor.
  - destruct IH as (ls & -> & Hm & Hb). exists (p :: ls). split; [reflexivity|]. split.
    + intros q [<-|Hq]; [exists k; exact (proj1 Hl)|auto].
    + intros [|i]; [exists [], ts; split; [reflexivity|constructor]|]. cbn [firstn skipn List.concat].
      destruct (Hb i) as (us & vs & E & Hbd).
      exists us, vs. split; [exact E|]. eapply bd_skip; eauto.
      rewrite <- concat_app, firstn_skipn. exact Hl.
  - destruct IH as (ls & -> & Hm & Hb). exists (p :: ls). split; [reflexivity|]. split.
    + intros q [<-|Hq]; [exists k; exact (proj1 Hl)|auto].
    + intros [|i]; [exists [], (t :: ts); split; [reflexivity|constructor]|]. cbn [firstn skipn List.concat].
      destruct (Hb i) as (us & vs & E & Hbd).
      exists (t :: us), vs. split; [rewrite E; reflexivity|]. eapply bd_tok; eauto.
      rewrite <- concat_app, firstn_skipn. exact Hl.
Qed.

Lemma scan_boundary p r t : scan (p ++ r) = STok t p r -> boundary p r [t].
Proof.
  intros H. apply scan_tok in H as (_ & _ & k & Hl & Hv).
  rewrite <- (app_nil_r p). eapply bd_tok; eauto. constructor.
Qed.
