From Coq Require Import List String Ascii Bool ZArith NArith Lia Arith.
From Verif Require Import SMap Dbl Config_Model Config_Spec Lexer_Model Lexer_Spec Lexer_Proofs Glps_Model Glps_Spec
  Glps_Proofs Glps2_Proofs Glps3_Proofs Glps4_Proofs Glps5_Proofs Glps6_Proofs Where_Model Where_Spec.
Import ListNotations.
Open Scope string_scope.
Open Scope list_scope.

Notation ltok := (token * N)%type.
Definition toks (l : list ltok) : list token := map fst l.

(** * The same parse *)
Definition same {A} (y : wres A) (p : pres A) : Prop :=
  match y with
  | WOk a r _ => p = POk a (toks r)
  | WStop _ => exists k, p = PAbort k
  | WBadGet => p = PBadGet
  | WUB u => p = PUB u
  | WFuel => p = PFuel
  end.

Lemma same_bind {A B} (y : wres A) p (f : A -> list ltok -> wst -> wres B) g :
  same y p -> (forall a r x, same (f a r x) (g a (toks r))) -> same (wbind y f) (pbind p g).
Proof.
  intros H Hf. destruct y; simpl in H; try (subst; simpl; eauto).
  destruct H as [k ->]. simpl. eauto.
Qed.
Lemma same_act {A B} (y : act A) x (f : A -> wres B) g :
  (forall a, same (f a) (g a)) -> same (wact y x f) (pact y g).
Proof. intros H. destruct y; simpl; eauto. Qed.

Section Same.
Context {C A V L K : Type} (X : actions C A V L K) (bad : C -> bool) (eoi : N * bool).

Lemma expr_same f :
  (forall lvl c ts x, same (w_expr X eoi f lvl c ts x) (p_expr X f lvl c (toks ts))) /\
  (forall lvl c a ts x, same (w_ops X eoi f lvl c a ts x) (p_ops X f lvl c a (toks ts))) /\
  (forall c ts x, same (w_vec X eoi f c ts x) (p_vec X f c (toks ts))).
Proof.
  induction f as [|f (IHe & IHo & IHv)]; [repeat split; intros; reflexivity|].
  split; [|split].
  - intros lvl c ts x. cbn [w_expr p_expr]. destruct lvl as [|[|lvl]].
    + apply same_bind; [apply IHe|]. intros; apply IHo.
    + apply same_bind; [apply IHe|]. intros; apply IHo.
    + destruct ts as [|[t n] ts]; [simpl; eauto|]. cbn [toks map fst]. fold (toks ts).
      destruct t; try (simpl; eauto; fail).
      * assert (Hv : same (wact (a_var X c s) (peek eoi ts x) (fun a => WOk a ts (peek eoi ts x)))
                          (pact (a_var X c s) (fun a => POk a (toks ts))))
          by (apply same_act; intros; reflexivity).
        destruct ts as [|[t2 m] ts]; [exact Hv|]. destruct t2; try exact Hv. clear Hv.
        cbn [toks map fst]. apply same_bind; [apply IHe|]. intros a r x'.
        destruct r as [|[t k] r]; [simpl; eauto|]. destruct t; try (simpl; eauto; fail).
        apply same_act. intros; reflexivity.
      * apply same_act. intros; reflexivity.
      * apply same_act. intros; reflexivity.
      * apply same_bind; [apply IHe|]. intros a r x'.
        destruct r as [|[t k] r]; [simpl; eauto|]. destruct t; try (simpl; eauto; fail). 
      * apply same_bind; [apply IHv|]. intros a r x'.
        destruct r as [|[t k] r]; [simpl; eauto|]. destruct t; try (simpl; eauto; fail).
        apply same_act. intros; reflexivity.
      * apply same_bind; [apply IHe|]. intros a r x'. apply same_act. intros; reflexivity.
  - intros lvl c a ts x. cbn [w_ops p_ops]. destruct ts as [|[t n] ts]; [reflexivity|].
    cbn [toks map fst]. destruct (binop_at lvl t); [|reflexivity].
    apply same_bind; [apply IHe|]. intros b r x'. apply same_act. intros; apply IHo.
  - intros c ts x. cbn [w_vec p_vec].
    assert (Hg : same (wbind (w_expr X eoi f 0 c ts x) (fun a r x' =>
            match r with
            | (KComma, n) :: r' =>
                wbind (w_vec X eoi f c r' (at_line n x')) (fun v r'' x'' =>
                  wact (v_cons X a v) x'' (fun w => WOk w r'' x''))
            | _ => wact (v_cons X a (v_nil X)) x' (fun w => WOk w r x')
            end)) (pbind (p_expr X f 0 c (toks ts)) (fun a r =>
            match r with
            | KComma :: r' => pbind (p_vec X f c r') (fun v r'' => pact (v_cons X a v) (fun w => POk w r''))
            | _ => pact (v_cons X a (v_nil X)) (fun w => POk w r)
            end))).
    { apply same_bind; [apply IHe|]. intros a r x'.
      assert (Hd : same (wact (v_cons X a (v_nil X)) x' (fun w => WOk w r x'))
                        (pact (v_cons X a (v_nil X)) (fun w => POk w (toks r))))
        by (apply same_act; intros; reflexivity).
      destruct r as [|[t k] r]; [exact Hd|]. destruct t; try exact Hd.
      cbn [toks map fst]. apply same_bind; [apply IHv|]. intros v r' x''. apply same_act. intros; reflexivity. }
    destruct ts as [|[t n] ts]; [exact Hg|]. destruct t; try exact Hg. reflexivity.
Qed.

Lemma expr0_same c ts x : same (w_expr0 X eoi c ts x) (p_expr0 X c (toks ts)).
Proof. unfold w_expr0, p_expr0, expr_fuel, toks. rewrite map_length. apply expr_same. Qed.

Lemma lines_same f c ts x : same (w_lines X eoi f c ts x) (p_lines X f c (toks ts)).
Proof.
  revert ts x. induction f as [|f IH]; intros ts x; [reflexivity|]. cbn [w_lines p_lines].
  assert (Hg : same (wbind (w_expr0 X eoi c ts x) (fun a r x' =>
          match r with
          | (KComma, n) :: r' =>
              wbind (w_lines X eoi f c r' (at_line n x')) (fun v r'' x'' =>
                wact (l_cons X a v) x'' (fun w => WOk w r'' x''))
          | _ => wact (l_cons X a (l_nil X)) x' (fun w => WOk w r x')
          end)) (pbind (p_expr0 X c (toks ts)) (fun a r =>
          match r with
          | KComma :: r' => pbind (p_lines X f c r') (fun v r'' => pact (l_cons X a v) (fun w => POk w r''))
          | _ => pact (l_cons X a (l_nil X)) (fun w => POk w r)
          end))).
  { apply same_bind; [apply expr0_same|]. intros a r x'.
    assert (Hd : same (wact (l_cons X a (l_nil X)) x' (fun w => WOk w r x'))
                      (pact (l_cons X a (l_nil X)) (fun w => POk w (toks r))))
      by (apply same_act; intros; reflexivity).
    destruct r as [|[t k] r]; [exact Hd|]. destruct t; try exact Hd.
    cbn [toks map fst]. apply same_bind; [apply IH|]. intros v r' x''. apply same_act. intros; reflexivity. }
  destruct ts as [|[t n] ts]; [exact Hg|]. destruct t; try exact Hg. reflexivity.
Qed.

Lemma syntax2_same {B} ok ts x k : same (@syntax2 eoi B ok ts x) (PAbort k).
Proof. unfold syntax2. destruct ts as [|[t n] ts]; [simpl; eauto|]. destruct (ok t); simpl; eauto. Qed.

Lemma props_same f c ts x : same (w_props X eoi f c ts x) (p_props X f c (toks ts)).
Proof.
  revert ts x. induction f as [|f IH]; intros ts x; [reflexivity|]. cbn [w_props p_props].
  destruct ts as [|[t n] ts]; [reflexivity|]. destruct t; try reflexivity.
  cbn [toks map fst]. destruct ts as [|[t2 n2] ts]; [apply syntax2_same|].
  destruct t2; try apply syntax2_same. cbn [toks map fst].
  destruct ts as [|[t3 n3] ts]; [apply syntax2_same|]. destruct t3; try apply syntax2_same.
  cbn [map fst]. apply same_bind; [apply expr0_same|]. intros a r x'.
  pose proof (IH r x') as H. destruct (w_props X eoi f c r x'); simpl in H |- *; try (rewrite H; reflexivity).
  destruct H as [k ->]. eauto.
Qed.

Lemma semi_same {B} ts x (k : list ltok -> wst -> wres B) k' :
  (forall r x, same (k r x) (k' (toks r))) -> same (w_semi eoi ts x k) (p_semi (toks ts) k').
Proof.
  intros H. destruct ts as [|[t n] r]; [simpl; eauto|]. destruct t; try (simpl; eauto; fail).
Qed.

Lemma entry_same c ts x : same (w_entry X bad eoi c ts x) (p_entry X c (toks ts)).
Proof.
  destruct ts as [|[t n] ts]; [simpl; eauto|]. destruct t; try (simpl; eauto; fail).
  destruct ts as [|[t2 n2] ts]; [simpl; eauto|]. destruct t2; try (simpl; eauto; fail).
  - cbn [w_entry toks map fst p_entry]. apply same_bind; [apply expr0_same|]. intros a r x'.
    apply semi_same. intros. apply same_act. intros; reflexivity.
  - destruct ts as [|[t3 n3] ts]; [simpl; eauto|]. destruct t3; try (simpl; eauto; fail).
    assert (He : forall ts', same (wbind (w_props X eoi (S (List.length ts')) c ts' (at_line n3 x)) (fun m r' x' => w_semi eoi r' x' (fun r'' x' =>
        wact (s_elem X c s s0 m) x' (fun c' => WOk c' r'' (done bad c' x')))))
       (pbind (p_props X (S (List.length (toks ts'))) c (toks ts')) (fun m r' => p_semi r' (fun r'' =>
        pact (s_elem X c s s0 m) (fun c' => POk c' r''))))).
    { intros ts'. unfold toks at 1. rewrite map_length. apply same_bind; [apply props_same|]. intros a r x'.
      apply semi_same. intros. apply same_act. intros; reflexivity. }
    destruct ts as [|[t4 n4] ts]; [apply (He [])|].
    destruct t4; try (apply (He ((_, n4) :: ts))).
    destruct ts as [|[t5 n5] ts]; [simpl; eauto|]. destruct t5; try (simpl; eauto; fail). clear He.
    cbn [w_entry toks map fst p_entry]. fold (toks ts). unfold toks at 1. rewrite map_length.
    apply same_bind; [apply lines_same|]. intros a r x'.
    destruct r as [|[t k] r]; [simpl; eauto|]. destruct t; try (simpl; eauto; fail).
    cbn [toks map fst]. apply semi_same. intros. apply same_act. intros; reflexivity.
  - cbn [w_entry toks map fst p_entry]. apply same_act. intros; reflexivity.
  - cbn [w_entry toks map fst p_entry]. apply same_bind; [apply expr0_same|]. intros a r x'.
    destruct r as [|[t k] r]; [simpl; eauto|]. destruct t; try (simpl; eauto; fail).
    cbn [toks map fst]. apply semi_same. intros. apply same_act. intros; reflexivity.
Qed.

Lemma file_same f c ts x : same (w_file X bad eoi f c ts x) (p_file X f c (toks ts)).
Proof.
  revert c ts x. induction f as [|f IH]; intros c ts x.
  - destruct ts as [|[t n] ts]; reflexivity.
  - destruct ts as [|[t n] ts]; [reflexivity|]. cbn [w_file toks map fst p_file].
    apply same_bind; [apply entry_same|]. intros. apply IH.
Qed.
End Same.

(** * Invariants of the messages *)
Section Inv.
Context {C A V L K : Type} (X : actions C A V L K) (bad : C -> bool) (eoi : N * bool).
Variables (P : N -> Prop) (Wk I St : wst -> Prop).
Hypothesis HW : forall n x, Wk x -> P n -> I (at_line n x).
Hypothesis HI : forall x, I x -> Wk x.
Hypothesis HN : forall x, I x -> St (note x).
Hypothesis HE : P (fst eoi).
Hypothesis HL : snd eoi = true -> forall x, I x -> I (note x).

Definition io {B} (y : wres B) : Prop :=
  match y with
  | WOk _ r x => I x /\ Forall (fun tn => P (snd tn)) r
  | WStop x => St x
  | _ => True
  end.
Notation ahead := (Forall (fun tn : ltok => P (snd tn))).

Lemma peek_I ts x : Wk x -> ahead ts -> I (peek eoi ts x).
Proof.
  intros Hx Ht. destruct Ht as [|[t n] ts Hn _]; simpl.
  - destruct (bool_dec (snd eoi) true) as [E|E]; [rewrite E; apply HL; [exact E|]|apply not_true_is_false in E; rewrite E]; apply HW; auto.
  - apply HW; auto.
Qed.
Lemma syntax_io {B} ts x : Wk x -> ahead ts -> io (@syntax eoi B ts x).
Proof. intros Hx Ht. simpl. apply HN. apply peek_I; auto. Qed.
Lemma bind_io {B D} (y : wres B) (f : B -> list ltok -> wst -> wres D) :
  io y -> (forall a r x, I x -> ahead r -> io (f a r x)) -> io (wbind y f).
Proof. intros H Hf. destruct y; simpl in *; auto. destruct H. apply Hf; auto. Qed.
Lemma act_io {B D} (y : act B) x (f : B -> wres D) : I x -> (forall a, io (f a)) -> io (wact y x f).
Proof. intros H Hf. destruct y; simpl; auto. Qed.

Ltac inv_ahead :=
  repeat match goal with
  | H : Forall _ (_ :: _) |- _ => apply Forall_cons_iff in H; destruct H; cbn [snd] in *
  end.

Lemma expr_io f :
  (forall lvl c ts x, Wk x -> ahead ts -> io (w_expr X eoi f lvl c ts x)) /\
  (forall lvl c a ts x, Wk x -> ahead ts -> io (w_ops X eoi f lvl c a ts x)) /\
  (forall c ts x, Wk x -> ahead ts -> io (w_vec X eoi f c ts x)).
Proof.
  induction f as [|f (IHe & IHo & IHv)]; [repeat split; intros; exact Logic.I|].
  split; [|split].
  - intros lvl c ts x Hx Ht. cbn [w_expr].
    destruct lvl as [|[|lvl]];
      [apply bind_io; [apply IHe; auto|intros; apply IHo; auto]
      |apply bind_io; [apply IHe; auto|intros; apply IHo; auto]|].
    pose proof Ht as Ht0. destruct ts as [|[t n] ts]; [apply syntax_io; auto|].
    inv_ahead. destruct t; try (apply syntax_io; auto; fail).
    + assert (Hv : io (wact (a_var X c s) (peek eoi ts x) (fun a => WOk a ts (peek eoi ts x))))
        by (apply act_io; [apply peek_I; auto|intros; simpl; auto using peek_I]).
      destruct ts as [|[t2 m] ts]; [exact Hv|]. destruct t2; try exact Hv. clear Hv. inv_ahead.
      apply bind_io; [apply IHe; auto|]. intros a r x' Hx' Hr.
      destruct r as [|[t k] r]; [apply syntax_io; auto|]. destruct t; try (apply syntax_io; auto; fail).
      inv_ahead. apply act_io; [auto|]. intros; simpl; auto.
    + apply act_io; [auto|]. intros; simpl; auto.
    + apply act_io; [auto|]. intros; simpl; auto.
    + apply bind_io; [apply IHe; auto|]. intros a r x' Hx' Hr.
      destruct r as [|[t k] r]; [apply syntax_io; auto|]. destruct t; try (apply syntax_io; auto; fail).
      inv_ahead. simpl; auto.
    + apply bind_io; [apply IHv; auto|]. intros a r x' Hx' Hr.
      destruct r as [|[t k] r]; [apply syntax_io; auto|]. destruct t; try (apply syntax_io; auto; fail).
      inv_ahead. apply act_io; [auto|]. intros; simpl; auto.
    + apply bind_io; [apply IHe; auto|]. intros a r x' Hx' Hr. apply act_io; [auto|]. intros; simpl; auto.
  - intros lvl c a ts x Hx Ht. cbn [w_ops]. pose proof Ht as Ht0.
    destruct ts as [|[t n] ts]; [split; [apply peek_I; auto|auto]|].
    destruct (binop_at lvl t); [|split; [apply peek_I; auto|auto]].
    inv_ahead. apply bind_io; [apply IHe; auto|]. intros b r x' Hx' Hr.
    apply act_io; [auto|]. intros; apply IHo; auto.
  - intros c ts x Hx Ht. cbn [w_vec].
    assert (Hg : io (wbind (w_expr X eoi f 0 c ts x) (fun a r x' =>
            match r with
            | (KComma, n) :: r' =>
                wbind (w_vec X eoi f c r' (at_line n x')) (fun v r'' x'' =>
                  wact (v_cons X a v) x'' (fun w => WOk w r'' x''))
            | _ => wact (v_cons X a (v_nil X)) x' (fun w => WOk w r x')
            end))).
    { apply bind_io; [apply IHe; auto|]. intros a r x' Hx' Hr.
      assert (Hd : io (wact (v_cons X a (v_nil X)) x' (fun w => WOk w r x')))
        by (apply act_io; [auto|]; intros; simpl; auto).
      destruct r as [|[t k] r]; [exact Hd|]. destruct t; try exact Hd. clear Hd. inv_ahead.
      apply bind_io; [apply IHv; auto|]. intros v r' x'' Hx'' Hr'. apply act_io; [auto|]. intros; simpl; auto. }
    destruct ts as [|[t n] ts]; [exact Hg|]. destruct t; try exact Hg. clear Hg.
    pose proof Ht as Ht0. inv_ahead. simpl; auto.
Qed.

Lemma expr0_io c ts x : Wk x -> ahead ts -> io (w_expr0 X eoi c ts x).
Proof. apply expr_io. Qed.

Lemma lines_io f c ts x : Wk x -> ahead ts -> io (w_lines X eoi f c ts x).
Proof.
  revert ts x. induction f as [|f IH]; intros ts x Hx Ht; [exact Logic.I|]. cbn [w_lines].
  assert (Hg : io (wbind (w_expr0 X eoi c ts x) (fun a r x' =>
          match r with
          | (KComma, n) :: r' =>
              wbind (w_lines X eoi f c r' (at_line n x')) (fun v r'' x'' =>
                wact (l_cons X a v) x'' (fun w => WOk w r'' x''))
          | _ => wact (l_cons X a (l_nil X)) x' (fun w => WOk w r x')
          end))).
  { apply bind_io; [apply expr0_io; auto|]. intros a r x' Hx' Hr.
    assert (Hd : io (wact (l_cons X a (l_nil X)) x' (fun w => WOk w r x')))
      by (apply act_io; [auto|]; intros; simpl; auto).
    destruct r as [|[t k] r]; [exact Hd|]. destruct t; try exact Hd. clear Hd. inv_ahead.
    apply bind_io; [apply IH; auto|]. intros v r' x'' Hx'' Hr'. apply act_io; [auto|]. intros; simpl; auto. }
  destruct ts as [|[t n] ts]; [exact Hg|]. destruct t; try exact Hg. clear Hg.
  pose proof Ht as Ht0. inv_ahead. simpl; auto.
Qed.

Lemma syntax2_io {B} ok ts x : Wk x -> ahead ts -> io (@syntax2 eoi B ok ts x).
Proof.
  intros Hx Ht. unfold syntax2. pose proof Ht as Ht0. destruct ts as [|[t n] ts]; [apply syntax_io; auto|].
  inv_ahead. destruct (ok t); apply syntax_io; auto.
Qed.

Lemma props_io f c ts x : Wk x -> ahead ts -> io (w_props X eoi f c ts x).
Proof.
  revert ts x. induction f as [|f IH]; intros ts x Hx Ht; [exact Logic.I|]. cbn [w_props].
  assert (Hn : io (WOk (k_nil X) ts (peek eoi ts x))) by (split; [apply peek_I; auto|auto]).
  destruct ts as [|[t n] ts]; [exact Hn|]. destruct t; try exact Hn. clear Hn.
  pose proof Ht as Ht0. apply Forall_cons_iff in Ht as [Hn Ht]. cbn [snd] in Hn.
  assert (Hs : io (@syntax2 eoi K is_kw ts (at_line n x))) by (apply syntax2_io; auto).
  destruct ts as [|[t2 n2] ts]; [exact Hs|]. destruct t2; try exact Hs.
  destruct ts as [|[t3 n3] ts]; [exact Hs|]. destruct t3; try exact Hs. clear Hs.
  inv_ahead. apply bind_io; [apply expr0_io; auto|]. intros a r x' Hx' Hr.
  apply bind_io; [apply IH; auto|]. intros m r'' x'' Hx'' Hr''. simpl; auto.
Qed.

Lemma semi_io {B} ts x (k : list ltok -> wst -> wres B) : Wk x -> ahead ts ->
  (forall r x, I x -> ahead r -> io (k r x)) -> io (w_semi eoi ts x k).
Proof.
  intros Hx Ht Hk. pose proof Ht as Ht0. destruct ts as [|[t n] ts]; [apply syntax_io; auto|].
  destruct t; try (apply syntax_io; auto; fail). inv_ahead. simpl. apply Hk; auto.
Qed.

Section Entry.
Hypothesis HD : forall x, I x -> I (note x).
Hypothesis HP : forall s x, I x -> I (print s x).

Lemma done_I c x : I x -> I (done bad c x).
Proof. intros H. unfold done. destruct (bad c); auto. Qed.

Lemma entry_io c ts x : Wk x -> ahead ts -> io (w_entry X bad eoi c ts x).
Proof.
  intros Hx Ht. pose proof Ht as Ht0. destruct ts as [|[t n] ts]; [apply syntax_io; auto|].
  destruct t; try (apply syntax_io; auto; fail).
  apply Forall_cons_iff in Ht as [Hn Ht]. cbn [snd] in Hn. pose proof Ht as Ht1.
  destruct ts as [|[t2 n2] ts]; [apply syntax_io; auto|].
  destruct t2; try (apply syntax_io; auto; fail);
    apply Forall_cons_iff in Ht as [Hn2 Ht]; cbn [snd] in Hn2; cbn [w_entry].
  - apply bind_io; [apply expr0_io; auto|]. intros a r x' Hx' Hr. apply semi_io; auto.
    intros r' x'' Hx'' Hr'. apply act_io; [auto|]. intros; simpl; auto using done_I.
  - pose proof Ht as Ht2. destruct ts as [|[t3 n3] ts]; [apply syntax_io; auto|].
    destruct t3; try (apply syntax_io; auto; fail).
    apply Forall_cons_iff in Ht as [Hn3 Ht]. cbn [snd] in Hn3.
    assert (He : forall ts', ahead ts' -> io (wbind (w_props X eoi (S (List.length ts')) c ts' (at_line n3 x)) (fun m r' x' => w_semi eoi r' x' (fun r'' x' =>
        wact (s_elem X c s s0 m) x' (fun c' => WOk c' r'' (done bad c' x')))))).
    { intros ts' Ht'. apply bind_io; [apply props_io; auto|]. intros a r x' Hx' Hr. apply semi_io; auto.
      intros r' x'' Hx'' Hr'. apply act_io; [auto|]. intros; simpl; auto using done_I. }
    destruct ts as [|[t4 n4] ts]; [apply He; auto|]. destruct t4; try (apply He; auto; fail). clear He.
    apply Forall_cons_iff in Ht as [Hn4 Ht]. cbn [snd] in Hn4.
    pose proof Ht as Ht4. destruct ts as [|[t5 n5] ts]; [apply syntax_io; auto|].
    destruct t5; try (apply syntax_io; auto; fail).
    apply Forall_cons_iff in Ht as [Hn5 Ht]. cbn [snd] in Hn5.
    apply bind_io; [apply lines_io; auto|]. intros a r x' Hx' Hr.
    destruct r as [|[t k] r]; [apply syntax_io; auto|]. destruct t; try (apply syntax_io; auto; fail).
    inv_ahead. apply semi_io; auto.
    intros r' x'' Hx'' Hr'. apply act_io; [auto|]. intros; simpl; auto using done_I.
  - apply act_io; [auto|]. intros; simpl; auto using done_I.
  - apply bind_io; [apply expr0_io; auto|]. intros a r x' Hx' Hr.
    destruct r as [|[t k] r]; [apply syntax_io; auto|]. destruct t; try (apply syntax_io; auto; fail).
    inv_ahead. apply semi_io; auto.
    intros r' x'' Hx'' Hr'. apply act_io; [auto|]. intros; simpl; auto using done_I.
Qed.

Lemma file_io f c ts x : Wk x -> ahead ts -> io (w_file X bad eoi f c ts x).
Proof.
  revert c ts x. induction f as [|f IH]; intros c ts x Hx Ht.
  - destruct ts as [|[t n] ts]; [split; [apply peek_I; auto|auto]|exact Logic.I].
  - destruct ts as [|[t n] ts]; [split; [apply peek_I; auto|auto]|]. cbn [w_file].
    apply bind_io; [apply entry_io; auto|]. intros. apply IH; auto.
Qed.
End Entry.
End Inv.

(** * Two inputs with the same beginning *)
Section Two.
Context {C A V L K : Type} (X : actions C A V L K) (bad : C -> bool).
Variables (n : N) (s1 s2 : list ltok) (e1 e2 : N * bool).
Notation beyond := (Forall (fun tn : ltok => (n < snd tn)%N)).
Hypothesis B1 : beyond s1.
Hypothesis B2 : beyond s2.
Hypothesis E1 : (n < fst e1)%N.
Hypothesis E2 : (n < fst e2)%N.

(** The first message, if it is about one of the first [n] lines. *)
Definition settle (x : wst) : option N :=
  match w_first x with Some k => if (k <=? n)%N then Some k else None | None => None end.
Definition late (v : option N) (x : wst) : Prop := settle x = v /\ (n < w_line x)%N.
Definition out {B} (v : option N) (y : wres B) : Prop :=
  io (fun k => (n < k)%N) (late v) (late v) y.

Lemma late_line v k x : settle x = v -> (n < k)%N -> late v (at_line k x).
Proof. intros H Hk. split; [exact H|exact Hk]. Qed.
Lemma late_note v x : late v x -> late v (note x).
Proof.
  intros [H Hl]. unfold note. destruct (w_first x) eqn:E; [split; assumption|].
  split; [|exact Hl]. unfold settle in *. rewrite E in H. cbn [w_first]. 
  replace (w_line x <=? n)%N with false; [exact H|]. symmetry. apply N.leb_gt. exact Hl.
Qed.
Lemma late_print v s x : late v x -> late v (print s x).
Proof. intros [H Hl]. unfold print. destruct (String.eqb s "print"); split; assumption. Qed.

(** [b]: the token after what has been parsed has been read *)
Definition rel {B} (b : bool) (y1 y2 : wres B) : Prop :=
  y1 = WFuel \/ y2 = WFuel \/
  (exists a q x, (b = true -> q <> []) /\ y1 = WOk a (q ++ s1) x /\ y2 = WOk a (q ++ s2) x) \/
  (exists x, y1 = WStop x /\ y2 = WStop x) \/
  (y1 = WBadGet /\ y2 = WBadGet) \/ (exists u, y1 = WUB u /\ y2 = WUB u) \/
  (exists v, out v y1 /\ out v y2).

Lemma rel_ok {B} b (a : B) q x : (b = true -> q <> []) -> rel b (WOk a (q ++ s1) x) (WOk a (q ++ s2) x).
Proof. right; right; left. exists a, q, x. auto. Qed.
Lemma rel_ok0 {B} (a : B) q x : rel false (WOk a (q ++ s1) x) (WOk a (q ++ s2) x).
Proof. apply rel_ok. discriminate. Qed.
Lemma rel_stop {B} b x : rel b (@WStop B x) (WStop x).
Proof. (do 3 right); left. eauto. Qed.
Lemma rel_out {B} b v (y1 y2 : wres B) : out v y1 -> out v y2 -> rel b y1 y2.
Proof. do 6 right. eauto. Qed.
Lemma rel_bind {B D} b d (y1 y2 : wres B) (f1 f2 : B -> list ltok -> wst -> wres D) : rel b y1 y2 ->
  (forall a q x, (b = true -> q <> []) -> rel d (f1 a (q ++ s1) x) (f2 a (q ++ s2) x)) ->
  (forall v a r x, late v x -> beyond r -> out v (f1 a r x)) ->
  (forall v a r x, late v x -> beyond r -> out v (f2 a r x)) -> rel d (wbind y1 f1) (wbind y2 f2).
Proof.
  intros H Hs H1 H2.
  destruct H as [->|[->|[(a & q & x & Hq & -> & ->)|[(x & -> & ->)|[[-> ->]|[(u & -> & ->)|(v & O1 & O2)]]]]]].
  - left. reflexivity.
  - right; left. reflexivity.
  - apply Hs. exact Hq.
  - apply rel_stop.
  - (do 4 right); left. auto.
  - (do 5 right); left. exists u. split; reflexivity.
  - apply (rel_out d v).
    + destruct y1; simpl in *; auto. apply H1; tauto.
    + destruct y2; simpl in *; auto. apply H2; tauto.
Qed.
Lemma rel_act {B D} d (y : act B) x (f1 f2 : B -> wres D) :
  (forall a, rel d (f1 a) (f2 a)) -> rel d (wact y x f1) (wact y x f2).
Proof.
  intros H. destruct y; simpl; auto.
  - apply rel_stop.
  - (do 4 right); left. auto.
  - (do 5 right); left. eauto.
Qed.

Lemma HW' v : forall k x, settle x = v -> (n < k)%N -> late v (at_line k x).
Proof. intros; apply late_line; auto. Qed.
Lemma HI' v : forall x, late v x -> settle x = v.
Proof. intros x H; apply H. Qed.

(** What is read beyond the beginning. *)
Lemma expr_out e s v f lvl c r x : (n < fst e)%N -> s = r -> settle x = v -> beyond r -> out v (w_expr X e f lvl c s x).
Proof.
  intros He -> Hx Hr. apply (expr_io X e _ (fun x => settle x = v) _ _ (HW' v) (HI' v) (late_note v) He (fun _ => late_note v)); assumption.
Qed.
Lemma ops_out e v f lvl c a r x : (n < fst e)%N -> settle x = v -> beyond r -> out v (w_ops X e f lvl c a r x).
Proof.
  intros He Hx Hr. apply (expr_io X e _ (fun x => settle x = v) _ _ (HW' v) (HI' v) (late_note v) He (fun _ => late_note v)); assumption.
Qed.
Lemma vec_out e v f c r x : (n < fst e)%N -> settle x = v -> beyond r -> out v (w_vec X e f c r x).
Proof.
  intros He Hx Hr. apply (expr_io X e _ (fun x => settle x = v) _ _ (HW' v) (HI' v) (late_note v) He (fun _ => late_note v)); assumption.
Qed.
Lemma lines_out e v f c r x : (n < fst e)%N -> settle x = v -> beyond r -> out v (w_lines X e f c r x).
Proof.
  intros He Hx Hr. apply (lines_io X e _ (fun x => settle x = v) _ _ (HW' v) (HI' v) (late_note v) He (fun _ => late_note v)); assumption.
Qed.
Lemma props_out e v f c r x : (n < fst e)%N -> settle x = v -> beyond r -> out v (w_props X e f c r x).
Proof.
  intros He Hx Hr. apply (props_io X e _ (fun x => settle x = v) _ _ (HW' v) (HI' v) (late_note v) He (fun _ => late_note v)); assumption.
Qed.
Lemma syntax_out {B} e v r x : (n < fst e)%N -> settle x = v -> beyond r -> out v (@syntax e B r x).
Proof.
  intros He Hx Hr. apply (syntax_io e _ (fun x => settle x = v) _ _ (HW' v) (late_note v) He (fun _ => late_note v)); assumption.
Qed.
Lemma peek_late e v r x : (n < fst e)%N -> settle x = v -> beyond r -> late v (peek e r x).
Proof.
  intros He Hx Hr. apply (peek_I e _ (fun x => settle x = v) _ (HW' v) He (fun _ => late_note v)); assumption.
Qed.
Lemma entry_out e v c r x : (n < fst e)%N -> settle x = v -> beyond r -> out v (w_entry X bad e c r x).
Proof.
  intros He Hx Hr. apply (entry_io X bad e _ (fun x => settle x = v) _ _ (HW' v) (HI' v) (late_note v) He (fun _ => late_note v) (late_note v) (late_print v)); assumption.
Qed.
Lemma file_out e v f c r x : (n < fst e)%N -> settle x = v -> beyond r -> out v (w_file X bad e f c r x).
Proof.
  intros He Hx Hr. apply (file_io X bad e _ (fun x => settle x = v) _ _ (HW' v) (HI' v) (late_note v) He (fun _ => late_note v) (late_note v) (late_print v)); assumption.
Qed.
Lemma bind_out {B D} v (y : wres B) (f : B -> list ltok -> wst -> wres D) :
  out v y -> (forall a r x, late v x -> beyond r -> out v (f a r x)) -> out v (wbind y f).
Proof. apply bind_io. Qed.
Lemma act_out {B D} v (y : act B) x (f : B -> wres D) : late v x -> (forall a, out v (f a)) -> out v (wact y x f).
Proof. apply (act_io _ _ _ (late_note v)). Qed.
Lemma ok_out {B} v (a : B) r x : late v x -> beyond r -> out v (WOk a r x).
Proof. intros. split; assumption. Qed.

Ltac lsolve := first
  [ assumption
  | apply late_line; [first [assumption|apply HI'; assumption]|assumption]
  | apply peek_late; [assumption|first [assumption|apply HI'; assumption]|assumption] ].
Ltac ssolve := first [assumption | reflexivity | apply HI'; lsolve | match goal with |- settle (at_line _ ?x) = _ => change (settle x = _ ); first [assumption|apply HI'; assumption] end].
Ltac bsolve := first [assumption | constructor; assumption].
Ltac inv_beyond :=
  repeat match goal with
  | H : Forall _ (_ :: _) |- _ =>
      apply Forall_cons_iff in H as [? ?]; cbn [snd] in *
  end.
Ltac osolve :=
  lazymatch goal with
  | |- out _ (wbind _ _) => apply bind_out; [osolve|intros; osolve]
  | |- out _ (wact _ _ _) => apply act_out; [lsolve|intros; osolve]
  | |- out _ (WOk _ _ _) => apply ok_out; [lsolve|bsolve]
  | |- out _ (w_expr _ _ _ _ _ _ _) => eapply expr_out; [assumption|reflexivity|ssolve|bsolve]
  | |- out _ (w_expr0 _ _ _ _ _) => eapply expr_out; [assumption|reflexivity|ssolve|bsolve]
  | |- out _ (w_ops _ _ _ _ _ _ _ _) => apply ops_out; [assumption|ssolve|bsolve]
  | |- out _ (w_vec _ _ _ _ _ _) => apply vec_out; [assumption|ssolve|bsolve]
  | |- out _ (w_lines _ _ _ _ _ _) => apply lines_out; [assumption|ssolve|bsolve]
  | |- out _ (w_props _ _ _ _ _ _) => apply props_out; [assumption|ssolve|bsolve]
  | |- out _ (syntax _ _ _) => apply syntax_out; [assumption|ssolve|bsolve]
  | |- _ => idtac
  end.

(** A closing token *)
Lemma close_out {B} e v r x (g : list ltok -> wst -> wres B) : (n < @fst N bool e)%N ->
  settle x = v -> beyond r -> (forall m r, (n < m)%N -> beyond r -> out v (g r (at_line m x))) ->
  out v (match r with (KRPar, m) :: r'' => g r'' (at_line m x) | _ => syntax e r x end).
Proof.
  intros He Hx Hr Hg. assert (Hs := @syntax_out B e v r x He Hx Hr).
  destruct r as [|[t m] r]; [exact Hs|]. destruct t; try exact Hs.
  apply Forall_cons_iff in Hr as [Hm Hr]. apply Hg; assumption.
Qed.
Lemma close_out2 {B} e v r x (g : list ltok -> wst -> wres B) : (n < @fst N bool e)%N ->
  settle x = v -> beyond r -> (forall m r, (n < m)%N -> beyond r -> out v (g r (at_line m x))) ->
  out v (match r with (KRBrk, m) :: r'' => g r'' (at_line m x) | _ => syntax e r x end).
Proof.
  intros He Hx Hr Hg. assert (Hs := @syntax_out B e v r x He Hx Hr).
  destruct r as [|[t m] r]; [exact Hs|]. destruct t; try exact Hs.
  apply Forall_cons_iff in Hr as [Hm Hr]. apply Hg; assumption.
Qed.
Lemma semi_out {B} e v r x (g : list ltok -> wst -> wres B) : (n < @fst N bool e)%N ->
  settle x = v -> beyond r -> (forall m r, (n < m)%N -> beyond r -> out v (g r (at_line m x))) ->
  out v (w_semi e r x g).
Proof.
  intros He Hx Hr Hg. assert (Hs := @syntax_out B e v r x He Hx Hr).
  destruct r as [|[t m] r]; [exact Hs|]. destruct t; try exact Hs.
  apply Forall_cons_iff in Hr as [Hm Hr]. apply Hg; assumption.
Qed.
(** A comma, and what follows; or the end of a list *)
Lemma comma_out {B} v r x (g d : list ltok -> wst -> wres B) :
  late v x -> beyond r -> (forall m r, (n < m)%N -> beyond r -> out v (g r (at_line m x))) ->
  out v (d r x) ->
  out v (match r with (KComma, m) :: r'' => g r'' (at_line m x) | _ => d r x end).
Proof.
  intros Hx Hr Hg Hd.
  destruct r as [|[t m] r]; [exact Hd|]. destruct t; try exact Hd.
  apply Forall_cons_iff in Hr as [Hm Hr]. apply Hg; assumption.
Qed.

Lemma peek_rel (t : token) k q : forall x, peek e1 (((t, k) :: q) ++ s1) x = peek e2 (((t, k) :: q) ++ s2) x.
Proof. reflexivity. Qed.
Lemma syntax_rel {B} d q x : rel d (@syntax e1 B (q ++ s1) x) (syntax e2 (q ++ s2) x).
Proof.
  destruct q as [|[t k] q]; [|apply rel_stop].
  apply (rel_out d (settle x)); apply syntax_out; auto.
Qed.
Lemma close_rel {B} d q x (g1 g2 : list ltok -> wst -> wres B) :
  (forall q x, rel d (g1 (q ++ s1) x) (g2 (q ++ s2) x)) ->
  (forall v m r, settle x = v -> (n < m)%N -> beyond r -> out v (g1 r (at_line m x))) ->
  (forall v m r, settle x = v -> (n < m)%N -> beyond r -> out v (g2 r (at_line m x))) ->
  rel d (match q ++ s1 with (KRPar, m) :: r'' => g1 r'' (at_line m x) | _ => syntax e1 (q ++ s1) x end)
      (match q ++ s2 with (KRPar, m) :: r'' => g2 r'' (at_line m x) | _ => syntax e2 (q ++ s2) x end).
Proof.
  intros Hg H1 H2. destruct q as [|[t m] q].
  - apply (rel_out d (settle x)); apply close_out; auto.
  - cbn [app]. destruct t; try apply rel_stop. apply Hg.
Qed.
Lemma close_rel2 {B} d q x (g1 g2 : list ltok -> wst -> wres B) :
  (forall q x, rel d (g1 (q ++ s1) x) (g2 (q ++ s2) x)) ->
  (forall v m r, settle x = v -> (n < m)%N -> beyond r -> out v (g1 r (at_line m x))) ->
  (forall v m r, settle x = v -> (n < m)%N -> beyond r -> out v (g2 r (at_line m x))) ->
  rel d (match q ++ s1 with (KRBrk, m) :: r'' => g1 r'' (at_line m x) | _ => syntax e1 (q ++ s1) x end)
      (match q ++ s2 with (KRBrk, m) :: r'' => g2 r'' (at_line m x) | _ => syntax e2 (q ++ s2) x end).
Proof.
  intros Hg H1 H2. destruct q as [|[t m] q].
  - apply (rel_out d (settle x)); apply close_out2; auto.
  - cbn [app]. destruct t; try apply rel_stop. apply Hg.
Qed.
Lemma semi_rel {B} d q x (g1 g2 : list ltok -> wst -> wres B) :
  (forall q x, rel d (g1 (q ++ s1) x) (g2 (q ++ s2) x)) ->
  (forall v m r, settle x = v -> (n < m)%N -> beyond r -> out v (g1 r (at_line m x))) ->
  (forall v m r, settle x = v -> (n < m)%N -> beyond r -> out v (g2 r (at_line m x))) ->
  rel d (w_semi e1 (q ++ s1) x g1) (w_semi e2 (q ++ s2) x g2).
Proof.
  intros Hg H1 H2. destruct q as [|[t m] q].
  - apply (rel_out d (settle x)); apply semi_out; auto.
  - cbn [app w_semi]. destruct t; try apply rel_stop. apply Hg.
Qed.


Lemma comma_rel {B} d q x (g1 g2 h1 h2 : list ltok -> wst -> wres B) : q <> [] ->
  (forall q x, rel d (g1 (q ++ s1) x) (g2 (q ++ s2) x)) ->
  rel d (h1 (q ++ s1) x) (h2 (q ++ s2) x) ->
  rel d (match q ++ s1 with (KComma, m) :: r'' => g1 r'' (at_line m x) | _ => h1 (q ++ s1) x end)
        (match q ++ s2 with (KComma, m) :: r'' => g2 r'' (at_line m x) | _ => h2 (q ++ s2) x end).
Proof.
  intros Hq Hg Hh. destruct q as [|[t m] q]; [congruence|].
  cbn [app] in *. destruct t; try exact Hh. apply Hg.
Qed.

Definition lvl_b (lvl : nat) : bool := match lvl with 0 | 1 => true | _ => false end.

Lemma expr_rel f1 : forall f2,
  (forall lvl c q x, rel (lvl_b lvl) (w_expr X e1 f1 lvl c (q ++ s1) x) (w_expr X e2 f2 lvl c (q ++ s2) x)) /\
  (forall lvl c a q x, rel true (w_ops X e1 f1 lvl c a (q ++ s1) x) (w_ops X e2 f2 lvl c a (q ++ s2) x)) /\
  (forall c q x, rel true (w_vec X e1 f1 c (q ++ s1) x) (w_vec X e2 f2 c (q ++ s2) x)).
Proof.
  induction f1 as [|f1 IH]; intros f2; [repeat split; intros; left; reflexivity|].
  destruct f2 as [|f2]; [repeat split; intros; right; left; reflexivity|].
  destruct (IH f2) as (IHe & IHo & IHv).
  split; [|split].
  - intros lvl c q x.
    assert (Hl : forall lvl', rel true (wbind (w_expr X e1 f1 (S lvl') c (q ++ s1) x) (fun a r x' => w_ops X e1 f1 lvl' c a r x'))
                                  (wbind (w_expr X e2 f2 (S lvl') c (q ++ s2) x) (fun a r x' => w_ops X e2 f2 lvl' c a r x'))).
    { intros lvl'. eapply rel_bind; [apply IHe|intros; apply IHo|intros; osolve|intros; osolve]. }
    destruct lvl as [|[|lvl]]; [apply (Hl 0)|apply (Hl 1)|]. clear Hl.
    destruct q as [|[t k] q].
    { apply (rel_out _ (settle x)); osolve. }
    destruct t; try (apply rel_stop); cbn [app w_expr lvl_b].
    + destruct q as [|[t2 k2] q].
      { cbn [app].
        assert (Hv : forall e f v r x, (n < fst e)%N -> settle x = v -> beyond r -> out v
          match r with
          | (KLPar, m) :: r0 =>
              wbind (w_expr X e f 0 c r0 (at_line m x)) (fun a r' x' =>
                match r' with
                | (KRPar, k0) :: r'' =>
                    let x'0 := at_line k0 x' in wact (a_un X c s a) x'0 (fun y => WOk y r'' x'0)
                | _ => syntax e r' x'
                end)
          | _ => let x := peek e r x in wact (a_var X c s) x (fun a => WOk a r x)
          end).
        { clear. intros e f v r x He Hx Hr.
          assert (Hd : out v (let x := peek e r x in wact (a_var X c s) x (fun a => WOk a r x))).
          { cbv zeta. osolve. }
          destruct r as [|[t m] r]; [exact Hd|]. destruct t; try exact Hd. clear Hd.
          inv_beyond. osolve. 
          apply (close_out e v r0 x0 (fun r'' x'0 => wact (a_un X c s a) x'0 (fun y => WOk y r'' x'0))); auto.
          - apply HI'. assumption.
          - intros; osolve. }
        apply (rel_out _ (settle x)); [apply (Hv e1 f1)|apply (Hv e2 f2)]; auto. }
      assert (Hv : rel false (let x0 := peek e1 (((t2, k2) :: q) ++ s1) x in wact (a_var X c s) x0 (fun a => WOk a (((t2, k2) :: q) ++ s1) x0))
                    (let x0 := peek e2 (((t2, k2) :: q) ++ s2) x in wact (a_var X c s) x0 (fun a => WOk a (((t2, k2) :: q) ++ s2) x0))).
      { cbv zeta. rewrite (peek_rel t2 k2 q x). apply rel_act. intros. apply rel_ok0. }
      cbn [app] in *. destruct t2; try exact Hv. clear Hv.
      eapply rel_bind; [apply IHe| | |].
      * intros a q' x' _.
        apply (close_rel false q' x' (fun r'' x'0 => wact (a_un X c s a) x'0 (fun y => WOk y r'' x'0))
                (fun r'' x'0 => wact (a_un X c s a) x'0 (fun y => WOk y r'' x'0))).
        -- intros. apply rel_act. intros. apply rel_ok0.
        -- intros; osolve.
        -- intros; osolve.
      * intros v a r x' Hx' Hr. apply (close_out e1 v r x' (fun r'' x'0 => wact (a_un X c s a) x'0 (fun y => WOk y r'' x'0))); auto; [apply HI'; auto|intros; osolve].
      * intros v a r x' Hx' Hr. apply (close_out e2 v r x' (fun r'' x'0 => wact (a_un X c s a) x'0 (fun y => WOk y r'' x'0))); auto; [apply HI'; auto|intros; osolve].
    + apply rel_act. intros; apply rel_ok0.
    + apply rel_act. intros; apply rel_ok0.
    + eapply rel_bind; [apply IHe| | |].
      * intros a q' x' _.
        apply (close_rel false q' x' (fun r'' x'0 => WOk a r'' x'0) (fun r'' x'0 => WOk a r'' x'0)).
        -- intros. apply rel_ok0.
        -- intros; osolve.
        -- intros; osolve.
      * intros v a r x' Hx' Hr. apply (close_out e1 v r x' (fun r'' x'0 => WOk a r'' x'0)); auto; [apply HI'; auto|intros; osolve].
      * intros v a r x' Hx' Hr. apply (close_out e2 v r x' (fun r'' x'0 => WOk a r'' x'0)); auto; [apply HI'; auto|intros; osolve].
    + eapply rel_bind; [apply IHv| | |].
      * intros a q' x' _.
        apply (close_rel2 false q' x' (fun r'' x'0 => wact (a_vec X a) x'0 (fun y => WOk y r'' x'0))
                (fun r'' x'0 => wact (a_vec X a) x'0 (fun y => WOk y r'' x'0))).
        -- intros. apply rel_act. intros. apply rel_ok0.
        -- intros; osolve.
        -- intros; osolve.
      * intros v a r x' Hx' Hr. apply (close_out2 e1 v r x' (fun r'' x'0 => wact (a_vec X a) x'0 (fun y => WOk y r'' x'0))); auto; [apply HI'; auto|intros; osolve].
      * intros v a r x' Hx' Hr. apply (close_out2 e2 v r x' (fun r'' x'0 => wact (a_vec X a) x'0 (fun y => WOk y r'' x'0))); auto; [apply HI'; auto|intros; osolve].
    + eapply rel_bind; [apply (IHe 2)| |intros; osolve|intros; osolve].
      intros a q' x' _. apply rel_act. intros. apply rel_ok0.
  - intros lvl c a q x. destruct q as [|[t k] q].
    { apply (rel_out _ (settle x)); osolve. }
    cbn [app w_ops]. destruct (binop_at lvl t).
    + eapply rel_bind; [apply IHe| |intros; osolve|intros; osolve].
      intros b q' x' _. apply rel_act. intros. apply IHo.
    + apply (rel_ok true a ((t, k) :: q)). discriminate.
  - intros c q x. destruct q as [|[t k] q].
    { apply (rel_out _ (settle x)); osolve. }
    set (g1 := fun a (r : list ltok) x => wbind (w_vec X e1 f1 c r x) (fun v r'' x'' => wact (v_cons X a v) x'' (fun w => WOk w r'' x''))).
    set (g2 := fun a (r : list ltok) x => wbind (w_vec X e2 f2 c r x) (fun v r'' x'' => wact (v_cons X a v) x'' (fun w => WOk w r'' x''))).
    set (h := fun a (r : list ltok) x => wact (v_cons X a (v_nil X)) x (fun w => WOk w r x)).
    assert (Hg : rel true (wbind (w_expr X e1 f1 0 c (((t, k) :: q) ++ s1) x) (fun a r x' =>
            match r with (KComma, m) :: r' => g1 a r' (at_line m x') | _ => h a r x' end))
          (wbind (w_expr X e2 f2 0 c (((t, k) :: q) ++ s2) x) (fun a r x' =>
            match r with (KComma, m) :: r' => g2 a r' (at_line m x') | _ => h a r x' end))).
    { eapply rel_bind; [apply IHe| | |].
      - intros a q' x' Hq. specialize (Hq eq_refl). apply comma_rel; [exact Hq| |].
        + intros. eapply rel_bind; [apply IHv| |intros; osolve|intros; osolve].
          intros v q3 x3 Hq3. apply rel_act. intros. apply rel_ok. exact Hq3.
        + apply rel_act. intros. apply rel_ok. auto.
      - intros v a r x' Hx' Hr. apply comma_out; auto; [intros; unfold g1; osolve|unfold h; osolve].
      - intros v a r x' Hx' Hr. apply comma_out; auto; [intros; unfold g2; osolve|unfold h; osolve]. }
    destruct t; try exact Hg. apply (rel_ok true (v_nil X) ((KRBrk, k) :: q)). discriminate.
Qed.

Lemma expr0_rel c q x : rel true (w_expr0 X e1 c (q ++ s1) x) (w_expr0 X e2 c (q ++ s2) x).
Proof. apply (expr_rel _ _). Qed.

Lemma lines_rel f1 : forall f2 c q x, rel true (w_lines X e1 f1 c (q ++ s1) x) (w_lines X e2 f2 c (q ++ s2) x).
Proof.
  induction f1 as [|f1 IH]; intros f2 c q x; [left; reflexivity|].
  destruct f2 as [|f2]; [right; left; reflexivity|].
  destruct q as [|[t k] q].
  { apply (rel_out _ (settle x)); osolve. }
  set (g1 := fun a (r : list ltok) x => wbind (w_lines X e1 f1 c r x) (fun v r'' x'' => wact (l_cons X a v) x'' (fun w => WOk w r'' x''))).
  set (g2 := fun a (r : list ltok) x => wbind (w_lines X e2 f2 c r x) (fun v r'' x'' => wact (l_cons X a v) x'' (fun w => WOk w r'' x''))).
  set (h := fun a (r : list ltok) x => wact (l_cons X a (l_nil X)) x (fun w => WOk w r x)).
  assert (Hg : rel true (wbind (w_expr0 X e1 c (((t, k) :: q) ++ s1) x) (fun a r x' =>
          match r with (KComma, m) :: r' => g1 a r' (at_line m x') | _ => h a r x' end))
        (wbind (w_expr0 X e2 c (((t, k) :: q) ++ s2) x) (fun a r x' =>
          match r with (KComma, m) :: r' => g2 a r' (at_line m x') | _ => h a r x' end))).
  { eapply rel_bind; [apply expr0_rel| | |].
    - intros a q' x' Hq. specialize (Hq eq_refl). apply comma_rel; [exact Hq| |].
      + intros. eapply rel_bind; [apply IH| |intros; osolve|intros; osolve].
        intros v q3 x3 Hq3. apply rel_act. intros. apply rel_ok. exact Hq3.
      + apply rel_act. intros. apply rel_ok. auto.
    - intros v a r x' Hx' Hr. apply comma_out; auto; [intros; unfold g1; osolve|unfold h; osolve].
    - intros v a r x' Hx' Hr. apply comma_out; auto; [intros; unfold g2; osolve|unfold h; osolve]. }
  destruct t; try exact Hg. apply (rel_ok true (l_nil X) ((KRPar, k) :: q)). discriminate.
Qed.

Lemma syntax2_out {B} ok e v r x : (n < @fst N bool e)%N -> settle x = v -> beyond r -> out v (@syntax2 e B ok r x).
Proof.
  intros He Hx Hr. unfold syntax2. destruct r as [|[t m] r]; [osolve|].
  pose proof Hr as Hr'. apply Forall_cons_iff in Hr' as [Hm Hr']. cbn [snd] in Hm. destruct (ok t); osolve.
Qed.
Lemma syntax2_rel {B} d ok q x : rel d (@syntax2 e1 B ok (q ++ s1) x) (syntax2 e2 ok (q ++ s2) x).
Proof.
  destruct q as [|[t m] q].
  - apply (rel_out d (settle x)); apply syntax2_out; auto.
  - cbn [app syntax2]. destruct (ok t); [apply syntax_rel|apply (syntax_rel d ((t, m) :: q))].
Qed.

Lemma props_rel f1 : forall f2 c q x, rel true (w_props X e1 f1 c (q ++ s1) x) (w_props X e2 f2 c (q ++ s2) x).
Proof.
  induction f1 as [|f1 IH]; intros f2 c q x; [left; reflexivity|].
  destruct f2 as [|f2]; [right; left; reflexivity|].
  destruct q as [|[t k] q].
  { apply (rel_out _ (settle x)); osolve. }
  assert (Hn : rel true (WOk (k_nil X) (((t, k) :: q) ++ s1) (peek e1 (((t, k) :: q) ++ s1) x))
                        (WOk (k_nil X) (((t, k) :: q) ++ s2) (peek e2 (((t, k) :: q) ++ s2) x)))
    by (apply (rel_ok true (k_nil X) ((t, k) :: q)); discriminate).
  cbn [app w_props] in *. destruct t; try exact Hn. clear Hn.
  set (g1 := fun kw m (r : list ltok) x => wbind (w_expr0 X e1 c r (at_line m x)) (fun a r' x' =>
            wbind (w_props X e1 f1 c r' x') (fun m r'' x'' => WOk (k_cons X kw a m) r'' x''))).
  set (g2 := fun kw m (r : list ltok) x => wbind (w_expr0 X e2 c r (at_line m x)) (fun a r' x' =>
            wbind (w_props X e2 f2 c r' x') (fun m r'' x'' => WOk (k_cons X kw a m) r'' x''))).
  assert (O1 : forall v kw m r x, settle x = v -> (n < m)%N -> beyond r -> out v (g1 kw m r x))
    by (intros; unfold g1; osolve).
  assert (O2 : forall v kw m r x, settle x = v -> (n < m)%N -> beyond r -> out v (g2 kw m r x))
    by (intros; unfold g2; osolve).
  assert (G : forall kw m q x, rel true (g1 kw m (q ++ s1) x) (g2 kw m (q ++ s2) x)).
  { intros. eapply rel_bind; [apply expr0_rel| |intros; osolve|intros; osolve].
    intros a q' x' Hq. eapply rel_bind; [apply IH| |intros; osolve|intros; osolve].
    intros. apply rel_ok. assumption. }
  assert (Hk : forall e g, (n < fst e)%N -> (forall v kw m r x, settle x = v -> (n < m)%N -> beyond r -> out v (g kw m r x)) ->
     forall v r x, settle x = v -> beyond r ->
      out v match r with
      | (KKw kw, _) :: (KEq, m) :: r' => g kw m r' x
      | _ => @syntax2 e K is_kw r (at_line k x)
      end /\ forall kw, 
      out v match r with
      | (KEq, m) :: r' => g kw m r' x
      | _ => @syntax e K r (at_line k x)
      end).
  { clear - B1. intros e g He Hg v r x Hx Hr.
    assert (Hs : out v (@syntax2 e K is_kw r (at_line k x))) by (apply syntax2_out; [assumption|ssolve|assumption]).
    assert (Hs' : out v (@syntax e K r (at_line k x))) by osolve.
    split.
    - destruct r as [|[t2 k2] r]; [exact Hs|]. destruct t2; try exact Hs.
      destruct r as [|[t3 k3] r]; [exact Hs|]. destruct t3; try exact Hs.
      inv_beyond. apply Hg; auto.
    - intros kw. destruct r as [|[t3 k3] r]; [exact Hs'|]. destruct t3; try exact Hs'.
      inv_beyond. apply Hg; auto. }
  destruct q as [|[t2 k2] q].
  { apply (rel_out _ (settle x)); [apply (Hk e1 g1)|apply (Hk e2 g2)]; auto. }
  pose proof (@syntax2_rel K true is_kw ((t2, k2) :: q) (at_line k x)) as Hs.
  cbn [app] in *. destruct t2; try exact Hs.
  destruct q as [|[t3 k3] q].
  { apply (rel_out _ (settle x)); [apply (Hk e1 g1)|apply (Hk e2 g2)]; auto. }
  cbn [app] in *. destruct t3; try exact Hs. apply G.
Qed.

Lemma done_late v c x : late v x -> late v (done bad c x).
Proof. intros H. unfold done. destruct (bad c); auto using late_note. Qed.

(** The end of a statement *)
Definition fin (y : act C) (r : list ltok) (x : wst) : wres C := wact y x (fun c' => WOk c' r (done bad c' x)).
Lemma fin_rel y q x : rel false (fin y (q ++ s1) x) (fin y (q ++ s2) x).
Proof. apply rel_act. intros. apply rel_ok0. Qed.
Lemma fin_out v y r x : late v x -> beyond r -> out v (fin y r x).
Proof. intros. apply act_out; [assumption|]. intros. apply ok_out; [apply done_late|]; assumption. Qed.
Lemma semi_fin_rel (y : act C) (g : wst -> wst) q x : (forall v x, late v x -> late v (g x)) ->
  rel false (w_semi e1 (q ++ s1) x (fun r x => fin y r (g x))) (w_semi e2 (q ++ s2) x (fun r x => fin y r (g x))).
Proof.
  intros Hg. apply semi_rel.
  - intros. apply fin_rel.
  - intros. apply fin_out; [|assumption]. apply Hg. apply late_line; assumption.
  - intros. apply fin_out; [|assumption]. apply Hg. apply late_line; assumption.
Qed.
Lemma semi_fin_out e (y : act C) (g : wst -> wst) v r x : (forall v x, late v x -> late v (g x)) ->
  (n < @fst N bool e)%N -> settle x = v -> beyond r -> out v (w_semi e r x (fun r x => fin y r (g x))).
Proof.
  intros Hg He Hx Hr. apply semi_out; auto. intros. apply fin_out; [|assumption]. apply Hg. apply late_line; assumption.
Qed.
Lemma paren_fin_rel (y : act C) (g : wst -> wst) q x : (forall v x, late v x -> late v (g x)) ->
  rel false (match q ++ s1 with (KRPar, m) :: r'' => w_semi e1 r'' (at_line m x) (fun r x => fin y r (g x)) | _ => syntax e1 (q ++ s1) x end)
            (match q ++ s2 with (KRPar, m) :: r'' => w_semi e2 r'' (at_line m x) (fun r x => fin y r (g x)) | _ => syntax e2 (q ++ s2) x end).
Proof.
  intros Hg. apply (close_rel false q x (fun r x => w_semi e1 r x (fun r x => fin y r (g x))) (fun r x => w_semi e2 r x (fun r x => fin y r (g x)))).
  - intros. apply semi_fin_rel. exact Hg.
  - intros. apply semi_fin_out; auto.
  - intros. apply semi_fin_out; auto.
Qed.
Lemma paren_fin_out e (y : act C) (g : wst -> wst) v r x : (forall v x, late v x -> late v (g x)) ->
  (n < @fst N bool e)%N -> settle x = v -> beyond r ->
  out v (match r with (KRPar, m) :: r'' => w_semi e r'' (at_line m x) (fun r x => fin y r (g x)) | _ => syntax e r x end).
Proof.
  intros Hg He Hx Hr. apply (close_out e v r x (fun r x => w_semi e r x (fun r x => fin y r (g x)))); auto.
  intros. apply semi_fin_out; auto.
Qed.

(** The statements, after their first tokens *)
Definition st_assign e c s (r : list ltok) (x : wst) : wres C :=
  wbind (w_expr0 X e c r x) (fun a r' x' => w_semi e r' x' (fun r'' x' => fin (s_assign X c s a) r'' x')).
Definition st_line e c s t f (r : list ltok) (x : wst) : wres C :=
  wbind (w_lines X e f c r x) (fun l r' x' =>
        match r' with
        | (KRPar, m) :: r'' => w_semi e r'' (at_line m x') (fun r3 x' => fin (s_line X c s t l) r3 x')
        | _ => syntax e r' x'
        end).
Definition st_elem e c s t f (r : list ltok) (x : wst) : wres C :=
  wbind (w_props X e f c r x) (fun m r' x' => w_semi e r' x' (fun r'' x' => fin (s_elem X c s t m) r'' x')).
Definition st_call e c s (r : list ltok) (x : wst) : wres C :=
  wbind (w_expr0 X e c r x) (fun a r' x' =>
        match r' with
        | (KRPar, m) :: r'' => w_semi e r'' (at_line m x') (fun r3 x' => fin (s_call X c s a) r3 (print s x'))
        | _ => syntax e r' x'
        end).

Lemma assign_out e c s v r x : (n < @fst N bool e)%N -> settle x = v -> beyond r -> out v (st_assign e c s r x).
Proof. intros. unfold st_assign. osolve. apply (semi_fin_out e _ (fun x => x)); auto. apply HI'; assumption. Qed.
Lemma line_out e c s t f v r x : (n < @fst N bool e)%N -> settle x = v -> beyond r -> out v (st_line e c s t f r x).
Proof. intros. unfold st_line. osolve. apply (paren_fin_out e _ (fun x => x)); auto. apply HI'; assumption. Qed.
Lemma elem_out e c s t f v r x : (n < @fst N bool e)%N -> settle x = v -> beyond r -> out v (st_elem e c s t f r x).
Proof. intros. unfold st_elem. osolve. apply (semi_fin_out e _ (fun x => x)); auto. apply HI'; assumption. Qed.
Lemma call_out e c s v r x : (n < @fst N bool e)%N -> settle x = v -> beyond r -> out v (st_call e c s r x).
Proof. intros. unfold st_call. osolve. apply (paren_fin_out e _ (print s)); auto; [intros; apply late_print; assumption|apply HI'; assumption]. Qed.

Lemma assign_rel c s q x : rel false (st_assign e1 c s (q ++ s1) x) (st_assign e2 c s (q ++ s2) x).
Proof.
  eapply rel_bind; [apply expr0_rel| | |].
  - intros. apply (semi_fin_rel _ (fun x => x)). auto.
  - intros. apply (semi_fin_out e1 _ (fun x => x)); auto. apply HI'; assumption.
  - intros. apply (semi_fin_out e2 _ (fun x => x)); auto. apply HI'; assumption.
Qed.
Lemma line_rel c s t f1 f2 q x : rel false (st_line e1 c s t f1 (q ++ s1) x) (st_line e2 c s t f2 (q ++ s2) x).
Proof.
  eapply rel_bind; [apply lines_rel| | |].
  - intros. apply (paren_fin_rel _ (fun x => x)). auto.
  - intros. apply (paren_fin_out e1 _ (fun x => x)); auto. apply HI'; assumption.
  - intros. apply (paren_fin_out e2 _ (fun x => x)); auto. apply HI'; assumption.
Qed.
Lemma elem_rel c s t f1 f2 q x : rel false (st_elem e1 c s t f1 (q ++ s1) x) (st_elem e2 c s t f2 (q ++ s2) x).
Proof.
  eapply rel_bind; [apply props_rel| | |].
  - intros. apply (semi_fin_rel _ (fun x => x)). auto.
  - intros. apply (semi_fin_out e1 _ (fun x => x)); auto. apply HI'; assumption.
  - intros. apply (semi_fin_out e2 _ (fun x => x)); auto. apply HI'; assumption.
Qed.
Lemma call_rel c s q x : rel false (st_call e1 c s (q ++ s1) x) (st_call e2 c s (q ++ s2) x).
Proof.
  eapply rel_bind; [apply expr0_rel| | |].
  - intros. apply (paren_fin_rel _ (print s)). intros. apply late_print; assumption.
  - intros. apply (paren_fin_out e1 _ (print s)); auto; [intros; apply late_print; assumption|apply HI'; assumption].
  - intros. apply (paren_fin_out e2 _ (print s)); auto; [intros; apply late_print; assumption|apply HI'; assumption].
Qed.

(** The tokens that tell the statements apart *)
Definition after_eq e c s t n0 (r : list ltok) x : wres C :=
  match r with
  | (KLPar, m) :: r' => st_line e c s t (S (List.length r')) r' (at_line m x)
  | _ => syntax e r (at_line n0 x)
  end.
Definition after_type e c s t n0 (r : list ltok) x : wres C :=
  match r with
  | (KEq, m) :: r' => after_eq e c s t m r' x
  | _ => st_elem e c s t (S (List.length r)) r (at_line n0 x)
  end.
Definition after_colon e c s n0 (r : list ltok) x : wres C :=
  match r with
  | (KKw t, m) :: r' => after_type e c s t m r' x
  | _ => syntax e r (at_line n0 x)
  end.
Definition after_name e c s n0 (r : list ltok) x : wres C :=
  match r with
  | (KEq, m) :: r' => st_assign e c s r' (at_line m x)
  | (KColon, m) :: r' => after_colon e c s m r' x
  | (KLPar, m) :: r' => st_call e c s r' (at_line m x)
  | (KSemi, m) :: r' => fin (s_cmd X c s) r' (at_line m x)
  | _ => syntax e r (at_line n0 x)
  end.
Lemma entry_eq e c s n0 r x : w_entry X bad e c ((KKw s, n0) :: r) x = after_name e c s n0 r x.
Proof.
  destruct r as [|[t k] r]; [reflexivity|]. destruct t; reflexivity.
Qed.

Lemma after_eq_out e c s t n0 v r x : (n < @fst N bool e)%N -> settle x = v -> beyond r -> out v (after_eq e c s t n0 r x).
Proof.
  intros He Hx Hr. assert (Hs : out v (@syntax e C r (at_line n0 x))) by (apply syntax_out; auto).
  destruct r as [|[t0 k] r]; [exact Hs|]. destruct t0; try exact Hs. inv_beyond. apply line_out; auto.
Qed.
Lemma after_type_out e c s t n0 v r x : (n < @fst N bool e)%N -> settle x = v -> beyond r -> out v (after_type e c s t n0 r x).
Proof.
  intros He Hx Hr. assert (Hs : out v (st_elem e c s t (S (List.length r)) r (at_line n0 x))) by (apply elem_out; auto).
  destruct r as [|[t0 k] r]; [exact Hs|]. destruct t0; try exact Hs. inv_beyond. apply after_eq_out; auto.
Qed.
Lemma after_colon_out e c s n0 v r x : (n < @fst N bool e)%N -> settle x = v -> beyond r -> out v (after_colon e c s n0 r x).
Proof.
  intros He Hx Hr. assert (Hs : out v (@syntax e C r (at_line n0 x))) by (apply syntax_out; auto).
  destruct r as [|[t0 k] r]; [exact Hs|]. destruct t0; try exact Hs. inv_beyond. apply after_type_out; auto.
Qed.
Lemma after_name_out e c s n0 v r x : (n < @fst N bool e)%N -> settle x = v -> beyond r -> out v (after_name e c s n0 r x).
Proof.
  intros He Hx Hr. assert (Hs : out v (@syntax e C r (at_line n0 x))) by (apply syntax_out; auto).
  destruct r as [|[t0 k] r]; [exact Hs|]. destruct t0; try exact Hs; inv_beyond.
  - apply assign_out; auto.
  - apply after_colon_out; auto.
  - apply fin_out; [apply late_line|]; auto.
  - apply call_out; auto.
Qed.

Lemma after_eq_rel c s t n0 q x : rel false (after_eq e1 c s t n0 (q ++ s1) x) (after_eq e2 c s t n0 (q ++ s2) x).
Proof.
  destruct q as [|[t0 k] q]; [apply (rel_out false (settle x)); apply after_eq_out; auto|].
  destruct t0; try apply rel_stop. apply line_rel.
Qed.
Lemma after_type_rel c s t n0 q x : rel false (after_type e1 c s t n0 (q ++ s1) x) (after_type e2 c s t n0 (q ++ s2) x).
Proof.
  destruct q as [|[t0 k] q]; [apply (rel_out false (settle x)); apply after_type_out; auto|].
  destruct t0; try apply (elem_rel c s t _ _ ((_, k) :: q)). apply after_eq_rel.
Qed.
Lemma after_colon_rel c s n0 q x : rel false (after_colon e1 c s n0 (q ++ s1) x) (after_colon e2 c s n0 (q ++ s2) x).
Proof.
  destruct q as [|[t0 k] q]; [apply (rel_out false (settle x)); apply after_colon_out; auto|].
  destruct t0; try apply rel_stop. apply after_type_rel.
Qed.
Lemma after_name_rel c s n0 q x : rel false (after_name e1 c s n0 (q ++ s1) x) (after_name e2 c s n0 (q ++ s2) x).
Proof.
  destruct q as [|[t0 k] q]; [apply (rel_out false (settle x)); apply after_name_out; auto|].
  destruct t0; try apply rel_stop.
  - apply assign_rel.
  - apply after_colon_rel.
  - apply fin_rel.
  - apply call_rel.
Qed.

Lemma entry_rel c q x : rel false (w_entry X bad e1 c (q ++ s1) x) (w_entry X bad e2 c (q ++ s2) x).
Proof.
  destruct q as [|[t k] q]; [apply (rel_out false (settle x)); apply entry_out; auto|].
  destruct t; try apply rel_stop. cbn [app]. rewrite !entry_eq. apply after_name_rel.
Qed.

Lemma file_rel f1 : forall f2 c q x, rel true (w_file X bad e1 f1 c (q ++ s1) x) (w_file X bad e2 f2 c (q ++ s2) x).
Proof.
  induction f1 as [|f1 IH]; intros f2 c q x.
  - destruct q as [|tk q]; [apply (rel_out true (settle x)); apply file_out; auto|]. left. reflexivity.
  - destruct q as [|tk q]; [apply (rel_out true (settle x)); apply file_out; auto|].
    destruct f2 as [|f2]; [right; left; reflexivity|]. cbn [app w_file].
    eapply rel_bind; [apply (entry_rel c (tk :: q))| | |].
    + intros. apply IH.
    + intros. apply file_out; auto. apply HI'; assumption.
    + intros. apply file_out; auto. apply HI'; assumption.
Qed.
End Two.
