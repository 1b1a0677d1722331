From Coq Require Import List String Ascii Bool ZArith NArith Lia Arith.
From Verif Require Import SMap Dbl Config_Model Config_Spec Lexer_Model Lexer_Spec Lexer_Proofs Glps_Model Glps_Spec
  Glps_Proofs Glps2_Proofs Glps3_Proofs Glps4_Proofs Glps5_Proofs Glps6_Proofs Stack_Model Stack_Spec.
Import ListNotations.
Open Scope string_scope.
Open Scope list_scope.

Definition of_pres {A} (x : pres A) : bres A :=
  match x with
  | POk a r => BOk a r | PAbort k => BAbort k | PBadGet => BBadGet | PUB u => BUB u | PFuel => BFuel
  end.
Definition sim {A} (x : pres A) (y : bres A) : Prop := y = of_pres x \/ exists k, y = BStack k.

Lemma sim_refl {A} (x : pres A) : sim x (of_pres x).
Proof. left. reflexivity. Qed.
Lemma sim_bind {A B} x y (f : A -> list token -> pres B) g :
  sim x y -> (forall a r, sim (f a r) (g a r)) -> sim (pbind x f) (bbind y g).
Proof.
  intros [->|[k ->]] H; [|right; exists k; reflexivity].
  destruct x; try (left; reflexivity). apply H.
Qed.
Lemma sim_act {A B} (x : act A) (f : A -> pres B) g :
  (forall a, sim (f a) (g a)) -> sim (pact x f) (bact x g).
Proof. intros H. destruct x; try (left; reflexivity). apply H. Qed.
Lemma sim_push {A} d (x : pres A) y : sim x y -> sim x (push d y).
Proof. intros H. unfold push. destruct (N.leb d max_symbols); [exact H|right; eauto]. Qed.

(** Tokens before the next semicolon. *)
Fixpoint plen (ts : list token) : nat :=
  match ts with
  | [] => 0
  | KSemi :: _ => 0
  | _ :: r => S (plen r)
  end.
Lemma plen_cons t ts : t <> KSemi -> plen (t :: ts) = S (plen ts).
Proof. destruct t; try reflexivity. congruence. Qed.
Lemma plen_app b r : ~ In KSemi b -> plen (b ++ r) = (List.length b + plen r)%nat.
Proof.
  induction b as [|t b IH]; intros H; [reflexivity|]. simpl app.
  rewrite plen_cons by (intros ->; apply H; left; reflexivity). simpl. rewrite IH; [reflexivity|].
  intros I. apply H. right. exact I.
Qed.

(** What a rule may take from the tokens: at least [e] of them and no semicolon. *)
Definition took (e : nat) (ts r : list token) : Prop :=
  exists b, ts = b ++ r /\ (e <= List.length b)%nat /\ ~ In KSemi b.
Definition roomy {A} (d : N) (ts : list token) (y : bres A) : Prop :=
  (d + N.of_nat (plen ts) <= 9996)%N -> forall k, y <> BStack k.
Definition good {A} (e : nat) (d : N) (ts : list token) (y : bres A) : Prop :=
  roomy d ts y /\ forall a r, y = BOk a r -> took e ts r.

Lemma took_len e ts r : took e ts r -> (e + plen r <= plen ts)%nat.
Proof. intros (b & -> & H & Hn). rewrite (plen_app b r Hn). lia. Qed.
Lemma took_weak e e' ts r : (e' <= e)%nat -> took e ts r -> took e' ts r.
Proof. intros L (b & H & H1 & H2). exists b. repeat split; [exact H|lia|exact H2]. Qed.
Lemma took_nil ts : took 0 ts ts.
Proof. exists []. repeat split; [simpl; lia|intros []]. Qed.
Lemma took_cons e t ts r : t <> KSemi -> took e ts r -> took (S e) (t :: ts) r.
Proof.
  intros Ht (b & -> & H1 & H2). exists (t :: b). repeat split; [simpl; lia|].
  intros [E|E]; [congruence|exact (H2 E)].
Qed.
Lemma took_trans e e' ts r r' : took e ts r -> took e' r r' -> took (e + e') ts r'.
Proof.
  intros (b & -> & H1 & H2) (b' & -> & H3 & H4). exists (b ++ b'). rewrite app_assoc. repeat split.
  - rewrite app_length. lia.
  - intros E. apply in_app_or in E as [E|E]; [exact (H2 E)|exact (H4 E)].
Qed.
Lemma took_tail e t ts r : t <> KSemi -> took e ts (t :: r) -> took (S e) ts r.
Proof.
  intros Ht H. replace (S e) with (e + 1)%nat by lia. eapply took_trans; [exact H|].
  apply took_cons; [exact Ht|]. apply took_nil.
Qed.

Lemma good_abort {A} e d ts k : good e d ts (@BAbort A k).
Proof. split; [intros _ ?; discriminate|discriminate]. Qed.
Lemma good_ok {A} e d ts (a : A) r : took e ts r -> good e d ts (BOk a r).
Proof. intros H. split; [intros _ ?; discriminate|]. intros a' r' E. injection E as <- <-. exact H. Qed.
Lemma good_act {A B} e d ts (x : act A) (f : A -> bres B) :
  (forall a, good e d ts (f a)) -> good e d ts (bact x f).
Proof. intros H. destruct x; try (split; [intros _ ?; discriminate|discriminate]). apply H. Qed.
Lemma good_bind {A B} e e' d d' ts ts' (x : bres A) (f : A -> list token -> bres B) :
  good e' d' ts' x ->
  (d + N.of_nat (plen ts) <= 9996 -> d' + N.of_nat (plen ts') <= 9996)%N ->
  (forall a r, took e' ts' r -> good e d ts (f a r)) -> good e d ts (bbind x f).
Proof.
  intros [H1 H2] Hd H3. destruct x as [a r|k| |u| |k]; try (split; [intros _ ?; discriminate|discriminate]).
  - apply H3. apply (H2 a r eq_refl).
  - split; [|discriminate]. intros Hr k' _. exact (H1 (Hd Hr) k eq_refl).
Qed.
Lemma good_push {A} e d ts d' (y : bres A) :
  (d + N.of_nat (plen ts) <= 9996 -> d' <= 9998)%N -> good e d ts y -> good e d ts (push d' y).
Proof.
  intros Hd [H1 H2]. unfold push. destruct (N.leb d' max_symbols) eqn:E.
  - split; [exact H1|exact H2].
  - split; [|discriminate]. intros Hr. apply N.leb_gt in E. unfold max_symbols in E. specialize (Hd Hr). lia.
Qed.

Ltac lens := repeat match goal with
  | H : took _ _ _ |- _ => pose proof (took_len _ _ _ H); revert H end; intros; simpl plen in *; lia.

Section Proofs.
Context {C A V L K : Type} (X : actions C A V L K).

Lemma expr_sim f :
  (forall lvl d c ts, sim (p_expr X f lvl c ts) (b_expr X f lvl d c ts)) /\
  (forall lvl d c a ts, sim (p_ops X f lvl c a ts) (b_ops X f lvl d c a ts)) /\
  (forall d c ts, sim (p_vec X f c ts) (b_vec X f d c ts)).
Proof.
  induction f as [|f (IHe & IHo & IHv)]; [repeat split; intros; left; reflexivity|].
  split; [|split].
  - intros lvl d c ts. cbn [p_expr b_expr]. destruct lvl as [|[|lvl]].
    + apply sim_bind; [apply IHe|]. intros; apply IHo.
    + apply sim_bind; [apply IHe|]. intros; apply IHo.
    + destruct ts as [|t ts]; [left; reflexivity|].
      destruct t; try (left; reflexivity).
      * assert (Hv : sim (pact (a_var X c s) (fun a => POk a ts))
                        (push (d + 1) (bact (a_var X c s) (fun a => BOk a ts))))
          by (apply sim_push, sim_act; intros; left; reflexivity).
        destruct ts as [|t2 ts]; [exact Hv|]. destruct t2; try exact Hv.
        apply sim_push, sim_bind; [apply IHe|]. intros a r.
        destruct r as [|[] r]; try (left; reflexivity).
        apply sim_push, sim_act. intros; left; reflexivity.
      * apply sim_push, sim_act; intros; left; reflexivity.
      * apply sim_push, sim_act; intros; left; reflexivity.
      * apply sim_push, sim_bind; [apply IHe|]. intros a r.
        destruct r as [|[] r]; try (left; reflexivity). apply sim_push. left; reflexivity.
      * apply sim_push, sim_bind; [apply IHv|]. intros a r.
        destruct r as [|[] r]; try (left; reflexivity).
        apply sim_push, sim_act. intros; left; reflexivity.
      * apply sim_push, sim_bind; [apply IHe|]. intros a r. apply sim_act. intros; left; reflexivity.
  - intros lvl d c a ts. cbn [p_ops b_ops]. destruct ts as [|t ts]; [left; reflexivity|].
    destruct (binop_at lvl t); [|left; reflexivity].
    apply sim_push, sim_bind; [apply IHe|]. intros b r. apply sim_act. intros x. apply IHo.
  - intros d c ts. cbn [p_vec b_vec].
    assert (Hg : sim (pbind (p_expr X f 0 c ts) (fun a r =>
            match r with
            | KComma :: r' => pbind (p_vec X f c r') (fun v r'' => pact (v_cons X a v) (fun w => POk w r''))
            | _ => pact (v_cons X a (v_nil X)) (fun w => POk w r)
            end)) (bbind (b_expr X f 0 d c ts) (fun a r =>
            match r with
            | KComma :: r' => push (d + 2) (bbind (b_vec X f (d + 2) c r') (fun v r'' => bact (v_cons X a v) (fun w => BOk w r'')))
            | _ => bact (v_cons X a (v_nil X)) (fun w => BOk w r)
            end))).
    { apply sim_bind; [apply IHe|]. intros a r.
      assert (Hd : sim (pact (v_cons X a (v_nil X)) (fun w => POk w r))
                       (bact (v_cons X a (v_nil X)) (fun w => BOk w r)))
        by (apply sim_act; intros; left; reflexivity).
      destruct r as [|t r]; [exact Hd|]. destruct t; try exact Hd.
      apply sim_push, sim_bind; [apply IHv|]. intros v r'. apply sim_act. intros; left; reflexivity. }
    destruct ts as [|t ts]; [exact Hg|]. destruct t; try exact Hg. apply sim_push. left; reflexivity.
Qed.

Lemma expr0_sim d c ts : sim (p_expr0 X c ts) (b_expr0 X d c ts).
Proof. apply expr_sim. Qed.

Lemma lines_sim f d c ts : sim (p_lines X f c ts) (b_lines X f d c ts).
Proof.
  revert d ts. induction f as [|f IH]; intros d ts; [left; reflexivity|]. cbn [p_lines b_lines].
  assert (Hg : sim (pbind (p_expr0 X c ts) (fun a r =>
            match r with
            | KComma :: r' => pbind (p_lines X f c r') (fun v r'' => pact (l_cons X a v) (fun w => POk w r''))
            | _ => pact (l_cons X a (l_nil X)) (fun w => POk w r)
            end)) (bbind (b_expr0 X d c ts) (fun a r =>
            match r with
            | KComma :: r' => push (d + 2) (bbind (b_lines X f (d + 2) c r') (fun v r'' => bact (l_cons X a v) (fun w => BOk w r'')))
            | _ => bact (l_cons X a (l_nil X)) (fun w => BOk w r)
            end))).
  { apply sim_bind; [apply expr0_sim|]. intros a r.
    assert (Hd : sim (pact (l_cons X a (l_nil X)) (fun w => POk w r))
                     (bact (l_cons X a (l_nil X)) (fun w => BOk w r)))
      by (apply sim_act; intros; left; reflexivity).
    destruct r as [|t r]; [exact Hd|]. destruct t; try exact Hd.
    apply sim_push, sim_bind; [apply IH|]. intros v r'. apply sim_act. intros; left; reflexivity. }
  destruct ts as [|t ts]; [exact Hg|]. destruct t; try exact Hg. apply sim_push. left; reflexivity.
Qed.

Lemma props_sim f d c ts : sim (p_props X f c ts) (b_props X f d c ts).
Proof.
  revert d ts. induction f as [|f IH]; intros d ts; [left; reflexivity|]. cbn [p_props b_props].
  assert (Hn : forall ts', sim (POk (k_nil X) ts') (push (d + 1) (BOk (k_nil X) ts')))
    by (intros; apply sim_push; left; reflexivity).
  destruct ts as [|t ts]; [apply Hn|]. destruct t; try apply Hn.
  destruct ts as [|[] ts]; try (left; reflexivity).
  destruct ts as [|[] ts]; try (left; reflexivity).
  apply sim_push, sim_bind; [apply expr0_sim|]. intros a r.
  destruct (IH (d + 2)%N r) as [->|[k ->]]; [|right; exists true; reflexivity].
  destruct (p_props X f c r); left; reflexivity.
Qed.

Lemma semi_sim {B} d ts (k : list token -> pres B) k' :
  (forall r, sim (k r) (k' r)) -> sim (p_semi ts k) (b_semi d ts k').
Proof. intros H. destruct ts as [|[] r]; try (left; reflexivity). simpl. apply sim_push, H. Qed.

Lemma entry_sim d c ts : sim (p_entry X c ts) (b_entry X d c ts).
Proof.
  destruct ts as [|[] ts]; try (left; reflexivity).
  destruct ts as [|[] ts]; try (left; reflexivity).
  - cbn [p_entry b_entry]. apply sim_push, sim_bind; [apply expr0_sim|]. intros a r.
    apply semi_sim. intros r'. apply sim_act. intros; left; reflexivity.
  - destruct ts as [|[] ts]; try (left; reflexivity).
    assert (He : forall ts, sim (pbind (p_props X (S (List.length ts)) c ts) (fun m r' => p_semi r' (fun r'' =>
        pact (s_elem X c s s0 m) (fun c' => POk c' r''))))
       (push (d + 3) (bbind (b_props X (S (List.length ts)) (d + 3) c ts) (fun m r' =>
        b_semi (d + 5) r' (fun r'' => bact (s_elem X c s s0 m) (fun c' => BOk c' r'')))))).
    { intros ts'. apply sim_push, sim_bind; [apply props_sim|]. intros a r.
      apply semi_sim. intros r'. apply sim_act. intros; left; reflexivity. }
    destruct ts as [|t3 ts]; [apply He|]. destruct t3; try apply He.
    destruct ts as [|t4 ts]; [apply He|]. destruct t4; try apply He.
    cbn [p_entry b_entry]. apply sim_push, sim_bind; [apply lines_sim|]. intros a r.
    destruct r as [|[] r]; try (left; reflexivity). apply sim_push.
    apply semi_sim. intros r'. apply sim_act. intros; left; reflexivity.
  - cbn [p_entry b_entry]. apply sim_push, sim_act. intros; left; reflexivity.
  - cbn [p_entry b_entry]. apply sim_push, sim_bind; [apply expr0_sim|]. intros a r.
    destruct r as [|[] r]; try (left; reflexivity). apply sim_push.
    apply semi_sim. intros r'. apply sim_act. intros; left; reflexivity.
Qed.

Lemma file_sim f d c ts : sim (p_file X f c ts) (b_file X f d c ts).
Proof.
  revert d c ts. induction f as [|f IH]; intros d c ts.
  - destruct ts; [apply sim_push|]; left; reflexivity.
  - destruct ts as [|t ts]; [apply sim_push; left; reflexivity|].
    cbn [p_file b_file]. apply sim_bind; [apply entry_sim|]. intros c' r. apply IH.
Qed.

(** * Room *)
Lemma expr_good f :
  (forall lvl d c ts, good 1 d ts (b_expr X f lvl d c ts)) /\
  (forall lvl d c a ts, good 0 (d + 1) ts (b_ops X f lvl d c a ts)) /\
  (forall d c ts, good 0 d ts (b_vec X f d c ts)).
Proof.
  induction f as [|f (IHe & IHo & IHv)];
    [repeat split; try (intros _ ?; discriminate); try discriminate; cbn in *; discriminate|].
  split; [|split].
  - intros lvl d c ts. cbn [b_expr].
    assert (Hb : forall lvl', good 1 d ts
               (bbind (b_expr X f (S lvl') d c ts) (fun a r => b_ops X f lvl' d c a r))).
    { intros lvl'. eapply good_bind; [apply IHe|intros HH; exact HH|]. intros a r Ht.
      destruct (IHo lvl' d c a r) as [G1 G2]. pose proof (took_len _ _ _ Ht). split.
      - intros Hr. apply G1. lia.
      - intros a' r' E. replace 1%nat with (1 + 0)%nat by lia. eapply took_trans; [exact Ht|]. eapply G2, E. }
    destruct lvl as [|[|lvl]]; [apply Hb|apply Hb|]. clear Hb.
    destruct ts as [|t ts]; [apply good_abort|].
    destruct t; try apply good_abort.
    + assert (Hv : good 1 d (KKw s :: ts) (push (d + 1) (bact (a_var X c s) (fun a => BOk a ts)))).
      { apply good_push; [simpl plen; lia|]. apply good_act. intros a. apply good_ok, took_cons; [discriminate|apply took_nil]. }
      destruct ts as [|t2 ts]; [exact Hv|]. destruct t2; try exact Hv. clear Hv.
      apply good_push; [simpl plen; lia|].
      eapply good_bind; [apply IHe|simpl plen; lia|]. intros a r Ht.
      destruct r as [|[] r]; try apply good_abort.
      apply good_push; [lens|]. apply good_act. intros x. apply good_ok.
      apply (took_weak 4); [lia|]. apply took_cons; [discriminate|]. apply took_cons; [discriminate|].
      apply took_tail in Ht; [|discriminate]. exact Ht.
    + apply good_push; [simpl plen; lia|]. apply good_act. intros a. apply good_ok, took_cons; [discriminate|apply took_nil].
    + apply good_push; [simpl plen; lia|]. apply good_act. intros a. apply good_ok, took_cons; [discriminate|apply took_nil].
    + apply good_push; [simpl plen; lia|].
      eapply good_bind; [apply IHe|simpl plen; lia|]. intros a r Ht.
      destruct r as [|[] r]; try apply good_abort.
      apply good_push; [lens|]. apply good_ok.
      apply (took_weak 3); [lia|]. apply took_cons; [discriminate|].
      apply took_tail in Ht; [|discriminate]. exact Ht.
    + apply good_push; [simpl plen; lia|].
      eapply good_bind; [apply IHv|simpl plen; lia|]. intros a r Ht.
      destruct r as [|[] r]; try apply good_abort.
      apply good_push; [lens|]. apply good_act. intros x. apply good_ok.
      apply (took_weak 2); [lia|]. apply took_cons; [discriminate|].
      apply took_tail in Ht; [|discriminate]. exact Ht.
    + apply good_push; [simpl plen; lia|].
      eapply good_bind; [apply IHe|simpl plen; lia|]. intros a r Ht.
      apply good_act. intros x. apply good_ok.
      apply (took_weak 2); [lia|]. apply took_cons; [discriminate|]. exact Ht.
  - intros lvl d c a ts. cbn [b_ops]. destruct ts as [|t ts]; [apply good_ok, took_nil|].
    destruct (binop_at lvl t) eqn:Eo; [|apply good_ok, took_nil].
    assert (t <> KSemi) as Hts by (intros ->; destruct lvl as [|[|]]; discriminate).
    pose proof (plen_cons t ts Hts) as Hp.
    apply good_push; [rewrite Hp; lia|].
    eapply good_bind; [apply IHe|rewrite Hp; lia|]. intros b r Ht.
    apply good_act. intros x. destruct (IHo lvl d c x r) as [G1 G2]. pose proof (took_len _ _ _ Ht).
    split.
    + intros Hr. apply G1. rewrite Hp in Hr. lia.
    + intros a' r' E. apply (took_weak 2); [lia|]. apply took_cons; [exact Hts|].
      replace 1%nat with (1 + 0)%nat by lia. eapply took_trans; [exact Ht|]. eapply G2, E.
  - intros d c ts. cbn [b_vec].
    assert (Hg : good 0 d ts (bbind (b_expr X f 0 d c ts) (fun a r =>
            match r with
            | KComma :: r' => push (d + 2) (bbind (b_vec X f (d + 2) c r') (fun v r'' => bact (v_cons X a v) (fun w => BOk w r'')))
            | _ => bact (v_cons X a (v_nil X)) (fun w => BOk w r)
            end))).
    { eapply good_bind; [apply IHe|intros HH; exact HH|]. intros a r Ht.
      assert (Hd : good 0 d ts (bact (v_cons X a (v_nil X)) (fun w => BOk w r)))
        by (apply good_act; intros; apply good_ok; apply (took_weak 1); [lia|exact Ht]).
      destruct r as [|t r]; [exact Hd|]. destruct t; try exact Hd.
      apply good_push; [lens|]. apply took_tail in Ht; [|discriminate].
      eapply good_bind; [apply IHv|lens|]. intros v r' Ht'.
      apply good_act. intros w. apply good_ok. apply (took_weak (2 + 0)); [lia|].
      eapply took_trans; eassumption. }
    destruct ts as [|t ts]; [exact Hg|]. destruct t; try exact Hg.
    apply good_push; [simpl plen; lia|]. apply good_ok, took_nil.
Qed.

Lemma expr0_good d c ts : good 1 d ts (b_expr0 X d c ts).
Proof. apply expr_good. Qed.

Lemma lines_good f d c ts : good 0 d ts (b_lines X f d c ts).
Proof.
  revert d ts. induction f as [|f IH]; intros d ts; [split; [intros _ ?; discriminate|discriminate]|].
  cbn [b_lines].
  assert (Hg : good 0 d ts (bbind (b_expr0 X d c ts) (fun a r =>
            match r with
            | KComma :: r' => push (d + 2) (bbind (b_lines X f (d + 2) c r') (fun v r'' => bact (l_cons X a v) (fun w => BOk w r'')))
            | _ => bact (l_cons X a (l_nil X)) (fun w => BOk w r)
            end))).
  { eapply good_bind; [apply expr0_good|intros HH; exact HH|]. intros a r Ht.
    assert (Hd : good 0 d ts (bact (l_cons X a (l_nil X)) (fun w => BOk w r)))
      by (apply good_act; intros; apply good_ok; apply (took_weak 1); [lia|exact Ht]).
    destruct r as [|t r]; [exact Hd|]. destruct t; try exact Hd.
    apply good_push; [lens|]. apply took_tail in Ht; [|discriminate].
    eapply good_bind; [apply IH|lens|]. intros v r' Ht'.
    apply good_act. intros w. apply good_ok. apply (took_weak (2 + 0)); [lia|].
    eapply took_trans; eassumption. }
  destruct ts as [|t ts]; [exact Hg|]. destruct t; try exact Hg.
  apply good_push; [simpl plen; lia|]. apply good_ok, took_nil.
Qed.

Lemma props_good f d c ts : good 0 d ts (b_props X f d c ts).
Proof.
  revert d ts. induction f as [|f IH]; intros d ts; [split; [intros _ ?; discriminate|discriminate]|].
  cbn [b_props].
  assert (Hn : forall ts', good 0 d ts' (push (d + 1) (BOk (k_nil X) ts')))
    by (intros; apply good_push; [lia|]; apply good_ok, took_nil).
  destruct ts as [|t ts]; [apply Hn|]. destruct t; try apply Hn.
  destruct ts as [|[] ts]; try apply good_abort.
  destruct ts as [|[] ts]; try apply good_abort.
  apply good_push; [simpl plen; lia|].
  eapply good_bind; [apply expr0_good|simpl plen; lia|]. intros a r Ht.
  destruct (IH (d + 2)%N r) as [G1 G2]. pose proof (took_len _ _ _ Ht).
  assert (Hrest : forall r', took 0 r r' -> took 0 (KComma :: KKw s :: KEq :: ts) r').
  { intros r' H'. apply (took_weak 4); [lia|]. do 3 (apply took_cons; [discriminate|]).
    replace 1%nat with (1 + 0)%nat by lia. eapply took_trans; eassumption. }
  split.
  - intros Hr k. simpl plen in Hr.
    destruct (b_props X f (d + 2) c r) eqn:E; try discriminate.
    exfalso. eapply G1; [|reflexivity]. lia.
  - destruct (b_props X f (d + 2) c r) eqn:E; try discriminate.
    intros a' r' E'. injection E' as <- <-. apply Hrest. eapply G2. reflexivity.
Qed.

(** A statement takes exactly its tokens and one semicolon. *)
Definition ends (ts r : list token) : Prop := exists b, ts = b ++ KSemi :: r /\ ~ In KSemi b.
Definition egood {B} (d : N) (ts : list token) (y : bres B) : Prop :=
  roomy d ts y /\ forall a r, y = BOk a r -> ends ts r.

Lemma took_ends e ts r : took e ts (KSemi :: r) -> ends ts r.
Proof. intros (b & -> & _ & H). exists b. split; [reflexivity|exact H]. Qed.
Lemma ends_cons t ts r : t <> KSemi -> ends ts r -> ends (t :: ts) r.
Proof.
  intros Ht (b & -> & H). exists (t :: b). split; [reflexivity|]. intros [E|E]; [congruence|exact (H E)].
Qed.
Lemma egood_abort {B} d ts k : egood d ts (@BAbort B k).
Proof. split; [intros _ ?; discriminate|discriminate]. Qed.
Lemma egood_act {B D} d ts (x : act B) (f : B -> D) r :
  ends ts r -> egood d ts (bact x (fun c => BOk (f c) r)).
Proof.
  intros H. destruct x; try (split; [intros _ ?; discriminate|discriminate]).
  split; [intros _ ?; discriminate|]. intros a' r' E. injection E as _ <-. exact H.
Qed.
Lemma egood_bind {B D} e' d d' ts ts' (x : bres B) (f : B -> list token -> bres D) :
  good e' d' ts' x ->
  (d + N.of_nat (plen ts) <= 9996 -> d' + N.of_nat (plen ts') <= 9996)%N ->
  (forall a r, took e' ts' r -> egood d ts (f a r)) -> egood d ts (bbind x f).
Proof.
  intros [H1 H2] Hd H3. destruct x as [a r|k| |u| |k]; try (split; [intros _ ?; discriminate|discriminate]).
  - apply H3. apply (H2 a r eq_refl).
  - split; [|discriminate]. intros Hr k' _. exact (H1 (Hd Hr) k eq_refl).
Qed.
Lemma egood_push {B} d ts d' (y : bres B) :
  (d + N.of_nat (plen ts) <= 9996 -> d' <= 9998)%N -> egood d ts y -> egood d ts (push d' y).
Proof.
  intros Hd [H1 H2]. unfold push. destruct (N.leb d' max_symbols) eqn:E.
  - split; [exact H1|exact H2].
  - split; [|discriminate]. intros Hr. apply N.leb_gt in E. unfold max_symbols in E. specialize (Hd Hr). lia.
Qed.
Lemma egood_semi {D} d d' ts r (k : list token -> bres D) :
  (forall r', r = KSemi :: r' -> d + N.of_nat (plen ts) <= 9996 -> d' <= 9998)%N ->
  (forall r', r = KSemi :: r' -> egood d ts (k r')) -> egood d ts (b_semi d' r k).
Proof.
  intros Hd Hk. destruct r as [|[] r]; try apply egood_abort. cbn [b_semi].
  apply egood_push; [apply (Hd r eq_refl)|apply (Hk r eq_refl)].
Qed.

Lemma entry_good d c ts : egood d ts (b_entry X d c ts).
Proof.
  destruct ts as [|[] ts]; try apply egood_abort.
  destruct ts as [|[] ts]; try apply egood_abort.
  - cbn [b_entry]. apply egood_push; [simpl plen; lia|].
    eapply egood_bind; [apply expr0_good|simpl plen; lia|]. intros a r Ht.
    apply egood_semi; [intros r' ->; lens|]. intros r' ->.
    apply (egood_act _ _ _ (fun c => c)). do 2 (apply ends_cons; [discriminate|]). eapply took_ends, Ht.
  - destruct ts as [|[] ts]; try apply egood_abort.
    assert (He : forall ts', egood d (KKw s :: KColon :: KKw s0 :: ts')
       (push (d + 3) (bbind (b_props X (S (List.length ts')) (d + 3) c ts') (fun m r' =>
        b_semi (d + 5) r' (fun r'' => bact (s_elem X c s s0 m) (fun c' => BOk c' r'')))))).
    { intros ts'. apply egood_push; [simpl plen; lia|].
      eapply egood_bind; [apply props_good|simpl plen; lia|]. intros a r Ht.
      apply egood_semi; [intros r' ->; lens|]. intros r' ->.
      apply (egood_act _ _ _ (fun c => c)). do 3 (apply ends_cons; [discriminate|]). eapply took_ends, Ht. }
    destruct ts as [|t3 ts]; [apply He|]. destruct t3; try apply He.
    destruct ts as [|t4 ts]; [apply He|]. destruct t4; try apply He.
    cbn [b_entry]. apply egood_push; [simpl plen; lia|].
    eapply egood_bind; [apply lines_good|simpl plen; lia|]. intros a r Ht.
    destruct r as [|[] r]; try apply egood_abort.
    apply egood_push; [lens|]. apply took_tail in Ht; [|discriminate].
    apply egood_semi; [intros r' ->; lens|]. intros r' ->.
    apply (egood_act _ _ _ (fun c => c)). do 5 (apply ends_cons; [discriminate|]). eapply took_ends, Ht.
  - cbn [b_entry]. apply egood_push; [simpl plen; lia|].
    apply (egood_act _ _ _ (fun c => c)). exists [KKw s]. split; [reflexivity|]. intros [E|[]]. discriminate.
  - cbn [b_entry]. apply egood_push; [simpl plen; lia|].
    eapply egood_bind; [apply expr0_good|simpl plen; lia|]. intros a r Ht.
    destruct r as [|[] r]; try apply egood_abort.
    apply egood_push; [lens|]. apply took_tail in Ht; [|discriminate].
    apply egood_semi; [intros r' ->; lens|]. intros r' ->.
    apply (egood_act _ _ _ (fun c => c)). do 2 (apply ends_cons; [discriminate|]). eapply took_ends, Ht.
Qed.

Fixpoint fits (d : N) (f : nat) (ts : list token) : Prop :=
  (d + N.of_nat (plen ts) <= 9996)%N /\
  match f with
  | O => True
  | S f => forall r, ends ts r -> fits (d + 1) f r
  end.

Lemma file_room f d c ts : fits d f ts -> forall k, b_file X f d c ts <> BStack k.
Proof.
  revert d c ts. induction f as [|f IH]; intros d c ts [Hd Hf] k.
  - destruct ts; simpl; [|discriminate]. unfold push, max_symbols.
    destruct (N.leb_spec (d + 1) 9998); [discriminate|lia].
  - destruct ts as [|t ts].
    + simpl. unfold push, max_symbols.
      destruct (N.leb_spec (d + 1) 9998); [discriminate|lia].
    + cbn [b_file]. destruct (entry_good d c (t :: ts)) as [G1 G2].
      destruct (b_entry X d c (t :: ts)) as [c' r|kk| |u| |kk]; simpl; try discriminate.
      * apply IH. apply Hf. apply (G2 _ _ eq_refl).
      * intros _. exact (G1 Hd kk eq_refl).
Qed.

End Proofs.

(** * The depth in terms of the syntax tree *)
Lemma push_ok {B} d (y : bres B) a r : push d y = BOk a r -> (d <= 9998)%N /\ y = BOk a r.
Proof. unfold push, max_symbols. destruct (N.leb_spec d 9998); [auto|discriminate]. Qed.
Lemma bind_ok {B D} (x : bres B) (f : B -> list token -> bres D) a r :
  bbind x f = BOk a r -> exists b r', x = BOk b r' /\ f b r' = BOk a r.
Proof. destruct x; try discriminate. simpl. eauto. Qed.
Lemma act_ok {B D} (x : act B) (f : B -> bres D) a r :
  bact x f = BOk a r -> exists b, x = AOk b /\ f b = BOk a r.
Proof. destruct x; try discriminate. simpl. eauto. Qed.
Lemma push_push {B} d (y : bres B) : (d <= 9998)%N -> push d y = y.
Proof. intros H. unfold push, max_symbols. destruct (N.leb_spec d 9998); [reflexivity|lia]. Qed.

Section Shadow.
Context {C A V L K : Type} (X : actions C A V L K) (q : list stmt).

(** Whatever the actions, a successful parse builds the tree, which needs no more than
    the stack that there is. *)
Lemma expr_shadow f :
  (forall lvl d c ts a r, b_expr X f lvl d c ts = BOk a r ->
     exists t, p_expr ast f lvl q ts = POk t r /\ (d + need t <= 9998)%N) /\
  (forall lvl d c a ts b r t, b_ops X f lvl d c a ts = BOk b r -> (d + need t <= 9998)%N ->
     exists t', p_ops ast f lvl q t ts = POk t' r /\ (d + need t' <= 9998)%N) /\
  (forall d c ts v r, b_vec X f d c ts = BOk v r ->
     exists l, p_vec ast f q ts = POk l r /\ (d + row (map need l) <= 9998)%N).
Proof.
  induction f as [|f (IHe & IHo & IHv)]; [repeat split; intros; discriminate|].
  split; [|split].
  - intros lvl d c ts a r H. cbn [b_expr] in H. cbn [p_expr].
    assert (Hb : forall lvl', bbind (b_expr X f (S lvl') d c ts) (fun a r => b_ops X f lvl' d c a r) = BOk a r ->
       exists t, pbind (p_expr ast f (S lvl') q ts) (fun a r => p_ops ast f lvl' q a r) = POk t r /\ (d + need t <= 9998)%N).
    { intros lvl' H'. apply bind_ok in H' as (b & r' & E1 & E2).
      destruct (IHe _ _ _ _ _ _ E1) as (t & -> & Ht). simpl. eapply IHo; eassumption. }
    destruct lvl as [|[|lvl]]; [apply (Hb 0%nat H)|apply (Hb 1%nat H)|]. clear Hb.
    destruct ts as [|t ts]; [discriminate|]. destruct t; try discriminate.
    + assert (Hv : push (d + 1) (bact (a_var X c s) (fun a => BOk a ts)) = BOk a r ->
         exists t, pact (a_var ast q s) (fun a => POk a ts) = POk t r /\ (d + need t <= 9998)%N).
      { intros H'. apply push_ok in H' as [G H']. apply act_ok in H' as (b & _ & H'). injection H' as _ <-.
        exists (AVar s). split; [reflexivity|exact G]. }
      destruct ts as [|t2 ts]; [apply Hv, H|]. destruct t2; try (apply Hv, H). clear Hv.
      apply push_ok in H as [_ H]. apply bind_ok in H as (b & r' & E1 & E2).
      destruct (IHe _ _ _ _ _ _ E1) as (t & -> & Ht). simpl. destruct r' as [|[] r']; try discriminate.
      apply push_ok in E2 as [G E2]. apply act_ok in E2 as (b' & _ & E2). injection E2 as _ <-.
      exists (ACall s t). split; [reflexivity|]. cbn [need]. destruct (String.eqb s "-"); lia.
    + apply push_ok in H as [G H]. apply act_ok in H as (b & _ & H). injection H as _ <-.
      exists (AStr s). split; [reflexivity|exact G].
    + apply push_ok in H as [G H]. apply act_ok in H as (b & _ & H). injection H as _ <-.
      exists (ANum x). split; [reflexivity|exact G].
    + apply push_ok in H as [_ H]. apply bind_ok in H as (b & r' & E1 & E2).
      destruct (IHe _ _ _ _ _ _ E1) as (t & -> & Ht). simpl. destruct r' as [|[] r']; try discriminate.
      apply push_ok in E2 as [G E2]. injection E2 as _ <-. exists t. split; [reflexivity|lia].
    + apply push_ok in H as [_ H]. apply bind_ok in H as (b & r' & E1 & E2).
      destruct (IHv _ _ _ _ _ E1) as (l & El & Hl).
      match goal with |- context [pbind ?x _] => change x with (p_vec ast f q ts) end.
      rewrite El. simpl. destruct r' as [|[] r']; try discriminate.
      apply push_ok in E2 as [G E2]. apply act_ok in E2 as (b' & _ & E2). injection E2 as _ <-.
      exists (AVec l). split; [reflexivity|]. cbn [need]. lia.
    + apply push_ok in H as [_ H]. apply bind_ok in H as (b & r' & E1 & E2).
      destruct (IHe _ _ _ _ _ _ E1) as (t & -> & Ht). simpl.
      apply act_ok in E2 as (b' & _ & E2). injection E2 as _ <-.
      exists (ACall "-" t). split; [reflexivity|]. cbn [need]. simpl String.eqb. cbn iota. lia.
  - intros lvl d c a ts b r t H Ht. cbn [b_ops] in H. cbn [p_ops].
    destruct ts as [|t0 ts]; [injection H as _ <-; exists t; split; [reflexivity|exact Ht]|].
    destruct (binop_at lvl t0); [|injection H as _ <-; exists t; split; [reflexivity|exact Ht]].
    apply push_ok in H as [_ H]. apply bind_ok in H as (b1 & r' & E1 & E2).
    destruct (IHe _ _ _ _ _ _ E1) as (t1 & Et1 & Ht1).
    match goal with |- context [pbind ?x _] => change x with (p_expr ast f (S lvl) q ts) end.
    rewrite Et1. cbn [pbind]. apply act_ok in E2 as (b' & _ & E2). eapply IHo; [exact E2|]. cbn [need]. lia.
  - intros d c ts v r H. cbn [b_vec] in H. cbn [p_vec].
    assert (Hg : bbind (b_expr X f 0 d c ts) (fun a r =>
            match r with
            | KComma :: r' => push (d + 2) (bbind (b_vec X f (d + 2) c r') (fun v r'' => bact (v_cons X a v) (fun w => BOk w r'')))
            | _ => bact (v_cons X a (v_nil X)) (fun w => BOk w r)
            end) = BOk v r ->
       exists l, pbind (p_expr ast f 0 q ts) (fun a r =>
            match r with
            | KComma :: r' => pbind (p_vec ast f q r') (fun v r'' => pact (v_cons ast a v) (fun w => POk w r''))
            | _ => pact (v_cons ast a (v_nil ast)) (fun w => POk w r)
            end) = POk l r /\ (d + row (map need l) <= 9998)%N).
    { intros H'. apply bind_ok in H' as (b & r' & E1 & E2).
      destruct (IHe _ _ _ _ _ _ E1) as (t & -> & Ht). simpl pbind.
      assert (Hd : bact (v_cons X b (v_nil X)) (fun w => BOk w r') = BOk v r ->
         exists l, pact (v_cons ast t (v_nil ast)) (fun w => POk w r') = POk l r /\ (d + row (map need l) <= 9998)%N).
      { intros H'. apply act_ok in H' as (b' & _ & H'). injection H' as _ <-.
        exists [t]. split; [reflexivity|exact Ht]. }
      destruct r' as [|t2 r']; [apply Hd, E2|]. destruct t2; try (apply Hd, E2).
      apply push_ok in E2 as [_ E2]. apply bind_ok in E2 as (v' & r2 & E3 & E4).
      destruct (IHv _ _ _ _ _ E3) as (l & El & Hl). rewrite El. simpl.
      apply act_ok in E4 as (b' & _ & E4). injection E4 as _ <-.
      exists (t :: l). split; [reflexivity|]. destruct l as [|t' l]; [exact Ht|].
      change (row (map need (t :: t' :: l))) with (N.max (need t) (2 + row (map need (t' :: l)))). lia. }
    destruct ts as [|t0 ts]; [apply Hg, H|]. destruct t0; try (apply Hg, H).
    apply push_ok in H as [G H]. injection H as _ <-. exists []. split; [reflexivity|]. simpl. lia.
Qed.

Lemma expr0_shadow d c ts a r : b_expr0 X d c ts = BOk a r ->
  exists t, p_expr0 ast q ts = POk t r /\ (d + need t <= 9998)%N.
Proof. apply expr_shadow. Qed.

Lemma lines_shadow f d c ts v r : b_lines X f d c ts = BOk v r ->
  exists l, p_lines ast f q ts = POk l r /\ (d + row (map need l) <= 9998)%N.
Proof.
  revert d ts v r. induction f as [|f IH]; intros d ts v r H; [discriminate|].
  cbn [b_lines] in H. cbn [p_lines].
  assert (Hg : bbind (b_expr0 X d c ts) (fun a r =>
            match r with
            | KComma :: r' => push (d + 2) (bbind (b_lines X f (d + 2) c r') (fun v r'' => bact (l_cons X a v) (fun w => BOk w r'')))
            | _ => bact (l_cons X a (l_nil X)) (fun w => BOk w r)
            end) = BOk v r ->
       exists l, pbind (p_expr0 ast q ts) (fun a r =>
            match r with
            | KComma :: r' => pbind (p_lines ast f q r') (fun v r'' => pact (l_cons ast a v) (fun w => POk w r''))
            | _ => pact (l_cons ast a (l_nil ast)) (fun w => POk w r)
            end) = POk l r /\ (d + row (map need l) <= 9998)%N).
  { intros H'. apply bind_ok in H' as (b & r' & E1 & E2).
    destruct (expr0_shadow _ _ _ _ _ E1) as (t & -> & Ht). simpl pbind.
    assert (Hd : bact (l_cons X b (l_nil X)) (fun w => BOk w r') = BOk v r ->
       exists l, pact (l_cons ast t (l_nil ast)) (fun w => POk w r') = POk l r /\ (d + row (map need l) <= 9998)%N).
    { intros H'. apply act_ok in H' as (b' & _ & H'). injection H' as _ <-.
      exists [t]. split; [reflexivity|exact Ht]. }
    destruct r' as [|t2 r']; [apply Hd, E2|]. destruct t2; try (apply Hd, E2).
    apply push_ok in E2 as [_ E2]. apply bind_ok in E2 as (v' & r2 & E3 & E4).
    destruct (IH _ _ _ _ E3) as (l & -> & Hl). simpl.
    apply act_ok in E4 as (b' & _ & E4). injection E4 as _ <-.
    exists (t :: l). split; [reflexivity|]. destruct l as [|t' l]; [exact Ht|].
    change (row (map need (t :: t' :: l))) with (N.max (need t) (2 + row (map need (t' :: l)))). lia. }
  destruct ts as [|t0 ts]; [apply Hg, H|]. destruct t0; try (apply Hg, H).
  apply push_ok in H as [G H]. injection H as _ <-. exists []. split; [reflexivity|]. simpl. lia.
Qed.

Lemma props_shadow f d c ts v r : b_props X f d c ts = BOk v r ->
  exists l, p_props ast f q ts = POk l r /\ (d + need_props l <= 9998)%N.
Proof.
  revert d ts v r. induction f as [|f IH]; intros d ts v r H; [discriminate|].
  cbn [b_props] in H. cbn [p_props].
  assert (Hn : forall ts', push (d + 1) (BOk (k_nil X) ts') = BOk v r ->
     exists l, POk (k_nil ast) ts' = POk l r /\ (d + need_props l <= 9998)%N).
  { intros ts' H'. apply push_ok in H' as [G H']. injection H' as _ <-. exists []. split; [reflexivity|exact G]. }
  destruct ts as [|t ts]; [apply Hn, H|]. destruct t; try (apply Hn, H).
  destruct ts as [|[] ts]; try discriminate. destruct ts as [|[] ts]; try discriminate.
  apply push_ok in H as [_ H]. apply bind_ok in H as (b & r' & E1 & E2).
  destruct (expr0_shadow _ _ _ _ _ E1) as (t & -> & Ht). simpl.
  destruct (b_props X f (d + 2) c r') as [m r2|k| |u| |k] eqn:E; try discriminate.
  injection E2 as _ <-. destruct (IH _ _ _ _ E) as (l & -> & Hl).
  exists ((s, t) :: l). split; [reflexivity|]. cbn [need_props]. lia.
Qed.

Lemma entry_shadow d c ts c' r : b_entry X d c ts = BOk c' r ->
  exists s, p_entry ast q ts = POk (q ++ [s]) r /\ (d + need_stmt s <= 9998)%N.
Proof.
  intros H. destruct ts as [|[] ts]; try discriminate. destruct ts as [|[] ts]; try discriminate.
  - cbn [b_entry] in H. cbn [p_entry]. apply push_ok in H as [_ H]. apply bind_ok in H as (b & r' & E1 & E2).
    destruct (expr0_shadow _ _ _ _ _ E1) as (t & -> & Ht). simpl.
    destruct r' as [|[] r']; try discriminate. cbn [b_semi] in E2. apply push_ok in E2 as [G E2].
    apply act_ok in E2 as (b' & _ & E2). injection E2 as _ <-. simpl.
    exists (SAssign s t). split; [reflexivity|]. cbn [need_stmt]. lia.
  - destruct ts as [|[] ts]; try discriminate.
    assert (He : forall ts', push (d + 3) (bbind (b_props X (S (List.length ts')) (d + 3) c ts') (fun m r' =>
        b_semi (d + 5) r' (fun r'' => bact (s_elem X c s s0 m) (fun c' => BOk c' r'')))) = BOk c' r ->
       exists s1, pbind (p_props ast (S (List.length ts')) q ts') (fun m r' => p_semi r' (fun r'' =>
        pact (s_elem ast q s s0 m) (fun c' => POk c' r''))) = POk (q ++ [s1]) r /\ (d + need_stmt s1 <= 9998)%N).
    { intros ts' H'. apply push_ok in H' as [_ H']. apply bind_ok in H' as (b & r' & E1 & E2).
      destruct (props_shadow _ _ _ _ _ _ E1) as (l & -> & Hl). simpl.
      destruct r' as [|[] r']; try discriminate. cbn [b_semi] in E2. apply push_ok in E2 as [G E2].
      apply act_ok in E2 as (b' & _ & E2). injection E2 as _ <-. simpl.
      exists (SElem s s0 l). split; [reflexivity|]. cbn [need_stmt]. lia. }
    destruct ts as [|t3 ts]; [apply (He [] H)|]. destruct t3; try (apply (He (_ :: ts) H)).
    destruct ts as [|t4 ts]; [apply (He [KEq] H)|]. destruct t4; try (apply (He (KEq :: _ :: ts) H)). clear He.
    cbn [b_entry] in H. cbn [p_entry]. apply push_ok in H as [_ H]. apply bind_ok in H as (b & r' & E1 & E2).
    destruct (lines_shadow _ _ _ _ _ _ E1) as (l & -> & Hl). simpl pbind.
    destruct r' as [|[] r']; try discriminate. apply push_ok in E2 as [_ E2].
    destruct r' as [|[] r']; try discriminate. cbn [b_semi] in E2. apply push_ok in E2 as [G E2].
    apply act_ok in E2 as (b' & _ & E2). injection E2 as _ <-. simpl.
    exists (SLine s s0 l). split; [reflexivity|]. cbn [need_stmt]. lia.
  - cbn [b_entry] in H. cbn [p_entry]. apply push_ok in H as [G H]. apply act_ok in H as (b & _ & H).
    injection H as _ <-. exists (SCmd s). split; [reflexivity|exact G].
  - cbn [b_entry] in H. cbn [p_entry]. apply push_ok in H as [_ H]. apply bind_ok in H as (b & r' & E1 & E2).
    destruct (expr0_shadow _ _ _ _ _ E1) as (t & -> & Ht). simpl pbind.
    destruct r' as [|[] r']; try discriminate. apply push_ok in E2 as [_ E2].
    destruct r' as [|[] r']; try discriminate. cbn [b_semi] in E2. apply push_ok in E2 as [G E2].
    apply act_ok in E2 as (b' & _ & E2). injection E2 as _ <-. simpl.
    exists (SCall s t). split; [reflexivity|]. cbn [need_stmt]. lia.
Qed.
End Shadow.

Lemma file_shadow {C A V L K : Type} (X : actions C A V L K) f d c ts c' r q :
  b_file X f d c ts = BOk c' r ->
  r = [] /\ exists p, p_file ast f q ts = POk (q ++ p) [] /\ (d + need_file p <= 9998)%N.
Proof.
  revert d c ts q. induction f as [|f IH]; intros d c ts q H.
  - destruct ts; [|discriminate]. cbn [b_file] in H. apply push_ok in H as [G H]. injection H as _ <-.
    split; [reflexivity|]. exists []. rewrite app_nil_r. split; [reflexivity|exact G].
  - destruct ts as [|t ts].
    + cbn [b_file] in H. apply push_ok in H as [G H]. injection H as _ <-.
      split; [reflexivity|]. exists []. rewrite app_nil_r. split; [reflexivity|exact G].
    + cbn [b_file] in H. cbn [p_file]. apply bind_ok in H as (c1 & r1 & E1 & E2).
      destruct (entry_shadow X q _ _ _ _ _ E1) as (s & -> & Hs). simpl.
      destruct (IH _ _ _ (q ++ [s]) E2) as (-> & p & -> & Hp). split; [reflexivity|].
      exists (s :: p). rewrite <- app_assoc. split; [reflexivity|]. cbn [need_file]. lia.
Qed.

(** * What the depth is at least *)
Lemma row_length l : (forall x, In x l -> (1 <= x)%N) -> (2 * N.of_nat (List.length l) <= row l + 1)%N.
Proof.
  induction l as [|x l IH]; intros H; [simpl; lia|].
  destruct l as [|y l]; [pose proof (H x (or_introl eq_refl)); simpl; lia|].
  change (row (x :: y :: l)) with (N.max x (2 + row (y :: l))).
  specialize (IH (fun z Hz => H z (or_intror Hz))). simpl List.length in *. lia.
Qed.
Lemma need_pos e : (1 <= need e)%N.
Proof. induction e; cbn [need]; try lia. destruct (String.eqb f "-"); lia. Qed.
Lemma map_need_pos l x : In x (map need l) -> (1 <= x)%N.
Proof. intros H. apply in_map_iff in H as (e & <- & _). apply need_pos. Qed.
Lemma props_length l : (2 * N.of_nat (List.length l) + 1 <= need_props l)%N.
Proof. induction l as [|[k e] l IH]; [simpl; lia|]. cbn [need_props List.length]. lia. Qed.

Lemma file_length p : (N.of_nat (List.length p) + 1 <= need_file p)%N.
Proof. induction p as [|s p IH]; [simpl; lia|]. cbn [need_file List.length]. lia. Qed.
Lemma file_member p s : In s p -> (need_stmt s <= need_file p)%N.
Proof.
  induction p as [|s' p IH]; [intros []|]. intros [E|E]; cbn [need_file]; [subst; lia|specialize (IH E); lia].
Qed.

(** * Texts *)
Lemma agrees w vars lat s :
  limited_text w vars lat s = Within (parse_text w vars lat s) \/
  exists kv, limited_text w vars lat s = Exhausted kv.
Proof.
  unfold limited_text, parse_text. destruct (lex s) as [[ts e]|]; [|left; reflexivity].
  unfold limited_tokens, parse_tokens, b_all, p_all.
  destruct (file_sim (glps w) (List.length ts) 0 (fill_vars vars ctx0) ts) as [->|[k ->]].
  - left. destruct (p_file (glps w) (List.length ts) (fill_vars vars ctx0) ts) as [c r|[]| |u|]; simpl; reflexivity.
  - right. exists k. reflexivity.
Qed.

Lemma means w vars lat s t : ssorted vars -> limited_text w vars lat s = Within (Parsed t) ->
  exists p r, spells s p /\ srun w vars lat p = Some r /\ shows r t /\ (need_file p <= 9998)%N.
Proof.
  intros Hs H. destruct (agrees w vars lat s) as [A|[k A]]; [|congruence].
  assert (parse_text w vars lat s = Parsed t) as P by congruence.
  apply (text_parsed w vars lat s t Hs) in P as (p & r & Hp & Hr & Sh).
  exists p, r. split; [exact Hp|split; [exact Hr|split; [exact Sh|]]]. clear A Hr Sh.
  unfold limited_text in H. destruct (lex s) as [[ts e]|] eqn:El; [|discriminate].
  unfold limited_tokens, b_all in H.
  destruct (b_file (glps w) (List.length ts) 0 (fill_vars vars ctx0) ts) as [c r'|[]| |u| |k] eqn:E; try discriminate.
  destruct (file_shadow _ _ _ _ _ _ _ [] E) as (_ & p' & Ep & Hn).
  assert (e = false) as -> by (destruct e; [rewrite orb_true_r in H; discriminate|reflexivity]).
  assert (spells s p') as Hp' by (eapply spells_compute; [exact El|exact Ep]).
  rewrite (spells_unique _ _ _ Hp Hp'). exact Hn.
Qed.

Lemma runs_shown w vars lat s p r : ssorted vars -> spells s p -> srun w vars lat p = Some r ->
  exists t, parse_text w vars lat s = Parsed t.
Proof.
  intros Hs (ts & Ht & Hw) Hr. apply lex_tokenises in Ht. unfold parse_text. rewrite Ht.
  pose proof (parse_spec w vars lat ts Hs) as H. rewrite (tree_complete p ts Hw), Hr in H.
  destruct H as (t & E & _). eauto.
Qed.

Lemma too_deep w vars lat s p : ssorted vars -> spells s p -> (9998 < need_file p)%N ->
  (forall t, limited_text w vars lat s <> Within (Parsed t)) /\
  ((exists r, srun w vars lat p = Some r) -> exists kv, limited_text w vars lat s = Exhausted kv).
Proof.
  intros Hs Hp Hn.
  assert (H : forall t, limited_text w vars lat s <> Within (Parsed t)).
  { intros t H. destruct (means _ _ _ _ _ Hs H) as (p' & r & Hp' & _ & _ & Hn').
    rewrite (spells_unique _ _ _ Hp Hp') in Hn. lia. }
  split; [exact H|]. intros [r Hr]. destruct (agrees w vars lat s) as [A|A]; [|exact A]. exfalso.
  destruct (runs_shown w vars lat s p r Hs Hp Hr) as [t E]. rewrite E in A. exact (H _ A).
Qed.

(** * Room in terms of statements *)
Lemma semicolons_app a b : semicolons (a ++ b) = (semicolons a + semicolons b)%nat.
Proof. induction a as [|[] a IH]; simpl; rewrite ?IH; reflexivity. Qed.
Lemma plen_split ts : exists b r, ts = b ++ r /\ ~ In KSemi b /\ List.length b = plen ts.
Proof.
  induction ts as [|t ts (b & r & -> & H1 & H2)]; [exists [], []; repeat split; intros []|].
  assert (Hd : t = KSemi \/ t <> KSemi) by (destruct t; try (right; discriminate); left; reflexivity).
  destruct Hd as [->|Hd].
  - exists [], (KSemi :: b ++ r). repeat split. intros [].
  - exists (t :: b), r. rewrite plen_cons by exact Hd. repeat split; [|simpl; congruence].
    intros [E|E]; [congruence|exact (H1 E)].
Qed.

Lemma fits_all f d ts n k :
  (forall pre b post, ts = pre ++ b ++ post -> ~ In KSemi b -> (List.length b <= k)%nat) ->
  (semicolons ts <= n)%nat -> (d + N.of_nat n + N.of_nat k <= 9996)%N -> fits d f ts.
Proof.
  revert d ts n. induction f as [|f IH]; intros d ts n Hk Hn Hd.
  - split; [|exact I]. destruct (plen_split ts) as (b & r & E & H1 & H2).
    pose proof (Hk [] b r E H1). lia.
  - split.
    + destruct (plen_split ts) as (b & r & E & H1 & H2). pose proof (Hk [] b r E H1). lia.
    + intros r (b & -> & Hb). rewrite semicolons_app in Hn. simpl in Hn.
      apply (IH (d + 1)%N r (n - 1)%nat); [|lia|lia].
      intros pre b' post -> Hb'. apply (Hk (b ++ KSemi :: pre) b' post); [|exact Hb'].
      rewrite <- app_assoc. reflexivity.
Qed.

Lemma within w vars lat s ts e n k :
  lex s = Some (ts, e) ->
  (semicolons ts <= n)%nat ->
  (forall pre b post, ts = pre ++ b ++ post -> ~ In KSemi b -> (List.length b <= k)%nat) ->
  (N.of_nat n + N.of_nat k <= 9996)%N ->
  limited_text w vars lat s = Within (parse_text w vars lat s).
Proof.
  intros El Hn Hk Hd. unfold limited_text, parse_text. rewrite El. unfold limited_tokens, parse_tokens, b_all, p_all.
  destruct (file_sim (glps w) (List.length ts) 0 (fill_vars vars ctx0) ts) as [->|[j E]].
  - destruct (p_file (glps w) (List.length ts) (fill_vars vars ctx0) ts) as [c r|[]| |u|]; simpl; try reflexivity.
  - exfalso. eapply file_room; [|exact E]. eapply fits_all; [exact Hk|exact Hn|lia].
Qed.

Lemma many_statements w vars lat s p : ssorted vars -> spells s p ->
  (9998 <= N.of_nat (List.length p))%N ->
  (forall t, limited_text w vars lat s <> Within (Parsed t)) /\
  ((exists r, srun w vars lat p = Some r) -> exists kv, limited_text w vars lat s = Exhausted kv).
Proof. intros Hs Hp Hn. apply too_deep; auto. pose proof (file_length p). lia. Qed.

Lemma long_statement w vars lat s p st : ssorted vars -> spells s p -> In st p ->
  match st with
  | SLine _ _ members => 4998 <= N.of_nat (List.length members)
  | SAssign _ (AVec l) => 4999 <= N.of_nat (List.length l)
  | SElem _ _ props => 4998 <= N.of_nat (List.length props)
  | _ => False
  end%N ->
  (forall t, limited_text w vars lat s <> Within (Parsed t)) /\
  ((exists r, srun w vars lat p = Some r) -> exists kv, limited_text w vars lat s = Exhausted kv).
Proof.
  intros Hs Hp Hin Hst. apply too_deep; auto. pose proof (file_member p st Hin) as H.
  assert (9998 < need_stmt st)%N; [|lia].
  destruct st as [n e|n t l|n t l|n e|n]; try contradiction.
  - destruct e; try contradiction. cbn [need_stmt need].
    pose proof (row_length (map need l) (map_need_pos l)). rewrite map_length in *. lia.
  - cbn [need_stmt]. pose proof (props_length l). lia.
  - cbn [need_stmt]. pose proof (row_length (map need l) (map_need_pos l)). rewrite map_length in *. lia.
Qed.

(** * Examples *)
Fixpoint srep (n : nat) (s tail : string) : string :=
  match n with O => tail | S k => s ++ srep k s tail end%string.
Definition ends_text (n : N) : string := srep (N.to_nat n) "END;" "".
Definition vec_text (n : N) : string := ("v=[" ++ srep (N.to_nat (n - 1)) "1," "1];")%string.
Definition members_text (n : N) : string := ("a:d;L:LINE=(" ++ srep (N.to_nat (n - 1)) "a," "a);")%string.
Definition props_text (n : N) : string := ("a:d" ++ srep (N.to_nat n) ",k=1" ";")%string.

Definition spelt (s : string) : option (list stmt) :=
  match lex s with
  | Some (ts, false) => match tree_of ts with POk p [] => Some p | _ => None end
  | _ => None
  end.
Lemma spelt_spells s p : spelt s = Some p -> spells s p.
Proof.
  unfold spelt. destruct (lex s) as [[ts [|]]|] eqn:E; try discriminate.
  destruct (tree_of ts) as [q [|]| | | |] eqn:E2; try discriminate. intros H. injection H as <-.
  eapply spells_compute; eassumption.
Qed.

Lemma C86_any_length_refuted_w :
  limited_text demo [] false (ends_text 9998) = Exhausted false /\
  exists t, parse_text demo [] false (ends_text 9998) = Parsed t.
Proof. split; [vm_compute; reflexivity|]. eexists. vm_compute. reflexivity. Qed.
