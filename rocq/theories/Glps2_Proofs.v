(** The trees built by the parser are exactly those of the grammar. *)
From Coq Require Import List String Ascii Bool ZArith Lia Arith.
From Verif Require Import SMap SMap_Proofs Dbl Config_Model Config_Spec Lexer_Model Glps_Model Glps_Spec Glps_Proofs.
Import ListNotations.
Open Scope string_scope.
Open Scope list_scope.

Scheme wr_mind := Minimality for wr Sort Prop
  with wr_list_mind := Minimality for wr_list Sort Prop.
Combined Scheme wr_both_ind from wr_mind, wr_list_mind.

(** * Soundness *)
Lemma wr_up2 e s lvl : wr 2 e s -> wr lvl e s \/ 3 <= lvl.
Proof.
  intros H. destruct lvl as [|[|[|lvl]]]; [left; apply wr_0, wr_1; exact H|left; apply wr_1; exact H|left; exact H|right; lia].
Qed.

Lemma binop_wr lvl t o a b s u : lvl <= 1 -> binop_at lvl t = Some o ->
  wr lvl a s -> wr (S lvl) b u -> wr lvl (ABin o a b) (s ++ t :: u).
Proof.
  intros Hl H Ha Hb. destruct lvl as [|[|lvl]]; [| |lia]; destruct t; simpl in H; try discriminate;
    injection H as <-; constructor; auto.
Qed.

Lemma expr_sound f :
  (forall lvl c ts e r, lvl <= 2 -> p_expr ast f lvl c ts = POk e r -> exists s, ts = s ++ r /\ wr lvl e s) /\
  (forall lvl c a ts e r, lvl <= 1 -> p_ops ast f lvl c a ts = POk e r ->
     forall s0, wr lvl a s0 -> exists s, ts = s ++ r /\ wr lvl e (s0 ++ s)) /\
  (forall c ts l r, p_vec ast f c ts = POk l r -> exists s, ts = s ++ r /\ wr_list l s).
Proof.
  induction f as [|f (IHe & IHo & IHv)]; [repeat split; discriminate|]. split; [|split].
  - intros lvl c ts e r Hl H. destruct lvl as [|[|[|lvl]]]; [| | |lia].
    + rewrite p_chain_S in H by lia.
      destruct (p_expr ast f 1 c ts) as [a r1|k| |u|] eqn:E; simpl in H; try discriminate.
      apply IHe in E; [|lia]. destruct E as (s1 & -> & W1).
      apply (IHo 0 c a r1 e r ltac:(lia)) with (s0 := s1) in H; [|apply wr_0; exact W1].
      destruct H as (s2 & -> & W2). exists (s1 ++ s2). rewrite app_assoc. auto.
    + rewrite p_chain_S in H by lia.
      destruct (p_expr ast f 2 c ts) as [a r1|k| |u|] eqn:E; simpl in H; try discriminate.
      apply IHe in E; [|lia]. destruct E as (s1 & -> & W1).
      apply (IHo 1 c a r1 e r ltac:(lia)) with (s0 := s1) in H; [|apply wr_1; exact W1].
      destruct H as (s2 & -> & W2). exists (s1 ++ s2). rewrite app_assoc. auto.
    + rewrite p_operand_S in H. destruct ts as [|t ts]; [discriminate|]. destruct t; try discriminate.
      * destruct ts as [|t2 ts].
        { simpl in H. injection H as <- <-. exists [KKw s]. split; [reflexivity|constructor]. }
        assert (Hv : KKw s :: t2 :: ts = [KKw s] ++ t2 :: ts) by reflexivity.
        destruct t2; try (simpl in H; injection H as <- <-; exists [KKw s]; split; [reflexivity|constructor]).
        clear Hv. destruct (p_expr ast f 0 c ts) as [a r1|k| |u|] eqn:E; simpl in H; try discriminate.
        apply IHe in E; [|lia]. destruct E as (s1 & -> & W1).
        destruct r1 as [|[] r1]; try discriminate. simpl in H. injection H as <- <-.
        exists (KKw s :: KLPar :: s1 ++ [KRPar]). split; [simpl; rewrite <- app_assoc; reflexivity|].
        apply wr_call. exact W1.
      * simpl in H. injection H as <- <-. exists [KStr s]. split; [reflexivity|constructor].
      * simpl in H. injection H as <- <-. eexists [KNum _]. split; [reflexivity|constructor].
      * destruct (p_expr ast f 0 c ts) as [a r1|k| |u|] eqn:E; simpl in H; try discriminate.
        apply IHe in E; [|lia]. destruct E as (s1 & -> & W1).
        destruct r1 as [|[] r1]; try discriminate. injection H as <- <-.
        exists (KLPar :: s1 ++ [KRPar]). split; [simpl; rewrite <- app_assoc; reflexivity|].
        apply wr_paren. exact W1.
      * destruct (p_vec ast f c ts) as [a r1|k| |u|] eqn:E; simpl in H; try discriminate.
        apply IHv in E. destruct E as (s1 & -> & W1).
        destruct r1 as [|[] r1]; try discriminate. simpl in H. injection H as <- <-.
        exists (KLBrk :: s1 ++ [KRBrk]). split; [simpl; rewrite <- app_assoc; reflexivity|].
        apply wr_vec. exact W1.
      * destruct (p_expr ast f 2 c ts) as [a r1|k| |u|] eqn:E; simpl in H; try discriminate.
        apply IHe in E; [|lia]. destruct E as (s1 & -> & W1). injection H as <- <-.
        exists (KMinus :: s1). split; [reflexivity|]. apply wr_neg. exact W1.
  - intros lvl c a ts e r Hl H s0 W0. rewrite p_ops_S in H.
    destruct ts as [|t ts].
    { injection H as <- <-. exists []. rewrite (app_nil_r s0). auto. }
    destruct (binop_at lvl t) as [o|] eqn:B.
    2:{ injection H as <- <-. exists []. rewrite (app_nil_r s0). auto. }
    destruct (p_expr ast f (S lvl) c ts) as [b r1|k| |u|] eqn:E; simpl in H; try discriminate.
    apply IHe in E; [|lia]. destruct E as (s1 & -> & W1).
    apply (IHo lvl c _ r1 e r Hl) with (s0 := s0 ++ t :: s1) in H; [|eapply binop_wr; eauto].
    destruct H as (s2 & -> & W2). exists (t :: s1 ++ s2). split; [simpl; rewrite app_assoc; reflexivity|].
    rewrite <- app_assoc in W2. exact W2.
  - intros c ts l r H. rewrite p_vec_S in H.
    assert (Hg : pbind (p_expr ast f 0 c ts) (fun a r =>
            match r with
            | KComma :: r' => pbind (p_vec ast f c r') (fun v r'' => pact (v_cons ast a v) (fun w => POk w r''))
            | _ => pact (v_cons ast a (v_nil ast)) (fun w => POk w r)
            end) = POk l r -> exists s, ts = s ++ r /\ wr_list l s).
    { clear H. intros H. destruct (p_expr ast f 0 c ts) as [b r1|k| |u|] eqn:E; simpl in H; try discriminate.
      apply IHe in E; [|lia]. destruct E as (s1 & -> & W1).
      assert (Hd : POk [b] r1 = POk l r -> exists s, s1 ++ r1 = s ++ r /\ wr_list l s).
      { intros Q. injection Q as <- <-. exists s1. split; [reflexivity|]. apply wr_one. exact W1. }
      destruct r1 as [|t r1]; [exact (Hd H)|]. destruct t; try exact (Hd H).
      destruct (p_vec ast f c r1) as [v r2|k| |u|] eqn:E; simpl in H; try discriminate.
      injection H as <- <-. apply IHv in E. destruct E as (s2 & -> & W2).
      exists (s1 ++ KComma :: s2). split; [rewrite <- app_assoc; reflexivity|]. apply wr_cons; auto. }
    destruct ts as [|t ts]; [exact (Hg H)|]. destruct t; try exact (Hg H).
    injection H as <- <-. exists []. split; [reflexivity|constructor].
Qed.

Lemma expr0_sound c ts e r : p_expr0 ast c ts = POk e r -> exists s, ts = s ++ r /\ wr 0 e s.
Proof. apply expr_sound. lia. Qed.

Lemma lines_sound f c : forall ts l r, p_lines ast f c ts = POk l r -> exists s, ts = s ++ r /\ wr_list l s.
Proof.
  induction f as [|f IH]; intros ts l r H; [discriminate|]. cbn [p_lines] in H.
  assert (Hg : pbind (p_expr0 ast c ts) (fun a r =>
            match r with
            | KComma :: r' => pbind (p_lines ast f c r') (fun v r'' => pact (l_cons ast a v) (fun w => POk w r''))
            | _ => pact (l_cons ast a (l_nil ast)) (fun w => POk w r)
            end) = POk l r -> exists s, ts = s ++ r /\ wr_list l s).
  { clear H. intros H. destruct (p_expr0 ast c ts) as [b r1|k| |u|] eqn:E; simpl in H; try discriminate.
    apply expr0_sound in E. destruct E as (s1 & -> & W1).
    assert (Hd : POk [b] r1 = POk l r -> exists s, s1 ++ r1 = s ++ r /\ wr_list l s).
    { intros Q. injection Q as <- <-. exists s1. split; [reflexivity|]. apply wr_one. exact W1. }
    destruct r1 as [|t r1]; [exact (Hd H)|]. destruct t; try exact (Hd H).
    destruct (p_lines ast f c r1) as [v r2|k| |u|] eqn:E; simpl in H; try discriminate.
    injection H as <- <-. apply IH in E. destruct E as (s2 & -> & W2).
    exists (s1 ++ KComma :: s2). split; [rewrite <- app_assoc; reflexivity|]. apply wr_cons; auto. }
  destruct ts as [|t ts]; [exact (Hg H)|]. destruct t; try exact (Hg H).
  injection H as <- <-. exists []. split; [reflexivity|constructor].
Qed.

Lemma props_sound f c : forall ts l r, p_props ast f c ts = POk l r -> exists s, ts = s ++ r /\ wr_props l s.
Proof.
  induction f as [|f IH]; intros ts l r H; [discriminate|]. cbn [p_props] in H.
  assert (Hd : POk [] ts = POk l r -> exists s, ts = s ++ r /\ wr_props l s).
  { intros Q. injection Q as <- <-. exists []. split; [reflexivity|constructor]. }
  destruct ts as [|t ts]; [exact (Hd H)|]. destruct t; try exact (Hd H). clear Hd.
  destruct ts as [|t ts]; [discriminate|]. destruct t; try discriminate.
  destruct ts as [|t ts]; [discriminate|]. destruct t; try discriminate.
  destruct (p_expr0 ast c ts) as [b r1|k| |u|] eqn:E; simpl in H; try discriminate.
  apply expr0_sound in E. destruct E as (s1 & -> & W1).
  destruct (p_props ast f c r1) as [v r2|k| |u|] eqn:E; simpl in H; try discriminate.
  injection H as <- <-. apply IH in E. destruct E as (s2 & -> & W2).
  exists (KComma :: KKw s :: KEq :: s1 ++ s2). split; [simpl; rewrite <- app_assoc; reflexivity|].
  constructor; auto.
Qed.

Lemma entry_sound p ts p' r : p_entry ast p ts = POk p' r ->
  exists st s, p' = p ++ [st] /\ ts = s ++ r /\ wr_stmt st s.
Proof.
  unfold p_entry, p_semi. intros H.
  destruct ts as [|t ts]; [discriminate|]. destruct t; try discriminate.
  destruct ts as [|t ts]; [discriminate|]. destruct t; try discriminate.
  - destruct (p_expr0 ast p ts) as [b r1|k| |u|] eqn:E; simpl in H; try discriminate.
    apply expr0_sound in E. destruct E as (s1 & -> & W1).
    destruct r1 as [|[] r1]; try discriminate. injection H as <- <-.
    exists (SAssign s b), (KKw s :: KEq :: s1 ++ [KSemi]). repeat split.
    + simpl. rewrite <- app_assoc. reflexivity.
    + constructor. exact W1.
  - destruct ts as [|t ts]; [discriminate|]. destruct t; try discriminate.
    assert (Hel : pbind (p_props ast (S (List.length ts)) p ts) (fun m r' =>
        match r' with KSemi :: r'' => pact (s_elem ast p s s0 m) (fun c' => POk c' r'') | _ => PAbort false end)
        = POk p' r ->
        exists st s', p' = p ++ [st] /\ KKw s :: KColon :: KKw s0 :: ts = s' ++ r /\ wr_stmt st s').
    { clear H. intros H. destruct (p_props ast (S (List.length ts)) p ts) as [b r1|k| |u|] eqn:E; simpl in H; try discriminate.
      apply props_sound in E. destruct E as (s1 & -> & W1).
      destruct r1 as [|[] r1]; try discriminate. injection H as <- <-.
      exists (SElem s s0 b), (KKw s :: KColon :: KKw s0 :: s1 ++ [KSemi]). repeat split.
      + simpl. rewrite <- app_assoc. reflexivity.
      + constructor. exact W1. }
    destruct ts as [|t ts]; [exact (Hel H)|]. destruct t; try exact (Hel H).
    destruct ts as [|t ts]; [exact (Hel H)|]. destruct t; try exact (Hel H). clear Hel.
    destruct (p_lines ast (S (List.length ts)) p ts) as [b r1|k| |u|] eqn:E; simpl in H; try discriminate.
    apply lines_sound in E. destruct E as (s1 & -> & W1).
    destruct r1 as [|[] r1]; try discriminate. destruct r1 as [|[] r1]; try discriminate.
    injection H as <- <-.
    exists (SLine s s0 b), (KKw s :: KColon :: KKw s0 :: KEq :: KLPar :: s1 ++ [KRPar; KSemi]). repeat split.
    + simpl. rewrite <- app_assoc. reflexivity.
    + constructor. exact W1.
  - simpl in H. injection H as <- <-. exists (SCmd s), [KKw s; KSemi]. repeat split. constructor.
  - destruct (p_expr0 ast p ts) as [b r1|k| |u|] eqn:E; simpl in H; try discriminate.
    apply expr0_sound in E. destruct E as (s1 & -> & W1).
    destruct r1 as [|[] r1]; try discriminate. destruct r1 as [|[] r1]; try discriminate.
    injection H as <- <-.
    exists (SCall s b), (KKw s :: KLPar :: s1 ++ [KRPar; KSemi]). repeat split.
    + simpl. rewrite <- app_assoc. reflexivity.
    + constructor. exact W1.
Qed.

Lemma file_sound f : forall p ts p' r, p_file ast f p ts = POk p' r -> exists q, p' = p ++ q /\ r = [] /\ wr_file q ts.
Proof.
  induction f as [|f IH]; intros p ts p' r H.
  - destruct ts; [|discriminate]. injection H as <- <-. exists []. rewrite app_nil_r. repeat split. constructor.
  - destruct ts as [|t ts].
    { injection H as <- <-. exists []. rewrite app_nil_r. repeat split. constructor. }
    cbn [p_file] in H. destruct (p_entry ast p (t :: ts)) as [p1 r1|k| |u|] eqn:E; simpl in H; try discriminate.
    apply entry_sound in E. destruct E as (st & s & -> & -> & W).
    apply IH in H. destruct H as (q & -> & -> & Wq). exists (st :: q). rewrite <- app_assoc. repeat split.
    constructor; auto.
Qed.

Lemma tree_sound ts p : tree_of ts = POk p [] -> wr_file p ts.
Proof. unfold tree_of, p_all. intros H. apply file_sound in H. destruct H as (q & -> & _ & W). exact W. Qed.

(** * More fuel does not change a successful parse *)
Lemma expr_mono f :
  (forall lvl c ts e r, p_expr ast f lvl c ts = POk e r -> p_expr ast (S f) lvl c ts = POk e r) /\
  (forall lvl c a ts e r, p_ops ast f lvl c a ts = POk e r -> p_ops ast (S f) lvl c a ts = POk e r) /\
  (forall c ts l r, p_vec ast f c ts = POk l r -> p_vec ast (S f) c ts = POk l r).
Proof.
  induction f as [|f (IHe & IHo & IHv)]; [repeat split; discriminate|].
  assert (Bind : forall (B D : Type) (x x' : pres B) (k k' : B -> list token -> pres D) e r,
     pbind x k = POk e r -> (forall a r1, x = POk a r1 -> x' = POk a r1) ->
     (forall a r1, k a r1 = POk e r -> k' a r1 = POk e r) -> pbind x' k' = POk e r).
  { intros B D x x' k k' e r H H1 H2. destruct x as [a r1|b| |u|]; simpl in H; try discriminate.
    rewrite (H1 a r1 eq_refl). simpl. auto. }
  split; [|split].
  - intros lvl c ts e r H. destruct lvl as [|[|lvl]].
    + rewrite p_chain_S in H |- * by lia. eapply Bind; eauto.
    + rewrite p_chain_S in H |- * by lia. eapply Bind; eauto.
    + rewrite p_operand_S in H |- *. destruct ts as [|t ts]; [discriminate|]. destruct t; try exact H.
      * destruct ts as [|t2 ts]; [exact H|]. destruct t2; try exact H. eapply Bind; eauto.
      * eapply Bind; eauto.
      * eapply Bind; eauto.
      * eapply Bind; eauto.
  - intros lvl c a ts e r H. rewrite p_ops_S in H |- *. destruct ts as [|t ts]; [exact H|].
    destruct (binop_at lvl t); [|exact H]. eapply Bind; eauto.
    intros b r1 Hb. simpl in *. auto.
  - intros c ts l r H. rewrite p_vec_S in H |- *.
    destruct ts as [|t ts]; [|destruct t; try exact H];
    (eapply Bind; [exact H|eauto|]; intros a r1 Hb; destruct r1 as [|t1 r1]; [exact Hb|];
      destruct t1; try exact Hb; eapply Bind; eauto).
Qed.
Lemma expr_mono_le f g lvl c ts e r : f <= g -> p_expr ast f lvl c ts = POk e r -> p_expr ast g lvl c ts = POk e r.
Proof. induction 1; auto. intros H0. apply expr_mono. auto. Qed.
Lemma ops_mono_le f g lvl c a ts e r : f <= g -> p_ops ast f lvl c a ts = POk e r -> p_ops ast g lvl c a ts = POk e r.
Proof. induction 1; auto. intros H0. apply expr_mono. auto. Qed.
Lemma vec_mono_le f g c ts e r : f <= g -> p_vec ast f c ts = POk e r -> p_vec ast g c ts = POk e r.
Proof. induction 1; auto. intros H0. apply expr_mono. auto. Qed.

(** A successful parse with some fuel is what the computed fuel gives. *)
Lemma expr0_any_fuel f c ts e r : p_expr ast f 0 c ts = POk e r -> p_expr0 ast c ts = POk e r.
Proof.
  intros H. unfold p_expr0. destruct (p_expr ast (expr_fuel ts) 0 c ts) as [e' r'|k| |u|] eqn:E.
  - pose proof (expr_mono_le f (f + expr_fuel ts) _ _ _ _ _ ltac:(lia) H) as H1.
    pose proof (expr_mono_le (expr_fuel ts) (f + expr_fuel ts) _ _ _ _ _ ltac:(lia) E) as H2.
    rewrite H1 in H2. congruence.
  - exfalso. revert E. 
    assert (M : forall g, (forall lvl c ts k, p_expr ast g lvl c ts = PAbort k -> p_expr ast (S g) lvl c ts = PAbort k) /\
       (forall lvl c a ts k, p_ops ast g lvl c a ts = PAbort k -> p_ops ast (S g) lvl c a ts = PAbort k) /\
       (forall c ts k, p_vec ast g c ts = PAbort k -> p_vec ast (S g) c ts = PAbort k)).
    { induction g as [|g (IHe & IHo & IHv)]; [repeat split; discriminate|].
      destruct (expr_mono g) as (Me & Mo & Mv).
      assert (Bind : forall (B D : Type) (x x' : pres B) (k k' : B -> list token -> pres D) b,
       pbind x k = PAbort b -> (forall a r1, x = POk a r1 -> x' = POk a r1) ->
       (forall b, x = PAbort b -> x' = PAbort b) ->
       (forall a r1, k a r1 = PAbort b -> k' a r1 = PAbort b) -> pbind x' k' = PAbort b).
      { intros B D x x' k1 k' b H0 H1 H2 H3. destruct x as [a r1|b1| |u|]; simpl in H0; try discriminate.
        - rewrite (H1 a r1 eq_refl). simpl. auto.
        - injection H0 as ->. rewrite (H2 _ eq_refl). reflexivity. }
      split; [|split].
      - intros lvl c0 ts0 b H0. destruct lvl as [|[|lvl]].
        + rewrite p_chain_S in H0 |- * by lia. eapply Bind; eauto.
        + rewrite p_chain_S in H0 |- * by lia. eapply Bind; eauto.
        + rewrite p_operand_S in H0 |- *. destruct ts0 as [|t ts0]; [exact H0|]. destruct t; try exact H0.
          * destruct ts0 as [|t2 ts0]; [exact H0|]. destruct t2; try exact H0. eapply Bind; eauto.
          * eapply Bind; eauto.
          * eapply Bind; eauto.
          * eapply Bind; eauto.
      - intros lvl c0 a ts0 b H0. rewrite p_ops_S in H0 |- *. destruct ts0 as [|t ts0]; [exact H0|].
        destruct (binop_at lvl t); [|exact H0]. eapply Bind; eauto.
        intros b0 r1 Hb. simpl in *. auto.
      - intros c0 ts0 b H0. rewrite p_vec_S in H0 |- *.
        destruct ts0 as [|t ts0]; [|destruct t; try exact H0];
        (eapply Bind; [exact H0|eauto|eauto|]; intros a r1 Hb; destruct r1 as [|t1 r1]; [exact Hb|];
          destruct t1; try exact Hb; eapply Bind; eauto). }
    intros E.
    assert (Hle : forall g g', g <= g' -> p_expr ast g 0 c ts = PAbort k -> p_expr ast g' 0 c ts = PAbort k).
    { induction 1; auto. intros Q. apply M. auto. }
    pose proof (expr_mono_le f (f + expr_fuel ts) _ _ _ _ _ ltac:(lia) H) as H1.
    rewrite (Hle (expr_fuel ts) (f + expr_fuel ts) ltac:(lia) E) in H1. discriminate.
  - pose proof (proj1 (ast_clean (expr_fuel ts)) 0 c ts) as Q. rewrite E in Q. destruct Q.
  - pose proof (proj1 (ast_clean (expr_fuel ts)) 0 c ts) as Q. rewrite E in Q. destruct Q.
  - exfalso. apply (proj1 (expr0_shrinks ast c ts)). exact E.
Qed.

(** * Completeness *)
Definition nocall (ts : list token) : Prop := match ts with KLPar :: _ => False | _ => True end.
Definition noop (lvl : nat) (ts : list token) : Prop :=
  match ts with t :: _ => binop_at lvl t = None | [] => True end.
Definition nobrk (ts : list token) : Prop :=
  match ts with KRBrk :: _ | KRPar :: _ | [] => False | _ => True end.

Lemma wr_head lvl e ts : wr lvl e ts -> nobrk ts.
Proof.
  induction 1; simpl; auto.
  all: destruct s as [|[] s]; simpl in *; auto.
Qed.
Lemma nobrk_app s t : nobrk s -> nobrk (s ++ t).
Proof. destruct s as [|[] s]; simpl; auto; tauto. Qed.

Section Compl.
Variable c : list stmt.
Definition PE (lvl : nat) (e : tree) (s : list token) : Prop :=
  match lvl with
  | 0 => forall rest e' r', nocall rest -> noop 1 rest ->
          (exists f, p_ops ast f 0 c e rest = POk e' r') -> exists f, p_expr ast f 0 c (s ++ rest) = POk e' r'
  | 1 => forall rest e' r', nocall rest ->
          (exists f, p_ops ast f 1 c e rest = POk e' r') -> exists f, p_expr ast f 1 c (s ++ rest) = POk e' r'
  | _ => forall rest, nocall rest -> exists f, p_expr ast f 2 c (s ++ rest) = POk e rest
  end.
Definition PV (l : list tree) (s : list token) : Prop :=
  forall rest, exists f, p_vec ast f c (s ++ KRBrk :: rest) = POk l (KRBrk :: rest).

Lemma PE0_fin e s rest : PE 0 e s -> nocall rest -> noop 1 rest -> noop 0 rest ->
  exists f, p_expr ast f 0 c (s ++ rest) = POk e rest.
Proof.
  intros H H1 H2 H3. apply H; auto. exists 1. rewrite p_ops_S. destruct rest as [|t rest]; [reflexivity|].
  unfold noop in H3. rewrite H3. reflexivity.
Qed.

Lemma bin_step lvl t o a b s u rest e' r' :
  lvl <= 1 -> binop_at lvl t = Some o -> PE (S lvl) b u -> PE lvl a s ->
  nocall rest -> (lvl = 0 -> noop 1 rest) ->
  (exists f, p_ops ast f lvl c (ABin o a b) rest = POk e' r') ->
  exists f, p_expr ast f lvl c ((s ++ t :: u) ++ rest) = POk e' r'.
Proof.
  intros Hl B Hb Ha Hn H1 [f Hf]. rewrite <- app_assoc. simpl.
  assert (Hsub : exists g, p_expr ast g (S lvl) c (u ++ rest) = POk b rest).
  { destruct lvl as [|[|lvl]]; [|exact (Hb rest Hn)|lia].
    apply Hb; auto. exists 1. rewrite p_ops_S. specialize (H1 eq_refl). destruct rest as [|t' rest]; [reflexivity|].
    unfold noop in H1. rewrite H1. reflexivity. }
  destruct Hsub as [g Hg].
  assert (Hops : exists h, p_ops ast h lvl c a (t :: u ++ rest) = POk e' r').
  { exists (S (f + g)). rewrite p_ops_S, B.
    rewrite (expr_mono_le g (f + g) _ _ _ _ _ ltac:(lia) Hg). simpl.
    eapply ops_mono_le; [|exact Hf]. lia. }
  destruct lvl as [|[|lvl]]; [| |lia].
  - apply Ha; auto. destruct t; simpl in B; try discriminate; exact I. destruct t; simpl in B; try discriminate; reflexivity.
  - apply Ha; auto. destruct t; simpl in B; try discriminate; exact I.
Qed.

Lemma expr_complete :
  (forall lvl e s, wr lvl e s -> PE lvl e s) /\ (forall l s, wr_list l s -> PV l s).
Proof.
  apply wr_both_ind.
  - intros x rest H. exists 1. reflexivity.
  - intros x rest H. exists 1. reflexivity.
  - intros n rest H. exists 1. simpl. destruct rest as [|[] rest]; try reflexivity. destruct H.
  - intros n e ts W IH rest H. destruct (PE0_fin e ts (KRPar :: rest) IH I eq_refl eq_refl) as [f Hf].
    exists (S f). simpl app. rewrite p_operand_S. rewrite <- app_assoc. simpl app. rewrite Hf. reflexivity.
  - intros e ts W IH rest H. destruct (PE0_fin e ts (KRPar :: rest) IH I eq_refl eq_refl) as [f Hf].
    exists (S f). simpl app. rewrite p_operand_S. rewrite <- app_assoc. simpl app. rewrite Hf. reflexivity.
  - intros l ts W IH rest H. destruct (IH rest) as [f Hf].
    exists (S f). simpl app. rewrite p_operand_S. rewrite <- app_assoc. simpl app. rewrite Hf. reflexivity.
  - intros e ts W IH rest H. destruct (IH rest H) as [f Hf]. exists (S f). simpl app. rewrite p_operand_S, Hf. reflexivity.
  - intros a b s t Wa IHa Wb IHb rest e' r' Hn Hf. eapply bin_step with (lvl := 1); eauto. reflexivity. discriminate.
  - intros a b s t Wa IHa Wb IHb rest e' r' Hn Hf. eapply bin_step with (lvl := 1); eauto. reflexivity. discriminate.
  - intros a b s t Wa IHa Wb IHb rest e' r' Hn H1 Hf. eapply bin_step with (lvl := 0); eauto. reflexivity.
  - intros a b s t Wa IHa Wb IHb rest e' r' Hn H1 Hf. eapply bin_step with (lvl := 0); eauto. reflexivity.
  - intros e ts W IH rest e' r' Hn [f Hf]. destruct (IH rest Hn) as [g Hg]. exists (S (f + g)).
    rewrite p_chain_S by lia. rewrite (expr_mono_le g (f + g) _ _ _ _ _ ltac:(lia) Hg). simpl.
    eapply ops_mono_le; [|exact Hf]. lia.
  - intros e ts W IH rest e' r' Hn H1 [f Hf].
    destruct (IH rest e rest Hn) as [g Hg].
    { exists 1. rewrite p_ops_S. destruct rest as [|t rest]; [reflexivity|]. unfold noop in H1. rewrite H1. reflexivity. }
    exists (S (f + g)). rewrite p_chain_S by lia. rewrite (expr_mono_le g (f + g) _ _ _ _ _ ltac:(lia) Hg). simpl.
    eapply ops_mono_le; [|exact Hf]. lia.
  - intros rest. exists 1. reflexivity.
  - intros e ts W IH rest.
    destruct (PE0_fin e ts (KRBrk :: rest) IH I eq_refl eq_refl) as [f Hf]. exists (S f). rewrite p_vec_S.
    pose proof (nobrk_app ts (KRBrk :: rest) (wr_head _ _ _ W)) as Hb. rewrite Hf.
    destruct (ts ++ KRBrk :: rest) as [|[] q]; simpl in Hb; try contradiction; reflexivity.
  - intros e l s t W IH Wl IHl rest. rewrite <- app_assoc. simpl.
    destruct (PE0_fin e s (KComma :: t ++ KRBrk :: rest) IH I eq_refl eq_refl) as [f Hf].
    destruct (IHl rest) as [g Hg]. exists (S (f + g)). rewrite p_vec_S.
    pose proof (nobrk_app s (KComma :: t ++ KRBrk :: rest) (wr_head _ _ _ W)) as Hb.
    rewrite (expr_mono_le f (f + g) _ _ _ _ _ ltac:(lia) Hf).
    pose proof (vec_mono_le g (f + g) _ _ _ _ ltac:(lia) Hg) as Hg'.
    destruct (s ++ KComma :: t ++ KRBrk :: rest) as [|[] q]; simpl in Hb; try contradiction; simpl; rewrite Hg'; reflexivity.
Qed.

Lemma expr0_complete e s rest : wr 0 e s -> nocall rest -> noop 1 rest -> noop 0 rest ->
  p_expr0 ast c (s ++ rest) = POk e rest.
Proof.
  intros W H1 H2 H3. destruct (PE0_fin e s rest (proj1 expr_complete _ _ _ W) H1 H2 H3) as [f Hf].
  eapply expr0_any_fuel. exact Hf.
Qed.

Lemma lines_complete l s : wr_list l s -> forall f rest, List.length s < f ->
  p_lines ast f c (s ++ KRPar :: rest) = POk l (KRPar :: rest).
Proof.
  intros W. assert (G : forall l s, wr_list l s -> forall f rest, List.length s < f ->
     p_lines ast f c (s ++ KRPar :: rest) = POk l (KRPar :: rest)); [|eauto].
  clear. intros l s W. 
  induction l as [|e0 l IHl] in s, W |- *; intros f rest Hf; (destruct f as [|f]; [lia|]).
  - inversion W; subst. reflexivity.
  - cbn [p_lines]. inversion W as [|e ts We|e l' s1 t We Wl]; subst.
    + pose proof (expr0_complete e0 s (KRPar :: rest) We I eq_refl eq_refl) as Q.
      pose proof (nobrk_app s (KRPar :: rest) (wr_head _ _ _ We)) as Hb. rewrite Q.
      destruct (s ++ KRPar :: rest) as [|[] q]; simpl in Hb; try contradiction; reflexivity.
    + rewrite <- app_assoc. simpl.
      pose proof (expr0_complete e0 s1 (KComma :: t ++ KRPar :: rest) We I eq_refl eq_refl) as Q.
      pose proof (nobrk_app s1 (KComma :: t ++ KRPar :: rest) (wr_head _ _ _ We)) as Hb. rewrite Q. simpl.
      rewrite app_length in Hf. simpl in Hf.
      rewrite (IHl t Wl f rest) by lia.
      destruct (s1 ++ KComma :: t ++ KRPar :: rest) as [|[] q]; simpl in Hb; try contradiction; reflexivity.
Qed.

Lemma props_complete l s : wr_props l s -> forall f rest, List.length s < f ->
  p_props ast f c (s ++ KSemi :: rest) = POk l (KSemi :: rest).
Proof.
  induction 1 as [|k e l s t We Wl IH]; intros f rest Hf; (destruct f as [|f]; [lia|]).
  - reflexivity.
  - cbn [p_props app]. rewrite <- app_assoc.
    assert (Hfol : nocall (t ++ KSemi :: rest) /\ noop 1 (t ++ KSemi :: rest) /\ noop 0 (t ++ KSemi :: rest))
      by (inversion Wl; subst; repeat split; reflexivity).
    destruct Hfol as (H1 & H2 & H3).
    rewrite (expr0_complete e s _ We H1 H2 H3). simpl in Hf |- *. rewrite app_length in Hf.
    rewrite IH by lia. reflexivity.
Qed.

Lemma entry_complete st s rest : wr_stmt st s -> p_entry ast c (s ++ rest) = POk (c ++ [st]) rest.
Proof.
  intros W. destruct W as [n e ts We|n t l ts Wl|n t l ts Wl|n e ts We|n];
    unfold p_entry; cbn [app]; rewrite <- ?app_assoc; cbn [app].
  - rewrite (expr0_complete e ts (KSemi :: rest) We I eq_refl eq_refl). reflexivity.
  - pose proof (props_complete l ts Wl (S (List.length (ts ++ KSemi :: rest))) rest) as Q.
    rewrite app_length in Q at 1. simpl List.length in Q. specialize (Q ltac:(lia)).
    inversion Wl; subst; cbn [app] in *; rewrite Q; reflexivity.
  - pose proof (lines_complete l ts Wl (S (List.length (ts ++ KRPar :: KSemi :: rest))) (KSemi :: rest)) as Q.
    rewrite Q by (rewrite app_length; simpl; lia). reflexivity.
  - rewrite (expr0_complete e ts (KRPar :: KSemi :: rest) We I eq_refl eq_refl). reflexivity.
  - reflexivity.
Qed.
End Compl.

Lemma wr_stmt_ne st s : wr_stmt st s -> s <> [].
Proof. intros []; discriminate. Qed.
Lemma file_complete q ts : wr_file q ts -> forall f p, List.length ts <= f -> p_file ast f p ts = POk (p ++ q) [].
Proof.
  induction 1 as [|st q s us Ws Wq IH]; intros f p Hf.
  - rewrite app_nil_r. destruct f; reflexivity.
  - pose proof (wr_stmt_ne _ _ Ws) as Hne.
    assert (Hlen : 0 < List.length s) by (destruct s; simpl; [congruence|lia]).
    rewrite app_length in Hf. destruct f as [|f]; [lia|].
    pose proof (entry_complete p st s us Ws) as E.
    destruct (s ++ us) as [|t ts'] eqn:Es; [destruct s; simpl in Es; congruence|]. cbn [p_file].
    rewrite E. simpl. rewrite IH by lia. rewrite <- app_assoc. reflexivity.
Qed.
Lemma tree_complete q ts : wr_file q ts -> tree_of ts = POk q [].
Proof. intros H. unfold tree_of, p_all. rewrite (file_complete q ts H _ []) by lia. reflexivity. Qed.

Lemma tree_iff ts p : tree_of ts = POk p [] <-> wr_file p ts.
Proof. split; [apply tree_sound|apply tree_complete]. Qed.
Lemma wr_file_unique p q ts : wr_file p ts -> wr_file q ts -> p = q.
Proof. intros H1 H2. apply tree_complete in H1, H2. congruence. Qed.
Lemma wr_unique e1 e2 ts : wr 0 e1 ts -> wr 0 e2 ts -> e1 = e2.
Proof.
  intros H1 H2. pose proof (expr0_complete [] e1 ts [] H1 I I I). pose proof (expr0_complete [] e2 ts [] H2 I I I). congruence.
Qed.

(** If the tokens spell no file, the tree builder reports a syntax error. *)
Lemma tree_reject ts : (forall p, ~ wr_file p ts) -> exists k, tree_of ts = PAbort k.
Proof.
  intros H. pose proof (all_hom ast [] ts) as Q. destruct (tree_of ts) as [p r|k| |u|] eqn:E; try destruct Q; eauto.
  exfalso. subst r. apply (H p). apply tree_sound. exact E.
Qed.
