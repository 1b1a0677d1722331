From Coq Require Import List String Ascii Bool ZArith Lia Arith.
From Verif Require Import SMap SMap_Proofs Dbl Config_Model Config_Spec Lexer_Model Glps_Model Glps_Spec.
Import ListNotations.
Open Scope string_scope.
Open Scope list_scope.

(** * The parser never runs out of fuel *)
Section Fuel.
Context {C A V L K : Type} (X : actions C A V L K).

Definition shrinks {B} (d : nat) (ts : list token) (x : pres B) : Prop :=
  x <> PFuel /\ forall a r, x = POk a r -> d + List.length r <= List.length ts.

Lemma shrinks_bind {B D} d ts (x : pres B) (k : B -> list token -> pres D) :
  x <> PFuel -> (forall a r, x = POk a r -> shrinks d ts (k a r)) -> shrinks d ts (pbind x k).
Proof.
  intros Hx Hk. destruct x as [a r|b| |u|]; simpl; try (split; [congruence|discriminate]).
  apply Hk. reflexivity.
Qed.
Lemma shrinks_act {B D} d ts (x : act B) (k : B -> pres D) :
  (forall a, x = AOk a -> shrinks d ts (k a)) -> shrinks d ts (pact x k).
Proof.
  intros Hk. destruct x as [a| | |u]; simpl; try (split; [discriminate|discriminate]).
  apply Hk. reflexivity.
Qed.
Lemma shrinks_ok {B} d ts (a : B) r : d + List.length r <= List.length ts -> shrinks d ts (POk a r).
Proof. intros H. split; [discriminate|]. intros a' r' E. injection E as <- <-. exact H. Qed.
Lemma shrinks_abort {B} d ts k : shrinks d ts (@PAbort B k).
Proof. split; discriminate. Qed.

Lemma expr_fuel_ok f :
  (forall lvl c ts, lvl <= 2 -> 4 * List.length ts + 3 - lvl <= f -> shrinks 1 ts (p_expr X f lvl c ts)) /\
  (forall lvl c a ts, lvl <= 1 -> 4 * List.length ts + 1 <= f -> shrinks 0 ts (p_ops X f lvl c a ts)) /\
  (forall c ts, 4 * List.length ts + 4 <= f -> shrinks 0 ts (p_vec X f c ts)).
Proof.
  induction f as [|f (IHe & IHo & IHv)].
  - split; [intros; lia|split; intros; lia].
  - split; [|split].
    + intros lvl c ts Hl Hf. cbn [p_expr].
      destruct lvl as [|[|lvl]].
      * pose proof (IHe 1 c ts ltac:(lia) ltac:(lia)) as [H1 H2].
        apply shrinks_bind; [exact H1|]. intros a r E. pose proof (H2 _ _ E) as Hr.
        destruct (IHo 0 c a r ltac:(lia) ltac:(lia)) as [H3 H4].
        split; [exact H3|]. intros a' r' E'. pose proof (H4 _ _ E'). lia.
      * pose proof (IHe 2 c ts ltac:(lia) ltac:(lia)) as [H1 H2].
        apply shrinks_bind; [exact H1|]. intros a r E. pose proof (H2 _ _ E) as Hr.
        destruct (IHo 1 c a r ltac:(lia) ltac:(lia)) as [H3 H4].
        split; [exact H3|]. intros a' r' E'. pose proof (H4 _ _ E'). lia.
      * assert (lvl = 0) as -> by lia.
        assert (Hcall : forall r n, List.length r < List.length ts -> shrinks 1 ts
          (pbind (p_expr X f 0 c r) (fun a r' =>
             match r' with KRPar :: r'' => pact (a_un X c n a) (fun x => POk x r'') | _ => PAbort false end))).
        { intros r n Hr. destruct (IHe 0 c r ltac:(lia) ltac:(lia)) as [H1 H2].
          apply shrinks_bind; [exact H1|]. intros a r' E. pose proof (H2 _ _ E).
          destruct r' as [|[] r'']; try apply shrinks_abort.
          apply shrinks_act. intros x _. apply shrinks_ok. simpl in *. lia. }
        destruct ts as [|t ts]; [apply shrinks_abort|].
        destruct t; try apply shrinks_abort.
        -- destruct ts as [|t2 ts];
             [apply shrinks_act; intros; apply shrinks_ok; simpl; lia|].
           destruct t2; try (apply shrinks_act; intros; apply shrinks_ok; simpl; lia).
           apply Hcall. simpl. lia.
        -- apply shrinks_act; intros; apply shrinks_ok; simpl; lia.
        -- apply shrinks_act; intros; apply shrinks_ok; simpl; lia.
        -- simpl in Hf. destruct (IHe 0 c ts ltac:(lia) ltac:(lia)) as [H1 H2].
           apply shrinks_bind; [exact H1|]. intros a r' E. pose proof (H2 _ _ E).
           destruct r' as [|[] r'']; try apply shrinks_abort. apply shrinks_ok. simpl in *. lia.
        -- simpl in Hf. destruct (IHv c ts ltac:(lia)) as [H1 H2].
           apply shrinks_bind; [exact H1|]. intros a r' E. pose proof (H2 _ _ E).
           destruct r' as [|[] r'']; try apply shrinks_abort.
           apply shrinks_act. intros x _. apply shrinks_ok. simpl in *. lia.
        -- simpl in Hf. destruct (IHe 2 c ts ltac:(lia) ltac:(lia)) as [H1 H2].
           apply shrinks_bind; [exact H1|]. intros a r' E. pose proof (H2 _ _ E).
           apply shrinks_act. intros x _. apply shrinks_ok. simpl in *. lia.
    + intros lvl c a ts Hl Hf. cbn [p_ops]. destruct ts as [|t ts]; [apply shrinks_ok; simpl; lia|].
      destruct (binop_at lvl t); [|apply shrinks_ok; simpl; lia].
      simpl in Hf. destruct (IHe (S lvl) c ts ltac:(lia) ltac:(lia)) as [H1 H2].
      apply shrinks_bind; [exact H1|]. intros b r E. pose proof (H2 _ _ E).
      apply shrinks_act. intros x _. destruct (IHo lvl c x r ltac:(lia) ltac:(lia)) as [H3 H4].
      split; [exact H3|]. intros a' r' E'. pose proof (H4 _ _ E'). simpl. lia.
    + intros c ts Hf. cbn [p_vec].
      assert (Hgen : shrinks 0 ts (pbind (p_expr X f 0 c ts) (fun a r =>
            match r with
            | KComma :: r' => pbind (p_vec X f c r') (fun v r'' => pact (v_cons X a v) (fun w => POk w r''))
            | _ => pact (v_cons X a (v_nil X)) (fun w => POk w r)
            end))).
      { destruct (IHe 0 c ts ltac:(lia) ltac:(lia)) as [H1 H2].
        apply shrinks_bind; [exact H1|]. intros a r E. pose proof (H2 _ _ E) as Hr.
        assert (Hdef : shrinks 0 ts (pact (v_cons X a (v_nil X)) (fun w => POk w r)))
          by (apply shrinks_act; intros; apply shrinks_ok; simpl; lia).
        destruct r as [|t r]; [exact Hdef|]. destruct t; try exact Hdef.
        simpl in Hr. destruct (IHv c r ltac:(lia)) as [H3 H4].
        apply shrinks_bind; [exact H3|]. intros v r' E'. pose proof (H4 _ _ E').
        apply shrinks_act. intros w _. apply shrinks_ok. simpl in *. lia. }
      destruct ts as [|t ts]; [exact Hgen|]. destruct t; try exact Hgen. apply shrinks_ok. simpl. lia.
Qed.

Lemma expr0_shrinks c ts : shrinks 1 ts (p_expr0 X c ts).
Proof. unfold p_expr0, expr_fuel. apply (proj1 (expr_fuel_ok _)); lia. Qed.

Lemma lines_shrinks f c ts : List.length ts < f -> shrinks 0 ts (p_lines X f c ts).
Proof.
  revert ts. induction f as [|f IH]; intros ts Hf; [lia|]. cbn [p_lines].
  assert (Hgen : shrinks 0 ts (pbind (p_expr0 X c ts) (fun a r =>
            match r with
            | KComma :: r' => pbind (p_lines X f c r') (fun v r'' => pact (l_cons X a v) (fun w => POk w r''))
            | _ => pact (l_cons X a (l_nil X)) (fun w => POk w r)
            end))).
  { destruct (expr0_shrinks c ts) as [H1 H2].
    apply shrinks_bind; [exact H1|]. intros a r E. pose proof (H2 _ _ E) as Hr.
    assert (Hdef : shrinks 0 ts (pact (l_cons X a (l_nil X)) (fun w => POk w r)))
      by (apply shrinks_act; intros; apply shrinks_ok; simpl; lia).
    destruct r as [|t r]; [exact Hdef|]. destruct t; try exact Hdef.
    simpl in Hr. destruct (IH r ltac:(lia)) as [H3 H4].
    apply shrinks_bind; [exact H3|]. intros v r' E'. pose proof (H4 _ _ E').
    apply shrinks_act. intros w _. apply shrinks_ok. simpl in *. lia. }
  destruct ts as [|t ts]; [exact Hgen|]. destruct t; try exact Hgen. apply shrinks_ok. simpl. lia.
Qed.

Lemma props_shrinks f c ts : List.length ts < f -> shrinks 0 ts (p_props X f c ts).
Proof.
  revert ts. induction f as [|f IH]; intros ts Hf; [lia|]. cbn [p_props].
  destruct ts as [|t ts]; [apply shrinks_ok; simpl; lia|].
  destruct t; try (apply shrinks_ok; simpl; lia).
  destruct ts as [|t ts]; [apply shrinks_abort|]. destruct t; try apply shrinks_abort.
  destruct ts as [|t ts]; [apply shrinks_abort|]. destruct t; try apply shrinks_abort.
  destruct (expr0_shrinks c ts) as [H1 H2].
  apply shrinks_bind; [exact H1|]. intros a r E. pose proof (H2 _ _ E) as Hr. simpl in Hf.
  destruct (IH r ltac:(lia)) as [H3 H4].
  destruct (p_props X f c r) as [m r'|b| |u|]; try (split; discriminate); [|congruence].
  pose proof (H4 _ _ eq_refl). apply shrinks_ok. simpl. lia.
Qed.

Lemma semi_shrinks {B} d ts r (k : list token -> pres B) :
  (forall r', r = KSemi :: r' -> shrinks d ts (k r')) -> shrinks d ts (p_semi r k).
Proof.
  intros H. unfold p_semi. destruct r as [|[] r]; try apply shrinks_abort. apply H. reflexivity.
Qed.

Lemma entry_shrinks c ts : shrinks 1 ts (p_entry X c ts).
Proof.
  unfold p_entry.
  destruct ts as [|t ts]; [apply shrinks_abort|]. destruct t; try apply shrinks_abort.
  destruct ts as [|t ts]; [apply shrinks_abort|]. destruct t; try apply shrinks_abort.
  - destruct (expr0_shrinks c ts) as [H1 H2]. apply shrinks_bind; [exact H1|]. intros a r E. pose proof (H2 _ _ E).
    apply semi_shrinks. intros r' ->. apply shrinks_act. intros. apply shrinks_ok. simpl in *. lia.
  - destruct ts as [|t ts]; [apply shrinks_abort|]. destruct t; try apply shrinks_abort.
    assert (Hel : shrinks 1 (KKw s :: KColon :: KKw s0 :: ts)
       (pbind (p_props X (S (List.length ts)) c ts) (fun m r' => p_semi r' (fun r'' =>
        pact (s_elem X c s s0 m) (fun c' => POk c' r''))))).
    { destruct (props_shrinks (S (List.length ts)) c ts ltac:(lia)) as [H1 H2].
      apply shrinks_bind; [exact H1|]. intros a r E. pose proof (H2 _ _ E).
      apply semi_shrinks. intros r' ->. apply shrinks_act. intros. apply shrinks_ok. simpl in *. lia. }
    destruct ts as [|t ts]; [exact Hel|]. destruct t; try exact Hel.
    destruct ts as [|t ts]; [exact Hel|]. destruct t; try exact Hel.
    destruct (lines_shrinks (S (List.length ts)) c ts ltac:(lia)) as [H1 H2].
    apply shrinks_bind; [exact H1|]. intros a r E. pose proof (H2 _ _ E).
    destruct r as [|[] r]; try apply shrinks_abort.
    apply semi_shrinks. intros r' ->. apply shrinks_act. intros. apply shrinks_ok. simpl in *. lia.
  - apply shrinks_act. intros. apply shrinks_ok. simpl in *. lia.
  - destruct (expr0_shrinks c ts) as [H1 H2]. apply shrinks_bind; [exact H1|]. intros a r E. pose proof (H2 _ _ E).
    destruct r as [|[] r]; try apply shrinks_abort.
    apply semi_shrinks. intros r' ->. apply shrinks_act. intros. apply shrinks_ok. simpl in *. lia.
Qed.

Lemma file_fuel f c ts : List.length ts <= f -> p_file X f c ts <> PFuel /\ forall c' r, p_file X f c ts = POk c' r -> r = [].
Proof.
  revert c ts. induction f as [|f IH]; intros c ts Hf.
  - destruct ts; [|simpl in Hf; lia]. simpl. split; [discriminate|]. intros c' r E. congruence.
  - destruct ts as [|t ts]; [simpl; split; [discriminate|]; intros c' r E; congruence|].
    cbn [p_file]. destruct (entry_shrinks c (t :: ts)) as [H1 H2].
    destruct (p_entry X c (t :: ts)) as [c' r|b| |u|]; simpl; try (split; [discriminate|discriminate]); [|congruence].
    apply IH. pose proof (H2 _ _ eq_refl). simpl in *. lia.
Qed.
Lemma all_fuel c ts : p_all X c ts <> PFuel.
Proof. apply file_fuel. lia. Qed.
Lemma all_rest c ts c' r : p_all X c ts = POk c' r -> r = [].
Proof. apply file_fuel. lia. Qed.
End Fuel.

(** Unfolding equations *)
Section Unf.
Context {C A V L K : Type} (X : actions C A V L K).
Lemma p_ops_S f lvl c a ts : p_ops X (S f) lvl c a ts =
  match ts with
  | t :: r =>
      match binop_at lvl t with
      | Some o => pbind (p_expr X f (S lvl) c r) (fun b r' =>
                    pact (a_bin X c o a b) (fun x => p_ops X f lvl c x r'))
      | None => POk a ts
      end
  | [] => POk a ts
  end.
Proof. reflexivity. Qed.
Lemma p_vec_S f c ts : p_vec X (S f) c ts =
  match ts with
  | KRBrk :: _ => POk (v_nil X) ts
  | _ =>
      pbind (p_expr X f 0 c ts) (fun a r =>
        match r with
        | KComma :: r' => pbind (p_vec X f c r') (fun v r'' => pact (v_cons X a v) (fun w => POk w r''))
        | _ => pact (v_cons X a (v_nil X)) (fun w => POk w r)
        end)
  end.
Proof. reflexivity. Qed.
Lemma p_chain_S f lvl c ts : lvl <= 1 -> p_expr X (S f) lvl c ts =
  pbind (p_expr X f (S lvl) c ts) (fun a r => p_ops X f lvl c a r).
Proof. intros H. destruct lvl as [|[|lvl]]; [reflexivity|reflexivity|lia]. Qed.
Lemma p_operand_S f lvl c ts : p_expr X (S f) (S (S lvl)) c ts =
  match ts with
  | KNum x :: r => pact (a_num X x) (fun a => POk a r)
  | KStr s :: r => pact (a_str X s) (fun a => POk a r)
  | KMinus :: r =>
      pbind (p_expr X f 2 c r) (fun a r' => pact (a_un X c "-" a) (fun x => POk x r'))
  | KLPar :: r =>
      pbind (p_expr X f 0 c r) (fun a r' =>
        match r' with KRPar :: r'' => POk a r'' | _ => PAbort false end)
  | KLBrk :: r =>
      pbind (p_vec X f c r) (fun v r' =>
        match r' with KRBrk :: r'' => pact (a_vec X v) (fun a => POk a r'') | _ => PAbort false end)
  | KKw n :: KLPar :: r =>
      pbind (p_expr X f 0 c r) (fun a r' =>
        match r' with
        | KRPar :: r'' => pact (a_un X c n a) (fun x => POk x r'')
        | _ => PAbort false
        end)
  | KKw n :: r => pact (a_var X c n) (fun a => POk a r)
  | _ => PAbort false
  end.
Proof. reflexivity. Qed.
End Unf.

(** * Running the actions while parsing = building the tree, then evaluating it *)
Section Hom.
Context {C A V L K : Type} (X : actions C A V L K).

Fixpoint ev (c : C) (e : tree) : act A :=
  match e with
  | ANum x => a_num X x
  | AStr s => a_str X s
  | AVar n => a_var X c n
  | AVec l =>
      abind ((fix go l := match l with
                          | [] => AOk (v_nil X)
                          | e :: r => abind (ev c e) (fun a => abind (go r) (fun v => v_cons X a v))
                          end) l) (a_vec X)
  | ABin o a b => abind (ev c a) (fun x => abind (ev c b) (fun y => a_bin X c o x y))
  | ACall f a => abind (ev c a) (fun x => a_un X c f x)
  end.
Fixpoint evs (c : C) (l : list tree) : act V :=
  match l with
  | [] => AOk (v_nil X)
  | e :: r => abind (ev c e) (fun a => abind (evs c r) (fun v => v_cons X a v))
  end.
Lemma ev_vec c l : ev c (AVec l) = abind (evs c l) (a_vec X).
Proof.
  cbn [ev]. f_equal. induction l as [|e l IH]; [reflexivity|]. simpl. rewrite IH. reflexivity.
Qed.
Fixpoint evl (c : C) (l : list tree) : act L :=
  match l with
  | [] => AOk (l_nil X)
  | e :: r => abind (ev c e) (fun a => abind (evl c r) (fun v => l_cons X a v))
  end.
Fixpoint evk (c : C) (l : list (string * tree)) : act K :=
  match l with
  | [] => AOk (k_nil X)
  | (k, e) :: r => abind (ev c e) (fun a => abind (evk c r) (fun m => AOk (k_cons X k a m)))
  end.
Definition exec (c : C) (s : stmt) : act C :=
  match s with
  | SAssign n e => abind (ev c e) (s_assign X c n)
  | SElem n t l => abind (evk c l) (s_elem X c n t)
  | SLine n t l => abind (evl c l) (s_line X c n t)
  | SCall f e => abind (ev c e) (s_call X c f)
  | SCmd n => s_cmd X c n
  end.
Fixpoint execs (c : C) (p : list stmt) : act C :=
  match p with [] => AOk c | s :: r => abind (exec c s) (fun c' => execs c' r) end.

Definition lifts {B} (x : act B) (r : list token) (y : pres B) : Prop :=
  match x with
  | AOk a => y = POk a r | AFail => exists k, y = PAbort k | ABadGet => y = PBadGet | AUB u => y = PUB u
  end.
Definition notok {B} (y : pres B) : Prop :=
  match y with POk _ _ | PFuel => False | _ => True end.
Definition agrees {B D} (evf : D -> act B) (x : pres D) (y : pres B) : Prop :=
  match x with
  | POk e r => lifts (evf e) r y
  | PAbort _ => notok y
  | PFuel => True
  | PBadGet | PUB _ => False
  end.

Lemma notok_bind {B D} (x : pres B) (k : B -> list token -> pres D) : notok x -> notok (pbind x k).
Proof. destruct x; simpl; tauto. Qed.

Lemma lifts_bind {B D} (x : act B) r y (k : B -> act D) (k' : B -> list token -> pres D) r' :
  lifts x r y -> (forall a, x = AOk a -> lifts (k a) r' (k' a r)) ->
  lifts (abind x k) r' (pbind y k').
Proof.
  intros H Hk. destruct x as [a| | |u]; simpl in *.
  - subst y. simpl. auto.
  - destruct H as [b ->]. simpl. eauto.
  - subst y. reflexivity.
  - subst y. reflexivity.
Qed.
Lemma lifts_notok_bind {B D} (x : act B) r y (k' : B -> list token -> pres D) :
  lifts x r y -> (forall a, x = AOk a -> notok (k' a r)) -> notok (pbind y k').
Proof.
  intros H Hk. destruct x as [a| | |u]; simpl in *.
  - subst y. simpl. auto.
  - destruct H as [b ->]. simpl. auto.
  - subst y. exact I.
  - subst y. exact I.
Qed.
Lemma lifts_act {B D} (x : act B) r (k : B -> act D) (k' : B -> pres D) :
  (forall a, x = AOk a -> lifts (k a) r (k' a)) -> lifts (abind x k) r (pact x k').
Proof. intros H. destruct x as [a| | |u]; simpl; eauto. Qed.
Lemma lifts_pact {B} (x : act B) r : lifts x r (pact x (fun a => POk a r)).
Proof. destruct x as [a| | |u]; simpl; eauto. Qed.

(** The generic case of a rule: a sub-expression, then the rest. *)
Lemma agrees_bind {B D B' D'} (evf : D -> act B) (evf' : D' -> act B')
   (x : pres D) (y : pres B) (k : D -> list token -> pres D') (k' : B -> list token -> pres B') :
  agrees evf x y ->
  (forall e r a, x = POk e r -> evf e = AOk a -> agrees evf' (k e r) (k' a r)) ->
  (forall e r e' r', x = POk e r -> k e r = POk e' r' ->
     match evf e with
     | AOk _ => True
     | AFail => evf' e' = AFail | ABadGet => evf' e' = ABadGet | AUB u => evf' e' = AUB u
     end) ->
  (forall e r, x = POk e r -> match k e r with PBadGet | PUB _ => False | _ => True end) ->
  agrees evf' (pbind x k) (pbind y k').
Proof.
  intros H Hk Hf Hn. destruct x as [e r|b| |u|]; simpl in *; auto; [|apply notok_bind; exact H].
  specialize (Hk e r). specialize (Hf e r). specialize (Hn e r eq_refl).
  destruct (evf e) as [a| | |u]; simpl in H.
  - subst y. simpl. apply Hk; reflexivity.
  - destruct H as [b ->]. simpl. unfold agrees.
    destruct (k e r) as [e' r'|b'| |u'|]; simpl; auto.
    rewrite (Hf _ _ eq_refl eq_refl). simpl. eauto.
  - subst y. simpl. unfold agrees.
    destruct (k e r) as [e' r'|b'| |u'|]; simpl; auto.
    rewrite (Hf _ _ eq_refl eq_refl). reflexivity.
  - subst y. simpl. unfold agrees.
    destruct (k e r) as [e' r'|b'| |u'|]; simpl; auto.
    rewrite (Hf _ _ eq_refl eq_refl). reflexivity.
Qed.

(** The tree-building parser never fails in an action. *)
Definition clean {B} (x : pres B) : Prop := match x with PBadGet | PUB _ => False | _ => True end.
Lemma clean_bind {B D} (x : pres B) (k : B -> list token -> pres D) :
  clean x -> (forall a r, clean (k a r)) -> clean (pbind x k).
Proof. destruct x; simpl; auto. Qed.
Lemma ast_clean f :
  (forall lvl c ts, clean (p_expr ast f lvl c ts)) /\
  (forall lvl c a ts, clean (p_ops ast f lvl c a ts)) /\
  (forall c ts, clean (p_vec ast f c ts)).
Proof.
  induction f as [|f (IHe & IHo & IHv)]; [repeat split; simpl; auto|]. split; [|split].
  - intros lvl c ts. destruct lvl as [|[|lvl]]; [rewrite p_chain_S by lia; apply clean_bind; auto|rewrite p_chain_S by lia; apply clean_bind; auto|]. rewrite p_operand_S.
    destruct ts as [|t ts]; [exact I|]. destruct t; try exact I.
    + destruct ts as [|t2 ts]; [exact I|]. destruct t2; try exact I. apply clean_bind; auto.
      intros a [|[] r]; exact I.
    + apply clean_bind; auto. intros a [|[] r]; exact I.
    + apply clean_bind; auto. intros a [|[] r]; exact I.
    + apply clean_bind; auto. intros a r; exact I.
  - intros lvl c a ts. rewrite ?p_ops_S. destruct ts as [|t ts]; [exact I|]. destruct (binop_at lvl t); [|exact I].
    apply clean_bind; auto. intros b r. simpl. auto.
  - intros c ts. rewrite ?p_vec_S.
    assert (H : clean (pbind (p_expr ast f 0 c ts) (fun a r =>
            match r with
            | KComma :: r' => pbind (p_vec ast f c r') (fun v r'' => pact (v_cons ast a v) (fun w => POk w r''))
            | _ => pact (v_cons ast a (v_nil ast)) (fun w => POk w r)
            end))).
    { apply clean_bind; auto. intros a r. destruct r as [|t r]; [exact I|]. destruct t; try exact I.
      apply clean_bind; auto. intros b r'. exact I. }
    destruct ts as [|t ts]; [exact H|]. destruct t; try exact H. exact I.
Qed.

(** A failing left operand makes the whole chain fail. *)
Lemma ops_fail f : forall lvl c cA a ts e r, p_ops ast f lvl cA a ts = POk e r ->
  match ev c a with
  | AOk _ => True | AFail => ev c e = AFail | ABadGet => ev c e = ABadGet | AUB u => ev c e = AUB u
  end.
Proof.
  induction f as [|f IH]; intros lvl c cA a ts e r H; [discriminate|]. rewrite p_ops_S in H.
  destruct ts as [|t ts].
  { injection H as <- <-. destruct (ev c a); auto. }
  destruct (binop_at lvl t) as [o|].
  2:{ injection H as <- <-. destruct (ev c a); auto. }
  destruct (p_expr ast f (S lvl) cA ts) as [b r'|k| |u|]; simpl in H; try discriminate.
  pose proof (IH _ c _ _ _ _ _ H) as IH'. cbn [ev] in IH'. destruct (ev c a); simpl in IH'; auto.
Qed.

Lemma expr_hom f :
  (forall lvl cA c ts, agrees (ev c) (p_expr ast f lvl cA ts) (p_expr X f lvl c ts)) /\
  (forall lvl cA c eA a ts, ev c eA = AOk a -> agrees (ev c) (p_ops ast f lvl cA eA ts) (p_ops X f lvl c a ts)) /\
  (forall cA c ts, agrees (evs c) (p_vec ast f cA ts) (p_vec X f c ts)).
Proof.
  induction f as [|f (IHe & IHo & IHv)]; [repeat split; simpl; auto|].
  destruct (ast_clean f) as (CE & CO & CV). split; [|split].
  - intros lvl cA c ts.
    assert (Hchain : forall l, agrees (ev c) (pbind (p_expr ast f (S l) cA ts) (fun a r => p_ops ast f l cA a r))
                         (pbind (p_expr X f (S l) c ts) (fun a r => p_ops X f l c a r))).
    { intros l. apply agrees_bind with (evf := ev c); auto.
      intros e r e' r' _ H. eapply ops_fail; eauto. intros. apply CO. }
    assert (Hcall : forall n ts', agrees (ev c)
       (pbind (p_expr ast f 0 cA ts') (fun a r' =>
          match r' with KRPar :: r'' => pact (a_un ast cA n a) (fun x => POk x r'') | _ => PAbort false end))
       (pbind (p_expr X f 0 c ts') (fun a r' =>
          match r' with KRPar :: r'' => pact (a_un X c n a) (fun x => POk x r'') | _ => PAbort false end))).
    { intros n ts'. apply agrees_bind with (evf := ev c); auto.
      - intros e r a _ Ha. destruct r as [|[] r]; try exact I. simpl. rewrite Ha. simpl. apply lifts_pact.
      - intros e r e' r' _ H. destruct r as [|[] r]; try discriminate. simpl in H. injection H as <- <-.
        simpl. destruct (ev c e); simpl; auto.
      - intros e r _. destruct r as [|[] r]; exact I. }
    destruct lvl as [|[|lvl]]; [rewrite !p_chain_S by lia; apply Hchain|rewrite !p_chain_S by lia; apply Hchain|]. rewrite !p_operand_S.
    destruct ts as [|t ts]; [exact I|]. destruct t; try exact I.
    + destruct ts as [|t2 ts]; [simpl; apply lifts_pact|].
      destruct t2; try (simpl; apply lifts_pact). apply Hcall.
    + simpl. apply lifts_pact.
    + simpl. apply lifts_pact.
    + apply agrees_bind with (evf := ev c); auto.
      * intros e r a _ Ha. destruct r as [|[] r]; try exact I. simpl. rewrite Ha. reflexivity.
      * intros e r e' r' _ H. destruct r as [|[] r]; try discriminate. injection H as <- <-. destruct (ev c e); auto.
      * intros e r _. destruct r as [|[] r]; exact I.
    + apply agrees_bind with (evf := evs c); auto.
      * intros e r a _ Ha. destruct r as [|[] r]; try exact I. cbn [agrees pact ast a_vec].
        rewrite ev_vec, Ha. simpl. apply lifts_pact.
      * intros e r e' r' _ H. destruct r as [|[] r]; try discriminate. cbn [ast pact a_vec] in H.
        injection H as <- <-. rewrite ev_vec. destruct (evs c e); simpl; auto.
      * intros e r _. destruct r as [|[] r]; exact I.
    + apply agrees_bind with (evf := ev c); auto.
      * intros e r a _ Ha. simpl. rewrite Ha. simpl. apply lifts_pact.
      * intros e r e' r' _ H. simpl in H. injection H as <- <-. simpl. destruct (ev c e); simpl; auto.
      * intros e r _. exact I.
  - intros lvl cA c eA a ts Ha. rewrite ?p_ops_S.
    destruct ts as [|t ts]; [simpl; rewrite Ha; reflexivity|].
    destruct (binop_at lvl t) as [o|]; [|simpl; rewrite Ha; reflexivity].
    apply agrees_bind with (evf := ev c); auto.
    + intros e r b _ Hb. cbn [ast a_bin pact].
      assert (Hev : ev c (ABin o eA e) = a_bin X c o a b) by (simpl; rewrite Ha, Hb; reflexivity).
      destruct (a_bin X c o a b) as [x| | |u] eqn:Ex; simpl pact.
      * apply IHo. exact Hev.
      * destruct (p_ops ast f lvl cA (ABin o eA e) r) as [e' r'|k| |u|] eqn:R; simpl; auto.
        -- apply (ops_fail f lvl c) in R. rewrite Hev in R. rewrite R. simpl. eauto.
        -- pose proof (CO lvl cA (ABin o eA e) r) as Q. rewrite R in Q. exact Q.
        -- pose proof (CO lvl cA (ABin o eA e) r) as Q. rewrite R in Q. exact Q.
      * destruct (p_ops ast f lvl cA (ABin o eA e) r) as [e' r'|k| |u|] eqn:R; simpl; auto.
        -- apply (ops_fail f lvl c) in R. rewrite Hev in R. rewrite R. reflexivity.
        -- pose proof (CO lvl cA (ABin o eA e) r) as Q. rewrite R in Q. exact Q.
        -- pose proof (CO lvl cA (ABin o eA e) r) as Q. rewrite R in Q. exact Q.
      * destruct (p_ops ast f lvl cA (ABin o eA e) r) as [e' r'|k| |u'|] eqn:R; simpl; auto.
        -- apply (ops_fail f lvl c) in R. rewrite Hev in R. rewrite R. reflexivity.
        -- pose proof (CO lvl cA (ABin o eA e) r) as Q. rewrite R in Q. exact Q.
        -- pose proof (CO lvl cA (ABin o eA e) r) as Q. rewrite R in Q. exact Q.
    + intros e r e' r' _ H. cbn [ast a_bin pact] in H. apply (ops_fail f lvl c) in H. cbn [ev] in H.
      rewrite Ha in H. simpl in H. destruct (ev c e); simpl in H; auto.
    + intros e r _. cbn [ast a_bin pact]. apply CO.
  - intros cA c ts. rewrite ?p_vec_S.
    assert (Hg : agrees (evs c)
       (pbind (p_expr ast f 0 cA ts) (fun a r =>
            match r with
            | KComma :: r' => pbind (p_vec ast f cA r') (fun v r'' => pact (v_cons ast a v) (fun w => POk w r''))
            | _ => pact (v_cons ast a (v_nil ast)) (fun w => POk w r)
            end))
       (pbind (p_expr X f 0 c ts) (fun a r =>
            match r with
            | KComma :: r' => pbind (p_vec X f c r') (fun v r'' => pact (v_cons X a v) (fun w => POk w r''))
            | _ => pact (v_cons X a (v_nil X)) (fun w => POk w r)
            end))).
    { apply agrees_bind with (evf := ev c); auto.
      - intros e r a _ Ha.
        assert (Hd : agrees (evs c) (pact (v_cons ast e (v_nil ast)) (fun w => POk w r))
                       (pact (v_cons X a (v_nil X)) (fun w => POk w r))).
        { simpl. rewrite Ha. simpl. apply lifts_pact. }
        destruct r as [|t r]; [exact Hd|]. destruct t; try exact Hd.
        apply agrees_bind with (evf := evs c); auto.
        + intros l r' v _ Hv. simpl. rewrite Ha, Hv. simpl. apply lifts_pact.
        + intros l r' l' r'' _ H. simpl in H. injection H as <- <-. simpl. rewrite Ha. simpl. destruct (evs c l); simpl; auto.
        + intros l r' _. exact I.
      - intros e r l r' _ H. assert (exists l', l = e :: l') as [l' ->].
        { destruct r as [|t r]; [simpl in H; injection H as <- <-; eauto|].
          destruct t; try (simpl in H; injection H as <- <-; eauto).
          destruct (p_vec ast f cA r) as [v rr|k| |u|]; simpl in H; try discriminate. injection H as <- <-. eauto. }
        simpl. destruct (ev c e); simpl; auto.
      - intros e r _. destruct r as [|t r]; [exact I|]. destruct t; try exact I.
        pose proof (CV cA r) as Q. destruct (p_vec ast f cA r); simpl; auto. }
    destruct ts as [|t ts]; [exact Hg|]. destruct t; try exact Hg. reflexivity.
Qed.

Lemma expr0_hom cA c ts : agrees (ev c) (p_expr0 ast cA ts) (p_expr0 X c ts).
Proof. apply expr_hom. Qed.
Lemma expr0_clean cA ts : clean (p_expr0 ast cA ts).
Proof. apply ast_clean. Qed.

Lemma lines_clean f c ts : clean (p_lines ast f c ts).
Proof.
  revert ts. induction f as [|f IH]; intros ts; [exact I|]. cbn [p_lines].
  assert (H : clean (pbind (p_expr0 ast c ts) (fun a r =>
            match r with
            | KComma :: r' => pbind (p_lines ast f c r') (fun v r'' => pact (l_cons ast a v) (fun w => POk w r''))
            | _ => pact (l_cons ast a (l_nil ast)) (fun w => POk w r)
            end))).
  { apply clean_bind; [apply expr0_clean|]. intros a r. destruct r as [|t r]; [exact I|]. destruct t; try exact I.
    apply clean_bind; auto. intros b r'. exact I. }
  destruct ts as [|t ts]; [exact H|]. destruct t; try exact H. exact I.
Qed.

Lemma lines_hom f cA c ts : agrees (evl c) (p_lines ast f cA ts) (p_lines X f c ts).
Proof.
  revert ts. induction f as [|f IH]; intros ts; [exact I|]. cbn [p_lines].
  assert (Hg : agrees (evl c)
       (pbind (p_expr0 ast cA ts) (fun a r =>
            match r with
            | KComma :: r' => pbind (p_lines ast f cA r') (fun v r'' => pact (l_cons ast a v) (fun w => POk w r''))
            | _ => pact (l_cons ast a (l_nil ast)) (fun w => POk w r)
            end))
       (pbind (p_expr0 X c ts) (fun a r =>
            match r with
            | KComma :: r' => pbind (p_lines X f c r') (fun v r'' => pact (l_cons X a v) (fun w => POk w r''))
            | _ => pact (l_cons X a (l_nil X)) (fun w => POk w r)
            end))).
  { apply agrees_bind with (evf := ev c); [apply expr0_hom|..].
    - intros e r a _ Ha.
      assert (Hd : agrees (evl c) (pact (l_cons ast e (l_nil ast)) (fun w => POk w r))
                     (pact (l_cons X a (l_nil X)) (fun w => POk w r))).
      { simpl. rewrite Ha. simpl. apply lifts_pact. }
      destruct r as [|t r]; [exact Hd|]. destruct t; try exact Hd.
      apply agrees_bind with (evf := evl c); auto.
      + intros l r' v _ Hv. simpl. rewrite Ha, Hv. simpl. apply lifts_pact.
      + intros l r' l' r'' _ H. simpl in H. injection H as <- <-. simpl. rewrite Ha. simpl. destruct (evl c l); simpl; auto.
      + intros l r' _. exact I.
    - intros e r l r' _ H. assert (exists l', l = e :: l') as [l' ->].
      { destruct r as [|t r]; [simpl in H; injection H as <- <-; eauto|].
        destruct t; try (simpl in H; injection H as <- <-; eauto).
        destruct (p_lines ast f cA r) as [v rr|k| |u|]; simpl in H; try discriminate. injection H as <- <-. eauto. }
      simpl. destruct (ev c e); simpl; auto.
    - intros e r _. destruct r as [|t r]; [exact I|]. destruct t; try exact I.
      pose proof (lines_clean f cA r) as Q. destruct (p_lines ast f cA r); simpl; auto. }
  destruct ts as [|t ts]; [exact Hg|]. destruct t; try exact Hg. reflexivity.
Qed.

Lemma props_clean f c ts : clean (p_props ast f c ts).
Proof.
  revert ts. induction f as [|f IH]; intros ts; [exact I|]. cbn [p_props].
  destruct ts as [|t ts]; [exact I|]. destruct t; try exact I.
  destruct ts as [|t ts]; [exact I|]. destruct t; try exact I.
  destruct ts as [|t ts]; [exact I|]. destruct t; try exact I.
  apply clean_bind; [apply expr0_clean|]. intros a r. pose proof (IH r) as Q.
  destruct (p_props ast f c r); simpl in *; auto.
Qed.

Lemma props_hom f cA c ts : agrees (evk c) (p_props ast f cA ts) (p_props X f c ts).
Proof.
  revert ts. induction f as [|f IH]; intros ts; [exact I|]. cbn [p_props].
  destruct ts as [|t ts]; [reflexivity|]. destruct t; try reflexivity.
  destruct ts as [|t ts]; [exact I|]. destruct t; try exact I.
  destruct ts as [|t ts]; [exact I|]. destruct t; try exact I.
  apply agrees_bind with (evf := ev c); [apply expr0_hom|..].
  - intros e r a _ Ha. pose proof (IH r) as Q.
    destruct (p_props ast f cA r) as [m r'|k| |u|]; simpl in Q |- *; auto.
    + rewrite Ha. simpl. destruct (evk c m) as [m'| | |u]; simpl in *.
      * rewrite Q. reflexivity.
      * destruct Q as [k ->]. eauto.
      * rewrite Q. reflexivity.
      * rewrite Q. reflexivity.
    + destruct (p_props X f c r); simpl in *; auto.
  - intros e r m r' _ H. assert (exists m', m = (s, e) :: m') as [m' ->].
    { destruct (p_props ast f cA r) as [v rr|k| |u|]; simpl in H; try discriminate. injection H as <- <-. eauto. }
    simpl. destruct (ev c e); simpl; auto.
  - intros e r _. pose proof (props_clean f cA r) as Q. destruct (p_props ast f cA r); simpl in *; auto.
Qed.

(** Statements *)
Definition agrees1 (p : list stmt) (c : C) (x : pres (list stmt)) (y : pres C) : Prop :=
  match x with
  | POk p' r => exists s, p' = p ++ [s] /\ lifts (exec c s) r y
  | PAbort _ => notok y
  | _ => False
  end.

Lemma agrees1_bind {B D} (evf : D -> act B) p c (x : pres D) (y : pres B)
   (k : D -> list token -> pres (list stmt)) (k' : B -> list token -> pres C) (mk : D -> stmt) (fin : B -> act C) :
  agrees evf x y -> x <> PFuel ->
  (forall e, exec c (mk e) = abind (evf e) fin) ->
  (forall e r, k e r = PAbort false /\ (forall a, k' a r = PAbort false) \/
     exists r', k e r = POk (p ++ [mk e]) r' /\ (forall a, k' a r = pact (fin a) (fun c' => POk c' r'))) ->
  agrees1 p c (pbind x k) (pbind y k').
Proof.
  intros H Hf Hex Hk. destruct x as [e r|b| |u|]; simpl in *; auto; [|apply notok_bind; exact H].
  destruct (Hk e r) as [(E1 & E2)|(r' & E1 & E2)]; rewrite E1; simpl.
  - eapply lifts_notok_bind; [exact H|]. intros a _. rewrite E2. exact I.
  - exists (mk e). split; [reflexivity|]. rewrite Hex.
    apply lifts_bind with (r := r); [exact H|]. intros a _. rewrite E2. apply lifts_pact.
Qed.

Lemma entry_hom p c ts : agrees1 p c (p_entry ast p ts) (p_entry X c ts).
Proof.
  unfold p_entry.
  destruct ts as [|t ts]; [exact I|]. destruct t; try exact I.
  destruct ts as [|t ts]; [exact I|]. destruct t; try exact I.
  - apply agrees1_bind with (evf := ev c) (mk := SAssign s) (fin := s_assign X c s);
      [apply expr0_hom|apply expr0_shrinks|reflexivity|].
    intros e r. unfold p_semi. destruct r as [|[] r]; try (left; split; reflexivity).
    right. exists r. split; reflexivity.
  - destruct ts as [|t ts]; [exact I|]. destruct t; try exact I.
    assert (Hel : agrees1 p c
       (pbind (p_props ast (S (List.length ts)) p ts) (fun m r' => p_semi r' (fun r'' =>
        pact (s_elem ast p s s0 m) (fun c' => POk c' r''))))
       (pbind (p_props X (S (List.length ts)) c ts) (fun m r' => p_semi r' (fun r'' =>
        pact (s_elem X c s s0 m) (fun c' => POk c' r''))))).
    { apply agrees1_bind with (evf := evk c) (mk := SElem s s0) (fin := s_elem X c s s0);
        [apply props_hom|apply props_shrinks; lia|reflexivity|].
      intros e r. unfold p_semi. destruct r as [|[] r]; try (left; split; reflexivity).
      right. exists r. split; reflexivity. }
    destruct ts as [|t ts]; [exact Hel|]. destruct t; try exact Hel.
    destruct ts as [|t ts]; [exact Hel|]. destruct t; try exact Hel.
    apply agrees1_bind with (evf := evl c) (mk := SLine s s0) (fin := s_line X c s s0);
        [apply lines_hom|apply lines_shrinks; lia|reflexivity|].
    intros e r. unfold p_semi. destruct r as [|[] r]; try (left; split; reflexivity).
    destruct r as [|[] r]; try (left; split; reflexivity).
    right. exists r. split; reflexivity.
  - simpl. exists (SCmd s). split; [reflexivity|]. apply lifts_pact.
  - apply agrees1_bind with (evf := ev c) (mk := SCall s) (fin := s_call X c s);
      [apply expr0_hom|apply expr0_shrinks|reflexivity|].
    intros e r. unfold p_semi. destruct r as [|[] r]; try (left; split; reflexivity).
    destruct r as [|[] r]; try (left; split; reflexivity).
    right. exists r. split; reflexivity.
Qed.

Lemma file_hom f : forall p c ts, List.length ts <= f ->
  match p_file ast f p ts with
  | POk p' r => r = [] /\ exists q, p' = p ++ q /\ lifts (execs c q) [] (p_file X f c ts)
  | PAbort _ => notok (p_file X f c ts)
  | _ => False
  end.
Proof.
  induction f as [|f IH]; intros p c ts Hf.
  - destruct ts; [|simpl in Hf; lia]. simpl. split; [reflexivity|]. exists []. rewrite app_nil_r. split; reflexivity.
  - destruct ts as [|t ts].
    { simpl. split; [reflexivity|]. exists []. rewrite app_nil_r. split; reflexivity. }
    cbn [p_file]. pose proof (entry_hom p c (t :: ts)) as H.
    destruct (entry_shrinks ast p (t :: ts)) as [_ Hsh].
    destruct (entry_shrinks X c (t :: ts)) as [Hnf _].
    destruct (p_entry ast p (t :: ts)) as [p1 r|k| |u|]; simpl in H; try destruct H.
    + rename x into s. destruct H as [-> Hl]. simpl. specialize (Hsh _ _ eq_refl).
      assert (Hlen : List.length r <= f) by (simpl in *; lia).
      destruct (exec c s) as [c'| | |u] eqn:Ex; simpl in Hl.
      * rewrite Hl. simpl. specialize (IH (p ++ [s]) c' r Hlen).
        destruct (p_file ast f (p ++ [s]) r) as [p2 r2|k| |u|]; auto.
        destruct IH as [-> (q & -> & Hq)]. split; [reflexivity|]. exists (s :: q). split; [rewrite <- app_assoc; reflexivity|].
        simpl. rewrite Ex. exact Hq.
      * destruct Hl as [k ->]. simpl. specialize (IH (p ++ [s]) c r Hlen).
        destruct (p_file ast f (p ++ [s]) r) as [p2 r2|k'| |u|]; auto.
        destruct IH as [-> (q & -> & Hq)]. split; [reflexivity|]. exists (s :: q). split; [rewrite <- app_assoc; reflexivity|].
        simpl. rewrite Ex. simpl. eauto.
      * rewrite Hl. simpl. specialize (IH (p ++ [s]) c r Hlen).
        destruct (p_file ast f (p ++ [s]) r) as [p2 r2|k'| |u|]; auto.
        destruct IH as [-> (q & -> & Hq)]. split; [reflexivity|]. exists (s :: q). split; [rewrite <- app_assoc; reflexivity|].
        simpl. rewrite Ex. reflexivity.
      * rewrite Hl. simpl. specialize (IH (p ++ [s]) c r Hlen).
        destruct (p_file ast f (p ++ [s]) r) as [p2 r2|k'| |u'|]; auto.
        destruct IH as [-> (q & -> & Hq)]. split; [reflexivity|]. exists (s :: q). split; [rewrite <- app_assoc; reflexivity|].
        simpl. rewrite Ex. reflexivity.
    + simpl. apply notok_bind. exact H.
Qed.

Lemma all_hom c ts :
  match tree_of ts with
  | POk p r => r = [] /\ lifts (execs c p) [] (p_all X c ts)
  | PAbort _ => notok (p_all X c ts)
  | _ => False
  end.
Proof.
  unfold tree_of, p_all. pose proof (file_hom (List.length ts) [] c ts (Nat.le_refl _)) as H.
  destruct (p_file ast _ [] ts) as [p r|k| |u|]; auto. destruct H as [-> (q & -> & Hq)]. auto.
Qed.
End Hom.
