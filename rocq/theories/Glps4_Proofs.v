(** No action reads a value at a wrong type or indexes outside a table. *)
From Coq Require Import List String Ascii Bool ZArith Lia Arith.
From Verif Require Import SMap SMap_Proofs Dbl Config_Model Config_Spec Lexer_Model Glps_Model Glps_Spec
  Glps_Proofs Glps2_Proofs Glps3_Proofs.
Import ListNotations.
Open Scope string_scope.
Open Scope list_scope.

Definition asat {A} (T : A -> Prop) (x : act A) : Prop :=
  match x with AOk a => T a | AFail | AUB UBCast => True | _ => False end.
Definition psat {A} (T : A -> Prop) (x : pres A) : Prop :=
  match x with POk a _ => T a | PAbort _ | PUB UBCast | PFuel => True | _ => False end.

Lemma psat_bind {A B} (T : A -> Prop) (U : B -> Prop) x (k : A -> list token -> pres B) :
  psat T x -> (forall a r, T a -> psat U (k a r)) -> psat U (pbind x k).
Proof. destruct x; simpl; auto. Qed.
Lemma psat_act {A B} (T : A -> Prop) (U : B -> Prop) x (k : A -> pres B) :
  asat T x -> (forall a, T a -> psat U (k a)) -> psat U (pact x k).
Proof. destruct x; simpl; auto. Qed.
Lemma failish_sat {A} (T : A -> Prop) x : failish x -> asat T x.
Proof. intros [->| ->]; exact I. Qed.

Section Safe.
Variables (w : world) (c : pctx) (env : senv).
Hypothesis R : Rel c env.
Definition good (e : expr) : Prop := exists v, e = inj v.

Lemma match_sat o (x : act expr) : matches_opt inj o x -> asat good x.
Proof. destruct o; simpl; [intros ->; simpl; unfold good; eauto|apply failish_sat]. Qed.
Lemma bin_sat o a b : good a -> good b -> asat good (add_op w o [a; b]).
Proof. intros [v ->] [u ->]. eapply match_sat. apply op2_spec. Qed.
Lemma un_sat f a : good a -> asat good (add_op w f [a]).
Proof. intros [v ->]. eapply match_sat. apply op1_spec. Qed.
Lemma var_sat n : asat good (add_var c n).
Proof. eapply match_sat. apply var_spec. exact R. Qed.
Lemma vec_sat a v : good a -> asat (fun _ => True) (append_vector a v).
Proof. intros [x ->]. destruct x; exact I. Qed.
Lemma line_sat a v : good a -> asat (fun _ => True) (append_expr a v).
Proof. intros [x ->]. destruct x; exact I. Qed.

Lemma expr_sat f :
  (forall lvl ts, psat good (p_expr (glps w) f lvl c ts)) /\
  (forall lvl a ts, good a -> psat good (p_ops (glps w) f lvl c a ts)) /\
  (forall ts, psat (fun _ => True) (p_vec (glps w) f c ts)).
Proof.
  assert (HN : forall x, good (mkExpr ENumber (XNum x))) by (intros x; exists (SvNum x); reflexivity).
  assert (HS : forall x, good (mkExpr EString (XStr x))) by (intros x; exists (SvStr x); reflexivity).
  assert (HV : forall x, good (mkExpr EVector (XVec x))) by (intros x; exists (SvVec x); reflexivity).
  induction f as [|f (IHe & IHo & IHv)]; [repeat split; simpl; auto|]. split; [|split].
  - intros lvl ts. destruct lvl as [|[|lvl]].
    + rewrite p_chain_S by lia. eapply psat_bind; [apply IHe|]. auto.
    + rewrite p_chain_S by lia. eapply psat_bind; [apply IHe|]. auto.
    + rewrite p_operand_S. destruct ts as [|t ts]; [exact I|]. destruct t; try exact I.
      * destruct ts as [|t2 ts]; [eapply psat_act; [apply var_sat|simpl; auto]|].
        destruct t2; try (eapply psat_act; [apply var_sat|simpl; auto]).
        eapply psat_bind; [apply IHe|]. intros a r Ha. destruct r as [|[] r]; try exact I.
        eapply psat_act; [apply un_sat; exact Ha|]. simpl. auto.
      * simpl. auto.
      * simpl. auto.
      * eapply psat_bind; [apply IHe|]. intros a r Ha. destruct r as [|[] r]; try exact I. exact Ha.
      * eapply psat_bind; [apply IHv|]. intros a r Ha. destruct r as [|[] r]; try exact I. simpl. auto.
      * eapply psat_bind; [apply IHe|]. intros a r Ha. eapply psat_act; [apply un_sat; exact Ha|]. simpl. auto.
  - intros lvl a ts Ha. rewrite p_ops_S. destruct ts as [|t ts]; [exact Ha|]. destruct (binop_at lvl t); [|exact Ha].
    eapply psat_bind; [apply IHe|]. intros b r Hb. eapply psat_act; [apply bin_sat; eauto|]. auto.
  - intros ts. rewrite p_vec_S.
    assert (H : psat (fun _ => True) (pbind (p_expr (glps w) f 0 c ts) (fun a r =>
            match r with
            | KComma :: r' => pbind (p_vec (glps w) f c r') (fun v r'' => pact (v_cons (glps w) a v) (fun w => POk w r''))
            | _ => pact (v_cons (glps w) a (v_nil (glps w))) (fun w => POk w r)
            end))).
    { eapply psat_bind; [apply IHe|]. intros a r Ha.
      assert (H : psat (fun _ => True) (pact (v_cons (glps w) a (v_nil (glps w))) (fun w => POk w r))).
      { eapply psat_act; [apply vec_sat; exact Ha|]. simpl. auto. }
      destruct r as [|[] r]; try exact H.
      eapply psat_bind; [apply IHv|]. intros v r' _. eapply psat_act; [apply vec_sat; exact Ha|]. simpl. auto. }
    destruct ts as [|[] ts]; try exact H. exact I.
Qed.
Lemma expr0_sat ts : psat good (p_expr0 (glps w) c ts).
Proof. apply expr_sat. Qed.
Lemma lines_sat f : forall ts, psat (fun _ => True) (p_lines (glps w) f c ts).
Proof.
  induction f as [|f IH]; intros ts; [exact I|]. cbn [p_lines].
  assert (H : psat (fun _ => True) (pbind (p_expr0 (glps w) c ts) (fun a r =>
            match r with
            | KComma :: r' => pbind (p_lines (glps w) f c r') (fun v r'' => pact (l_cons (glps w) a v) (fun w => POk w r''))
            | _ => pact (l_cons (glps w) a (l_nil (glps w))) (fun w => POk w r)
            end))).
  { eapply psat_bind; [apply expr0_sat|]. intros a r Ha.
    assert (H : psat (fun _ => True) (pact (l_cons (glps w) a (l_nil (glps w))) (fun w => POk w r))).
    { eapply psat_act; [apply line_sat; exact Ha|]. simpl. auto. }
    destruct r as [|[] r]; try exact H.
    eapply psat_bind; [apply IH|]. intros v r' _. eapply psat_act; [apply line_sat; exact Ha|]. simpl. auto. }
  destruct ts as [|[] ts]; try exact H. exact I.
Qed.
Lemma props_sat f : forall ts, psat (fun _ => True) (p_props (glps w) f c ts).
Proof.
  induction f as [|f IH]; intros ts; [exact I|]. cbn [p_props].
  destruct ts as [|[] ts]; try exact I. destruct ts as [|[] ts]; try exact I. destruct ts as [|[] ts]; try exact I.
  eapply psat_bind; [apply expr0_sat|]. intros a r Ha. specialize (IH r).
  destruct (p_props (glps w) f c r) as [m r'|k| |u|]; simpl in *; auto.
Qed.
Lemma semi_sat {B} (T : B -> Prop) ts k : (forall r, psat T (k r)) -> psat T (p_semi ts k).
Proof. intros H. unfold p_semi. destruct ts as [|[] ts]; try exact I. apply H. Qed.

Lemma entry_sat ts : psat (fun _ => True) (p_entry (glps w) c ts).
Proof.
  unfold p_entry. destruct ts as [|[] ts]; try exact I. destruct ts as [|[] ts]; try exact I.
  - eapply psat_bind; [apply expr0_sat|]. intros a r Ha. apply semi_sat. intros r'. exact I.
  - destruct ts as [|[] ts]; try exact I.
    assert (H : psat (fun _ => True) (pbind (p_props (glps w) (S (List.length ts)) c ts) (fun m r' => p_semi r' (fun r'' =>
        pact (s_elem (glps w) c s s0 m) (fun c' => POk c' r''))))).
    { eapply psat_bind; [apply props_sat|]. intros a r Ha. apply semi_sat. intros r'. exact I. }
    destruct ts as [|[] ts]; try exact H. destruct ts as [|[] ts]; try exact H.
    eapply psat_bind; [apply lines_sat|]. intros a r Ha. destruct r as [|[] r]; try exact I.
    apply semi_sat. intros r'. exact I.
  - eapply psat_bind; [apply expr0_sat|]. intros a r [v ->]. destruct r as [|[] r]; try exact I.
    apply semi_sat. intros r'. simpl. unfold call1. destruct (negb _); [exact I|]. destruct v; exact I.
Qed.
End Safe.

Lemma entry_rel w c env ts : Rel c env -> psat (fun c' => exists env', Rel c' env') (p_entry (glps w) c ts).
Proof.
  intros R. pose proof (entry_sat w c env R ts) as S. pose proof (entry_hom (glps w) [] c ts) as H.
  destruct (p_entry (glps w) c ts) as [c' r|k| |u|] eqn:E; simpl in S |- *; auto.
  destruct (p_entry ast [] ts) as [p r'|k| |u|]; simpl in H; try contradiction.
  destruct H as (s & _ & H). pose proof (exec_spec w c env s R) as X.
  destruct (exec (glps w) c s) as [c''| | |u]; simpl in H; try congruence; try (destruct H; congruence).
  injection H as <- <-. destruct (sexec w env s) as [env'|]; simpl in X.
  - destruct X as (c2 & E2 & R2 & _). injection E2 as <-. eauto.
  - destruct X as [[X|X]|(c2 & E2 & R2 & _)]; try discriminate. injection E2 as <-. eauto.
Qed.

Lemma file_rel w f : forall c env ts, Rel c env -> psat (fun c' => exists env', Rel c' env') (p_file (glps w) f c ts).
Proof.
  induction f as [|f IH]; intros c env ts R.
  - destruct ts; simpl; eauto.
  - destruct ts as [|t ts]; [simpl; eauto|]. cbn [p_file].
    eapply psat_bind; [eapply entry_rel; exact R|]. intros c' r [env' R']. eapply IH. exact R'.
Qed.

Lemma parse_safe w vars lattice ts e : ssorted vars ->
  match parse_tokens w vars lattice ts e with
  | Parsed _ | Failed | FailedKvFree | Undefined UBCast => True
  | _ => False
  end.
Proof.
  intros Hs. destruct (start_rel vars Hs) as [R He]. unfold parse_tokens.
  pose proof (file_rel w (List.length ts) _ _ ts R) as H. fold (p_all (glps w) (fill_vars vars ctx0) ts) in H.
  pose proof (all_fuel (glps w) (fill_vars vars ctx0) ts) as Hf.
  destruct (p_all (glps w) (fill_vars vars ctx0) ts) as [c' r|[]| |u|]; simpl in H; auto; try contradiction.
  destruct H as [env' R']. destruct (c_err c' || e)%bool; [exact I|].
  pose proof (fill_spec c' env' lattice R') as F. destruct (if lattice then _ else _) as [r'|].
  - destruct F as (t & -> & _). exact I.
  - rewrite F. exact I.
Qed.

Lemma parse_lexerr w vars lattice ts t : parse_tokens w vars lattice ts true <> Parsed t.
Proof.
  unfold parse_tokens. destruct (p_all _ _ _) as [c r|[]| |u|]; try discriminate. rewrite orb_true_r. discriminate.
Qed.

(** A Config is determined by what it shows. *)
Lemma shows_elem_unique vars d g g' : shows_elem vars d g -> shows_elem vars d g' -> g = g'.
Proof.
  intros (H1 & H2 & H3 & H4) (H1' & H2' & H3' & H4'). destruct g as [o u], g' as [o' u']. simpl in *. f_equal.
  - apply ssorted_ext; auto. intros k. rewrite H3, H3'. reflexivity.
  - apply ssorted_ext; auto. intros k. rewrite H4, H4'. reflexivity.
Qed.
Lemma shows_elems_unique vars ds : forall gs gs', Forall2 (shows_elem vars) ds gs -> Forall2 (shows_elem vars) ds gs' -> gs = gs'.
Proof.
  induction ds as [|d ds IH]; intros gs gs' H H'; inversion H; inversion H'; subst; [reflexivity|]. f_equal; eauto using shows_elem_unique.
Qed.
Lemma shows_unique r t t' : shows r t -> shows r t' -> t = t'.
Proof.
  unfold shows. destruct r as [vars [lat|]]; simpl; intros (H1 & H2 & H3) (H1' & H2' & H3'); destruct t as [o u], t' as [o' u']; simpl in *; subst; f_equal.
  - destruct H3 as (es & He & H3), H3' as (es' & He' & H3'). assert (es = es') by (eapply shows_elems_unique; eauto). subst.
    apply ssorted_ext; auto. intros k. rewrite H3, H3'. reflexivity.
  - apply ssorted_ext; auto. intros k. rewrite H3, H3'. reflexivity.
Qed.
