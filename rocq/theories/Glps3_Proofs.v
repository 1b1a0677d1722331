(** The parser's actions compute the meaning given by the specification. *)
From Coq Require Import List String Ascii Bool ZArith QArith Lia Arith.
From Verif Require Import SMap SMap_Proofs Dbl Config_Model Config_Spec Lexer_Model Glps_Model Glps_Spec Glps_Proofs.
Import ListNotations.
Open Scope string_scope.
Open Scope list_scope.
Open Scope nat_scope.

(** Induction over trees *)
Section TreeInd.
Variable P : tree -> Prop.
Hypothesis HN : forall x, P (ANum x).
Hypothesis HS : forall x, P (AStr x).
Hypothesis HV : forall x, P (AVar x).
Hypothesis HL : forall l, Forall P l -> P (AVec l).
Hypothesis HB : forall o a b, P a -> P b -> P (ABin o a b).
Hypothesis HC : forall f a, P a -> P (ACall f a).
Fixpoint tree_ind' (e : tree) : P e :=
  match e with
  | ANum x => HN x
  | AStr x => HS x
  | AVar x => HV x
  | AVec l => HL l ((fix go l : Forall P l := match l with
                      | [] => Forall_nil P | e :: r => Forall_cons e (tree_ind' e) (go r) end) l)
  | ABin o a b => HB o a b (tree_ind' a) (tree_ind' b)
  | ACall f a => HC f a (tree_ind' a)
  end.
End TreeInd.

(** * Values *)
Definition inj (v : sval) : expr :=
  match v with
  | SvNum x => mkExpr ENumber (XNum x)
  | SvVec l => mkExpr EVector (XVec l)
  | SvStr s => mkExpr EString (XStr s)
  | SvLine l => mkExpr ELine (XLine l)
  | SvCfg c => mkExpr EConfig (XCfg c)
  end.

Lemma inj_eta v : mkExpr (ety (inj v)) (eval (inj v)) = inj v.
Proof. destruct v; reflexivity. Qed.

Definition failish {A} (x : act A) : Prop := x = AFail \/ x = AUB UBCast.
Definition matches_opt {A B} (f : A -> B) (o : option A) (x : act B) : Prop :=
  match o with Some v => x = AOk (f v) | None => failish x end.

Lemma failish_bind {A B} (x : act A) (k : A -> act B) : failish x -> failish (abind x k).
Proof. intros [->| ->]; [left|right]; reflexivity. Qed.

Lemma SFcompare_antisym x y : SFcompare y x =
  match SFcompare x y with Some c => Some (CompOpp c) | None => None end.
Proof.
  destruct x as [s1|s1| |s1 m1 e1], y as [s2|s2| |s2 m2 e2]; simpl; try reflexivity;
    try (destruct s1; reflexivity); try (destruct s2; reflexivity); try (destruct s1, s2; reflexivity).
  destruct s1, s2; simpl; try reflexivity.
  all: rewrite (Z.compare_antisym e1 e2); destruct (Z.compare e1 e2); simpl; try reflexivity.
  all: pose proof (Pos.compare_cont_antisym m1 m2 Eq) as Q; simpl in Q; rewrite <- Q; reflexivity.
Qed.

Lemma dlt_dle x y : is_nan x = false -> is_nan y = false -> dlt x y = negb (dle y x).
Proof.
  intros Hx Hy. unfold dlt, dle, SFltb, SFleb. rewrite (SFcompare_antisym x y).
  destruct (SFcompare x y) as [[]|] eqn:E; simpl; auto.
  destruct x as [s1|s1| |s1 m1 e1], y as [s2|s2| |s2 m2 e2]; simpl in *; try discriminate;
    try (destruct s1; discriminate); try (destruct s2; discriminate); try (destruct s1, s2; discriminate).
Qed.

Lemma repeat_line_spec n l : repeat_line n l = List.concat (repeat l n).
Proof. induction n as [|n IH]; simpl; [reflexivity|]. rewrite IH. reflexivity. Qed.

Lemma d_trunc_floor x : dle dzero x = true -> dle x uint_max = true ->
  d_trunc x = Some (qfloor (qval x)).
Proof.
  intros H0 H1. destruct x as [s|s| |s m e]; simpl in *; try reflexivity; try discriminate.
  - destruct s; discriminate.
  - destruct s; [discriminate|]. f_equal. unfold qfloor, qval. destruct (Z.leb_spec 0 e) as [He|He].
    + unfold inject_Z. cbn [Qnum Qden]. rewrite Z.div_1_r. reflexivity.
    + cbn [Qnum Qden]. rewrite Z2Pos.id; [reflexivity|]. apply Z.pow_pos_nonneg; lia.
Qed.

Lemma bl_mult_spec x l : matches_opt id (srepeat x l) (bl_mult x l).
Proof.
  unfold srepeat, bl_mult, matches_opt. fold uint_max.
  destruct (is_nan x) eqn:Hn.
  { destruct x; try discriminate. simpl. right. reflexivity. }
  rewrite (dlt_dle x dzero) by (auto; reflexivity). rewrite (dlt_dle uint_max x) by (auto; reflexivity).
  destruct (dle dzero x) eqn:H0; simpl; [|left; reflexivity].
  destruct (dle x uint_max) eqn:H1; simpl; [|left; reflexivity].
  rewrite (d_trunc_floor x H0 H1), repeat_line_spec. reflexivity.
Qed.

Ltac eqb_cases :=
  repeat match goal with
  | |- context [String.eqb ?a ?b] => destruct (String.eqb_spec a b); try subst; try congruence; simpl
  end.

Lemma eqb_sym' a b : String.eqb a b = String.eqb b a.
Proof. destruct (String.eqb_spec a b), (String.eqb_spec b a); congruence. Qed.

Lemma op2_spec w o a b : matches_opt inj (sapply2 o a b) (add_op w o [inj a; inj b]).
Proof.
  unfold add_op, find_op, op_table.
  destruct a as [x|l|s|l|c], b as [y|l'|s'|l'|c'];
    cbn [find op_name op_args etypes_match inj ety etype_eqb andb];
    rewrite ?andb_false_r, ?andb_true_r; cbn [find op_name op_args etypes_match inj ety etype_eqb andb sapply2];
    rewrite ?(eqb_sym' o); try (left; reflexivity).
  - destruct (String.eqb_spec "+" o) as [<-|H1]; [reflexivity|].
    destruct (String.eqb_spec "-" o) as [<-|H2]; [reflexivity|].
    destruct (String.eqb_spec "*" o) as [<-|H3]; [reflexivity|].
    destruct (String.eqb_spec "/" o) as [<-|H4]; [|left; reflexivity].
    cbn. unfold sdiv, op_div. destruct (is_finite (ddiv x y)); [reflexivity|left; reflexivity].
  - destruct (String.eqb_spec "*" o) as [<-|H3]; [|left; reflexivity].
    pose proof (bl_mult_spec x l') as Q. cbn. destruct (srepeat x l') as [r|]; simpl in *.
    + rewrite Q. reflexivity.
    + apply failish_bind, failish_bind. exact Q.
  - destruct (String.eqb_spec "*" o) as [<-|H3]; [|left; reflexivity].
    pose proof (bl_mult_spec y l) as Q. cbn. destruct (srepeat y l) as [r|]; simpl in *.
    + rewrite Q. reflexivity.
    + apply failish_bind, failish_bind. exact Q.
Qed.

Lemma op1_spec w f a : matches_opt inj (sapply1 w f a) (add_op w f [inj a]).
Proof.
  unfold add_op, find_op, op_table.
  destruct a as [x|l|s|l|c];
    cbn [find op_name op_args etypes_match inj ety etype_eqb andb];
    rewrite ?andb_false_r, ?andb_true_r; cbn [find op_name op_args etypes_match inj ety etype_eqb andb sapply1];
    rewrite ?(eqb_sym' f); try (left; reflexivity).
  - repeat match goal with
    | |- context [String.eqb ?c f] => destruct (String.eqb_spec c f) as [<-|?]; [reflexivity|]; cbn [orb]
    end.
    left. reflexivity.
  - destruct (String.eqb_spec "parse" f) as [<-|?].
    { cbn. destruct (w_parse w s); [reflexivity|left; reflexivity]. }
    destruct (String.eqb_spec "file" f) as [<-|?]; cbn [orb].
    { cbn. destruct (w_file w s); [reflexivity|left; reflexivity]. }
    destruct (String.eqb_spec "dir" f) as [<-|?]; cbn [orb].
    { cbn. destruct (w_file w s); [reflexivity|left; reflexivity]. }
    destruct (String.eqb_spec "h5file" f) as [<-|?]; cbn [orb].
    { cbn. destruct (w_h5 w s); [reflexivity|left; reflexivity]. }
    left. reflexivity.
  - destruct (String.eqb_spec "-" f) as [<-|?]; [reflexivity|left; reflexivity].
Qed.

(** * Tables *)
Definition idx_ok (idx : smap nat) (names : list string) : Prop :=
  forall n i, sfind n idx = Some i <-> nth_error names i = Some n.
Lemma idx_ok_nil : idx_ok [] [].
Proof. intros n i. simpl. split; [discriminate|]. destruct i; discriminate. Qed.

Lemma idx_ok_add idx names n : idx_ok idx names -> sfind n idx = None ->
  idx_ok (sset n (List.length names) idx) (names ++ [n]).
Proof.
  intros H Hn k i. rewrite sfind_sset. destruct (String.eqb_spec k n) as [->|Hk].
  - split.
    + intros E. injection E as <-. rewrite nth_error_app2 by lia. rewrite Nat.sub_diag. reflexivity.
    + intros E. destruct (Nat.lt_ge_cases i (List.length names)) as [Hi|Hi].
      * rewrite nth_error_app1 in E by lia. apply H in E. congruence.
      * rewrite nth_error_app2 in E by lia. destruct (i - List.length names) as [|j] eqn:Ej.
        { f_equal. lia. } destruct j; discriminate.
  - rewrite (H k i). split.
    + intros E. rewrite nth_error_app1; [exact E|]. apply nth_error_Some. congruence.
    + intros E. destruct (Nat.lt_ge_cases i (List.length names)) as [Hi|Hi].
      * rewrite nth_error_app1 in E by lia. exact E.
      * rewrite nth_error_app2 in E by lia. destruct (i - List.length names) as [|j]; [simpl in E; congruence|destruct j; discriminate].
Qed.

Lemma assoc_app {A} n (l r : list (string * A)) :
  assoc n (l ++ r) = match assoc n l with Some v => Some v | None => assoc n r end.
Proof. induction l as [|[k v] l IH]; simpl; [reflexivity|]. destruct (String.eqb n k); auto. Qed.

Lemma assoc_None {A} n (l : list (string * A)) : assoc n l = None <-> ~ In n (map fst l).
Proof.
  induction l as [|[k v] l IH]; simpl; [tauto|]. destruct (String.eqb_spec n k) as [->|H].
  - split; [discriminate|tauto].
  - rewrite IH. split; intros H1; [intros [E|E]; [congruence|tauto]|tauto].
Qed.
Lemma assoc_In {A} n (l : list (string * A)) v : assoc n l = Some v -> In (n, v) l.
Proof.
  induction l as [|[k x] l IH]; simpl; [discriminate|]. destruct (String.eqb_spec n k) as [->|H].
  - intros E. injection E as ->. auto.
  - auto.
Qed.

Lemma idx_assoc_None {A} idx (l : list (string * A)) n : idx_ok idx (map fst l) ->
  (sfind n idx = None <-> assoc n l = None).
Proof.
  intros H. rewrite assoc_None. split.
  - intros E Hin. apply In_nth_error in Hin as [i Hi]. apply H in Hi. congruence.
  - intros Hn. destruct (sfind n idx) as [i|] eqn:E; [|reflexivity]. apply H in E. apply nth_error_In in E. tauto.
Qed.
Lemma nth_assoc {A} (l : list (string * A)) : forall idx, idx_ok idx (map fst l) ->
  forall n i, sfind n idx = Some i -> exists v, nth_error l i = Some (n, v) /\ assoc n l = Some v.
Proof.
  intros idx H n i E. apply H in E as Hi. rewrite nth_error_map in Hi.
  destruct (nth_error l i) as [[k v]|] eqn:El; simpl in Hi; [|discriminate]. injection Hi as ->.
  exists v. split; [reflexivity|].
  destruct (assoc n l) as [v'|] eqn:Ea.
  - apply assoc_In in Ea as Hin. apply In_nth_error in Hin as [j Hj].
    assert (nth_error (map fst l) j = Some n) as Hj' by (rewrite nth_error_map, Hj; reflexivity).
    apply H in Hj'. assert (i = j) by congruence. subst j. congruence.
  - apply (idx_assoc_None idx l n H) in Ea. congruence.
Qed.

(** * The context represents the environment *)
Definition elem_rel (p : pelem) (d : string * sdef) : Prop :=
  el_label p = fst d /\ el_type p = d_type (snd d) /\ ssorted (el_props p) /\
  forall k, sfind k (el_props p) = option_map inj (assoc k (d_props (snd d))).

Record Rel (c : pctx) (env : senv) : Prop := mkRel {
  r_vars : c_vars c = map (fun p => (fst p, inj (snd p))) (e_vars env);
  r_var_idx : idx_ok (c_var_idx c) (map fst (e_vars env));
  r_elems : Forall2 elem_rel (c_elems c) (e_elems env);
  r_elem_idx : idx_ok (c_elem_idx c) (map fst (e_elems env));
  r_lines : c_lines c = map (fun p => mkLine (fst p) (snd p)) (e_lines env);
  r_line_idx : idx_ok (c_line_idx c) (map fst (e_lines env));
  r_stor : Forall (fun p => storable (snd p) = true) (e_vars env);
  r_def : forall n l, In (n, l) (e_lines env) -> Forall (fun x => defined x (e_elems env) = true) l }.

Definition val_ok (env : senv) (v : sval) : Prop :=
  match v with SvLine l => Forall (fun x => defined x (e_elems env) = true) l | _ => True end.

Lemma rel_fail c env : Rel c env -> Rel (ctx_fail c) env.
Proof. intros []. constructor; auto. Qed.

Lemma var_spec c env n : Rel c env -> matches_opt inj (slookup env n) (add_var c n).
Proof.
  intros R. unfold slookup, add_var.
  destruct (sfind n (c_var_idx c)) as [i|] eqn:E.
  { destruct (nth_assoc _ _ (r_var_idx _ _ R) n i E) as (v & Hn & ->).
    rewrite (r_vars _ _ R), nth_error_map, Hn. simpl. rewrite inj_eta. reflexivity. }
  apply (idx_assoc_None _ _ _ (r_var_idx _ _ R)) in E as ->. unfold defined.
  destruct (sfind n (c_elem_idx c)) as [i|] eqn:E.
  { destruct (nth_assoc _ _ (r_elem_idx _ _ R) n i E) as (v & Hn & ->). reflexivity. }
  apply (idx_assoc_None _ _ _ (r_elem_idx _ _ R)) in E as ->.
  destruct (sfind n (c_line_idx c)) as [i|] eqn:E.
  { destruct (nth_assoc _ _ (r_line_idx _ _ R) n i E) as (v & Hn & ->).
    rewrite (r_lines _ _ R), nth_error_map, Hn. reflexivity. }
  apply (idx_assoc_None _ _ _ (r_line_idx _ _ R)) in E as ->.
  destruct (String.eqb n "pi"); [reflexivity|left; reflexivity].
Qed.

Lemma var_ok c env n v : Rel c env -> slookup env n = Some v -> val_ok env v.
Proof.
  intros R. unfold slookup. destruct (assoc n (e_vars env)) as [x|] eqn:E.
  - intros H. injection H as ->. apply assoc_In in E. pose proof (r_stor _ _ R) as H.
    rewrite Forall_forall in H. apply H in E. destruct v; simpl in *; auto. discriminate.
  - destruct (defined n (e_elems env)) eqn:D.
    + intros H. injection H as <-. simpl. auto.
    + destruct (assoc n (e_lines env)) as [l|] eqn:L.
      * intros H. injection H as <-. simpl. apply assoc_In in L. exact (r_def _ _ R _ _ L).
      * destruct (String.eqb n "pi"); intros H; [injection H as <-; exact I|discriminate].
Qed.

(** * Expressions *)
Definition svec (w : world) (env : senv) : list tree -> option (list double) :=
  fix go l := match l with
  | [] => Some []
  | e :: r => omap2 (fun x y => Some (x :: y)) (obind (seval w env e) as_num) (go r)
  end.
Lemma seval_vec w env l : seval w env (AVec l) = option_map SvVec (svec w env l).
Proof. reflexivity. Qed.

Lemma ev_spec w c env e : Rel c env -> matches_opt inj (seval w env e) (ev (glps w) c e).
Proof.
  intros R. induction e as [x|x|n|l IH|o a b IHa IHb|f a IHa] using tree_ind'.
  - reflexivity.
  - reflexivity.
  - apply var_spec. exact R.
  - rewrite seval_vec, ev_vec.
    assert (H : matches_opt (@rev double) (svec w env l) (evs (glps w) c l)).
    { induction l as [|e l IHl]; [reflexivity|]. inversion IH as [|? ? He Hl]; subst. specialize (IHl Hl).
      simpl. unfold matches_opt in He. destruct (seval w env e) as [v|] eqn:Ev; [|simpl; apply failish_bind; exact He].
      rewrite He. simpl. destruct (svec w env l) as [ds|]; simpl in IHl |- *.
      - rewrite IHl. simpl. destruct v; simpl; try (left; reflexivity). reflexivity.
      - destruct (as_num v); apply failish_bind; exact IHl. }
    destruct (svec w env l) as [ds|]; simpl in *.
    + rewrite H. simpl. rewrite rev_involutive. reflexivity.
    + apply failish_bind. exact H.
  - simpl. unfold matches_opt in IHa, IHb. destruct (seval w env a) as [x|]; [|simpl; apply failish_bind; exact IHa].
    rewrite IHa. simpl. destruct (seval w env b) as [y|]; [|simpl; apply failish_bind; exact IHb].
    rewrite IHb. simpl. apply op2_spec.
  - simpl. unfold matches_opt in IHa. destruct (seval w env a) as [x|]; [|simpl; apply failish_bind; exact IHa].
    rewrite IHa. simpl. apply op1_spec.
Qed.

Lemma concat_repeat_ok (P : string -> Prop) l n : Forall P l -> Forall P (List.concat (repeat l n)).
Proof. intros H. induction n; simpl; [constructor|]. apply Forall_app. auto. Qed.

Lemma some_num_ok env y v : Some (SvNum y) = Some v -> val_ok env v.
Proof. intros H. injection H as <-. exact I. Qed.

Lemma seval_ok w c env e v : Rel c env -> seval w env e = Some v -> val_ok env v.
Proof.
  intros R. revert v. induction e as [x|x|n|l IH|o a b IHa IHb|f a IHa] using tree_ind'; intros v H.
  - injection H as <-. exact I.
  - injection H as <-. exact I.
  - eapply var_ok; eauto.
  - rewrite seval_vec in H. destruct (svec w env l); simpl in H; [|discriminate]. injection H as <-. exact I.
  - simpl in H. destruct (seval w env a) as [x|]; [|discriminate]. destruct (seval w env b) as [y|]; [|discriminate].
    specialize (IHa _ eq_refl). specialize (IHb _ eq_refl). simpl in H. unfold sapply2 in H.
    assert (HR : forall z l, Forall (fun x => defined x (e_elems env) = true) l ->
      option_map SvLine (srepeat z l) = Some v -> val_ok env v).
    { intros z l Hl. unfold srepeat. destruct (_ && _)%bool; simpl; [|discriminate]. intros E. injection E as <-.
      apply concat_repeat_ok. exact Hl. }
    destruct x, y; try discriminate.
    + destruct (String.eqb o "+"); [injection H as <-; exact I|].
      destruct (String.eqb o "-"); [injection H as <-; exact I|].
      destruct (String.eqb o "*"); [injection H as <-; exact I|].
      destruct (String.eqb o "/"); [|discriminate]. destruct (sdiv x x0); simpl in H; [|discriminate]. injection H as <-. exact I.
    + destruct (String.eqb o "*"); [|discriminate]. eapply HR; [|exact H]. exact IHb.
    + destruct (String.eqb o "*"); [|discriminate]. eapply HR; [|exact H]. exact IHa.
  - simpl in H. destruct (seval w env a) as [x|]; [|discriminate]. specialize (IHa _ eq_refl). simpl in H.
    unfold sapply1 in H. destruct x; try discriminate.
    + repeat match type of H with (if ?b then _ else _) = _ => destruct b; [exact (some_num_ok _ _ _ H)|] end. discriminate.
    + repeat match type of H with
        | (if ?b then _ else _) = _ => destruct b
        | option_map _ ?o = _ => destruct o; simpl in H
        end; try discriminate; injection H as <-; exact I.
    + destruct (String.eqb f "-"); [|discriminate]. injection H as <-. simpl. apply Forall_rev. exact IHa.
Qed.

Lemma snames_spec w c env l : Rel c env -> matches_opt (@rev string) (snames w env l) (evl (glps w) c l).
Proof.
  intros R. induction l as [|e l IH]; [reflexivity|]. simpl.
  pose proof (ev_spec w c env e R) as He. unfold matches_opt in He.
  destruct (seval w env e) as [v|]; [|simpl; apply failish_bind; exact He].
  rewrite He. simpl. destruct (snames w env l) as [ns|]; simpl in IH |- *.
  - rewrite IH. simpl. destruct v; simpl; try (left; reflexivity). rewrite rev_app_distr. reflexivity.
  - destruct (as_line v); apply failish_bind; exact IH.
Qed.
Lemma snames_ok w c env l ns : Rel c env -> snames w env l = Some ns ->
  Forall (fun x => defined x (e_elems env) = true) ns.
Proof.
  intros R. revert ns. induction l as [|e l IH]; intros ns H; simpl in H; [injection H as <-; constructor|].
  destruct (seval w env e) as [v|] eqn:E; [|discriminate]. simpl in H.
  destruct (as_line v) as [x|] eqn:L; [|discriminate]. destruct (snames w env l) as [y|]; [|discriminate].
  simpl in H. injection H as <-. apply Forall_app. split; [|auto].
  destruct v; try discriminate. injection L as ->. exact (seval_ok _ _ _ _ _ R E).
Qed.

Lemma sprops_spec w c env l : Rel c env ->
  match sprops w env l with
  | Some ps => exists m, evk (glps w) c l = AOk m /\ ssorted m /\ (forall k, sfind k m = option_map inj (assoc k ps))
  | None => failish (evk (glps w) c l)
  end.
Proof.
  intros R. induction l as [|[k e] l IH]; simpl.
  { exists []. repeat split; auto. }
  pose proof (ev_spec w c env e R) as He. unfold matches_opt in He.
  destruct (seval w env e) as [v|]; [|simpl; apply failish_bind; exact He].
  rewrite He. simpl. destruct (sprops w env l) as [ps|]; simpl.
  - destruct IH as (m & -> & Hs & Hm). simpl. exists (sset k (inj v) m). split; [reflexivity|].
    split; [apply sset_sorted; exact Hs|]. intros k'. rewrite sfind_sset. destruct (String.eqb k' k); [reflexivity|apply Hm].
  - apply failish_bind. exact IH.
Qed.

(** * Statements *)
Lemma lower_spec a x : In x ["l"; "i"; "n"; "e"]%char ->
  Ascii.eqb (lower a) x = (Ascii.eqb a (ascii_of_N (N_of_ascii x - 32)) || Ascii.eqb a x)%bool.
Proof.
  intros H. repeat (destruct H as [<-|H]; [destruct a as [[] [] [] [] [] [] [] []]; reflexivity|]). destruct H.
Qed.
Lemma line_kw_spec t : strcaseeq t "LINE" = is_line_kwb t.
Proof.
  unfold strcaseeq. change (lower_str "LINE") with "line".
  destruct t as [|a [|b [|c [|d [|e t]]]]]; try reflexivity.
  - simpl. destruct (Ascii.eqb (lower a) "l"); reflexivity.
  - simpl. destruct (Ascii.eqb (lower a) "l"); [|reflexivity]. destruct (Ascii.eqb (lower b) "i"); reflexivity.
  - simpl. destruct (Ascii.eqb (lower a) "l"); [|reflexivity]. destruct (Ascii.eqb (lower b) "i"); [|reflexivity].
    destruct (Ascii.eqb (lower c) "n"); reflexivity.
  - cbn [lower_str String.eqb is_line_kwb].
    rewrite !lower_spec by (simpl; auto 6). 
    change (ascii_of_N (N_of_ascii "l" - 32)) with "L"%char. change (ascii_of_N (N_of_ascii "i" - 32)) with "I"%char.
    change (ascii_of_N (N_of_ascii "n" - 32)) with "N"%char. change (ascii_of_N (N_of_ascii "e" - 32)) with "E"%char.
    destruct (Ascii.eqb a "L" || Ascii.eqb a "l")%bool; [|reflexivity].
    destruct (Ascii.eqb b "I" || Ascii.eqb b "i")%bool; [|reflexivity].
    destruct (Ascii.eqb c "N" || Ascii.eqb c "n")%bool; [|reflexivity].
    destruct (Ascii.eqb d "E" || Ascii.eqb d "e")%bool; reflexivity.
  - cbn [lower_str String.eqb is_line_kwb].
    destruct (Ascii.eqb (lower a) "l"); [|reflexivity]. destruct (Ascii.eqb (lower b) "i"); [|reflexivity].
    destruct (Ascii.eqb (lower c) "n"); [|reflexivity]. destruct (Ascii.eqb (lower d) "e"); reflexivity.
Qed.

Lemma defined_app {A} n (l r : list (string * A)) : defined n l = true -> defined n (l ++ r) = true.
Proof. unfold defined. rewrite assoc_app. destruct (assoc n l); auto. discriminate. Qed.

Definition exec_rel (c : pctx) (env : senv) (o : option senv) (x : act pctx) : Prop :=
  match o with
  | Some env' => exists c', x = AOk c' /\ Rel c' env' /\ c_err c' = c_err c
  | None => failish x \/ exists c', x = AOk c' /\ Rel c' env /\ c_err c' = true
  end.

Lemma exec_fail c env : Rel c env -> exec_rel c env None (AOk (ctx_fail c)).
Proof. intros R. right. exists (ctx_fail c). split; [reflexivity|]. split; [apply rel_fail; exact R|reflexivity]. Qed.

Lemma exec_spec w c env s : Rel c env -> exec_rel c env (sexec w env s) (exec (glps w) c s).
Proof.
  intros R. destruct s as [n e|n t l|n t l|f e|n]; simpl.
  - pose proof (ev_spec w c env e R) as He. unfold matches_opt in He.
    destruct (seval w env e) as [v|]; [|left; apply failish_bind; exact He].
    rewrite He. cbn [abind obind]. unfold assign.
    assert (Hgo : storable v = true -> exec_rel c env
      (if defined n (e_vars env) then None else Some (mkEnv (e_vars env ++ [(n, v)]) (e_elems env) (e_lines env)))
      (AOk match sfind n (c_var_idx c) with
          | Some _ => ctx_fail c
          | None => mkCtx (c_vars c ++ [(n, inj v)]) (sset n (List.length (c_vars c)) (c_var_idx c))
                          (c_elems c) (c_elem_idx c) (c_lines c) (c_line_idx c) (c_err c)
          end)).
    { intros Hst. unfold defined. destruct (sfind n (c_var_idx c)) as [i|] eqn:E.
      - destruct (nth_assoc _ _ (r_var_idx _ _ R) n i E) as (v' & Hn & ->). apply exec_fail. exact R.
      - apply (idx_assoc_None _ _ _ (r_var_idx _ _ R)) in E as Ea. rewrite Ea.
        eexists. split; [reflexivity|]. split; [|reflexivity]. destruct R. constructor; simpl; auto.
        + rewrite map_app, r_vars0. reflexivity.
        + rewrite map_app. replace (List.length (c_vars c)) with (List.length (map fst (e_vars env)))
            by (rewrite r_vars0, !map_length; reflexivity). apply idx_ok_add; auto.
        + apply Forall_app. split; auto. }
    destruct v as [x|x|x|x|x]; cbn [inj ety]; try (apply Hgo; reflexivity). apply exec_fail. exact R.
  - pose proof (sprops_spec w c env l R) as Hk. destruct (sprops w env l) as [ps|]; [|left; apply failish_bind; exact Hk].
    destruct Hk as (m & -> & Hs & Hm). cbn [abind obind]. unfold add_element.
    destruct (String.eqb n ""); cbn [orb]; [apply exec_fail; exact R|].
    destruct (String.eqb t ""); cbn [orb]; [apply exec_fail; exact R|]. unfold defined.
    destruct (sfind n (c_elem_idx c)) as [i|] eqn:E.
    + destruct (nth_assoc _ _ (r_elem_idx _ _ R) n i E) as (v' & Hn & ->). apply exec_fail. exact R.
    + apply (idx_assoc_None _ _ _ (r_elem_idx _ _ R)) in E as Ea. rewrite Ea.
      eexists. split; [reflexivity|]. split; [|reflexivity]. destruct R. constructor; simpl; auto.
      * apply Forall2_app; [exact r_elems0|]. constructor; [|constructor]. repeat split; auto.
      * rewrite map_app. replace (List.length (c_elems c)) with (List.length (map fst (e_elems env))).
        { apply idx_ok_add; auto. } rewrite map_length. symmetry. clear -r_elems0. induction r_elems0; simpl; auto.
      * intros n' l' Hin. apply r_def0 in Hin. eapply Forall_impl; [|exact Hin]. intros x. apply defined_app.
  - pose proof (snames_spec w c env l R) as Hk. unfold matches_opt in Hk.
    destruct (snames w env l) as [ns|] eqn:En; [|left; apply failish_bind; exact Hk].
    rewrite Hk. cbn [abind obind]. unfold add_line. rewrite line_kw_spec. rewrite rev_involutive.
    destruct (negb (is_line_kwb t)); cbn [orb]; [apply exec_fail; exact R|]. unfold defined.
    destruct (sfind n (c_line_idx c)) as [i|] eqn:E.
    + destruct (nth_assoc _ _ (r_line_idx _ _ R) n i E) as (v' & Hn & ->). apply exec_fail. exact R.
    + apply (idx_assoc_None _ _ _ (r_line_idx _ _ R)) in E as Ea. rewrite Ea.
      eexists. split; [reflexivity|]. split; [|reflexivity].
      pose proof (snames_ok _ _ _ _ _ R En) as Hns. destruct R. constructor; simpl; auto.
      * rewrite map_app, r_lines0. reflexivity.
      * rewrite map_app. replace (List.length (c_lines c)) with (List.length (map fst (e_lines env)))
          by (rewrite r_lines0, !map_length; reflexivity). apply idx_ok_add; auto.
      * intros n' l' Hin. apply in_app_or in Hin as [Hin|[Hin|[]]]; [eauto|]. injection Hin as <- <-. exact Hns.
  - pose proof (ev_spec w c env e R) as He. unfold matches_opt in He.
    destruct (seval w env e) as [v|]; [|left; apply failish_bind; exact He].
    rewrite He. cbn [abind obind]. unfold call1. destruct (String.eqb f "print"); cbn [negb]; [|apply exec_fail; exact R].
    exists c. split; [destruct v; reflexivity|]. auto.
  - unfold command. destruct (String.eqb n "END"); [exists c; auto|apply exec_fail; exact R].
Qed.

Lemma execs_err w p : forall c env, Rel c env -> c_err c = true ->
  failish (execs (glps w) c p) \/ exists c', execs (glps w) c p = AOk c' /\ c_err c' = true.
Proof.
  induction p as [|s p IH]; intros c env R He; simpl; [eauto|].
  pose proof (exec_spec w c env s R) as H. destruct (sexec w env s) as [env'|]; simpl in H.
  - destruct H as (c' & -> & R' & E). simpl. eapply IH; [exact R'|congruence].
  - destruct H as [H|(c' & -> & R' & E)]; [left; apply failish_bind; exact H|]. simpl. eapply IH; eauto.
Qed.

Lemma execs_spec w p : forall c env, Rel c env -> c_err c = false ->
  match sexecs w env p with
  | Some env' => exists c', execs (glps w) c p = AOk c' /\ Rel c' env' /\ c_err c' = false
  | None => failish (execs (glps w) c p) \/ exists c', execs (glps w) c p = AOk c' /\ c_err c' = true
  end.
Proof.
  induction p as [|s p IH]; intros c env R He; simpl; [eauto|].
  pose proof (exec_spec w c env s R) as H. destruct (sexec w env s) as [env'|]; simpl in H |- *.
  - destruct H as (c' & -> & R' & E). simpl. apply IH; [exact R'|congruence].
  - destruct H as [H|(c' & -> & R' & E)]; [left; apply failish_bind; exact H|]. simpl. eapply execs_err; eauto.
Qed.

(** * Presets *)
Lemma presets_names vars n : In n (map fst (presets vars)) -> exists v, In (n, v) vars.
Proof.
  induction vars as [|[k v] vars IH]; simpl; [intros []|]. destruct (preset_val v); simpl.
  - intros [<-|H]; [eauto|]. destruct (IH H). eauto.
  - intros H. destruct (IH H). eauto.
Qed.
Lemma fill_vars_rel vars : ssorted vars -> forall c env, Rel c env -> c_err c = false ->
  (forall n v, In (n, v) vars -> assoc n (e_vars env) = None) ->
  Rel (fill_vars vars c) (mkEnv (e_vars env ++ presets vars) (e_elems env) (e_lines env)) /\ c_err (fill_vars vars c) = false.
Proof.
  unfold fill_vars. induction vars as [|[k v] vars IH]; intros Hs c env R He Hd; simpl.
  - rewrite app_nil_r. destruct env. auto.
  - destruct Hs as [Hk Hs].
    destruct (preset_val v) as [x|] eqn:Ep.
    + assert (Hsv : store_val c (k, v) = store_var c k (inj x)) by (destruct v; simpl in Ep; try discriminate; injection Ep as <-; reflexivity).
      rewrite Hsv.
      pose proof (Hd k v (or_introl eq_refl)) as Ek.
      specialize (IH Hs (store_var c k (inj x)) (mkEnv (e_vars env ++ [(k, x)]) (e_elems env) (e_lines env))).
      simpl in IH. rewrite <- app_assoc in IH. apply IH; auto.
      * destruct R. constructor; simpl; auto.
        -- rewrite map_app, r_vars0. reflexivity.
        -- rewrite map_app. replace (List.length (c_vars c)) with (List.length (map fst (e_vars env)))
             by (rewrite r_vars0, !map_length; reflexivity).
           apply idx_ok_add; auto. apply (idx_assoc_None _ _ _ r_var_idx0). exact Ek.
        -- apply Forall_app. split; auto. constructor; [|constructor]. destruct v; simpl in Ep; try discriminate; injection Ep as <-; reflexivity.
      * intros n v' Hin. rewrite assoc_app, (Hd n v' (or_intror Hin)). simpl.
        destruct (String.eqb_spec n k) as [->|]; [|reflexivity]. exfalso. apply (str_lt_irrefl k). eapply Hk. exact Hin.
    + assert (Hsv : store_val c (k, v) = c) by (destruct v; simpl in Ep; try discriminate; reflexivity).
      rewrite Hsv. apply IH; auto. intros n v' Hin. eapply Hd. right. exact Hin.
Qed.

Lemma rel0 : Rel ctx0 (mkEnv [] [] []).
Proof.
  constructor; simpl; auto; try apply idx_ok_nil. intros n l [].
Qed.
Lemma start_rel vars : ssorted vars -> Rel (fill_vars vars ctx0) (env0 vars) /\ c_err (fill_vars vars ctx0) = false.
Proof. intros H. apply (fill_vars_rel vars H ctx0 (mkEnv [] [] []) rel0 eq_refl). reflexivity. Qed.

(** * The Config *)
Lemma expr_tval_inj v : expr_tval (inj v) = if storable v then AOk (shown v) else AFail.
Proof. destruct v; reflexivity. Qed.

Lemma assign_all_spec kvs : NoDup (map fst kvs) -> forall c, ssorted (town c) ->
  Forall (fun p => storable (snd p) = true) kvs ->
  exists c', assign_all (map (fun p => (fst p, inj (snd p))) kvs) c = AOk c' /\ touter c' = touter c /\ ssorted (town c') /\
    forall n, sfind n (town c') = match assoc n kvs with Some v => Some (shown v) | None => sfind n (town c) end.
Proof.
  induction kvs as [|[k v] kvs IH]; intros Hnd c Hs Hst; simpl.
  - exists c. auto.
  - inversion Hnd; subst. inversion Hst; subst. simpl in *. rewrite expr_tval_inj, H3. simpl.
    destruct (IH H2 (tset k (shown v) c)) as (c' & E & Ho & Hs' & Hf); auto.
    { destruct c. apply sset_sorted. exact Hs. }
    exists c'. split; [exact E|]. split; [rewrite Ho; destruct c; reflexivity|]. split; [exact Hs'|].
    intros n. rewrite Hf. destruct (String.eqb_spec n k) as [->|Hn].
    + apply assoc_None in H1. rewrite H1. destruct c; simpl. rewrite sfind_sset, String.eqb_refl. reflexivity.
    + destruct (assoc n kvs); [reflexivity|]. destruct c; simpl. rewrite sfind_sset.
      destruct (String.eqb_spec n k); [congruence|reflexivity].
Qed.
Lemma assign_all_fail kvs c : existsb (fun p => negb (storable (snd p))) kvs = true ->
  assign_all (map (fun p => (fst p, inj (snd p))) kvs) c = AFail.
Proof.
  revert c. induction kvs as [|[k v] kvs IH]; intros c H; simpl in *; [discriminate|].
  rewrite expr_tval_inj. destruct (storable v); simpl in *; [apply IH; exact H|reflexivity].
Qed.

Lemma idx_nodup idx names : idx_ok idx names -> NoDup names.
Proof.
  intros H. apply NoDup_nth_error. intros i j Hi E. apply nth_error_Some in Hi.
  destruct (nth_error names i) as [n|] eqn:Ei; [|congruence]. symmetry in E. apply H in Ei, E. congruence.
Qed.

Lemma sorted_nodup {V} (m : smap V) : ssorted m -> NoDup (map fst m).
Proof.
  induction m as [|[k v] m IH]; simpl; [constructor|]. intros [H Hs]. constructor; auto.
  intros Hin. apply in_map_iff in Hin as ([k' v'] & E & Hin). simpl in E. subst k'. apply (str_lt_irrefl k). eauto.
Qed.
Lemma sfind_assoc {V} n (m : smap V) : sfind n m = assoc n m.
Proof. induction m as [|[k v] m IH]; simpl; [reflexivity|]. rewrite IH. reflexivity. Qed.
Lemma assoc_map_inj n (l : list (string * sval)) :
  assoc n (map (fun p => (fst p, inj (snd p))) l) = option_map inj (assoc n l).
Proof. induction l as [|[k v] l IH]; simpl; [reflexivity|]. destruct (String.eqb n k); auto. Qed.
Lemma inj_inj a b : inj a = inj b -> a = b.
Proof. destruct a, b; simpl; intros H; congruence. Qed.

(** The property map of an element is the injection of a list of values. *)
Lemma props_are_inj m ps : ssorted m -> (forall k, sfind k m = option_map inj (assoc k ps)) ->
  exists kvs, m = map (fun p => (fst p, inj (snd p))) kvs /\ NoDup (map fst kvs) /\ forall k, assoc k kvs = assoc k ps.
Proof.
  intros Hs Hm.
  assert (Hall : forall k e, In (k, e) m -> exists v, e = inj v).
  { intros k e Hin. apply (ssorted_In_sfind m k e Hs) in Hin. rewrite Hm in Hin.
    destruct (assoc k ps) as [v|]; simpl in Hin; [|discriminate]. injection Hin as <-. eauto. }
  assert (He : exists kvs, m = map (fun p => (fst p, inj (snd p))) kvs).
  { clear Hs Hm. induction m as [|[k e] m IH]; [exists []; reflexivity|].
    destruct (Hall k e (or_introl eq_refl)) as [v ->]. destruct IH as [kvs ->].
    { intros k' e' Hin. eapply Hall. right. exact Hin. } exists ((k, v) :: kvs). reflexivity. }
  destruct He as [kvs ->]. exists kvs. split; [reflexivity|]. split.
  - apply sorted_nodup in Hs. rewrite map_map in Hs. exact Hs.
  - intros k. specialize (Hm k). rewrite sfind_assoc, assoc_map_inj in Hm.
    destruct (assoc k kvs), (assoc k ps); simpl in Hm; try discriminate; auto. injection Hm as Hm.
    apply inj_inj in Hm. congruence.
Qed.

Lemma usable_spec d kvs : NoDup (map fst kvs) -> (forall k, assoc k kvs = assoc k (d_props (snd d))) ->
  usable d = negb (existsb (fun p => negb (storable (snd p))) kvs).
Proof.
  intros Hnd Hk. unfold usable.
  destruct (existsb (fun p => negb (storable (snd p))) kvs) eqn:E; simpl.
  - apply existsb_exists in E as ([k v] & Hin & Hv). simpl in Hv.
    assert (Ha : assoc k kvs = Some v).
    { clear Hk. induction kvs as [|[k1 v1] kvs IH]; [destruct Hin|]. simpl in *. inversion Hnd; subst.
      destruct Hin as [E|Hin]; [injection E as -> ->; rewrite String.eqb_refl; reflexivity|].
      destruct (String.eqb_spec k k1) as [->|]; [|auto]. exfalso. apply H1. apply in_map_iff. exists (k1, v). auto. }
    rewrite Hk in Ha. apply assoc_In in Ha as Hin'. apply not_true_is_false. intros Hf.
    rewrite forallb_forall in Hf. apply Hf in Hin'. simpl in Hin'. rewrite Ha in Hin'.
    rewrite Hin' in Hv. discriminate.
  - apply forallb_forall. intros [k v] _. simpl. rewrite <- Hk. destruct (assoc k kvs) as [v'|] eqn:Ea; [|reflexivity].
    apply assoc_In in Ea. apply not_false_is_true. intros Hf. 
    assert (existsb (fun p => negb (storable (snd p))) kvs = true); [|congruence].
    apply existsb_exists. exists (k, v'). split; [exact Ea|]. simpl. rewrite Hf. reflexivity.
Qed.
Lemma existsb_neg_forall kvs : existsb (fun p : string * sval => negb (storable (snd p))) kvs = false ->
  Forall (fun p => storable (snd p) = true) kvs.
Proof.
  induction kvs as [|[k v] kvs IH]; simpl; [constructor|]. intros H. apply orb_false_iff in H as [H1 H2].
  constructor; auto. simpl. destruct (storable v); auto.
Qed.

Lemma smerge_nil_r {V} (m : smap V) : smerge m [] = m.
Proof. reflexivity. Qed.

Lemma elem_config_spec c env top vars n d :
  Rel c env -> ssorted (town top) -> touter top = [] ->
  (forall k, sfind k (town top) = option_map shown (assoc k vars)) ->
  assoc n (e_elems env) = Some d ->
  if usable (n, d) then exists g, elem_config c top n = AOk g /\ shows_elem vars (n, d) g
  else elem_config c top n = AFail.
Proof.
  intros R Hst Hot Htop Hn. unfold elem_config, elem_ref.
  destruct (sfind n (c_elem_idx c)) as [i|] eqn:Ei.
  2:{ apply (idx_assoc_None _ _ _ (r_elem_idx _ _ R)) in Ei. congruence. }
  destruct (nth_assoc _ _ (r_elem_idx _ _ R) n i Ei) as (d' & Hi & Hd'). assert (d' = d) by congruence. subst d'.
  pose proof (r_elems _ _ R) as F2.
  assert (Hp : exists p, nth_error (c_elems c) i = Some p /\ elem_rel p (n, d)).
  { clear -F2 Hi. revert i Hi. induction F2 as [|p q l l' H F2 IH]; intros [|i] Hi; simpl in *; try discriminate; eauto.
    injection Hi as ->. eauto. }
  destruct Hp as (p & -> & (Hl & Ht & Hs & Hf)). cbn [abind]. simpl fst in *. simpl snd in *.
  destruct (props_are_inj _ _ Hs Hf) as (kvs & Ek & Hnd & Ha).
  rewrite Ek. rewrite (usable_spec (n, d) kvs Hnd Ha).
  destruct (existsb (fun p => negb (storable (snd p))) kvs) eqn:Ex; simpl negb; cbv iota.
  - rewrite (assign_all_fail _ _ Ex). reflexivity.
  - destruct (assign_all_spec kvs Hnd (tscope top) I (existsb_neg_forall _ Ex)) as (g & -> & Ho & Hsg & Hg).
    cbn [abind]. eexists. split; [reflexivity|]. destruct g as [gown gouter]. simpl in Ho, Hsg, Hg |- *.
    unfold shows_elem. simpl. split; [|split; [|split]].
    + repeat apply sset_sorted. exact Hsg.
    + rewrite Ho, Hot, smerge_nil_r. exact Hst.
    + intros k. rewrite !sfind_sset, Hg, Ha, Hl, Ht.
      destruct (String.eqb k "name"); [reflexivity|]. destruct (String.eqb k "type"); [reflexivity|].
      destruct (assoc k (d_props d)); reflexivity.
    + intros k. rewrite Ho, Hot, smerge_nil_r. apply Htop.
Qed.

Lemma elem_configs_spec c env top vars ns :
  Rel c env -> ssorted (town top) -> touter top = [] ->
  (forall k, sfind k (town top) = option_map shown (assoc k vars)) ->
  Forall (fun x => defined x (e_elems env) = true) ns ->
  exists ds, sresolve env ns = Some ds /\
  if forallb usable ds then exists gs, elem_configs c top ns = AOk gs /\ Forall2 (shows_elem vars) ds gs
  else elem_configs c top ns = AFail.
Proof.
  intros R Hst Hot Htop. induction ns as [|n ns IH]; intros Hdef; simpl.
  { exists []. split; [reflexivity|]. simpl. exists []. auto. }
  inversion Hdef; subst. unfold defined in H1. destruct (assoc n (e_elems env)) as [d|] eqn:En; [|discriminate].
  destruct (IH H2) as (ds & Er & Hc). rewrite Er. simpl. exists ((n, d) :: ds). split; [reflexivity|]. simpl.
  pose proof (elem_config_spec c env top vars n d R Hst Hot Htop En) as Hn.
  destruct (usable (n, d)); simpl.
  - destruct Hn as (g & -> & Hg). cbn [abind]. destruct (forallb usable ds).
    + destruct Hc as (gs & -> & Hgs). cbn [abind]. exists (g :: gs). auto.
    + rewrite Hc. reflexivity.
  - rewrite Hn. reflexivity.
Qed.

Lemma use_line_spec c env : Rel c env ->
  match sselect env with
  | Some (n, l) => use_line c = AOk (mkLine n l) /\ In (n, l) (e_lines env)
  | None => use_line c = AFail
  end.
Proof.
  intros R. unfold sselect, use_line.
  destruct (sfind "USE" (c_elem_idx c)) as [i|] eqn:Ei.
  - destruct (nth_assoc _ _ (r_elem_idx _ _ R) "USE" i Ei) as (d & Hi & ->).
    pose proof (r_elems _ _ R) as F2.
    assert (Hp : exists p, nth_error (c_elems c) i = Some p /\ elem_rel p ("USE", d)).
    { clear -F2 Hi. revert i Hi. induction F2 as [|p q l l' H F2 IH]; intros [|i] Hi; simpl in *; try discriminate; eauto.
      injection Hi as ->. eauto. }
    destruct Hp as (p & -> & (Hl & Ht & _)). simpl in Ht. rewrite Ht.
    destruct (sfind (d_type d) (c_line_idx c)) as [j|] eqn:Ej.
    + destruct (nth_assoc _ _ (r_line_idx _ _ R) _ j Ej) as (l & Hj & Hal). rewrite Hal.
      rewrite (r_lines _ _ R), nth_error_map, Hj. simpl. split; [reflexivity|]. apply assoc_In. exact Hal.
    + apply (idx_assoc_None _ _ _ (r_line_idx _ _ R)) in Ej as ->. reflexivity.
  - apply (idx_assoc_None _ _ _ (r_elem_idx _ _ R)) in Ei as ->. unfold last_def.
    rewrite (r_lines _ _ R), <- map_rev. destruct (rev (e_lines env)) as [|[n l] r] eqn:Er; [reflexivity|].
    simpl. split; [reflexivity|]. apply in_rev. rewrite Er. left. reflexivity.
Qed.

Lemma fill_spec c env lattice : Rel c env ->
  match (if lattice : bool then option_map (fun l => (e_vars env, Some l)) (slat env) else Some (e_vars env, None)) with
  | Some r => exists t, fill_context c lattice = AOk t /\ shows r t
  | None => fill_context c lattice = AFail
  end.
Proof.
  intros R. unfold fill_context. rewrite (r_vars _ _ R).
  destruct (assign_all_spec (e_vars env) (idx_nodup _ _ (r_var_idx _ _ R)) (TCfg [] []) I (r_stor _ _ R))
    as (top & -> & Ho & Hs & Hf). cbn [abind]. simpl in Ho, Hf.
  assert (Htop : forall k, sfind k (town top) = option_map shown (assoc k (e_vars env))).
  { intros k. rewrite Hf. destruct (assoc k (e_vars env)); reflexivity. }
  destruct lattice.
  2:{ exists top. split; [reflexivity|]. unfold shows. simpl. auto. }
  unfold slat. pose proof (use_line_spec c env R) as Hu.
  destruct (c_lines c) as [|l0 ls] eqn:El.
  { rewrite (r_lines _ _ R) in El. destruct (e_lines env) as [|x xs] eqn:Ee; [|discriminate].
    destruct (sselect env) as [[n l]|] eqn:Es; simpl.
    - destruct Hu as [_ []].
    - reflexivity. }
  clear El. destruct (sselect env) as [[n l]|] eqn:Es; cbn [obind fst snd].
  2:{ rewrite Hu. reflexivity. }
  destruct Hu as [-> Hin]. cbn [abind ln_names ln_label].
  destruct l as [|x xs]; [reflexivity|].
  pose proof (elem_configs_spec c env top (e_vars env) (x :: xs) R Hs Ho Htop (r_def _ _ R _ _ Hin)) as (ds & Er & Hc).
  rewrite Er. cbn [obind]. destruct (forallb usable ds); simpl option_map.
  - destruct Hc as (gs & -> & Hgs). cbn [abind]. eexists. split; [reflexivity|]. unfold shows. destruct top as [own outer].
    simpl in *. split; [repeat apply sset_sorted; exact Hs|]. split; [exact Ho|]. exists gs. split; [exact Hgs|].
    intros k. rewrite !sfind_sset. destruct (String.eqb k "elements"); [reflexivity|]. destruct (String.eqb k "name"); [reflexivity|].
    apply Htop.
  - rewrite Hc. reflexivity.
Qed.

(** * The whole run *)
Definition rejected (o : outcome) : Prop := o = Failed \/ o = FailedKvFree \/ o = Undefined UBCast.

Lemma parse_spec w vars lattice ts : ssorted vars ->
  match tree_of ts with
  | POk p _ =>
      match srun w vars lattice p with
      | Some r => exists t, parse_tokens w vars lattice ts false = Parsed t /\ shows r t
      | None => rejected (parse_tokens w vars lattice ts false)
      end
  | _ => match parse_tokens w vars lattice ts false with Parsed _ | OutOfFuel => False | _ => True end
  end.
Proof.
  intros Hs. destruct (start_rel vars Hs) as [R He]. unfold parse_tokens.
  pose proof (all_hom (glps w) (fill_vars vars ctx0) ts) as H.
  destruct (tree_of ts) as [p r|k| |u|]; try destruct H.
  - subst r. unfold srun.
    pose proof (execs_spec w p _ _ R He) as Hx.
    destruct (sexecs w (env0 vars) p) as [env'|]; simpl obind.
    + destruct Hx as (c' & Ex & R' & He'). rewrite Ex in H0. simpl in H0. rewrite H0, He'. cbn [orb].
      cbv [obind]. pose proof (fill_spec c' env' lattice R') as Hfill.
      destruct (if lattice then _ else _) as [r|].
      * destruct Hfill as (t & -> & Hsh). eauto.
      * rewrite Hfill. left. reflexivity.
    + destruct Hx as [[Ex|Ex]|(c' & Ex & He')]; rewrite Ex in H0; simpl in H0.
      * destruct H0 as [[] ->]; [right; left|left]; reflexivity.
      * rewrite H0. right. right. reflexivity.
      * rewrite H0, He'. left. reflexivity.
  - destruct (p_all (glps w) (fill_vars vars ctx0) ts) as [c' r'|[]| |u|]; simpl in H; try contradiction; auto.
Qed.
