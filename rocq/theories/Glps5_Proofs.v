(** Where the definitions in an environment come from. *)
From Coq Require Import List String Ascii Bool ZArith Lia Arith.
From Verif Require Import SMap SMap_Proofs Dbl Config_Model Config_Spec Lexer_Model Glps_Model Glps_Spec
  Glps_Proofs Glps2_Proofs Glps3_Proofs Glps4_Proofs.
Import ListNotations.
Open Scope string_scope.
Open Scope list_scope.

Lemma obind_some {A B} (x : option A) (f : A -> option B) b : obind x f = Some b -> exists a, x = Some a /\ f a = Some b.
Proof. destruct x; simpl; [eauto|discriminate]. Qed.

Lemma sexecs_app w p q env : sexecs w env (p ++ q) = obind (sexecs w env p) (fun e => sexecs w e q).
Proof. revert env. induction p as [|s p IH]; intros env; simpl; [reflexivity|]. destruct (sexec w env s); simpl; auto. Qed.
Lemma sexecs_snoc w p s env env' : sexecs w env (p ++ [s]) = Some env' ->
  exists e1, sexecs w env p = Some e1 /\ sexec w e1 s = Some env'.
Proof.
  rewrite sexecs_app. intros H. apply obind_some in H as (e1 & H1 & H2). exists e1. split; [exact H1|].
  simpl in H2. destruct (sexec w e1 s); [exact H2|discriminate].
Qed.
Lemma sexecs_split w p s q env env' : sexecs w env (p ++ s :: q) = Some env' ->
  exists e1 e2, sexecs w env p = Some e1 /\ sexec w e1 s = Some e2 /\ sexecs w e2 q = Some env'.
Proof.
  rewrite sexecs_app. intros H. apply obind_some in H as (e1 & H1 & H2). simpl in H2. apply obind_some in H2 as (e2 & H2 & H3). eauto 6.
Qed.

(** What one statement does *)
Lemma sexec_cases w env s env' : sexec w env s = Some env' ->
  match s with
  | SAssign n e => exists v, seval w env e = Some v /\ storable v = true /\ assoc n (e_vars env) = None /\
       env' = mkEnv (e_vars env ++ [(n, v)]) (e_elems env) (e_lines env)
  | SElem n t l => exists ps, sprops w env l = Some ps /\ n <> "" /\ t <> "" /\ assoc n (e_elems env) = None /\
       env' = mkEnv (e_vars env) (e_elems env ++ [(n, mkDef t ps)]) (e_lines env)
  | SLine n t l => exists ns, snames w env l = Some ns /\ is_line_kwb t = true /\ assoc n (e_lines env) = None /\
       env' = mkEnv (e_vars env) (e_elems env) (e_lines env ++ [(n, ns)])
  | SCall f e => f = "print" /\ env' = env /\ exists v, seval w env e = Some v
  | SCmd n => n = "END" /\ env' = env
  end.
Proof.
  destruct s as [n e|n t l|n t l|f e|n]; simpl; intros H.
  - apply obind_some in H as (v & Hv & H). exists v. unfold defined in H.
    destruct v; try discriminate; (destruct (assoc n (e_vars env)); [discriminate|]; injection H as <-; auto).
  - apply obind_some in H as (ps & Hv & H). exists ps. unfold defined in H.
    destruct (String.eqb_spec n ""); [discriminate|]. destruct (String.eqb_spec t ""); [discriminate|]. simpl in H.
    destruct (assoc n (e_elems env)); [discriminate|]. injection H as <-. auto 6.
  - apply obind_some in H as (ns & Hv & H). exists ns. unfold defined in H.
    destruct (is_line_kwb t); [|discriminate]. simpl in H.
    destruct (assoc n (e_lines env)); [discriminate|]. injection H as <-. auto 6.
  - apply obind_some in H as (v & Hv & H). destruct (String.eqb_spec f "print"); [|discriminate]. injection H as <-. eauto.
  - destruct (String.eqb_spec n "END"); [|discriminate]. injection H as <-. auto.
Qed.

Section Prov.
Variables (w : world) (vars : smap tval).
Hypothesis Hs : ssorted vars.
Notation run p := (sexecs w (env0 vars) p).

Lemma run_rel p env : run p = Some env -> exists c, Rel c env.
Proof.
  intros H. destruct (start_rel vars Hs) as [R He]. pose proof (execs_spec w p _ _ R He) as X. rewrite H in X.
  destruct X as (c & _ & R' & _). eauto.
Qed.

Lemma not_in_app_is_var p s n : is_var vars (p ++ [s]) n <-> is_var vars p n \/ exists e, s = SAssign n e.
Proof.
  unfold is_var. split.
  - intros [H|[e H]]; [auto|]. apply in_app_or in H as [H|[H|[]]]; eauto.
  - intros [[H|[e H]]|[e H]]; [auto| |]; right; exists e; apply in_or_app; simpl; auto.
Qed.
Lemma is_elem_app p s n : is_elem (p ++ [s]) n <-> is_elem p n \/ exists t l, s = SElem n t l.
Proof.
  unfold is_elem. split.
  - intros (t & l & H). apply in_app_or in H as [H|[H|[]]]; eauto.
  - intros [(t & l & H)|(t & l & H)]; exists t, l; apply in_or_app; simpl; auto.
Qed.
Lemma is_line_app p s n : is_line (p ++ [s]) n <-> is_line p n \/ exists t l, s = SLine n t l.
Proof.
  unfold is_line. split.
  - intros (t & l & H). apply in_app_or in H as [H|[H|[]]]; eauto.
  - intros [(t & l & H)|(t & l & H)]; exists t, l; apply in_or_app; simpl; auto.
Qed.

Lemma assoc_snoc {A} n k (v : A) l :
  assoc n (l ++ [(k, v)]) <> None <-> assoc n l <> None \/ n = k.
Proof.
  rewrite assoc_app. simpl. destruct (assoc n l); [intuition discriminate|].
  destruct (String.eqb_spec n k); intuition discriminate.
Qed.

Lemma run_names p : forall env, run p = Some env ->
  (forall n, assoc n (e_vars env) <> None <-> is_var vars p n) /\
  (forall n, assoc n (e_elems env) <> None <-> is_elem p n) /\
  (forall n, assoc n (e_lines env) <> None <-> is_line p n).
Proof.
  induction p as [|s p IH] using rev_ind; intros env H.
  - injection H as <-. unfold is_var, is_elem, is_line. simpl. repeat split; try tauto.
    + intros [H|[e []]]; exact H.
    + intros (t & l & []).
    + intros (t & l & []).
  - apply sexecs_snoc in H as (e1 & H1 & H2). destruct (IH e1 H1) as (IV & IE & IL).
    apply sexec_cases in H2.
    assert (Same : (forall n, ~ exists e, s = SAssign n e) -> (forall n, ~ exists t l, s = SElem n t l) ->
       (forall n, ~ exists t l, s = SLine n t l) ->
      (forall n, assoc n (e_vars e1) <> None <-> is_var vars (p ++ [s]) n) /\
      (forall n, assoc n (e_elems e1) <> None <-> is_elem (p ++ [s]) n) /\
      (forall n, assoc n (e_lines e1) <> None <-> is_line (p ++ [s]) n)).
    { intros A1 A2 A3. split; [|split]; intros n; rewrite ?not_in_app_is_var, ?is_elem_app, ?is_line_app, ?IV, ?IE, ?IL;
        specialize (A1 n); specialize (A2 n); specialize (A3 n); tauto. }
    destruct s as [n e|n t l|n t l|f e|n].
    + destruct H2 as (v & _ & _ & _ & ->). simpl. split; [|split]; intros k;
        rewrite ?assoc_snoc, ?not_in_app_is_var, ?is_elem_app, ?is_line_app, ?IV, ?IE, ?IL.
      * split; (intros [?|?]; [auto|right]); [subst; eauto|]. destruct H. congruence.
      * split; [auto|]. intros [?|(? & ? & ?)]; [auto|discriminate].
      * split; [auto|]. intros [?|(? & ? & ?)]; [auto|discriminate].
    + destruct H2 as (v & _ & _ & _ & _ & ->). simpl. split; [|split]; intros k;
        rewrite ?assoc_snoc, ?not_in_app_is_var, ?is_elem_app, ?is_line_app, ?IV, ?IE, ?IL.
      * split; [auto|]. intros [?|(? & ?)]; [auto|discriminate].
      * split; (intros [?|?]; [auto|right]); [subst; eauto|]. destruct H as (? & ? & ?). congruence.
      * split; [auto|]. intros [?|(? & ? & ?)]; [auto|discriminate].
    + destruct H2 as (v & _ & _ & _ & ->). simpl. split; [|split]; intros k;
        rewrite ?assoc_snoc, ?not_in_app_is_var, ?is_elem_app, ?is_line_app, ?IV, ?IE, ?IL.
      * split; [auto|]. intros [?|(? & ?)]; [auto|discriminate].
      * split; [auto|]. intros [?|(? & ? & ?)]; [auto|discriminate].
      * split; (intros [?|?]; [auto|right]); [subst; eauto|]. destruct H as (? & ? & ?). congruence.
    + destruct H2 as (_ & -> & _). apply Same; intros k; [intros (? & ?)|intros (? & ? & ?)|intros (? & ? & ?)]; discriminate.
    + destruct H2 as (_ & ->). apply Same; intros k; [intros (? & ?)|intros (? & ? & ?)|intros (? & ? & ?)]; discriminate.
Qed.

(** Variables, elements and lines in the environment come from statements. *)
Lemma run_var p : forall env n v, run p = Some env -> assoc n (e_vars env) = Some v ->
  assoc n (presets vars) = Some v \/
  exists p1 e p2 e1, p = p1 ++ SAssign n e :: p2 /\ run p1 = Some e1 /\ seval w e1 e = Some v.
Proof.
  induction p as [|s p IH] using rev_ind; intros env n v H Hn.
  - injection H as <-. auto.
  - apply sexecs_snoc in H as (e1 & H1 & H2). apply sexec_cases in H2.
    assert (Old : assoc n (e_vars e1) = Some v -> assoc n (presets vars) = Some v \/
      exists p1 e p2 e1, p ++ [s] = p1 ++ SAssign n e :: p2 /\ run p1 = Some e1 /\ seval w e1 e = Some v).
    { intros Q. destruct (IH _ _ _ H1 Q) as [A|(p1 & e & p2 & e2 & -> & A & B)]; [auto|].
      right. exists p1, e, (p2 ++ [s]), e2. rewrite <- app_assoc. auto. }
    destruct s as [k e|k t l|k t l|f e|k].
    + destruct H2 as (u & Hu & _ & Hk & ->). simpl in Hn. rewrite assoc_app in Hn.
      destruct (assoc n (e_vars e1)) as [x|] eqn:En; [injection Hn as ->; auto|].
      simpl in Hn. destruct (String.eqb_spec n k) as [->|]; [|discriminate]. injection Hn as ->.
      right. exists p, e, [], e1. auto.
    + destruct H2 as (u & _ & _ & _ & _ & ->). auto.
    + destruct H2 as (u & _ & _ & _ & ->). auto.
    + destruct H2 as (_ & -> & _). auto.
    + destruct H2 as (_ & ->). auto.
Qed.

Lemma run_elem p : forall env n d, run p = Some env -> assoc n (e_elems env) = Some d ->
  exists p1 t l p2 e1 ps, p = p1 ++ SElem n t l :: p2 /\ run p1 = Some e1 /\ sprops w e1 l = Some ps /\ d = mkDef t ps.
Proof.
  induction p as [|s p IH] using rev_ind; intros env n d H Hn.
  - injection H as <-. discriminate.
  - apply sexecs_snoc in H as (e1 & H1 & H2). apply sexec_cases in H2.
    assert (Old : assoc n (e_elems e1) = Some d -> 
      exists p1 t l p2 e1 ps, p ++ [s] = p1 ++ SElem n t l :: p2 /\ run p1 = Some e1 /\ sprops w e1 l = Some ps /\ d = mkDef t ps).
    { intros Q. destruct (IH _ _ _ H1 Q) as (p1 & t & l & p2 & e2 & ps & -> & A & B & C).
      exists p1, t, l, (p2 ++ [s]), e2, ps. rewrite <- app_assoc. auto. }
    destruct s as [k e|k t l|k t l|f e|k].
    + destruct H2 as (u & Hu & _ & Hk & ->). auto.
    + destruct H2 as (u & Hu & _ & _ & _ & ->). simpl in Hn. rewrite assoc_app in Hn.
      destruct (assoc n (e_elems e1)) as [x|] eqn:En; [injection Hn as ->; auto|].
      simpl in Hn. destruct (String.eqb_spec n k) as [->|]; [|discriminate]. injection Hn as <-.
      exists p, t, l, [], e1, u. auto.
    + destruct H2 as (u & _ & _ & _ & ->). auto.
    + destruct H2 as (_ & -> & _). auto.
    + destruct H2 as (_ & ->). auto.
Qed.

(** The flattening of lines *)

Definition lines_flat (p : list stmt) (env : senv) : Prop :=
  forall n l, In (n, l) (e_lines env) ->
    exists p1 t ms p2 nss, p = p1 ++ SLine n t ms :: p2 /\ flats w vars p1 ms nss /\ l = List.concat nss.

Lemma assoc_in_unique {A} n (l : list (string * A)) v : NoDup (map fst l) -> In (n, v) l -> assoc n l = Some v.
Proof.
  induction l as [|[k x] l IH]; simpl; [intros _ []|]. intros Hnd [E|Hin].
  - injection E as -> ->. rewrite String.eqb_refl. reflexivity.
  - inversion Hnd; subst. destruct (String.eqb_spec n k) as [->|]; [|auto].
    exfalso. apply H1. apply in_map_iff. exists (k, v). auto.
Qed.

Lemma seval_flat p env : run p = Some env -> lines_flat p env ->
  forall e l, seval w env e = Some (SvLine l) -> flat w vars p e l.
Proof.
  intros H HL. destruct (run_rel p env H) as [c R]. destruct (run_names p env H) as (NV & NE & NL).
  induction e as [x|x|n|l0 IH|o a b IHa IHb|f a IHa] using tree_ind'; intros l E; try discriminate.
  - simpl in E. unfold slookup in E. destruct (assoc n (e_vars env)) as [v|] eqn:Ev.
    { injection E as ->. apply assoc_In in Ev. pose proof (r_stor _ _ R) as S. rewrite Forall_forall in S.
      apply S in Ev. discriminate. }
    assert (Hnv : ~ is_var vars p n) by (intros Q; apply NV in Q; congruence).
    unfold defined in E. destruct (assoc n (e_elems env)) as [d|] eqn:Ed.
    { injection E as <-. apply fl_elem; [exact Hnv|]. apply NE. congruence. }
    assert (Hne : ~ is_elem p n) by (intros Q; apply NE in Q; congruence).
    destruct (assoc n (e_lines env)) as [l'|] eqn:El.
    { injection E as ->. apply assoc_In in El. destruct (HL _ _ El) as (p1 & t & ms & p2 & nss & -> & Hf & ->).
      apply fl_line; auto. }
    destruct (String.eqb n "pi"); discriminate.
  - rewrite seval_vec in E. destruct (svec w env l0); discriminate.
  - simpl in E. destruct (seval w env a) as [x|] eqn:Ea; [|discriminate].
    destruct (seval w env b) as [y|] eqn:Eb; [|discriminate]. simpl in E. unfold sapply2 in E.
    destruct x, y; try discriminate.
    + repeat match type of E with (if ?q then _ else _) = _ => destruct q; try discriminate end.
      destruct (sdiv x x0); discriminate.
    + destruct (String.eqb_spec o "*") as [->|]; [|discriminate]. unfold srepeat in E.
      destruct (dle dzero x) eqn:D1; [|discriminate]. destruct (dle x (d_of_Z 4294967295)) eqn:D2; [|discriminate].
      simpl in E. injection E as <-. eapply fl_mul_l; eauto.
    + destruct (String.eqb_spec o "*") as [->|]; [|discriminate]. unfold srepeat in E.
      destruct (dle dzero x) eqn:D1; [|discriminate]. destruct (dle x (d_of_Z 4294967295)) eqn:D2; [|discriminate].
      simpl in E. injection E as <-. eapply fl_mul_r; eauto.
  - simpl in E. destruct (seval w env a) as [x|] eqn:Ea; [|discriminate]. simpl in E. unfold sapply1 in E.
    destruct x; try discriminate.
    + repeat match type of E with (if ?q then _ else _) = _ => destruct q; try discriminate end.
    + repeat match type of E with
        | (if ?b then _ else _) = _ => destruct b
        | option_map _ ?o = _ => destruct o; simpl in E
        end; discriminate.
    + destruct (String.eqb_spec f "-") as [->|]; [|discriminate]. injection E as <-. apply fl_rev. auto.
Qed.

Lemma snames_flat p env ms : run p = Some env -> lines_flat p env ->
  forall l, snames w env ms = Some l -> exists nss, flats w vars p ms nss /\ l = List.concat nss.
Proof.
  intros H HL. induction ms as [|e ms IH]; intros l E; simpl in E.
  - injection E as <-. exists []. split; [constructor|reflexivity].
  - destruct (seval w env e) as [v|] eqn:Ev; [|discriminate]. simpl in E.
    destruct (as_line v) as [x|] eqn:Ex; [|discriminate]. destruct (snames w env ms) as [y|]; [|discriminate].
    simpl in E. injection E as <-. destruct (IH y eq_refl) as (nss & Hn & ->).
    destruct v; try discriminate. injection Ex as ->. exists (x :: nss). split; [|reflexivity].
    constructor; [|exact Hn]. eapply seval_flat; eauto.
Qed.

Lemma run_flat p : forall env, run p = Some env -> lines_flat p env.
Proof.
  induction p as [|s p IH] using rev_ind; intros env H n l Hin.
  - injection H as <-. destruct Hin.
  - apply sexecs_snoc in H as (e1 & H1 & H2). apply sexec_cases in H2.
    assert (Old : In (n, l) (e_lines e1) ->
      exists p1 t ms p2 nss, p ++ [s] = p1 ++ SLine n t ms :: p2 /\ flats w vars p1 ms nss /\ l = List.concat nss).
    { intros Q. destruct (IH e1 H1 n l Q) as (p1 & t & ms & p2 & nss & -> & A & B).
      exists p1, t, ms, (p2 ++ [s]), nss. rewrite <- app_assoc. auto. }
    destruct s as [k e|k t ms|k t ms|f e|k].
    + destruct H2 as (u & Hu & _ & Hk & ->). auto.
    + destruct H2 as (u & Hu & _ & _ & _ & ->). auto.
    + destruct H2 as (ns & Hns & _ & _ & ->). simpl in Hin. apply in_app_or in Hin as [Hin|[Hin|[]]]; [auto|].
      injection Hin as <- <-. destruct (snames_flat p e1 ms H1 (IH e1 H1) ns Hns) as (nss & Hf & ->).
      exists p, t, ms, [], nss. auto.
    + destruct H2 as (_ & -> & _). auto.
    + destruct H2 as (_ & ->). auto.
Qed.
End Prov.
