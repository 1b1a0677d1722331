(** Proofs about List2Config: what each name is looked up as, and what is
    accepted. *)
From Coq Require Import List String Ascii NArith ZArith Bool Lia.
From Verif Require Import SMap SMap_Proofs Dbl Config_Model Config_Spec Glps_Model Machine_Model
  Py_Model Py_Spec Py_Proofs.
Import ListNotations.
Local Open Scope list_scope.

(** ** Last entries *)
Lemma entry_dec it k : (exists v, entry it k v) \/ (forall v, ~ entry it k v).
Proof.
  destruct (parse_item it) as [[k' v]|] eqn:E.
  - destruct (string_dec k' k) as [->|N].
    + left. exists v. apply parse_entry. exact E.
    + right. intros w H. apply parse_entry in H. rewrite E in H. injection H as -> _. contradiction.
  - right. intros w H. apply parse_entry in H. rewrite E in H. discriminate.
Qed.
Lemma no_entry_snoc k l it : no_entry k (l ++ [it]) <-> no_entry k l /\ forall v, ~ entry it k v.
Proof.
  unfold no_entry. split.
  - intros H. split; [intros i v G|intros v]; apply H; apply in_or_app; [left; exact G|right; left; reflexivity].
  - intros [A B] i v G. apply in_app_or in G as [G|[<-|[]]]; [apply A; exact G|apply B].
Qed.
Lemma last_snoc k l it pre v :
  last_entry k (l ++ [it]) pre v <->
  (entry it k v /\ pre = l) \/ ((forall w, ~ entry it k w) /\ last_entry k l pre v).
Proof.
  split.
  - intros (i & post & E & He & Hn).
    destruct (exists_last (l := i :: post)) as (q & j & Q); [discriminate|].
    rewrite Q, app_assoc in E. apply app_inj_tail in E as [El Ei]. subst j l.
    destruct q as [|q0 q].
    + cbn in Q. injection Q as -> ->. left. split; [exact He|]. rewrite app_nil_r. reflexivity.
    + cbn in Q. injection Q as <- ->. apply no_entry_snoc in Hn as [Hn Hi]. right. split; [exact Hi|].
      exists i, q. split; [reflexivity|]. split; assumption.
  - intros [[He ->]|[Hi (i & post & -> & He & Hn)]].
    + exists it, []. split; [reflexivity|]. split; [exact He|]. intros ? ? [].
    + exists i, (post ++ [it]). rewrite <- app_assoc. split; [reflexivity|]. split; [exact He|].
      apply no_entry_snoc. split; assumption.
Qed.
Lemma last_fun k l pre v pre' v' : last_entry k l pre v -> last_entry k l pre' v' -> pre = pre' /\ v = v'.
Proof.
  induction l as [|it l IH] using rev_ind.
  - intros (i & post & E & _). destruct pre; discriminate.
  - intros A B. apply last_snoc in A, B.
    destruct A as [[A ->]|[A1 A2]], B as [[B ->]|[B1 B2]].
    + destruct (entry_fun _ _ _ _ _ A B) as [_ ->]. split; reflexivity.
    + elim (B1 _ A).
    + elim (A1 _ B).
    + exact (IH A2 B2).
Qed.
Lemma last_no k l pre v : last_entry k l pre v -> no_entry k l -> False.
Proof.
  intros (i & post & -> & He & _) H. apply (H i v); [|exact He]. apply in_or_app. right. left. reflexivity.
Qed.
Lemma entry_cases k l : no_entry k l \/ exists pre v, last_entry k l pre v.
Proof.
  induction l as [|it l IH] using rev_ind; [left; intros ? ? []|].
  destruct (entry_dec it k) as [[v Hv]|Hn].
  - right. exists l, v. apply last_snoc. left. split; [exact Hv|reflexivity].
  - destruct IH as [IH|(pre & v & IH)].
    + left. apply no_entry_snoc. split; assumption.
    + right. exists pre, v. apply last_snoc. right. split; assumption.
Qed.

(** ** The loop *)
Section Loop.
Context (rec : tcfg -> list pyobj -> py tcfg).

Lemma take_app ret l1 l2 :
  take_items rec ret (l1 ++ l2) = pbind (take_items rec ret l1) (fun c => take_items rec c l2).
Proof.
  revert ret. induction l1 as [|it l1 IH]; intros ret; [reflexivity|]. cbn [app take_items].
  destruct (parse_item it) as [[k v]|]; [|reflexivity].
  destruct (to_value rec ret v); cbn [pbind]; [apply IH|reflexivity|reflexivity].
Qed.
Lemma take_snoc ret l it c :
  take_items rec ret (l ++ [it]) = Ret c ->
  exists c0 k v x, take_items rec ret l = Ret c0 /\ entry it k v /\ to_value rec c0 v = Ret x /\ c = tset k x c0.
Proof.
  rewrite take_app. destruct (take_items rec ret l) as [c0| |] eqn:E; try discriminate. cbn [pbind take_items].
  destruct (parse_item it) as [[k v]|] eqn:P; [|discriminate].
  destruct (to_value rec c0 v) as [x| |] eqn:V; try discriminate. cbn [pbind].
  intros H. injection H as <-. exists c0, k, v, x. repeat split; try assumption. apply parse_entry. exact P.
Qed.

Lemma take_inv ret l c : take_items rec ret l = Ret c ->
  touter c = touter ret /\
  (ssorted (town ret) -> ssorted (town c)) /\
  (forall k, no_entry k l -> sfind k (town c) = sfind k (town ret)) /\
  (forall k pre v, last_entry k l pre v -> exists c0 x,
     take_items rec ret pre = Ret c0 /\ to_value rec c0 v = Ret x /\ sfind k (town c) = Some x).
Proof.
  revert c. induction l as [|it l IH] using rev_ind; intros c H.
  - injection H as <-. repeat split; try tauto. intros k pre v (i & post & E & _). destruct pre; discriminate.
  - destruct (take_snoc _ _ _ _ H) as (c0 & k & v & x & E0 & He & Hv & ->).
    destruct (IH _ E0) as (I1 & I2 & I3 & I4). cbn [tset touter town]. repeat split.
    + exact I1.
    + intros S0. apply sset_sorted. exact (I2 S0).
    + intros n Hn. apply no_entry_snoc in Hn as [Hn Hi]. rewrite sfind_sset.
      destruct (String.eqb_spec n k) as [->|Nk]; [elim (Hi _ He)|]. exact (I3 _ Hn).
    + intros n pre w Hw. rewrite sfind_sset. apply last_snoc in Hw as [[Hw ->]|[Hi Hw]].
      * destruct (entry_fun _ _ _ _ _ He Hw) as [-> ->]. rewrite String.eqb_refl.
        exists c0, x. repeat split; assumption.
      * destruct (String.eqb_spec n k) as [->|Nk]; [elim (Hi _ He)|].
        destruct (I4 _ _ _ Hw) as (c1 & y & A & B & C). exists c1, y. repeat split; assumption.
Qed.

Lemma to_configs_inv ret l cs : to_configs rec ret l = Ret cs ->
  Forall2 (fun e g => exists its, holds e its /\ rec (tscope ret) its = Ret g) l cs.
Proof.
  revert cs. induction l as [|e l IH]; intros cs H; cbn [to_configs] in H.
  - injection H as <-. constructor.
  - destruct (entries e) as [its|] eqn:E; [|discriminate].
    destruct (rec (tscope ret) its) as [g| |] eqn:R; try discriminate. cbn [pbind] in H.
    destruct (to_configs rec ret l) as [gs| |] eqn:G; try discriminate. cbn [pbind] in H. injection H as <-.
    constructor; [|exact (IH _ eq_refl)]. exists its. split; [apply entries_holds; exact E|exact R].
Qed.

Lemma value_cases ret v x : to_value rec ret v = Ret x ->
  leaf v x \/ (v = PyBytes EmptyString /\ x = TCfgs []) \/
  exists es cs, configs v es /\ x = TCfgs cs /\
    Forall2 (fun e g => exists its, holds e its /\ rec (tscope ret) its = Ret g) es cs.
Proof.
  intros H. destruct v as [|[d|]|u|b|nd [a|]|l|l|l|d|]; cbn [to_value] in H; try discriminate.
  - injection H as <-. left. constructor.
  - destruct (utf8 u) as [b|] eqn:E; [|discriminate]. injection H as <-. left.
    apply (l_str u (map N_of_ascii b)); [exact (utf8_text _ _ E)|]. apply text_string. rewrite chars_string. exact (utf8_before _ _ E).
  - destruct b; [|discriminate]. injection H as <-. right. left. split; reflexivity.
  - destruct (Nat.leb_spec nd 2) as [L|L]; [|discriminate]. injection H as <-. left. constructor. exact L.
  - destruct (to_configs rec ret l) as [cs| |] eqn:E; try discriminate. injection H as <-.
    right. right. exists l, cs. repeat split; [constructor|]. exact (to_configs_inv _ _ _ E).
  - destruct (to_configs rec ret l) as [cs| |] eqn:E; try discriminate. injection H as <-.
    right. right. exists l, cs. repeat split; [constructor|]. exact (to_configs_inv _ _ _ E).
Qed.
End Loop.

Lemma Forall2_len {A B} (P : A -> B -> Prop) l l' : Forall2 P l l' -> List.length l' = List.length l.
Proof. induction 1; cbn; congruence. Qed.
Lemma F2_impl {A B} (P Q : A -> B -> Prop) l l' :
  (forall a b, P a b -> Q a b) -> Forall2 P l l' -> Forall2 Q l l'.
Proof. intros H. induction 1; constructor; auto. Qed.
Lemma configs_fun v es es' : configs v es -> configs v es' -> es = es'.
Proof. intros A B. destruct A; inversion B; reflexivity. Qed.
Lemma leaf_configs v x es : leaf v x -> configs v es -> False.
Proof. intros A B. destruct A; inversion B. Qed.
Lemma leaf_fun v x y : leaf v x -> leaf v y -> x = y.
Proof.
  intros A B. inversion A; subst; inversion B; subst; try reflexivity.
  f_equal. apply text_string in H0, H3. rewrite H0 in H3. apply some_inj in H3.
  rewrite <- (string_chars s), <- H3. apply string_chars.
Qed.

Lemma sfind_tfind k c : touter c = [] -> sfind k (town c) = tfind k c.
Proof. intros H. unfold tfind. rewrite H. destruct (sfind k (town c)); reflexivity. Qed.
Lemma tfind_tscope n c : tfind n (tscope c) = tfind n c.
Proof. unfold tfind, tscope. cbn [town touter sfind]. rewrite sfind_smerge. reflexivity. Qed.

Lemma level_takes room ret l c : list2config room ret l = Ret c -> town ret = [] ->
  takes (fun n => tfind n ret) l c.
Proof.
  intros H T. destruct room as [|r]; [discriminate|]. cbn [list2config] in H.
  destruct (take_inv _ _ _ _ H) as (I1 & I2 & I3 & I4). split.
  - intros n Hn. unfold tfind. rewrite (I3 _ Hn), I1. reflexivity.
  - intros n pre v Hv. destruct (I4 _ _ _ Hv) as (c0 & x & E0 & Ex & Es).
    unfold tfind. rewrite Es. destruct (value_cases _ _ _ _ Ex) as [L|[[-> ->]|(es & cs & Hc & -> & F)]].
    + left. exists x. split; [exact L|reflexivity].
    + right. right. split; reflexivity.
    + right. left. exists es, cs. repeat split; [exact Hc|exact (Forall2_len _ _ _ F)].
Qed.

Lemma level_elements r ret l c k pre v es : list2config (S r) ret l = Ret c ->
  last_entry k l pre v -> configs v es -> exists c0 cs,
    list2config (S r) ret pre = Ret c0 /\ sfind k (town c) = Some (TCfgs cs) /\
    Forall2 (fun e g => exists its, holds e its /\ list2config r (tscope c0) its = Ret g) es cs.
Proof.
  intros H Hl Hc. cbn [list2config] in *.
  destruct (take_inv _ _ _ _ H) as (I1 & I2 & I3 & I4).
  destruct (I4 _ _ _ Hl) as (c0 & x & E0 & Ex & Es).
  destruct (value_cases _ _ _ _ Ex) as [L|[[-> ->]|(es' & cs & Hc' & -> & F)]].
  - elim (leaf_configs _ _ _ L Hc).
  - inversion Hc.
  - rewrite (configs_fun _ _ _ Hc Hc'). exists c0, cs. repeat split; assumption.
Qed.

Theorem top_takes l c : list2conf l = Ret c -> takes (fun _ => None) l c.
Proof.
  intros H. destruct (level_takes _ _ _ _ H eq_refl) as [A B]. split; [|exact B].
  intros n Hn. rewrite (A _ Hn). reflexivity.
Qed.
Theorem elements_take l c k pre v es : list2conf l = Ret c -> last_entry k l pre v -> configs v es ->
  exists c0 cs, list2conf pre = Ret c0 /\ tfind k c = Some (TCfgs cs) /\
    Forall2 (fun e g => exists its, holds e its /\ takes (fun n => tfind n c0) its g) es cs.
Proof.
  intros H Hl Hc. destruct (level_elements 3 (TCfg [] []) _ _ _ _ _ _ H Hl Hc) as (c0 & cs & E0 & Es & F).
  exists c0, cs. split; [exact E0|]. split; [unfold tfind; rewrite Es; reflexivity|].
  revert F. apply F2_impl. intros e g (its & Hh & Hg). exists its. split; [exact Hh|].
  destruct (level_takes _ _ _ _ Hg eq_refl) as [A B]. split; [|exact B].
  intros n Hn. rewrite (A _ Hn). apply tfind_tscope.
Qed.

(** ** What is accepted *)
Lemma never_crash room ret l : list2config room ret l <> Crash.
Proof.
  revert ret l. induction room as [|r IH]; intros ret l; [discriminate|]. cbn [list2config].
  assert (T : forall ret l, to_configs (list2config r) ret l <> Crash).
  { intros ret0 es. induction es as [|e es IHe]; [discriminate|]. cbn [to_configs].
    destruct (entries e) as [its|]; [|discriminate].
    destruct (list2config r (tscope ret0) its) eqn:E; cbn [pbind]; [|discriminate|elim (IH _ _ E)].
    destruct (to_configs (list2config r) ret0 es) eqn:F; cbn [pbind]; [discriminate|discriminate|elim IHe; reflexivity]. }
  revert ret. induction l as [|it l IHl]; intros ret; [discriminate|]. cbn [take_items].
  destruct (parse_item it) as [[k v]|]; [|discriminate].
  destruct (to_value (list2config r) ret v) eqn:E; cbn [pbind]; [apply IHl|discriminate|].
  destruct v as [|[d|]|u|b|nd [a0|]|l0|l0|l0|d|]; cbn [to_value] in E; try discriminate.
  - destruct (utf8 u); discriminate.
  - destruct b; discriminate.
  - destruct (Nat.leb nd 2); discriminate.
  - destruct (to_configs (list2config r) ret l0) eqn:F; try discriminate. elim (T _ _ F).
  - destruct (to_configs (list2config r) ret l0) eqn:F; try discriminate. elim (T _ _ F).
Qed.

Lemma to_leaf rec ret v x : leaf v x -> to_value rec ret v = Ret x.
Proof.
  intros []; cbn [to_value].
  - reflexivity.
  - destruct (Nat.leb_spec nd 2); [reflexivity|lia].
  - apply text_utf8 in H. rewrite H. apply text_string in H0. rewrite (utf8_before _ _ H) in H0.
    injection H0 as ->. rewrite string_chars. reflexivity.
Qed.

Lemma items_accepted rec r ret l :
  (forall ret v, (exists x, to_value rec ret v = Ret x) <-> convertible r v) ->
  ((exists c, take_items rec ret l = Ret c) <-> convertible_items r l).
Proof.
  intros V. revert ret. induction l as [|it l IH]; intros ret.
  - split; intros; [constructor|exists ret; reflexivity].
  - cbn [take_items]. split.
    + intros [c H]. destruct (parse_item it) as [[k v]|] eqn:P; [|discriminate].
      destruct (to_value rec ret v) as [x| |] eqn:E; try discriminate. cbn [pbind] in H. constructor.
      * exists k, v. split; [apply parse_entry; exact P|]. apply (V ret). exists x. exact E.
      * apply (IH (tset k x ret)). exists c. exact H.
    + intros H. inversion H as [|? ? (k & w & He & Hw) Hl]; subst. apply parse_entry in He. rewrite He.
      apply (V ret) in Hw as [x Hx]. rewrite Hx. cbn [pbind]. apply IH. exact Hl.
Qed.

Lemma value_accepted r ret v : (exists x, to_value (list2config r) ret v = Ret x) <-> convertible r v.
Proof.
  revert ret v. induction r as [|r IH]; intros ret v.
  - split.
    + intros [x H]. cbn [convertible]. destruct (value_cases _ _ _ _ H) as [L|[[-> ->]|(es & cs & Hc & -> & F)]].
      * left. exists x. exact L.
      * right. left. reflexivity.
      * right. right. exists es. split; [exact Hc|]. destruct F as [|e g es cs (its & _ & G) F]; [reflexivity|discriminate].
    + intros [[x L]|[->|(es & Hc & ->)]].
      * exists x. exact (to_leaf _ _ _ _ L).
      * exists (TCfgs []). reflexivity.
      * exists (TCfgs []). inversion Hc; reflexivity.
  - assert (C : forall es, (exists cs, to_configs (list2config (S r)) ret es = Ret cs) <->
        Forall (fun e => exists its, holds e its /\ convertible_items r its) es).
    { intros es. induction es as [|e es IHe].
      - split; intros; [constructor|exists []; reflexivity].
      - cbn [to_configs]. split.
        + intros [cs H]. destruct (entries e) as [its|] eqn:E; [|discriminate].
          destruct (list2config (S r) (tscope ret) its) as [g| |] eqn:G; try discriminate. cbn [pbind] in H.
          destruct (to_configs (list2config (S r)) ret es) as [gs| |] eqn:Gs; try discriminate.
          constructor; [|apply IHe; exists gs; reflexivity].
          exists its. split; [apply entries_holds; exact E|].
          apply (items_accepted (list2config r) r (tscope ret) its IH). exists g. exact G.
        + intros H. inversion H as [|? ? (its & Hh & Hi) Hes]; subst. apply entries_holds in Hh. rewrite Hh.
          apply (items_accepted (list2config r) r (tscope ret) its IH) in Hi as [g G].
          cbn [list2config]. rewrite G. cbn [pbind]. apply IHe in Hes as [gs Gs]. cbn [list2config] in Gs.
          rewrite Gs. exists (g :: gs). reflexivity. }
    split.
    + intros [x H]. cbn [convertible]. destruct (value_cases _ _ _ _ H) as [L|[[-> ->]|(es & cs & Hc & -> & F)]].
      * left. exists x. exact L.
      * right. left. reflexivity.
      * right. right. exists es. split; [exact Hc|]. apply C.
        destruct Hc; cbn [to_value] in H; destruct (to_configs (list2config (S r)) ret l) as [gs| |] eqn:Gs;
          try discriminate; exists gs; reflexivity.
    + intros [[x L]|[->|(es & Hc & He)]].
      * exists x. exact (to_leaf _ _ _ _ L).
      * exists (TCfgs []). reflexivity.
      * apply C in He as [cs Hcs]. exists (TCfgs cs). destruct Hc; cbn [to_value]; rewrite Hcs; reflexivity.
Qed.

Theorem accepted l : (exists c, list2conf l = Ret c) <-> convertible_items 3 l.
Proof. apply (items_accepted (list2config 3) 3 (TCfg [] []) l (value_accepted 3)). Qed.
Theorem otherwise_raises l : ~ convertible_items 3 l -> list2conf l = Raise.
Proof.
  intros H. destruct (list2conf l) as [c| |] eqn:E; [|reflexivity|elim (never_crash _ _ _ E)].
  elim H. apply accepted. exists c. exact E.
Qed.
Theorem nested_take l c k pre v es : list2conf l = Ret c -> last_entry k l pre v -> configs v es ->
  exists c0 cs, takes (fun _ => None) pre c0 /\ tfind k c = Some (TCfgs cs) /\
    Forall2 (fun e g => exists its, holds e its /\ takes (fun n => tfind n c0) its g) es cs.
Proof.
  intros H Hl Hc. destruct (elements_take _ _ _ _ _ _ H Hl Hc) as (c0 & cs & E0 & E1 & F).
  exists c0, cs. split; [exact (top_takes _ _ E0)|]. split; [exact E1|exact F].
Qed.
