(** Proofs about Machine.conf() of the Python package. *)
From Coq Require Import List String Ascii NArith ZArith Bool Arith Lia.
From Verif Require Import SMap SMap_Proofs Dbl Config_Model Config_Spec Config2_Proofs Glps_Model Machine_Model Py_Model Py_Spec Py_Proofs Py2_Proofs Py3_Proofs Py5_Proofs Py6_Proofs Py7_Proofs Machine3_Proofs Glps6_Proofs Odict_Model Odict_Spec.
Import ListNotations.
Local Open Scope list_scope.

Lemma same_str_eq u v : same_str u v = true <-> u = v.
Proof.
  revert v. induction u as [|a u IH]; intros [|b v]; cbn; try (split; congruence).
  rewrite andb_true_iff, N.eqb_eq, IH. split; [intros [-> ->]; reflexivity|injection 1; auto].
Qed.
Definition pair_of (kv : list N * pyobj) : pyobj := PyTuple [PyStr (fst kv); snd kv].
Definition item_of (kv : list N * pyobj) : pyobj * pyobj := (PyStr (fst kv), snd kv).
Lemma put_new k v d : ~ In k (map fst d) -> put k v d = d ++ [(k, v)].
Proof.
  induction d as [|[k' v'] d IH]; cbn; intros H; [reflexivity|].
  destruct (same_str k k') eqn:E; [apply same_str_eq in E; subst; exfalso; auto|]. rewrite IH by auto. reflexivity.
Qed.
Lemma put_all_new l d : NoDup (map fst (d ++ l)) -> put_all d (map pair_of l) = Ret (d ++ l).
Proof.
  revert d. induction l as [|[k v] l IH]; intros d H; cbn; [rewrite app_nil_r; reflexivity|].
  rewrite put_new.
  - rewrite IH; rewrite <- app_assoc; [reflexivity|exact H].
  - rewrite map_app in H. cbn in H. apply NoDup_remove_2 in H. intros Hi. apply H. apply in_or_app. left. exact Hi.
Qed.
Lemma odict_new l : NoDup (map fst l) -> odict (map pair_of l) = Ret (map item_of l).
Proof. intros H. unfold odict. rewrite (put_all_new l [] H). reflexivity. Qed.
Lemma put_all_total l d : (forall it, In it l -> exists u v, it = PyTuple [PyStr u; v]) -> exists d', put_all d l = Ret d'.
Proof.
  revert d. induction l as [|it l IH]; intros d H; [eexists; reflexivity|].
  destruct (H it (or_introl eq_refl)) as (u & v & ->). cbn. apply IH. intros i Hi. apply H. right. exact Hi.
Qed.
Lemma odict_total l : (forall it, In it l -> exists u v, it = PyTuple [PyStr u; v]) -> exists d, odict l = Ret d.
Proof. intros H. destruct (put_all_total l [] H) as (d & E). unfold odict. rewrite E. eexists. reflexivity. Qed.

(** ** shapes *)
Lemma entry_shape e it : shown_entry e it -> exists u v, it = PyTuple [PyStr u; v] /\ text u (before_nul (bytes (fst e))) /\ shown (snd e) v.
Proof. intros H. inversion H as [k v q p Hk Hv]; subst. inversion Hk; subst. eexists _, _. split; [reflexivity|]. split; assumption. Qed.
Lemma entries_pairs es l : Forall2 shown_entry es l ->
  exists kvs, l = map pair_of kvs /\ Forall2 (fun e kv => text (fst kv) (before_nul (bytes (fst e))) /\ shown (snd e) (snd kv)) es kvs.
Proof.
  induction 1 as [|e it es l H F (kvs & -> & Hk)]; [exists []; split; [reflexivity|constructor]|].
  apply entry_shape in H as (u & v & -> & Hu & Hv). exists ((u, v) :: kvs). split; [reflexivity|]. constructor; [split; assumption|exact Hk].
Qed.
Lemma config_pairs c p : shown_config c p ->
  exists kvs, p = PyList (map pair_of kvs) /\ Forall2 (fun e kv => text (fst kv) (before_nul (bytes (fst e))) /\ shown (snd e) (snd kv)) (town c) kvs.
Proof. intros H. inversion H as [own outer its F]; subst. apply entries_pairs in F as (kvs & -> & F). exists kvs. split; [reflexivity|exact F]. Qed.

(** ** conf() always gives a dict *)
Lemma odicts_total cs ps : Forall2 shown_config cs ps -> exists ds, odicts ps = Ret ds.
Proof.
  induction 1 as [|c p cs ps H F (ds & E)]; [eexists; reflexivity|].
  apply config_pairs in H as (kvs & -> & Hk). cbn.
  destruct (odict_total (map pair_of kvs)) as (d & Ed).
  { intros it Hi. apply in_map_iff in Hi as ([u v] & <- & _). exists u, v. reflexivity. }
  rewrite Ed. cbn. rewrite E. cbn. eexists. reflexivity.
Qed.
Lemma values_total es l : Forall2 shown_entry es l -> exists r, dict_values l = Ret r /\ forall it, In it r -> exists u v, it = PyTuple [PyStr u; v].
Proof.
  induction 1 as [|e it es l H F (r & E & Hr)]; [exists []; split; [reflexivity|intros ? []]|].
  apply entry_shape in H as (u & v & -> & Hu & Hv).
  assert (Hs : (exists ps, v = PyList ps) \/ (forall ps, v <> PyList ps)).
  { destruct v; try (right; discriminate). left. eexists. reflexivity. }
  destruct Hs as [(ps & ->)|Hs].
  - inversion Hv as [| | |cs ps' Hc]; subst. destruct (odicts_total _ _ Hc) as (ds & Ed). cbn. rewrite Ed. cbn. rewrite E. cbn.
    eexists. split; [reflexivity|]. intros i [<-|Hi]; [eexists _, _; reflexivity|auto].
  - exists (PyTuple [PyStr u; v] :: r). split.
    + destruct v; cbn; try (rewrite E; reflexivity). destruct (Hs l0 eq_refl).
    + intros i [<-|Hi]; [eexists _, _; reflexivity|auto].
Qed.
Lemma list2odict_total es l : Forall2 shown_entry es l -> exists d, list2odict l = Ret d.
Proof.
  intros H. destruct (values_total _ _ H) as (r & E & Hr). unfold list2odict. rewrite E. cbn. apply odict_total. exact Hr.
Qed.

(** ** with names that stay apart *)
Definition goodk (es : smap tval) : Prop := ssorted es /\ forall k x, In (k, x) es -> ~ has_nul (bytes k).
Lemma text_inj s s' u : text u (bytes s) -> text u (bytes s') -> s = s'.
Proof.
  intros H H'. apply text_string in H. apply text_string in H'. rewrite H in H'. injection H' as H'.
  rewrite <- (string_chars s), <- (string_chars s'), H'. reflexivity.
Qed.
Definition kv_ok (R : tval -> pyobj -> Prop) (e : string * tval) (kv : list N * pyobj) : Prop := text (fst kv) (bytes (fst e)) /\ R (snd e) (snd kv).
Lemma Forall2_in_l {X Y} (R : X -> Y -> Prop) l m x : Forall2 R l m -> In x l -> exists y, In y m /\ R x y.
Proof. induction 1 as [|a b l m H F IH]; intros Hi; [destruct Hi|]. destruct Hi as [<-|Hi]; [exists b; split; [left; reflexivity|exact H]|]. destruct (IH Hi) as (y & Hy & Hr). exists y. split; [right; exact Hy|exact Hr]. Qed.
Lemma Forall2_in_r {X Y} (R : X -> Y -> Prop) l m y : Forall2 R l m -> In y m -> exists x, In x l /\ R x y.
Proof. induction 1 as [|a b l m H F IH]; intros Hi; [destruct Hi|]. destruct Hi as [<-|Hi]; [exists a; split; [left; reflexivity|exact H]|]. destruct (IH Hi) as (x & Hx & Hr). exists x. split; [right; exact Hx|exact Hr]. Qed.
Lemma keys_nodup R es kvs : ssorted es -> Forall2 (kv_ok R) es kvs -> NoDup (map fst kvs).
Proof.
  intros H F. induction F as [|[k x] [u v] es kvs [Ht _] F IH]; cbn; [constructor|].
  cbn in H, Ht. destruct H as [H1 H2]. constructor; [|auto].
  intros Hi. apply in_map_iff in Hi as ([u' v'] & E & Hi). cbn in E. subst u'.
  destruct (Forall2_in_r _ _ _ _ F Hi) as ([k' x'] & Hk & [Ht' _]). cbn in Ht'.
  rewrite <- (text_inj _ _ _ Ht Ht') in Hk. exact (str_lt_irrefl _ (H1 _ _ Hk)).
Qed.
Lemma before_ok es kvs (R : tval -> pyobj -> Prop) : (forall k x, In (k, x) es -> ~ has_nul (bytes k)) ->
  Forall2 (fun e kv => text (fst kv) (before_nul (bytes (fst e))) /\ R (snd e) (snd kv)) es kvs -> Forall2 (kv_ok R) es kvs.
Proof.
  intros H F. induction F as [|[k x] kv es kvs [Ht Hr] F IH]; constructor.
  - split; [|exact Hr]. cbn in *. rewrite before_id in Ht by (apply (H k x); left; reflexivity). exact Ht.
  - apply IH. intros k' x' Hi. apply (H k' x'). right. exact Hi.
Qed.
Lemma dict_shows_of R (find : string -> option tval) es kvs : ssorted es -> (forall n, sfind n es = find n) ->
  Forall2 (kv_ok R) es kvs -> dict_shows R find (map item_of kvs).
Proof.
  intros H Hf F. split.
  - rewrite map_map. cbn. pose proof (keys_nodup _ _ _ H F) as N. clear -N. induction kvs as [|kv kvs IH]; cbn in *; [constructor|].
    inversion N as [|? ? N1 N2]; subst. constructor; [|auto]. intros Hi. apply in_map_iff in Hi as (x & E & Hi). injection E as E. apply N1.
    apply in_map_iff. exists x. split; assumption.
  - exists es. split; [exact H|]. split; [exact Hf|]. clear -F. induction F as [|e kv es kvs [Ht Hr] F IH]; constructor; [|exact IH].
    exists (fst kv). cbn. auto.
Qed.

(** What becomes of a value. *)
Inductive conv : pyobj -> pyobj -> Prop :=
| cv_same v : (forall ps, v <> PyList ps) -> conv v v
| cv_list kvss : conv (PyList (map (fun kvs => PyList (map pair_of kvs)) kvss)) (PyList (map (fun kvs => PyDict (map item_of kvs)) kvss)).
Definition list_ok (v : tval) : Prop := forall cs g, v = TCfgs cs -> In g cs -> ssorted (town g) /\ forall k x, In (k, x) (town g) -> ~ has_nul (bytes k).

Lemma odicts_good cs ps : (forall g, In g cs -> ssorted (town g) /\ forall k x, In (k, x) (town g) -> ~ has_nul (bytes k)) ->
  Forall2 shown_config cs ps -> exists kvss, ps = map (fun kvs => PyList (map pair_of kvs)) kvss /\
    odicts ps = Ret (map (fun kvs => PyDict (map item_of kvs)) kvss) /\
    Forall2 (fun c d => dict_shows shown (fun n => sfind n (town c)) d) cs (map (map item_of) kvss).
Proof.
  intros Hg F. induction F as [|c p cs ps H F IH]; [exists []; repeat split; constructor|].
  destruct IH as (kvss & -> & Eo & Fd); [intros g Hi; apply Hg; right; exact Hi|].
  apply config_pairs in H as (kvs & -> & Hk). destruct (Hg c (or_introl eq_refl)) as [Hs Hn].
  apply (before_ok _ _ shown Hn) in Hk. exists (kvs :: kvss). split; [reflexivity|].
  split.
  - cbn [odicts map]. rewrite odict_new by exact (keys_nodup _ _ _ Hs Hk). cbn [pbind]. rewrite Eo. reflexivity.
  - cbn [map]. constructor; [|exact Fd]. apply (dict_shows_of shown _ (town c)); auto.
Qed.
Lemma values_good es l : (forall k x, In (k, x) es -> ~ has_nul (bytes k) /\ list_ok x) -> Forall2 shown_entry es l ->
  exists kvs kvs', l = map pair_of kvs /\ dict_values l = Ret (map pair_of kvs') /\
    Forall2 (fun a b => fst a = fst b /\ conv (snd a) (snd b)) kvs kvs' /\ Forall2 (kv_ok held) es kvs'.
Proof.
  intros Hg F. induction F as [|[k x] it es l H F IH]; [exists [], []; repeat split; constructor|].
  destruct IH as (kvs & kvs' & -> & Ed & Fc & Fk); [intros k' x' Hi; apply Hg; right; exact Hi|].
  destruct (Hg k x (or_introl eq_refl)) as [Hn Hl].
  apply entry_shape in H as (u & v & -> & Hu & Hv). cbn [fst snd] in Hu, Hv. rewrite before_id in Hu by exact Hn.
  assert (Hs : (exists cs, x = TCfgs cs) \/ scalar x) by (destruct x; [right; exact I..|left; eexists; reflexivity]).
  destruct Hs as [(cs & ->)|Hs].
  - inversion Hv as [| | |cs' ps Hc]; subst. destruct (odicts_good cs ps) as (kvss & -> & Eo & Fd); [intros g; apply (Hl cs g eq_refl)|exact Hc|].
    exists ((u, PyList (map (fun kvs => PyList (map pair_of kvs)) kvss)) :: kvs), ((u, PyList (map (fun kvs => PyDict (map item_of kvs)) kvss)) :: kvs').
    split; [reflexivity|]. split; [|split].
    + cbn [dict_values map pair_of fst snd]. rewrite Eo. cbn [pbind]. rewrite Ed. reflexivity.
    + constructor; [|exact Fc]. split; [reflexivity|]. constructor.
    + constructor; [|exact Fk]. split; [exact Hu|]. cbn [snd]. rewrite <- (map_map (map item_of) PyDict). apply he_list. exact Fd.
  - exists ((u, v) :: kvs), ((u, v) :: kvs'). split; [reflexivity|].
    assert (Hp : forall ps, v <> PyList ps) by (intros ps ->; inversion Hv; subst; exact Hs).
    split; [|split].
    + cbn [dict_values map pair_of fst snd]. rewrite Ed. cbn [pbind]. destruct v; try reflexivity. destruct (Hp _ eq_refl).
    + constructor; [|exact Fc]. split; [reflexivity|]. constructor. exact Hp.
    + constructor; [|exact Fk]. split; [exact Hu|]. constructor; assumption.
Qed.
Lemma list2odict_good es l : ssorted es -> (forall k x, In (k, x) es -> ~ has_nul (bytes k) /\ list_ok x) -> Forall2 shown_entry es l ->
  exists kvs kvs', l = map pair_of kvs /\ list2odict l = Ret (map item_of kvs') /\
    Forall2 (fun a b => fst a = fst b /\ conv (snd a) (snd b)) kvs kvs' /\ Forall2 (kv_ok held) es kvs'.
Proof.
  intros Hs Hg F. destruct (values_good _ _ Hg F) as (kvs & kvs' & -> & Ed & Fc & Fk). exists kvs, kvs'. split; [reflexivity|]. split; [|auto].
  unfold list2odict. rewrite Ed. cbn [pbind]. apply odict_new. exact (keys_nodup _ _ _ Hs Fk).
Qed.

(** ** the same Config *)
Lemma dict_items_of kvs : dict_items (map item_of kvs) = map pair_of kvs.
Proof. unfold dict_items. rewrite map_map. reflexivity. Qed.
Lemma to_configs_conv rec ret kvss : to_configs rec ret (map (fun kvs => PyDict (map item_of kvs)) kvss) = to_configs rec ret (map (fun kvs => PyList (map pair_of kvs)) kvss).
Proof. induction kvss as [|kvs kvss IH]; [reflexivity|]. cbn [map to_configs entries]. rewrite dict_items_of, IH. reflexivity. Qed.
Lemma to_value_conv rec ret v v' : conv v v' -> to_value rec ret v' = to_value rec ret v.
Proof. intros [v0 _|kvss]; [reflexivity|]. cbn [to_value]. rewrite to_configs_conv. reflexivity. Qed.
Lemma take_conv rec kvs kvs' ret : Forall2 (fun a b => fst a = fst b /\ conv (snd a) (snd b)) kvs kvs' ->
  take_items rec ret (map pair_of kvs') = take_items rec ret (map pair_of kvs).
Proof.
  intros F. revert ret. induction F as [|[u v] [u' v'] kvs kvs' [E C] F IH]; intros ret; [reflexivity|]. cbn in E, C. subst u'.
  cbn [map take_items pair_of parse_item fst snd]. destruct (utf8 u) as [b|]; [|reflexivity].
  destruct (Nat.eqb _ _); [|reflexivity]. rewrite (to_value_conv _ _ _ _ C). destruct (to_value rec ret v); cbn [pbind]; auto.
Qed.

Section Mach.
Context {D B : Type}.
Lemma conf_es (m : @machine D B) idx l : py_conf m idx = Ret l ->
  exists c, match idx with None => c = m_conf m | Some i => (0 <= i)%Z /\ kept_conf m (Z.to_nat i) = Some c end /\
    Forall2 shown_entry (smerge (town c) (touter c)) l.
Proof.
  intros H. unfold py_conf in H. destruct idx as [i|].
  - destruct (Z.ltb i 0) eqn:Z0; [discriminate|]. apply Z.ltb_ge in Z0. unfold slot in H.
    destruct (N.ltb (Z.to_N i) (N.of_nat (List.length (m_elems m)))); [|discriminate].
    destruct (nth_error (m_elems m) (N.to_nat (Z.to_N i))) as [e|] eqn:E; [|discriminate].
    exists (eb_conf (el_base e)). split; [split; [exact Z0|]|].
    + unfold kept_conf. replace (Z.to_nat i) with (N.to_nat (Z.to_N i)) by lia. rewrite E. reflexivity.
    + apply items_shown; [|exact H]. intros k x _ p. apply python_shown.
  - exists (m_conf m). split; [reflexivity|]. apply items_shown; [|exact H]. intros k x _ p. apply python_shown.
Qed.
Theorem dict_given (m : @machine D B) idx l : py_conf m idx = Ret l -> exists d, machine_conf m idx = Ret d.
Proof. intros H. destruct (conf_es _ _ _ H) as (c & _ & F). unfold machine_conf. rewrite H. exact (list2odict_total _ _ F). Qed.
Lemma names_es c : names_ok c -> ssorted (smerge (town c) (touter c)) /\
  (forall k x, In (k, x) (smerge (town c) (touter c)) -> ~ has_nul (bytes k) /\ list_ok x).
Proof.
  intros [H1 H2]. assert (H3 : ssorted (smerge (town c) (touter c))) by (apply smerge_sorted, H1). split; [exact H3|].
  intros k x Hi. apply (ssorted_In_sfind _ _ _ H3) in Hi. rewrite sfind_smerge in Hi. destruct (H2 k x Hi) as [G1 G2]. split; [exact G1|exact G2].
Qed.
Theorem dict_shown (m : @machine D B) idx d : machine_conf m idx = Ret d ->
  exists c, match idx with None => c = m_conf m | Some i => (0 <= i)%Z /\ kept_conf m (Z.to_nat i) = Some c end /\
    (names_ok c -> dict_shows held (fun n => tfind n c) d).
Proof.
  intros H. unfold machine_conf in H. apply pbind_ret in H as (l & Hl & H). destruct (conf_es _ _ _ Hl) as (c & Hc & F).
  exists c. split; [exact Hc|]. intros Hn. apply names_es in Hn as [Hs Hg].
  destruct (list2odict_good _ _ Hs Hg F) as (kvs & kvs' & -> & Eo & Fc & Fk). rewrite Eo in H. injection H as <-.
  apply (dict_shows_of held _ (smerge (town c) (touter c))); [exact Hs|intros n; apply sfind_smerge|exact Fk].
Qed.
Theorem rebuilt (m : @machine D B) l d reg w mem e : py_conf m None = Ret l -> machine_conf m None = Ret d -> names_ok (m_conf m) ->
  @py_machine D B reg w mem (Some (PyDict d)) e = py_machine reg w mem (Some (PyList l)) e.
Proof.
  intros Hl H Hn. unfold machine_conf in H. rewrite Hl in H. cbn [pbind] in H. destruct (conf_es _ _ _ Hl) as (c & Hc & F). subst c.
  apply names_es in Hn as [Hs Hg]. destruct (list2odict_good _ _ Hs Hg F) as (kvs & kvs' & -> & Eo & Fc & Fk). rewrite Eo in H. injection H as <-.
  assert (E : list2conf (dict_items (map item_of kvs')) = list2conf (map pair_of kvs)).
  { rewrite dict_items_of. unfold list2conf. cbn [list2config]. apply take_conv, Fc. }
  unfold py_machine, parse2config. rewrite E. reflexivity.
Qed.
Theorem put_back (m : @machine D B) i o d : kept_conf m (N.to_nat i) = Some o -> plain_conf o -> machine_conf m (Some (Z.of_N i)) = Ret d ->
  exists c, (forall n, tfind n c = tfind n o) /\ py_reconfigure m i d true = (let (m', r) := reconfigure m i c in (m', lift r)).
Proof.
  intros K P H. unfold machine_conf in H. apply pbind_ret in H as (l & Hl & H). apply (conf_reconfigure m i o l d K P Hl).
  destruct (conf_es _ _ _ Hl) as (c & (_ & Hc) & F). rewrite <- nat_N_Z, Nat2Z.id in Hc || rewrite <- N_nat_Z, Nat2Z.id in Hc. rewrite K in Hc. injection Hc as <-.
  destruct P as (S1 & S2 & P).
  assert (Hs : ssorted (smerge (town o) (touter o))) by (apply smerge_sorted, S1).
  assert (Hp : forall k x, In (k, x) (smerge (town o) (touter o)) -> scalar x /\ ~ has_nul (bytes k)).
  { intros k x Hi. apply (ssorted_In_sfind _ _ _ Hs) in Hi. rewrite sfind_smerge in Hi. destruct (P k x Hi) as (G1 & G2 & _). split; assumption. }
  destruct (list2odict_good _ l Hs) as (kvs & kvs' & -> & Eo & Fc & Fk); [|exact F|].
  { intros k x Hi. destruct (Hp k x Hi) as [G1 G2]. split; [exact G2|]. intros cs g ->. destruct G1. }
  rewrite Eo in H. injection H as <-. unfold dict_of.
  assert (E : kvs = kvs').
  { assert (Hl' : forall kv, In kv kvs -> forall ps, snd kv <> PyList ps).
    { intros kv Hi ps E. destruct (Forall2_in_r _ _ _ _ F (in_map pair_of _ _ Hi)) as ([k x] & Hk & Hsh). apply entry_shape in Hsh as (u & v & Eu & _ & Hv).
      unfold pair_of in Eu. rewrite E in Eu. injection Eu as _ <-. cbn in Hv. inversion Hv; subst. destruct (proj1 (Hp _ _ Hk)). }
    clear -Fc Hl'. induction Fc as [|[u v] [u' v'] kvs kvs' [E C] F IH]; [reflexivity|]. cbn in E, C. subst u'. f_equal.
    - destruct C as [|kvss]; [reflexivity|]. destruct (Hl' _ (or_introl eq_refl) _ eq_refl).
    - apply IH. intros kv Hi. apply Hl'. right. exact Hi. }
  subst kvs'. rewrite map_map. reflexivity.
Qed.
End Mach.

(** ** Examples and refutations *)
Local Open Scope string_scope.
Local Open Scope list_scope.
Lemma list_names : names_ok (m_conf list_machine).
Proof.
  split; [remember (town (m_conf list_machine)) as es eqn:E; vm_compute in E; subst es; repeat split; intros ? ? H; repeat (destruct H as [H|H]; [injection H as <- _; reflexivity|]); destruct H|].
  intros n v H.
  assert (Hi : In (n, v) (town (tflatten (m_conf list_machine)))).
  { apply sfind_In. cbn [town tflatten]. rewrite sfind_smerge. exact H. }
  clear H. vm_compute in Hi.
  repeat (destruct Hi as [Hi|Hi]; [injection Hi as <- <-; split; [no_nul|intros cs g E Hg; try discriminate E; injection E as <-;
    repeat (destruct Hg as [<-|Hg]; [split; [cbn; repeat split; intros ? ? H; repeat (destruct H as [H|H]; [injection H as <- _; reflexivity|]); destruct H|
      intros k x Hk; cbn in Hk; repeat (destruct Hk as [Hk|Hk]; [injection Hk as <- _; no_nul|]); destruct Hk]|]); destruct Hg]|]).
  destruct Hi.
Qed.
(** Two names that differ after a null character only. *)
Definition nul_cfg : tcfg := tset nul_str (TNum n2) (tset "a" (TNum n1) toy_cfg).
Lemma C82_null_characters_refuted_w : exists m d, new_machine toy_reg nul_cfg = Ok m /\ machine_conf m None = Ret d /\
  tfind "a" (m_conf m) = Some (TNum n1) /\ List.length d = 5 /\ In (str "a", num2) d.
Proof. eexists. eexists. split; [vm_compute; reflexivity|]. split; [vm_compute; reflexivity|]. split; [reflexivity|]. split; [reflexivity|]. left. reflexivity. Qed.
(** Lists in lists. *)
Definition inner_list : list pyobj :=
  [pair "sim_type" (str "toy"); pair "elements" (PyList [PyList [pair "name" (str "a"); pair "type" (str "mark"); pair "f" (PyList [PyList [pair "x" num1]])]])].
Lemma C82_recursively_refuted_w : exists m d es e, py_machine toy_reg demo no_mem (Some (PyList inner_list)) PyNone = Ret m /\
  machine_conf m None = Ret d /\ In (str "elements", PyList es) d /\ In (PyDict e) es /\ In (str "f", PyList [PyList [pair "x" num1]]) e.
Proof.
  eexists. eexists. eexists. eexists. split; [vm_compute; reflexivity|]. split; [vm_compute; reflexivity|].
  split; [left; reflexivity|]. split; [left; reflexivity|]. left. reflexivity.
Qed.
Lemma C82_parsed_refuted_w : exists l, py_parse demo no_mem (Some (PyBytes small_text)) PyNone = Ret (PyList l).
Proof. eexists. vm_compute. reflexivity. Qed.
