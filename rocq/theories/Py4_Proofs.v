(** Proofs about what elements see after a round trip through Python. *)
From Coq Require Import List String Ascii NArith ZArith Bool Lia.
From Verif Require Import SMap SMap_Proofs Dbl Config_Model Config_Spec Glps_Model Glps_Spec Glps6_Proofs Machine_Model
  Print_Spec Print6_Proofs Py_Model Py_Spec Py_Proofs Py2_Proofs Py3_Proofs.
Import ListNotations.
Local Open Scope list_scope.

Definition str_ltb (a b : string) : bool := match String.compare a b with Lt => true | _ => false end.
Lemma ltb_lt a b : str_lt a b <-> str_ltb a b = true.
Proof. unfold str_lt, str_ltb. destruct (String.compare a b); split; congruence. Qed.
Lemma find_split {V} (m : smap V) k v : ssorted m -> sfind k m = Some v ->
  exists m1 m2, m = m1 ++ (k, v) :: m2 /\ forall k', sfind k' m1 = if str_ltb k' k then sfind k' m else None.
Proof.
  induction m as [|[k1 v1] m IH]; intros S0 H; [discriminate|]. cbn [sfind] in H. destruct S0 as [S1 S2].
  destruct (String.eqb_spec k k1) as [<-|N].
  - injection H as <-. exists [], m. split; [reflexivity|]. intros k'. cbn [sfind].
    destruct (str_ltb k' k) eqn:L; [|reflexivity]. destruct (String.eqb_spec k' k) as [->|N'].
    + exfalso. exact (str_lt_irrefl _ (proj2 (ltb_lt _ _) L)).
    + destruct (sfind k' m) as [x|] eqn:F; [|reflexivity]. exfalso. apply sfind_In in F. specialize (S1 _ _ F).
      exact (str_lt_irrefl _ (str_lt_trans _ _ _ (proj2 (ltb_lt _ _) L) S1)).
  - destruct (IH S2 H) as (m1 & m2 & -> & F). exists ((k1, v1) :: m1), m2. split; [reflexivity|].
    intros k'. cbn [sfind app]. destruct (String.eqb_spec k' k1) as [->|N'].
    + assert (L : str_lt k1 k). { apply (S1 k v). apply in_or_app. right. left. reflexivity. }
      apply ltb_lt in L. rewrite L. reflexivity.
    + exact (F k').
Qed.
Lemma conf_items_app m1 m2 l : conf_items (m1 ++ m2) = Ret l ->
  exists l1 l2, l = l1 ++ l2 /\ conf_items m1 = Ret l1 /\ conf_items m2 = Ret l2.
Proof.
  revert l. induction m1 as [|[k v] m1 IH]; intros l H; [exists [], l; repeat split; exact H|].
  cbn [app conf_items] in H. apply pbind_ret in H as (p & P & H). apply pbind_ret in H as (q & Q & H).
  apply pbind_ret in H as (ps & Ps & H). injection H as <-. destruct (IH _ Ps) as (l1 & l2 & -> & E1 & E2).
  exists (PyTuple [q; p] :: l1), l2. split; [reflexivity|]. split; [|exact E2]. cbn [conf_items]. rewrite P, Q, E1. reflexivity.
Qed.
Definition elem_back (ret g g' : tcfg) : Prop :=
  Forall2 entry_same (town g) (town g') /\ touter g' = smerge (town ret) (touter ret).
Lemma cfgs_back n ret cs ps : levels (S n) (TCfgs cs) -> proper (TCfgs cs) -> nul_free (TCfgs cs) ->
  conf_list cs = Ret ps ->
  exists gs, to_configs (list2config (S n)) ret ps = Ret gs /\ Forall2 (elem_back ret) cs gs.
Proof.
  intros Lv Pv Nv. cbn [levels] in Lv. inversion Pv as [| | |? Pc]; subst. inversion Nv as [| | |? Nc]; subst. clear Pv Nv.
  revert ps. induction cs as [|c cs IHc]; intros ps Ps; cbn [conf_list] in Ps.
  - injection Ps as <-. exists []. split; [reflexivity|constructor].
  - apply pbind_ret in Ps as (its & Hi & Ps). apply pbind_ret in Ps as (qs & Hq & Ps). injection Ps as <-.
    inversion Lv as [|? ? L1 L2]; subst. inversion Pc as [|? ? P1 P2]; subst. inversion Nc as [|? ? N1 N2]; subst.
    destruct (IHc L2 P2 N2 _ Hq) as (gs & Eg & Fg).
    inversion P1 as [? Sc Fc]; subst. inversion N1 as [? Fn]; subst.
    assert (Q1 : forall ret0 v p0, In v (map snd (town c)) -> to_python v = Ret p0 ->
       exists x, to_value (list2config n) ret0 p0 = Ret x /\ same v x).
    { intros r0 v p0 Hin E0. apply in_map_iff in Hin as ([k w] & <- & Hin).
      rewrite Forall_forall in L1, Fc, Fn. cbn [snd]. apply value_back; try assumption.
      - exact (L1 _ Hin). - exact (Fc _ Hin). - exact (proj2 (Fn _ Hin)). }
    assert (Q2 : Forall (fun kv : string * tval => ~ has_nul (bytes (fst kv))) (town c)).
    { revert Fn. apply Forall_impl. intros kv [A _]. exact A. }
    destruct (items_back (list2config n) (town c) its (tscope ret) Q1 Sc Q2) as (m' & T & F).
    + intros k v k' v' [].
    + exact Hi.
    + cbn [to_configs entries]. cbn [list2config]. rewrite T. cbn [pbind].
      cbn [list2config] in Eg. rewrite Eg. cbn [pbind]. eexists. split; [reflexivity|].
      constructor; [|exact Fg]. split; [cbn [town app tscope]; exact F|reflexivity].
Qed.

(** ** What elements see afterwards *)
Theorem elements_back c l es : cfg_levels 3 c -> proper_cfg c -> nul_free_cfg c -> elements c es -> conf2dict c = Ret l ->
  exists c' es', list2conf l = Ret c' /\ same_cfg c c' /\ touter c' = [] /\ elements c' es' /\
    Forall2 (fun g g' => same_cfg g g' /\ forall n, sfind n (town g) = None ->
      (str_lt n "elements" -> osame (sfind n (town c)) (tfind n g')) /\
      (~ str_lt n "elements" -> tfind n g' = None)) es es'.
Proof.
  intros Lc Pc Nc He H. inversion Pc as [? Sc Fc]; subst. inversion Nc as [? Fn]; subst.
  destruct (find_split _ _ _ Sc He) as (m1 & m2 & Em & Fm). unfold cfg_levels in Lc.
  destruct (back _ _ _ Lc Pc Nc H) as (mm & Tm & Fmm).
  assert (Lk : forall k v, In (k, v) m1 -> str_lt k "elements").
  { intros k v Hi. destruct (str_ltb k "elements") eqn:E; [apply ltb_lt; exact E|]. exfalso.
    assert (X : sfind k m1 <> None).
    { clear -Hi. induction m1 as [|[k1 v1] m1 IH]; [destruct Hi|]. cbn [sfind]. destruct (String.eqb_spec k k1); [discriminate|].
      destruct Hi as [X|Hi]; [injection X as -> ->; congruence|exact (IH Hi)]. }
    apply X. rewrite Fm, E. reflexivity. }
  assert (Q1 : forall m, incl m (town c) -> forall ret0 v p0, In v (map snd m) -> to_python v = Ret p0 ->
       exists x, to_value (list2config 3) ret0 p0 = Ret x /\ same v x).
  { intros m Hm r0 v p0 Hin E0. apply in_map_iff in Hin as ([k w] & <- & Hin). apply Hm in Hin.
    rewrite Forall_forall in Lc, Fc, Fn. cbn [snd]. apply value_back; try assumption.
    - exact (Lc _ Hin). - exact (Fc _ Hin). - exact (proj2 (Fn _ Hin)). }
  assert (Q2 : Forall (fun kv : string * tval => ~ has_nul (bytes (fst kv))) (town c)).
  { revert Fn. apply Forall_impl. intros kv [A _]. exact A. }
  unfold conf2dict in H. rewrite Em in H. destruct (conf_items_app _ _ _ H) as (l1 & l2 & -> & C1 & C2).
  assert (S1 : ssorted m1 /\ ssorted m2 /\ forall k v, In (k, v) m2 -> str_lt "elements" k).
  { clear -Sc Em. rewrite Em in Sc. clear Em. induction m1 as [|[k1 v1] m1 IH].
    - destruct Sc as [A B]. split; [exact I|]. split; [exact B|exact A].
    - destruct Sc as [A B]. destruct (IH B) as (X & Y & Z). split; [|split; assumption]. split; [|exact X].
      intros k v Hi. apply (A k v). apply in_or_app. left. exact Hi. }
  destruct S1 as (S1 & S2 & S3).
  destruct (items_back (list2config 3) m1 l1 (TCfg [] [])) as (m1' & T1 & F1).
  { apply Q1. rewrite Em. intros x Hx. apply in_or_app. left. exact Hx. }
  { exact S1. }
  { rewrite Em in Q2. apply Forall_app in Q2. exact (proj1 Q2). }
  { intros ? ? ? ? []. }
  { exact C1. }
  cbn [town app touter] in T1.
  cbn [conf_items] in C2. apply pbind_ret in C2 as (p & P & C2). apply pbind_ret in C2 as (q & Q & C2).
  apply pbind_ret in C2 as (ps & Ps & C2). injection C2 as <-.
  rewrite to_python_cfgs in P. apply pbind_ret in P as (pl & Pl & P). injection P as <-.
  assert (Hin : In ("elements"%string, TCfgs es) (town c)) by (rewrite Em; apply in_or_app; right; left; reflexivity).
  rewrite Forall_forall in Lc, Fc, Fn.
  destruct (cfgs_back 2 (TCfg m1' []) es pl (Lc _ Hin) (Fc _ Hin) (proj2 (Fn _ Hin)) Pl) as (gs & Eg & Fg).
  exists (TCfg mm []), gs. split; [exact Tm|]. split; [constructor; exact Fmm|]. split; [reflexivity|].
  change (take_items (list2config 3) (TCfg [] []) (l1 ++ PyTuple [q; PyList pl] :: ps) = Ret (TCfg mm [])) in Tm.
  rewrite take_app, T1 in Tm. cbn [pbind take_items] in Tm.
  destruct (to_str_inv _ _ Q) as (u & -> & U).
  assert (E : entry (PyTuple [PyStr u; PyList pl]) "elements" (PyList pl)).
  { pose proof (proj1 (Fn _ Hin)) as Nk. cbn [fst] in Nk. rewrite cstr_id in U by exact Nk.
    constructor; [apply text_string; exact U|]. rewrite <- (utf8_nul _ _ U). exact Nk. }
  apply parse_entry in E. rewrite E in Tm. cbn [to_value] in Tm. rewrite Eg in Tm. cbn [pbind] in Tm.
  split.
  - destruct (items_back (list2config 3) m2 ps (tset "elements" (TCfgs gs) (TCfg m1' []))) as (m2' & T2 & F2).
    { apply Q1. rewrite Em. intros x Hx. apply in_or_app. right. right. exact Hx. }
    { exact S2. }
    { rewrite Em in Q2. apply Forall_app in Q2 as [_ Q2]. inversion Q2; assumption. }
    { unfold tset. cbn [town touter]. intros k v k' v' Hi Hj. specialize (S3 _ _ Hj).
      rewrite sset_last in Hi.
      - apply in_app_or in Hi as [Hi|[Hi|[]]].
        + destruct (entry_same_in _ _ _ _ F1 Hi) as (v0 & Hv & _). exact (str_lt_trans _ _ _ (Lk _ _ Hv) S3).
        + injection Hi as <- <-. exact S3.
      - intros k2 v2 Hi2. destruct (entry_same_in _ _ _ _ F1 Hi2) as (v0 & Hv & _). exact (Lk _ _ Hv). }
    { exact Ps. }
    rewrite T2 in Tm. injection Tm as <-. unfold elements. cbn [town tset].
    assert (X : forall (m m' : smap tval) v, sfind "elements"%string m = Some v -> sfind "elements"%string (m ++ m') = Some v).
    { clear. intros m m' v. induction m as [|[k1 v1] m IH]; [discriminate|]. cbn [sfind app].
      destruct (String.eqb "elements" k1); [auto|exact IH]. }
    apply X. rewrite sfind_sset, String.eqb_refl. reflexivity.
  - revert Fg. apply F2_impl. intros g g' [A B]. split; [constructor; exact A|].
    intros n Hn. pose proof (entry_same_find _ _ n A) as On. rewrite Hn in On.
    assert (Hn' : sfind n (town g') = None) by (destruct (sfind n (town g')); [destruct On|reflexivity]).
    assert (Tn : tfind n g' = sfind n m1').
    { unfold tfind. rewrite Hn', B. cbn [town touter]. rewrite sfind_smerge. cbn [sfind]. destruct (sfind n m1'); reflexivity. }
    rewrite Tn. pose proof (entry_same_find _ _ n F1) as O1. rewrite (Fm n) in O1.
    rewrite ltb_lt. destruct (str_ltb n "elements").
    + split; [intros _; exact O1|]. intros X. elim X. reflexivity.
    + split; [discriminate|]. intros _. destruct (sfind n m1'); [destruct O1|reflexivity].
Qed.

Lemma same_scalar v v' : scalar v -> same v v' -> v' = v.
Proof. intros H S0. destruct S0; [reflexivity|reflexivity|reflexivity|destruct H]. Qed.
Lemma scalars_same m m' : Forall2 entry_same m m' -> (forall n v, In (n, v) m -> scalar v) -> m' = m.
Proof.
  induction 1 as [|[k v] [k' v'] m m' [A B] F IH]; intros H; [reflexivity|]. cbn [fst snd] in *. subst k'.
  rewrite (same_scalar v v'); [|apply (H k); left; reflexivity|exact B]. rewrite IH; [reflexivity|].
  intros n x Hi. apply (H n). right. exact Hi.
Qed.
Lemma scalar_levels n v : scalar v -> levels n v.
Proof. destruct v, n; intros H; try exact I; destruct H. Qed.
Lemma scalar_proper v : scalar v -> proper v.
Proof. destruct v; intros H; try constructor; destruct H. Qed.

(** Of a lattice read from a text. *)
Lemma parsed_proper w vars s c es : ssorted vars -> parse_text w vars true s = Parsed c -> elements c es ->
  simple_lattice c es -> cfg_levels 3 c /\ proper_cfg c.
Proof.
  intros Hs E He [W1 W2]. destruct (parsed_shape _ _ _ _ Hs E) as (S1 & S2 & es' & E1 & E2).
  unfold elements in He. unfold own in E1. rewrite He in E1. injection E1 as <-.
  destruct (lattice_inv w vars s c Hs E) as (p & env & lat & ns & _ & _ & _ & _ & _ & _ & _ & F & _).
  rewrite E2 in F. clear E2.
  assert (G : Forall (fun g => ssorted (town g)) es).
  { clear -F. induction F as [|d g ds gs H F IH]; constructor; [exact (proj1 H)|exact IH]. }
  assert (V : forall k v, In (k, v) (town c) -> v = TCfgs es \/ scalar v).
  { intros k v Hi. destruct (String.eqb_spec k "elements") as [->|N]; [left|right; exact (W1 _ _ Hi N)].
    apply (ssorted_In_sfind _ _ _ S1) in Hi. rewrite He in Hi. injection Hi as <-. reflexivity. }
  split.
  - unfold cfg_levels. apply Forall_forall. intros [k v] Hi. cbn [snd]. destruct (V _ _ Hi) as [->|Sv]; [|apply scalar_levels; exact Sv].
    cbn [levels]. apply Forall_forall. intros g Hg. apply Forall_forall. intros [k' v'] Hi'. cbn [snd]. apply (scalar_levels 2). exact (W2 _ _ _ Hg Hi').
  - constructor; [exact S1|]. apply Forall_forall. intros [k v] Hi. cbn [snd]. destruct (V _ _ Hi) as [->|Sv]; [|apply scalar_proper; exact Sv].
    constructor. rewrite Forall_forall in G. apply Forall_forall. intros g Hg. constructor; [exact (G _ Hg)|].
    apply Forall_forall. intros [k' v'] Hi'. cbn [snd]. apply scalar_proper. exact (W2 _ _ _ Hg Hi').
Qed.
Theorem parsed_back w vars s c es l : ssorted vars -> parse_text w vars true s = Parsed c -> elements c es ->
  simple_lattice c es -> nul_free_cfg c -> conf2dict c = Ret l ->
  exists c' es', list2conf l = Ret c' /\ elements c' es' /\
    (forall n, n <> "elements"%string -> tfind n c' = tfind n c) /\ Forall2 sees_earlier es es'.
Proof.
  intros Hs E He Hw Nc H. destruct (parsed_proper _ _ _ _ _ Hs E He Hw) as [Lc Pc].
  destruct (elements_back c l es Lc Pc Nc He H) as (c' & es' & E1 & E2 & E3 & E4 & E5).
  exists c', es'. split; [exact E1|]. split; [exact E4|]. inversion E2 as [? ? F2]; subst.
  destruct (parsed_shape _ _ _ _ Hs E) as (S1 & S2 & es0 & E6 & E7).
  unfold own in E6. unfold elements in He. rewrite He in E6. injection E6 as <-.
  destruct Hw as [W1 W2].
  assert (V : forall n, n <> "elements"%string -> sfind n (town c') = sfind n (town c)).
  { intros n N. pose proof (entry_same_find _ _ n F2) as O. destruct (sfind n (town c)) as [v|] eqn:Q.
    - destruct (sfind n (town c')) as [v'|]; [|destruct O]. rewrite (same_scalar v v'); [reflexivity| |exact O].
      apply (W1 n); [apply sfind_In; exact Q|exact N].
    - destruct (sfind n (town c')); [destruct O|reflexivity]. }
  split.
  { intros n N. unfold tfind. rewrite E3, S2, (V n N). reflexivity. }
  pose proof (fun g k => elem_sees w vars s c g k Hs E) as Se. rewrite E7 in Se. clear E7 E1 E4 He H Lc Nc Pc.
  assert (Sm : forall g g', In g es -> same_cfg g g' -> town g' = town g).
  { intros g g' Hg Sg. inversion Sg as [? ? Fg]; subst. apply scalars_same; [exact Fg|]. intros n v Hi. exact (W2 _ _ _ Hg Hi). }
  clear W2. revert Se Sm. induction E5 as [|g g' es es' [A B] F IH]; intros Se Sm; [constructor|]. constructor.
  - pose proof (Sm g g' (or_introl eq_refl) A) as T. split; [intros n; rewrite T; reflexivity|].
    intros n N. split.
    + intros O. destruct (sfind n (town g)) as [v|] eqn:Q; [unfold tfind; rewrite T, Q; reflexivity|].
      destruct O as [O|O]; [contradiction|]. destruct (B n Q) as [B1 _]. specialize (B1 O).
      change (tfind n g) with (tlookup n g). rewrite (Se g n (or_introl eq_refl) Q N). unfold tlookup. rewrite S2. cbn [sfind].
      destruct (sfind n (town c)) as [v|] eqn:Q2.
      * destruct (tfind n g') as [v'|]; [|destruct B1]. rewrite (same_scalar v v'); [reflexivity| |exact B1].
        apply (W1 n); [apply sfind_In; exact Q2|exact N].
      * destruct (tfind n g'); [destruct B1|reflexivity].
    + intros Q L. exact (proj2 (B n Q) L).
  - apply IH; [intros g0 k Hg; apply Se; right; exact Hg|intros g0 g1 Hg; apply Sm; right; exact Hg].
Qed.
