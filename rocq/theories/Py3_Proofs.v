(** Proofs about conf2dict and both round trips. *)
From Coq Require Import List String Ascii NArith ZArith Bool Lia.
From Verif Require Import SMap SMap_Proofs Dbl Config_Model Config_Spec Glps_Model Machine_Model
  Py_Model Py_Spec Py_Proofs Py2_Proofs.
Import ListNotations.
Local Open Scope list_scope.

Fixpoint conf_list (l : list tcfg) : py (list pyobj) :=
  match l with
  | [] => Ret []
  | c :: l' => pbind (conf2dict c) (fun its => pbind (conf_list l') (fun ps => Ret (PyList its :: ps)))
  end.
Lemma to_python_cfgs l : to_python (TCfgs l) = pbind (conf_list l) (fun ps => Ret (PyList ps)).
Proof.
  cbn [to_python]. f_equal. induction l as [|[own out] l IH]; [reflexivity|].
  cbn [conf_list]. unfold conf2dict. cbn [town].
  assert (E : forall m, (fix ents (m : smap tval) : py (list pyobj) :=
                match m with
                | [] => Ret []
                | (k, x) :: m' =>
                    pbind (to_python x) (fun p =>
                    pbind (to_str k) (fun q =>
                    pbind (ents m') (fun ps => Ret (PyTuple [q; p] :: ps))))
                end) m = conf_items m).
  { induction m as [|[k x] m IHm]; [reflexivity|]. cbn [conf_items]. rewrite IHm. reflexivity. }
  rewrite E, IH. reflexivity.
Qed.

(** ** Python, Config, Python *)
Definition shown_as (e : string * tval) (f : string * (pyobj * pyobj)) : Prop :=
  fst f = fst e /\ to_python (snd e) = Ret (snd (snd f)) /\
  exists q, to_str (fst e) = Ret q /\ fst (snd f) = PyTuple [q; snd (snd f)].
Lemma conf_items_shown m f : Forall2 shown_as m f -> conf_items m = Ret (map (fun kx => fst (snd kx)) f).
Proof.
  induction 1 as [|[k x] [k' [it p]] m f (A & B & q & C & D) H IH]; [reflexivity|].
  cbn [fst snd] in *. subst k' it. cbn [conf_items map fst snd]. rewrite B, C, IH. reflexivity.
Qed.
Lemma shown_all m : (forall k x, In (k, x) m -> (exists p, to_python x = Ret p) /\ (exists q, to_str k = Ret q)) ->
  exists f, Forall2 shown_as m f.
Proof.
  induction m as [|[k x] m IH]; intros H; [exists []; constructor|].
  destruct IH as [f F]; [intros; apply H; right; assumption|].
  destruct (H k x (or_introl eq_refl)) as [[p P] [q Q]].
  exists ((k, (PyTuple [q; p], p)) :: f). constructor; [|exact F].
  split; [reflexivity|]. split; [exact P|]. exists q. split; [exact Q|reflexivity].
Qed.
Lemma shown_in m f k it p : Forall2 shown_as m f -> In (k, (it, p)) f ->
  exists x q, In (k, x) m /\ to_python x = Ret p /\ to_str k = Ret q /\ it = PyTuple [q; p].
Proof.
  induction 1 as [|[k1 x1] [k' [it' p']] m f (A & B & q & C & D) H IH]; [intros []|].
  cbn [fst snd] in *. intros [E|I].
  - injection E as -> -> ->. subst. exists x1, q. repeat split; try assumption. left. reflexivity.
  - destruct (IH I) as (x & q' & I' & R). exists x, q'. split; [right; exact I'|exact R].
Qed.
Lemma shown_has m f k x : Forall2 shown_as m f -> In (k, x) m -> exists y, In (k, y) f.
Proof.
  induction 1 as [|[k1 x1] [k' [it' p']] m f (A & B & q & C & D) H IH]; [intros []|].
  cbn [fst snd] in *. intros [E|I].
  - injection E as -> ->. subst k'. exists (it', p'). left. reflexivity.
  - destruct (IH I) as (y & I'). exists y. right. exact I'.
Qed.
Lemma shown_sorted m f : Forall2 shown_as m f -> ssorted m -> ssorted f.
Proof.
  induction 1 as [|[k1 x1] [k' [it' p']] m f (A & B & q & C & D) H IH]; [intros _; exact I|].
  cbn [fst snd] in *. intros [S1 S2]. cbn [ssorted]. subst k'. split; [|exact (IH S2)].
  intros k2 [it2 p2] I2. destruct (shown_in _ _ _ _ _ H I2) as (x & _ & I' & _). exact (S1 _ _ I').
Qed.

Lemma key_text k it v : entry it k v -> exists u, to_str k = Ret (PyStr u) /\ it = PyTuple [PyStr u; v] /\
  text u (bytes k) /\ ~ has_nul u.
Proof.
  intros [u k' v' Ht Hn]. exists u. split; [|repeat split; assumption].
  apply to_str_ok. apply text_string in Ht. rewrite Ht. f_equal. symmetry. apply cstr_id.
  rewrite (utf8_nul _ _ Ht). exact Hn.
Qed.

Section Tidy.
Context (rec : tcfg -> list pyobj -> py tcfg).
Context (deeper : forall ret its g, rec ret its = Ret g -> town ret = [] ->
  exists l', conf2dict g = Ret l' /\ tidied_items its l').

Lemma value_tidied ret v x : to_value rec ret v = Ret x -> exists p, to_python x = Ret p /\ tidied v p.
Proof.
  intros H. destruct (value_cases _ _ _ _ H) as [L|[[-> ->]|(es & cs & Hc & -> & F)]].
  - destruct L as [d|nd l Hn|u b s Hb Hs].
    + exists (PyNumber (Some d)). split; [reflexivity|constructor].
    + exists (PyArray 1 (Some l)). split; [reflexivity|constructor].
    + exists (PyStr (before_nul u)). split; [|constructor]. cbn [to_python]. apply to_str_ok.
      apply text_string in Hs. rewrite Hs. f_equal. symmetry. apply cstr_id.
      apply text_utf8 in Hb. rewrite (utf8_before _ _ Hb) in Hs. injection Hs as <-. apply cstr_free.
  - exists (PyList []). split; [reflexivity|constructor].
  - rewrite to_python_cfgs.
    assert (G : exists ps, conf_list cs = Ret ps /\ Forall2 tidied_config es ps).
    { clear H Hc. induction F as [|e g es cs (its & Hh & Hg) F IH].
      - exists []. split; [reflexivity|constructor].
      - destruct IH as (ps & E & T). destruct (deeper _ _ _ Hg eq_refl) as (l' & E' & T').
        exists (PyList l' :: ps). cbn [conf_list]. rewrite E', E. split; [reflexivity|].
        constructor; [|exact T]. econstructor; eassumption. }
    destruct G as (ps & E & T). rewrite E. exists (PyList ps). split; [reflexivity|].
    econstructor; eassumption.
Qed.

Lemma items_tidied ret l c : take_items rec ret l = Ret c -> town ret = [] ->
  exists l', conf2dict c = Ret l' /\ tidied_items l l'.
Proof.
  intros H T. destruct (take_inv _ _ _ _ H) as (I1 & I2 & I3 & I4).
  rewrite T in I2, I3. specialize (I2 I).
  assert (K : forall k x, In (k, x) (town c) -> exists pre v c0 it, last_entry k l pre v /\ to_value rec c0 v = Ret x /\ entry it k v).
  { intros k x Hx. apply (ssorted_In_sfind _ _ _ I2) in Hx.
    destruct (entry_cases k l) as [N|(pre & v & Hl)]; [rewrite (I3 _ N) in Hx; discriminate|].
    destruct (I4 _ _ _ Hl) as (c0 & y & _ & B & C). rewrite C in Hx. injection Hx as ->.
    pose proof Hl as (it & post & _ & He & _). exists pre, v, c0, it. repeat split; assumption. }
  destruct (shown_all (town c)) as [f F].
  { intros k x Hx. destruct (K _ _ Hx) as (pre & v & c0 & it & A & B & C). split.
    - destruct (value_tidied _ _ _ B) as (p & P & _). exists p. exact P.
    - destruct (key_text _ _ _ C) as (u & P & _). exists (PyStr u). exact P. }
  exists (map (fun kx => fst (snd kx)) f). split; [exact (conf_items_shown _ _ F)|].
  constructor.
  - exact (shown_sorted _ _ F I2).
  - intros k it v' Hf. destruct (shown_in _ _ _ _ _ F Hf) as (x & q & Hx & P & Q & ->).
    destruct (K _ _ Hx) as (pre & v & c0 & it0 & A & B & C). exists pre, v. split; [exact A|].
    destruct (value_tidied _ _ _ B) as (p & P' & Tp). rewrite P in P'. injection P' as <-. split; [exact Tp|].
    destruct (key_text _ _ _ C) as (u & Pu & _ & Tu & Nu). rewrite Q in Pu. injection Pu as ->.
    constructor; assumption.
  - intros k Hk. destruct (entry_cases k l) as [N|(pre & v & Hl)]; [elim (Hk N)|].
    destruct (I4 _ _ _ Hl) as (c0 & y & _ & _ & C). apply sfind_In in C. exact (shown_has _ _ _ _ F C).
Qed.
End Tidy.

Lemma level_tidied room ret l c : list2config room ret l = Ret c -> town ret = [] ->
  exists l', conf2dict c = Ret l' /\ tidied_items l l'.
Proof.
  revert ret l c. induction room as [|r IH]; intros ret l c H T; [discriminate|]. cbn [list2config] in H.
  exact (items_tidied _ IH _ _ _ H T).
Qed.
Theorem python_round_trip l c : list2conf l = Ret c -> exists l', conf2dict c = Ret l' /\ tidied_items l l'.
Proof. intros H. exact (level_tidied _ _ _ _ H eq_refl). Qed.

(** ** Config, Python, Config *)
Lemma sset_last {V} (m : smap V) k v : (forall k' v', In (k', v') m -> str_lt k' k) -> sset k v m = m ++ [(k, v)].
Proof.
  induction m as [|[k1 v1] m IH]; intros H; [reflexivity|]. cbn [sset app].
  pose proof (H k1 v1 (or_introl eq_refl)) as L. unfold str_lt in L.
  rewrite String.compare_antisym, L. cbn [CompOpp]. rewrite IH; [reflexivity|].
  intros k' v' Hi. apply (H k' v'). right. exact Hi.
Qed.

Definition entry_same (e e' : string * tval) : Prop := fst e = fst e' /\ same (snd e) (snd e').
Lemma entry_same_in m m' k v' : Forall2 entry_same m m' -> In (k, v') m' -> exists v, In (k, v) m /\ same v v'.
Proof.
  induction 1 as [|[k1 v1] [k2 v2] m m' [A B] F IH]; [intros []|]. cbn [fst snd] in *. subst k2.
  intros [E|Hi].
  - injection E as -> ->. exists v1. split; [left; reflexivity|exact B].
  - destruct (IH Hi) as (v & I & S0). exists v. split; [right; exact I|exact S0].
Qed.
Lemma entry_same_find m m' k : Forall2 entry_same m m' -> osame (sfind k m) (sfind k m').
Proof.
  induction 1 as [|[k1 v1] [k2 v2] m m' [A B] F IH]; [exact I|]. cbn [fst snd sfind] in *. subst k2.
  destruct (String.eqb k k1); [exact B|exact IH].
Qed.

Lemma levels_rec n c : Forall (fun kv => levels n (snd kv)) (town c) = cfg_levels n c.
Proof. reflexivity. Qed.

Lemma pbind_ret {A B} (x : py A) (f : A -> py B) y : pbind x f = Ret y -> exists a, x = Ret a /\ f a = Ret y.
Proof. destruct x as [a| |]; try discriminate. intros H. exists a. split; [reflexivity|exact H]. Qed.

(** The loop run on the entries of a map, starting from a Config with smaller
    names. *)
Lemma items_back rec m l ret :
  (forall ret v p, In v (map snd m) -> to_python v = Ret p -> exists x, to_value rec ret p = Ret x /\ same v x) ->
  ssorted m -> Forall (fun kv => ~ has_nul (bytes (fst kv))) m ->
  (forall k v k' v', In (k, v) (town ret) -> In (k', v') m -> str_lt k k') ->
  conf_items m = Ret l ->
  exists m', take_items rec ret l = Ret (TCfg (town ret ++ m') (touter ret)) /\ Forall2 entry_same m m'.
Proof.
  revert l ret. induction m as [|[k v] m IH]; intros l ret V S0 N L H; cbn [conf_items] in H.
  - injection H as <-. exists []. cbn [take_items]. rewrite app_nil_r. split; [destruct ret; reflexivity|constructor].
  - apply pbind_ret in H as (p & P & H). apply pbind_ret in H as (q & Q & H).
    apply pbind_ret in H as (ps & Ps & H). injection H as <-.
    destruct (V ret v p (or_introl eq_refl) P) as (x & Hx & Sx).
    inversion N as [|? ? Nk Nm]; subst. cbn [fst] in Nk. destruct S0 as [S1 S2].
    destruct (to_str_inv _ _ Q) as (u & -> & U).
    rewrite cstr_id in U by exact Nk.
    assert (E : entry (PyTuple [PyStr u; p]) k p).
    { constructor; [apply text_string; exact U|]. rewrite <- (utf8_nul _ _ U). exact Nk. }
    cbn [take_items]. apply parse_entry in E. rewrite E, Hx. cbn [pbind].
    assert (Es : tset k x ret = TCfg (town ret ++ [(k, x)]) (touter ret)).
    { unfold tset. rewrite sset_last; [reflexivity|]. intros k' v' Hi. exact (L _ _ k v Hi (or_introl eq_refl)). }
    rewrite Es. destruct (IH ps (TCfg (town ret ++ [(k, x)]) (touter ret))) as (m' & T & F).
    + intros r0 v0 p0 Hi. apply V. right. exact Hi.
    + exact S2.
    + exact Nm.
    + cbn [town]. intros k1 v1 k2 v2 Hi Hj. apply in_app_or in Hi as [Hi|[Hi|[]]].
      * apply (L _ _ _ _ Hi (or_intror Hj)).
      * injection Hi as <- <-. exact (S1 _ _ Hj).
    + exact Ps.
    + exists ((k, x) :: m'). rewrite T. cbn [town touter]. rewrite <- app_assoc. split; [reflexivity|].
      constructor; [split; [reflexivity|exact Sx]|exact F].
Qed.

Lemma value_back n ret v p : levels n v -> proper v -> nul_free v -> to_python v = Ret p ->
  exists x, to_value (list2config n) ret p = Ret x /\ same v x.
Proof.
  revert ret v p. induction n as [|n IH]; intros ret v p Lv Pv Nv H.
  - destruct v as [d|a|s|cs].
    + injection H as <-. exists (TNum d). split; [reflexivity|constructor].
    + injection H as <-. exists (TVec a). split; [reflexivity|constructor].
    + cbn [to_python] in H. inversion Nv as [| |? Ns|]; subst. destruct (to_str_inv _ _ H) as (u & -> & U).
      rewrite cstr_id in U by exact Ns. exists (TStr s). split; [|constructor].
      cbn [to_value]. rewrite U, cstr_id, string_chars by exact Ns. reflexivity.
    + cbn [levels] in Lv. subst cs. injection H as <-. exists (TCfgs []). split; [reflexivity|repeat constructor].
  - destruct v as [d|a|s|cs].
    + injection H as <-. exists (TNum d). split; [reflexivity|constructor].
    + injection H as <-. exists (TVec a). split; [reflexivity|constructor].
    + cbn [to_python] in H. inversion Nv as [| |? Ns|]; subst. destruct (to_str_inv _ _ H) as (u & -> & U).
      rewrite cstr_id in U by exact Ns. exists (TStr s). split; [|constructor].
      cbn [to_value]. rewrite U, cstr_id, string_chars by exact Ns. reflexivity.
    + rewrite to_python_cfgs in H. apply pbind_ret in H as (ps & Ps & H). injection H as <-.
      cbn [levels] in Lv. inversion Pv as [| | |? Pc]; subst. inversion Nv as [| | |? Nc]; subst.
      assert (G : exists gs, to_configs (list2config (S n)) ret ps = Ret gs /\ Forall2 same_cfg cs gs).
      { clear Pv Nv. revert ps Ps. induction cs as [|c cs IHc]; intros ps Ps; cbn [conf_list] in Ps.
        - injection Ps as <-. exists []. split; [reflexivity|constructor].
        - apply pbind_ret in Ps as (its & Hi & Ps). apply pbind_ret in Ps as (qs & Hq & Ps). injection Ps as <-.
          inversion Lv as [|? ? L1 L2]; subst. inversion Pc as [|? ? P1 P2]; subst. inversion Nc as [|? ? N1 N2]; subst.
          destruct (IHc L2 P2 N2 _ Hq) as (gs & Eg & Fg).
          inversion P1 as [? Sc Fc]; subst. inversion N1 as [? Fn]; subst.
          assert (Q1 : forall ret0 v p0, In v (map snd (town c)) -> to_python v = Ret p0 ->
             exists x, to_value (list2config n) ret0 p0 = Ret x /\ same v x).
          { intros r0 v p0 Hin E0. apply in_map_iff in Hin as ([k w] & <- & Hin).
            rewrite Forall_forall in L1, Fc, Fn. cbn [snd]. apply IH; try assumption.
            - exact (L1 _ Hin). - exact (Fc _ Hin). - exact (proj2 (Fn _ Hin)). }
          assert (Q2 : Forall (fun kv : string * tval => ~ has_nul (bytes (fst kv))) (town c)).
          { revert Fn. apply Forall_impl. intros kv [A _]. exact A. }
          destruct (items_back (list2config n) (town c) its (tscope ret) Q1 Sc Q2) as (m' & T & F).
          + intros k v k' v' [].
          + exact Hi.
          + cbn [to_configs entries]. cbn [list2config]. rewrite T. cbn [pbind].
            cbn [list2config] in Eg. rewrite Eg. cbn [pbind]. eexists. split; [reflexivity|].
            constructor; [|exact Fg]. constructor. cbn [town app]. exact F. }
      destruct G as (gs & Eg & Fg). exists (TCfgs gs). cbn [to_value]. rewrite Eg. split; [reflexivity|].
      constructor. exact Fg.
Qed.

Lemma back n c l : cfg_levels n c -> proper_cfg c -> nul_free_cfg c -> conf2dict c = Ret l ->
  exists m', list2config (S n) (TCfg [] []) l = Ret (TCfg m' []) /\ Forall2 entry_same (town c) m'.
Proof.
  intros Lc Pc Nc H. inversion Pc as [? Sc Fc]; subst. inversion Nc as [? Fn]; subst.
  destruct (items_back (list2config n) (town c) l (TCfg [] [])) as (m' & T & F).
  - intros r0 v p0 Hin E0. apply in_map_iff in Hin as ([k w] & <- & Hin). unfold cfg_levels in Lc.
    rewrite Forall_forall in Lc, Fc, Fn. cbn [snd]. apply value_back; try assumption.
    + exact (Lc _ Hin). + exact (Fc _ Hin). + exact (proj2 (Fn _ Hin)).
  - exact Sc.
  - revert Fn. apply Forall_impl. intros kv [A _]. exact A.
  - intros ? ? ? ? [].
  - exact H.
  - exists m'. cbn [list2config]. split; [exact T|exact F].
Qed.
Theorem config_round_trip c l : cfg_levels 3 c -> proper_cfg c -> nul_free_cfg c -> conf2dict c = Ret l ->
  exists c', list2conf l = Ret c' /\ same_cfg c c' /\ forall n, osame (sfind n (town c)) (tfind n c').
Proof.
  intros Lc Pc Nc H. destruct (back _ _ _ Lc Pc Nc H) as (m' & T & F).
  exists (TCfg m' []). split; [exact T|]. split; [constructor; exact F|].
  intros n. unfold tfind. cbn [town touter sfind]. pose proof (entry_same_find _ _ n F) as Q.
  destruct (sfind n m'); exact Q.
Qed.
