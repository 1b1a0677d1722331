(** The tutorial's simulation. *)
From Coq Require Import List String Bool NArith ZArith Arith Lia Reals Lra.
From Verif Require Import SMap Dbl Number_Spec Config_Spec Lexer_Model Glps_Model Glps6_Proofs Machine_Model Machine_Spec Machine_Proofs Number_Proofs Ioc2_Spec Ioc12_Proofs Tut_Model Tut_Spec.
Import ListNotations.
Local Open Scope string_scope.
Local Open Scope list_scope.

Definition made (c : tcfg) (e : elem e1d s1d) : Prop :=
  eb_len (el_base e) = number c "L" /\
  ((tfind "type" c = Some (TStr "source") /\ el_class e = source1d /\ el_data e = DSource (mkS1 dzero (number c "x") (number c "xv"))) \/
   (tfind "type" c = Some (TStr "generic") /\ el_class e = generic1d /\ el_data e = DGeneric (number c "A") (ddiv (number c "L") (d_of_Z 299792458)))).
Definition info1d : sinfo e1d s1d := mkSI state1d [("generic", generic1d); ("source", source1d)].
Lemma reg1d_is : reg1d = [("Simple1D", info1d)].
Proof. reflexivity. Qed.
Lemma type1d t k : sfind t (si_elems info1d) = Some k -> (t = "generic" /\ k = generic1d) \/ (t = "source" /\ k = source1d).
Proof.
  cbn [info1d si_elems sfind]. destruct (String.eqb_spec t "generic") as [->|N1]; [intros H; left; split; [reflexivity|congruence]|].
  destruct (String.eqb_spec t "source") as [->|N2]; [intros H; right; split; [reflexivity|congruence]|]. discriminate.
Qed.
Lemma describes_made j c e : describes info1d j c e -> made c e.
Proof.
  intros (k & nm & d & T & K & _ & C & ->). unfold made. cbn [el_base eb_len el_class el_data]. split; [reflexivity|].
  apply type1d in K as [[N ->]|[N ->]]; cbn [generic1d source1d cl_ctor cl_tname] in *.
  - right. injection C as <-. auto.
  - left. unfold state1d in C. cbn [rbind] in C. injection C as <-. auto.
Qed.
Lemma made_all c m : new_machine reg1d c = Ok m -> exists es, tfind "elements" c = Some (TCfgs es) /\ m_info m = info1d /\ Forall2 made es (m_elems m).
Proof.
  intros H. apply new_machine_ok in H as (t & i & es & _ & F & E & _ & _ & I & L & _ & _ & D). exists es.
  assert (H : i = info1d) by (rewrite reg1d_is in F; cbn [sfind] in F; destruct (String.eqb t "Simple1D"); congruence). subst i. split; [exact E|]. split; [congruence|].
  assert (Q : forall j ec e, nth_error es j = Some ec -> nth_error (m_elems m) j = Some e -> made ec e) by (intros j ec e A1 A2; apply (describes_made j); rewrite <- H; exact (D j ec e A1 A2)).
  clear - L Q. revert L Q. generalize (m_elems m). induction es as [|c es IH]; intros [|e l] L Q; try discriminate; constructor.
  - exact (Q 0%nat c e eq_refl eq_refl).
  - apply IH; [simpl in L; lia|]. intros j. exact (Q (S j)).
Qed.
Lemma advance_made c e n r b : made c e ->
  cl_advance (el_class e) (el_base e) (el_data e) (mkSt n r b) = (el_data e, Ok (mkSt n r (pass1 b c))).
Proof.
  intros (L & [(T & K & D)|(T & K & D)]); rewrite K, D; unfold pass1; rewrite T; cbn [source1d generic1d cl_advance assign1d s_pos s_x s_xv st_body st_next st_retreat]; rewrite L; reflexivity.
Qed.
Lemma update_same {A} (l : list A) i a : nth_error l i = Some a -> update l i a = l.
Proof.
  revert i. induction l as [|x l IH]; intros [|i] H; try discriminate; cbn [update nth_error] in *; [congruence|]. rewrite IH; auto.
Qed.
Lemma Forall2_nth {A C} (P : A -> C -> Prop) l l' n b : Forall2 P l l' -> nth_error l' n = Some b -> exists a, nth_error l n = Some a /\ P a b.
Proof.
  intros F. revert n. induction F as [|x y l l' H F IH]; intros [|n] E; try discriminate; cbn [nth_error] in *; [|auto]. injection E as <-. eauto.
Qed.
Lemma f2len {A C} (P : A -> C -> Prop) l l' : Forall2 P l l' -> List.length l = List.length l'.
Proof. induction 1; simpl; congruence. Qed.
Lemma skipn_nth {A} (l : list A) n a : nth_error l n = Some a -> skipn n l = a :: skipn (S n) l.
Proof. revert n. induction l as [|x l IH]; intros [|n] H; try discriminate; cbn [nth_error skipn] in *; [congruence|]. rewrite (IH _ H). reflexivity. Qed.
Lemma loop1d es els k : Forall2 made es els -> (Z.of_nat (List.length es) <= INT_MAX)%Z -> forall n b evs, exists evs' n',
  prop_loop k els (mkSt (N.of_nat n) false b) evs = mkRun els evs' (Ok (mkSt n' false (fold_left pass1 (firstn k (skipn n es)) b))).
Proof.
  intros F Big. induction k as [|k IH]; intros n b evs; cbn [prop_loop st_next st_retreat st_body]; [exists evs, (N.of_nat n); reflexivity|].
  destruct (slot els (N.of_nat n)) as [e|] eqn:Sl; unfold slot in Sl.
  - destruct (N.ltb_spec (N.of_nat n) (N.of_nat (List.length els))) as [L|]; [|discriminate]. rewrite Nat2N.id in *.
    destruct (Forall2_nth _ _ _ _ _ F Sl) as (c & Hc & M). rewrite (advance_made c e _ _ b M). assert (U : update els n (with_data e (el_data e)) = els) by (destruct e; apply update_same; exact Sl). rewrite U.
    assert (SI : size_incr (N.of_nat n) = N.of_nat (S n)).
    { unfold size_incr. destruct (N.eqb_spec (N.of_nat n) SIZE_MAX) as [Q|Q]; [|lia]. exfalso. pose proof (f2len _ _ _ F). unfold SIZE_MAX, INT_MAX in *. lia. }
    rewrite SI. destruct (IH (S n) (pass1 b c) (match el_obs e with Some o => evs ++ [mkEv o n (mkSt (N.of_nat (S n)) false (pass1 b c))] | None => evs end)) as (evs' & n' & ->).
    exists evs', n'. rewrite (skipn_nth _ _ _ Hc). reflexivity.
  - assert (G : (List.length es <= n)%nat).
    { rewrite (f2len _ _ _ F). destruct (N.ltb_spec (N.of_nat n) (N.of_nat (List.length els))) as [L|L]; [|lia]. rewrite Nat2N.id in Sl. apply nth_error_None in Sl. exact Sl. }
    rewrite skipn_all2 by exact G. exists evs, (N.of_nat n). rewrite firstn_nil. reflexivity.
Qed.
Lemma f2upd {A C} (P : A -> C -> Prop) l l' n a b : Forall2 P l l' -> P a b -> Forall2 P (update l n a) (update l' n b).
Proof. intros F H. revert n. induction F as [|x y l l' H1 F IH]; intros [|n]; cbn [update]; constructor; auto. Qed.
Lemma reconf1d m es i c m' : m_info m = info1d -> Forall2 made es (m_elems m) -> reconfigure m i c = (m', Ok tt) ->
  m_info m' = info1d /\ Forall2 made (update es (N.to_nat i) c) (m_elems m').
Proof.
  intros I F. unfold reconfigure, slot. destruct (N.ltb_spec i (N.of_nat (List.length (m_elems m)))) as [L|]; [|discriminate].
  destruct (nth_error (m_elems m) (N.to_nat i)) as [o|] eqn:E; [|discriminate]. unfold get_str. destruct (tfind "type" c) as [[| |t|]|] eqn:T; try discriminate.
  rewrite I. destruct (sfind t (si_elems info1d)) as [k|] eqn:K; [|discriminate]. destruct (rebuild k o c i) as [e|] eqn:R; [|discriminate].
  intros H. injection H as <-. cbn [with_elems m_info m_elems]. split; [exact I|]. apply f2upd; [exact F|].
  destruct (Forall2_nth _ _ _ _ _ F E) as (c0 & _ & M). unfold rebuild, build in R. destruct (base_ctor c) as [b|] eqn:B; [|discriminate]. cbn [rbind] in R.
  unfold base_ctor in B. destruct (get_str c "name") as [nm|]; [|discriminate]. cbn [rbind] in B. injection B as <-.
  destruct M as (_ & [(_ & Ko & Do)|(_ & Ko & Do)]); rewrite Ko, Do in R; apply type1d in K as [[-> ->]|[-> ->]];
    cbn [generic1d source1d cl_ctor cl_id Nat.eqb rbind state1d cl_assign el_data el_base] in R; try discriminate; injection R as <-; unfold made;
    cbn [with_index el_base eb_len el_class el_data assign1d s_pos s_x s_xv]; (split; [reflexivity|]); auto.
Qed.
Lemma reconfs1d m es m' es' : reconfs m es m' es' -> m_info m = info1d -> Forall2 made es (m_elems m) -> Forall2 made es' (m_elems m').
Proof.
  induction 1 as [m es|m es i c m1 m' es' R _ IH|m es i c m1 e m' es' R _ IH]; intros I F; [exact F| |].
  - destruct (reconf1d _ _ _ _ _ I F R) as [I1 F1]. auto.
  - assert (m1 = m); [|subst; auto]. unfold reconfigure in R. destruct (slot (m_elems m) i); [|congruence]. destruct (get_str c "type"); [|congruence].
    destruct (sfind _ _); [|congruence]. destruct (rebuild _ _ _ _); congruence.
Qed.
Lemma reconfs_len m es m' es' : reconfs m es m' es' -> List.length es' = List.length es.
Proof. induction 1 as [|m es i c m1 m' es' R _ IH|]; auto. rewrite IH. apply update_length. Qed.
Lemma result1d c m0 es0 m es st start k : new_machine reg1d c = Ok m0 -> tfind "elements" c = Some (TCfgs es0) -> reconfs m0 es0 m es ->
  (Z.of_nat (List.length es0) <= INT_MAX)%Z -> (Z.of_nat k <= INT_MAX)%Z ->
  exists q st', propagate m st (N.of_nat start) (Z.of_nat k) = Some q /\ pr_elems q = m_elems m /\ pr_end q = Ok st' /\
    st_body st' = fold_left pass1 (firstn k (skipn start es)) (st_body st).
Proof.
  intros H E Rs Big Bk. destruct (made_all c m0 H) as (es' & E' & I & F0). assert (es' = es0) by congruence. subst es'.
  pose proof (reconfs1d _ _ _ _ Rs I F0) as F. rewrite <- (reconfs_len _ _ _ _ Rs) in Big.
  unfold propagate. assert (Q : Z.eqb (Z.of_nat k) INT_MIN = false) by (apply Z.eqb_neq; unfold INT_MIN; lia). rewrite Q.
  assert (Q2 : Z.ltb (Z.of_nat k) 0 = false) by (apply Z.ltb_ge; lia). rewrite Q2, Zabs2Nat.id.
  destruct (loop1d es (m_elems m) k F Big start (st_body st) []) as (evs & n' & R). do 2 eexists. split; [reflexivity|]. rewrite R. cbn [pr_elems pr_end st_body]. auto.
Qed.
Lemma main1d_is c m es : new_machine reg1d c = Ok m -> tfind "elements" c = Some (TCfgs es) -> (Z.of_nat (List.length es) <= INT_MAX)%Z ->
  main1d m = Some (fold_left pass1 (firstn 1 es) (mkS1 dzero dzero dzero), fold_left pass1 es (mkS1 dzero dzero dzero)).
Proof.
  intros H E B. unfold main1d. assert (A : alloc_state m (TCfg [] []) = Ok (mkSt 0 false (mkS1 dzero dzero dzero))).
  { destruct (made_all c m H) as (_ & _ & I & _). unfold alloc_state. rewrite I. reflexivity. }
  rewrite A. assert (B1 : (Z.of_nat 1 <= INT_MAX)%Z) by (unfold INT_MAX; lia).
  destruct (result1d c m es m es (mkSt 0 false (mkS1 dzero dzero dzero)) 0 1 H E (R_none m es) B B1) as (q1 & st1 & P1 & El1 & En1 & Bo1).
  change (N.of_nat 0) with 0%N in P1. change (Z.of_nat 1) with 1%Z in P1. rewrite P1, En1.
  assert (Q : with_elems m (pr_elems q1) = m) by (rewrite El1; destruct m; reflexivity). rewrite Q.
  assert (K : Z.of_nat (Z.to_nat INT_MAX) = INT_MAX) by (apply Z2Nat.id; unfold INT_MAX; lia).
  assert (B2 : (Z.of_nat (Z.to_nat INT_MAX) <= INT_MAX)%Z) by (rewrite K; lia).
  destruct (result1d c m es m es st1 1 (Z.to_nat INT_MAX) H E (R_none m es) B B2) as (q2 & st2 & P2 & _ & En2 & Bo2).
  rewrite K in P2. change (N.of_nat 1) with 1%N in P2. rewrite P2, En2, Bo2, Bo1. cbn [st_body]. change (skipn 0 es) with es. f_equal. f_equal.
  rewrite (firstn_all2 (skipn 1 es)) by (rewrite skipn_length; lia). rewrite <- fold_left_app, firstn_skipn. reflexivity.
Qed.
Lemma sources_win pre src post b b' pre' : is_source src -> fold_left pass1 (pre ++ src :: post) b = fold_left pass1 (pre' ++ src :: post) b'.
Proof. intros S. rewrite !fold_left_app. cbn [fold_left]. unfold pass1 at 2 5. rewrite S. reflexivity. Qed.

Lemma buildable1d c : buildable info1d c <-> entry1d c.
Proof.
  split.
  - intros (t & k & nm & d & T & K & Kn & Nm & _). split; [eauto|]. apply type1d in K as [[-> _]|[-> _]]; auto.
  - intros ((n & N) & [T|T]); [exists "source", source1d|exists "generic", generic1d]; exists n; eexists; repeat split; auto; reflexivity.
Qed.
Lemma constructs1d c : (exists m, new_machine reg1d c = Ok m) <->
  tfind "sim_type" c = Some (TStr "Simple1D") /\ exists es, tfind "elements" c = Some (TCfgs es) /\ Forall entry1d es.
Proof.
  rewrite new_machine_iff. rewrite reg1d_is. split.
  - intros (t & i & es & T & F & E & A). cbn [sfind] in F. destruct (String.eqb_spec t "Simple1D") as [->|]; [|discriminate]. injection F as <-.
    split; [exact T|]. exists es. split; [exact E|]. apply Forall_forall. intros e He. apply buildable1d. auto.
  - intros (T & es & E & A). exists "Simple1D", info1d, es. repeat split; auto. intros e He. apply buildable1d. rewrite Forall_forall in A. auto.
Qed.

Lemma zero_times z t : is_finite t = true -> exists z', dmul (S754_zero z) t = S754_zero z'.
Proof. destruct t; intros H; try discriminate; eexists; reflexivity. Qed.
Lemma plus_zero x z : dval (dadd x (S754_zero z)) = dval x.
Proof. destruct x as [[]|[]| |], z; reflexivity. Qed.
Lemma no_drift1d c s : ~ is_source c -> number c "A" = dzero -> is_finite (ddiv (number c "L") (d_of_Z 299792458)) = true ->
  dval (s_x (pass1 s c)) = dval (s_x s) /\ dval (s_xv (pass1 s c)) = dval (s_xv s).
Proof.
  intros N A F. assert (E : pass1 s c = let t := ddiv (number c "L") (d_of_Z 299792458) in
         mkS1 (dadd (s_pos s) (number c "L")) (dadd (s_x s) (dmul (dmul (number c "A") t) t)) (dadd (s_xv s) (dmul (number c "A") t))).
  { unfold pass1. unfold is_source in N. destruct (tfind "type" c) as [[| |ty|]|]; try reflexivity. destruct (string_dec ty "source") as [->|Ny]; [congruence|].
    repeat (match goal with |- context [match ?a with _ => _ end] => destruct a; try reflexivity end; try congruence). }
  rewrite E. cbv zeta. cbn [s_x s_xv]. rewrite A. destruct (zero_times false _ F) as (z1 & E1). unfold dzero. rewrite E1. destruct (zero_times z1 _ F) as (z2 & E2). rewrite E2.
  split; apply plus_zero.
Qed.

(** ** Witnesses *)
Definition gen1d (A L : Z) : tcfg := TCfg [("A", TNum (d_of_Z A)); ("L", TNum (d_of_Z L)); ("name", TStr "e"); ("type", TStr "generic")] [].
Definition conf1d (es : list tcfg) : tcfg := TCfg [("elements", TCfgs es); ("sim_type", TStr "Simple1D")] [].
Definition at1 (x v : Z) : s1d := mkS1 dzero (d_of_Z x) (d_of_Z v).
(** One second. *)
Definition sec : Z := 299792458.
Lemma dval_whole z : whole z -> dval (d_of_Z z) = IZR z.
Proof. intros W. destruct (of_Z_holds z W) as (a & -> & _ & V). rewrite dval_SF2R, Flocq.IEEE754.BinarySingleNaN.SF2R_B2SF. exact V. Qed.
Lemma C91_motion_refuted_w : exists c s, entry1d c /\ ~ is_source c /\
  ~ moves (dval (number c "A")) (dval (number c "L") / 299792458) (dval (s_x s)) (dval (s_xv s)) (dval (s_x (pass1 s c))) (dval (s_xv (pass1 s c))).
Proof.
  exists (gen1d 0 sec), (at1 0 1). split; [split; [eexists; reflexivity|right; reflexivity]|]. split; [intros H; discriminate|].
  intros (H & _). revert H.
  assert (X : s_x (pass1 (at1 0 1) (gen1d 0 sec)) = d_of_Z 0) by (vm_compute; reflexivity). rewrite X. clear X.
  change (number (gen1d 0 sec) "A") with (d_of_Z 0). change (number (gen1d 0 sec) "L") with (d_of_Z 299792458).
  change (s_x (at1 0 1)) with (d_of_Z 0). change (s_xv (at1 0 1)) with (d_of_Z 1). rewrite !dval_whole by reflexivity. lra.
Qed.
Lemma C91_rest_refuted_w : exists c s, entry1d c /\ ~ is_source c /\ dval (s_xv s) = 0%R /\
  ~ moves (dval (number c "A")) (dval (number c "L") / 299792458) (dval (s_x s)) (dval (s_xv s)) (dval (s_x (pass1 s c))) (dval (s_xv (pass1 s c))).
Proof.
  exists (gen1d 1 sec), (at1 0 0). split; [split; [eexists; reflexivity|right; reflexivity]|]. split; [intros H; discriminate|]. split; [reflexivity|].
  intros (H & _). revert H.
  assert (X : s_x (pass1 (at1 0 0) (gen1d 1 sec)) = d_of_Z 1) by (vm_compute; reflexivity). rewrite X. clear X.
  change (number (gen1d 1 sec) "A") with (d_of_Z 1). change (number (gen1d 1 sec) "L") with (d_of_Z 299792458).
  change (s_x (at1 0 0)) with (d_of_Z 0). change (s_xv (at1 0 0)) with (d_of_Z 0). rewrite !dval_whole by reflexivity. lra.
Qed.
Lemma C91_cut_refuted_w : exists c h s, entry1d c /\ entry1d h /\ number h "A" = number c "A" /\ dadd (number h "L") (number h "L") = number c "L" /\
  s_xv (pass1 (pass1 s h) h) = s_xv (pass1 s c) /\ s_x (pass1 (pass1 s h) h) <> s_x (pass1 s c).
Proof.
  exists (gen1d 1 (2 * sec)), (gen1d 1 sec), (at1 0 0).
  split; [split; [eexists; reflexivity|right; reflexivity]|]. split; [split; [eexists; reflexivity|right; reflexivity]|].
  split; [reflexivity|]. split; [vm_compute; reflexivity|]. split; [vm_compute; reflexivity|]. vm_compute. discriminate.
Qed.
Definition m1d : machine e1d s1d :=
  match new_machine reg1d (conf1d [gen1d 1 sec]) with Ok m => m | Throw _ => mkM [] [] [] "" (conf1d []) info1d end.
Definition run1d (st : pstate s1d) (max : Z) : prun e1d s1d :=
  match propagate m1d st 0 max with Some q => q | None => mkRun [] [] (Throw Abort) end.
Definition end1d (q : prun e1d s1d) : pstate s1d := match pr_end q with Ok st => st | Throw _ => mkSt 0 false (at1 0 0) end.
Lemma C91_backward_refuted_w : exists c m st q1 st1 q2 st2, new_machine reg1d c = Ok m /\ propagate m st 0 1 = Some q1 /\ pr_end q1 = Ok st1 /\
  propagate m st1 0 (-1) = Some q2 /\ pr_end q2 = Ok st2 /\ s_pos (st_body st2) <> s_pos (st_body st).
Proof.
  set (st := mkSt 0 false (at1 0 0)). exists (conf1d [gen1d 1 sec]), m1d, st, (run1d st 1), (end1d (run1d st 1)), (run1d (end1d (run1d st 1)) (-1)), (end1d (run1d (end1d (run1d st 1)) (-1))).
  split; [reflexivity|]. split; [reflexivity|]. split; [vm_compute; reflexivity|]. split; [reflexivity|]. split; [vm_compute; reflexivity|]. vm_compute. discriminate.
Qed.
Lemma C91_shown_refuted_w : exists s s' level, s_x s <> s_x s' /\ show1d s level = show1d s' level.
Proof. exists (at1 0 0), (at1 1 0), 0%Z. split; [vm_compute; discriminate|reflexivity]. Qed.
