(** What a simulation leaves to be read. *)
From Coq Require Import List String Ascii Bool NArith ZArith Arith Lia.
From Verif Require Import SMap SMap_Proofs Dbl Lexer_Model Config_Spec Machine_Model Machine_Spec Machine_Proofs Machine2_Proofs Util_Model Util_Spec
  Array_Model Array_Spec Array_Proofs Array3_Proofs Ioc_Model Ioc_Spec Ioc_Proofs Ioc2_Proofs Ioc3_Proofs Ioc5_Proofs Ioc7_Proofs.
Import ListNotations.
Open Scope string_scope.
Open Scope list_scope.

Section Read.
Context {D B : Type}.
Variables (ab : abi) (kindof : B -> kind) (memof : B -> mem) (what : exn -> string).
Notation atomic := (atomic (D:=D) (B:=B) ab kindof memof).
Notation run_once := (run_once (D:=D) (B:=B) what).
Notation serves := (serves (D:=D) (B:=B) ab kindof memof what).
Notation replays := (replays (D:=D) (B:=B) ab kindof memof what).
Notation serves_sound := (serves_sound ab kindof memof what).
Implicit Types (s : vsim D B).

(** ** Observers *)
Fixpoint latest (o : nat) (evs : list (event B)) (x : option B) : option B :=
  match evs with
  | [] => x
  | ev :: evs' => latest o evs' (if Nat.eqb (ev_obs ev) o then Some (st_body (ev_state ev)) else x)
  end.
Definition body_at (l : list (option (pstate B))) (o : nat) : option B :=
  match nth_error l o with Some (Some st) => Some (st_body st) | _ => None end.
Lemma viewed_body l o st l' o' : viewed l o st = Some l' -> body_at l' o' = if Nat.eqb o o' then Some (st_body st) else body_at l o'.
Proof.
  unfold viewed, body_at. destruct (nth_error l o) as [[old|]|] eqn:E; intros [= <-];
    (destruct (Nat.eqb_spec o o') as [<-|N]; [erewrite nth_update_eq by eauto; reflexivity|rewrite nth_update_neq by auto; reflexivity]).
Qed.
Lemma views_body evs : forall l l' o, views l evs = Some l' -> body_at l' o = latest o evs (body_at l o).
Proof.
  induction evs as [|ev evs IH]; intros l l' o; simpl; [congruence|].
  destruct (viewed l _ _) as [l1|] eqn:E; [|discriminate]. intros H. rewrite (IH _ _ _ H), (viewed_body _ _ _ _ o E). reflexivity.
Qed.
Lemma viewed_some l o st : o < List.length l -> exists l', viewed (B:=B) l o st = Some l' /\ List.length l' = List.length l.
Proof.
  intros H. unfold viewed. destruct (nth_error l o) as [[old|]|] eqn:E; [| |apply nth_error_None in E; lia];
    eexists; (split; [reflexivity|apply update_length]).
Qed.
Lemma views_some evs : forall l, (forall ev, In ev evs -> ev_obs ev < List.length l) -> exists l', views (B:=B) l evs = Some l'.
Proof.
  induction evs as [|ev evs IH]; intros l H; simpl; [eauto|].
  destruct (viewed_some l (ev_obs ev) (ev_state ev)) as (l1 & -> & L); [apply H; left; auto|].
  apply IH. intros x Hx. rewrite L. apply H. right. auto.
Qed.

Lemma journey_prefix vs : forall (els : list (elem D B)) f st t els' r,
  (forall i, In i vs -> i < List.length els) -> journey els f vs st = (t, els', r) ->
  map fst t = firstn (List.length t) vs.
Proof.
  induction vs as [|i vs IH]; intros els f st t els' r Hv J; simpl in J.
  - injection J as <- _ _. reflexivity.
  - destruct (nth_error els i) as [e|] eqn:E; [|injection J as <- _ _; reflexivity].
    destruct (cl_advance _ _ _ _) as [d [st'|x]]; [|injection J as <- _ _; reflexivity].
    destruct (journey (update _ _ _) _ _ _) as [[t0 e0] r0] eqn:J0. injection J as <- _ _. simpl. f_equal.
    eapply IH; [|exact J0]. intros j Hj. rewrite update_length. apply Hv. right. auto.
Qed.

(** In a list of pairs whose first components are distinct slots. *)
Lemma latest_seen (els : list (elem D B)) o i e : nth_error els i = Some e -> el_obs e = Some o ->
  (forall j e', nth_error els j = Some e' -> el_obs e' = Some o -> j = i) ->
  forall n k t x, map fst t = seq k n -> latest o (seen els t) x =
    match nth_error t (i - k) with Some (_, st) => if Nat.leb k i then Some (st_body st) else x | None => x end.
Proof.
  intros Ei Eo U n. induction n as [|n IH]; intros k t x Ht.
  - destruct t; [|discriminate]. simpl. destruct (i - k); reflexivity.
  - destruct t as [|[j st] t]; [discriminate|]. cbn [map seq fst] in Ht. injection Ht as -> Ht.
    assert (Q : latest o (seen els ((k, st) :: t)) x = latest o (seen els t) (if Nat.eqb k i then Some (st_body st) else x)).
    { unfold seen. cbn [flat_map]. fold (seen els t). destruct (nth_error els k) as [e'|] eqn:Ek.
      - destruct (el_obs e') as [o'|] eqn:Eo'; cbn [app latest ev_obs ev_state].
        + destruct (Nat.eqb_spec o' o) as [->|No].
          * rewrite (U k e' Ek Eo'), Nat.eqb_refl. reflexivity.
          * destruct (Nat.eqb_spec k i) as [->|]; [rewrite Ei in Ek; congruence|reflexivity].
        + destruct (Nat.eqb_spec k i) as [->|]; [rewrite Ei in Ek; congruence|reflexivity].
      - destruct (Nat.eqb_spec k i) as [->|]; [congruence|reflexivity]. }
    rewrite Q, (IH (S k) t _ Ht). destruct (Nat.eqb_spec k i) as [->|N].
    + rewrite Nat.sub_diag. replace (i - S i) with 0 by lia. rewrite (proj2 (Nat.leb_gt (S i) i)) by lia.
      rewrite Nat.leb_refl. cbn [nth_error]. destruct t as [|[]]; reflexivity.
    + destruct (Nat.leb_spec k i) as [L|L].
      * replace (i - k) with (S (i - S k)) by lia. cbn [nth_error]. rewrite (proj2 (Nat.leb_le (S k) i)) by lia. reflexivity.
      * replace (i - k) with 0 by lia. replace (i - S k) with 0 by lia. cbn [nth_error].
        rewrite (proj2 (Nat.leb_gt (S k) i)) by lia. destruct t as [|[]]; reflexivity.
Qed.

(** ** Classes *)
Lemma sound_classes r s (P : class D B -> Prop) : sound r s -> all_classes r P ->
  forall e, In e (m_elems (v_machine s)) -> P (el_class e).
Proof.
  intros [(c & m & us & H1 & H2 & H3 & H4) _ _ _ _ _] A e He. rewrite H4 in He.
  destruct (uses_keeps us m) as (_ & _ & _ & K & _). apply (in_map el_class) in He. rewrite K in He.
  apply in_map_iff in He as (e0 & <- & He0). apply In_nth_error in He0 as [j Hj].
  apply new_machine_ok in H1 as (t & i & es & A1 & A2 & A3 & A4 & A5 & A6 & A7 & A8 & A9 & A10).
  destruct (nth_error es j) as [ec|] eqn:Ec.
  - destruct (A10 _ _ _ Ec Hj) as (k & nm & d & _ & X & _ & _ & ->). eapply A; eauto.
  - apply nth_error_None in Ec. assert (j < List.length (m_elems m)) by (apply nth_error_Some; congruence). lia.
Qed.
Lemma sound_undirected r s : sound r s -> all_classes r steady -> undirected (m_elems (v_machine s)).
Proof. intros S0 A e He. exact (sound_classes r s steady S0 A e He). Qed.
Lemma sound_size r s : sound r s -> (N.of_nat (List.length (m_elems (v_machine s))) <= SIZE_MAX)%N.
Proof.
  intros [(c & m & us & H1 & H2 & H3 & H4) _ _ _ _ _]. rewrite H4. destruct (uses_keeps us m) as (_ & _ & _ & K & _).
  apply (f_equal (@List.length _)) in K. rewrite !map_length in K. rewrite K. auto.
Qed.

(** ** A run *)
Lemma firstn_of_seq n : forall k m, n <= m -> firstn n (seq k m) = seq k n.
Proof. induction n as [|n IH]; intros k [|m] H; simpl; auto; [lia|]. f_equal. apply IH. lia. Qed.
Lemma int_visits n : (Z.of_nat n <= INT_MAX)%Z -> visits n 0 INT_MAX = seq 0 n.
Proof.
  intros H. unfold visits. destruct n as [|n]; [reflexivity|].
  replace (0 <? N.of_nat (S n))%N with true by (symmetry; apply N.ltb_lt; lia).
  replace (0 <=? INT_MAX)%Z with true by reflexivity. cbn [N.to_nat]. rewrite Nat.sub_0_r.
  replace (Nat.min (S n) (Z.to_nat INT_MAX)) with (S n); auto.
  symmetry. apply Nat.min_l. apply Nat2Z.inj_le. rewrite Z2Nat.id by (unfold INT_MAX; lia). auto.
Qed.
Lemma run_is r s s' : serves r s -> all_classes r steady -> (Z.of_nat (List.length (m_elems (v_machine s))) <= INT_MAX)%Z ->
  run_once s = Some s' ->
  let '(bs, e) := simulation (v_machine s) in
  v_valid s' = (match e with Ok _ => true | Throw _ => false end) /\
  v_msg s' = (match e with Ok _ => v_msg s | Throw x => what x end) /\
  (e = Ok tt -> List.length bs = List.length (m_elems (v_machine s))) /\
  v_scans s' = S (v_scans s) /\ v_dosim s' = false /\ v_stop s' = v_stop s /\ v_measures s' = v_measures s /\
  lattice s' = lattice s /\
  forall i, left_by s' i = match nth_error bs (N.to_nat i) with
                           | Some b => if mfind i (v_measures s) then Some b else None
                           | None => left_by s i
                           end.
Proof.
  intros Hs A L H. pose proof (serves_sound _ _ Hs) as S0. pose proof (run_keeps what _ _ H) as [St _].
  apply (static_lattice) in St. unfold simulation.
  apply (run_once_parts what) in H as [(e & Ha & Hc & E')|(st & p & l & Ha & Hp & Hv & H)].
  - rewrite Ha. subst s'. repeat (split; [auto; try discriminate; fail|]). intros i. destruct (N.to_nat i); reflexivity.
  - rewrite Ha. destruct (journey _ _ _ _) as [[t els'] x] eqn:J.
    assert (Hp' : propagate (v_machine s) st 0 INT_MAX = Some (mkRun els' (seen (m_elems (v_machine s)) t) x)).
    { apply (propagate_visits (v_machine s) st 0 INT_MAX); [eapply sound_size; eauto|unfold INT_MAX, INT_MIN; lia|eapply sound_undirected; eauto|].
      rewrite int_visits by auto. exact J. }
    rewrite Hp in Hp'. injection Hp' as ->. cbn [pr_events pr_end pr_elems] in *.
    assert (Hin : forall i, In i (seq 0 (List.length (m_elems (v_machine s)))) -> i < List.length (m_elems (v_machine s))).
    { intros i Hi. apply in_seq in Hi. lia. }
    pose proof (journey_prefix _ _ _ _ _ _ _ Hin J) as Pf.
    assert (Pl : List.length t <= List.length (m_elems (v_machine s))).
    { apply (f_equal (@List.length _)) in Pf. rewrite map_length, firstn_length, seq_length in Pf. lia. }
    assert (Ps : map fst t = seq 0 (List.length t)) by (rewrite Pf; apply firstn_of_seq; auto).
    assert (Bo : forall i, body_at l i = latest i (seen (m_elems (v_machine s)) t) (body_at (v_last s) i)) by (intros; eapply views_body; eauto).
    assert (Lf : forall i, match mfind i (v_measures s) with Some o => body_at l o | None => None end =
      match nth_error (map (fun x => st_body (snd x)) t) (N.to_nat i) with
      | Some b => if mfind i (v_measures s) then Some b else None
      | None => left_by s i
      end).
    { intros i. unfold left_by. destruct (mfind i (v_measures s)) as [o|] eqn:Em.
      2:{ destruct (nth_error _ _); reflexivity. }
      destruct (sd_last _ _ S0 _ _ Em) as [Lo Li]. destruct (nth_error (m_elems (v_machine s)) (N.to_nat i)) as [e|] eqn:Ee.
      2:{ apply nth_error_None in Ee. lia. }
      pose proof (sd_obs _ _ S0 _ _ Ee) as Oe. rewrite N2Nat.id, Em in Oe.
      rewrite Bo, (latest_seen _ o (N.to_nat i) e Ee Oe) with (n := List.length t) (k := 0); auto.
      2:{ intros j e' Ej Eo. rewrite (sd_obs _ _ S0 _ _ Ej) in Eo. pose proof (sd_one _ _ S0 _ _ _ Em Eo) as Q. subst i. lia. }
      rewrite Nat.sub_0_r, nth_error_map. cbn [Nat.leb]. destruct (nth_error t (N.to_nat i)) as [[j st']|]; reflexivity. }
    destruct H as [(st' & -> & E')|(e & -> & Hc & E')]; subst s'; repeat (split; [auto; try discriminate; fail|]).
    + split; [|repeat (split; [auto; fail|]); exact Lf].
      intros _. rewrite map_length. apply journey_trail in J; auto. apply (f_equal (@List.length _)) in J. rewrite map_length, seq_length in J. auto.
    + exact Lf.
Qed.

(** ** Between runs *)
Lemma do_keeps o x s s' : atomic o s = Some (s', x) ->
  v_valid s' = v_valid s /\ v_msg s' = v_msg s /\ v_measures s' = v_measures s /\ v_last s' = v_last s /\ v_scans s' = v_scans s /\
  m_info (v_machine s') = m_info (v_machine s) /\ List.length (m_elems (v_machine s')) = List.length (m_elems (v_machine s)).
Proof.
  intros H. destruct o as [|j q a v|j q a|d a|d buf|d buf|n|]; cbn [Ioc_Spec.atomic] in H.
  - injection H as <- <-. repeat split.
  - destruct (set_outcomes ab kindof memof j q a v s s' x H) as [->| ->].
    + apply (set_ok ab kindof memof j q a v) in H as (e & m & E & R & ->).
      apply reconfigure_ok in R as (ob & t & k & nm & d & A1 & A2 & A3 & A4 & A5 & A6 & ->). repeat split. cbn. apply update_length.
    + apply (set_refused ab kindof memof j q a v) in H. subst. repeat split.
  - injection H as <- <-. repeat split.
  - destruct (kept _ _ _ _ _ _ _) as [[v|]|]; [| |discriminate]; injection H as <- <-; repeat split.
  - destruct (collect _ _); [|discriminate]. injection H as <- <-. repeat split.
  - destruct (collect _ _); [|discriminate]. injection H as <- <-. repeat split.
  - injection H as <- <-. repeat split.
  - injection H as <- <-. repeat split.
Qed.
Lemma do_lattice o x s s' i : atomic o s = Some (s', x) -> lattice s' = edit (lattice s) (HDo i o x).
Proof.
  intros H. destruct o as [|j q a v|j q a|d a|d buf|d buf|n|]; cbn [Ioc_Spec.atomic] in H.
  - injection H as <- <-. reflexivity.
  - destruct (set_outcomes ab kindof memof j q a v s s' x H) as [->| ->].
    + apply (set_ok ab kindof memof j q a v) in H as (e & m & E & R & ->).
      apply reconfigure_ok in R as (ob & t & k & nm & d & A1 & A2 & A3 & A4 & A5 & A6 & ->).
      unfold lattice. cbn [edit set_machine v_machine with_elems m_elems]. rewrite nth_error_map, E. cbn [option_map].
      generalize (m_elems (v_machine s)) as els. clear. generalize (N.to_nat j) as i. intros i els. revert i.
      induction els as [|y els IH]; intros [|i]; simpl; auto. f_equal. apply IH.
    + apply (set_refused ab kindof memof j q a v) in H. subst. reflexivity.
  - injection H as <- <-. reflexivity.
  - destruct (kept _ _ _ _ _ _ _) as [[v|]|]; [| |discriminate]; injection H as <- <-; reflexivity.
  - destruct (collect _ _); [|discriminate]. injection H as <- <-. reflexivity.
  - destruct (collect _ _); [|discriminate]. injection H as <- <-. reflexivity.
  - injection H as <- <-. reflexivity.
  - injection H as <- <-. reflexivity.
Qed.
Lemma run_size s s' : run_once s = Some s' -> List.length (m_elems (v_machine s')) = List.length (m_elems (v_machine s)) /\
  v_measures s' = v_measures s.
Proof.
  intros H. pose proof (run_keeps what _ _ H) as [St _]. apply (f_equal (@List.length _)) in St. rewrite !map_length in St. split; auto.
  apply (run_once_parts what) in H as [(e & Ha & Hc & ->)|(st & p & l & Ha & Hp & Hv & H)]; auto.
  destruct H as [(st' & He & ->)|(e & He & Hc & ->)]; auto.
Qed.
Lemma replays_keep r s h s' : replays s h s' -> serves r s -> serves r s' /\ v_measures s' = v_measures s /\
  List.length (m_elems (v_machine s')) = List.length (m_elems (v_machine s)) /\ lattice s' = edits h (lattice s).
Proof.
  induction 1 as [|h s1 s2 H IH Hd Hst Hr|h s1 s2 j o x H IH Ha]; intros Hs; [auto| |]; destruct (IH Hs) as (I1 & I2 & I3 & I4).
  - pose proof (run_size _ _ Hr) as [R1 R2]. pose proof (run_keeps what _ _ Hr) as [St _]. apply static_lattice in St.
    split; [eapply sv_run; eauto|]. split; [congruence|]. split; [congruence|].
    unfold edits. rewrite fold_left_app. cbn [fold_left edit]. fold (edits h (lattice s)). congruence.
  - destruct (do_keeps _ _ _ _ Ha) as (K1 & K2 & K3 & K4 & K5 & K6 & K7).
    split; [eapply sv_do; eauto|]. split; [congruence|]. split; [congruence|].
    unfold edits. rewrite fold_left_app. cbn [fold_left]. fold (edits h (lattice s)). rewrite <- I4. eapply do_lattice; eauto.
Qed.
Lemma left_same s s' i : v_measures s' = v_measures s -> v_last s' = v_last s -> left_by s' i = left_by s i.
Proof. unfold left_by. intros -> ->. reflexivity. Qed.

(** What is kept is from the latest run. *)
Lemma history_run r s h s' : serves r s -> all_classes r steady -> (Z.of_nat (List.length (m_elems (v_machine s))) <= INT_MAX)%Z ->
  replays s h s' ->
  (count is_run h = 0 /\ v_valid s' = v_valid s /\ v_msg s' = v_msg s /\ forall i, left_by s' i = left_by s i) \/
  (exists h1 h2 s1, h = h1 ++ HRun :: h2 /\ count is_run h2 = 0 /\ replays s h1 s1 /\
     let '(bs, e) := simulation (v_machine s1) in
     v_valid s' = (match e with Ok _ => true | Throw _ => false end) /\
     (forall x, e = Throw x -> v_msg s' = what x) /\
     forall i, mfind i (v_measures s) <> None -> v_valid s' = true -> left_by s' i = nth_error bs (N.to_nat i)).
Proof.
  intros Hs A L. induction 1 as [|h s1 s2 H IH Hd Hst Hr|h s1 s2 j o x H IH Ha].
  - left. auto.
  - right. exists h, [], s1. split; auto. split; auto. split; auto.
    destruct (replays_keep r _ _ _ H Hs) as (I1 & I2 & I3 & I4).
    pose proof (run_is r s1 s2 I1 A ltac:(rewrite I3; exact L) Hr) as R. destruct (simulation (v_machine s1)) as [bs e] eqn:Sm.
    destruct R as (R1 & R2 & R3 & _ & _ & _ & _ & _ & R4). split; auto. split; [intros x ->; auto|].
    intros i Hi Hv. rewrite R4. destruct (nth_error bs (N.to_nat i)) as [b|] eqn:Eb.
    + rewrite I2. destruct (mfind i (v_measures s)); congruence.
    + rewrite Hv in R1. destruct e as [[]|]; [|discriminate]. apply nth_error_None in Eb. rewrite (R3 eq_refl) in Eb.
      pose proof (serves_sound _ _ I1) as S0. rewrite <- I2 in Hi. destruct (mfind i (v_measures s1)) as [o|] eqn:Em; [|congruence].
      destruct (sd_last _ _ S0 _ _ Em). lia.
  - destruct (do_keeps _ _ _ _ Ha) as (K1 & K2 & K3 & K4 & K5 & K6 & K7).
    destruct IH as [(I1 & I2 & I3 & I4)|(h1 & h2 & s0 & E & N & R & M)].
    + left. unfold count in *. rewrite filter_app, app_length, I1. split; auto. split; [congruence|]. split; [congruence|].
      intros i. rewrite (left_same _ _ _ K3 K4). auto.
    + right. exists h1, (h2 ++ [HDo j o x]), s0. split; [rewrite E, <- app_assoc; reflexivity|].
      split; [unfold count in *; rewrite filter_app, app_length, N; reflexivity|]. split; auto.
      destruct (simulation (v_machine s0)) as [bs e]. destruct M as (M1 & M2 & M3). split; [congruence|]. split; [intros; rewrite K2; auto|].
      intros i Hi Hv. rewrite (left_same _ _ _ K3 K4). apply M3; auto. congruence.
Qed.

(** ** Like a new machine *)
Lemma journey_suits (i : sinfo D B) es vs : forall els1 els2 f st,
  (forall c, In c (map el_class els1) -> transparent c) -> suit_all i es els1 -> suit_all i es els2 ->
  let '(t1, _, r1) := journey els1 f vs st in let '(t2, _, r2) := journey els2 f vs st in t1 = t2 /\ r1 = r2.
Proof.
  induction vs as [|n vs IH]; intros els1 els2 f st HTr H1 H2; simpl; auto.
  pose proof H1 as H1'. pose proof H2 as H2'. destruct H1 as [L1 H1], H2 as [L2 H2].
  destruct (nth_error els1 n) as [a|] eqn:E1; destruct (nth_error els2 n) as [b|] eqn:E2; simpl; auto.
  2:{ apply nth_error_None in E2. assert (n < List.length els1) by (apply nth_error_Some; congruence). lia. }
  2:{ apply nth_error_None in E1. assert (n < List.length els2) by (apply nth_error_Some; congruence). lia. }
  destruct (nth_error es n) as [ec|] eqn:Ec.
  2:{ apply nth_error_None in Ec. assert (n < List.length els1) by (apply nth_error_Some; congruence). lia. }
  pose proof (H1 _ _ _ Ec E1) as S1. pose proof (H2 _ _ _ Ec E2) as S2.
  destruct S1 as (nm1 & d1 & P1 & P2 & P3 & P4 & P5 & P6).
  destruct S2 as (nm2 & d2 & Q1 & Q2 & Q3 & Q4 & Q5 & Q6).
  assert (HC : el_class a = el_class b).
  { rewrite P1 in Q1. injection Q1 as Q1. rewrite Q1 in P2. rewrite P2 in Q2. congruence. }
  rewrite P3 in Q3. injection Q3 as <-.
  rewrite P5, Q5, HC.
  destruct (HTr (el_class a)) as [good G].
  { apply in_map. eapply nth_error_In; eauto. } fold (tgood (el_class a) good) in G.
  assert (GG := G). destruct GG as (_ & _ & G3 & G4). rewrite HC in *.
  set (bs := mkEB _ _ _ _). set (st1 := mkSt _ _ _).
  pose proof (G4 bs (el_data a) (el_data b) st1 (P6 _ G) (Q6 _ G)) as O.
  destruct (cl_advance (el_class b) bs (el_data a) st1) as [da [sa|xa]] eqn:A1;
    destruct (cl_advance (el_class b) bs (el_data b) st1) as [db [sb|xb]] eqn:A2; simpl in O; try discriminate.
  2:{ simpl. split; congruence. }
  injection O as ->.
  assert (J : let '(t1, _, r1) := journey (update els1 n (with_data a da)) f vs sb in
              let '(t2, _, r2) := journey (update els2 n (with_data b db)) f vs sb in t1 = t2 /\ r1 = r2).
  { apply IH.
    - erewrite map_update; eauto.
    - split; [rewrite update_length; auto|]. intros j ec' e' Hj He'.
      destruct (Nat.eq_dec n j) as [Hij|Hij].
      + subst j. erewrite nth_update_eq in He' by eauto. injection He' as <-.
        rewrite Ec in Hj. injection Hj as <-. apply suits_data; [exact (H1 _ _ _ Ec E1)|].
        intros g Gg. rewrite HC in Gg. pose proof (P6 _ Gg). destruct Gg as (_ & _ & Gg & _).
        specialize (Gg bs _ st1 H). rewrite A1 in Gg. exact Gg.
      + rewrite nth_update_neq in He' by auto. eauto.
    - split; [rewrite update_length; auto|]. intros j ec' e' Hj He'.
      destruct (Nat.eq_dec n j) as [Hij|Hij].
      + subst j. erewrite nth_update_eq in He' by eauto. injection He' as <-.
        rewrite Ec in Hj. injection Hj as <-. apply suits_data; [exact (H2 _ _ _ Ec E2)|].
        intros g Gg. pose proof (Q6 _ Gg). destruct Gg as (_ & _ & Gg & _).
        specialize (Gg bs _ st1 H). rewrite A2 in Gg. exact Gg.
      + rewrite nth_update_neq in He' by auto. eauto. }
  destruct (journey (update els1 _ _) _ _ _) as [[t1 e1] r1], (journey (update els2 _ _) _ _ _) as [[t2 e2] r2].
  destruct J as [-> ->]. auto.
Qed.
Lemma like_new r s c' : serves r s -> tidy_all r -> all_classes r transparent ->
  tfind "sim_type" c' = Some (TStr (m_simtype (v_machine s))) -> tfind "elements" c' = Some (TCfgs (lattice s)) ->
  exists m2, new_machine r c' = Ok m2 /\ simulation m2 = simulation (v_machine s).
Proof.
  intros Hs Td Tr Hc' He'. pose proof (serves_sound _ _ Hs) as S0. pose proof (sound_suits r s S0 Td) as SA.
  pose proof (sound_classes r s transparent S0 Tr) as Cl.
  destruct (sd_uses _ _ S0) as (c & m & us & U1 & U2 & U3 & U4).
  apply new_machine_ok in U1 as (t & i & es & A1 & A2 & A3 & A4 & A5 & A6 & A7 & A8 & A9 & A10).
  assert (HI : m_info (v_machine s) = i) by (rewrite U4; destruct (uses_keeps us m) as (_ & _ & -> & _); auto).
  assert (HT : m_simtype (v_machine s) = t).
  { rewrite U4, <- A4. clear. revert m. induction us as [|u us IH]; intros m; auto. change (uses m (u :: us)) with (uses (use1 m u) us). rewrite IH.
    destruct u; simpl; auto; [|destruct (propagate _ _ _ _); auto]. unfold reconfigure.
    destruct (slot _ _); auto. destruct (get_str _ _); auto. destruct (sfind _ _); auto. destruct (rebuild _ _ _ _); auto. }
  rewrite HT in Hc'. rewrite HI in SA. pose proof Hc' as Hs'.
  assert (X : exists m2, new_machine r c' = Ok m2).
  { apply new_machine_iff. exists t, i, (lattice s). repeat (split; [auto; fail|]).
    intros ec Hin. apply In_nth_error in Hin as [j Hj]. destruct SA as [SL SA].
    destruct (nth_error (m_elems (v_machine s)) j) as [e|] eqn:E.
    - destruct (SA _ _ _ Hj E) as (nm & d & P1 & P2 & P3 & P4 & _).
      exists (cl_tname (el_class e)), (el_class e), nm, d. auto.
    - apply nth_error_None in E.
      assert (j < List.length (lattice s)) by (apply nth_error_Some; congruence). lia. }
  destruct X as [m2 Hm2]. exists m2. split; auto.
  apply new_machine_ok in Hm2 as (t0 & i0 & es0 & H1 & H2 & H3 & H4 & H5 & H6 & H7 & H8 & H9 & H10).
  assert (t0 = t) as -> by congruence. assert (i0 = i) as -> by congruence.
  assert (es0 = lattice s) as -> by congruence.
  assert (S2 : suit_all i (lattice s) (m_elems m2)).
  { split; auto. intros j ec e Hj Hej. apply describes_suits; eauto. }
  unfold simulation, alloc_state. rewrite H6, HI. destruct (rbind _ _) as [st|]; auto.
  assert (LL : List.length (m_elems m2) = List.length (m_elems (v_machine s))) by (destruct SA, S2; congruence). rewrite LL.
  assert (J := journey_suits i (lattice s) (seq 0 (List.length (m_elems (v_machine s)))) (m_elems (v_machine s)) (m_elems m2) true (mkSt 0 false (st_body st))
    ltac:(intros k Hk; apply in_map_iff in Hk as (e & <- & He2); auto) SA S2).
  destruct (journey (m_elems (v_machine s)) _ _ _) as [[t1 e1] r1], (journey (m_elems m2) _ _ _) as [[t2 e2] r2].
  destruct J as [-> ->]. reflexivity.
Qed.
End Read.
