(** The command line tool: what is shown, and how it ends. *)
From Coq Require Import List String Ascii Bool NArith ZArith Arith Lia.
From Verif Require Import SMap SMap_Proofs Dbl Config_Spec Lexer_Spec Lexer_Model Glps_Model Glps_Spec Machine_Model Machine_Spec Util_Model Util_Spec Cli_Model Cli_Spec.
From Verif Require Import Glps6_Proofs Machine_Proofs Machine2_Proofs Machine3_Proofs Cli_Proofs Cli2_Proofs.
Import ListNotations.
Open Scope string_scope.
Open Scope list_scope.

Section M.
Context {D B : Type}.
Implicit Types (els : list (elem D B)) (m : machine D B) (a : cliargs).

(** ** Selection *)
Definition marked (els0 : list (elem D B)) (o : option nat) (f : nat -> bool) els : Prop :=
  forall i, nth_error els i = option_map (fun e => if f i then with_obs e o else e) (nth_error els0 i).
Lemma marked_length els0 o f els : marked els0 o f els -> List.length els = List.length els0.
Proof.
  intros H. apply Nat.le_antisymm; apply Nat.nlt_ge; intros C.
  - apply nth_error_Some in C. rewrite H in C. destruct (nth_error els0 (List.length els0)) eqn:E; [|apply C; reflexivity].
    assert (X : nth_error els0 (List.length els0) <> None) by congruence. apply nth_error_Some in X. lia.
  - apply nth_error_Some in C. specialize (H (List.length els)). destruct (nth_error els0 (List.length els)); [|congruence].
    assert (X : nth_error els (List.length els) <> None) by (rewrite H; discriminate). apply nth_error_Some in X. lia.
Qed.
Lemma marked_start els o : marked els o (fun _ => false) els.
Proof. intros i. destruct (nth_error els i); reflexivity. Qed.
Lemma marked_ext els0 o f g els : (forall i, i < List.length els0 -> f i = g i) -> marked els0 o f els -> marked els0 o g els.
Proof.
  intros E H i. rewrite H. destruct (nth_error els0 i) as [e|] eqn:N; [|reflexivity]. cbn. rewrite E; [reflexivity|]. apply nth_error_Some. congruence.
Qed.
Lemma marked_set els0 o f els i : marked els0 o f els -> marked els0 o (fun j => (f j || Nat.eqb j i)%bool) (set_observer els i o).
Proof.
  intros H j. unfold set_observer. pose proof (H i) as Hi. destruct (nth_error els i) as [e|] eqn:E.
  - destruct (nth_error els0 i) as [e0|] eqn:E0; [|discriminate]. cbn in Hi. injection Hi as Hi. destruct (Nat.eqb_spec j i) as [->|N].
    + rewrite (nth_update_eq _ _ _ _ E), E0. cbn. rewrite orb_true_r. rewrite Hi. destruct (f i); reflexivity.
    + rewrite nth_update_neq by auto. rewrite H, orb_false_r. reflexivity.
  - rewrite H. destruct (Nat.eqb_spec j i) as [->|N]; [|rewrite orb_false_r; reflexivity]. destruct (nth_error els0 i); [discriminate|reflexivity].
Qed.
Lemma marked_attach els0 o f els i : (forall e, In e els0 -> el_obs e = None) -> marked els0 o f els -> marked els0 o (fun j => (f j || Nat.eqb j i)%bool) (attach o els i).
Proof.
  intros N0 H. unfold attach. pose proof (H i) as Hi. destruct (nth_error els i) as [e|] eqn:E.
  - destruct (el_obs e) eqn:Ob; [|apply marked_set, H]. destruct (nth_error els0 i) as [e0|] eqn:E0; [|discriminate]. cbn in Hi. injection Hi as Hi.
    eapply marked_ext; [|exact H]. intros j _. cbv beta. destruct (Nat.eqb_spec j i) as [->|]; [|rewrite orb_false_r; reflexivity].
    destruct (f i); [reflexivity|]. subst e. rewrite (N0 e0) in Ob; [discriminate|]. eapply nth_error_In, E0.
  - eapply marked_ext; [|exact H]. intros j Hj. cbv beta. destruct (Nat.eqb_spec j i) as [->|]; [|rewrite orb_false_r; reflexivity].
    apply nth_error_Some in Hj. destruct (nth_error els0 i); [discriminate|congruence].
Qed.
Lemma marked_folded (step : list (elem D B) -> nat -> list (elem D B)) els0 o :
  (forall f els i, marked els0 o f els -> marked els0 o (fun j => (f j || Nat.eqb j i)%bool) (step els i)) ->
  forall l f els, marked els0 o f els -> marked els0 o (fun j => (f j || existsb (Nat.eqb j) l)%bool) (fold_left step l els).
Proof.
  intros S0. induction l as [|i l IH]; intros f els H; cbn [fold_left existsb].
  - eapply marked_ext; [|exact H]. intros. rewrite orb_false_r. reflexivity.
  - eapply marked_ext; [|apply IH, S0, H]. intros j _. cbv beta. rewrite orb_assoc. reflexivity.
Qed.
Lemma marked_words (slots : string -> list nat) els0 o : (forall e, In e els0 -> el_obs e = None) ->
  forall ts f els, marked els0 o f els ->
    marked els0 o (fun j => (f j || existsb (fun t => existsb (Nat.eqb j) (slots t)) ts)%bool) (fold_left (fun els t => fold_left (attach o) (slots t) els) ts els).
Proof.
  intros N0. induction ts as [|t ts IH]; intros f els H; cbn [fold_left existsb].
  - eapply marked_ext; [|exact H]. intros. rewrite orb_false_r. reflexivity.
  - eapply marked_ext; [|apply IH, marked_folded, H]. 1:{ intros j _. cbv beta. rewrite orb_assoc. reflexivity. } intros. apply marked_attach; auto.
Qed.
Lemma existsb_seq j n : existsb (Nat.eqb j) (seq 0 n) = Nat.ltb j n.
Proof.
  apply eq_true_iff_eq. rewrite existsb_exists, Nat.ltb_lt. split.
  - intros (x & I & E). apply Nat.eqb_eq in E. apply in_seq in I. lia.
  - intros L. exists j. rewrite Nat.eqb_refl. split; [apply in_seq; lia|reflexivity].
Qed.
Lemma in_where (p : elem D B -> bool) els j : existsb (Nat.eqb j) (slots_where p els) = match nth_error els j with Some e => p e | None => false end.
Proof.
  apply eq_true_iff_eq. rewrite existsb_exists. unfold slots_where. split.
  - intros (x & I & E). apply Nat.eqb_eq in E. subst x. apply filter_In in I. apply I.
  - intros H. exists j. rewrite Nat.eqb_refl. split; [|reflexivity]. apply filter_In. split; [|exact H]. apply in_seq. split; [lia|]. cbn. apply nth_error_Some. destruct (nth_error els j); congruence.
Qed.
Lemma existsb_ext' {A} (f g : A -> bool) l : (forall x, f x = g x) -> existsb f l = existsb g l.
Proof. intros E. induction l as [|x l IH]; cbn; [reflexivity|]. rewrite E, IH. reflexivity. Qed.
Lemma select_marked a o m : (forall n, equal_range m n = slots_named n (m_elems m)) -> (forall n, equal_range_type m n = slots_typed n (m_elems m)) ->
  (forall e, In e (m_elems m) -> el_obs e = None) -> marked (m_elems m) o (selected a (m_elems m)) (m_elems (select a o m)).
Proof.
  intros EN ET N0. unfold select. cbn [m_elems with_elems]. set (n := List.length (m_elems m)).
  assert (H1 : marked (m_elems m) o (fun j => a_all a) (if a_all a then fold_left (fun els i => set_observer els i o) (seq 0 n) (m_elems m) else m_elems m)).
  { destruct (a_all a); [|apply marked_start].
    eapply marked_ext; [|apply (marked_folded (fun els i => set_observer els i o)); [|apply marked_start]].
    - intros i L. cbv beta. rewrite existsb_seq. cbn. apply Nat.ltb_lt, L.
    - intros. apply marked_set. assumption. }
  pose proof (marked_words (equal_range_type m) (m_elems m) o N0 (a_types a) _ _ H1) as H2. pose proof (marked_words (equal_range m) (m_elems m) o N0 (a_names a) _ _ H2) as H3. clear H1 H2.
  set (els3 := fold_left _ (a_names a) _) in *. clearbody els3.
  assert (H4 : marked (m_elems m) o (fun j => (a_all a || existsb (fun t => existsb (Nat.eqb j) (equal_range_type m t)) (a_types a) || existsb (fun t => existsb (Nat.eqb j) (equal_range m t)) (a_names a) ||
     (a_last a && Nat.eqb (S j) n))%bool) (if (a_last a && negb (Nat.eqb n 0))%bool then attach o els3 (n - 1) else els3)).
  { destruct (a_last a); cbn [andb].
    - destruct (Nat.eqb_spec n 0) as [Z0|NZ]; cbn [negb].
      + eapply marked_ext; [|exact H3]. intros i L. fold n in L. lia.
      + eapply marked_ext; [|apply marked_attach; [exact N0|exact H3]]. intros i L. fold n in L. cbv beta. f_equal.
        apply eq_true_iff_eq. rewrite !Nat.eqb_eq. lia.
    - eapply marked_ext; [|exact H3]. intros i _. cbv beta. rewrite orb_false_r. reflexivity. }
  eapply marked_ext; [|exact H4]. intros i L. cbv beta. unfold selected. destruct (nth_error (m_elems m) i) as [e|] eqn:E; [|apply nth_error_Some in L; congruence].
  f_equal. f_equal; [f_equal|]; apply existsb_ext'; intros t.
  - rewrite ET. unfold slots_typed. rewrite in_where, E. reflexivity.
  - rewrite EN. unfold slots_named. rewrite in_where, E. reflexivity.
Qed.
Lemma new_unobserved (r : registry D B) c m e : new_machine r c = Ok m -> In e (m_elems m) -> el_obs e = None.
Proof.
  intros H I. apply new_machine_ok in H as (t & i & es & _ & _ & _ & _ & _ & _ & L & _ & _ & Hd). apply In_nth_error in I as [j Hj].
  destruct (nth_error es j) as [ec|] eqn:E.
  - destruct (Hd _ _ _ E Hj) as (k & nm & d & _ & _ & _ & _ & ->). reflexivity.
  - apply nth_error_None in E. assert (X : nth_error (m_elems m) j <> None) by congruence. apply nth_error_Some in X. lia.
Qed.
Lemma marked_core els0 o f els : marked els0 o f els -> same_core els0 els.
Proof.
  intros H. unfold same_core, py_unobserve. apply list_ext. intros i. rewrite !nth_error_map, H. destruct (nth_error els0 i) as [e|]; cbn; [|reflexivity]. destruct (f i); reflexivity.
Qed.
Lemma undirected_core els els' : same_core els els' -> undirected els -> undirected els'.
Proof.
  intros C U e He. apply In_nth_error in He as [i Hi]. pose proof (core_nth _ _ i C) as X. rewrite Hi in X. destruct (nth_error els i) as [x|] eqn:Ex; [|tauto].
  destruct X as (X & _). rewrite <- X. apply U. eapply nth_error_In, Ex.
Qed.
Lemma undirected_static els els' : map static els' = map static els -> undirected els -> undirected els'.
Proof.
  intros C U e He. apply In_nth_error in He as [i Hi]. destruct (nth_static _ _ _ _ C Hi) as (x & Ex & X). unfold static in X. injection X as X _ _. rewrite <- X. apply U. eapply nth_error_In, Ex.
Qed.
Lemma seen_marked els0 o f els t : (forall e, In e els0 -> el_obs e = None) -> marked els0 o f els -> (forall i s, In (i, s) t -> i < List.length els0) ->
  as_pairs (seen els t) = match o with Some _ => filter (fun p => f (fst p)) t | None => [] end.
Proof.
  intros N0 H. induction t as [|[i s] t IH]; intros L; [destruct o; reflexivity|]. unfold as_pairs, seen in *. cbn [flat_map filter fst]. rewrite map_app, IH by (intros; eapply L; right; eauto).
  assert (Li := L i s (or_introl eq_refl)). apply nth_error_Some in Li. rewrite H. destruct (nth_error els0 i) as [e|] eqn:E; [|congruence]. cbn [option_map].
  destruct (f i).
  - cbn [el_obs with_obs]. destruct o; reflexivity.
  - rewrite (N0 e) by (eapply nth_error_In, E). destruct o; reflexivity.
Qed.
Lemma static_marked els0 o f els els0' els' : marked els0 o f els -> map static els' = map static els -> map static els0' = map static els0 ->
  same_core els0' els' -> marked els0' o f els'.
Proof.
  intros H S1 S0 C i. pose proof (core_nth _ _ i C) as X. pose proof (H i) as Hi.
  pose proof (f_equal (fun l => nth_error l i) S1) as T1. pose proof (f_equal (fun l => nth_error l i) S0) as T0. cbv beta in T1, T0. rewrite !nth_error_map in T1, T0.
  destruct (nth_error els0' i) as [x|], (nth_error els' i) as [y|]; try tauto. destruct X as (X1 & X2 & X3).
  destruct (nth_error els0 i) as [x0|]; cbn in T0; [|discriminate]. rewrite Hi in T1. cbn in T1. unfold static in T0, T1. injection T0 as A1 A2 A3. injection T1 as B1 B2 B3.
  cbn [option_map]. f_equal. destruct x as [xc xb xo xd], y as [yc yb yo yd]. cbn in *. subst. destruct (f i); reflexivity.
Qed.
Definition shows_of (o : option nat) a els (t : list (nat * pstate B)) : list (nat * pstate B) := match o with Some _ => on_show a els t | None => [] end.
Lemma selected_static a els els' : map static els' = map static els -> forall i, selected a els' i = selected a els i.
Proof.
  intros H i. unfold selected. pose proof (f_equal (fun l => nth_error l i) H) as T. cbv beta in T. rewrite !nth_error_map in T.
  assert (L : List.length els' = List.length els) by (rewrite <- (map_length static els'), H, map_length; reflexivity). rewrite L.
  destruct (nth_error els' i) as [x|], (nth_error els i) as [y|]; cbn in T; try discriminate; [|reflexivity]. unfold static in T. injection T as A1 A2 _. unfold el_tname, el_name. rewrite A1, A2. reflexivity.
Qed.
(** One journey with observers and one without. *)
Lemma observed_run a o m els0 els st max t els1 r :
  (N.of_nat (List.length els0) <= SIZE_MAX)%N -> (INT_MIN < max <= INT_MAX)%Z -> undirected els0 -> (forall e, In e els0 -> el_obs e = None) ->
  m_elems m = els -> marked els0 o (selected a els0) els ->
  journey els0 (Z.leb 0 max) (visits (List.length els0) 0 max) (mkSt 0 (Z.ltb max 0) (st_body st)) = (t, els1, r) ->
  exists els' ev, propagate m st 0 max = Some (mkRun els' ev r) /\ as_pairs ev = shows_of o a els0 t /\
    map static els1 = map static els0 /\ map static els' = map static els /\ same_core els1 els'.
Proof.
  intros SZ MX U N0 EM MK J. pose proof (marked_core _ _ _ _ MK) as C. pose proof (marked_length _ _ _ _ MK) as LE.
  pose proof (journey_core (visits (List.length els0) 0 max) els0 els (0 <=? max)%Z (mkSt 0 (Z.ltb max 0) (st_body st)) C) as JC. rewrite J in JC.
  destruct (journey els _ _ _) as [[t' els'] r'] eqn:J'. destruct JC as (<- & <- & CE).
  pose proof (journey_static (visits (List.length els0) 0 max) els0 (0 <=? max)%Z (mkSt 0 (Z.ltb max 0) (st_body st))) as ST. rewrite J in ST.
  pose proof (journey_static (visits (List.length els0) 0 max) els (0 <=? max)%Z (mkSt 0 (Z.ltb max 0) (st_body st))) as ST'. rewrite J' in ST'.
  exists els', (seen els t). split.
  - subst els. rewrite <- LE in J'. rewrite (propagate_visits m st 0 max) with (t := t) (els := els') (r := r); auto; [rewrite LE; exact SZ|]. eapply undirected_core; eauto.
  - split; [|auto]. rewrite (seen_marked els0 o (selected a els0)); auto.
    intros i s Hi. apply (journey_in (visits (List.length els0) 0 max) els0 (0 <=? max)%Z (mkSt 0 (Z.ltb max 0) (st_body st)) i s). rewrite J. exact Hi.
Qed.

(** ** main *)
Lemma latest_same nvs v1 v2 : latest nvs v1 -> latest nvs v2 -> v1 = v2.
Proof. intros H1 H2. apply ssorted_ext; [apply H1|apply H2|]. apply (latest_only nvs); assumption. Qed.
Lemma defines_latest lexd defs nvs vars : Forall2 (defines_as lexd) defs nvs -> latest nvs vars -> defines lexd [] defs = Some vars.
Proof. intros F L. rewrite (fold_defines _ _ _ F). f_equal. eapply latest_same; [apply fold_latest|exact L]. Qed.
Lemma defines_bad lexd defs d : In d defs -> (forall nv, ~ defines_as lexd d nv) -> forall vars, defines lexd vars defs = None.
Proof.
  intros I N. induction defs as [|x defs IH]; intros vars; [destruct I|]. cbn [defines]. destruct I as [->|I].
  - destruct (define lexd d) as [[n v]|] eqn:E; [|reflexivity]. apply define_correct in E. exfalso. eapply N, E.
  - destruct (define lexd x) as [[n v]|]; [apply IH, I|reflexivity].
Qed.
Lemma limit_lex a max : limit a max <-> (match a_max a with None => Some INT_MAX | Some s => lex_int s end) = Some max.
Proof. unfold limit. destruct (a_max a) as [s|]; [symmetry; apply lex_int_correct|split; congruence]. Qed.
Lemma main_built lexd h5 (reg : registry D B) w a m max f : built lexd reg w a m -> limit a max -> format_as h5 (a_format a) f ->
  main lexd h5 reg w a = run_machine a (select a (observe f) m) max.
Proof.
  intros (nvs & vars & s & c & F & L & T & P & M) X Y. unfold main. rewrite (defines_latest _ _ _ _ F L), T, P. apply limit_lex in X. rewrite X. apply make_factory_correct in Y. rewrite Y, M. reflexivity.
Qed.
Lemma main_inv lexd h5 (reg : registry D B) w a o : main lexd h5 reg w a = o ->
  o = Stopped [] \/ o = Cli_Model.Undefined \/ exists m max f, built lexd reg w a m /\ limit a max /\ format_as h5 (a_format a) f /\ o = run_machine a (select a (observe f) m) max.
Proof.
  intros <-. unfold main. destruct (defines lexd [] (a_define a)) as [vars|] eqn:Ed; [|auto]. destruct (a_lattice a) as [s|] eqn:El; [|auto].
  destruct (parse_text w vars true s) as [c| | | | |] eqn:Ep; auto. destruct (match a_max a with None => Some INT_MAX | Some s => lex_int s end) as [max|] eqn:Em; [|auto].
  destruct (make_factory h5 (a_format a)) as [f|] eqn:Ef; [|auto]. destruct (new_machine reg c) as [m|e] eqn:En; [|destruct e; auto].
  right; right. exists m, max, f. split; [|split; [apply limit_lex, Em|split; [apply make_factory_correct, Ef|reflexivity]]].
  destruct (defines_fold _ _ _ _ Ed) as (nvs & F & E). exists nvs, vars, s, c. repeat split; auto; subst vars; apply fold_latest.
Qed.
Lemma stopped_ended (shown : list (event B)) (e : exn) : ended (Throw e) shown (stopped shown e).
Proof. destruct e; reflexivity. Qed.

Lemma cli_shown lexd h5 (reg : registry D B) w a m max f st t els r :
  built lexd reg w a m -> limit a max -> (INT_MIN < max)%Z -> format_as h5 (a_format a) f -> a_timeit a = false ->
  (N.of_nat (List.length (m_elems m)) <= SIZE_MAX)%N -> undirected (m_elems m) -> alloc_state m (TCfg [] []) = Ok st ->
  journey (m_elems m) (Z.leb 0 max) (visits (List.length (m_elems m)) 0 max) (mkSt 0 (Z.ltb max 0) (st_body st)) = (t, els, r) ->
  exists shown, ended r shown (main lexd h5 reg w a) /\ as_pairs shown = shows_of (observe f) a (m_elems m) t.
Proof.
  intros Bt Lm MX Fm Ti SZ U Al J. rewrite (main_built _ _ _ _ _ _ _ _ Bt Lm Fm). destruct Bt as (nvs & vars & s & c & _ & _ & _ & _ & NM).
  assert (MX' : (INT_MIN < max <= INT_MAX)%Z). { split; [exact MX|]. unfold limit in Lm. destruct (a_max a); [destruct Lm as (? & ? & ? & ? & ? & ? & ?); lia|lia]. }
  assert (N0 : forall e, In e (m_elems m) -> el_obs e = None) by (intros; eapply new_unobserved; eauto).
  assert (MK : marked (m_elems m) (observe f) (selected a (m_elems m)) (m_elems (select a (observe f) m))).
  { apply select_marked; [exact (lookups_names reg c m [] NM SZ I)|exact (lookups_types reg c m [] NM SZ)|exact N0]. }
  destruct (observed_run a (observe f) (select a (observe f) m) (m_elems m) _ st max t els r SZ MX' U N0 eq_refl MK J) as (els' & ev & P & Q & _).
  exists ev. split; [|exact Q]. unfold run_machine. replace (alloc_state (select a (observe f) m) (TCfg [] [])) with (Ok st) by (rewrite <- Al; reflexivity).
  rewrite P. cbn [pr_end pr_events]. destruct r as [s1|x]; [rewrite Ti; reflexivity|apply stopped_ended].
Qed.
Lemma cli_twice lexd h5 (reg : registry D B) w a m max f st t els s1 t2 els2 r2 :
  built lexd reg w a m -> limit a max -> (INT_MIN < max)%Z -> format_as h5 (a_format a) f -> a_timeit a = true ->
  (N.of_nat (List.length (m_elems m)) <= SIZE_MAX)%N -> undirected (m_elems m) -> alloc_state m (TCfg [] []) = Ok st ->
  journey (m_elems m) (Z.leb 0 max) (visits (List.length (m_elems m)) 0 max) (mkSt 0 (Z.ltb max 0) (st_body st)) = (t, els, Ok s1) ->
  journey els (Z.leb 0 max) (visits (List.length els) 0 max) (mkSt 0 (Z.ltb max 0) (st_body s1)) = (t2, els2, r2) ->
  exists shown, ended r2 shown (main lexd h5 reg w a) /\ as_pairs shown = shows_of (observe f) a (m_elems m) t ++ shows_of (observe f) a (m_elems m) t2.
Proof.
  intros Bt Lm MX Fm Ti SZ U Al J J2. rewrite (main_built _ _ _ _ _ _ _ _ Bt Lm Fm). destruct Bt as (nvs & vars & s & c & _ & _ & _ & _ & NM).
  assert (MX' : (INT_MIN < max <= INT_MAX)%Z). { split; [exact MX|]. unfold limit in Lm. destruct (a_max a); [destruct Lm as (? & ? & ? & ? & ? & ? & ?); lia|lia]. }
  assert (N0 : forall e, In e (m_elems m) -> el_obs e = None) by (intros; eapply new_unobserved; eauto).
  assert (MK : marked (m_elems m) (observe f) (selected a (m_elems m)) (m_elems (select a (observe f) m))).
  { apply select_marked; [exact (lookups_names reg c m [] NM SZ I)|exact (lookups_types reg c m [] NM SZ)|exact N0]. }
  destruct (observed_run a (observe f) (select a (observe f) m) (m_elems m) _ st max t els (Ok s1) SZ MX' U N0 eq_refl MK J) as (els' & ev & P & Q & S0 & S1 & C).
  assert (LE : List.length els = List.length (m_elems m)) by (rewrite <- (map_length static els), S0, map_length; reflexivity).
  assert (N1 : forall e, In e els -> el_obs e = None).
  { intros e He. apply In_nth_error in He as [i Hi]. destruct (nth_static _ _ _ _ S0 Hi) as (x & Ex & X). unfold static in X. injection X as _ _ X. rewrite <- X. apply N0. eapply nth_error_In, Ex. }
  assert (MK2 : marked els (observe f) (selected a els) els').
  { eapply marked_ext; [|eapply static_marked; eauto]. intros i _. symmetry. apply selected_static, S0. }
  destruct (observed_run a (observe f) (with_elems (select a (observe f) m) els') els els' s1 max t2 els2 r2) as (els2' & ev2 & P2 & Q2 & _); auto.
  { rewrite LE. exact SZ. } { eapply undirected_static; eauto. }
  exists (ev ++ ev2). split.
  - unfold run_machine. replace (alloc_state (select a (observe f) m) (TCfg [] [])) with (Ok st) by (rewrite <- Al; reflexivity).
    rewrite P. cbn [pr_end pr_events pr_elems]. rewrite Ti, P2. cbn [pr_end pr_events]. destruct r2 as [s2|x]; [reflexivity|apply stopped_ended].
  - unfold as_pairs in *. rewrite map_app, Q, Q2. f_equal. unfold shows_of. destruct (observe f); [|reflexivity]. unfold on_show. apply filter_ext. intros p. apply selected_static, S0.
Qed.
Lemma cli_bad_limit lexd h5 (reg : registry D B) w a m : built lexd reg w a m -> (forall max, ~ limit a max) -> main lexd h5 reg w a = Stopped [].
Proof.
  intros (nvs & vars & s & c & F & L & T & P & M) H. unfold main. rewrite (defines_latest _ _ _ _ F L), T, P.
  destruct (match a_max a with None => Some INT_MAX | Some s => lex_int s end) as [max|] eqn:E; [|reflexivity]. apply limit_lex in E. exfalso. eapply H, E.
Qed.
Lemma cli_bad_format lexd h5 (reg : registry D B) w a m : built lexd reg w a m -> (forall f, ~ format_as h5 (a_format a) f) -> main lexd h5 reg w a = Stopped [].
Proof.
  intros (nvs & vars & s & c & F & L & T & P & M) H. unfold main. rewrite (defines_latest _ _ _ _ F L), T, P.
  destruct (match a_max a with None => Some INT_MAX | Some s => lex_int s end) as [max|]; [|reflexivity].
  destruct (make_factory h5 (a_format a)) as [f|] eqn:E; [|reflexivity]. apply make_factory_correct in E. exfalso. eapply H, E.
Qed.
Lemma cli_malformed lexd h5 (reg : registry D B) w a d : In d (a_define a) -> (forall nv, ~ defines_as lexd d nv) -> main lexd h5 reg w a = Stopped [].
Proof. intros I N. unfold main. rewrite (defines_bad lexd _ d I N). reflexivity. Qed.
(** Arguments with the definitions moved into the text. *)
Definition moved a (s : string) : cliargs :=
  mkArgs [] (Some s) (a_max a) (a_format a) (a_all a) (a_types a) (a_names a) (a_last a) (a_timeit a).
Lemma moved_select a s o m : select (moved a s) o m = select a o m.
Proof. reflexivity. Qed.
Lemma moved_run a s m max : run_machine (moved a s) m max = run_machine a m max.
Proof. reflexivity. Qed.
Lemma run_not_built lexd h5 (reg : registry D B) w a o : main lexd h5 reg w a = o -> o <> Stopped [] -> o <> Cli_Model.Undefined ->
  exists m max f, built lexd reg w a m /\ limit a max /\ format_as h5 (a_format a) f /\ o = run_machine a (select a (observe f) m) max.
Proof. intros E N1 N2. destruct (main_inv _ _ _ _ _ _ E) as [X|[X|X]]; [contradiction|contradiction|exact X]. Qed.
Lemma cli_as_written lexd h5 (reg : registry D B) w a nvs vars s p s' :
  Forall2 (defines_as lexd) (a_define a) nvs -> latest nvs vars -> a_lattice a = Some s -> spells s p -> spells s' (written vars ++ p) ->
  forall shown final, main lexd h5 reg w a = Done shown final <-> main lexd h5 reg w (moved a s') = Done shown final.
Proof.
  intros F L El Hp Hp' shown final.
  assert (PL : forall nv, In nv vars -> plain (snd nv)).
  { replace vars with (fold_left (fun (q : smap tval) nv => sset (fst nv) (snd nv) q) nvs []) by (eapply latest_same; [apply fold_latest|exact L]). apply fold_plain; [eapply defined_plain, F|intros nv []]. }
  assert (SO : ssorted vars) by apply L.
  assert (E : forall t, parse_text w vars true s = Parsed t <-> parse_text w [] true s' = Parsed t).
  { intros t. rewrite (text_parsed w vars true s t SO), (text_parsed w [] true s' t I). split; intros (q & r & H1 & H2 & H3).
    - exists (written vars ++ p), r. rewrite (spells_unique s q p H1 Hp) in H2. rewrite <- as_written by assumption. auto.
    - exists p, r. rewrite (spells_unique s' q _ H1 Hp') in H2. rewrite as_written by assumption. auto. }
  split; intros H; apply run_not_built in H as (m & max & f & Bt & Lm & Fm & ->); try discriminate.
  - destruct Bt as (nvs' & vars' & s0 & c & F' & L' & El' & P & NM).
    assert (V : vars' = vars). { pose proof (defines_latest _ _ _ _ F L). pose proof (defines_latest _ _ _ _ F' L'). congruence. } subst vars'. rewrite El in El'. injection El' as <-.
    rewrite (main_built lexd h5 reg w (moved a s') m max f); auto. exists [], [], s', c. split; [constructor|]. split; [apply (fold_latest [])|]. split; [reflexivity|]. split; [apply E, P|exact NM].
  - destruct Bt as (nvs' & vars' & s0 & c & F' & L' & El' & P & NM). cbn [moved a_define a_lattice] in F', El'. injection El' as <-. inversion F'; subst nvs'.
    assert (V : vars' = []) by (eapply latest_same; [exact L'|apply (fold_latest [])]). subst vars'.
    rewrite (main_built lexd h5 reg w a m max f); auto. exists nvs, vars, s, c. repeat (split; auto). apply E, P.
Qed.
Lemma preset_plain (vars : smap tval) n : (forall nv, In nv vars -> plain (snd nv)) -> sfind n vars <> None -> assoc n (presets vars) <> None.
Proof.
  intros P H. induction vars as [|[k v] vars IH]; [exfalso; apply H; reflexivity|]. cbn [sfind presets] in *. assert (X : exists x, preset_val v = Some x).
  { specialize (P (k, v) (or_introl eq_refl)). destruct v; try destruct P; eexists; reflexivity. } destruct X as (x & ->). cbn [assoc].
  destruct (String.eqb n k); [discriminate|]. apply IH; [|exact H]. intros nv Hn. apply P. right. exact Hn.
Qed.
Lemma cli_redefined lexd h5 (reg : registry D B) w a nvs s n v p1 e p2 :
  Forall2 (defines_as lexd) (a_define a) nvs -> In (n, v) nvs -> a_lattice a = Some s -> spells s (p1 ++ SAssign n e :: p2) ->
  main lexd h5 reg w a = Stopped [] \/ main lexd h5 reg w a = Cli_Model.Undefined.
Proof.
  intros F I El Hp. destruct (main_inv lexd h5 reg w a _ eq_refl) as [E|[E|(m & max & f & Bt & _)]]; auto. exfalso.
  destruct Bt as (nvs' & vars & s0 & c & F' & L' & El' & P & NM). rewrite El in El'. injection El' as <-.
  assert (L : latest nvs vars). { pose proof (defines_latest _ _ _ _ F' L') as H1. rewrite (fold_defines _ _ _ F) in H1. injection H1 as <-. apply fold_latest. }
  assert (PL : forall nv, In nv vars -> plain (snd nv)).
  { replace vars with (fold_left (fun (q : smap tval) nv => sset (fst nv) (snd nv) q) nvs []) by (eapply latest_same; [apply fold_latest|exact L]). apply fold_plain; [eapply defined_plain, F|intros nv []]. }
  revert P. eapply preset_duplicate; [apply L|exact Hp|]. apply preset_plain; [exact PL|].
  destruct (proj2 L n) as [[N _]|(x & y & z & _ & _ & ->)]; [|discriminate]. exfalso. apply N. apply in_map_iff. exists (n, v). auto.
Qed.
Lemma cli_moved lexd h5 (reg : registry D B) w d nvs vars s p s' mx f al ty nm la ti :
  Forall2 (defines_as lexd) d nvs -> latest nvs vars -> spells s p -> spells s' (written vars ++ p) ->
  forall shown final,
    main lexd h5 reg w (mkArgs d (Some s) mx f al ty nm la ti) = Done shown final <->
    main lexd h5 reg w (mkArgs [] (Some s') mx f al ty nm la ti) = Done shown final.
Proof. intros F L H H'. exact (cli_as_written lexd h5 reg w (mkArgs d (Some s) mx f al ty nm la ti) nvs vars s p s' F L eq_refl H H'). Qed.
Lemma observe_some f : f <> FH5 None -> observe f = Some 0.
Proof. destruct f as [o z|[o|]|ns]; intros N; try reflexivity. exfalso. apply N. reflexivity. Qed.
Lemma cli_shown_some lexd h5 (reg : registry D B) w a m max f st t els r :
  built lexd reg w a m -> limit a max -> (INT_MIN < max)%Z -> format_as h5 (a_format a) f -> f <> FH5 None -> a_timeit a = false ->
  (N.of_nat (List.length (m_elems m)) <= SIZE_MAX)%N -> undirected (m_elems m) -> alloc_state m (TCfg [] []) = Ok st ->
  journey (m_elems m) (Z.leb 0 max) (visits (List.length (m_elems m)) 0 max) (mkSt 0 (Z.ltb max 0) (st_body st)) = (t, els, r) ->
  exists shown, ended r shown (main lexd h5 reg w a) /\ as_pairs shown = on_show a (m_elems m) t.
Proof.
  intros H1 H2 H3 H4 H5 H6 H7 H8 H9 H10. destruct (cli_shown lexd h5 reg w a m max f st t els r H1 H2 H3 H4 H6 H7 H8 H9 H10) as (sh & E1 & E2).
  rewrite (observe_some f H5) in E2. exists sh. split; [exact E1|exact E2].
Qed.
Lemma cli_twice_some lexd h5 (reg : registry D B) w a m max f st t els s1 t2 els2 r2 :
  built lexd reg w a m -> limit a max -> (INT_MIN < max)%Z -> format_as h5 (a_format a) f -> f <> FH5 None -> a_timeit a = true ->
  (N.of_nat (List.length (m_elems m)) <= SIZE_MAX)%N -> undirected (m_elems m) -> alloc_state m (TCfg [] []) = Ok st ->
  journey (m_elems m) (Z.leb 0 max) (visits (List.length (m_elems m)) 0 max) (mkSt 0 (Z.ltb max 0) (st_body st)) = (t, els, Ok s1) ->
  journey els (Z.leb 0 max) (visits (List.length els) 0 max) (mkSt 0 (Z.ltb max 0) (st_body s1)) = (t2, els2, r2) ->
  exists shown, ended r2 shown (main lexd h5 reg w a) /\ as_pairs shown = on_show a (m_elems m) t ++ on_show a (m_elems m) t2.
Proof.
  intros H1 H2 H3 H4 H5 H6 H7 H8 H9 H10 H11. destruct (cli_twice lexd h5 reg w a m max f st t els s1 t2 els2 r2 H1 H2 H3 H4 H6 H7 H8 H9 H10 H11) as (sh & E1 & E2).
  rewrite (observe_some f H5) in E2. exists sh. split; [exact E1|exact E2].
Qed.
Lemma cli_no_file lexd (reg : registry D B) w a m max st t els r :
  built lexd reg w a m -> limit a max -> (INT_MIN < max)%Z -> format_as true (a_format a) (FH5 None) -> a_timeit a = false ->
  (N.of_nat (List.length (m_elems m)) <= SIZE_MAX)%N -> undirected (m_elems m) -> alloc_state m (TCfg [] []) = Ok st ->
  journey (m_elems m) (Z.leb 0 max) (visits (List.length (m_elems m)) 0 max) (mkSt 0 (Z.ltb max 0) (st_body st)) = (t, els, r) ->
  ended r [] (main lexd true reg w a).
Proof.
  intros H1 H2 H3 H4 H6 H7 H8 H9 H10. destruct (cli_shown lexd true reg w a m max (FH5 None) st t els r H1 H2 H3 H4 H6 H7 H8 H9 H10) as (sh & E1 & E2).
  cbn [observe shows_of] in E2. apply map_eq_nil in E2. subst sh. exact E1.
Qed.
Lemma one_meaning lexd h5 (reg : registry D B) w a m m' max max' f f' :
  built lexd reg w a m -> built lexd reg w a m' -> limit a max -> limit a max' -> format_as h5 (a_format a) f -> format_as h5 (a_format a) f' ->
  m = m' /\ max = max' /\ f = f'.
Proof.
  intros (nvs & vars & s & c & F & L & T & P & M) (nvs' & vars' & s' & c' & F' & L' & T' & P' & M') X X' Y Y'. split; [|split].
  - pose proof (defines_latest _ _ _ _ F L). pose proof (defines_latest _ _ _ _ F' L'). congruence.
  - apply limit_lex in X, X'. congruence.
  - apply make_factory_correct in Y, Y'. congruence.
Qed.
End M.

(** ** The arrays of the format utest *)
Lemma utest_map_spec n arrays : forall idx L, sfind n (utest_map arrays idx L) =
  match List.find (fun p => (String.eqb n (fst (snd p)) && printable (snd p))%bool) (rev (combine (seq idx (List.length arrays)) arrays)) with
  | Some p => Some (fst p) | None => sfind n L end.
Proof.
  induction arrays as [|x arrays IH]; intros idx L; [reflexivity|]. cbn [utest_map List.length seq combine rev]. rewrite IH.
  assert (FA : forall A (f : A -> bool) l y, List.find f (l ++ [y]) = match List.find f l with Some z => Some z | None => if f y then Some y else None end).
  { intros A f l y. induction l as [|z l IHl]; cbn; [reflexivity|]. destruct (f z); [reflexivity|exact IHl]. }
  rewrite FA. destruct (List.find _ _) as [p|]; [reflexivity|]. cbn [fst snd]. destruct (printable x); [|rewrite andb_false_r; reflexivity].
  rewrite sfind_sset, andb_true_r. destruct (String.eqb n (fst x)); reflexivity.
Qed.
Lemma combine_seq {A} (l : list A) : forall s i x, In (i, x) (combine (seq s (List.length l)) l) <-> s <= i /\ nth_error l (i - s) = Some x.
Proof.
  induction l as [|y l IH]; intros s i x; cbn [List.length seq combine].
  - split; [intros []|]. intros [_ H]. destruct (i - s); discriminate.
  - cbn [In]. rewrite IH. split.
    + intros [E|[L H]]; [injection E as <- <-; rewrite Nat.sub_diag; split; [lia|reflexivity]|]. split; [lia|]. replace (i - s) with (S (i - S s)) by lia. exact H.
    + intros [L H]. destruct (Nat.eq_dec i s) as [->|N]; [left; rewrite Nat.sub_diag in H; injection H as ->; reflexivity|]. right. split; [lia|]. replace (i - s) with (S (i - S s)) in H by lia. exact H.
Qed.
Lemma utest_known arrays names k n i x : NoDup (map fst arrays) -> nth_error names k = Some n -> nth_error arrays i = Some x -> fst x = n -> printable x = true ->
  nth_error (utest_index arrays names) k = Some i.
Proof.
  intros ND Hk Hi Hn Hp. unfold utest_index. rewrite nth_error_map, Hk. cbn [option_map]. f_equal. rewrite utest_map_spec.
  destruct (List.find _ _) as [[j y]|] eqn:E.
  - apply List.find_some in E as [I E]. cbn [fst snd] in E. apply andb_true_iff in E as [E _]. apply String.eqb_eq in E. apply in_rev in I. apply combine_seq in I as [_ I]. rewrite Nat.sub_0_r in I.
    cbn [fst]. apply (proj1 (NoDup_nth_error _) ND).
    + rewrite map_length. apply nth_error_Some. congruence.
    + rewrite !nth_error_map, I, Hi. cbn. congruence.
  - exfalso. assert (I : In (i, x) (rev (combine (seq 0 (List.length arrays)) arrays))). { apply in_rev. rewrite rev_involutive. apply combine_seq. rewrite Nat.sub_0_r. split; [lia|exact Hi]. }
    apply (List.find_none _ _ E) in I. cbn [fst snd] in I. rewrite Hp, Hn, String.eqb_refl in I. discriminate.
Qed.

(** ** Cases *)
Definition cli_lexd (s : string) : option double := match lex_int s with Some z => Some (d_of_Z z) | None => None end.
Definition cli_text : string := "sim_type = ""toy""; a: mark, g = k; b: probe; c: mark; l: LINE = (a, b, a, c);".
Definition cli_text' : string := "k = 3; sim_type = ""toy""; a: mark, g = k; b: probe; c: mark; l: LINE = (a, b, a, c);".
Definition cli_args (d : list string) (t : string) (mx : option string) (f : string) (timeit : bool) : cliargs := mkArgs d (Some t) mx f false ["probe"] ["c"] false timeit.
Definition cli_a : cliargs := cli_args ["k=S:x"; "k=D:3"] cli_text (Some "+4") "txt,file=o,,verbose=2" false.
Definition cli_m : machine nat (list string) :=
  match parse_text demo [("k", TNum (d_of_Z 3))] true cli_text with
  | Parsed c => match new_machine toy_reg c with Ok m => m | Throw _ => toy_machine end
  | _ => toy_machine end.
Lemma cli_defs : Forall2 (defines_as cli_lexd) (a_define cli_a) [("k", TStr "x"); ("k", TNum (d_of_Z 3))].
Proof. repeat (constructor; [apply define_correct; vm_compute; reflexivity|]). constructor. Qed.
Lemma cli_latest : latest [("k", TStr "x"); ("k", TNum (d_of_Z 3))] [("k", TNum (d_of_Z 3))].
Proof. exact (fold_latest [("k", TStr "x"); ("k", TNum (d_of_Z 3))]). Qed.
Lemma cli_built t : built cli_lexd toy_reg demo (cli_args ["k=S:x"; "k=D:3"] cli_text (Some "+4") "txt,file=o,,verbose=2" t) cli_m.
Proof.
  eexists _, _, _, _. split; [exact cli_defs|]. split; [exact cli_latest|]. split; [reflexivity|]. split; [vm_compute; reflexivity|]. vm_compute. reflexivity.
Qed.
Lemma cli_undirected : undirected (m_elems cli_m).
Proof.
  intros e He b d st d' st'. assert (X : In (el_class e) [mark; probe]).
  { apply (in_map el_class) in He. assert (E : map el_class (m_elems cli_m) = [mark; probe; mark; mark]) by (vm_compute; reflexivity). rewrite E in He. destruct He as [H|[H|[H|[H|[]]]]]; [left|right; left|left|left]; exact H. }
  clear He. generalize dependent (el_class e). intros c X. cbn [In] in X. destruct X as [X|[X|[]]]; rewrite <- X; cbn [cl_advance mark probe]; unfold toy_advance; intros [= _ <-]; auto.
Qed.
Lemma cli_format h5 : format_as h5 "txt,file=o,,verbose=2" (FText (Some "o") 2).
Proof. apply make_factory_correct. destruct h5; vm_compute; reflexivity. Qed.
Lemma cli_limit t : limit (cli_args ["k=S:x"; "k=D:3"] cli_text (Some "+4") "txt,file=o,,verbose=2" t) 4.
Proof. apply limit_lex. reflexivity. Qed.
Lemma C67_overwritten_refuted_w :
  main cli_lexd true toy_reg demo (cli_args ["k=D:2"] cli_text' (Some "10") "txt" false) = Stopped [] /\
  exists sh st, main cli_lexd true toy_reg demo (cli_args [] cli_text' (Some "10") "txt" false) = Done sh st.
Proof. split; [vm_compute; reflexivity|]. eexists _, _. vm_compute. reflexivity. Qed.
Definition cli_sel (d : list string) (mx f : string) (timeit : bool) : cliargs := cli_args d cli_text (Some mx) f timeit.
Lemma C68_timeit_refuted_w : exists sh1 s1 sh2 s2,
  main cli_lexd true toy_reg demo (cli_sel ["k=D:3"] "10" "txt" false) = Done sh1 s1 /\
  main cli_lexd true toy_reg demo (cli_sel ["k=D:3"] "10" "txt" true) = Done sh2 s2 /\
  List.length (as_pairs sh1) = 2 /\ List.length (as_pairs sh2) = 4 /\ st_body s1 <> st_body s2.
Proof. eexists _, _, _, _. split; [vm_compute; reflexivity|]. split; [vm_compute; reflexivity|]. repeat split. vm_compute. discriminate. Qed.
Lemma C68_no_file_refuted_w : exists s sh s',
  main cli_lexd true toy_reg demo (cli_sel ["k=D:3"] "10" "hdf5" false) = Done [] s /\
  main cli_lexd true toy_reg demo (cli_sel ["k=D:3"] "10" "hdf5,file=o.h5" false) = Done sh s' /\ List.length sh = 2.
Proof. eexists _, _, _. split; [vm_compute; reflexivity|]. split; [vm_compute; reflexivity|]. reflexivity. Qed.
Lemma C68_unknown_array_refuted_w : utest_index [("state", (true, 2)); ("next_elem", (false, 0))] ["stat"; "next_elem"] = [0; 1].
Proof. reflexivity. Qed.
Lemma C68_smallest_limit_refuted_w :
  limit (cli_sel ["k=D:3"] "-2147483648" "txt" false) (-2147483648) /\ main cli_lexd true toy_reg demo (cli_sel ["k=D:3"] "-2147483648" "txt" false) = Cli_Model.Undefined.
Proof. split; [apply limit_lex; reflexivity|vm_compute; reflexivity]. Qed.
