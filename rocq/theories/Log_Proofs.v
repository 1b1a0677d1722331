(** Log messages. *)
From Coq Require Import List String Ascii Bool NArith ZArith Arith Lia.
From Verif Require Import Gen_Model Gen_Proofs Log_Model Log_Spec.
Import ListNotations.
Open Scope string_scope.
Open Scope list_scope.
Local Notation la := list_ascii_of_string.

(** ** Routing *)
Fixpoint after (g : logging) (es : list logev) : logging := match es with [] => g | e :: es' => after (fst (log_step g e)) es' end.
Lemma after_app es es' : forall g, after g (es ++ es') = after (after g es) es'.
Proof. induction es; intros g; cbn; auto. Qed.
Lemma run_app es es' : forall g, log_run g (es ++ es') = log_run g es ++ log_run (after g es) es'.
Proof.
  induction es as [|e es IH]; intros g; [reflexivity|]. cbn [app log_run after]. destruct (log_step g e) as [g' o]. cbn [fst].
  rewrite IH, app_assoc. reflexivity.
Qed.
Lemma after_spec es : level_after es (g_detail (after log_start es)) /\ logger_after es (g_logger (after log_start es)).
Proof.
  induction es as [|e es [IH1 IH2]] using rev_ind; [split; constructor|]. rewrite after_app. cbn [after].
  destruct e as [r|n|[l|]]; cbn [log_step fst g_detail g_logger]; split; constructor; auto.
Qed.
Lemma level_fun es n : level_after es n -> n = g_detail (after log_start es).
Proof. induction 1; auto; rewrite after_app; cbn; auto. Qed.
Lemma logger_fun es l : logger_after es l -> l = g_logger (after log_start es).
Proof. induction 1; auto; rewrite after_app; cbn; auto. Qed.
Lemma routed es r n l : level_after es n -> logger_after es l ->
  log_run log_start (es ++ [DoLog r]) = log_run log_start es ++ (if Z.leb n (l_level r) then [send l r] else []).
Proof.
  intros H1 H2. apply level_fun in H1. apply logger_fun in H2. rewrite run_app. f_equal. cbn [log_run log_step]. unfold detail.
  rewrite <- H1, <- H2. rewrite app_nil_r. reflexivity.
Qed.
Lemma known es : exists n l, level_after es n /\ logger_after es l.
Proof. destruct (after_spec es). eauto. Qed.
Lemma silent es e : (forall r, e <> DoLog r) -> log_run log_start (es ++ [e]) = log_run log_start es.
Proof.
  intros H. rewrite run_app. cbn [log_run]. destruct e as [r|n|p]; [destruct (H r); auto|cbn; apply app_nil_r|cbn; apply app_nil_r].
Qed.

(** ** std::cerr *)
Lemma lines_app a b acc : one_line a -> lines (a ++ NL :: b) acc = (rev acc ++ a) :: lines b [].
Proof.
  revert acc. induction a as [|c a IH]; intros acc N; cbn [app lines].
  - rewrite Ascii.eqb_refl, app_nil_r. reflexivity.
  - destruct (Ascii.eqb_spec c NL) as [->|_]; [destruct N; left; auto|]. rewrite IH by (intros I; apply N; right; auto).
    cbn [rev]. rewrite <- app_assoc. reflexivity.
Qed.
Definition head_of (r : logrec) : list ascii := la (l_file r) ++ ":"%char :: la (dec (l_line r)) ++ la " : ".
Lemma cerr_shape r t : one_line t -> la (l_text r) = t \/ la (l_text r) = t ++ [NL] -> cerr_log r = (head_of r ++ t) ++ [NL].
Proof.
  intros N H. unfold cerr_log, head_of. rewrite <- !app_assoc. cbn [app]. rewrite <- !app_assoc. do 4 f_equal.
  destruct H as [H|H]; rewrite H.
  - replace (last_is NL t) with false; [rewrite orb_true_r; reflexivity|]. symmetry. unfold last_is.
    destruct (rev t) as [|c l] eqn:E; [reflexivity|]. apply Ascii.eqb_neq. intros ->. apply N. apply in_rev. rewrite E. left. auto.
  - unfold last_is. rewrite rev_app_distr. cbn [rev app]. rewrite Ascii.eqb_refl. destruct (t ++ [NL]) eqn:E; [destruct t; discriminate|].
    cbn [negb orb]. apply app_nil_r.
Qed.
Lemma head_line r : one_line (la (l_file r)) -> one_line (head_of r).
Proof.
  intros N. unfold head_of, one_line. rewrite in_app_iff. cbn [In]. rewrite in_app_iff. intros [I|[I|[I|I]]]; [auto|discriminate I| |].
  - revert I. apply dec_no. reflexivity.
  - cbn in I. intuition discriminate.
Qed.
Lemma cerr_lines rs ts : Forall2 (fun r t => one_line (la (l_file r)) /\ one_line t /\ (la (l_text r) = t \/ la (l_text r) = t ++ [NL])) rs ts ->
  lines (flat_map cerr_log rs) [] = map (fun p => la (l_file (fst p)) ++ ":"%char :: la (dec (l_line (fst p))) ++ la " : " ++ snd p) (combine rs ts).
Proof.
  induction 1 as [|r t rs ts (F & N & H) _ IH]; [reflexivity|]. cbn [flat_map combine map fst snd].
  rewrite (cerr_shape r t N H), <- app_assoc. cbn [app]. rewrite lines_app.
  - rewrite IH. cbn [rev app]. unfold head_of. rewrite <- !app_assoc. cbn [app]. rewrite <- !app_assoc. reflexivity.
  - unfold one_line. rewrite in_app_iff. intros [I|I]; [exact (head_line r F I)|auto].
Qed.

(** ** Python *)
Lemma find_app c a b : forall i best, find_last_not_of c (a ++ b) i best = find_last_not_of c b (i + List.length a) (find_last_not_of c a i best).
Proof.
  induction a as [|x a IH]; intros i best; cbn [app find_last_not_of List.length]; [f_equal; lia|]. rewrite IH. f_equal. lia.
Qed.
Lemma stripped_find l t : stripped l t -> t <> [] ->
  find_last_not_of NL l 0 None = Some (List.length t - 1) /\ exists u, l = t ++ u.
Proof.
  induction 1 as [l N|l t _ IH]; intros Ne.
  - split; [|exists []; rewrite app_nil_r; auto]. destruct (exists_last Ne) as (a & c & ->). rewrite last_last in N.
    rewrite find_app. cbn [find_last_not_of]. destruct (Ascii.eqb_spec c NL) as [->|_]; [congruence|]. f_equal. rewrite app_length. cbn. lia.
  - destruct (IH Ne) as [E [u ->]]. split; [|exists (u ++ [NL]); rewrite app_assoc; auto]. rewrite find_app, E. cbn [find_last_not_of].
    rewrite Ascii.eqb_refl. reflexivity.
Qed.
Lemma c_str_id l : ~ In "000"%char l -> c_str l = l.
Proof.
  induction l as [|c l IH]; intros N; [reflexivity|]. cbn [c_str]. destruct (Ascii.eqb_spec c "000") as [->|_]; [destruct N; left; auto|].
  f_equal. apply IH. intros I. apply N. right. auto.
Qed.
Lemma stripped_prefix l t : stripped l t -> exists u, l = t ++ u.
Proof. induction 1 as [l N|l t _ [u ->]]; [exists []; rewrite app_nil_r; auto|exists (u ++ [NL]); rewrite app_assoc; auto]. Qed.
Lemma stripped_last l t : stripped l t -> last t "a"%char <> NL.
Proof. induction 1; auto. Qed.
Lemma python_text r t c : ~ In "000"%char (la (l_text r)) -> stripped (la (l_text r)) (t ++ [c]) ->
  py_log r = mkPyLog "flame.machine" (l_level r) (l_file r) (l_line r) t.
Proof.
  intros N H. unfold py_log. destruct (stripped_find _ _ H) as [E [u Eu]]; [destruct t; discriminate|]. rewrite E. f_equal.
  rewrite Eu, app_length. cbn [List.length]. replace (List.length t + 1 - 1) with (List.length t) by lia.
  rewrite <- app_assoc, firstn_app, Nat.sub_diag, firstn_all. cbn [firstn app]. rewrite app_nil_r. apply c_str_id.
  intros I. apply N. rewrite Eu, !in_app_iff. auto.
Qed.

(** ** Levels *)
Lemma set_level_ok n : (0 <= n < 65536)%Z -> set_log_level n = SetDetail n.
Proof. intros H. unfold set_log_level. rewrite Z.mod_small; auto. Qed.
Lemma verbose_ok v es : (2 < v <= 214748366)%Z -> set_verbose v = Some es ->
  forall r, log_run log_start (es ++ [DoLog r]) = if Z.leb (60 - 10 * v) (l_level r) then [send Cerr r] else [].
Proof.
  intros H E r. unfold set_verbose in E. destruct (Z.ltb_spec 2 v); [|lia].
  destruct (in_int (v - 2) && in_int (10 * (v - 2)) && in_int (FLAME_ERROR - 10 * (v - 2)))%bool; [|discriminate].
  replace (FLAME_ERROR - 10 * (v - 2))%Z with (60 - 10 * v)%Z in E by (unfold FLAME_ERROR; lia).
  generalize dependent (60 - 10 * v)%Z. intros z E. injection E as <-.
  cbn [app log_run log_step]. unfold detail. cbn [g_detail g_logger log_start].
  destruct (Z.leb z (l_level r)); reflexivity.
Qed.
Lemma verbose_defined v : (v <= 214748366)%Z -> exists es, set_verbose v = Some es.
Proof.
  intros H. unfold set_verbose. destruct (Z.ltb_spec 2 v); [|eauto]. unfold in_int, FLAME_ERROR.
  repeat match goal with |- context [Z.leb ?a ?b] => destruct (Z.leb_spec a b); [|lia] end. cbn. eauto.
Qed.

Definition warning : logrec := mkLog "rf_cavity.cpp" 1520 FLAME_WARN "low energy (3 MeV)".
Definition info : logrec := mkLog "base.cpp" 90 FLAME_INFO "Constructing Machine".
Lemma C81_python_refuted_w : exists r t, stripped (la (l_text r)) (la t) /\
  log_run log_start (import_flame ++ [DoLog r]) = [ToPython (mkPyLog "flame.machine" 30 (l_file r) (l_line r) (la "low energy (3 MeV"))] /\ t = "low energy (3 MeV)".
Proof. exists warning, "low energy (3 MeV)". split; [constructor; vm_compute; discriminate|]. split; reflexivity. Qed.
Lemma C81_all_but_debug_refuted_w : exists r, (FLAME_DEBUG < l_level r)%Z /\ log_run log_start (import_flame ++ [DoLog r]) = [].
Proof. exists info. split; [reflexivity|reflexivity]. Qed.
Lemma C81_overflow_refuted_w : exists v, (v <= 2147483647)%Z /\ set_verbose v = None.
Proof. exists 214748367%Z. split; [discriminate|reflexivity]. Qed.
Lemma C81_verbosity_refuted_w : exists es, set_verbose 3 = Some es /\ forall r, log_run log_start (es ++ [DoLog r]) = log_run log_start [DoLog r].
Proof. eexists. split; [reflexivity|]. intros r. reflexivity. Qed.
Lemma C81_negative_levels_refuted_w : exists n r, (n <= l_level r)%Z /\ log_run log_start [set_log_level n; DoLog r] = [].
Proof. exists (-1)%Z, warning. split; [discriminate|reflexivity]. Qed.
