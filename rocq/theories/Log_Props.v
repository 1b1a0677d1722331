(** C81: log messages. *)
From Coq Require Import List String Ascii Bool NArith ZArith Arith Lia.
From Verif Require Import Gen_Model Log_Model Log_Spec Log_Proofs.
Import ListNotations.
Open Scope string_scope.
Open Scope list_scope.
Local Notation la := list_ascii_of_string.

(** ** C81 *)
(** A message is passed on once, to the logger that was set last, exactly if it is of the
    level that was set last or of a higher one; messages stay in order, and nothing else
    is passed on. *)
Theorem C81_passed_on : forall es,
  (exists n l, level_after es n /\ logger_after es l) /\
  (forall r n l, level_after es n -> logger_after es l ->
     log_run log_start (es ++ [DoLog r]) = log_run log_start es ++ (if Z.leb n (l_level r) then [send l r] else [])) /\
  (forall e, (forall r, e <> DoLog r) -> log_run log_start (es ++ [e]) = log_run log_start es).
Proof. exact (fun es => conj (known es) (conj (routed es) (silent es))). Qed.
Print Assumptions C81_passed_on.
Example C81_passed_on_ex : log_run log_start [DoLog info; SetDetail FLAME_DEBUG; DoLog info; SetLogger (Some (Other 7)); DoLog warning; SetLogger None; DoLog warning] =
  [ToCerr (la "base.cpp:90 : Constructing Machine" ++ [NL]); ToOther 7 warning; ToCerr (la "rf_cavity.cpp:1520 : low energy (3 MeV)" ++ [NL])].
Proof. vm_compute. reflexivity. Qed.

(** On the standard error stream each message of one line, whether or not it has a
    newline at its end, is one line, that begins with its place in the code. *)
Theorem C81_lines : forall rs ts,
  Forall2 (fun r t => one_line (la (l_file r)) /\ one_line t /\ (la (l_text r) = t \/ la (l_text r) = t ++ [NL])) rs ts ->
  lines (flat_map cerr_log rs) [] = map (fun p => la (l_file (fst p)) ++ ":"%char :: la (dec (l_line (fst p))) ++ la " : " ++ snd p) (combine rs ts).
Proof. exact cerr_lines. Qed.
Print Assumptions C81_lines.
Example C81_lines_ex : Forall2 (fun r t => one_line (la (l_file r)) /\ one_line t /\ (la (l_text r) = t \/ la (l_text r) = t ++ [NL]))
  [info; mkLog "f" 3 0 (string_of_list_ascii [NL])] [la "Constructing Machine"; []].
Proof.
  constructor; [|constructor; [|constructor]]; (split; [cbn; unfold one_line; cbn; intuition discriminate|]; split; [unfold one_line; cbn; intuition discriminate|]).
  - left. reflexivity.
  - right. reflexivity.
Qed.

(** The Python logger gets level, file and line of a message, and its text without the
    newlines at its end and without the last character before them. *)
Theorem C81_python_partial : forall r t c, ~ In "000"%char (la (l_text r)) -> stripped (la (l_text r)) (t ++ [c]) ->
  py_log r = mkPyLog "flame.machine" (l_level r) (l_file r) (l_line r) t.
Proof. exact python_text. Qed.
Print Assumptions C81_python_partial.
Example C81_python_partial_ex : ~ In "000"%char (la (l_text warning)) /\ stripped (la (l_text warning)) (la "low energy (3 MeV" ++ [")"%char]).
Proof. split; [cbn; intuition discriminate|]. constructor. vm_compute. discriminate. Qed.
Theorem C81_python_refuted : exists r t, stripped (la (l_text r)) (la t) /\
  log_run log_start (import_flame ++ [DoLog r]) = [ToPython (mkPyLog "flame.machine" 30 (l_file r) (l_line r) (la "low energy (3 MeV"))] /\ t = "low energy (3 MeV)".
Proof. exact C81_python_refuted_w. Qed.
Print Assumptions C81_python_refuted.
(** Not all but those of level DEBUG are passed to it. *)
Theorem C81_all_but_debug_refuted : exists r, (FLAME_DEBUG < l_level r)%Z /\ log_run log_start (import_flame ++ [DoLog r]) = [].
Proof. exact C81_all_but_debug_refuted_w. Qed.
Print Assumptions C81_all_but_debug_refuted.
(** setLogLevel. *)
Theorem C81_levels_partial : forall n, (0 <= n < 65536)%Z -> set_log_level n = SetDetail n.
Proof. exact set_level_ok. Qed.
Print Assumptions C81_levels_partial.
Example C81_levels_partial_ex : (0 <= FLAME_DEBUG < 65536)%Z /\ set_log_level FLAME_DEBUG = SetDetail 10.
Proof. split; [split; [discriminate|reflexivity]|reflexivity]. Qed.
(** A negative level turns messages off, not on. *)
Theorem C81_negative_levels_refuted : exists n r, (n <= l_level r)%Z /\ log_run log_start [set_log_level n; DoLog r] = [].
Proof. exact C81_negative_levels_refuted_w. Qed.
Print Assumptions C81_negative_levels_refuted.

(** run_flame --verbose: from 3 on each step is one level more. *)
Theorem C81_verbosity_partial : forall v es, (2 < v <= 214748366)%Z -> set_verbose v = Some es ->
  forall r, log_run log_start (es ++ [DoLog r]) = if Z.leb (60 - 10 * v) (l_level r) then [send Cerr r] else [].
Proof. exact verbose_ok. Qed.
Print Assumptions C81_verbosity_partial.
Example C81_verbosity_partial_ex : set_verbose 4 = Some [SetDetail FLAME_INFO] /\ set_verbose 5 = Some [SetDetail FLAME_DEBUG].
Proof. split; reflexivity. Qed.
Theorem C81_verbosity_defined_partial : forall v, (v <= 214748366)%Z -> exists es, set_verbose v = Some es.
Proof. exact verbose_defined. Qed.
Print Assumptions C81_verbosity_defined_partial.
Example C81_verbosity_defined_partial_ex : set_verbose (-5) = Some [] /\ set_verbose 214748366 = Some [SetDetail (-2147483600)].
Proof. split; reflexivity. Qed.
(** But the step from 2 to 3 changes nothing, and large numbers are undefined behaviour. *)
Theorem C81_verbosity_refuted : exists es, set_verbose 3 = Some es /\
  forall r, log_run log_start (es ++ [DoLog r]) = log_run log_start [DoLog r].
Proof. exact C81_verbosity_refuted_w. Qed.
Print Assumptions C81_verbosity_refuted.
Theorem C81_overflow_refuted : exists v, (v <= 2147483647)%Z /\ set_verbose v = None.
Proof. exact C81_overflow_refuted_w. Qed.
Print Assumptions C81_overflow_refuted.
