(** C86: how long a lattice file may be.  Specification: Stack_Spec (depth of the stack),
    Glps_Spec (meaning of a file). *)
From Coq Require Import List String Bool NArith Lia.
From Verif Require Import SMap Dbl Config_Model Config_Spec Lexer_Model Lexer_Spec Glps_Model Glps_Spec
  Glps6_Proofs Stack_Model Stack_Spec Stack_Proofs.
Import ListNotations.
Open Scope string_scope.

(** A text of at most n statements, none of more than k tokens, is read as if there
    were no limit when n + k does not exceed 9996. *)
Theorem C86_within : forall w vars lat s ts e n k,
  lex s = Some (ts, e) ->
  (semicolons ts <= n)%nat ->
  (forall pre b post, ts = (pre ++ b ++ post)%list -> ~ In KSemi b -> (List.length b <= k)%nat) ->
  (N.of_nat n + N.of_nat k <= 9996)%N ->
  limited_text w vars lat s = Within (parse_text w vars lat s).
Proof. exact within. Qed.
Print Assumptions C86_within.
Example C86_within_ex : exists ts, lex demo_text = Some (ts, false) /\ (semicolons ts <= 7)%nat /\
  (forall pre b post, ts = (pre ++ b ++ post)%list -> ~ In KSemi b -> (List.length b <= 100)%nat).
Proof.
  eexists. split; [vm_compute; reflexivity|]. split; [vm_compute; repeat constructor|].
  intros pre b post E _. apply (f_equal (@List.length token)) in E. rewrite !app_length in E.
  simpl List.length in E at 1. lia.
Qed.

(** Otherwise it is read like that or refused; never misread. *)
Theorem C86_agrees : forall w vars lat s,
  limited_text w vars lat s = Within (parse_text w vars lat s) \/
  exists kv, limited_text w vars lat s = Exhausted kv.
Proof. exact agrees. Qed.
Print Assumptions C86_agrees.
Example C86_agrees_ex :
  (exists t, limited_text demo [] true demo_text = Within (Parsed t)) /\
  limited_text demo [] false (ends_text 9998) = Exhausted false.
Proof. split; [eexists; vm_compute; reflexivity|apply C86_any_length_refuted_w]. Qed.

(** A Config is returned only for statements that have a meaning and need no more than
    9998 symbols. *)
Theorem C86_means : forall w vars lat s t, ssorted vars ->
  limited_text w vars lat s = Within (Parsed t) ->
  exists p r, spells s p /\ srun w vars lat p = Some r /\ shows r t /\ (need_file p <= 9998)%N.
Proof. exact means. Qed.
Print Assumptions C86_means.
(** 9997 statements are still read. *)
Example C86_means_ex : exists t, limited_text demo [] false (ends_text 9997) = Within (Parsed t).
Proof. eexists. vm_compute. reflexivity. Qed.

(** Statements that need more are never read, and those among them that have a meaning
    are refused because of the stack. *)
Theorem C86_too_deep : forall w vars lat s p, ssorted vars -> spells s p -> (9998 < need_file p)%N ->
  (forall t, limited_text w vars lat s <> Within (Parsed t)) /\
  ((exists r, srun w vars lat p = Some r) -> exists kv, limited_text w vars lat s = Exhausted kv).
Proof. exact too_deep. Qed.
Print Assumptions C86_too_deep.
Example C86_too_deep_ex : exists p, spells (vec_text 4999) p /\ (9998 < need_file p)%N /\
  exists r, srun demo [] false p = Some r.
Proof.
  eexists. split; [apply spelt_spells; vm_compute; reflexivity|].
  split; [vm_compute; reflexivity|]. eexists. vm_compute. reflexivity.
Qed.

(** No text of 9998 statements or more is read. *)
Theorem C86_statements : forall w vars lat s p, ssorted vars -> spells s p ->
  (9998 <= N.of_nat (List.length p))%N ->
  (forall t, limited_text w vars lat s <> Within (Parsed t)) /\
  ((exists r, srun w vars lat p = Some r) -> exists kv, limited_text w vars lat s = Exhausted kv).
Proof. exact many_statements. Qed.
Print Assumptions C86_statements.
Example C86_statements_ex : exists p, spells (ends_text 9998) p /\ (9998 <= N.of_nat (List.length p))%N.
Proof. eexists. split; [apply spelt_spells; vm_compute; reflexivity|vm_compute; discriminate]. Qed.

(** No text is read in which a beamline has 4998 members or more, a vector 4999 or an
    element 4998 properties. *)
Theorem C86_lists : forall w vars lat s p st, ssorted vars -> spells s p -> In st p ->
  match st with
  | SLine _ _ members => 4998 <= N.of_nat (List.length members)
  | SAssign _ (AVec l) => 4999 <= N.of_nat (List.length l)
  | SElem _ _ props => 4998 <= N.of_nat (List.length props)
  | _ => False
  end%N ->
  (forall t, limited_text w vars lat s <> Within (Parsed t)) /\
  ((exists r, srun w vars lat p = Some r) -> exists kv, limited_text w vars lat s = Exhausted kv).
Proof. exact long_statement. Qed.
Print Assumptions C86_lists.
(** One member less and the vector is read. *)
Example C86_lists_ex : (exists t, limited_text demo [] false (vec_text 4998) = Within (Parsed t)) /\
  limited_text demo [] false (vec_text 4999) = Exhausted false.
Proof. split; [eexists|]; vm_compute; reflexivity. Qed.

(** A text that has a meaning in the language is always read: not so. *)
Theorem C86_any_length_refuted : exists w vars lat s,
  limited_text w vars lat s = Exhausted false /\ exists t, parse_text w vars lat s = Parsed t.
Proof.
  exact (ex_intro _ demo (ex_intro _ [] (ex_intro _ false (ex_intro _ (ends_text 9998) C86_any_length_refuted_w)))).
Qed.
Print Assumptions C86_any_length_refuted.
