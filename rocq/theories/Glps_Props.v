(** Properties of the lattice parser (C06-C15, C17).  Specification: Glps_Spec. *)
From Coq Require Import List String Ascii Bool ZArith QArith.
From Verif Require Import SMap Dbl Config_Model Config_Spec Lexer_Model Lexer_Spec Glps_Model Glps_Spec
  Glps_Proofs Glps2_Proofs Glps3_Proofs Glps4_Proofs Glps5_Proofs Glps6_Proofs.
Import ListNotations.
Open Scope string_scope.

(** ** C06 *)
(** Every text ends in a Config, an exception, or one of the two defects refuted
    below; never in a value read at a wrong type, an index out of range or a
    parser that does not end.  Missing: the two defects. *)
Theorem C06_type_safety_partial : forall w vars lat s, ssorted vars ->
  match parse_text w vars lat s with
  | Parsed _ | Failed | FailedKvFree | Undefined UBCast => True
  | _ => False
  end.
Proof. exact text_safe. Qed.
Print Assumptions C06_type_safety_partial.
Example C06_type_safety_ex : ssorted [("k", TNum (d_of_Z 3))] /\
  parse_text demo [("k", TNum (d_of_Z 3))] true "x = k + ""s"";" = Failed.
Proof. split; [simpl; tauto|vm_compute; reflexivity]. Qed.

(** A NaN repetition count is converted to an unsigned integer. *)
Theorem C06_no_undefined_conversion_refuted :
  exists w s, parse_text w [] true s = Undefined UBCast.
Proof. exact (ex_intro _ demo (ex_intro _ nan_text C06_no_undefined_conversion_refuted_w)). Qed.
Print Assumptions C06_no_undefined_conversion_refuted.

(** An error after the first property of an element passes memory from new to free(). *)
Theorem C06_abort_releases_properties_refuted :
  exists w s, parse_text w [] true s = FailedKvFree.
Proof. exact (ex_intro _ demo (ex_intro _ kv_text C06_abort_releases_properties_refuted_w)). Qed.
Print Assumptions C06_abort_releases_properties_refuted.

(** ** C07 *)
(** A Config is returned exactly for texts that spell a list of statements all of
    which have a meaning, and it shows that meaning. *)
Theorem C07_parse_means : forall w vars lat s t, ssorted vars ->
  (parse_text w vars lat s = Parsed t <->
   exists p r, spells s p /\ srun w vars lat p = Some r /\ shows r t).
Proof. exact text_parsed. Qed.
Print Assumptions C07_parse_means.
Example C07_parse_means_ex : exists t, parse_text demo [] true demo_text = Parsed t /\
  map (tlookup "name") (elements_of t) = map (fun n => Some (TStr n)) ["b"; "b"; "a"; "a"] /\
  map (tlookup "L0") (elements_of t) = repeat (Some (TNum (strtod_val 25 (-1)))) 4 /\
  map (tlookup "L") (elements_of t) = [None; None; Some (TNum (d_of_Z 5)); Some (TNum (d_of_Z 5))].
Proof. eexists. split; [vm_compute; reflexivity|]. vm_compute. auto. Qed.

Theorem C07_lexical_error : forall w vars lat s,
  ~ (exists ts, tokenises (list_ascii_of_string s) ts) -> forall t, parse_text w vars lat s <> Parsed t.
Proof. exact lexical_error. Qed.
Print Assumptions C07_lexical_error.
Example C07_lexical_error_ex : ~ (exists ts, tokenises (list_ascii_of_string "a: b; @") ts).
Proof. apply Lexer_Proofs.lex_error. eexists. vm_compute. reflexivity. Qed.

Theorem C07_syntax_error : forall w vars lat s, ssorted vars ->
  ~ (exists p, spells s p) -> forall t, parse_text w vars lat s <> Parsed t.
Proof. exact syntax_error. Qed.
Print Assumptions C07_syntax_error.
Example C07_syntax_error_ex : ~ (exists p, spells "a = 1 +;" p).
Proof.
  intros (p & ts & H & W). apply Lexer_Proofs.lex_tokenises in H. apply tree_complete in W.
  vm_compute in H. injection H as <-. vm_compute in W. discriminate.
Qed.

(** An error in any statement, whatever comes before and after it. *)
Theorem C07_statement_error : forall w vars lat s p1 st p2 env, ssorted vars ->
  spells s (p1 ++ st :: p2)%list -> sexecs w (env0 vars) p1 = Some env -> sexec w env st = None ->
  forall t, parse_text w vars lat s <> Parsed t.
Proof. exact statement_error. Qed.
Print Assumptions C07_statement_error.
Example C07_statement_error_ex : exists p1 st p2 env,
  spells "a: b; x = nowhere; l: LINE = (a);" (p1 ++ st :: p2)%list /\
  sexecs demo (env0 []) p1 = Some env /\ sexec demo env st = None.
Proof.
  exists [SElem "a" "b" []], (SAssign "x" (AVar "nowhere")), [SLine "l" "LINE" [AVar "a"]]. eexists.
  split; [eapply spells_compute; vm_compute; reflexivity|]. split; vm_compute; reflexivity.
Qed.

(** ** C08 *)
(** The elements are the flattening of the line whose name the Config shows. *)
Theorem C08_expansion_order : forall w vars s t, ssorted vars -> parse_text w vars true s = Parsed t ->
  exists p1 n ty ms p2 nss,
    spells s (p1 ++ SLine n ty ms :: p2)%list /\ tlookup "name" t = Some (TStr n) /\
    flats w vars p1 ms nss /\
    map (tlookup "name") (elements_of t) = map (fun x => Some (TStr x)) (List.concat nss).
Proof. exact expansion. Qed.
Print Assumptions C08_expansion_order.
Example C08_expansion_order_ex : exists t,
  parse_text demo [] true "a: x; b: y; c: z; m: LINE=(a,b); n: LINE=(2.9*m, c, -(m*2)); k: LINE=(-n, -m);" = Parsed t /\
  map (tlookup "name") (elements_of t) =
    map (fun x => Some (TStr x)) ["a";"b";"a";"b";"c";"b";"a";"b";"a";"b";"a"].
Proof. eexists. split; vm_compute; reflexivity. Qed.

(** ** C09 *)
Theorem C09_elements_are_defined : forall w vars s t g, ssorted vars ->
  parse_text w vars true s = Parsed t -> In g (elements_of t) ->
  exists p1 n ty l p2 env ps,
    spells s (p1 ++ SElem n ty l :: p2)%list /\ sexecs w (env0 vars) p1 = Some env /\ sprops w env l = Some ps /\
    forall k, sfind k (town g) =
      if String.eqb k "name" then Some (TStr n) else if String.eqb k "type" then Some (TStr ty)
      else option_map shown (assoc k ps).
Proof. exact elements_defined. Qed.
Print Assumptions C09_elements_are_defined.
Example C09_elements_are_defined_ex : exists t g, parse_text demo [] true demo_text = Parsed t /\
  In g (elements_of t) /\ sfind "B2" (town g) = Some (TNum (dopp (strtod_val 35 (-1)))).
Proof. eexists. eexists. split; [vm_compute; reflexivity|]. split; [left; reflexivity|vm_compute; reflexivity]. Qed.

Theorem C09_undefined_member : forall w vars lat s p1 n ty ms p2 x, ssorted vars ->
  spells s (p1 ++ SLine n ty ms :: p2)%list -> In (AVar x) ms -> ~ is_elem p1 x -> ~ is_line p1 x ->
  forall t, parse_text w vars lat s <> Parsed t.
Proof. exact undefined_member. Qed.
Print Assumptions C09_undefined_member.
Example C09_undefined_member_ex : exists p1 n ty ms p2,
  spells "a: b; l: LINE = (a, c); c: b;" (p1 ++ SLine n ty ms :: p2)%list /\ In (AVar "c") ms /\
  ~ is_elem p1 "c" /\ ~ is_line p1 "c".
Proof.
  exists [SElem "a" "b" []], "l", "LINE", [AVar "a"; AVar "c"], [SElem "c" "b" []].
  split; [eapply spells_compute; vm_compute; reflexivity|]. split; [simpl; auto|].
  split; intros (t & l & [H|[]]); discriminate.
Qed.

(** ** C10 *)
Theorem C10_duplicate_definition : forall w vars lat s p1 a p2 b p3, ssorted vars ->
  spells s (p1 ++ a :: p2 ++ b :: p3)%list -> same_def a b -> forall t, parse_text w vars lat s <> Parsed t.
Proof. exact duplicate. Qed.
Print Assumptions C10_duplicate_definition.
Example C10_duplicate_definition_ex : exists p1 a p2 b p3,
  spells "x: b; a: b; l: LINE = (a); a: c, L = 3;" (p1 ++ a :: p2 ++ b :: p3)%list /\ same_def a b.
Proof.
  exists [SElem "x" "b" []], (SElem "a" "b" []), [SLine "l" "LINE" [AVar "a"]],
    (SElem "a" "c" [("L", ANum (d_of_Z 3))]), [].
  split; [eapply spells_compute; vm_compute; reflexivity|reflexivity].
Qed.

Theorem C10_preset_redefined : forall w vars lat s p1 n e p2, ssorted vars ->
  spells s (p1 ++ SAssign n e :: p2)%list -> assoc n (presets vars) <> None ->
  forall t, parse_text w vars lat s <> Parsed t.
Proof. exact preset_duplicate. Qed.
Print Assumptions C10_preset_redefined.
Example C10_preset_redefined_ex : spells "k = 2;" [SAssign "k" (ANum (d_of_Z 2))] /\
  assoc "k" (presets [("k", TNum (d_of_Z 3))]) <> None.
Proof. split; [eapply spells_compute; vm_compute; reflexivity|discriminate]. Qed.

(** A property given twice has the value written first. *)
Theorem C10_first_property_wins : forall w vars s t g p1 n ty l1 k e l2 p2 env,
  ssorted vars -> parse_text w vars true s = Parsed t ->
  spells s (p1 ++ SElem n ty (l1 ++ (k, e) :: l2) :: p2)%list -> sexecs w (env0 vars) p1 = Some env ->
  ~ In k (map fst l1) -> k <> "name" -> k <> "type" ->
  In g (elements_of t) -> tlookup "name" g = Some (TStr n) ->
  exists v, seval w env e = Some v /\ tlookup k g = Some (shown v).
Proof. exact first_property. Qed.
Print Assumptions C10_first_property_wins.
Example C10_first_property_wins_ex : exists t g,
  parse_text demo [] true "a: b, L = 1, L = 2; l: LINE = (a);" = Parsed t /\
  spells "a: b, L = 1, L = 2; l: LINE = (a);"
    ([] ++ SElem "a" "b" ([] ++ ("L", ANum (d_of_Z 1)) :: [("L", ANum (d_of_Z 2))]) :: [SLine "l" "LINE" [AVar "a"]])%list /\
  In g (elements_of t) /\ tlookup "name" g = Some (TStr "a") /\ tlookup "L" g = Some (TNum (d_of_Z 1)).
Proof.
  eexists. eexists. split; [vm_compute; reflexivity|]. split; [eapply spells_compute; vm_compute; reflexivity|].
  split; [left; reflexivity|]. split; vm_compute; reflexivity.
Qed.

(** ** C11 *)
Theorem C11_use_selects : forall w vars s t p ty l, ssorted vars ->
  parse_text w vars true s = Parsed t -> spells s p -> In (SElem "USE" ty l) p ->
  tlookup "name" t = Some (TStr ty).
Proof. exact use_selects. Qed.
Print Assumptions C11_use_selects.
Example C11_use_selects_ex : exists t p,
  parse_text demo [] true "a: b; l: LINE = (a); m: LINE = (a,a); USE: l;" = Parsed t /\
  spells "a: b; l: LINE = (a); m: LINE = (a,a); USE: l;" p /\ In (SElem "USE" "l" []) p.
Proof.
  eexists. eexists. split; [vm_compute; reflexivity|]. split; [eapply spells_compute; vm_compute; reflexivity|].
  simpl. auto.
Qed.

Theorem C11_last_line_otherwise : forall w vars s t p, ssorted vars ->
  parse_text w vars true s = Parsed t -> spells s p -> ~ is_elem p "USE" ->
  exists p1 n ty ms p2, p = (p1 ++ SLine n ty ms :: p2)%list /\ (forall m, ~ is_line p2 m) /\
    tlookup "name" t = Some (TStr n).
Proof. exact last_line_selected. Qed.
Print Assumptions C11_last_line_otherwise.
Example C11_last_line_otherwise_ex : exists t p,
  parse_text demo [] true "a: b; l: LINE = (a); m: LINE = (a,a);" = Parsed t /\
  spells "a: b; l: LINE = (a); m: LINE = (a,a);" p /\ ~ is_elem p "USE".
Proof.
  eexists. eexists. split; [vm_compute; reflexivity|]. split; [eapply spells_compute; vm_compute; reflexivity|].
  intros (ty & l & H). simpl in H. destruct H as [H|[H|[H|[]]]]; discriminate.
Qed.

Theorem C11_no_line_is_error : forall w vars s p, ssorted vars -> spells s p -> (forall m, ~ is_line p m) ->
  forall t, parse_text w vars true s <> Parsed t.
Proof. exact no_line_error. Qed.
Print Assumptions C11_no_line_is_error.
Example C11_no_line_is_error_ex : exists p, spells "a: b;" p /\ forall m, ~ is_line p m.
Proof.
  exists [SElem "a" "b" []]. split; [eapply spells_compute; vm_compute; reflexivity|].
  intros m (t & l & [H|[]]). discriminate.
Qed.

Theorem C11_unknown_use_is_error : forall w vars s p ty l, ssorted vars -> spells s p ->
  In (SElem "USE" ty l) p -> ~ is_line p ty -> forall t, parse_text w vars true s <> Parsed t.
Proof. exact use_unknown_error. Qed.
Print Assumptions C11_unknown_use_is_error.
Example C11_unknown_use_is_error_ex : exists p, spells "a: b; l: LINE = (a); USE: k;" p /\
  In (SElem "USE" "k" []) p /\ ~ is_line p "k".
Proof.
  eexists. split; [eapply spells_compute; vm_compute; reflexivity|]. split; [simpl; auto|].
  intros (t & l & H). simpl in H. destruct H as [H|[H|[H|[]]]]; discriminate.
Qed.

Theorem C11_empty_line_is_error : forall w vars s t, ssorted vars ->
  parse_text w vars true s = Parsed t -> elements_of t <> [].
Proof. exact nonempty_lattice. Qed.
Print Assumptions C11_empty_line_is_error.
Example C11_empty_line_is_error_ex : parse_text demo [] true "l: LINE = ();" = Failed /\
  exists t, parse_text demo [] true "a: b; l: LINE = (0*a, a);" = Parsed t.
Proof. split; [vm_compute; reflexivity|eexists; vm_compute; reflexivity]. Qed.

(** ** C12 *)
(** [p1] and [p2] are arbitrary: the definition may come before or after the element. *)
Theorem C12_globals_visible : forall w vars s t p1 n e p2 env v g, ssorted vars ->
  parse_text w vars true s = Parsed t -> spells s (p1 ++ SAssign n e :: p2)%list ->
  sexecs w (env0 vars) p1 = Some env -> seval w env e = Some v ->
  In g (elements_of t) -> sfind n (town g) = None -> tlookup n g = Some (shown v).
Proof. exact globals_visible. Qed.
Print Assumptions C12_globals_visible.
Example C12_globals_visible_ex : exists t p1 e g,
  parse_text demo [] true demo_text = Parsed t /\ spells demo_text (p1 ++ SAssign "k" e :: [])%list /\
  In g (elements_of t) /\ sfind "k" (town g) = None /\ tlookup "k" g = Some (TVec [d_of_Z 1; d_of_Z 2]).
Proof.
  eexists. exists [SAssign "L0" (ANum (strtod_val 25 (-1)));
    SElem "a" "drift" [("L", ABin "*" (AVar "L0") (ANum (d_of_Z 2))); ("L", ANum (d_of_Z 7))];
    SElem "b" "quad" [("B2", ACall "-" (ANum (strtod_val 35 (-1))))];
    SLine "one" "LINE" [AVar "a"; ABin "*" (ANum (d_of_Z 2)) (AVar "b")];
    SLine "all" "LINE" [ACall "-" (AVar "one"); AVar "a"]], (AVec [ANum (d_of_Z 1); ANum (d_of_Z 2)]).
  eexists. split; [vm_compute; reflexivity|]. split; [eapply spells_compute; vm_compute; reflexivity|].
  split; [left; reflexivity|]. split; vm_compute; reflexivity.
Qed.

(** Apart from its own entries an element sees what the top level shows ... *)
Theorem C12_element_sees_top_level : forall w vars s t g k, ssorted vars ->
  parse_text w vars true s = Parsed t -> In g (elements_of t) ->
  sfind k (town g) = None -> k <> "elements" -> tlookup k g = tlookup k t.
Proof. exact elem_sees. Qed.
Print Assumptions C12_element_sees_top_level.
Example C12_element_sees_top_level_ex : exists t g, parse_text demo [] true demo_text = Parsed t /\
  In g (elements_of t) /\ sfind "L0" (town g) = None /\ tlookup "L0" t <> None.
Proof. eexists. eexists. split; [vm_compute; reflexivity|]. split; [left; reflexivity|]. split; vm_compute; [reflexivity|discriminate]. Qed.

(** ... except its list of elements.  (The element's own "name" hides the top level one:
    every element has that entry, C09.) *)
Theorem C12_elements_hidden : forall w vars s t p g, ssorted vars ->
  parse_text w vars true s = Parsed t -> In g (elements_of t) -> spells s p ->
  sfind "elements" (town g) = None -> ~ is_var vars p "elements" -> tlookup "elements" g = None.
Proof. exact elements_hidden. Qed.
Print Assumptions C12_elements_hidden.
Example C12_elements_hidden_ex : exists t g p, parse_text demo [] true "a: b; l: LINE = (a);" = Parsed t /\
  In g (elements_of t) /\ spells "a: b; l: LINE = (a);" p /\ sfind "elements" (town g) = None /\
  ~ is_var [] p "elements".
Proof.
  eexists. eexists. eexists. split; [vm_compute; reflexivity|]. split; [left; reflexivity|].
  split; [eapply spells_compute; vm_compute; reflexivity|]. split; [reflexivity|].
  intros [H|(e & H)]; [apply H; reflexivity|]. simpl in H. destruct H as [H|[H|[]]]; discriminate.
Qed.

(** ** C13 *)
(** [assign_tokens]: the tokens of the assignments, for finite numbers, vectors of
    them and strings. *)
Theorem C13_setvar_is_assignment : forall w vars pre lat ts t, ssorted vars -> assign_tokens vars = Some pre ->
  (parse_tokens w vars lat ts false = Parsed t <-> parse_tokens w [] lat (pre ++ ts) false = Parsed t).
Proof. exact setvar_assign. Qed.
Print Assumptions C13_setvar_is_assignment.
Example C13_setvar_is_assignment_ex :
  let vars := [("k", TNum (d_of_Z (-3))); ("s", TStr "x"); ("v", TVec [d_of_Z 1; d_of_Z (-2)])] in
  exists pre t, ssorted vars /\ assign_tokens vars = Some pre /\
    fst (match lex "k = -3; s = ""x""; v = [1, -2,];" with Some r => r | None => ([], true) end) = pre /\
    parse_text demo vars true "a: b, K = k; l: LINE = (a);" = Parsed t.
Proof.
  eexists. eexists. split; [|split; [vm_compute; reflexivity|split; vm_compute; reflexivity]].
  simpl. repeat split; intros k v H; repeat (destruct H as [H|H]; [injection H as <- <-; reflexivity|]); contradiction.
Qed.

(** ** C14 *)
Theorem C14_at_most_one_candidate : forall w n args,
  (List.length (filter (op_matches n args) (op_table w)) <= 1)%nat.
Proof. exact at_most_one_op. Qed.
Print Assumptions C14_at_most_one_candidate.
Example C14_at_most_one_candidate_ex :
  map op_args (filter (op_matches "*" [mkExpr ENumber (XNum done); mkExpr ELine (XLine [])]) (op_table demo)) = [[ENumber; ELine]].
Proof. vm_compute. reflexivity. Qed.

(** A use is an error when no entry matches, and otherwise is the entry with that name
    and those argument types. *)
Theorem C14_resolution : forall w n args,
  match filter (op_matches n args) (op_table w) with
  | [] => add_op w n args = AFail
  | o :: _ => add_op w n args = abind (op_fn o args) (fun v => AOk (mkExpr (op_res o) v)) /\
              op_name o = n /\ op_args o = map ety args
  end.
Proof. exact op_accept. Qed.
Print Assumptions C14_resolution.
Example C14_resolution_ex :
  filter (op_matches "+" [mkExpr EString (XStr "a"); mkExpr EString (XStr "b")]) (op_table demo) = [] /\
  filter (op_matches "-" [mkExpr ELine (XLine ["a"])]) (op_table demo) <> [].
Proof. split; vm_compute; [reflexivity|discriminate]. Qed.

(** The meaning of each entry, stated without the table. *)
Theorem C14_binary_meaning : forall w o a b,
  matches_opt inj (sapply2 o a b) (add_op w o [inj a; inj b]).
Proof. exact op2_spec. Qed.
Print Assumptions C14_binary_meaning.
Example C14_binary_meaning_ex :
  sapply2 "-" (SvNum (d_of_Z 5)) (SvNum (d_of_Z 3)) = Some (SvNum (d_of_Z 2)) /\
  sapply2 "*" (SvNum (d_of_Z 2)) (SvLine ["a"; "b"]) = Some (SvLine ["a"; "b"; "a"; "b"]) /\
  sapply2 "/" (SvNum (d_of_Z 5)) (SvNum dzero) = None.
Proof. repeat split; vm_compute; reflexivity. Qed.
Theorem C14_unary_meaning : forall w f a,
  matches_opt inj (sapply1 w f a) (add_op w f [inj a]).
Proof. exact op1_spec. Qed.
Print Assumptions C14_unary_meaning.
Example C14_unary_meaning_ex :
  sapply1 demo "-" (SvLine ["a"; "b"; "c"]) = Some (SvLine ["c"; "b"; "a"]) /\ sapply1 demo "cosh" (SvNum done) = None.
Proof. split; vm_compute; reflexivity. Qed.

(** ** C15 *)
(** Missing: NaN, see the refutation. *)
Theorem C15_repetition_checked_partial : forall w x l, valid_binary dprec demax x = true -> is_nan x = false ->
  let r := if (is_finite x && Qle_bool 0 (qval x) && Qle_bool (qval x) (inject_Z 4294967295))%bool
           then AOk (mkExpr ELine (XLine (List.concat (repeat l (Z.to_nat (qfloor (qval x)))))))
           else AFail in
  add_op w "*" [mkExpr ENumber (XNum x); mkExpr ELine (XLine l)] = r /\
  add_op w "*" [mkExpr ELine (XLine l); mkExpr ENumber (XNum x)] = r.
Proof. exact repeat_checked. Qed.
Print Assumptions C15_repetition_checked_partial.
Example C15_repetition_checked_ex :
  valid_binary dprec demax (strtod_val 29 (-1)) = true /\ is_nan (strtod_val 29 (-1)) = false /\
  qfloor (qval (strtod_val 29 (-1))) = 2%Z /\ is_finite (strtod_val 1 400) = false.
Proof. repeat split; vm_compute; reflexivity. Qed.

Theorem C15_nan_count_refuted :
  exists w x l, add_op w "*" [mkExpr ENumber (XNum x); mkExpr ELine (XLine l)] = AUB UBCast.
Proof. exact (ex_intro _ demo (ex_intro _ S754_nan (ex_intro _ ["a"] C15_nan_count_refuted_w))). Qed.
Print Assumptions C15_nan_count_refuted.

(** ** C17 *)
(** [tree_of] is the parser run with actions that build the tree. *)
Theorem C17_parses_exactly_the_grammar : forall ts p, tree_of ts = POk p [] <-> wr_file p ts.
Proof. exact tree_iff. Qed.
Print Assumptions C17_parses_exactly_the_grammar.
Example C17_parses_exactly_the_grammar_ex :
  tree_of [KKw "x"; KEq; KNum done; KMinus; KNum done; KMul; KMinus; KKw "a"; KSemi] =
    POk [SAssign "x" (ABin "-" (ANum done) (ABin "*" (ANum done) (ACall "-" (AVar "a"))))] [].
Proof. vm_compute. reflexivity. Qed.

Theorem C17_one_tree : forall p q ts, wr_file p ts -> wr_file q ts -> p = q.
Proof. exact wr_file_unique. Qed.
Print Assumptions C17_one_tree.
Example C17_one_tree_ex : wr_file [SAssign "x" (ANum done)] [KKw "x"; KEq; KNum done; KSemi].
Proof. apply tree_sound. vm_compute. reflexivity. Qed.

(** a o1 b o2 c: all pairs of the four operators, any operands. *)
Theorem C17_precedence : forall n a b c s t u o1 o2, wr 2 a s -> wr 2 b t -> wr 2 c u ->
  tree_of (KKw n :: KEq :: (s ++ bin_tok o1 :: t ++ bin_tok o2 :: u) ++ [KSemi]) =
    POk [SAssign n (grouped o1 o2 a b c)] [].
Proof. exact grouping. Qed.
Print Assumptions C17_precedence.
Example C17_precedence_ex : wr 2 (ABin "+" (AVar "x") (AVar "y")) [KLPar; KKw "x"; KPlus; KKw "y"; KRPar] /\
  grouped BSub BMul (AVar "a") (AVar "b") (AVar "c") = ABin "-" (AVar "a") (ABin "*" (AVar "b") (AVar "c")) /\
  grouped BSub BSub (AVar "a") (AVar "b") (AVar "c") = ABin "-" (ABin "-" (AVar "a") (AVar "b")) (AVar "c").
Proof. split; [|split; reflexivity]. apply (wr_paren _ [KKw "x"; KPlus; KKw "y"]), (wr_add _ _ [KKw "x"] [KKw "y"]); repeat constructor. Qed.

Theorem C17_minus_binds_tightest : forall n a b s t o, wr 2 a s -> wr 2 b t ->
  tree_of (KKw n :: KEq :: ((KMinus :: s) ++ bin_tok o :: t) ++ [KSemi]) =
    POk [SAssign n (ABin (bin_str o) (ACall "-" a) b)] [].
Proof. exact minus_tightest. Qed.
Print Assumptions C17_minus_binds_tightest.
Example C17_minus_binds_tightest_ex : wr 2 (ACall "-" (AVar "x")) [KMinus; KKw "x"].
Proof. repeat constructor. Qed.

(** Every tree of the operators of the language can be written and is read back. *)
Theorem C17_every_tree_can_be_written : forall e n, plain e = true -> exists ts,
  wr 0 e ts /\ tree_of (KKw n :: KEq :: ts ++ [KSemi]) = POk [SAssign n e] [].
Proof. exact tree_written. Qed.
Print Assumptions C17_every_tree_can_be_written.
Example C17_every_tree_can_be_written_ex :
  plain (ABin "*" (ABin "+" (AVar "a") (AVec [ACall "sin" (ANum done)])) (ACall "-" (ABin "/" (AStr "s") (AVar "b")))) = true.
Proof. reflexivity. Qed.
