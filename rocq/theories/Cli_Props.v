(** C67, C68: the command line tool. *)
From Coq Require Import List String Ascii Bool NArith ZArith.
From Verif Require Import SMap Dbl Config_Spec Lexer_Spec Glps_Model Glps_Spec Machine_Model Machine_Spec Util_Spec Cli_Model Cli_Spec.
From Verif Require Import Glps6_Proofs Machine3_Proofs Cli_Proofs Cli2_Proofs Cli3_Proofs.
Import ListNotations.
Open Scope string_scope.
Open Scope list_scope.

(** A definition that is not name=type:value, of a type that there is and with a value of
    that type, ends the program before anything else. *)
Theorem C67_malformed_refused : forall D B lexd h5 (reg : registry D B) w a d,
  In d (a_define a) -> (forall nv, ~ defines_as lexd d nv) -> main lexd h5 reg w a = Stopped [].
Proof. intros D B. exact cli_malformed. Qed.
Print Assumptions C67_malformed_refused.
Example C67_malformed_refused_ex : forall nv, ~ defines_as cli_lexd "k=D:x" nv.
Proof. intros nv H. apply define_correct in H. vm_compute in H. discriminate. Qed.
Example C67_malformed_refused_ex2 : forall nv, ~ defines_as cli_lexd "=S:x" nv.
Proof. intros nv H. apply define_correct in H. vm_compute in H. discriminate. Qed.

(** Definitions do what assignments at the start of the lattice file would do; of several
    definitions of a name the last one counts. *)
Theorem C67_as_if_written : forall D B lexd h5 (reg : registry D B) w d nvs vars s p s' mx f al ty nm la ti,
  Forall2 (defines_as lexd) d nvs -> latest nvs vars -> spells s p -> spells s' (written vars ++ p) ->
  forall shown final,
    main lexd h5 reg w (mkArgs d (Some s) mx f al ty nm la ti) = Done shown final <->
    main lexd h5 reg w (mkArgs [] (Some s') mx f al ty nm la ti) = Done shown final.
Proof. intros D B. exact cli_moved. Qed.
Print Assumptions C67_as_if_written.
Example C67_as_if_written_ex : exists p,
  Forall2 (defines_as cli_lexd) ["k=S:x"; "k=D:3"] [("k", TStr "x"); ("k", TNum (d_of_Z 3))] /\
  latest [("k", TStr "x"); ("k", TNum (d_of_Z 3))] [("k", TNum (d_of_Z 3))] /\
  spells cli_text p /\ spells cli_text' (written [("k", TNum (d_of_Z 3))] ++ p).
Proof.
  eexists. split; [exact cli_defs|]. split; [exact cli_latest|]. split; eapply spells_compute; vm_compute; reflexivity.
Qed.

(** A lattice file that assigns to a defined name is refused. *)
Theorem C67_redefinition_refused_partial : forall D B lexd h5 (reg : registry D B) w a nvs s n v p1 e p2,
  Forall2 (defines_as lexd) (a_define a) nvs -> In (n, v) nvs -> a_lattice a = Some s -> spells s (p1 ++ SAssign n e :: p2) ->
  main lexd h5 reg w a = Stopped [] \/ main lexd h5 reg w a = Cli_Model.Undefined.
Proof. intros D B. exact cli_redefined. Qed.
Print Assumptions C67_redefinition_refused_partial.
Example C67_redefinition_refused_partial_ex : exists p1 e p2, spells cli_text' (p1 ++ SAssign "k" e :: p2) /\ Forall2 (defines_as cli_lexd) ["k=D:3"] [("k", TNum (d_of_Z 3))].
Proof. exists []. eexists _, _. split; [eapply spells_compute; vm_compute; reflexivity|]. constructor; [apply define_correct; vm_compute; reflexivity|constructor]. Qed.

(** The help text says that definitions are overwritten by those in the lattice file. *)
Theorem C67_overwritten_refuted : exists (reg : registry nat (list string)) w s sh st,
  main cli_lexd true reg w (mkArgs [] (Some s) (Some "10") "txt" false ["probe"] ["c"] false false) = Done sh st /\
  main cli_lexd true reg w (mkArgs ["k=D:2"] (Some s) (Some "10") "txt" false ["probe"] ["c"] false false) = Stopped [].
Proof. exists toy_reg, demo, cli_text'. destruct C67_overwritten_refuted_w as [H (sh & st & E)]. exists sh, st. split; [exact E|exact H]. Qed.
Print Assumptions C67_overwritten_refuted.

(** What is shown are the states that leave the selected elements, in the order in which
    the elements are passed, up to the limit or the element that fails. *)
Theorem C68_shown : forall D B lexd h5 (reg : registry D B) w a m max f st t els r,
  built lexd reg w a m -> limit a max -> (INT_MIN < max)%Z -> format_as h5 (a_format a) f -> f <> FH5 None -> a_timeit a = false ->
  (N.of_nat (List.length (m_elems m)) <= SIZE_MAX)%N -> undirected (m_elems m) -> alloc_state m (TCfg [] []) = Ok st ->
  journey (m_elems m) (Z.leb 0 max) (visits (List.length (m_elems m)) 0 max) (mkSt 0 (Z.ltb max 0) (st_body st)) = (t, els, r) ->
  exists shown, ended r shown (main lexd h5 reg w a) /\ as_pairs shown = on_show a (m_elems m) t.
Proof. intros D B. exact cli_shown_some. Qed.
Print Assumptions C68_shown.
Example C68_shown_ex : exists st t els r, built cli_lexd toy_reg demo cli_a cli_m /\ limit cli_a 4 /\ format_as true (a_format cli_a) (FText (Some "o") 2) /\
  undirected (m_elems cli_m) /\ alloc_state cli_m (TCfg [] []) = Ok st /\
  journey (m_elems cli_m) true (visits 4 0 4) (mkSt 0 false (st_body st)) = (t, els, Ok r) /\
  on_show cli_a (m_elems cli_m) t = [(1, mkSt 2 false ["a"; "b"]); (3, mkSt 4 false ["a"; "b"; "a"; "c"])].
Proof.
  eexists _, _, _, _. split; [exact (cli_built false)|]. split; [exact (cli_limit false)|]. split; [exact (cli_format true)|]. split; [exact cli_undirected|].
  split; [vm_compute; reflexivity|]. split; [vm_compute; reflexivity|]. vm_compute. reflexivity.
Qed.

(** With --timeit everything is shown twice; the second time for particles that have gone
    through the machine before. *)
Theorem C68_twice : forall D B lexd h5 (reg : registry D B) w a m max f st t els s1 t2 els2 r2,
  built lexd reg w a m -> limit a max -> (INT_MIN < max)%Z -> format_as h5 (a_format a) f -> f <> FH5 None -> a_timeit a = true ->
  (N.of_nat (List.length (m_elems m)) <= SIZE_MAX)%N -> undirected (m_elems m) -> alloc_state m (TCfg [] []) = Ok st ->
  journey (m_elems m) (Z.leb 0 max) (visits (List.length (m_elems m)) 0 max) (mkSt 0 (Z.ltb max 0) (st_body st)) = (t, els, Ok s1) ->
  journey els (Z.leb 0 max) (visits (List.length els) 0 max) (mkSt 0 (Z.ltb max 0) (st_body s1)) = (t2, els2, r2) ->
  exists shown, ended r2 shown (main lexd h5 reg w a) /\ as_pairs shown = on_show a (m_elems m) t ++ on_show a (m_elems m) t2.
Proof. intros D B. exact cli_twice_some. Qed.
Print Assumptions C68_twice.
Example C68_twice_ex : exists st t els s1 t2 els2 r2, let a := cli_args ["k=S:x"; "k=D:3"] cli_text (Some "+4") "txt,file=o,,verbose=2" true in
  built cli_lexd toy_reg demo a cli_m /\ limit a 4 /\ alloc_state cli_m (TCfg [] []) = Ok st /\
  journey (m_elems cli_m) true (visits 4 0 4) (mkSt 0 false (st_body st)) = (t, els, Ok s1) /\
  journey els true (visits 4 0 4) (mkSt 0 false (st_body s1)) = (t2, els2, Ok r2) /\
  on_show a (m_elems cli_m) t2 = [(1, mkSt 2 false ["a"; "b"; "a"; "c"; "a"; "b"]); (3, mkSt 4 false ["a"; "b"; "a"; "c"; "a"; "b"; "a"; "c"])].
Proof.
  eexists _, _, _, _, _, _, _. split; [exact (cli_built true)|]. split; [exact (cli_limit true)|]. split; [vm_compute; reflexivity|].
  split; [vm_compute; reflexivity|]. split; [vm_compute; reflexivity|]. vm_compute. reflexivity.
Qed.
Theorem C68_timeit_refuted : exists (reg : registry nat (list string)) w d s mx f ty nm sh1 s1 sh2 s2,
  main cli_lexd true reg w (mkArgs d (Some s) mx f false ty nm false false) = Done sh1 s1 /\
  main cli_lexd true reg w (mkArgs d (Some s) mx f false ty nm false true) = Done sh2 s2 /\
  List.length (as_pairs sh1) = 2 /\ List.length (as_pairs sh2) = 4 /\ st_body s1 <> st_body s2.
Proof. exists toy_reg, demo, ["k=D:3"], cli_text, (Some "10"), "txt", ["probe"], ["c"]. exact C68_timeit_refuted_w. Qed.
Print Assumptions C68_timeit_refuted.

(** A number of elements that is no int, and a format that there is not, are refused. *)
Theorem C68_bad_limit : forall D B lexd h5 (reg : registry D B) w a m,
  built lexd reg w a m -> (forall max, ~ limit a max) -> main lexd h5 reg w a = Stopped [].
Proof. intros D B. exact cli_bad_limit. Qed.
Print Assumptions C68_bad_limit.
Example C68_bad_limit_ex : forall max, ~ limit (cli_sel [] "4.0" "txt" false) max.
Proof. intros max H. apply limit_lex in H. vm_compute in H. discriminate. Qed.
Theorem C68_bad_format : forall D B lexd h5 (reg : registry D B) w a m,
  built lexd reg w a m -> (forall f, ~ format_as h5 (a_format a) f) -> main lexd h5 reg w a = Stopped [].
Proof. intros D B. exact cli_bad_format. Qed.
Print Assumptions C68_bad_format.
Example C68_bad_format_ex : forall f, ~ format_as false "hdf5,file=o.h5" f.
Proof. intros f H. apply make_factory_correct in H. vm_compute in H. discriminate. Qed.
(** A word of the command line means one thing at most. *)
Theorem C68_one_meaning : forall D B lexd h5 (reg : registry D B) w a m m' max max' f f',
  built lexd reg w a m -> built lexd reg w a m' -> limit a max -> limit a max' -> format_as h5 (a_format a) f -> format_as h5 (a_format a) f' ->
  m = m' /\ max = max' /\ f = f'.
Proof. intros D B. exact one_meaning. Qed.
Print Assumptions C68_one_meaning.
Example C68_one_meaning_ex : built cli_lexd toy_reg demo cli_a cli_m /\ limit cli_a 4 /\ format_as true (a_format cli_a) (FText (Some "o") 2).
Proof. split; [exact (cli_built false)|]. split; [exact (cli_limit false)|exact (cli_format true)]. Qed.

(** The least int is taken for a number of elements; then what happens is undefined. *)
Theorem C68_smallest_limit_refuted : exists (reg : registry nat (list string)) w a max, limit a max /\ main cli_lexd true reg w a = Cli_Model.Undefined.
Proof. exists toy_reg, demo. eexists _, _. exact C68_smallest_limit_refuted_w. Qed.
Print Assumptions C68_smallest_limit_refuted.

(** With the format hdf5 and no file nothing is shown, and this is no error. *)
Theorem C68_no_file : forall D B lexd (reg : registry D B) w a m max st t els r,
  built lexd reg w a m -> limit a max -> (INT_MIN < max)%Z -> format_as true (a_format a) (FH5 None) -> a_timeit a = false ->
  (N.of_nat (List.length (m_elems m)) <= SIZE_MAX)%N -> undirected (m_elems m) -> alloc_state m (TCfg [] []) = Ok st ->
  journey (m_elems m) (Z.leb 0 max) (visits (List.length (m_elems m)) 0 max) (mkSt 0 (Z.ltb max 0) (st_body st)) = (t, els, r) ->
  ended r [] (main lexd true reg w a).
Proof. intros D B. exact cli_no_file. Qed.
Print Assumptions C68_no_file.
Example C68_no_file_ex : format_as true "hdf5" (FH5 None).
Proof. apply make_factory_correct. reflexivity. Qed.
Theorem C68_no_file_refuted : exists (reg : registry nat (list string)) w d s mx ty nm st sh st',
  main cli_lexd true reg w (mkArgs d (Some s) mx "hdf5" false ty nm false false) = Done [] st /\
  main cli_lexd true reg w (mkArgs d (Some s) mx "hdf5,file=o.h5" false ty nm false false) = Done sh st' /\ List.length sh = 2.
Proof. exists toy_reg, demo, ["k=D:3"], cli_text, (Some "10"), ["probe"], ["c"]. exact C68_no_file_refuted_w. Qed.
Print Assumptions C68_no_file_refuted.

(** The format utest shows the arrays that are asked for; for a name that there is not it
    shows the first. *)
Theorem C68_known_arrays : forall arrays names k n i x,
  NoDup (map fst arrays) -> nth_error names k = Some n -> nth_error arrays i = Some x -> fst x = n -> printable x = true ->
  nth_error (utest_index arrays names) k = Some i.
Proof. exact utest_known. Qed.
Print Assumptions C68_known_arrays.
Example C68_known_arrays_ex : let arrays := [("state", (true, 2)); ("next_elem", (false, 0))] in
  NoDup (map fst arrays) /\ nth_error arrays 1 = Some ("next_elem", (false, 0)) /\ printable ("next_elem", (false, 0)) = true.
Proof. split; [|split; reflexivity]. repeat constructor; cbn; intros H; repeat destruct H as [H|H]; try discriminate; destruct H. Qed.
Theorem C68_unknown_array_refuted : exists arrays n n0 i x, ~ In n (map fst arrays) /\ utest_index arrays [n; n0] = [i; 1] /\ nth_error arrays i = Some x /\ fst x <> n.
Proof.
  exists [("state", (true, 2)); ("next_elem", (false, 0))], "stat", "next_elem", 0, ("state", (true, 2)).
  split; [|split; [exact C68_unknown_array_refuted_w|split; [reflexivity|discriminate]]]. intros [H|[H|[]]]; discriminate.
Qed.
Print Assumptions C68_unknown_array_refuted.
