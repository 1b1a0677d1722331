(** Numeric tables, the table cache and the index iterator. *)
From Coq Require Import Reals List String Ascii Bool ZArith Arith Lia.
From Verif Require Import SMap Dbl Config_Spec Lexer_Spec Number_Spec Machine_Model Util_Model Util_Spec
  Util_Proofs Util2_Proofs Util3_Proofs.
Import ListNotations.
Open Scope string_scope.
Open Scope nat_scope.
Open Scope list_scope.

(** A text whose lines are blank, headers, or rows of equally many decimal numbers
    gives a table with, for each number, the double nearest to it, and the columns
    of the last header. *)
Theorem C38_numbers_of_the_text : forall s ls names rows,
  made_of (txt s) ls -> describes ls names rows ->
  (forall a b, In a rows -> In b rows -> List.length a = List.length b) ->
  exists t, nt_read nt_empty (Some s) = (t, Some (Ok tt)) /\ Forall2 (Forall2 reads_as) rows (nt_rows t) /\
    forall name k, sfind name (nt_cols t) = Some k <-> named names name k.
Proof. exact read_described. Qed.
Print Assumptions C38_numbers_of_the_text.
Example C38_numbers_of_the_text_ex :
  let s := ("% a b" ++ cnl ++ "1 2.5" ++ cnl ++ " " ++ cnl ++ "-3e1 4" ++ ccr)%string in
  made_of (txt s) [txt "% a b"; txt "1 2.5"; txt " "; txt ("-3e1 4" ++ ccr)] /\
  describes [txt "% a b"; txt "1 2.5"; txt " "; txt ("-3e1 4" ++ ccr)] (Some [txt "a"; txt "b"])
    [[txt "1"; txt "2.5"]; [txt "-3e1"; txt "4"]] /\
  exists t, nt_read nt_empty (Some s) = (t, Some (Ok tt)) /\
    nt_rows t = [[done; ddiv (d_of_Z 5) (d_of_Z 2)]; [d_of_Z (-30); d_of_Z 4]] /\ sfind "b" (nt_cols t) = Some 1.
Proof.
  cbv zeta. split; [exact (made_lines (txt ("% a b" ++ cnl ++ "1 2.5" ++ cnl ++ " " ++ cnl ++ "-3e1 4" ++ ccr)))|]. split.
  - assert (Wb : Forall white [" "%char]) by (repeat constructor).
    assert (Wc : white c_cr) by (do 4 right; left; reflexivity).
    assert (Bb : blanks [" "%char]) by (repeat constructor).
    assert (Fit : forall p x, extract p = (Some x, []) -> fits p) by (intros p x H; apply fits_read; eauto).
    apply (d_header (txt "% a b") [txt "a"; txt "b"] _ None).
    { apply (hd_intro (txt " a b") _ []); [| |constructor].
      - apply (sp_word [" "%char] (txt "a") (txt " b")); auto; [discriminate| | |].
        + repeat constructor. intros [H|[H|[]]]; discriminate.
        + right. eexists. eexists. split; [reflexivity|left; reflexivity].
        + apply (sp_word [" "%char] (txt "b") []); auto; [discriminate| |constructor; constructor].
          repeat constructor. intros [H|[H|[]]]; discriminate.
      - intros a c E. change (txt " a b") with (txt " a " ++ ["b"%char]) in E. apply app_inj_tail in E as [_ <-]. discriminate. }
    apply d_row; [|discriminate|apply d_blank; [exact Bb|]; apply d_row; [|discriminate|constructor]].
    + apply (row_word [] (txt "1") (txt " 2.5")); [constructor|eapply Fit; vm_compute; reflexivity| |].
      * right. eexists. eexists. split; [reflexivity|left; reflexivity].
      * apply (row_word [" "%char] (txt "2.5") []); [exact Wb|eapply Fit; vm_compute; reflexivity|auto|repeat constructor].
    + apply (row_word [] (txt "-3e1") (txt (" 4" ++ ccr))); [constructor|eapply Fit; vm_compute; reflexivity| |].
      * right. eexists. eexists. split; [reflexivity|left; reflexivity].
      * apply (row_word [" "%char] (txt "4") (txt ccr)); [exact Wb|eapply Fit; vm_compute; reflexivity| |].
        -- right. exists c_cr, []. split; [reflexivity|exact Wc].
        -- constructor. constructor; [exact Wc|constructor].
  - eexists. split; [vm_compute; reflexivity|]. split; vm_compute; reflexivity.
Qed.

(** Rows of different lengths are refused. *)
Theorem C38_unequal_rows_refused : forall s ls names rows a b t,
  made_of (txt s) ls -> describes ls names rows -> In a rows -> In b rows -> List.length a <> List.length b ->
  snd (nt_read t (Some s)) = Some (Throw RuntimeError).
Proof. exact read_ragged. Qed.
Print Assumptions C38_unequal_rows_refused.
Example C38_unequal_rows_refused_ex :
  let s := ("1 2" ++ cnl ++ "3")%string in
  made_of (txt s) [txt "1 2"; txt "3"] /\ describes [txt "1 2"; txt "3"] None [[txt "1"; txt "2"]; [txt "3"]] /\
  snd (nt_read nt_empty (Some s)) = Some (Throw RuntimeError).
Proof.
  cbv zeta. split; [exact (made_lines (txt ("1 2" ++ cnl ++ "3")))|]. split; [|vm_compute; reflexivity].
  assert (Fit : forall p x, extract p = (Some x, []) -> fits p) by (intros p x H; apply fits_read; eauto).
  apply d_row; [|discriminate|apply d_row; [|discriminate|constructor]].
  - apply (row_word [] (txt "1") (txt " 2")); [constructor|eapply Fit; vm_compute; reflexivity| |].
    + right. eexists. eexists. split; [reflexivity|left; reflexivity].
    + apply (row_word [" "%char] (txt "2") []); [repeat constructor|eapply Fit; vm_compute; reflexivity|auto|repeat constructor].
  - apply (row_word [] (txt "3") []); [constructor|eapply Fit; vm_compute; reflexivity|auto|repeat constructor].
Qed.

(** Whatever the text: reading ends, with std::runtime_error and the old numbers, or
    with one row per data line, all of one length; the row has the numbers of the
    line from left to right, each as long as possible and read as the nearest
    double, and nothing is skipped but white space and, at the very end of the line,
    what is not a number that fits. *)
Theorem C38_any_text_partial : forall t s ls t' o,
  made_of (txt s) ls -> nt_read t (Some s) = (t', o) ->
  (o = Some (Throw RuntimeError) /\ nt_rows t' = nt_rows t) \/
  (o = Some (Ok tt) /\ exists ds, data_lines ls ds /\
    (ds <> [] -> Forall2 line_numbers ds (nt_rows t') /\
       forall x y, In x (nt_rows t') -> In y (nt_rows t') -> List.length x = List.length y) /\
    (ds = [] -> nt_rows t = [] -> nt_rows t' = [])).
Proof. exact read_any. Qed.
Print Assumptions C38_any_text_partial.
Example C38_any_text_partial_ex :
  (forall s, made_of (txt s) (lines (txt s))) /\
  snd (nt_read nt_empty (Some "1 x")) = Some (Throw RuntimeError) /\
  nt_read nt_empty (Some "1.5.5 +2 3e") = (mkNT [] [[ddiv (d_of_Z 3) (d_of_Z 2); ddiv done (d_of_Z 2); d_of_Z 2]], Some (Ok tt)).
Proof. split; [intros s; apply made_lines|]. split; vm_compute; reflexivity. Qed.

(** The number that can not be read may be at the end of a line: it is left out in
    silence. *)
Theorem C38_last_word_dropped_refuted : exists s ls l t, made_of (txt s) ls /\ data_lines ls [l] /\
  nt_read nt_empty (Some s) = (t, Some (Ok tt)) /\
  ~ exists ws, row l ws /\ Forall2 (Forall2 reads_as) [ws] (nt_rows t).
Proof. exact C38_last_word_dropped_refuted_w. Qed.
Print Assumptions C38_last_word_dropped_refuted.
Example C38_last_word_dropped_refuted_ex :
  nt_read nt_empty (Some "1 2e") = nt_read nt_empty (Some "1") /\
  nt_read nt_empty (Some "1 1e999") = nt_read nt_empty (Some "1") /\
  snd (nt_read nt_empty (Some "1 2e ")) = Some (Throw RuntimeError).
Proof. repeat split; vm_compute; reflexivity. Qed.

(** Blank lines do not matter. *)
Theorem C38_blank_lines : forall t s1 s2 a l b,
  blanks l -> made_of (txt s1) (a ++ b) -> made_of (txt s2) (a ++ l :: b) ->
  nt_read t (Some s1) = nt_read t (Some s2).
Proof. exact read_blank_line. Qed.
Print Assumptions C38_blank_lines.
Example C38_blank_lines_ex :
  blanks (txt "  ") /\ made_of (txt ("1" ++ cnl ++ "2")) ([txt "1"] ++ [txt "2"]) /\
  made_of (txt ("1" ++ cnl ++ "  " ++ cnl ++ "2")) ([txt "1"] ++ txt "  " :: [txt "2"]).
Proof.
  split; [repeat constructor|]. split; [exact (made_lines (txt ("1" ++ cnl ++ "2")))|].
  exact (made_lines (txt ("1" ++ cnl ++ "  " ++ cnl ++ "2"))).
Qed.

(** With the line ends of Windows a blank line does matter. *)
Theorem C38_crlf_blank_line_refuted : exists ls s1 s2 t,
  made_of (txt s1) ls /\ made_of (txt s2) (map (fun l => l ++ [c_cr]) ls) /\
  nt_read nt_empty (Some s1) = (t, Some (Ok tt)) /\ snd (nt_read nt_empty (Some s2)) = Some (Throw RuntimeError).
Proof. exact C38_crlf_blank_line_refuted_w. Qed.
Print Assumptions C38_crlf_blank_line_refuted.
Example C38_crlf_blank_line_refuted_ex :
  nt_read nt_empty (Some ("1" ++ ccr ++ cnl ++ "2" ++ ccr ++ cnl)%string) = nt_read nt_empty (Some ("1" ++ cnl ++ "2" ++ cnl)%string).
Proof. vm_compute. reflexivity. Qed.

(** A later line that starts with % replaces the column names. *)
Theorem C38_comment_line_refuted : exists s1 s2 ls note t1 t2,
  made_of (txt s1) ls /\ made_of (txt s2) (ls ++ [note]) /\ (exists r, note = "%"%char :: r) /\
  nt_read nt_empty (Some s1) = (t1, Some (Ok tt)) /\ nt_read nt_empty (Some s2) = (t2, Some (Ok tt)) /\
  sfind "b" (nt_cols t1) = Some 1 /\ sfind "b" (nt_cols t2) = None.
Proof. exact C38_comment_line_refuted_w. Qed.
Print Assumptions C38_comment_line_refuted.
Example C38_comment_line_refuted_ex : exists t,
  nt_read nt_empty (Some ("% a b" ++ cnl ++ "1 2" ++ cnl ++ "% end")%string) = (t, Some (Ok tt)) /\ sfind "end" (nt_cols t) = Some 0.
Proof. eexists. split; vm_compute; reflexivity. Qed.

(** A table that is read twice keeps column names, and, if the second text has no
    row, a matrix of zeros. *)
Theorem C38_reused_table_refuted : exists s1 s2 t1 t2 t, nt_read nt_empty (Some s1) = (t1, Some (Ok tt)) /\
  nt_read t1 (Some s2) = (t2, Some (Ok tt)) /\ nt_read nt_empty (Some s2) = (t, Some (Ok tt)) /\
  sfind "a" (nt_cols t2) = Some 0 /\ sfind "a" (nt_cols t) = None /\
  nt_rows t2 = [[dzero]] /\ nt_rows t = [].
Proof. exact C38_reused_table_refuted_w. Qed.
Print Assumptions C38_reused_table_refuted.
Example C38_reused_table_refuted_ex : exists t1,
  nt_read nt_empty (Some "1") = (t1, Some (Ok tt)) /\ nt_read t1 (Some "2") = nt_read nt_empty (Some "2").
Proof. eexists. split; vm_compute; reflexivity. Qed.

(** readvec() cuts a series of numbers into rows. *)
Theorem C38_series_in_rows : forall t l n, (0 < n)%Z -> (Z.of_nat (List.length l) mod n = 0)%Z ->
  exists t', readvec t l n = Ok t' /\ nt_cols t' = nt_cols t /\ List.concat (nt_rows t') = l /\
    Forall (fun r => Z.of_nat (List.length r) = n) (nt_rows t').
Proof. exact readvec_full. Qed.
Print Assumptions C38_series_in_rows.
Example C38_series_in_rows_ex :
  readvec nt_empty [done; dzero; done; done] 2 = Ok (mkNT [] [[done; dzero]; [done; done]]).
Proof. reflexivity. Qed.

(** If the last row is incomplete it writes out of bounds. *)
Theorem C38_series_incomplete_refuted : exists t l n, (0 < n)%Z /\ l <> [] /\ readvec t l n = Throw Abort.
Proof. exists nt_empty, [done; dzero; done], 2%Z. repeat split; discriminate. Qed.
Print Assumptions C38_series_incomplete_refuted.
Example C38_series_incomplete_refuted_ex : forall t l n, (0 < n)%Z -> (Z.of_nat (List.length l) mod n <> 0)%Z ->
  readvec t l n = Throw Abort.
Proof. exact readvec_part. Qed.

(** If files do not change while they are fetched, and what is written to a file
    after it was fetched has a later modification time, fetch() gives what is in the
    file now. *)
Theorem C39_cache_is_current_partial : forall h p, undisturbed h -> dated h -> is_absolute p = true ->
  snd (tc_step (tc_run h) (OFetch p [] [])) = content (file_after h p).
Proof. exact fetch_current. Qed.
Print Assumptions C39_cache_is_current_partial.
Example C39_cache_is_current_partial_ex :
  let h := [OFile (FWrite "/t" 5 "1"); OFetch "/t" [] []; OFile (FWrite "/t" 6 "2"); OFetch "/t" [] []] in
  undisturbed h /\ dated h /\ content (file_after h "/t") = Some (Ok (mkNT [] [[d_of_Z 2]])).
Proof.
  cbv zeta. split; [|split; [|vm_compute; reflexivity]].
  - intros p d1 d2 H. repeat (destruct H as [H|H]; [try discriminate; injection H as <- <- <-; auto|]). destruct H.
  - intros a p d1 d2 b m s c E m0 s0 F. destruct a as [|x a]; [discriminate|]. injection E as <- E.
    destruct a as [|x a].
    + injection E as <- _ _ E. vm_compute in F. injection F as <- _. destruct b as [|y b]; [injection E as <- _ _; lia|].
      injection E as _ E. destruct b as [|z b]; [discriminate|]. injection E as _ E. destruct b; discriminate.
    + injection E as <- E. destruct a as [|x a]; [discriminate|]. injection E as <- E.
      destruct a as [|x a]; [injection E as _ _ _ E; destruct b; discriminate|]. injection E as _ E. destruct a; discriminate.
Qed.

(** A relative path is refused. *)
Theorem C39_relative_path_refused : forall f1 f2 f3 ch p,
  is_absolute p = false -> fetch f1 f2 f3 ch p = (ch, Some (Throw LogicError)).
Proof. exact fetch_relative. Qed.
Print Assumptions C39_relative_path_refused.
Example C39_relative_path_refused_ex : is_absolute "data/t.txt" = false /\ is_absolute "/data/t.txt" = true.
Proof. split; reflexivity. Qed.

(** Modification times are in seconds: a file that is rewritten within the second is
    not read again. *)
Theorem C39_same_second_refuted : exists h p, undisturbed h /\ is_absolute p = true /\
  (forall a m s b m' s' c, h = a ++ OFile (FWrite p m s) :: b ++ OFile (FWrite p m' s') :: c -> (m <= m')%Z) /\
  snd (tc_step (tc_run h) (OFetch p [] [])) <> content (file_after h p).
Proof. exact C39_same_second_refuted_w. Qed.
Print Assumptions C39_same_second_refuted.
Example C39_same_second_refuted_ex :
  snd (tc_step (tc_run [OFile (FWrite "/t" 5 "1"); OFetch "/t" [] []; OFile (FWrite "/t" 5 "2")]) (OFetch "/t" [] []))
    = Some (Ok (mkNT [] [[done]])).
Proof. vm_compute. reflexivity. Qed.

(** A file replaced by an older one is not read. *)
Theorem C39_older_file_refuted : exists h p m m', undisturbed h /\ is_absolute p = true /\
  h = [OFile (FWrite p m "1"); OFetch p [] []; OFile (FWrite p m' "2")] /\ (m' < m)%Z /\
  snd (tc_step (tc_run h) (OFetch p [] [])) <> content (file_after h p).
Proof. exact C39_older_file_refuted_w. Qed.
Print Assumptions C39_older_file_refuted.
Example C39_older_file_refuted_ex :
  snd (tc_step (tc_run [OFile (FWrite "/t" 5 "1"); OFetch "/t" [] []; OFile (FWrite "/t" 4 "2"); OClear]) (OFetch "/t" [] []))
    = Some (Ok (mkNT [] [[d_of_Z 2]])).
Proof. vm_compute. reflexivity. Qed.

(** A file that is rewritten between reading it and asking for its modification time
    again is taken for the new one. *)
Theorem C39_changed_meanwhile_refuted : exists h p m m' s, dated h /\ is_absolute p = true /\
  h = [OFile (FWrite p m "1"); OFetch p [] [FWrite p m' s]] /\ (m < m')%Z /\
  snd (tc_step (tc_run h) (OFetch p [] [])) <> content (file_after h p).
Proof. exact C39_changed_meanwhile_refuted_w. Qed.
Print Assumptions C39_changed_meanwhile_refuted.
Example C39_changed_meanwhile_refuted_ex :
  snd (tc_step (tc_run [OFile (FWrite "/t" 5 "1"); OFetch "/t" [FWrite "/t" 6 "2"] []]) (OFetch "/t" [] []))
    = Some (Ok (mkNT [] [[d_of_Z 2]])).
Proof. vm_compute. reflexivity. Qed.

(** With no empty dimension the iterator visits every tuple within the limits once,
    no other, and ends. *)
Theorem C40_every_index_once : forall lim fuel, Forall (lt 0) lim -> ndprod lim <= fuel ->
  exists r, nd_visit fuel lim = Some r /\ NoDup r /\ forall i, In i r <-> within lim i.
Proof. exact nd_visit_spec. Qed.
Print Assumptions C40_every_index_once.
Example C40_every_index_once_ex :
  nd_visit 6 [2; 3] = Some [[0; 0]; [1; 0]; [0; 1]; [1; 1]; [0; 2]; [1; 2]] /\ nd_visit 1 [] = Some [[]].
Proof. split; reflexivity. Qed.

(** With an empty dimension it visits tuples that are out of range. *)
Theorem C40_empty_dimension_refuted : exists lim r i,
  nd_visit 10 lim = Some r /\ In i r /\ ~ within lim i /\ ndprod lim = 0.
Proof. exact C40_empty_dimension_refuted_w. Qed.
Print Assumptions C40_empty_dimension_refuted.
Example C40_empty_dimension_refuted_ex : nd_visit 1 [0] = Some [[0]].
Proof. reflexivity. Qed.
