(** C70-C73: locations in HDF5 files, loading, what a writer leaves, attributes. *)
From Coq Require Import List String Ascii Bool ZArith NArith Arith Lia.
From Verif Require Import SMap SMap_Proofs Dbl Util_Spec Machine_Model Array_Model Array_Spec Array3_Proofs
  Hdf_Model Hdf_Spec Hdf_Proofs Hdf2_Proofs Hdf3_Proofs.
Import ListNotations.
Open Scope string_scope.
Open Scope list_scope.

(** A text that is a file name, a slash and the path of a group opens that group. *)
Theorem C70_opens_the_group : forall fs spec f p root names g, names_file (fs_file fs) spec f p root -> p <> "" -> spells p names ->
  lies root names g -> is_group g -> comes_to (fun fuel => loader_open fuel fs spec) (HRet (mkLd root g)).
Proof. exact opened. Qed.
Print Assumptions C70_opens_the_group.
(** The file is in a directory, the group is two deep. *)
Example C70_opens_the_group_ex : names_file (fs_file (fs_of "dir/data.h5")) "dir/data.h5/runs//./first" "dir/data.h5" "runs//./first" tree0 /\
  spells "runs//./first" ["runs"; "first"] /\ lies tree0 ["runs"; "first"] (HGroup []).
Proof.
  split; [apply (only_named "dir/data.h5" "runs//./first" tree0); intros f' p' _ L ->; lia|].
  split; [exact (spell_parts "runs//./first")|apply lies_node; reflexivity].
Qed.

(** What is opened is a group of the file that the text names; or, if no part of the text
    before a slash is a file, one of the file of this very name. *)
Theorem C70_only_what_is_named : forall fs spec ld, comes_to (fun fuel => loader_open fuel fs spec) (HRet ld) ->
  (exists f p names, names_file (fs_file fs) spec f p (ld_root ld) /\ spells p names /\ lies (ld_root ld) names (ld_group ld)) \/
  (no_file (fs_file fs) spec /\ fs_file fs spec = Some (ld_root ld) /\
   exists names, spells spec names /\ lies (ld_root ld) names (ld_group ld)).
Proof. exact opened_named. Qed.
Print Assumptions C70_only_what_is_named.
Example C70_only_what_is_named_ex : comes_to (fun fuel => loader_open fuel (fs_of "dir/data.h5") "dir/data.h5/runs/first") (HRet (mkLd tree0 (HGroup []))).
Proof. apply (loader_comes 20); [reflexivity|discriminate]. Qed.

(** No such group, no name of a group after the slash, or no such file: an exception. *)
Theorem C70_refused : forall fs spec,
  (exists f p root, names_file (fs_file fs) spec f p root /\
    (p = "" \/ forall names g, spells p names -> lies root names g -> ~ is_group g)) \/
  (no_file (fs_file fs) spec /\ ~ absolute spec /\ fs_file fs spec = None) ->
  comes_to (fun fuel => loader_open fuel fs spec) (HExn RuntimeError).
Proof. exact not_opened. Qed.
Print Assumptions C70_refused.
(** A dataset is not a group. *)
Example C70_refused_ex : exists f p root, names_file (fs_file (fs_of "data.h5")) "data.h5/runs/grid" f p root /\
  (p = "" \/ forall names g, spells p names -> lies root names g -> ~ is_group g).
Proof.
  exists "data.h5", "runs/grid", tree0. split; [apply (only_named "data.h5" "runs/grid" tree0); intros f' p' _ L ->; lia|].
  right. intros names g Sp L. apply parts_spell in Sp. rewrite <- Sp in L. apply lies_node in L. injection L as <-. intros (l & E). discriminate E.
Qed.

(** The search for the file goes on for ever if and only if the text begins with a slash
    and no part of it before a slash is a file. *)
Theorem C70_hangs : forall fs spec, never_returns (fun fuel => loader_open fuel fs spec) <-> absolute spec /\ no_file (fs_file fs) spec.
Proof. exact hangs. Qed.
Print Assumptions C70_hangs.
Example C70_hangs_ex : absolute "/tmp/data.h5" /\ no_file (fs_file (fs_of "data.h5")) "/tmp/data.h5" /\
  ~ no_file (fs_file (fs_of "/tmp/data.h5")) "/tmp/data.h5/runs".
Proof.
  split; [exists "tmp/data.h5"; reflexivity|]. split.
  - intros f p E. cbn [fs_file fs_of]. unfold only. destruct (String.eqb_spec f "data.h5") as [->|]; [discriminate E|reflexivity].
  - intros H. specialize (H "/tmp/data.h5" "runs" eq_refl). discriminate H.
Qed.

(** The name of a file alone does not open its root group. *)
Theorem C70_file_alone_refuted : exists fs spec root, slashless spec /\ fs_file fs spec = Some root /\ is_group root /\
  comes_to (fun fuel => loader_open fuel fs spec) (HExn RuntimeError).
Proof. exact C70_file_alone_refuted_w. Qed.
Print Assumptions C70_file_alone_refuted.
(** Nor does the absolute name of a file that exists: it never returns. *)
Theorem C70_absolute_refuted : exists fs spec root, absolute spec /\ fs_file fs spec = Some root /\ is_group root /\
  never_returns (fun fuel => loader_open fuel fs spec).
Proof. exact C70_absolute_refuted_w. Qed.
Print Assumptions C70_absolute_refuted.

(** A dataset of at most two dimensions, none of them zero, is loaded as it is. *)
Theorem C71_loaded : forall fs ld name start names id s, name <> "" -> spells name names ->
  (absolute name -> start = ld_root ld) -> (~ absolute name -> start = ld_group ld) ->
  lies start names (HData id) -> nth_error (fs_sets fs) id = Some s ->
  List.length (d_ext s) <= 2 -> Forall (fun n => 0 < n) (d_ext s) ->
  exists m, loader_load fs ld name = HRet m /\ as_matrix s m.
Proof. exact loaded. Qed.
Print Assumptions C71_loaded.
Example C71_loaded_ex : exists m, spells "runs/grid" ["runs"; "grid"] /\ lies tree0 ["runs"; "grid"] (HData 0) /\
  loader_load (fs_of "data.h5") (mkLd tree0 tree0) "runs/grid" = HRet m /\ hm_rows m = 2 /\ hm_cols m = 3 /\ hm_at m 1 2 = Some (d_of_Z 12).
Proof.
  eexists. split; [exact (spell_parts "runs/grid")|]. split; [apply lies_node; reflexivity|]. split; [reflexivity|]. repeat split.
Qed.

(** No such dataset, or one of more than two dimensions: an exception. *)
Theorem C71_refused : forall fs ld name,
  (name = "" \/ exists names start, spells name names /\
    (absolute name -> start = ld_root ld) /\ (~ absolute name -> start = ld_group ld) /\
    forall id s, lies start names (HData id) -> nth_error (fs_sets fs) id = Some s -> 2 < List.length (d_ext s)) ->
  loader_load fs ld name = HExn RuntimeError.
Proof. exact load_refused. Qed.
Print Assumptions C71_refused.
Example C71_refused_ex : exists names start, spells "/runs/cube" names /\ (absolute "/runs/cube" -> start = tree0) /\
  (~ absolute "/runs/cube" -> start = HGroup []) /\
  forall id s, lies start names (HData id) -> nth_error (fs_sets (fs_of "data.h5")) id = Some s -> 2 < List.length (d_ext s).
Proof.
  exists ["runs"; "cube"], tree0. split; [exact (spell_parts "/runs/cube")|]. split; [reflexivity|].
  split; [intros H; exfalso; apply H; exists "runs/cube"; reflexivity|].
  intros id s L E. apply lies_node in L. injection L as <-. injection E as <-. cbn. lia.
Qed.

(** The program h5loadertest prints the dataset that its argument names, if that is in a
    group. *)
Theorem C71_program_partial : forall fs spec f p root names g name id s, names_file (fs_file fs) spec f p root -> p <> "" -> spells p names ->
  lies root names g -> is_group g -> name <> "" -> name <> "." -> slashless name -> lies g [name] (HData id) ->
  nth_error (fs_sets fs) id = Some s -> List.length (d_ext s) <= 2 -> Forall (fun n => 0 < n) (d_ext s) ->
  exists m, comes_to (fun fuel => loadertest fuel fs (spec ++ "/" ++ name)%string) (HRet (Some m)) /\ as_matrix s m.
Proof. exact program. Qed.
Print Assumptions C71_program_partial.
Example C71_program_partial_ex : names_file (fs_file (fs_of "data.h5")) "data.h5/runs" "data.h5" "runs" tree0 /\
  exists g, lies tree0 ["runs"] g /\ lies g ["grid"] (HData 0) /\ slashless "grid".
Proof.
  split; [apply (only_named "data.h5" "runs" tree0); intros f' p' _ L ->; lia|].
  eexists. split; [apply lies_node; reflexivity|]. split; [apply lies_node; reflexivity|apply slashless_dec; reflexivity].
Qed.

(** No exception leaves it: it prints a matrix, or a message, or does not end. *)
Theorem C71_program_catches : forall fuel fs spec e, loadertest fuel fs spec <> HExn e.
Proof. exact program_catches. Qed.
Print Assumptions C71_program_catches.
Example C71_program_catches_ex : exists e, loader_load (fs_of "data.h5") (mkLd tree0 tree0) "runs/none" = HExn e /\
  loadertest 10 (fs_of "data.h5") "data.h5/runs/none" = HRet None.
Proof. eexists. split; reflexivity. Qed.

(** It does not print a dataset of the root group, though its message gives
    file.h5/dataset as the example. *)
Theorem C71_program_refuted : exists fs root id s, fs_file fs "data.h5" = Some root /\ lies root ["dataset"] (HData id) /\
  nth_error (fs_sets fs) id = Some s /\ List.length (d_ext s) <= 2 /\ Forall (fun n => 0 < n) (d_ext s) /\
  comes_to (fun fuel => loadertest fuel fs "data.h5/dataset") (HRet None).
Proof. exact C71_program_refuted_w. Qed.
Print Assumptions C71_program_refuted.
(** A dataset without rows is not loaded as a matrix without rows. *)
Theorem C71_no_rows_refuted : exists fs ld name id s, lies (ld_group ld) [name] (HData id) /\ nth_error (fs_sets fs) id = Some s /\
  List.length (d_ext s) <= 2 /\ loader_load fs ld name = HExn BadIndex.
Proof. exact C71_no_rows_refuted_w. Qed.
Print Assumptions C71_no_rows_refuted.

(** What a writer stores in a group is loaded from the same location: numbers and vectors
    with one row for each state; matrices are refused. *)
Theorem C72_written_then_loaded_partial : forall ab kd hist fs spec f p root names pl, abi_ok ab -> simple kd -> hist <> [] ->
  Forall (fun h => holds ab kd (fst h) (snd h)) hist ->
  names_file (open_rw fs) spec f p root -> spells p names -> names <> [] -> lies root (removelast names) (HGroup pl) ->
  exists fs1 w1 fs2 w2 ld, comes_to (fun fuel => writer_open fuel fs writer0 spec) (HRet (fs1, w1)) /\
    writer_append_all ab (map (fun h => (kd, fst h)) hist) fs1 w1 = HRet (fs2, w2) /\
    comes_to (fun fuel => loader_open fuel fs2 spec) (HRet ld) /\
    (forall i nm sh den, nth_error (attributes kd) i = Some (nm, sh, den) -> List.length sh <= 1 ->
      exists m, loader_load fs2 ld nm = HRet m /\ rows_of (map snd hist) sh den m) /\
    (forall i nm sh den, nth_error (attributes kd) i = Some (nm, sh, den) -> 2 <= List.length sh ->
      loader_load fs2 ld nm = HExn RuntimeError).
Proof. exact written_loads. Qed.
Print Assumptions C72_written_then_loaded_partial.
(** Into a new group of the file, and into a file that is made. *)
Example C72_written_then_loaded_partial_ex :
  Forall (fun h => holds ab0 (KMoment 1) (fst h) (snd h)) [(m0, c0); (m0, c0)] /\
  names_file (open_rw (fs_of "data.h5")) "data.h5/runs/second" "data.h5" "runs/second" tree0 /\
  spells "runs/second" ["runs"; "second"] /\ (exists pl, lies tree0 (removelast ["runs"; "second"]) (HGroup pl)) /\
  names_file (open_rw (fs_of "data.h5")) "new.h5/run" "new.h5" "run" (HGroup []) /\ lies (HGroup []) (removelast ["run"]) (HGroup []).
Proof.
  split; [repeat constructor; apply m0_holds; intros n E; injection E as <-; lia|].
  split; [destruct (only_named_rw "data.h5" "runs/second") as [H|(p' & E)]; [discriminate|exact H|discriminate E]|].
  split; [exact (spell_parts "runs/second")|]. split; [eexists; apply lies_node; reflexivity|]. split; [|constructor].
  split; [reflexivity|]. split; [reflexivity|]. intros f' p' E L. unfold open_rw, fs_of, only. cbn [fs_file fs_new].
  destruct (String.eqb_spec f' "data.h5") as [->|]; [discriminate E|]. destruct (String.eqb_spec f' "new.h5") as [->|]; [cbn in L; lia|reflexivity].
Qed.

(** Opening a writer on a group empties that group, and leaves everything else in the file
    and all other files as they were. *)
Theorem C72_group_replaced : forall fs w spec f p root names pl, names_file (open_rw fs) spec f p root -> spells p names -> names <> [] ->
  lies root (removelast names) (HGroup pl) ->
  exists fs' w' root', comes_to (fun fuel => writer_open fuel fs w spec) (HRet (fs', w')) /\
    fs_file fs' f = Some root' /\ lies root' names (HGroup []) /\ elsewhere names root root' /\
    (forall g, g <> f -> fs_file fs' g = fs_file fs g) /\ fs_sets fs' = fs_sets fs.
Proof. exact replaced. Qed.
Print Assumptions C72_group_replaced.
Example C72_group_replaced_ex : names_file (open_rw (fs_of "data.h5")) "data.h5/runs/first" "data.h5" "runs/first" tree0 /\
  spells "runs/first" ["runs"; "first"] /\ (exists pl, lies tree0 (removelast ["runs"; "first"]) (HGroup pl)).
Proof.
  split; [destruct (only_named_rw "data.h5" "runs/first") as [H|(p' & E)]; [discriminate|exact H|discriminate E]|].
  split; [exact (spell_parts "runs/first")|eexists; apply lies_node; reflexivity].
Qed.

(** A group that cannot be made, or no file: an exception. *)
Theorem C72_refused : forall fs w spec,
  (exists f p root, names_file (open_rw fs) spec f p root /\
    forall names, spells p names -> names = [] \/ forall pl, ~ lies root (removelast names) (HGroup pl)) \/
  (no_file (open_rw fs) spec /\ ~ absolute spec /\ open_rw fs spec = None) ->
  comes_to (fun fuel => writer_open fuel fs w spec) (HExn RuntimeError).
Proof. exact writer_refused. Qed.
Print Assumptions C72_refused.
(** The group above is not there. *)
Example C72_refused_ex : exists f p root, names_file (open_rw (fs_of "data.h5")) "data.h5/other/first" f p root /\
    forall names, spells p names -> names = [] \/ forall pl, ~ lies root (removelast names) (HGroup pl).
Proof.
  exists "data.h5", "other/first", tree0. split.
  - destruct (only_named_rw "data.h5" "other/first") as [H|(p' & E)]; [discriminate|exact H|discriminate E].
  - intros names Sp. right. intros pl L. apply parts_spell in Sp. rewrite <- Sp in L. apply lies_node in L. discriminate L.
Qed.

(** The matrix of a MatrixState that was written cannot be loaded. *)
Theorem C72_matrices_refuted : exists ab m c fs spec fs1 w1 fs2 w2 ld, abi_ok ab /\ holds ab KMatrix m c /\
  comes_to (fun fuel => writer_open fuel fs writer0 spec) (HRet (fs1, w1)) /\
  writer_append ab (KMatrix, m) fs1 w1 = HRet (fs2, w2) /\
  comes_to (fun fuel => loader_open fuel fs2 spec) (HRet ld) /\ loader_load fs2 ld "state" = HExn RuntimeError.
Proof. exact C72_matrices_refuted_w. Qed.
Print Assumptions C72_matrices_refuted.
(** What was written to a file without naming a group cannot be loaded from there. *)
Theorem C72_root_refuted : exists ab k m c fs spec fs1 w1 fs2 w2, abi_ok ab /\ holds ab k m c /\
  comes_to (fun fuel => writer_open fuel fs writer0 spec) (HRet (fs1, w1)) /\ writer_append ab (k, m) fs1 w1 = HRet (fs2, w2) /\
  comes_to (fun fuel => loader_open fuel fs2 spec) (HExn RuntimeError).
Proof. exact C72_root_refuted_w. Qed.
Print Assumptions C72_root_refuted.
(** A writer given the absolute name of a file that can be made never returns. *)
Theorem C72_absolute_refuted : exists fs spec, absolute spec /\ fs_new fs spec = true /\
  never_returns (fun fuel => writer_open fuel fs writer0 spec).
Proof. exact C72_absolute_refuted_w. Qed.
Print Assumptions C72_absolute_refuted.
(** Writing to a file without naming a group works once, and then no more. *)
Theorem C72_again_refuted : exists ab k m c fs spec fs1 w1 fs2 w2 fs3 w3, abi_ok ab /\ holds ab k m c /\
  comes_to (fun fuel => writer_open fuel fs writer0 spec) (HRet (fs1, w1)) /\ writer_append ab (k, m) fs1 w1 = HRet (fs2, w2) /\
  comes_to (fun fuel => writer_open fuel fs2 writer0 spec) (HRet (fs3, w3)) /\ writer_append ab (k, m) fs3 w3 = HExn RuntimeError.
Proof. exact C72_again_refuted_w. Qed.
Print Assumptions C72_again_refuted.
(** A writer opened for another group goes on writing to the first. *)
Theorem C72_reopened_refuted : exists ab k m c fs fs1 w1 fs2 w2 fs3 w3 fs4 w4 root id s, abi_ok ab /\ holds ab k m c /\
  comes_to (fun fuel => writer_open fuel fs writer0 "out.h5/a") (HRet (fs1, w1)) /\ writer_append ab (k, m) fs1 w1 = HRet (fs2, w2) /\
  comes_to (fun fuel => writer_open fuel fs2 w2 "out.h5/b") (HRet (fs3, w3)) /\ writer_append ab (k, m) fs3 w3 = HRet (fs4, w4) /\
  fs_file fs4 "out.h5" = Some root /\ lies root ["b"] (HGroup []) /\
  lies root ["a"; "state"] (HData id) /\ nth_error (fs_sets fs4) id = Some s /\ d_ext s = [2; 6].
Proof. exact C72_reopened_refuted_w. Qed.
Print Assumptions C72_reopened_refuted.
(** A directory that does not exist is made as a file, with a group for the file. *)
Theorem C72_directory_refuted : exists fs fs1 w1 root, fs_file fs "results" = None /\
  comes_to (fun fuel => writer_open fuel fs writer0 "results/out.h5") (HRet (fs1, w1)) /\
  fs_file fs1 "results" = Some root /\ lies root ["out.h5"] (HGroup []) /\ fs_file fs1 "results/out.h5" = None.
Proof. exact C72_directory_refuted_w. Qed.
Print Assumptions C72_directory_refuted.

(** The value of an attribute is the text, if the memory of the text is at least 16 bytes
    long. *)
Theorem C73_value_kept_partial : forall b t, text_in b t -> 16 <= List.length b ->
  exists v, attr_bytes b = Some v /\ List.length v = Nat.max 16 (List.length t) /\ firstn (List.length t) v = t /\
    (List.length t < 16 -> nth_error v (List.length t) = Some "000"%char).
Proof. exact attribute_kept. Qed.
Print Assumptions C73_value_kept_partial.
Example C73_value_kept_partial_ex : text_in (list_ascii_of_string "MomentMatrix" ++ repeat "000"%char 4) (list_ascii_of_string "MomentMatrix").
Proof. exists (repeat "000"%char 3). split; [reflexivity|]. intros H. repeat (destruct H as [H|H]; [discriminate H|]). exact H. Qed.
(** A shorter one is read beyond its end. *)
Theorem C73_short_refuted : exists b t, text_in b t /\ t = list_ascii_of_string "Vector" /\ attr_bytes b = None.
Proof. exact C73_short_refuted_w. Qed.
Print Assumptions C73_short_refuted.
