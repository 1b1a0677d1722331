(** Proofs about h5loadertest and attributes, and witnesses. *)
From Coq Require Import List String Ascii Bool ZArith NArith Arith Lia.
From Verif Require Import SMap SMap_Proofs Dbl Util_Spec Machine_Model Array_Model Array_Spec Array3_Proofs Hdf_Model Hdf_Spec Hdf_Proofs Hdf2_Proofs.
Import ListNotations.
Open Scope string_scope.
Open Scope list_scope.

(** ** h5loadertest *)
Lemma find_last_app a b : slashless b -> find_last (a ++ "/" ++ b)%string None = Some (String.length a).
Proof.
  intros Hb. unfold find_last. assert (H : forall i, last_slash i (a ++ "/" ++ b)%string = Some (i + String.length a)).
  { induction a as [|c a IH]; intros i.
    - cbn [append last_slash]. rewrite (last_none_conv (S i) b Hb). cbn. f_equal. lia.
    - rewrite app_cons_s. cbn [last_slash]. rewrite IH. cbn [String.length]. f_equal. lia. }
  rewrite H. reflexivity.
Qed.
Lemma program fs spec f p root names g name id s : names_file (fs_file fs) spec f p root -> p <> "" -> spells p names ->
  lies root names g -> is_group g -> name <> "" -> name <> "." -> slashless name -> lies g [name] (HData id) ->
  nth_error (fs_sets fs) id = Some s -> List.length (d_ext s) <= 2 -> Forall (fun n => 0 < n) (d_ext s) ->
  exists m, comes_to (fun fuel => loadertest fuel fs (spec ++ "/" ++ name)%string) (HRet (Some m)) /\ as_matrix s m.
Proof.
  intros N Np Sp L G Nn Nd Sl Ld Es Len Pos.
  destruct (opened fs spec f p root names g N Np Sp L G) as (_ & n & O).
  assert (Spn : spells name [name]).
  { exists [name]. split; [congruence|]. split; [reflexivity|]. split; [constructor; [exact Sl|constructor]|].
    cbn [filter]. destruct (String.eqb_spec name ""); [contradiction|]. destruct (String.eqb_spec name "."); [contradiction|reflexivity]. }
  assert (Na : ~ absolute name) by (intros (q & Q); exact (Sl "" q Q)).
  destruct (loaded fs (mkLd root g) name g [name] id s) as (m & Lm & Am); auto; [intros; contradiction|].
  exists m. split; [|exact Am]. split; [discriminate|]. exists n. intros fuel Lf. unfold loadertest.
  rewrite (find_last_app spec name Sl). rewrite take_app. rewrite (O fuel Lf).
  change ("/" ++ name)%string with (String "/" name). rewrite skip_app. rewrite Lm. reflexivity.
Qed.

(** ** Fuel *)
Lemma find_file_mono {A} (openf : string -> option A) spec : forall n sep fuel o, find_file n openf spec sep = o -> o <> HLoop -> n <= fuel ->
  find_file fuel openf spec sep = o.
Proof.
  induction n as [|n IH]; intros sep fuel o E N L; [cbn in E; congruence|]. destruct fuel as [|fuel]; [lia|].
  cbn [find_file] in E |- *. destruct (openf _); [exact E|]. destruct (find_last _ _); [|exact E]. apply IH; auto; lia.
Qed.
Lemma loader_comes n fs spec o : loader_open n fs spec = o -> o <> HLoop -> comes_to (fun fuel => loader_open fuel fs spec) o.
Proof.
  intros E N. split; [exact N|]. exists n. intros fuel L. unfold loader_open in *.
  rewrite (find_file_mono _ _ n None fuel (find_file n (fs_file fs) spec None) eq_refl); [exact E| |exact L].
  intros Q. rewrite Q in E. cbn in E. congruence.
Qed.
Lemma writer_comes n fs w spec o : writer_open n fs w spec = o -> o <> HLoop -> comes_to (fun fuel => writer_open fuel fs w spec) o.
Proof.
  intros E N. split; [exact N|]. exists n. intros fuel L. unfold writer_open in *.
  rewrite (find_file_mono _ _ n None fuel (find_file n (open_rw fs) spec None) eq_refl); [exact E| |exact L].
  intros Q. rewrite Q in E. cbn in E. congruence.
Qed.
Lemma program_comes n fs spec o : loadertest n fs spec = o -> o <> HLoop -> comes_to (fun fuel => loadertest fuel fs spec) o.
Proof.
  intros E N. split; [exact N|]. exists n. intros fuel L. unfold loadertest in *. destruct (find_last spec None) as [k|]; [|exact E].
  destruct (loader_comes n fs (take k spec) (loader_open n fs (take k spec)) eq_refl) as (_ & n' & H).
  { intros Q. rewrite Q in E. congruence. }
  assert (Q : loader_open fuel fs (take k spec) = loader_open n fs (take k spec)).
  { unfold loader_open in *. rewrite (find_file_mono _ _ n None fuel (find_file n (fs_file fs) (take k spec) None) eq_refl); [reflexivity| |exact L].
    intros Q. rewrite Q in E. cbn in E. congruence. }
  rewrite Q. exact E.
Qed.

(** ** Attributes *)
Lemma strlen_text b t : text_in b t -> strlen b = Some (List.length t).
Proof.
  intros (r & -> & N). induction t as [|c t IH]; [reflexivity|]. cbn [app strlen List.length].
  destruct (Ascii.eqb_spec c "000") as [->|Nc]; [exfalso; apply N; left; reflexivity|]. rewrite IH; [reflexivity|].
  intros H. apply N. right. exact H.
Qed.
Lemma attribute_kept b t : text_in b t -> 16 <= List.length b ->
  exists v, attr_bytes b = Some v /\ List.length v = Nat.max 16 (List.length t) /\ firstn (List.length t) v = t /\
    (List.length t < 16 -> nth_error v (List.length t) = Some "000"%char).
Proof.
  intros T L. unfold attr_bytes. rewrite (strlen_text b t T). destruct T as (r & -> & N).
  assert (Lb : Nat.max 16 (List.length t) <= List.length (t ++ "000"%char :: r)) by (rewrite app_length in *; cbn [List.length] in *; lia).
  destruct (Nat.leb_spec (Nat.max 16 (List.length t)) (List.length (t ++ "000"%char :: r))); [|lia].
  eexists. split; [reflexivity|]. split; [rewrite firstn_length; lia|]. split.
  - rewrite firstn_firstn. replace (Nat.min _ _) with (List.length t) by lia. rewrite firstn_app, Nat.sub_diag, firstn_all, app_nil_r. reflexivity.
  - intros Lt. replace (Nat.max 16 (List.length t)) with 16 by lia.
    assert (E : nth_error (t ++ "000"%char :: r) (List.length t) = Some "000"%char).
    { rewrite nth_error_app2 by lia. rewrite Nat.sub_diag. reflexivity. }
    rewrite app_length in L. cbn [List.length] in L. generalize dependent (t ++ "000"%char :: r). clear N. intros b H Lb E.
    rewrite <- E. pose proof (firstn_skipn 16 b) as Q. rewrite <- Q at 2. rewrite nth_error_app1; [reflexivity|].
    rewrite firstn_length. lia.
Qed.

(** ** Witnesses *)
Lemma only_no_file f n : no_file (only f n) f.
Proof.
  intros g p E. unfold only. destruct (String.eqb_spec g f) as [->|]; [|reflexivity]. exfalso.
  assert (L : String.length f = String.length (f ++ "/" ++ p)%string) by (rewrite <- E; reflexivity). rewrite len_app in L. cbn in L. lia.
Qed.
Lemma C70_file_alone_refuted_w : exists fs spec root, slashless spec /\ fs_file fs spec = Some root /\ is_group root /\
  comes_to (fun fuel => loader_open fuel fs spec) (HExn RuntimeError).
Proof.
  exists (fs_of "data.h5"), "data.h5", tree0. split; [apply slashless_dec; reflexivity|]. split; [reflexivity|].
  split; [eexists; reflexivity|]. apply (loader_comes 5); [reflexivity|discriminate].
Qed.
Lemma C70_absolute_refuted_w : exists fs spec root, absolute spec /\ fs_file fs spec = Some root /\ is_group root /\
  never_returns (fun fuel => loader_open fuel fs spec).
Proof.
  exists (fs_of "/tmp/data.h5"), "/tmp/data.h5", tree0. split; [exists "tmp/data.h5"; reflexivity|]. split; [reflexivity|].
  split; [eexists; reflexivity|]. apply hangs. split; [exists "tmp/data.h5"; reflexivity|]. apply only_no_file.
Qed.
Lemma C71_no_rows_refuted_w : exists fs ld name id s, lies (ld_group ld) [name] (HData id) /\ nth_error (fs_sets fs) id = Some s /\
  List.length (d_ext s) <= 2 /\ loader_load fs ld name = HExn BadIndex.
Proof.
  exists (fs_of "data.h5"), (mkLd tree0 (HGroup [("none", HData 2)])), "none", 2, none3.
  split; [apply lies_node; reflexivity|]. split; [reflexivity|]. split; [cbn; lia|reflexivity].
Qed.
Definition flat_fs : h5fs := mkFS (only "data.h5" (HGroup [("dataset", HData 0)])) (fun _ => false) [grid2].
Lemma C71_program_refuted_w : exists fs root id s, fs_file fs "data.h5" = Some root /\ lies root ["dataset"] (HData id) /\
  nth_error (fs_sets fs) id = Some s /\ List.length (d_ext s) <= 2 /\ Forall (fun n => 0 < n) (d_ext s) /\
  comes_to (fun fuel => loadertest fuel fs "data.h5/dataset") (HRet None).
Proof.
  exists flat_fs, (HGroup [("dataset", HData 0)]), 0, grid2. split; [reflexivity|]. split; [apply lies_node; reflexivity|].
  split; [reflexivity|]. split; [cbn; lia|]. split; [repeat constructor|]. apply (program_comes 5); [reflexivity|discriminate].
Qed.

Definition empty_fs : h5fs := mkFS (fun _ => None) (fun g => String.eqb g "out.h5" || String.eqb g "results" || String.eqb g "/tmp/out.h5")%bool [].
Definition ret {A} (r : hout A) (d : A) : A := match r with HRet a => a | _ => d end.
Definition after_open (fs : h5fs) (w : writer) (spec : string) : h5fs * writer := ret (writer_open 20 fs w spec) (fs, w).
Definition after_append (k : kind) (t : h5fs * writer) : h5fs * writer := ret (writer_append ab0 (k, m0) (fst t) (snd t)) t.
Lemma C72_matrices_refuted_w : exists ab m c fs spec fs1 w1 fs2 w2 ld, abi_ok ab /\ holds ab KMatrix m c /\
  comes_to (fun fuel => writer_open fuel fs writer0 spec) (HRet (fs1, w1)) /\
  writer_append ab (KMatrix, m) fs1 w1 = HRet (fs2, w2) /\
  comes_to (fun fuel => loader_open fuel fs2 spec) (HRet ld) /\ loader_load fs2 ld "state" = HExn RuntimeError.
Proof.
  exists ab0, m0, c0, empty_fs, "out.h5/run".
  set (t1 := after_open empty_fs writer0 "out.h5/run"). set (t2 := after_append KMatrix t1).
  exists (fst t1), (snd t1), (fst t2), (snd t2), (ret (loader_open 20 (fst t2) "out.h5/run") (mkLd (HData 0) (HData 0))).
  split; [exact ab0_ok|]. split; [apply m0_holds; discriminate|].
  split; [apply (writer_comes 20); [reflexivity|discriminate]|].
  split; [reflexivity|]. split; [apply (loader_comes 20); [reflexivity|discriminate]|reflexivity].
Qed.
Lemma C72_root_refuted_w : exists ab k m c fs spec fs1 w1 fs2 w2, abi_ok ab /\ holds ab k m c /\
  comes_to (fun fuel => writer_open fuel fs writer0 spec) (HRet (fs1, w1)) /\ writer_append ab (k, m) fs1 w1 = HRet (fs2, w2) /\
  comes_to (fun fuel => loader_open fuel fs2 spec) (HExn RuntimeError).
Proof.
  exists ab0, KVector, m0, c0, empty_fs, "out.h5".
  set (t1 := after_open empty_fs writer0 "out.h5"). set (t2 := after_append KVector t1).
  exists (fst t1), (snd t1), (fst t2), (snd t2).
  split; [exact ab0_ok|]. split; [apply m0_holds; discriminate|].
  split; [apply (writer_comes 20); [reflexivity|discriminate]|].
  split; [reflexivity|]. apply (loader_comes 20); [reflexivity|discriminate].
Qed.
Lemma C72_absolute_refuted_w : exists fs spec, absolute spec /\ fs_new fs spec = true /\
  never_returns (fun fuel => writer_open fuel fs writer0 spec).
Proof.
  exists empty_fs, "/tmp/out.h5". split; [exists "tmp/out.h5"; reflexivity|]. split; [reflexivity|].
  apply writer_hangs. split; [exists "tmp/out.h5"; reflexivity|]. intros f p E. unfold open_rw, empty_fs. cbn [fs_file fs_new].
  destruct (String.eqb_spec f "out.h5") as [->|]; [discriminate E|]. destruct (String.eqb_spec f "results") as [->|]; [discriminate E|].
  destruct (String.eqb_spec f "/tmp/out.h5") as [->|]; [discriminate E|]. reflexivity.
Qed.
Lemma C72_again_refuted_w : exists ab k m c fs spec fs1 w1 fs2 w2 fs3 w3, abi_ok ab /\ holds ab k m c /\
  comes_to (fun fuel => writer_open fuel fs writer0 spec) (HRet (fs1, w1)) /\ writer_append ab (k, m) fs1 w1 = HRet (fs2, w2) /\
  comes_to (fun fuel => writer_open fuel fs2 writer0 spec) (HRet (fs3, w3)) /\ writer_append ab (k, m) fs3 w3 = HExn RuntimeError.
Proof.
  exists ab0, KVector, m0, c0, empty_fs, "out.h5".
  set (t1 := after_open empty_fs writer0 "out.h5"). set (t2 := after_append KVector t1). set (t3 := after_open (fst t2) writer0 "out.h5").
  exists (fst t1), (snd t1), (fst t2), (snd t2), (fst t3), (snd t3).
  split; [exact ab0_ok|]. split; [apply m0_holds; discriminate|].
  split; [apply (writer_comes 20); [reflexivity|discriminate]|].
  split; [reflexivity|]. split; [apply (writer_comes 20); [reflexivity|discriminate]|]. reflexivity.
Qed.
Lemma C72_reopened_refuted_w : exists ab k m c fs fs1 w1 fs2 w2 fs3 w3 fs4 w4 root id s, abi_ok ab /\ holds ab k m c /\
  comes_to (fun fuel => writer_open fuel fs writer0 "out.h5/a") (HRet (fs1, w1)) /\ writer_append ab (k, m) fs1 w1 = HRet (fs2, w2) /\
  comes_to (fun fuel => writer_open fuel fs2 w2 "out.h5/b") (HRet (fs3, w3)) /\ writer_append ab (k, m) fs3 w3 = HRet (fs4, w4) /\
  fs_file fs4 "out.h5" = Some root /\ lies root ["b"] (HGroup []) /\
  lies root ["a"; "state"] (HData id) /\ nth_error (fs_sets fs4) id = Some s /\ d_ext s = [2; 6].
Proof.
  exists ab0, KVector, m0, c0, empty_fs.
  set (t1 := after_open empty_fs writer0 "out.h5/a"). set (t2 := after_append KVector t1).
  set (t3 := after_open (fst t2) (snd t2) "out.h5/b"). set (t4 := after_append KVector t3).
  exists (fst t1), (snd t1), (fst t2), (snd t2), (fst t3), (snd t3), (fst t4), (snd t4).
  exists (match fs_file (fst t4) "out.h5" with Some r => r | None => HData 0 end), 0,
    (match nth_error (fs_sets (fst t4)) 0 with Some s => s | None => none3 end).
  split; [exact ab0_ok|]. split; [apply m0_holds; discriminate|].
  split; [apply (writer_comes 20); [reflexivity|discriminate]|].
  split; [reflexivity|]. split; [apply (writer_comes 20); [reflexivity|discriminate]|]. split; [reflexivity|].
  split; [reflexivity|]. split; [apply lies_node; reflexivity|]. split; [apply lies_node; reflexivity|]. split; reflexivity.
Qed.
Lemma C72_directory_refuted_w : exists fs fs1 w1 root, fs_file fs "results" = None /\
  comes_to (fun fuel => writer_open fuel fs writer0 "results/out.h5") (HRet (fs1, w1)) /\
  fs_file fs1 "results" = Some root /\ lies root ["out.h5"] (HGroup []) /\ fs_file fs1 "results/out.h5" = None.
Proof.
  exists empty_fs. set (t1 := after_open empty_fs writer0 "results/out.h5").
  exists (fst t1), (snd t1), (HGroup [("out.h5", HGroup [])]). split; [reflexivity|].
  split; [apply (writer_comes 20); [reflexivity|discriminate]|]. split; [reflexivity|]. split; [apply lies_node; reflexivity|reflexivity].
Qed.
Lemma C73_short_refuted_w : exists b t, text_in b t /\ t = list_ascii_of_string "Vector" /\ attr_bytes b = None.
Proof.
  exists (list_ascii_of_string "Vector" ++ ["000"%char]), (list_ascii_of_string "Vector").
  split; [exists []; split; [reflexivity|]; intros H; repeat (destruct H as [H|H]; [discriminate H|]); exact H|]. split; reflexivity.
Qed.

(** ** The program *)
Lemma program_catches fuel fs spec e : loadertest fuel fs spec <> HExn e.
Proof.
  unfold loadertest. destruct (find_last spec None) as [k|]; [|discriminate]. destruct (loader_open _ _ _) as [ld| | |]; try discriminate.
  destruct (loader_load _ _ _); discriminate.
Qed.
