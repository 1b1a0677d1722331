(** C66: the data files of a cavity are read as they are written. *)
From Coq Require Import Reals List String Ascii Bool NArith ZArith Arith Lia.
From Verif Require Import SMap Dbl Config_Spec Lexer_Spec Number_Spec Machine_Model Util_Model Util_Spec Util2_Proofs Util3_Proofs Moment_Model Moment2_Proofs
  Cavity_Model Cavity4_Spec Cavity2_Proofs Cavity4_Proofs Cavity5_Proofs Cavity12_Proofs Thin_Model Thin_Spec Thin_Proofs Thin2_Proofs Thin3_Proofs.
Import ListNotations.
Open Scope string_scope.
Open Scope list_scope.

(** If every line of a thin lens file is blank, a comment or a piece written out, then
    reading succeeds with just these pieces in this order, and with the numbers
    written. *)
Theorem C66_pieces_of_the_text : forall s ls Ps,
  made_of (txt s) ls -> lists_pieces ls Ps -> exists ts, thin_read (Some s) = Ok ts /\ Forall2 read_as Ps ts.
Proof. exact thin_described. Qed.
Print Assumptions C66_pieces_of_the_text.
Example C66_pieces_of_the_text_ex : made_of (txt text6) lines6 /\ lists_pieces lines6 pieces6 /\
  exists t d g, thin_read (Some text6) = Ok [d; t; g] /\ th_type t = "EFocus1" /\ th_E0 t = Given done.
Proof.
  split; [exact made6|]. split; [exact pieces6_listed|]. eexists. eexists. eexists. split; [vm_compute; reflexivity|]. split; reflexivity.
Qed.

(** A text with a word in place of a number is refused, and so is a file that cannot
    be opened. *)
Theorem C66_words_refused : forall s ls l ws,
  made_of (txt s) ls -> In l ls -> ~ passed_over l -> begins l ws -> wrong_words ws ->
  thin_read (Some s) = Throw RuntimeError /\ thin_read None = Throw RuntimeError.
Proof. intros s ls l ws A B C D E. split; [exact (thin_refused s ls l ws A B C D E)|reflexivity]. Qed.
Print Assumptions C66_words_refused.
Example C66_words_refused_ex :
  let s := ("drift d 1 17" ++ cnl ++ "EFocus1 e 0 17 V" ++ cnl)%string in
  let l := txt "EFocus1 e 0 17 V" in let ws := [txt "EFocus1"; txt "e"; txt "0"; txt "17"; txt "V"] in
  made_of (txt s) [txt "drift d 1 17"; l] /\ In l [txt "drift d 1 17"; l] /\ ~ passed_over l /\ begins l ws /\ wrong_words ws.
Proof.
  cbv zeta. split; [exact (made_lines (txt ("drift d 1 17" ++ cnl ++ "EFocus1 e 0 17 V" ++ cnl)))|]. split; [right; left; reflexivity|].
  split. { intros [B|(b & r & B & E)].
    - inversion B as [|? ? H _]; subst. destruct H as [H|[H|[]]]; discriminate.
    - destruct b as [|c b]; [discriminate|]. injection E as <- _. inversion B as [|? ? H _]; subst. destruct H as [H|[H|[]]]; discriminate. }
  split. { bg "" "EFocus1" " e 0 17 V". bg " " "e" " 0 17 V". bg " " "0" " 17 V". bg " " "17" " V". bg " " "V" "". constructor. en. }
  right. right. do 6 eexists. split; [reflexivity|]. split; [intros [H|H]; discriminate|]. split; [fit|]. split; [fit|].
  eexists. eexists. split; [reflexivity|]. split; [reflexivity|]. intros [H|[H|[H|[]]]]; discriminate.
Qed.

(** Whatever the text: it is refused, or there is one piece for each line that is
    neither blank nor a comment, and what is written in the line is in the piece. *)
Theorem C66_any_text_partial : forall s ls,
  made_of (txt s) ls -> thin_read (Some s) = Throw RuntimeError \/
  exists ts ds, thin_read (Some s) = Ok ts /\ told ls ds /\ Forall2 labelled ds ts.
Proof. exact thin_any. Qed.
Print Assumptions C66_any_text_partial.
Example C66_any_text_partial_ex : made_of (txt ("drift d" ++ cnl)) [txt "drift d"] /\ exists t, thin_read (Some ("drift d" ++ cnl)%string) = Ok [t] /\ th_name t = "d".
Proof. split; [exact (made_lines (txt ("drift d" ++ cnl)))|]. eexists. split; [vm_compute; reflexivity|reflexivity]. Qed.

(** The constructor of a cavity of one of the four types takes everything from the
    files of this type: field on axis, multipoles and pieces are the numbers written. *)
Theorem C66_cavity_from_text : forall w texts gen c t n k f phi mp eg s1 ls1 h1 rows1 s2 ls2 h2 rows2 s3 ls3 Ps,
  tfind "f" c = Some (TNum f) -> tfind "phi" c = Some (TNum phi) -> tfind "cavtype" c = Some (TStr t) -> nth_error named_types k = Some (t, n) ->
  get_flag w c "MpoleLevel" 2 = Ok mp -> (mp <= 2)%N -> get_flag w c "EmitGrowth" 0 = Ok eg -> (eg <= 1)%N ->
  let dir := get_str_def c "Eng_Data_Dir" (w_defpath w) in
  is_absolute dir = true ->
  texts (dir ++ "/axisData_" ++ n ++ ".txt")%string = Some s1 -> made_of (txt s1) ls1 -> describes ls1 h1 rows1 ->
  rows1 <> [] -> Forall (fun r => (2 <= List.length r)%nat) rows1 -> (forall a b, In a rows1 -> In b rows1 -> List.length a = List.length b) ->
  texts (dir ++ "/Multipole" ++ n ++ "/CaviMlp_" ++ n ++ ".txt")%string = Some s2 -> made_of (txt s2) ls2 -> describes ls2 h2 rows2 ->
  rows2 <> [] -> Forall (fun r => (7 <= List.length r)%nat) rows2 -> (forall a b, In a rows2 -> In b rows2 -> List.length a = List.length b) ->
  texts (dir ++ "/Multipole" ++ n ++ "/thinlenlon_" ++ n ++ ".txt")%string = Some s3 -> made_of (txt s3) ls3 -> lists_pieces ls3 Ps ->
  exists cv, load_cavity w (text_files (w_num w) texts gen) c = Ok cv /\
    cv_f cv = w_num w f /\ cv_phi cv = (w_num w phi * PI / 180)%R /\ cv_mp cv = mp /\ cv_eg cv = eg /\ cv_cavi cv = Datatypes.S k /\
    table_as (w_num w) rows1 (cv_axis cv) /\ columns (cv_axis cv) (cv_data cv) /\ table_as (w_num w) rows2 (cv_mlp cv) /\
    Forall2 (used_as (w_num w)) Ps (cv_lat cv).
Proof. exact from_text. Qed.
Print Assumptions C66_cavity_from_text.
Example C66_cavity_from_text_ex :
  let w := world0 num01 true in let c := cavity6 in let dir := get_str_def c "Eng_Data_Dir" (w_defpath w) in
  let ls := [txt "1 1 1 1 1 1 1"; txt "0 0 1 1 1 1 1"] in
  tfind "f" c = Some (TNum done) /\ tfind "phi" c = Some (TNum done) /\ tfind "cavtype" c = Some (TStr "0.041QWR") /\ nth_error named_types 0 = Some ("0.041QWR", "41") /\
  get_flag w c "MpoleLevel" 2 = Ok 2%N /\ get_flag w c "EmitGrowth" 0 = Ok 0%N /\ is_absolute dir = true /\
  texts6 (dir ++ "/axisData_" ++ "41" ++ ".txt")%string = Some table6 /\ texts6 (dir ++ "/Multipole" ++ "41" ++ "/CaviMlp_" ++ "41" ++ ".txt")%string = Some table6 /\
  made_of (txt table6) ls /\ describes ls None rows6 /\ rows6 <> [] /\ Forall (fun r => (7 <= List.length r)%nat) rows6 /\
  (forall a b, In a rows6 -> In b rows6 -> List.length a = List.length b) /\
  texts6 (dir ++ "/Multipole" ++ "41" ++ "/thinlenlon_" ++ "41" ++ ".txt")%string = Some text6 /\ made_of (txt text6) lines6 /\ lists_pieces lines6 pieces6.
Proof.
  cbv zeta. repeat (split; [first [reflexivity|apply described6|discriminate]|]).
  split; [repeat constructor|]. split; [intros a b [<-|[<-|[]]] [<-|[<-|[]]]; reflexivity|]. split; [reflexivity|]. split; [exact made6|exact pieces6_listed].
Qed.

(** A cavity of type Generic has the pieces of the elements in its data file, in this
    order: type, length, field and the two fits of the transit time factors; the
    synchronous phase is fitted as the first gap says; the field on axis is the vector
    Ez in pairs. *)
Theorem C66_generic_file : forall w files c cv,
  load_cavity w files c = Ok cv -> tfind "cavtype" c = Some (TStr "Generic") ->
  exists df conf Es Ez,
    tfind "datafile" c = Some (TStr df) /\ cf_gen files (get_str_def c "Eng_Data_Dir" (w_defpath w) ++ "/" ++ df)%string = Ok (Some conf) /\
    tfind "elements" conf = Some (TCfgs Es) /\ Forall2 (element_piece (w_num w)) Es (cv_lat cv) /\ first_gap (w_num w) Es (cv_syn cv) /\
    tfind "Ez" conf = Some (TVec Ez) /\ List.concat (cv_axis cv) = map (w_num w) Ez /\ Forall (fun r => List.length r = 2%nat) (cv_axis cv) /\
    columns (cv_axis cv) (cv_data cv) /\
    (forall x, tfind "Rm" conf = Some (TNum x) -> cv_Rm cv = w_num w x) /\
    (forall x, tfind "RefNorm" conf = Some (TNum x) -> cv_nrm cv = Some (w_num w x)) /\
    (forall x, tfind "SyncFit" conf = Some (TVec x) -> cv_cx cv = Some (map (w_num w) x)) /\
    (forall x, tfind "EnergyLimit" conf = Some (TVec x) -> cv_eklim cv = Some (map (w_num w) x)) /\
    (forall x, tfind "NormLimit" conf = Some (TVec x) -> cv_nrlim cv = Some (map (w_num w) x)).
Proof. exact generic_loaded. Qed.
Print Assumptions C66_generic_file.
Example C66_generic_file_ex : load_cavity (world0 num01 true) files4 cavity2 = Ok loaded4 /\ tfind "cavtype" cavity2 = Some (TStr "Generic") /\
  List.length (cv_lat loaded4) = 4%nat.
Proof. split; [exact (load4 true)|]. split; reflexivity. Qed.

(** A table that is not there, has no rows, rows of unequal length or too few columns, a
    thin lens file that is not there or has a word in place of a number: such a
    cavity is refused. *)
Theorem C66_broken_files_refused : forall w texts gen c t n k f phi mp eg,
  tfind "f" c = Some (TNum f) -> tfind "phi" c = Some (TNum phi) -> tfind "cavtype" c = Some (TStr t) -> nth_error named_types k = Some (t, n) ->
  get_flag w c "MpoleLevel" 2 = Ok mp -> (mp <= 2)%N -> get_flag w c "EmitGrowth" 0 = Ok eg -> (eg <= 1)%N ->
  let dir := get_str_def c "Eng_Data_Dir" (w_defpath w) in
  bad_table 2 (texts (dir ++ "/axisData_" ++ n ++ ".txt")%string) \/
  bad_table 7 (texts (dir ++ "/Multipole" ++ n ++ "/CaviMlp_" ++ n ++ ".txt")%string) \/
  bad_pieces (texts (dir ++ "/Multipole" ++ n ++ "/thinlenlon_" ++ n ++ ".txt")%string) ->
  load_cavity w (text_files (w_num w) texts gen) c = Throw RuntimeError.
Proof. exact files_refused. Qed.
Print Assumptions C66_broken_files_refused.
Example C66_broken_files_refused_ex :
  let w := world0 num01 true in let c := cavity6 in
  tfind "f" c = Some (TNum done) /\ tfind "phi" c = Some (TNum done) /\ tfind "cavtype" c = Some (TStr "0.041QWR") /\ nth_error named_types 0 = Some ("0.041QWR", "41") /\
  get_flag w c "MpoleLevel" 2 = Ok 2%N /\ get_flag w c "EmitGrowth" 0 = Ok 0%N /\
  bad_table 7 (texts7 (get_str_def c "Eng_Data_Dir" (w_defpath w) ++ "/Multipole" ++ "41" ++ "/CaviMlp_" ++ "41" ++ ".txt")%string).
Proof. cbv zeta. repeat (split; [reflexivity|]). exact narrow_bad. Qed.

(** A line of a thin lens file that ends before the last number of a piece with a field
    makes a piece whose field has no value. *)
Theorem C66_missing_number_unset : forall s ls ts ds,
  made_of (txt s) ls -> thin_read (Some s) = Ok ts -> told ls ds -> Forall2 unset_field ds ts.
Proof. exact thin_unset. Qed.
Print Assumptions C66_missing_number_unset.
Example C66_missing_number_unset_ex : exists s ls l,
  made_of (txt s) ls /\ In l ls /\ begins l [txt "EFocus1"; txt "e1"; txt "1"; txt "17"] /\ (forall w, ~ begins l [txt "EFocus1"; txt "e1"; txt "1"; txt "17"; w]) /\
  exists ts, thin_read (Some s) = Ok ts.
Proof. destruct C66_missing_number_refuted_w as (s & ls & l & A & B & C & D & ts & t & E & _). exists s, ls, l. repeat (split; [assumption|]). exists ts. exact E. Qed.

(** A line of a thin lens file that ends before the last number is accepted; the
    number has no value. *)
Theorem C66_missing_number_refuted : exists s ls l,
  made_of (txt s) ls /\ In l ls /\ begins l [txt "EFocus1"; txt "e1"; txt "1"; txt "17"] /\ (forall w, ~ begins l [txt "EFocus1"; txt "e1"; txt "1"; txt "17"; w]) /\
  exists ts t, thin_read (Some s) = Ok ts /\ In t ts /\ th_E0 t = Unset.
Proof. exact C66_missing_number_refuted_w. Qed.
Print Assumptions C66_missing_number_refuted.
(** A last number that breaks off is accepted too. *)
Theorem C66_half_a_number_refuted : exists s ls l x,
  made_of (txt s) ls /\ In l ls /\ begins l [txt "EFocus1"; txt "e1"; txt "1"; txt "17"; x] /\ ~ fits x /\
  exists ts t, thin_read (Some s) = Ok ts /\ In t ts /\ th_E0 t = Failed.
Proof. exact C66_half_a_number_refuted_w. Qed.
Print Assumptions C66_half_a_number_refuted.
(** The same file with lines ended by carriage return and newline gives more pieces:
    each empty line is a piece without type and length. *)
Theorem C66_carriage_return_refuted : exists s1 s2 ls,
  made_of (txt s1) ls /\ made_of (txt s2) (map (fun l => l ++ [c_cr]) ls) /\
  exists ts1 ts2, thin_read (Some s1) = Ok ts1 /\ thin_read (Some s2) = Ok ts2 /\ List.length ts1 = 1%nat /\ List.length ts2 = 2%nat /\
    exists t, In t ts2 /\ th_type t = "" /\ th_len t = Unset.
Proof. exact C66_carriage_return_refuted_w. Qed.
Print Assumptions C66_carriage_return_refuted.
