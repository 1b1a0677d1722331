(** GLPSPrint of a lattice, parsed again: the whole text. *)
From Coq Require Import List String Ascii Bool ZArith Lia.
From Verif Require Import SMap SMap_Proofs Dbl Config_Model Config_Spec Lexer_Model Lexer_Spec Lexer_Proofs Glps_Model Glps_Spec.
From Verif Require Import Glps3_Proofs Glps5_Proofs Glps6_Proofs Machine_Model.
From Verif Require Import Print_Model Print_Spec Print_Proofs Print2_Proofs Print3_Proofs Print4_Proofs.
Import ListNotations.
Open Scope string_scope.
Open Scope list_scope.

Definition lname (c : tcfg) : string := Machine_Model.get_str_def c "name" "default".
Definition tail_text (ln : string) (ns : list string) : list ascii :=
  txt ln ++ txt ": LINE = (" ++ separated (map txt ns) ++ txt ");" ++ [nl] ++ txt "USE: " ++ txt ln ++ txt ";" ++ [nl].
Definition tail_tokens (ln : string) (ns : list string) : list token :=
  (KKw ln :: KColon :: KKw "LINE" :: KEq :: KLPar :: name_tokens ns ++ [KRPar; KSemi]) ++ [KKw "USE"; KColon; KKw ln; KSemi].
Lemma word_LINE : word "LINE".
Proof. apply kw_matches. exists "L"%char. eexists. split; [reflexivity|]. repeat split. right. exists ["I"%char; "N"%char], "E"%char. repeat split. Qed.
Lemma word_USE : word "USE".
Proof. apply kw_matches. exists "U"%char. eexists. split; [reflexivity|]. repeat split. right. exists ["S"%char], "E"%char. repeat split. Qed.
Lemma word_default : word "default".
Proof.
  apply kw_matches. exists "d"%char. eexists. split; [reflexivity|]. repeat split. right.
  exists ["e"; "f"; "a"; "u"; "l"]%char, "t"%char. repeat split.
Qed.
Lemma t_tail ln ns : word ln -> Forall word ns -> tokenises (tail_text ln ns) (tail_tokens ln ns).
Proof.
  intros W F. unfold tail_text, tail_tokens. cbn [app]. simpl (txt ": LINE = ("). cbn [app].
  apply t_def; [exact W|exists " "%char; eexists; split; reflexivity|]. apply t_blank.
  change ("L"%char :: "I"%char :: "N"%char :: "E"%char :: " "%char :: ?x) with (txt "LINE" ++ " "%char :: x).
  apply (t_kw "LINE"); [exact word_LINE|exists " "%char; eexists; split; reflexivity|].
  apply t_blank, t_punct; [reflexivity|]. apply t_blank, t_punct; [reflexivity|].
  simpl (txt ");"). simpl (txt "USE: "). simpl (txt ";"). cbn [app]. rewrite <- app_assoc.
  apply t_names; [exact F|]. cbn [app]. apply t_punct; [reflexivity|]. apply t_punct; [reflexivity|]. apply t_nl.
  apply (t_def "USE"); [exact word_USE|exists " "%char; eexists; split; reflexivity|]. apply t_blank.
  apply t_kw; [exact W|exists ";"%char; eexists; split; reflexivity|]. apply t_punct; [reflexivity|]. apply t_nl. constructor.
Qed.
Lemma names_wr ns : wr_list (map AVar ns) (name_tokens ns).
Proof. exact (wr_names ns). Qed.
Lemma tail_wr ln ns : wr_file [SLine ln "LINE" (map AVar ns); SElem "USE" ln []] (tail_tokens ln ns).
Proof.
  unfold tail_tokens. constructor; [constructor; apply names_wr|].
  rewrite <- (app_nil_r [KKw "USE"; KColon; KKw ln; KSemi]). constructor; [|constructor].
  apply (ws_elem "USE" ln [] []). constructor.
Qed.

Section Lattice.
Variables (c : tcfg) (es : list tcfg).
Hypothesis L : lattice c es.

Lemma all_good : Forall good_elem es.
Proof. apply Forall_forall. intros g H. destruct (lt_each _ _ L g H) as (n & t & E). apply (element_good n t g E). Qed.
Lemma own_name g : In g es -> own "name" g = Some (TStr (gname g)).
Proof. intros H. pose proof all_good as F. rewrite Forall_forall in F. destruct (F g H) as (_ & N & _). exact N. Qed.
Lemma lname_word : word (lname c).
Proof.
  unfold lname, Machine_Model.get_str_def. unfold tfind. rewrite (lt_outer _ _ L). fold (own "name" c).
  destruct (own "name" c) as [v|] eqn:E; [|exact word_default]. destruct (lt_name _ _ L v E) as (s & -> & W). exact W.
Qed.
Lemma vars_writable n v : In (n, v) (vars_of c) -> word n /\ writable v.
Proof.
  intros H. destruct (in_filter_own _ _ _ (lt_sorted _ _ L) H) as [F E]. unfold not_elements in E. simpl in E.
  rewrite negb_true_iff in E. apply String.eqb_neq in E. apply (lt_vars _ _ L n v F E).
Qed.
Lemma sfind_filter P (m : smap tval) n : ssorted m -> sfind n (filter P m) = match sfind n m with Some v => if P (n, v) then Some v else None | None => None end.
Proof.
  induction m as [|[k v] m IH]; intros S; [reflexivity|]. destruct S as [S1 S2]. cbn [filter sfind].
  destruct (String.eqb_spec n k) as [->|N].
  - destruct (P (k, v)) eqn:E; cbn [sfind]; [rewrite String.eqb_refl; reflexivity|]. rewrite (IH S2).
    destruct (sfind k m) as [y|] eqn:F; [|reflexivity]. exfalso. apply sfind_In in F. apply (str_lt_irrefl k). eapply S1. exact F.
  - destruct (P (k, v)); cbn [sfind]; [|apply IH; exact S2]. destruct (String.eqb_spec n k); [contradiction|]. apply IH. exact S2.
Qed.
Lemma sorted_filter P (m : smap tval) : ssorted m -> ssorted (filter P m).
Proof.
  induction m as [|[k v] m IH]; intros S; [exact I|]. destruct S as [S1 S2]. cbn [filter]. destruct (P (k, v)); [|apply IH; exact S2].
  split; [|apply IH; exact S2]. intros k' v' H. apply filter_In in H as [H _]. eapply S1. exact H.
Qed.
Lemma vars_find n : sfind n (vars_of c) = variable n c.
Proof.
  unfold vars_of. rewrite sfind_filter by exact (lt_sorted _ _ L). unfold variable, own, not_elements. cbn [fst].
  destruct (String.eqb n "elements"); destruct (sfind n (town c)); reflexivity.
Qed.

Definition defs := firsts [] es.
Definition stmts : list stmt :=
  preset_stmts (vars_of c) ++ map elem_stmt defs ++ [SLine (lname c) "LINE" (map AVar (map gname es)); SElem "USE" (lname c) []].
Definition the_text : list ascii := show_vars (town c) ++ List.concat (map elem_text defs) ++ tail_text (lname c) (map gname es).

Lemma printed : glps_print c = Ok (string_of_list_ascii the_text).
Proof.
  unfold glps_print, Machine_Model.get_cfgs, tfind. pose proof (lt_elements _ _ L) as E. unfold own in E. rewrite E.
  destruct (show_elems_spec es all_good [] [] (show_vars (town c))) as [s' ->]. cbn [rbind st_line st_text].
  rewrite app_nil_r, rev_involutive. f_equal. f_equal. unfold the_text, tail_text. rewrite <- !app_assoc. reflexivity.
Qed.
Lemma defs_good : Forall good_elem defs.
Proof. apply Forall_forall. intros g H. apply firsts_in in H. pose proof all_good as F. rewrite Forall_forall in F. auto. Qed.
Lemma words_all : Forall word (map gname es).
Proof. apply Forall_forall. intros n H. apply in_map_iff in H as (g & <- & H). pose proof all_good as F. rewrite Forall_forall in F. apply (F g H). Qed.
Definition tokens : list token :=
  var_tokens (vars_of c) ++ List.concat (map elem_tokens defs) ++ tail_tokens (lname c) (map gname es).
Lemma spelled : wr_file stmts tokens.
Proof.
  unfold stmts. apply wr_file_app; [apply vars_wr; intros n v H; apply (vars_writable n v H)|].
  apply wr_file_app; [apply elems_wr; exact defs_good|apply tail_wr].
Qed.

Lemma in_defs g : In g es -> exists h, In h defs /\ gname h = gname g /\ elem_def h = elem_def g.
Proof.
  intros H. destruct (firsts_all es [] g H) as [[]|A]. apply in_map_iff in A as (h & E & Hh). exists h. split; [exact Hh|]. split; [exact E|].
  pose proof (firsts_in _ _ _ Hh) as Hh'. assert (T : town h = town g).
  { apply (lt_same _ _ L); auto. rewrite !own_name by auto. rewrite E. reflexivity. }
  unfold elem_def, gname, gtype, own. rewrite T. reflexivity.
Qed.
Lemma assoc_defs g : In g es -> assoc (gname g) (map elem_def defs) = Some (snd (elem_def g)).
Proof.
  intros H. destruct (in_defs g H) as (h & Hh & E & D). apply assoc_in_unique.
  - rewrite map_map. change (fun x => fst (elem_def x)) with gname. apply firsts_nodup.
  - apply in_map_iff. exists h. split; [|exact Hh]. rewrite D. reflexivity.
Qed.
Lemma no_USE : assoc "USE" (map elem_def defs) = None.
Proof.
  apply assoc_None. rewrite map_map. change (fun x => fst (elem_def x)) with gname. intros H.
  apply in_map_iff in H as (g & E & H). apply firsts_in in H. destruct (lt_apart _ _ L g "USE" H) as [N _]; [|contradiction].
  rewrite own_name, E by exact H. reflexivity.
Qed.
Lemma no_var g : In g es -> assoc (gname g) (presets (vars_of c)) = None.
Proof.
  intros H. apply presets_none; [intros k v Hk; apply (vars_writable k v Hk)|]. rewrite vars_find. unfold variable.
  destruct (lt_apart _ _ L g (gname g) H (own_name g H)) as [_ [-> | ->]]; [reflexivity|]. destruct (String.eqb _ _); reflexivity.
Qed.
Lemma runs w : srun w [] true stmts = Some (presets (vars_of c), Some (mkLat (lname c) (map elem_def es))).
Proof.
  unfold srun, stmts. rewrite !sexecs_app.
  destruct (assign_tokens_all (vars_of c)) as [pre A]; [intros n v H; apply (vars_writable n v H)|].
  rewrite (preset_run w (vars_of c) (sorted_filter _ _ (lt_sorted _ _ L)) pre A (env0 []) ltac:(reflexivity)). cbn [obind].
  rewrite sexecs_app, (elems_run w defs defs_good (firsts_nodup es [])) by reflexivity. cbn [obind e_vars e_elems e_lines env0 app].
  cbn [sexecs sexec]. change (presets []) with (@nil (string * sval)). cbn [app].
  rewrite line_run; cbn [e_vars e_elems].
  - change (is_line_kwb "LINE") with true. cbn [obind negb defined assoc orb e_vars e_elems e_lines app sprops].
    rewrite (eqb_word _ lname_word). change (String.eqb "USE" "") with false. unfold defined. rewrite no_USE. cbn [orb obind e_vars e_elems e_lines app].
    unfold slat, sselect. cbn [e_vars e_elems e_lines]. rewrite assoc_app, no_USE. cbn [assoc]. rewrite String.eqb_refl. cbn [d_type option_map]. cbn [assoc]. rewrite String.eqb_refl.
    cbn [option_map obind snd fst].
    destruct (map gname es) as [|n0 ns0] eqn:Em; [destruct es; [destruct (lt_some _ _ L eq_refl)|discriminate]|]. rewrite <- Em.
    rewrite resolve_run.
    + cbn [obind]. replace (forallb usable (map elem_def es)) with true; [reflexivity|]. symmetry. apply forallb_forall. intros d H.
      apply in_map_iff in H as (g & <- & H). apply usable_def. pose proof all_good as F. rewrite Forall_forall in F. auto.
    + intros g H. cbn [e_elems]. rewrite assoc_app, (assoc_defs g H). reflexivity.
  - intros n H. apply in_map_iff in H as (g & <- & H). split; [exact (no_var g H)|]. unfold defined. rewrite (assoc_defs g H). reflexivity.
Qed.

Definition elems' : list tcfg := map (fun g => TCfg (town g) (vars_of c)) es.
Definition result : tcfg := TCfg (sset "elements" (TCfgs elems') (sset "name" (TStr (lname c)) (town c))) [].
Lemma def_shown g : In g es -> shows_elem (presets (vars_of c)) (elem_def g) (TCfg (town g) (vars_of c)).
Proof.
  intros H. pose proof all_good as F. rewrite Forall_forall in F. pose proof (F g H) as G. pose proof G as (S & N & T & _). unfold own in N, T.
  split; [exact S|]. split; [apply sorted_filter; exact (lt_sorted _ _ L)|]. cbn [town touter]. split.
  - intros n. destruct (String.eqb_spec n "name") as [->|N1]; [exact N|]. destruct (String.eqb_spec n "type") as [->|N2]; [exact T|].
    cbn [snd elem_def d_props]. rewrite assoc_presets by (apply good_props; exact G). unfold props_of. rewrite sfind_filter by exact S.
    destruct (sfind n (town g)); [|reflexivity]. unfold is_prop. cbn [fst]. destruct (String.eqb_spec n "name"); [contradiction|].
    destruct (String.eqb_spec n "type"); [contradiction|]. reflexivity.
  - intros n. rewrite assoc_presets by (intros k v Hk; apply (vars_writable k v Hk)). reflexivity.
Qed.
Lemma result_shown : shows (presets (vars_of c), Some (mkLat (lname c) (map elem_def es))) result.
Proof.
  split; [apply sset_sorted, sset_sorted; exact (lt_sorted _ _ L)|]. split; [reflexivity|]. cbn [snd fst l_elems l_name]. exists elems'. split.
  - unfold elems'. pose proof def_shown as D. clear L. induction es as [|g l IH]; [constructor|]. cbn [map]. constructor; [apply D; left; reflexivity|].
    apply IH. intros h H. apply D. right. exact H.
  - intros n. cbn [result town]. rewrite !sfind_sset. destruct (String.eqb_spec n "elements") as [|N]; [reflexivity|].
    destruct (String.eqb_spec n "name") as [|N']; [reflexivity|]. rewrite assoc_presets by (intros k v Hk; apply (vars_writable k v Hk)).
    rewrite vars_find. unfold variable, own. destruct (String.eqb_spec n "elements"); [contradiction|]. reflexivity.
Qed.
Lemma result_own n : n <> "name" -> variable n result = variable n c.
Proof.
  intros N. unfold variable, own. destruct (String.eqb_spec n "elements"); [reflexivity|]. cbn [result town]. rewrite !sfind_sset.
  destruct (String.eqb_spec n "elements"); [contradiction|]. destruct (String.eqb_spec n "name"); [contradiction|]. reflexivity.
Qed.
Lemma result_name : own "name" result = Some match own "name" c with Some v => v | None => TStr "default" end.
Proof.
  unfold own at 1. cbn [result town]. rewrite !sfind_sset. cbn [String.eqb Ascii.eqb]. f_equal. unfold lname, Machine_Model.get_str_def, tfind.
  rewrite (lt_outer _ _ L). fold (own "name" c). destruct (own "name" c) as [v|] eqn:E; [|reflexivity].
  destruct (lt_name _ _ L v E) as (s & -> & _). reflexivity.
Qed.
Lemma result_elements : own "elements" result = Some (TCfgs elems').
Proof. unfold own. cbn [result town]. rewrite sfind_sset. reflexivity. Qed.
End Lattice.

(** ** The lattice as it is read back *)
Definition snap_lattice (c : tcfg) (es : list tcfg) : tcfg :=
  TCfg (sset "elements" (TCfgs (map snapg es)) (snaps (town c))) [].
Lemma snap_own c es n : own n (snap_lattice c es) = if String.eqb n "elements" then Some (TCfgs (map snapg es)) else option_map snapv (own n c).
Proof. unfold own. simpl. rewrite sfind_sset, sfind_snaps. reflexivity. Qed.
Lemma snap_variable c es n : variable n (snap_lattice c es) = option_map snapv (variable n c).
Proof. unfold variable. rewrite snap_own. destruct (String.eqb n "elements"); reflexivity. Qed.
Lemma snap_good c es : lattice c es -> lattice (snap_lattice c es) (map snapg es).
Proof.
  intros L. constructor.
  - apply sset_sorted, snaps_sorted, (lt_sorted _ _ L).
  - reflexivity.
  - rewrite snap_own. reflexivity.
  - pose proof (lt_some _ _ L). destruct es; [contradiction|discriminate].
  - intros n v. rewrite snap_own. destruct (String.eqb_spec n "elements"); [contradiction|]. intros E _.
    destruct (own n c) as [u|] eqn:O; [|discriminate]. injection E as <-. destruct (lt_vars _ _ L n u O n0) as [A B].
    split; [exact A|apply snapv_writable; exact B].
  - intros v. rewrite snap_own. cbn [String.eqb Ascii.eqb]. change (String.eqb "name" "elements") with false. cbv iota.
    intros E. destruct (own "name" c) as [u|] eqn:O; [|discriminate]. injection E as <-. destruct (lt_name _ _ L u O) as (s & -> & W).
    exists s. split; [reflexivity|exact W].
  - intros g' H. apply in_map_iff in H as (g & <- & H). destruct (lt_each _ _ L g H) as (n & t & S & N & T & Wn & Wt & P).
    exists n, t. split; [apply snaps_sorted; exact S|]. rewrite !snapg_own, N, T. split; [reflexivity|]. split; [reflexivity|].
    split; [exact Wn|]. split; [exact Wt|]. intros k v. rewrite snapg_own. intros E K1 K2.
    destruct (own k g) as [u|] eqn:O; [|discriminate]. injection E as <-. destruct (P k u O K1 K2) as [A B].
    split; [exact A|apply snapv_writable; exact B].
  - intros g' h' Hg Hh. apply in_map_iff in Hg as (g & <- & Hg). apply in_map_iff in Hh as (h & <- & Hh). rewrite !snapg_own. intros E.
    simpl. f_equal. apply (lt_same _ _ L g h Hg Hh).
    destruct (lt_each _ _ L g Hg) as (n & t & _ & N & _). destruct (lt_each _ _ L h Hh) as (n' & t' & _ & N' & _).
    rewrite N, N' in *. injection E as ->. reflexivity.
  - intros g' n Hg. apply in_map_iff in Hg as (g & <- & Hg). rewrite snapg_own. intros E.
    destruct (lt_each _ _ L g Hg) as (n' & t & _ & N & _). rewrite N in E. injection E as ->.
    destruct (lt_apart _ _ L g n Hg N) as [A [B|B]]; split; auto. rewrite snap_own, B. destruct (String.eqb_spec n "elements"); auto.
Qed.
Lemma snap_name c es : lattice c es -> lname (snap_lattice c es) = lname c.
Proof.
  intros L. unfold lname, Machine_Model.get_str_def, tfind. rewrite (lt_outer _ _ L). fold (own "name" c). fold (own "name" (snap_lattice c es)).
  rewrite snap_own. change (String.eqb "name" "elements") with false. cbv iota. destruct (own "name" c) as [[]|]; reflexivity.
Qed.
Lemma snap_vars c es : lattice c es -> vars_of (snap_lattice c es) = snaps (vars_of c).
Proof.
  intros L. apply ssorted_ext.
  - apply sorted_filter. exact (lt_sorted _ _ (snap_good c es L)).
  - apply snaps_sorted, sorted_filter, (lt_sorted _ _ L).
  - intros n. rewrite (vars_find _ _ (snap_good c es L)), sfind_snaps, (vars_find _ _ L). apply snap_variable.
Qed.
Lemma text_tokens c es : lattice c es -> tokenises (the_text c es) (tokens (snap_lattice c es) (map snapg es)).
Proof.
  intros L. unfold tokens, the_text. rewrite (snap_vars c es L). apply t_vars.
  - intros n v H. pose proof (ssorted_In_sfind _ _ _ (lt_sorted _ _ L) H) as F. destruct (String.eqb_spec n "elements") as [->|N].
    + left. split; [reflexivity|]. pose proof (lt_elements _ _ L) as E. unfold own in E. rewrite F in E. injection E as ->. eauto.
    + right. split; [exact N|]. exact (lt_vars _ _ L n v F N).
  - unfold defs. rewrite firsts_snap. apply t_elems; [exact (defs_good c es L)|]. rewrite (snap_name c es L), map_map.
    replace (map (fun g => gname (snapg g)) es) with (map gname es) by (apply map_ext; intros g; rewrite snapg_name; reflexivity).
    apply t_tail; [exact (lname_word c es L)|exact (words_all c es L)].
Qed.
Lemma parsed_again w c es : lattice c es ->
  parse_text w [] true (string_of_list_ascii (the_text c es)) = Parsed (result (snap_lattice c es) (map snapg es)).
Proof.
  intros L. pose proof (snap_good c es L) as L'. apply text_parsed; [exact I|]. eexists. eexists.
  split; [|split; [exact (runs _ _ L' w)|exact (result_shown _ _ L')]]. eexists. rewrite list_ascii_of_string_of_list_ascii.
  split; [exact (text_tokens c es L)|exact (spelled _ _ L')].
Qed.
Lemma onearly_snap o : (forall v, o = Some v -> writable v) -> onearly o (option_map snapv o).
Proof. destruct o as [v|]; intros H; [|exact I]. apply snapv_nearly. apply H. reflexivity. Qed.
Lemma vars_nearly c es n : lattice c es -> onearly (variable n c) (variable n (snap_lattice c es)).
Proof.
  intros L. rewrite snap_variable. apply onearly_snap. unfold variable. intros v. destruct (String.eqb_spec n "elements"); [discriminate|].
  intros E. apply (lt_vars _ _ L n v E n0).
Qed.
Lemma word_quotable n : word n -> quotable n.
Proof.
  intros W c H. apply kw_chars in W. rewrite forallb_forall in W. apply W in H. repeat split; intros ->; discriminate.
Qed.
Lemma own_nearly n t g k : element_as n t g -> onearly (own k g) (own k (snapg g)).
Proof.
  intros (S & N & T & Wn & Wt & P). rewrite snapg_own. apply onearly_snap. intros v E.
  destruct (String.eqb_spec k "name") as [->|K1]; [rewrite N in E; injection E as <-; apply word_quotable; exact Wn|].
  destruct (String.eqb_spec k "type") as [->|K2]; [rewrite T in E; injection E as <-; apply word_quotable; exact Wt|].
  apply (P k v E K1 K2).
Qed.
Lemma round_trip w c es : lattice c es -> exists s c', glps_print c = Ok s /\ parse_text w [] true s = Parsed c' /\ read_back c es c'.
Proof.
  intros L. pose proof (snap_good c es L) as L'. exists (string_of_list_ascii (the_text c es)). eexists.
  split; [apply printed; exact L|]. split; [apply parsed_again; exact L|]. split; [|split].
  - intros n N. rewrite (result_own _ _ n N). apply vars_nearly. exact L.
  - rewrite (result_name _ _ L'). rewrite snap_own. change (String.eqb "name" "elements") with false. cbv iota.
    destruct (own "name" c) as [v|] eqn:E; [|reflexivity]. destruct (lt_name _ _ L v E) as (s & -> & _). reflexivity.
  - eexists. split; [apply result_elements|]. unfold elems'. pose proof (fun n => vars_nearly c es n L) as V.
    pose proof (vars_find _ _ L') as Vf. generalize dependent (vars_of (snap_lattice c es)). intros m Vf.
    assert (Vm : forall n, onearly (variable n c) (sfind n m)) by (intros n; rewrite Vf; apply V).
    pose proof (lt_each _ _ L) as Each. clear L L' V Vf. induction es as [|g l IH]; [constructor|]. cbn [map]. constructor.
    + split; [|intros n; apply Vm]. intros k. destruct (Each g (or_introl eq_refl)) as (n & t & E). exact (own_nearly n t g k E).
    + apply IH. intros h Hh. apply Each. right. exact Hh.
Qed.
