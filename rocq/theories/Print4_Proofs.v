(** GLPSPrint of a lattice, parsed again. *)
From Coq Require Import List String Ascii Bool ZArith Lia.
From Verif Require Import SMap SMap_Proofs Dbl Config_Model Config_Spec Lexer_Model Lexer_Spec Lexer_Proofs Glps_Model Glps_Spec.
From Verif Require Import Glps3_Proofs Glps5_Proofs Glps6_Proofs Machine_Model.
From Verif Require Import Print_Model Print_Spec Print_Proofs Print2_Proofs Print3_Proofs.
Import ListNotations.
Open Scope string_scope.
Open Scope list_scope.

(** ** Values *)
Lemma vec_wr1 l : wr_list (map preset_tree_num l) (vtoks l).
Proof.
  induction l as [|x l IH]; [constructor|]. destruct l as [|y l].
  - apply wr_one. apply wr_0, wr_1, num_wr.
  - cbn [map vtoks] in *. apply wr_cons; [apply wr_0, wr_1, num_wr|exact IH].
Qed.
Lemma value_wr v : writable v -> wr 0 (preset_tree v) (wtoks v).
Proof.
  destruct v as [x|l|s|l]; simpl; intros W; [| | |contradiction]; apply wr_0, wr_1.
  - apply num_wr.
  - apply wr_vec, vec_wr1.
  - constructor.
Qed.
Lemma writable_tokens v : writable v -> exists ts, val_tokens v = Some ts.
Proof.
  destruct v as [x|l|s|l]; simpl; intros W; [| |eauto|contradiction].
  - destruct W as [-> _]. eauto.
  - replace (forallb is_finite l) with true; [eauto|]. symmetry. apply forallb_forall. intros x Hx.
    rewrite Forall_forall in W. apply (W x Hx).
Qed.
Lemma writable_preset v : writable v -> exists x, preset_val v = Some x /\ storable x = true /\ shown x = v.
Proof. destruct v; simpl; intros W; try contradiction; eexists; repeat split. Qed.
Lemma writable_eval w env v : writable v -> seval w env (preset_tree v) = preset_val v.
Proof. intros W. destruct (writable_tokens v W) as [ts E]. exact (val_eval w env v ts E). Qed.
Lemma assign_tokens_all m : (forall n v, In (n, v) m -> writable v) -> exists pre, assign_tokens m = Some pre.
Proof.
  induction m as [|[n v] m IH]; intros H; simpl; [eauto|].
  destruct (writable_tokens v (H n v (or_introl eq_refl))) as [t ->].
  destruct IH as [u ->]; [intros k y Hy; eapply H; right; exact Hy|]. eauto.
Qed.
Lemma assoc_presets m : (forall n v, In (n, v) m -> writable v) -> forall n, option_map shown (assoc n (presets m)) = sfind n m.
Proof.
  induction m as [|[k v] m IH]; intros H n; [reflexivity|]. simpl.
  destruct (writable_preset v (H k v (or_introl eq_refl))) as (x & -> & _ & E). simpl.
  destruct (String.eqb n k); [simpl; rewrite E; reflexivity|]. apply IH. intros j y Hy. eapply H. right. exact Hy.
Qed.
Lemma presets_none m n : (forall k v, In (k, v) m -> writable v) -> sfind n m = None -> assoc n (presets m) = None.
Proof. intros W H. rewrite <- (assoc_presets m W) in H. destruct (assoc n (presets m)); [discriminate|reflexivity]. Qed.

(** The scope as it is read back. *)
Definition snaps (m : smap tval) : smap tval := map (fun nv => (fst nv, snapv (snd nv))) m.
Lemma sfind_snaps m n : sfind n (snaps m) = option_map snapv (sfind n m).
Proof. induction m as [|[k v] m IH]; [reflexivity|]. simpl. destruct (String.eqb n k); [reflexivity|exact IH]. Qed.
Lemma snaps_sorted m : ssorted m -> ssorted (snaps m).
Proof.
  induction m as [|[k v] m IH]; intros H; [exact I|]. destruct H as [H1 H2]. split; [|apply IH; exact H2].
  intros j y Hj. apply in_map_iff in Hj as ([j' y'] & E & Hj). injection E as <- <-. eapply H1. exact Hj.
Qed.
Lemma filter_snaps P m : (forall n v v', P (n, v) = P (n, v')) -> filter P (snaps m) = snaps (filter P m).
Proof.
  intros H. induction m as [|[k v] m IH]; [reflexivity|]. simpl. rewrite (H k (snapv v) v). destruct (P (k, v)); simpl; rewrite IH; reflexivity.
Qed.

(** ** Variables *)
Definition not_elements (nv : string * tval) : bool := negb (String.eqb (fst nv) "elements").
Definition vars_of (c : tcfg) : smap tval := filter not_elements (town c).
Fixpoint var_tokens (m : smap tval) : list token :=
  match m with [] => [] | (n, v) :: r => KKw n :: KEq :: wtoks v ++ KSemi :: var_tokens r end.
Lemma t_vars m : (forall n v, In (n, v) m -> n = "elements" /\ (exists l, v = TCfgs l) \/ n <> "elements" /\ word n /\ writable v) ->
  forall r ts, tokenises r ts -> tokenises (show_vars m ++ r) (var_tokens (snaps (filter not_elements m)) ++ ts).
Proof.
  induction m as [|[n v] m IH]; intros H r ts T; [exact T|].
  unfold show_vars. cbn [map List.concat]. fold (show_vars m). cbn [fst snd]. rewrite <- app_assoc.
  specialize (IH (fun k y Hy => H k y (or_intror Hy)) r ts T).
  destruct (H n v (or_introl eq_refl)) as [[-> [l ->]]|(N & W & V)]; [exact IH|].
  cbn [filter]. unfold not_elements at 1. cbn [fst]. destruct (String.eqb_spec n "elements"); [contradiction|]. cbn [negb snaps map var_tokens app fst snd].
  rewrite <- app_assoc. apply t_var; auto.
Qed.
Lemma vars_wr m : (forall n v, In (n, v) m -> writable v) -> wr_file (preset_stmts m) (var_tokens m).
Proof.
  induction m as [|[n v] m IH]; intros H; [constructor|]. simpl.
  replace (KKw n :: KEq :: wtoks v ++ KSemi :: var_tokens m) with ((KKw n :: KEq :: wtoks v ++ [KSemi]) ++ var_tokens m) by (simpl; rewrite <- app_assoc; reflexivity).
  constructor; [|apply IH; intros k y Hy; eapply H; right; exact Hy]. constructor. apply value_wr. eapply H. left. reflexivity.
Qed.

(** ** Elements *)
Definition is_prop (kv : string * tval) : bool := negb (String.eqb (fst kv) "name" || String.eqb (fst kv) "type").
Definition props_of (m : smap tval) : smap tval := filter is_prop m.
Fixpoint prop_tokens (m : smap tval) : list token :=
  match m with [] => [] | (n, v) :: r => KComma :: KKw n :: KEq :: wtoks v ++ prop_tokens r end.
Definition prop_ok (m : smap tval) : Prop := forall k v, In (k, v) (props_of m) -> word k /\ writable v.
Lemma prop_ok_cons k v m : prop_ok ((k, v) :: m) -> prop_ok m.
Proof. intros H j y Hj. apply H. unfold props_of. cbn [filter]. destruct (is_prop (k, v)); [right; exact Hj|exact Hj]. Qed.
Lemma props_head (P : ascii -> bool) m r : P ","%char = false -> P ";"%char = false -> prop_ok m -> ends P (show_props m ++ ";"%char :: r).
Proof.
  intros A B. induction m as [|[k v] m IH]; intros H; [exists ";"%char, r; auto|]. cbn [show_props].
  pose proof (IH (prop_ok_cons _ _ _ H)) as I'. destruct (String.eqb k "name" || String.eqb k "type")%bool eqn:E; [exact I'|].
  assert (W : writable v).
  { apply (H k v). unfold props_of. cbn [filter]. unfold is_prop at 1. cbn [fst]. rewrite E. left. reflexivity. }
  destruct v; simpl in W; [| | |contradiction]; exists ","%char; eexists; (split; [reflexivity|exact A]).
Qed.
Lemma t_props m : prop_ok m -> forall r ts, tokenises (";"%char :: r) ts -> tokenises (show_props m ++ ";"%char :: r) (prop_tokens (snaps (props_of m)) ++ ts).
Proof.
  induction m as [|[k v] m IH]; intros H r ts T; [exact T|]. cbn [show_props props_of filter]. unfold is_prop at 1. cbn [fst].
  pose proof (IH (prop_ok_cons _ _ _ H) r ts T) as I'. pose proof (props_head num_char m r eq_refl eq_refl (prop_ok_cons _ _ _ H)) as E'.
  specialize (H k v). unfold props_of in H. cbn [filter] in H. unfold is_prop at 1 in H. cbn [fst] in H.
  destruct (String.eqb k "name" || String.eqb k "type")%bool; [exact I'|]. cbn [negb snaps map prop_tokens app fst snd].
  destruct H as [W V]; [left; reflexivity|]. rewrite <- !app_assoc. apply t_prop; auto.
Qed.
Definition prop_trees (m : smap tval) : list (string * tree) := map (fun kv => (fst kv, preset_tree (snd kv))) m.
Lemma props_wr m : (forall k v, In (k, v) m -> writable v) -> wr_props (prop_trees m) (prop_tokens m).
Proof.
  induction m as [|[k v] m IH]; intros H; [constructor|]. simpl. constructor.
  - apply value_wr. eapply H. left. reflexivity.
  - apply IH. intros j y Hy. eapply H. right. exact Hy.
Qed.
Lemma props_run w env m : (forall k v, In (k, v) m -> writable v) -> sprops w env (prop_trees m) = Some (presets m).
Proof.
  induction m as [|[k v] m IH]; intros H; [reflexivity|]. simpl.
  pose proof (H k v (or_introl eq_refl)) as W. rewrite (writable_eval w env v W).
  destruct (writable_preset v W) as (x & -> & _). simpl. rewrite IH; [reflexivity|]. intros j y Hy. eapply H. right. exact Hy.
Qed.

Definition gname (g : tcfg) : string := match own "name" g with Some (TStr n) => n | _ => "" end.
Definition gtype (g : tcfg) : string := match own "type" g with Some (TStr n) => n | _ => "" end.
Definition elem_text (g : tcfg) : list ascii :=
  txt (gname g) ++ txt ": " ++ txt (gtype g) ++ show_props (town g) ++ txt ";" ++ [nl].
Definition elem_stmt (g : tcfg) : stmt := SElem (gname g) (gtype g) (prop_trees (props_of (town g))).
Definition elem_tokens (g : tcfg) : list token :=
  KKw (gname g) :: KColon :: KKw (gtype g) :: prop_tokens (props_of (town g)) ++ [KSemi].
Definition elem_def (g : tcfg) : string * sdef := (gname g, mkDef (gtype g) (presets (props_of (town g)))).

(** An element as it is read back. *)
Definition snapg (g : tcfg) : tcfg := TCfg (snaps (town g)) (touter g).
Lemma snapg_own n g : own n (snapg g) = option_map snapv (own n g).
Proof. apply sfind_snaps. Qed.
Lemma snapg_name g : gname (snapg g) = gname g.
Proof. unfold gname. rewrite snapg_own. destruct (own "name" g) as [[]|]; reflexivity. Qed.
Lemma snapg_type g : gtype (snapg g) = gtype g.
Proof. unfold gtype. rewrite snapg_own. destruct (own "type" g) as [[]|]; reflexivity. Qed.
Lemma snapg_props g : props_of (town (snapg g)) = snaps (props_of (town g)).
Proof. unfold props_of. simpl. apply filter_snaps. reflexivity. Qed.
Lemma snapg_tokens g : elem_tokens (snapg g) = KKw (gname g) :: KColon :: KKw (gtype g) :: prop_tokens (snaps (props_of (town g))) ++ [KSemi].
Proof. unfold elem_tokens. rewrite snapg_name, snapg_type, snapg_props. reflexivity. Qed.

(** A well written element. *)
Definition good_elem (g : tcfg) : Prop :=
  ssorted (town g) /\ own "name" g = Some (TStr (gname g)) /\ own "type" g = Some (TStr (gtype g)) /\
  word (gname g) /\ word (gtype g) /\ prop_ok (town g).
Lemma in_filter_own {P} (m : smap tval) k v : ssorted m -> In (k, v) (filter P m) -> sfind k m = Some v /\ P (k, v) = true.
Proof. intros S H. apply filter_In in H as [H E]. split; [|exact E]. apply ssorted_In_sfind; auto. Qed.
Lemma element_good n t g : element_as n t g -> good_elem g /\ gname g = n.
Proof.
  intros (S & N & T & Wn & Wt & P). unfold good_elem, gname, gtype. rewrite N, T. split; [|reflexivity].
  repeat split; auto; destruct (in_filter_own _ _ _ S H) as [F E]; unfold is_prop in E; simpl in E; rewrite negb_true_iff, orb_false_iff in E;
    destruct E as [E1 E2]; apply String.eqb_neq in E1; apply String.eqb_neq in E2; apply (P k v F E1 E2).
Qed.
Lemma word_nonempty s : word s -> s <> "".
Proof. intros W ->. apply kw_matches in W as (c & b & E & _). discriminate. Qed.
Lemma t_elem g r ts : good_elem g -> tokenises r ts -> tokenises (elem_text g ++ r) (elem_tokens (snapg g) ++ ts).
Proof.
  intros (S & _ & _ & Wn & Wt & P) T. rewrite snapg_tokens. unfold elem_text. rewrite <- !app_assoc. cbn [app]. simpl (txt ": "). cbn [app].
  apply t_def; [exact Wn|exists " "%char; eexists; split; reflexivity|]. apply t_blank. simpl (txt ";"). cbn [app].
  apply t_kw; [exact Wt|apply props_head; auto|]. rewrite <- !app_assoc. apply t_props; [exact P|].
  apply (t_punct ";"%char KSemi); [reflexivity|]. apply t_nl. exact T.
Qed.
Lemma good_props g : good_elem g -> forall k v, In (k, v) (props_of (town g)) -> writable v.
Proof. intros (_ & _ & _ & _ & _ & P) k v H. apply (P k v H). Qed.
Lemma elem_wr g : good_elem g -> wr_stmt (elem_stmt g) (elem_tokens g).
Proof. intros G. constructor. apply props_wr. apply good_props. exact G. Qed.
Lemma t_elems l r ts : Forall good_elem l -> tokenises r ts ->
  tokenises (List.concat (map elem_text l) ++ r) (List.concat (map elem_tokens (map snapg l)) ++ ts).
Proof.
  intros F T. induction F as [|g l G F IH]; [exact T|]. cbn [map List.concat]. rewrite <- !app_assoc. apply t_elem; auto.
Qed.
Lemma elems_wr l : Forall good_elem l -> wr_file (map elem_stmt l) (List.concat (map elem_tokens l)).
Proof. induction 1 as [|g l G F IH]; [constructor|]. cbn [map List.concat]. constructor; [apply elem_wr; exact G|exact IH]. Qed.

(** ** The loop over the elements *)
Fixpoint firsts (seen : list string) (es : list tcfg) : list tcfg :=
  match es with
  | [] => []
  | g :: r => if existsb (String.eqb (gname g)) seen then firsts seen r else g :: firsts (gname g :: seen) r
  end.
Lemma firsts_snap es : forall seen, firsts seen (map snapg es) = map snapg (firsts seen es).
Proof.
  induction es as [|g es IH]; intros seen; [reflexivity|]. cbn [map firsts]. rewrite snapg_name.
  destruct (existsb _ seen); [apply IH|]. cbn [map]. rewrite IH. reflexivity.
Qed.
Lemma get_own n g s : own n g = Some (TStr s) -> get_str g n = Ok s.
Proof. unfold own, get_str, tfind. intros ->. reflexivity. Qed.
Lemma eqb_word s : word s -> String.eqb s "" = false.
Proof. intros W. apply String.eqb_neq. apply word_nonempty. exact W. Qed.
Lemma show_elems_spec es : Forall good_elem es -> forall line seen text, exists seen',
  show_elems (mkStep line seen text) es =
  Ok (mkStep (rev (map gname es) ++ line) seen' (text ++ List.concat (map elem_text (firsts seen es)))).
Proof.
  induction 1 as [|g es G F IH]; intros line seen text; [exists seen; rewrite app_nil_r; reflexivity|].
  cbn [show_elems]. unfold show_elem. pose proof G as (_ & N & T & Wn & Wt & _). rewrite (get_own _ _ _ N), (get_own _ _ _ T).
  rewrite (eqb_word _ Wn), (eqb_word _ Wt). cbn [orb firsts st_line st_shown st_text].
  destruct (existsb (String.eqb (gname g)) seen); cbn [rbind].
  - destruct (IH (gname g :: line) seen text) as [s' ->]. exists s'. cbn [map rev]. rewrite <- app_assoc. reflexivity.
  - destruct (IH (gname g :: line) (gname g :: seen)
      ((text ++ txt (gname g) ++ txt ": " ++ txt (gtype g)) ++ show_props (town g) ++ txt ";" ++ [nl])) as [s' ->].
    exists s'. cbn [map rev List.concat]. rewrite <- !app_assoc. unfold elem_text. rewrite <- !app_assoc. reflexivity.
Qed.
Lemma firsts_in g es : forall seen, In g (firsts seen es) -> In g es.
Proof.
  induction es as [|h es IH]; intros seen H; [contradiction|]. simpl in H. destruct (existsb _ seen).
  - right. eapply IH. exact H.
  - destruct H as [H|H]; [left; exact H|right; eapply IH; exact H].
Qed.
Lemma seen_iff n seen : existsb (String.eqb n) seen = true <-> In n seen.
Proof.
  rewrite existsb_exists. split.
  - intros (x & H & E). apply String.eqb_eq in E. subst. exact H.
  - intros H. exists n. rewrite String.eqb_refl. auto.
Qed.
Lemma firsts_fresh es : forall seen g, In g (firsts seen es) -> ~ In (gname g) seen.
Proof.
  induction es as [|h es IH]; intros seen g H; [contradiction|]. simpl in H. destruct (existsb _ seen) eqn:E.
  - eapply IH. exact H.
  - destruct H as [<-|H].
    + rewrite <- seen_iff, E. discriminate.
    + specialize (IH _ _ H). intros S. apply IH. right. exact S.
Qed.
Lemma firsts_nodup es : forall seen, NoDup (map gname (firsts seen es)).
Proof.
  induction es as [|h es IH]; intros seen; [constructor|]. simpl. destruct (existsb _ seen); [apply IH|].
  simpl. constructor; [|apply IH]. rewrite in_map_iff. intros (g & E & H). apply firsts_fresh in H. apply H. left. symmetry. exact E.
Qed.
Lemma firsts_all es : forall seen g, In g es -> In (gname g) seen \/ In (gname g) (map gname (firsts seen es)).
Proof.
  induction es as [|h es IH]; intros seen g H; [contradiction|]. simpl. destruct (existsb _ seen) eqn:E.
  - destruct H as [<-|H]; [left; apply seen_iff; exact E|apply IH; exact H].
  - destruct H as [<-|H]; [right; left; reflexivity|]. destruct (IH (gname h :: seen) g H) as [[A|A]|A].
    + right. left. exact A.
    + left. exact A.
    + right. right. exact A.
Qed.

(** ** Running the statements *)
Lemma elems_run w l : Forall good_elem l -> NoDup (map gname l) -> forall env,
  (forall g, In g l -> assoc (gname g) (e_elems env) = None) ->
  sexecs w env (map elem_stmt l) = Some (mkEnv (e_vars env) (e_elems env ++ map elem_def l) (e_lines env)).
Proof.
  induction 1 as [|g l G F IH]; intros D env H.
  - cbn [map]. rewrite app_nil_r. destruct env. reflexivity.
  - cbn [map] in D. inversion D as [|? ? D1 D2]. subst. cbn [map sexecs]. unfold elem_stmt at 1. cbn [sexec].
    rewrite (props_run w env _ (good_props g G)). cbn [obind]. pose proof G as (_ & _ & _ & Wn & Wt & _).
    rewrite (eqb_word _ Wn), (eqb_word _ Wt). unfold defined. rewrite (H g (or_introl eq_refl)). cbn [orb obind].
    rewrite IH; [|exact D2|].
    + cbn [e_vars e_elems e_lines]. rewrite <- app_assoc. reflexivity.
    + intros h Hh. cbn [e_elems]. rewrite assoc_app, (H h (or_intror Hh)). cbn [assoc].
      destruct (String.eqb_spec (gname h) (gname g)) as [E|]; [|reflexivity]. exfalso. apply D1. rewrite <- E. apply in_map. exact Hh.
Qed.
Lemma line_run w env ns : (forall n, In n ns -> assoc n (e_vars env) = None /\ defined n (e_elems env) = true) ->
  snames w env (map AVar ns) = Some ns.
Proof.
  induction ns as [|n ns IH]; intros H; [reflexivity|]. cbn [map snames seval]. unfold slookup.
  destruct (H n (or_introl eq_refl)) as [-> ->]. cbn [obind as_line omap2].
  rewrite IH; [reflexivity|]. intros k Hk. apply H. right. exact Hk.
Qed.
Lemma resolve_run env gs : (forall g, In g gs -> assoc (gname g) (e_elems env) = Some (snd (elem_def g))) ->
  sresolve env (map gname gs) = Some (map elem_def gs).
Proof.
  induction gs as [|g gs IH]; intros H; [reflexivity|]. cbn [map sresolve]. rewrite (H g (or_introl eq_refl)). cbn [omap2].
  rewrite IH; [reflexivity|]. intros k Hk. apply H. right. exact Hk.
Qed.
Lemma usable_def g : good_elem g -> usable (elem_def g) = true.
Proof.
  intros G. unfold usable, elem_def. cbn [snd d_props]. apply forallb_forall. intros kv _.
  pose proof (good_props g G) as W. set (m := props_of (town g)) in *. clearbody m.
  induction m as [|[k v] m IH]; [reflexivity|]. cbn [presets].
  destruct (writable_preset v (W k v (or_introl eq_refl))) as (x & -> & St & _). cbn [assoc].
  destruct (String.eqb (fst kv) k); [exact St|]. apply IH. intros j y Hy. eapply W. right. exact Hy.
Qed.
Lemma wr_names ns : wr_list (map AVar ns)
  ((fix go l := match l with [] => [] | [n] => [KKw n] | n :: r => KKw n :: KComma :: go r end) ns).
Proof.
  induction ns as [|n ns IH]; [constructor|]. destruct ns as [|k ns].
  - apply wr_one. apply wr_0, wr_1. constructor.
  - cbn [map] in *. apply (wr_cons (AVar n) _ [KKw n]); [apply wr_0, wr_1; constructor|exact IH].
Qed.
Fixpoint name_tokens (l : list string) : list token :=
  match l with [] => [] | [n] => [KKw n] | n :: r => KKw n :: KComma :: name_tokens r end.
Lemma t_names l r ts : Forall word l -> tokenises (")"%char :: r) ts -> tokenises (separated (map txt l) ++ ")"%char :: r) (name_tokens l ++ ts).
Proof.
  intros F T. induction F as [|n l W F IH]; [exact T|]. destruct l as [|k l].
  - cbn [map separated name_tokens app]. apply t_kw; auto. exists ")"%char, r. auto.
  - cbn [map separated name_tokens app] in *. rewrite <- !app_assoc. apply t_kw; [exact W|exists ","%char; eexists; split; reflexivity|].
    simpl (txt ", "). cbn [app]. apply (t_punct ","%char KComma); [reflexivity|]. apply t_blank. exact IH.
Qed.
