(** The records of a generated database. *)
From Coq Require Import List String Ascii Bool NArith ZArith Arith Lia.
From Verif Require Import SMap SMap_Proofs Lexer_Model Config_Spec Machine_Model Machine_Spec Array_Model Array_Spec Ioc_Model Ioc_Spec
  Ioc4_Proofs Ioc5_Proofs Gen_Model Gen_Spec Gen_Proofs Gen2_Proofs.
Import ListNotations.
Open Scope string_scope.
Open Scope list_scope.
Local Notation la := list_ascii_of_string.

(** ** Macros *)
Lemma expand_plain env l : ~ In "$"%char l -> expand_list env l None = Some l.
Proof.
  induction l as [|c l IH]; intros N; [reflexivity|]. cbn [expand_list].
  replace (Ascii.eqb c "$") with false by (symmetry; apply Ascii.eqb_neq; intros ->; apply N; left; auto).
  rewrite IH; [reflexivity|]. intros I. apply N. right. auto.
Qed.
Lemma expand_none env s : ~ In "$"%char (la s) -> expand env s = Some s.
Proof. intros N. unfold expand. rewrite expand_plain by auto. cbn. rewrite string_of_list_ascii_of_string. reflexivity. Qed.
Lemma str_app a l : string_of_list_ascii (la a ++ l) = (a ++ string_of_list_ascii l)%string.
Proof. induction a; simpl; f_equal; auto. Qed.
(** "$(n)" followed by text. *)
Lemma inner_plain env m l acc : ~ In ")"%char m -> expand_list env (m ++ ")"%char :: l) (Some acc) =
  match macro env (rev acc ++ m), expand_list env l None with Some v, Some t => Some (v ++ t) | _, _ => None end.
Proof.
  revert acc. induction m as [|c m IH]; intros acc N; cbn [app expand_list].
  - rewrite Ascii.eqb_refl, app_nil_r. reflexivity.
  - replace (Ascii.eqb c ")") with false by (symmetry; apply Ascii.eqb_neq; intros ->; apply N; left; auto).
    rewrite IH by (intros I; apply N; right; auto). cbn [rev]. rewrite <- app_assoc. reflexivity.
Qed.

Definition suffix (r : rec) : string := string_of_list_ascii (skipn 4 (la (r_name r))).
Definition tail (r : rec) : string := string_of_list_ascii (skipn 14 (la (r_link r))).
(** How names and links begin; suffixes begin with a letter and have no colon. *)
Definition well_named (r : rec) : bool :=
  (String.eqb (r_name r) ("$(P)" ++ suffix r) && negb (existsb (fun c => Ascii.eqb c "$" || Ascii.eqb c ":") (la (suffix r))) &&
   match la (suffix r) with c :: _ => negb (is_digit c) | [] => false end)%bool.
Fixpoint distinct (l : list string) : bool := match l with [] => true | x :: r => (negb (is_in x r) && distinct r)%bool end.
Lemma distinct_ok l : distinct l = true -> NoDup l.
Proof.
  induction l as [|x l IH]; cbn; intros H; [constructor|]. apply andb_true_iff in H as [H1 H2]. constructor; auto.
  apply is_in_false. apply negb_true_iff. auto.
Qed.
Lemma files_ok : forallb well_named (core_db ++ orbit_db ++ common_template ++ flat_map snd shipped) = true /\
  distinct (map suffix (core_db ++ orbit_db)) = true /\
  forallb (fun p => distinct (map suffix (common_template ++ snd p))) shipped = true.
Proof. split; [|split]; vm_compute; reflexivity. Qed.

(** The shape of a suffix. *)
Definition good_suffix (t : string) : Prop :=
  ~ In ":"%char (la t) /\ ~ In "$"%char (la t) /\ exists c r, la t = c :: r /\ is_digit c = false.
Lemma well_named_ok r : well_named r = true -> r_name r = ("$(P)" ++ suffix r)%string /\ good_suffix (suffix r).
Proof.
  unfold well_named. rewrite !andb_true_iff, negb_true_iff. intros [[E X] Y]. apply String.eqb_eq in E. split; auto.
  assert (N : forall c, (Ascii.eqb c "$" || Ascii.eqb c ":")%bool = true -> ~ In c (la (suffix r))).
  { intros c Hc I. assert (existsb (fun c => Ascii.eqb c "$" || Ascii.eqb c ":")%bool (la (suffix r)) = true) by (apply existsb_exists; eauto). congruence. }
  split; [apply N; reflexivity|]. split; [apply N; reflexivity|]. destruct (la (suffix r)) as [|c l]; [discriminate|].
  apply negb_true_iff in Y. eauto.
Qed.
Lemma macro_first env m l v t : ~ In ")"%char m -> macro env m = Some v -> expand_list env l None = Some t ->
  expand_list env ("$"%char :: "("%char :: m ++ ")"%char :: l) None = Some (v ++ t).
Proof.
  intros N M E. cbn [expand_list]. change (Ascii.eqb "$" "$") with true. cbn iota.
  rewrite inner_plain by auto. cbn [rev app]. rewrite M, E. reflexivity.
Qed.
Lemma name_expands p env r : well_named r = true -> expand (("P", p) :: env) (r_name r) = Some (p ++ suffix r)%string.
Proof.
  intros W. apply well_named_ok in W as (E & _ & N & _). rewrite E. unfold expand. rewrite la_append.
  change (la "$(P)" ++ la (suffix r)) with ("$"%char :: "("%char :: ["P"%char] ++ ")"%char :: la (suffix r)).
  rewrite (macro_first _ _ _ (la p) (la (suffix r))); [|intros [I|[]]; discriminate I|reflexivity|apply expand_plain; auto].
  cbn [option_map]. rewrite str_app, string_of_list_ascii_of_string. reflexivity.
Qed.

(** ** Rows *)
Lemma rname_expands pref sim n k : ~ In "$"%char (la n) ->
  expand [("PREF", pref); ("SIM", sim)] (rname n k) = Some (pref ++ n ++ ":" ++ sfx k)%string.
Proof.
  intros N. unfold expand, rname. rewrite la_append.
  assert (X : ~ In "$"%char (la (n ++ ":" ++ sfx k)%string)).
  { rewrite !la_append, !in_app_iff. intros [I|[[I|[]]|I]]; [auto|discriminate I|]. revert I. destruct k; [intros []|apply dec_no; reflexivity]. }
  change (la "$(PREF)" ++ la (n ++ ":" ++ sfx k)%string) with ("$"%char :: "("%char :: ["P"; "R"; "E"; "F"]%char ++ ")"%char :: la (n ++ ":" ++ sfx k)%string).
  rewrite (macro_first _ _ _ (la pref) (la (n ++ ":" ++ sfx k)%string)); [|cbn; intuition discriminate|reflexivity|apply expand_plain; auto].
  cbn [option_map]. rewrite str_app, string_of_list_ascii_of_string. reflexivity.
Qed.
(** Links. *)
Definition base_env (pref sim : string) := [("PREF", pref); ("SIM", sim)].
Definition row_env (pref sim p e : string) := ("P", p) :: ("ELEM", e) :: base_env pref sim.
Definition elem_rest (r : rec) : string := match expand [] (string_of_list_ascii (skipn 14 (la (r_link r)))) with Some t => t | None => "" end.
Definition sim_rest (r : rec) : string := match expand [] (string_of_list_ascii (skipn 6 (la (r_link r)))) with Some t => t | None => "" end.
Lemma sim_link env sim t u : macro env ["S"; "I"; "M"]%char = Some (la sim) -> expand_list env (la t) None = Some (la u) ->
  expand env ("$(SIM)" ++ t) = Some (sim ++ u)%string.
Proof.
  intros M E. unfold expand. rewrite la_append.
  change (la "$(SIM)" ++ la t) with ("$"%char :: "("%char :: ["S"; "I"; "M"]%char ++ ")"%char :: la t).
  rewrite (macro_first _ _ _ (la sim) (la u)); [|cbn; intuition discriminate|auto|auto]. cbn [option_map].
  rewrite str_app, string_of_list_ascii_of_string. reflexivity.
Qed.
Lemma elem_link env sim e t u : macro env ["S"; "I"; "M"]%char = Some (la sim) -> macro env ["E"; "L"; "E"; "M"]%char = Some (la e) ->
  expand_list env (la t) None = Some (la u) -> expand env ("$(SIM) $(ELEM)" ++ t) = Some (sim ++ " " ++ e ++ u)%string.
Proof.
  intros M M2 E. change ("$(SIM) $(ELEM)" ++ t)%string with ("$(SIM)" ++ (" $(ELEM)" ++ t))%string.
  apply sim_link; auto. rewrite la_append.
  change (la " $(ELEM)" ++ la t) with (" "%char :: ("$"%char :: "("%char :: ["E"; "L"; "E"; "M"]%char ++ ")"%char :: la t)).
  remember ("$"%char :: "("%char :: ["E"; "L"; "E"; "M"]%char ++ ")"%char :: la t) as x eqn:Ex. cbn [expand_list].
  change (Ascii.eqb " " "$") with false. cbn iota. subst x.
  rewrite (macro_first _ _ _ (la e) (la u)); [|cbn; intuition discriminate|auto|auto]. cbn [option_map].
  rewrite !la_append. reflexivity.
Qed.
Definition loaded (sim p e : string) (r : rec) : rec :=
  mkR (p ++ suffix r) (r_dtyp r) (if String.eqb (r_link r) "" then "" else sim ++ " " ++ e ++ elem_rest r).
Definition loaded_top (sim p : string) (r : rec) : rec := mkR (p ++ suffix r) (r_dtyp r) (sim ++ sim_rest r).
Lemma templates_load : Forall (fun r => forall pref sim p e, load (row_env pref sim p e) r = Some (loaded sim p e r))
  (common_template ++ flat_map snd shipped).
Proof.
  assert (W : Forall (fun r => well_named r = true) (common_template ++ flat_map snd shipped)).
  { apply Forall_forall. intros r I. destruct files_ok as [F _]. rewrite forallb_forall in F. apply F. rewrite !in_app_iff in *. tauto. }
  assert (L : Forall (fun r => forall pref sim p e, expand (row_env pref sim p e) (r_link r) =
    Some (if String.eqb (r_link r) "" then "" else sim ++ " " ++ e ++ elem_rest r)%string) (common_template ++ flat_map snd shipped)).
  { unfold common_template, shipped. cbn [app flat_map snd]. repeat constructor; intros;
      match goal with
      | |- expand _ (r_link (mkR _ _ "")) = _ => reflexivity
      | |- expand _ (r_link (mkR ?a ?b ?l)) = _ => cbn [r_link];
          let t := eval vm_compute in (string_of_list_ascii (skipn 14 (list_ascii_of_string l))) in
          let u := eval vm_compute in (elem_rest (mkR a b l)) in
          change (expand (row_env pref sim p e) ("$(SIM) $(ELEM)" ++ t) = Some (sim ++ " " ++ e ++ u)%string); apply elem_link; reflexivity
      end. }
  rewrite Forall_forall in *. intros r I pref sim p e. unfold load. rewrite (L r I). unfold row_env. rewrite name_expands by auto. reflexivity.
Qed.
Lemma top_load : Forall (fun r => forall pref sim, load [("P", pref); ("SIM", sim)] r = Some (loaded_top sim pref r)) (core_db ++ orbit_db).
Proof.
  assert (W : Forall (fun r => well_named r = true) (core_db ++ orbit_db)).
  { apply Forall_forall. intros r I. destruct files_ok as [F _]. rewrite forallb_forall in F. apply F. rewrite !in_app_iff in *. tauto. }
  assert (L : Forall (fun r => forall pref sim, expand [("P", pref); ("SIM", sim)] (r_link r) = Some (sim ++ sim_rest r)%string) (core_db ++ orbit_db)).
  { unfold core_db, orbit_db. cbn [app]. repeat constructor; intros;
      match goal with
      | |- expand _ (r_link (mkR ?a ?b ?l)) = _ => cbn [r_link];
          let t := eval vm_compute in (string_of_list_ascii (skipn 6 (list_ascii_of_string l))) in
          let u := eval vm_compute in (sim_rest (mkR a b l)) in
          change (expand [("P", pref); ("SIM", sim)] ("$(SIM)" ++ t) = Some (sim ++ u)%string); apply sim_link; reflexivity
      end. }
  rewrite Forall_forall in *. intros r I pref sim. unfold load. rewrite (L r I), name_expands by auto. reflexivity.
Qed.
Lemma ename_expands env n k : ~ In "$"%char (la n) -> expand env (ename n k) = Some (ename n k).
Proof.
  intros N. apply expand_none. unfold ename. rewrite la_append, in_app_iff. intros [I|I]; auto.
  destruct k as [|k]; [destruct I|]. cbn [inst bracket] in I. rewrite !la_append, !in_app_iff in I.
  destruct I as [[I|[]]|[I|[I|[]]]]; try discriminate I. revert I. apply dec_no. reflexivity.
Qed.

(** ** Lists *)
Lemma all_some_map {A C} (f : A -> option C) (h : A -> C) l : (forall a, In a l -> f a = Some (h a)) -> all_some (map f l) = Some (map h l).
Proof.
  induction l as [|a l IH]; intros H; [reflexivity|]. cbn [map all_some]. rewrite (H a) by (left; auto). rewrite IH by (intros; apply H; right; auto). reflexivity.
Qed.
Lemma NoDup_flat_map {A C} (f : A -> list C) l : NoDup l -> (forall a, In a l -> NoDup (f a)) ->
  (forall a a' c, In a l -> In a' l -> In c (f a) -> In c (f a') -> a = a') -> NoDup (flat_map f l).
Proof.
  induction l as [|a l IH]; intros ND F X; cbn; [constructor|]. inversion ND as [|y z N ND']; subst.
  assert (A1 : NoDup (f a)) by (apply F; left; auto).
  assert (A2 : NoDup (flat_map f l)) by (apply IH; auto; [intros; apply F; right; auto|intros; eapply X; eauto; right; auto]).
  assert (A3 : forall c, In c (f a) -> ~ In c (flat_map f l)).
  { intros c I I'. apply in_flat_map in I' as (a' & Ia & I'). rewrite (X a a' c) in N; auto; [left; auto|right; auto]. }
  clear - A1 A2 A3. induction (f a) as [|c m IHm]; cbn; auto. inversion A1; subst. constructor.
  - rewrite in_app_iff. intros [I|I]; auto. apply (A3 c); auto. left. auto.
  - apply IHm; auto. intros c' I. apply A3. right. auto.
Qed.
Lemma NoDup_app_both {A} (l m : list A) : NoDup l -> NoDup m -> (forall x, In x l -> ~ In x m) -> NoDup (l ++ m).
Proof.
  intros A1 A2 A3. induction l as [|c l IH]; cbn; auto. inversion A1; subst. constructor.
  - rewrite in_app_iff. intros [I|I]; auto. apply (A3 c); auto. left. auto.
  - apply IH; auto. intros c' I. apply A3. right. auto.
Qed.
Lemma NoDup_map_in {A C} (f : A -> C) l : NoDup l -> (forall a a', In a l -> In a' l -> f a = f a' -> a = a') -> NoDup (map f l).
Proof.
  induction l as [|a l IH]; intros ND X; cbn; [constructor|]. inversion ND; subst. constructor.
  - intros I. apply in_map_iff in I as (a' & E & I). rewrite (X a' a) in I; auto; [right; auto|left; auto].
  - apply IH; auto. intros. apply X; auto; right; auto.
Qed.

Lemma flat_map_map' {A C E} (f : A -> list C) (h : C -> E) l : flat_map (fun a => map h (f a)) l = map h (flat_map f l).
Proof. induction l; cbn; [reflexivity|]. rewrite map_app, IHl. reflexivity. Qed.
Lemma NoDup_app_r {A} (l m : list A) : NoDup (l ++ m) -> NoDup m.
Proof. induction l; cbn; auto. intros H. inversion H; auto. Qed.
Lemma NoDup_app_no {A} (l m : list A) : NoDup (l ++ m) -> forall x, In x l -> ~ In x m.
Proof. induction l as [|a l IH]; intros H x X; [destruct X|]; cbn in H; inversion H as [|y z N ND]; subst. destruct X as [<-|X]; auto. intros I. apply N. apply in_or_app. auto. Qed.

(** ** Names of records *)
Lemma digits_split (d d' : list ascii) c c' r r' : forallb is_digit d = true -> forallb is_digit d' = true -> is_digit c = false -> is_digit c' = false ->
  d ++ c :: r = d' ++ c' :: r' -> d = d' /\ c :: r = c' :: r'.
Proof.
  revert d'. induction d as [|x d IH]; intros [|x' d'] F F' N N' E; cbn in *; auto.
  - injection E as <- _. apply andb_true_iff in F' as [F' _]. congruence.
  - injection E as -> _. apply andb_true_iff in F as [F _]. congruence.
  - injection E as <- E. apply andb_true_iff in F as [_ F]. apply andb_true_iff in F' as [_ F'].
    destruct (IH d' F F' N N' E) as [-> ->]. auto.
Qed.
Lemma sfx_digits k : forallb is_digit (la (sfx k)) = true.
Proof. destruct k; [reflexivity|]. destruct (dec_word (S k)) as [[_ H] _]. exact H. Qed.
Definition pv (pref n : string) (k : nat) (t : string) : string := ((pref ++ n ++ ":" ++ sfx k) ++ t)%string.
Lemma pv_inj pref n k t n' k' t' : good_suffix t -> good_suffix t' -> pv pref n k t = pv pref n' k' t' -> n = n' /\ k = k' /\ t = t'.
Proof.
  intros (C & _ & c & r & E & Nd) (C' & _ & c' & r' & E' & Nd'). unfold pv. rewrite !app_assoc_s. intros H. apply append_inj in H.
  apply colon_inj in H as [-> H].
  - apply (f_equal la) in H. rewrite !la_append, E, E' in H. apply digits_split in H as [H1 H2]; auto; try apply sfx_digits.
    split; auto. split; [apply sfx_inj; apply la_inj; auto|]. apply la_inj. congruence.
  - rewrite la_append, in_app_iff. intros [I|I]; [exact (sfx_colon k I)|auto].
  - rewrite la_append, in_app_iff. intros [I|I]; [exact (sfx_colon k' I)|auto].
Qed.
Lemma pv_colon pref n k t t' : good_suffix t' -> (pref ++ t')%string <> pv pref n k t.
Proof.
  intros (C & _) E. unfold pv in E. rewrite !app_assoc_s in E. apply append_inj in E. apply C. rewrite E.
  rewrite !la_append, !in_app_iff. right. left. left. auto.
Qed.

(** ** The whole database *)
Definition records_of (t : string) : list rec := match sfind t shipped with Some rs => rs | None => [] end.
Lemma template_of t : has_template t = true -> t <> "common" -> template_file (t ++ ".template")%string = Some (records_of t).
Proof.
  unfold has_template, records_of. cbn [sfind]. destruct (String.eqb_spec t "common") as [->|_]; [congruence|]. intros H _. revert H.
  unfold shipped. cbn [sfind]. repeat match goal with |- context [String.eqb t ?x] => destruct (String.eqb_spec t x) as [->|_]; [intros _; reflexivity|] end.
  discriminate.
Qed.
Lemma records_in t r : In r (records_of t) -> In r (flat_map snd shipped).
Proof.
  unfold records_of. destruct (sfind t shipped) as [rs|] eqn:E; [|intros []]. intros I. apply in_flat_map.
  apply sfind_In in E. exists (t, rs). auto.
Qed.
Lemma records_distinct t : has_template t = true -> t <> "common" -> NoDup (map suffix (common_template ++ records_of t)).
Proof.
  unfold has_template, records_of. cbn [sfind]. destruct (String.eqb_spec t "common") as [->|_]; [congruence|]. intros H _.
  destruct (sfind t shipped) as [rs|] eqn:E; [|discriminate]. apply sfind_In in E. apply distinct_ok.
  destruct files_ok as (_ & _ & F). rewrite forallb_forall in F. apply (F (t, rs) E).
Qed.

(** A row of the default mangler. *)
Definition slot_row (w : row) (k : nat) : Prop := w = mkRow (w_elem w) (ename (g_name (w_elem w)) k) (rname (g_name (w_elem w)) k).
Definition row_name (w : row) : string := g_name (w_elem w).
Definition base (w : row) : string := string_of_list_ascii (skipn 7 (la (w_rname w))).
Definition row_records (pref sim : string) (rs : list rec) (w : row) : list rec := map (loaded sim (pref ++ base w) (w_ename w)) rs.
Lemma base_of w k : slot_row w k -> base w = (row_name w ++ ":" ++ sfx k)%string /\ w_ename w = ename (row_name w) k /\ w_rname w = rname (row_name w) k.
Proof.
  intros E. rewrite E. split; [|split; reflexivity]. unfold base. cbn [w_rname]. unfold rname. rewrite la_append. cbn [la app skipn].
  rewrite string_of_list_ascii_of_string. reflexivity.
Qed.
Definition good_row (w : row) : Prop := (exists k, slot_row w k) /\ ~ In "$"%char (la (row_name w)).
Lemma load_row_ok pref sim f rs w : template_file f = Some rs -> incl rs (common_template ++ flat_map snd shipped) ->
  good_row w -> load_row pref sim f w = Some (row_records pref sim rs w).
Proof.
  intros T I [[k E] N]. unfold load_row, row_records. destruct (base_of w k E) as (-> & -> & ->). rewrite T.
  rewrite rname_expands by auto. rewrite ename_expands by auto.
  apply all_some_map. intros r Ir. pose proof templates_load as F. rewrite Forall_forall in F. apply (F r (I r Ir)).
Qed.
Lemma load_section_ok pref sim f rs ws : template_file f = Some rs -> incl rs (common_template ++ flat_map snd shipped) ->
  (forall w, In w ws -> good_row w) -> load_section pref sim (f, ws) = Some (flat_map (row_records pref sim rs) ws).
Proof.
  intros T I G. unfold load_section. cbn [fst snd]. rewrite (all_some_map _ (row_records pref sim rs)); [|intros; apply load_row_ok; auto].
  cbn [option_map]. rewrite flat_map_concat_map. reflexivity.
Qed.
Definition whole (pref sim : string) (all : list row) (gs : list (string * list row)) : list rec :=
  map (loaded_top sim pref) core_db ++ map (loaded_top sim pref) orbit_db ++
  flat_map (row_records pref sim common_template) all ++
  flat_map (fun g => flat_map (row_records pref sim (records_of (fst g))) (snd g)) gs.
Lemma database_ok pref sim all gs nm : (forall w, In w all -> good_row w) ->
  (forall t ws, In (t, ws) gs -> has_template t = true /\ t <> "common" /\ incl ws all) ->
  database pref sim (mkOut (("common.template", all) :: map (fun g => (fst g ++ ".template", snd g)%string) gs) nm) = Some (whole pref sim all gs).
Proof.
  intros G T. unfold database. cbn [o_sections map].
  pose proof top_load as F. rewrite Forall_forall in F.
  rewrite (all_some_map _ (loaded_top sim pref)) by (intros r I; apply F; rewrite in_app_iff; auto).
  rewrite (all_some_map (load [("P", pref); ("SIM", sim)]) (loaded_top sim pref)) by (intros r I; apply F; rewrite in_app_iff; auto).
  cbn [all_some]. rewrite (load_section_ok pref sim "common.template" common_template) by (auto; apply incl_appl, incl_refl).
  rewrite map_map. rewrite (all_some_map _ (fun g => flat_map (row_records pref sim (records_of (fst g))) (snd g))).
  - cbn [option_map List.concat]. unfold whole. rewrite (flat_map_concat_map _ gs). reflexivity.
  - intros [t ws] I. cbn [fst snd]. destruct (T t ws I) as (H1 & H2 & H3). apply load_section_ok.
    + apply template_of; auto.
    + intros r Ir. rewrite in_app_iff. right. apply (records_in t). auto.
    + intros w Iw. apply G, H3, Iw.
Qed.

(** ** No name twice *)
Lemma suffix_good r : In r (core_db ++ orbit_db ++ common_template ++ flat_map snd shipped) -> good_suffix (suffix r).
Proof. intros I. destruct files_ok as [F _]. rewrite forallb_forall in F. apply well_named_ok, F, I. Qed.
Lemma names_row pref sim rs w : map r_name (row_records pref sim rs w) = map (fun r => ((pref ++ base w) ++ suffix r)%string) rs.
Proof. unfold row_records. rewrite map_map. reflexivity. Qed.
Lemma row_name_inj pref w w' r r' : good_row w -> good_row w' -> In r (common_template ++ flat_map snd shipped) -> In r' (common_template ++ flat_map snd shipped) ->
  ((pref ++ base w) ++ suffix r = (pref ++ base w') ++ suffix r')%string -> w_rname w = w_rname w' /\ suffix r = suffix r'.
Proof.
  intros [[k E] _] [[k' E'] _] I I' H. destruct (base_of w k E) as (B & _ & R). destruct (base_of w' k' E') as (B' & _ & R').
  rewrite B, B' in H. assert (G : forall x, In x (common_template ++ flat_map snd shipped) -> good_suffix (suffix x)) by (intros x Ix; apply suffix_good; rewrite !in_app_iff in *; tauto).
  apply (pv_inj pref (row_name w) k (suffix r) (row_name w') k' (suffix r')) in H as (A1 & A2 & A3); auto. split; auto. rewrite R, R', A1, A2. reflexivity.
Qed.
Lemma names_distinct pref sim all gs : (forall w, In w all -> good_row w) -> NoDup (map w_rname all) -> NoDup (map fst gs) ->
  (forall t ws, In (t, ws) gs -> has_template t = true /\ t <> "common" /\ ws = filter (fun w => String.eqb (g_type (w_elem w)) t) all) ->
  NoDup (map r_name (whole pref sim all gs)).
Proof.
  intros G ND NG T.
  assert (RI : forall w w', In w all -> In w' all -> w_rname w = w_rname w' -> w = w').
  { clear - ND. induction all as [|a l IH]; intros w w' I I' E; [destruct I|]. cbn in ND. inversion ND as [|x y N ND']; subst.
    destruct I as [<-|I], I' as [<-|I']; auto; exfalso; apply N.
    - rewrite E. apply in_map. auto.
    - rewrite <- E. apply in_map. auto. }
  assert (NA : NoDup all) by (eapply NoDup_map_inv; eauto).
  assert (NGS : NoDup gs) by (eapply NoDup_map_inv; eauto).
  unfold whole. rewrite !app_assoc, <- map_app. rewrite <- !app_assoc. rewrite !map_app.
  assert (TOP : NoDup (map r_name (map (loaded_top sim pref) (core_db ++ orbit_db)))).
  { rewrite map_map. destruct files_ok as (_ & F & _). apply distinct_ok in F.
    rewrite <- (map_map suffix (fun t => (pref ++ t)%string)). apply NoDup_map_in; auto. intros a a' _ _ E. apply append_inj in E. auto. }
  assert (IN : forall x f, In x (map r_name (flat_map f all)) -> exists w r0, In w all /\ In r0 (f w) /\ x = r_name r0).
  { intros x f I. apply in_map_iff in I as (r0 & <- & I). apply in_flat_map in I as (w & Iw & Ir). eauto. }
  assert (INR : forall t r, In r (records_of t) -> In r (common_template ++ flat_map snd shipped)) by (intros t r I; rewrite in_app_iff; right; eapply records_in; eauto).
  assert (COM : forall x, In x (map r_name (flat_map (row_records pref sim common_template) all)) <->
    exists w r, In w all /\ In r common_template /\ x = ((pref ++ base w) ++ suffix r)%string).
  { intros x. rewrite in_map_iff. split.
    - intros (r0 & <- & I). apply in_flat_map in I as (w & Iw & Ir). apply in_map_iff in Ir as (r & <- & Ir). exists w, r. auto.
    - intros (w & r & Iw & Ir & ->). exists (loaded sim (pref ++ base w) (w_ename w) r). split; auto. apply in_flat_map. exists w. split; auto. apply in_map. auto. }
  assert (TYP : forall x, In x (map r_name (flat_map (fun g => flat_map (row_records pref sim (records_of (fst g))) (snd g)) gs)) <->
    exists t ws w r, In (t, ws) gs /\ In w ws /\ In r (records_of t) /\ x = ((pref ++ base w) ++ suffix r)%string).
  { intros x. rewrite in_map_iff. split.
    - intros (r0 & <- & I). apply in_flat_map in I as ([t ws] & Ig & I). cbn [fst snd] in I. apply in_flat_map in I as (w & Iw & Ir). apply in_map_iff in Ir as (r & <- & Ir). exists t, ws, w, r. auto.
    - intros (t & ws & w & r & Ig & Iw & Ir & ->). exists (loaded sim (pref ++ base w) (w_ename w) r). split; auto. apply in_flat_map. exists (t, ws). split; auto.
      cbn [fst snd]. apply in_flat_map. exists w. split; auto. apply in_map. auto. }
  assert (WS : forall t ws w, In (t, ws) gs -> In w ws -> In w all /\ g_type (w_elem w) = t).
  { intros t ws w Ig Iw. destruct (T t ws Ig) as (_ & _ & ->). apply filter_In in Iw as [Iw E]. apply String.eqb_eq in E. auto. }
  assert (ROW : forall w rs, good_row w -> incl rs (common_template ++ flat_map snd shipped) -> NoDup (map suffix rs) -> NoDup (map r_name (row_records pref sim rs w))).
  { intros w rs Gw I N. rewrite names_row. rewrite <- (map_map suffix (fun t => ((pref ++ base w) ++ t)%string)). apply NoDup_map_in; auto.
    intros a a' _ _ E. apply append_inj in E. auto. }
  apply NoDup_app_both; auto; [apply NoDup_app_both|].
  - rewrite <- flat_map_map'. apply NoDup_flat_map; auto.
    + intros w Iw. apply ROW; auto; [apply incl_appl, incl_refl|]. apply distinct_ok. vm_compute. reflexivity.
    + intros w w' x Iw Iw' I I'. rewrite names_row in I, I'. apply in_map_iff in I as (r & <- & Ir). apply in_map_iff in I' as (r' & E & Ir').
      symmetry in E. apply row_name_inj in E as [E _]; auto; rewrite in_app_iff; auto.
  - rewrite <- flat_map_map'. apply NoDup_flat_map; auto.
    + intros [t ws] Ig. cbn [fst snd]. destruct (T t ws Ig) as (H1 & H2 & H3). rewrite <- flat_map_map'. apply NoDup_flat_map; auto.
      * subst ws. apply NoDup_filter; auto.
      * intros w Iw. apply ROW; [apply G, (WS t ws); auto|intros r Ir; eapply INR; eauto|].
        pose proof (records_distinct t H1 H2) as N. rewrite map_app in N. apply NoDup_app_r in N. exact N.
      * intros w w' x Iw Iw' I I'. rewrite names_row in I, I'. apply in_map_iff in I as (r & <- & Ir). apply in_map_iff in I' as (r' & E & Ir').
        symmetry in E. destruct (WS t ws w Ig Iw), (WS t ws w' Ig Iw'). apply row_name_inj in E as [E _]; eauto.
    + intros [t ws] [t' ws'] x Ig Ig' I I'. cbn [fst snd] in I, I'.
      apply in_map_iff in I as (r0 & <- & I). apply in_flat_map in I as (w & Iw & Ir). apply in_map_iff in Ir as (r & <- & Ir).
      apply in_map_iff in I' as (r0' & E & I'). apply in_flat_map in I' as (w' & Iw' & Ir'). apply in_map_iff in Ir' as (r' & <- & Ir').
      cbn [loaded r_name] in E. symmetry in E. destruct (WS t ws w Ig Iw), (WS t' ws' w' Ig' Iw'). apply row_name_inj in E as [E _]; eauto.
      apply RI in E; auto. subst w'. assert (Et : t = t') by congruence.
      rewrite (proj2 (proj2 (T t ws Ig))), (proj2 (proj2 (T t' ws' Ig'))), Et. reflexivity.
  - intros x I I'. apply COM in I as (w & r & Iw & Ir & ->). apply TYP in I' as (t & ws & w' & r' & Ig & Iw' & Ir' & E).
    destruct (WS t ws w' Ig Iw') as [Iw2 _]. apply row_name_inj in E as [_ E]; eauto; [|rewrite in_app_iff; auto].
    destruct (T t ws Ig) as (H1 & H2 & _). pose proof (records_distinct t H1 H2) as N. rewrite map_app in N.
    apply (NoDup_app_no _ _ N (suffix r)); [apply in_map; auto|]. rewrite E. apply in_map. auto.
  - intros x I I'. rewrite <- map_app, <- map_app, map_map in I. apply in_map_iff in I as (r & <- & Ir). cbn [loaded_top r_name] in I'.
    assert (GS : good_suffix (suffix r)) by (apply suffix_good; rewrite !in_app_iff in *; tauto).
    assert (X : forall w r', In w all -> (pref ++ suffix r)%string <> ((pref ++ base w) ++ suffix r')%string).
    { intros w r' Iw. destruct (G w Iw) as [[k E] _]. destruct (base_of w k E) as (-> & _). apply (pv_colon pref (row_name w) k (suffix r')). auto. }
    apply in_app_or in I' as [I'|I'].
    + apply COM in I' as (w & r' & Iw & _ & E). exact (X w r' Iw E).
    + apply TYP in I' as (t & ws & w & r' & Ig & Iw & _ & E). destruct (WS t ws w Ig Iw). exact (X w r' H E).
Qed.
