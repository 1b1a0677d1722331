(** Consequences used by the property theorems. *)
From Coq Require Import List String Ascii Bool ZArith QArith Lia Arith.
From Verif Require Import SMap SMap_Proofs Dbl Config_Model Config_Spec Lexer_Model Lexer_Spec Lexer_Proofs
  Glps_Model Glps_Spec Glps_Proofs Glps2_Proofs Glps3_Proofs Glps4_Proofs Glps5_Proofs.
Import ListNotations.
Open Scope string_scope.
Open Scope list_scope.
Open Scope nat_scope.

(** * Meaning of a file *)
Lemma tokens_parsed w vars lat ts t : ssorted vars ->
  (parse_tokens w vars lat ts false = Parsed t <->
   exists p r, wr_file p ts /\ srun w vars lat p = Some r /\ shows r t).
Proof.
  intros Hs. pose proof (parse_spec w vars lat ts Hs) as H. split.
  - intros E. destruct (tree_of ts) as [p rr|k| |u|] eqn:Et; try (rewrite E in H; contradiction).
    assert (Hr : rr = []) by (eapply all_rest; exact Et). subst rr.
    apply tree_sound in Et. destruct (srun w vars lat p) as [r|] eqn:Er.
    + destruct H as (t' & E' & Sh). exists p, r. split; [exact Et|]. split; [exact Er|]. replace t with t' by congruence. exact Sh.
    + rewrite E in H. destruct H as [H|[H|H]]; discriminate.
  - intros (p & r & Hw & Hr & Sh). rewrite (tree_complete p ts Hw), Hr in H.
    destruct H as (t' & E' & Sh'). rewrite E'. f_equal. eapply shows_unique; eauto.
Qed.

Lemma text_parsed w vars lat s t : ssorted vars ->
  (parse_text w vars lat s = Parsed t <->
   exists p r, spells s p /\ srun w vars lat p = Some r /\ shows r t).
Proof.
  intros Hs. unfold parse_text, spells. split.
  - destruct (lex s) as [[ts [|]]|] eqn:El; [intros E; exfalso; eapply parse_lexerr; exact E| |discriminate].
    intros E. apply (tokens_parsed w vars lat ts t Hs) in E as (p & r & Hw & Hr & Sh).
    exists p, r. split; [|auto]. exists ts. split; [apply lex_tokenises; exact El|exact Hw].
  - intros (p & r & (ts & Ht & Hw) & Hr & Sh). apply lex_tokenises in Ht. rewrite Ht.
    apply (tokens_parsed w vars lat ts t Hs). eauto.
Qed.

Lemma spells_unique s p q : spells s p -> spells s q -> p = q.
Proof.
  intros (ts & H1 & H2) (us & H3 & H4). apply lex_tokenises in H1, H3. assert (ts = us) by congruence. subst.
  eapply wr_file_unique; eauto.
Qed.

Lemma text_not_parsed w vars lat s p : ssorted vars -> spells s p -> srun w vars lat p = None ->
  forall t, parse_text w vars lat s <> Parsed t.
Proof.
  intros Hs Hp Hn t E. apply (text_parsed w vars lat s t Hs) in E as (q & r & Hq & Hr & _).
  rewrite (spells_unique s q p Hq Hp) in Hr. congruence.
Qed.

Lemma text_safe w vars lat s : ssorted vars ->
  match parse_text w vars lat s with
  | Parsed _ | Failed | FailedKvFree | Undefined UBCast => True
  | _ => False
  end.
Proof.
  intros Hs. unfold parse_text. destruct (lex_total s) as (ts & e & ->). apply parse_safe. exact Hs.
Qed.

Lemma lexical_error w vars lat s : (~ exists ts, tokenises (list_ascii_of_string s) ts) ->
  forall t, parse_text w vars lat s <> Parsed t.
Proof.
  intros H t. apply lex_error in H as (ts & E). unfold parse_text. rewrite E. apply parse_lexerr.
Qed.
Lemma syntax_error w vars lat s : ssorted vars -> (~ exists p, spells s p) ->
  forall t, parse_text w vars lat s <> Parsed t.
Proof. intros Hs H t E. apply (text_parsed w vars lat s t Hs) in E as (p & r & Hp & _). eauto. Qed.

Lemma srun_inv w vars lat p r : srun w vars lat p = Some r ->
  exists env, sexecs w (env0 vars) p = Some env /\ fst r = e_vars env /\
    (if lat then exists l, slat env = Some l /\ snd r = Some l else snd r = None).
Proof.
  unfold srun. intros H. apply obind_some in H as (env & He & H). exists env. split; [exact He|].
  destruct lat.
  - destruct (slat env) as [l|]; [|discriminate]. injection H as <-. simpl. eauto.
  - injection H as <-. auto.
Qed.

Lemma statement_error w vars lat s p1 st p2 env : ssorted vars -> spells s (p1 ++ st :: p2) ->
  sexecs w (env0 vars) p1 = Some env -> sexec w env st = None ->
  forall t, parse_text w vars lat s <> Parsed t.
Proof.
  intros Hs Hp H1 H2. eapply text_not_parsed; eauto. unfold srun. rewrite sexecs_app, H1. simpl. rewrite H2. reflexivity.
Qed.

(** * Elements *)
Lemma slat_inv env l : slat env = Some l -> exists ns, sselect env = Some (l_name l, ns) /\ ns <> [] /\
  sresolve env ns = Some (l_elems l).
Proof.
  unfold slat. intros H. apply obind_some in H as ([n ns] & Hsel & H). simpl in H.
  destruct ns as [|x xs]; [discriminate|]. apply obind_some in H as (es & Hes & H).
  destruct (forallb usable es); [|discriminate]. injection H as <-. exists (x :: xs). repeat split; auto. discriminate.
Qed.
Lemma sresolve_names env ns : forall ds, sresolve env ns = Some ds -> map fst ds = ns /\
  Forall (fun d => assoc (fst d) (e_elems env) = Some (snd d)) ds.
Proof.
  induction ns as [|n ns IH]; intros ds H; simpl in H.
  - injection H as <-. split; [reflexivity|constructor].
  - destruct (assoc n (e_elems env)) as [d|] eqn:E; [|discriminate]. destruct (sresolve env ns) as [l|]; [|discriminate].
    simpl in H. injection H as <-. destruct (IH l eq_refl) as [H1 H2]. simpl. rewrite H1. split; [reflexivity|]. constructor; auto.
Qed.
Lemma sselect_in env n l : sselect env = Some (n, l) -> In (n, l) (e_lines env).
Proof.
  unfold sselect. destruct (assoc "USE" (e_elems env)) as [d|].
  - destruct (assoc (d_type d) (e_lines env)) as [l'|] eqn:E; [|discriminate]. intros H. injection H as <- <-.
    apply assoc_In. exact E.
  - unfold last_def. destruct (rev (e_lines env)) as [|[n' l'] r] eqn:E; [discriminate|]. intros H. injection H as <- <-.
    apply in_rev. rewrite E. left. reflexivity.
Qed.

Lemma shows_lattice vs lat t : shows (vs, Some lat) t ->
  tlookup "name" t = Some (TStr (l_name lat)) /\ Forall2 (shows_elem vs) (l_elems lat) (elements_of t) /\
  (forall k, k <> "elements" -> k <> "name" -> tlookup k t = option_map shown (assoc k vs)).
Proof.
  intros (H1 & H2 & es & H3 & H4). simpl in *. unfold elements_of, tlookup. rewrite H2. rewrite !H4. simpl.
  split; [reflexivity|]. split; [exact H3|]. intros k Hk1 Hk2. rewrite H4.
  destruct (String.eqb_spec k "elements"); [congruence|]. destruct (String.eqb_spec k "name"); [congruence|].
  destruct (option_map shown (assoc k vs)); reflexivity.
Qed.

Definition elem_name (g : tcfg) : option tval := tlookup "name" g.
Lemma shows_elem_name vs d g : shows_elem vs d g -> tlookup "name" g = Some (TStr (fst d)).
Proof. intros (_ & _ & H & _). unfold tlookup. rewrite H. reflexivity. Qed.
Lemma shows_elem_names vs ds gs : Forall2 (shows_elem vs) ds gs ->
  map (tlookup "name") gs = map (fun n => Some (TStr n)) (map fst ds).
Proof. induction 1; simpl; [reflexivity|]. rewrite IHForall2, (shows_elem_name _ _ _ H). reflexivity. Qed.

(** A lattice was returned: everything there is to know about it. *)
Lemma lattice_inv w vars s t : ssorted vars -> parse_text w vars true s = Parsed t ->
  exists p env lat ns, spells s p /\ sexecs w (env0 vars) p = Some env /\
    sselect env = Some (l_name lat, ns) /\ ns <> [] /\ map fst (l_elems lat) = ns /\
    Forall (fun d => assoc (fst d) (e_elems env) = Some (snd d)) (l_elems lat) /\
    tlookup "name" t = Some (TStr (l_name lat)) /\ Forall2 (shows_elem (e_vars env)) (l_elems lat) (elements_of t) /\
    (forall k, k <> "elements" -> k <> "name" -> tlookup k t = option_map shown (assoc k (e_vars env))).
Proof.
  intros Hs E. apply (text_parsed w vars true s t Hs) in E as (p & r & Hp & Hr & Sh).
  apply srun_inv in Hr as (env & He & Hv & lat & Hl & Hsn). destruct r as [vs ol]. simpl in *. subst vs ol.
  apply slat_inv in Hl as (ns & Hsel & Hne & Hres). apply sresolve_names in Hres as [Hn Hd].
  apply shows_lattice in Sh as (S1 & S2 & S3). exists p, env, lat, ns. repeat split; auto.
Qed.

Lemma expansion w vars s t : ssorted vars -> parse_text w vars true s = Parsed t ->
  exists p1 n ty ms p2 nss,
    spells s (p1 ++ SLine n ty ms :: p2) /\ tlookup "name" t = Some (TStr n) /\
    flats w vars p1 ms nss /\
    map (tlookup "name") (elements_of t) = map (fun x => Some (TStr x)) (List.concat nss).
Proof.
  intros Hs E. destruct (lattice_inv w vars s t Hs E) as (p & env & lat & ns & Hp & He & Hsel & Hne & Hn & Hd & H1 & H2 & H3).
  apply sselect_in in Hsel. destruct (run_flat w vars Hs p env He _ _ Hsel) as (p1 & ty & ms & p2 & nss & -> & Hf & ->).
  exists p1, (l_name lat), ty, ms, p2, nss. repeat split; auto. rewrite (shows_elem_names _ _ _ H2), Hn. reflexivity.
Qed.

Lemma elements_defined w vars s t g : ssorted vars -> parse_text w vars true s = Parsed t -> In g (elements_of t) ->
  exists p1 n ty l p2 env ps,
    spells s (p1 ++ SElem n ty l :: p2) /\ sexecs w (env0 vars) p1 = Some env /\ sprops w env l = Some ps /\
    forall k, sfind k (town g) =
      if String.eqb k "name" then Some (TStr n) else if String.eqb k "type" then Some (TStr ty)
      else option_map shown (assoc k ps).
Proof.
  intros Hs E Hg. destruct (lattice_inv w vars s t Hs E) as (p & env & lat & ns & Hp & He & Hsel & Hne & Hn & Hd & H1 & H2 & H3).
  assert (Hx : exists d, In d (l_elems lat) /\ shows_elem (e_vars env) d g).
  { clear -H2 Hg. induction H2 as [|d g' ds gs H F IH]; [destruct Hg|]. destruct Hg as [<-|Hg]; [exists d; simpl; auto|].
    destruct (IH Hg) as (d' & A & B). exists d'. simpl. auto. }
  destruct Hx as ([n d] & Hin & Sh). rewrite Forall_forall in Hd. apply Hd in Hin. simpl in Hin.
  destruct (run_elem w vars p env n d He Hin) as (p1 & ty & l & p2 & e1 & ps & -> & A & B & ->).
  exists p1, n, ty, l, p2, e1, ps. repeat split; auto. destruct Sh as (_ & _ & Sh & _). exact Sh.
Qed.

Lemma undefined_member w vars lat s p1 n ty ms p2 x : ssorted vars -> spells s (p1 ++ SLine n ty ms :: p2) ->
  In (AVar x) ms -> ~ is_elem p1 x -> ~ is_line p1 x -> forall t, parse_text w vars lat s <> Parsed t.
Proof.
  intros Hs Hp Hin He Hl. eapply text_not_parsed; eauto. unfold srun. rewrite sexecs_app.
  destruct (sexecs w (env0 vars) p1) as [env|] eqn:E1; [|reflexivity]. simpl.
  destruct (run_names w vars p1 env E1) as (NV & NE & NL). destruct (run_rel w vars Hs p1 env E1) as [c R].
  assert (Hx : obind (slookup env x) as_line = None).
  { unfold slookup. destruct (assoc x (e_vars env)) as [v|] eqn:Ev.
    - apply assoc_In in Ev. pose proof (r_stor _ _ R) as S. rewrite Forall_forall in S. apply S in Ev. simpl in Ev.
      destruct v; try reflexivity. discriminate.
    - unfold defined. destruct (assoc x (e_elems env)) eqn:Ee; [exfalso; apply He; apply NE; congruence|].
      destruct (assoc x (e_lines env)) eqn:El; [exfalso; apply Hl; apply NL; congruence|].
      destruct (String.eqb x "pi"); reflexivity. }
  assert (Hn : snames w env ms = None).
  { clear -Hin Hx. induction ms as [|e ms IH]; [destruct Hin|]. simpl. destruct Hin as [->|Hin].
    - cbn [seval]. rewrite Hx. reflexivity.
    - rewrite (IH Hin). destruct (obind (seval w env e) as_line); reflexivity. }
  rewrite Hn. reflexivity.
Qed.

(** * Duplicates *)
Lemma run_None_app w env p q : sexecs w env p = None -> sexecs w env (p ++ q) = None.
Proof. rewrite sexecs_app. intros ->. reflexivity. Qed.

Lemma duplicate w vars lat s p1 a p2 b p3 : ssorted vars -> spells s (p1 ++ a :: p2 ++ b :: p3) -> same_def a b ->
  forall t, parse_text w vars lat s <> Parsed t.
Proof.
  intros Hs Hp Hd. eapply text_not_parsed; eauto. unfold srun.
  replace (p1 ++ a :: p2 ++ b :: p3) with ((p1 ++ a :: p2) ++ b :: p3) by (rewrite <- app_assoc; reflexivity).
  rewrite sexecs_app. destruct (sexecs w (env0 vars) (p1 ++ a :: p2)) as [env|] eqn:E1; [|reflexivity]. simpl.
  destruct (run_names w vars _ env E1) as (NV & NE & NL).
  destruct (sexec w env b) as [env'|] eqn:Eb; [|reflexivity]. exfalso. apply sexec_cases in Eb.
  assert (Hin : In a (p1 ++ a :: p2)) by (apply in_or_app; simpl; auto).
  destruct a as [n e|n ty l|n ty l|f e|n], b as [n' e'|n' ty' l'|n' ty' l'|f' e'|n']; simpl in Hd; try contradiction; subst n'.
  - destruct Eb as (v & _ & _ & Hn & _). apply (proj2 (NV n)); [|exact Hn]. right. eauto.
  - destruct Eb as (v & _ & _ & _ & Hn & _). apply (proj2 (NE n)); [|exact Hn]. exists ty, l. exact Hin.
  - destruct Eb as (v & _ & _ & Hn & _). apply (proj2 (NL n)); [|exact Hn]. exists ty, l. exact Hin.
Qed.

Lemma preset_duplicate w vars lat s p1 n e p2 : ssorted vars -> spells s (p1 ++ SAssign n e :: p2) ->
  assoc n (presets vars) <> None -> forall t, parse_text w vars lat s <> Parsed t.
Proof.
  intros Hs Hp Hd. eapply text_not_parsed; eauto. unfold srun. rewrite sexecs_app.
  destruct (sexecs w (env0 vars) p1) as [env|] eqn:E1; [|reflexivity]. simpl.
  destruct (run_names w vars _ env E1) as (NV & NE & NL).
  destruct (sexec w env (SAssign n e)) as [env'|] eqn:Eb; [|simpl in Eb; rewrite Eb; reflexivity]. exfalso.
  apply sexec_cases in Eb. destruct Eb as (v & _ & _ & Hn & _). apply (proj2 (NV n)); [|exact Hn]. left. exact Hd.
Qed.

Lemma sprops_app w env l1 l2 ps : sprops w env (l1 ++ l2) = Some ps ->
  exists a b, sprops w env l1 = Some a /\ sprops w env l2 = Some b /\ ps = a ++ b.
Proof.
  revert ps. induction l1 as [|[k e] l1 IH]; intros ps H; simpl in *; [exists [], ps; auto|].
  destruct (seval w env e) as [v|]; [|discriminate]. destruct (sprops w env (l1 ++ l2)) as [q|]; [|discriminate].
  simpl in H. injection H as <-. destruct (IH q eq_refl) as (a & b & -> & -> & ->). simpl. exists ((k, v) :: a), b. auto.
Qed.
Lemma sprops_keys w env l : forall ps, sprops w env l = Some ps -> map fst ps = map fst l.
Proof.
  induction l as [|[k e] l IH]; intros ps H; simpl in *; [injection H as <-; reflexivity|].
  destruct (seval w env e) as [v|]; [|discriminate]. destruct (sprops w env l) as [q|]; [|discriminate].
  simpl in H. injection H as <-. simpl. f_equal. auto.
Qed.
Lemma first_property w vars s t g p1 n ty l1 k e l2 p2 env :
  ssorted vars -> parse_text w vars true s = Parsed t ->
  spells s (p1 ++ SElem n ty (l1 ++ (k, e) :: l2) :: p2) -> sexecs w (env0 vars) p1 = Some env ->
  ~ In k (map fst l1) -> k <> "name" -> k <> "type" ->
  In g (elements_of t) -> tlookup "name" g = Some (TStr n) ->
  exists v, seval w env e = Some v /\ tlookup k g = Some (shown v).
Proof.
  intros Hs E Hp He Hk Hkn Hkt Hg Hname.
  destruct (lattice_inv w vars s t Hs E) as (p & envf & lat & ns & Hp' & He' & Hsel & Hne & Hn & Hd & H1 & H2 & H3).
  assert (p = p1 ++ SElem n ty (l1 ++ (k, e) :: l2) :: p2) as -> by (eapply spells_unique; eauto).
  assert (Hx : exists d, In d (l_elems lat) /\ shows_elem (e_vars envf) d g).
  { clear -H2 Hg. induction H2 as [|d g' ds gs H F IH]; [destruct Hg|]. destruct Hg as [<-|Hg]; [exists d; simpl; auto|].
    destruct (IH Hg) as (d' & A & B). exists d'. simpl. auto. }
  destruct Hx as ([n' d] & Hin & Sh). rewrite Forall_forall in Hd. apply Hd in Hin. simpl in Hin.
  rewrite (shows_elem_name _ _ _ Sh) in Hname. simpl in Hname. injection Hname as ->.
  apply sexecs_split in He' as (e1 & e2 & R1 & R2 & R3). assert (e1 = env) by congruence. subst e1.
  apply sexec_cases in R2 as (ps & Hps & _ & _ & Hnone & ->).
  assert (Hmono : forall q a b m dd, sexecs w a q = Some b -> assoc m (e_elems a) = Some dd -> assoc m (e_elems b) = Some dd).
  { clear. induction q as [|st q IH]; intros a b m dd H Hm; simpl in H; [injection H as <-; exact Hm|].
    apply obind_some in H as (a1 & H1 & H2). eapply IH; [exact H2|]. apply sexec_cases in H1.
    destruct st; [destruct H1 as (v & _ & _ & _ & ->)|destruct H1 as (v & _ & _ & _ & _ & ->)|destruct H1 as (v & _ & _ & _ & ->)|destruct H1 as (_ & -> & _)|destruct H1 as (_ & ->)]; simpl; auto.
    rewrite assoc_app, Hm. reflexivity. }
  assert (Hdd : assoc n (e_elems envf) = Some (mkDef ty ps)).
  { eapply Hmono; [exact R3|]. simpl. rewrite assoc_app, Hnone. simpl. rewrite String.eqb_refl. reflexivity. }
  assert (d = mkDef ty ps) as -> by congruence.
  apply sprops_app in Hps as (a & b & Ha & Hb & ->). simpl in Hb.
  destruct (seval w env e) as [v|]; [|discriminate]. destruct (sprops w env l2) as [q|]; [|discriminate].
  simpl in Hb. injection Hb as <-. exists v. split; [reflexivity|].
  destruct Sh as (_ & _ & Sh & _). unfold tlookup. rewrite Sh. simpl.
  destruct (String.eqb_spec k "name"); [congruence|]. destruct (String.eqb_spec k "type"); [congruence|].
  rewrite assoc_app. assert (Hka : assoc k a = None) by (apply assoc_None; rewrite (sprops_keys _ _ _ _ Ha); exact Hk).
  rewrite Hka. simpl. rewrite String.eqb_refl. reflexivity.
Qed.

(** * Line selection *)
Lemma use_selects w vars s t p ty l : ssorted vars -> parse_text w vars true s = Parsed t -> spells s p ->
  In (SElem "USE" ty l) p -> tlookup "name" t = Some (TStr ty).
Proof.
  intros Hs E Hp Hin. destruct (lattice_inv w vars s t Hs E) as (q & env & lat & ns & Hq & He & Hsel & Hne & Hn & Hd & H1 & H2 & H3).
  assert (q = p) as -> by (eapply spells_unique; eauto). rewrite H1. f_equal. f_equal.
  apply in_split in Hin as (p1 & p2 & ->). 
  assert (Huse : exists ps, assoc "USE" (e_elems env) = Some (mkDef ty ps)).
  { apply sexecs_split in He as (e1 & e2 & R1 & R2 & R3). apply sexec_cases in R2 as (ps & Hps & _ & _ & Hnone & ->).
    exists ps.
    assert (Hmono : forall q a b m dd, sexecs w a q = Some b -> assoc m (e_elems a) = Some dd -> assoc m (e_elems b) = Some dd).
    { clear. induction q as [|st q IH]; intros a b m dd H Hm; simpl in H; [injection H as <-; exact Hm|].
      apply obind_some in H as (a1 & H1 & H2). eapply IH; [exact H2|]. apply sexec_cases in H1.
      destruct st; [destruct H1 as (v & _ & _ & _ & ->)|destruct H1 as (v & _ & _ & _ & _ & ->)|destruct H1 as (v & _ & _ & _ & ->)|destruct H1 as (_ & -> & _)|destruct H1 as (_ & ->)]; simpl; auto.
      rewrite assoc_app, Hm. reflexivity. }
    eapply Hmono; [exact R3|]. simpl. rewrite assoc_app, Hnone. reflexivity. }
  destruct Huse as (ps & Hu). unfold sselect in Hsel. rewrite Hu in Hsel. simpl in Hsel.
  destruct (assoc ty (e_lines env)); [|discriminate]. injection Hsel as <- _. reflexivity.
Qed.

Lemma run_last_line w vars p : forall env, sexecs w (env0 vars) p = Some env ->
  match last_def (e_lines env) with
  | Some (n, _) => exists p1 ty ms p2, p = p1 ++ SLine n ty ms :: p2 /\ forall m, ~ is_line p2 m
  | None => forall m, ~ is_line p m
  end.
Proof.
  induction p as [|st p IH] using rev_ind; intros env H.
  - injection H as <-. simpl. intros m (t & l & []).
  - apply sexecs_snoc in H as (e1 & H1 & H2). apply sexec_cases in H2. specialize (IH e1 H1).
    assert (Old : e_lines env = e_lines e1 -> (forall n t l, st <> SLine n t l) ->
      match last_def (e_lines env) with
      | Some (n, _) => exists p1 ty ms p2, p ++ [st] = p1 ++ SLine n ty ms :: p2 /\ forall m, ~ is_line p2 m
      | None => forall m, ~ is_line (p ++ [st]) m
      end).
    { intros -> Hst. destruct (last_def (e_lines e1)) as [[n ns]|].
      - destruct IH as (p1 & ty & ms & p2 & -> & Hn). exists p1, ty, ms, (p2 ++ [st]). rewrite <- app_assoc.
        split; [reflexivity|]. intros m Hm. apply is_line_app in Hm as [Hm|(t & l & ->)]; [eapply Hn; eauto|eapply Hst; eauto].
      - intros m Hm. apply is_line_app in Hm as [Hm|(t & l & ->)]; [eapply IH; eauto|eapply Hst; eauto]. }
    destruct st as [k e|k t ms|k t ms|f e|k].
    + destruct H2 as (v & _ & _ & _ & ->). apply Old; [reflexivity|discriminate].
    + destruct H2 as (v & _ & _ & _ & _ & ->). apply Old; [reflexivity|discriminate].
    + destruct H2 as (ns & _ & _ & _ & ->). unfold last_def. simpl. rewrite rev_app_distr. simpl.
      exists p, t, ms, []. split; [reflexivity|]. intros m (t' & l & []).
    + destruct H2 as (_ & -> & _). apply Old; [reflexivity|discriminate].
    + destruct H2 as (_ & ->). apply Old; [reflexivity|discriminate].
Qed.

Lemma last_line_selected w vars s t p : ssorted vars -> parse_text w vars true s = Parsed t -> spells s p ->
  ~ is_elem p "USE" ->
  exists p1 n ty ms p2, p = p1 ++ SLine n ty ms :: p2 /\ (forall m, ~ is_line p2 m) /\ tlookup "name" t = Some (TStr n).
Proof.
  intros Hs E Hp Hu. destruct (lattice_inv w vars s t Hs E) as (q & env & lat & ns & Hq & He & Hsel & Hne & Hn & Hd & H1 & H2 & H3).
  assert (q = p) as -> by (eapply spells_unique; eauto).
  destruct (run_names w vars p env He) as (NV & NE & NL). unfold sselect in Hsel.
  destruct (assoc "USE" (e_elems env)) eqn:Eu; [exfalso; apply Hu; apply NE; congruence|].
  pose proof (run_last_line w vars p env He) as Hl. rewrite Hsel in Hl.
  destruct Hl as (p1 & ty & ms & p2 & -> & Hn2). exists p1, (l_name lat), ty, ms, p2. auto.
Qed.

Lemma no_line_error w vars s p : ssorted vars -> spells s p -> (forall m, ~ is_line p m) ->
  forall t, parse_text w vars true s <> Parsed t.
Proof.
  intros Hs Hp Hn t E. destruct (expansion w vars s t Hs E) as (p1 & n & ty & ms & p2 & nss & Hp' & _).
  assert (p = p1 ++ SLine n ty ms :: p2) by (eapply spells_unique; eauto). subst p.
  apply (Hn n). exists ty, ms. apply in_or_app. simpl. auto.
Qed.
Lemma use_unknown_error w vars s p ty l : ssorted vars -> spells s p -> In (SElem "USE" ty l) p -> ~ is_line p ty ->
  forall t, parse_text w vars true s <> Parsed t.
Proof.
  intros Hs Hp Hin Hn t E. pose proof (use_selects w vars s t p ty l Hs E Hp Hin) as Hu.
  destruct (expansion w vars s t Hs E) as (p1 & n & ty' & ms & p2 & nss & Hp' & Hnm & _).
  assert (p = p1 ++ SLine n ty' ms :: p2) by (eapply spells_unique; eauto). subst p.
  apply Hn. assert (n = ty) as -> by congruence. exists ty', ms. apply in_or_app. simpl. auto.
Qed.
Lemma nonempty_lattice w vars s t : ssorted vars -> parse_text w vars true s = Parsed t -> elements_of t <> [].
Proof.
  intros Hs E. destruct (lattice_inv w vars s t Hs E) as (q & env & lat & ns & Hq & He & Hsel & Hne & Hn & Hd & H1 & H2 & H3).
  intros Hz. rewrite Hz in H2. inversion H2 as [Hl|]. rewrite <- Hl in Hn. simpl in Hn. congruence.
Qed.

(** * Globals *)
Lemma globals_visible w vars s t p1 n e p2 env v g : ssorted vars -> parse_text w vars true s = Parsed t ->
  spells s (p1 ++ SAssign n e :: p2) -> sexecs w (env0 vars) p1 = Some env -> seval w env e = Some v ->
  In g (elements_of t) -> sfind n (town g) = None -> tlookup n g = Some (shown v).
Proof.
  intros Hs E Hp He Hv Hg Hn.
  destruct (lattice_inv w vars s t Hs E) as (q & envf & lat & ns & Hq & Hef & Hsel & Hne & Hnn & Hd & H1 & H2 & H3).
  assert (q = p1 ++ SAssign n e :: p2) as -> by (eapply spells_unique; eauto).
  apply sexecs_split in Hef as (e1 & e2 & R1 & R2 & R3). assert (e1 = env) by congruence. subst e1.
  apply sexec_cases in R2 as (v' & Hv' & _ & Hnone & ->). assert (v' = v) by congruence. subst v'.
  assert (Hmono : forall q a b m (dd : sval), sexecs w a q = Some b -> assoc m (e_vars a) = Some dd -> assoc m (e_vars b) = Some dd).
  { clear. induction q as [|st q IH]; intros a b m dd H Hm; simpl in H; [injection H as <-; exact Hm|].
    apply obind_some in H as (a1 & H1 & H2). eapply IH; [exact H2|]. apply sexec_cases in H1.
    destruct st; [destruct H1 as (v & _ & _ & _ & ->)|destruct H1 as (v & _ & _ & _ & _ & ->)|destruct H1 as (v & _ & _ & _ & ->)|destruct H1 as (_ & -> & _)|destruct H1 as (_ & ->)]; simpl; auto.
    rewrite assoc_app, Hm. reflexivity. }
  assert (Hdd : assoc n (e_vars envf) = Some v).
  { eapply Hmono; [exact R3|]. simpl. rewrite assoc_app, Hnone. simpl. rewrite String.eqb_refl. reflexivity. }
  assert (Hx : exists d, In d (l_elems lat) /\ shows_elem (e_vars envf) d g).
  { clear -H2 Hg. induction H2 as [|d g' ds gs H F IH]; [destruct Hg|]. destruct Hg as [<-|Hg]; [exists d; simpl; auto|].
    destruct (IH Hg) as (d' & A & B). exists d'. simpl. auto. }
  destruct Hx as (d & Hin & (_ & _ & _ & Ho)). unfold tlookup. rewrite Hn, Ho, Hdd. reflexivity.
Qed.
Lemma elem_sees w vars s t g k : ssorted vars -> parse_text w vars true s = Parsed t -> In g (elements_of t) ->
  sfind k (town g) = None -> k <> "elements" -> tlookup k g = tlookup k t.
Proof.
  intros Hs E Hg Hk He.
  destruct (lattice_inv w vars s t Hs E) as (q & envf & lat & ns & Hq & Hef & Hsel & Hne & Hnn & Hd & H1 & H2 & H3).
  assert (Hx : exists d, In d (l_elems lat) /\ shows_elem (e_vars envf) d g).
  { clear -H2 Hg. induction H2 as [|d g' ds gs H F IH]; [destruct Hg|]. destruct Hg as [<-|Hg]; [exists d; simpl; auto|].
    destruct (IH Hg) as (d' & A & B). exists d'. simpl. auto. }
  destruct Hx as (d & Hin & (_ & _ & Hw & Ho)).
  destruct (String.eqb_spec k "name") as [->|Hkn]; [rewrite Hw in Hk; discriminate|].
  rewrite H3 by auto. unfold tlookup. rewrite Hk, Ho. reflexivity.
Qed.
Lemma elements_hidden w vars s t p g : ssorted vars -> parse_text w vars true s = Parsed t -> In g (elements_of t) ->
  spells s p -> sfind "elements" (town g) = None -> ~ is_var vars p "elements" -> tlookup "elements" g = None.
Proof.
  intros Hs E Hg Hp Hk He.
  destruct (lattice_inv w vars s t Hs E) as (q & envf & lat & ns & Hq & Hef & Hsel & Hne & Hnn & Hd & H1 & H2 & H3).
  assert (q = p) as -> by (eapply spells_unique; eauto).
  destruct (run_names w vars p envf Hef) as (NV & _ & _).
  assert (Hx : exists d, In d (l_elems lat) /\ shows_elem (e_vars envf) d g).
  { clear -H2 Hg. induction H2 as [|d g' ds gs H F IH]; [destruct Hg|]. destruct Hg as [<-|Hg]; [exists d; simpl; auto|].
    destruct (IH Hg) as (d' & A & B). exists d'. simpl. auto. }
  destruct Hx as (d & Hin & (_ & _ & Hw & Ho)). unfold tlookup. rewrite Hk, Ho.
  destruct (assoc "elements" (e_vars envf)) eqn:Ea; [exfalso; apply He; apply NV; congruence|reflexivity].
Qed.

(** * Presets and leading assignments *)
Definition preset_tree_num (x : double) : tree :=
  match x with
  | S754_zero true | S754_finite true _ _ => ACall "-" (ANum (dopp x))
  | _ => ANum x
  end.
Definition preset_tree (v : tval) : tree :=
  match v with
  | TNum x => preset_tree_num x | TVec l => AVec (map preset_tree_num l) | TStr s => AStr s | TCfgs _ => AStr ""
  end.
Definition preset_stmts (vars : smap tval) : list stmt := map (fun nv => SAssign (fst nv) (preset_tree (snd nv))) vars.

Lemma num_wr x : wr 2 (preset_tree_num x) (num_tokens x).
Proof. destruct x as [[]|[]| |[] m e]; simpl; repeat constructor. Qed.
Lemma vec_wr l : wr_list (map preset_tree_num l) (vec_tokens l).
Proof. induction l as [|x l IH]; simpl; [constructor|]. apply wr_cons; [apply wr_0, wr_1, num_wr|exact IH]. Qed.
Lemma val_wr v ts : val_tokens v = Some ts -> wr 0 (preset_tree v) ts.
Proof.
  destruct v; simpl; intros H.
  - destruct (is_finite x); [|discriminate]. injection H as <-. apply wr_0, wr_1, num_wr.
  - destruct (forallb is_finite l); [|discriminate]. injection H as <-. apply wr_0, wr_1, wr_vec, vec_wr.
  - injection H as <-. apply wr_0, wr_1. constructor.
  - discriminate.
Qed.
Lemma assign_wr vars : forall pre, assign_tokens vars = Some pre -> wr_file (preset_stmts vars) pre.
Proof.
  induction vars as [|[n v] vars IH]; intros pre H; simpl in H; [injection H as <-; constructor|].
  destruct (val_tokens v) as [t|] eqn:Ev; [|discriminate]. destruct (assign_tokens vars) as [u|]; [|discriminate].
  injection H as <-. simpl.
  replace (KKw n :: KEq :: t ++ KSemi :: u) with ((KKw n :: KEq :: t ++ [KSemi]) ++ u) by (simpl; rewrite <- app_assoc; reflexivity).
  constructor; [|apply IH; reflexivity]. constructor. apply val_wr. exact Ev.
Qed.

Lemma num_eval w env x : is_finite x = true -> seval w env (preset_tree_num x) = Some (SvNum x).
Proof. destruct x as [[]|[]| |[] m e]; simpl; intros H; try discriminate; reflexivity. Qed.
Lemma val_eval w env v ts : val_tokens v = Some ts -> seval w env (preset_tree v) = preset_val v.
Proof.
  destruct v; simpl; intros H; try discriminate.
  - destruct (is_finite x) eqn:E; [|discriminate]. apply num_eval. exact E.
  - destruct (forallb is_finite l) eqn:E; [|discriminate].
    change (option_map SvVec (svec w env (map preset_tree_num l)) = Some (SvVec l)).
    clear H. induction l as [|x l IH]; [reflexivity|]. simpl in E. apply andb_prop in E as [E1 E2]. specialize (IH E2).
    simpl. rewrite (num_eval w env x E1). simpl. destruct (svec w env (map preset_tree_num l)) as [q|]; [|discriminate].
    simpl in *. congruence.
  - reflexivity.
Qed.
Lemma preset_run w vars : ssorted vars -> forall pre, assign_tokens vars = Some pre -> forall env,
  (forall n v, In (n, v) vars -> assoc n (e_vars env) = None) ->
  sexecs w env (preset_stmts vars) = Some (mkEnv (e_vars env ++ presets vars) (e_elems env) (e_lines env)).
Proof.
  induction vars as [|[n v] vars IH]; intros Hs pre H env Hd; simpl in H, Hd |- *.
  - rewrite app_nil_r. destruct env. reflexivity.
  - destruct Hs as [Hk Hs]. destruct (val_tokens v) as [t|] eqn:Ev; [|discriminate]. destruct (assign_tokens vars) as [u|]; [|discriminate].
    rewrite (val_eval w env v t Ev).
    assert (Hp : exists x, preset_val v = Some x /\ storable x = true) by (destruct v; simpl in *; try discriminate; eauto).
    destruct Hp as (x & Hx & Hst). rewrite Hx. cbn [obind]. unfold defined. rewrite (Hd n v (or_introl eq_refl)).
    assert (Hgo : sexecs w (mkEnv (e_vars env ++ [(n, x)]) (e_elems env) (e_lines env)) (preset_stmts vars) =
       Some (mkEnv (e_vars env ++ (n, x) :: presets vars) (e_elems env) (e_lines env))).
    { rewrite (IH Hs u eq_refl); simpl.
      - rewrite <- app_assoc. reflexivity.
      - intros k v' Hin. rewrite assoc_app, (Hd k v' (or_intror Hin)). simpl.
        destruct (String.eqb_spec k n) as [->|]; [|reflexivity]. exfalso. apply (str_lt_irrefl n). eapply Hk. exact Hin. }
    destruct x; try discriminate Hst; cbn [obind]; exact Hgo.
Qed.

Lemma wr_file_app p ts q us : wr_file p ts -> wr_file q us -> wr_file (p ++ q) (ts ++ us).
Proof. induction 1; simpl; auto. intros H1. rewrite <- app_assoc. constructor; auto. Qed.
Lemma wr_file_split p ts : wr_file p ts -> forall q us, wr_file q (ts ++ us) -> exists q', q = p ++ q' /\ wr_file q' us.
Proof.
  induction 1 as [|st p s ts' Ws Wp IH]; intros q us H; [exists q; auto|].
  rewrite <- app_assoc in H. inversion H as [|st' q1 s' us' Ws' Wq E1 E2].
  - exfalso. apply (wr_stmt_ne _ _ Ws). destruct s; [reflexivity|discriminate].
  - pose proof (entry_complete [] st s (ts' ++ us) Ws) as A. pose proof (entry_complete [] st' s' us' Ws') as B.
    rewrite E2 in B. rewrite A in B. injection B as B1 B2. subst st' us'. destruct (IH q1 us Wq) as (q' & -> & Hq). exists q'. auto.
Qed.

Lemma setvar_assign w vars pre lat ts t : ssorted vars -> assign_tokens vars = Some pre ->
  (parse_tokens w vars lat ts false = Parsed t <-> parse_tokens w [] lat (pre ++ ts) false = Parsed t).
Proof.
  intros Hs Ha. rewrite !tokens_parsed by (auto; exact I).
  pose proof (preset_run w vars Hs pre Ha (env0 []) ltac:(reflexivity)) as Hr. simpl in Hr.
  pose proof (assign_wr vars pre Ha) as Hw.
  assert (Hrun : forall p, srun w [] lat (preset_stmts vars ++ p) = srun w vars lat p).
  { intros p. unfold srun. rewrite sexecs_app, Hr. reflexivity. }
  split.
  - intros (p & r & H1 & H2 & H3). exists (preset_stmts vars ++ p), r. rewrite Hrun. split; [apply wr_file_app; auto|auto].
  - intros (q & r & H1 & H2 & H3). destruct (wr_file_split _ _ Hw _ _ H1) as (p & -> & Hp). rewrite Hrun in H2. eauto.
Qed.

(** * Operators *)
Lemma etypes_match_eq sig args : etypes_match sig args = true -> sig = map ety args.
Proof.
  revert args. induction sig as [|t sig IH]; intros [|a args] H; simpl in H; try discriminate; [reflexivity|].
  apply andb_prop in H as [H1 H2]. simpl. f_equal; [destruct t, (ety a); try discriminate; reflexivity|auto].
Qed.
Lemma op_keys_nodup w : NoDup (map (fun o => (op_name o, op_args o)) (op_table w)).
Proof.
  cbn [op_table map op_name op_args].
  repeat (constructor; [cbn [In]; intros H; repeat (destruct H as [H|H]; [discriminate H|]); exact H|]). constructor.
Qed.
Lemma at_most_one_op w n args : List.length (filter (op_matches n args) (op_table w)) <= 1.
Proof.
  pose proof (op_keys_nodup w) as H.
  assert (G : forall l, NoDup (map (fun o => (op_name o, op_args o)) l) ->
     List.length (filter (op_matches n args) l) <= 1).
  { induction l as [|o l IH]; intros Hnd; simpl; [lia|]. inversion Hnd as [|? ? Hni Hnd']; subst.
    destruct (op_matches n args o) eqn:E; [|auto]. simpl.
    assert (Hz : filter (op_matches n args) l = []).
    { clear IH Hnd Hnd'. induction l as [|o' l IH]; [reflexivity|]. simpl. destruct (op_matches n args o') eqn:E'.
      - exfalso. apply Hni. left. unfold op_matches in E, E'. apply andb_prop in E as [E1 E2], E' as [E3 E4].
        apply String.eqb_eq in E1, E3. apply etypes_match_eq in E2, E4. congruence.
      - apply IH. intros Q. apply Hni. right. exact Q. }
    rewrite Hz. simpl. lia. }
  auto.
Qed.
Lemma op_accept w n args :
  match filter (op_matches n args) (op_table w) with
  | [] => add_op w n args = AFail
  | o :: _ => add_op w n args = abind (op_fn o args) (fun v => AOk (mkExpr (op_res o) v)) /\
              op_name o = n /\ op_args o = map ety args
  end.
Proof.
  unfold add_op, find_op. change (fun o => (String.eqb (op_name o) n && etypes_match (op_args o) args)%bool) with (op_matches n args).
  generalize (op_table w) as l. induction l as [|o l IH]; simpl; [reflexivity|].
  destruct (op_matches n args o) eqn:E; [|exact IH]. split; [reflexivity|]. unfold op_matches in E.
  apply andb_prop in E as [E1 E2]. apply String.eqb_eq in E1. apply etypes_match_eq in E2. auto.
Qed.

(** * Repetition count *)
Lemma digits2_bound m : (2 ^ (Zpos (digits2_pos m) - 1) <= Zpos m < 2 ^ Zpos (digits2_pos m))%Z.
Proof.
  induction m as [m IH|m IH|]; cbn [digits2_pos]; [| |simpl; lia]; rewrite Pos2Z.inj_succ;
    replace (Z.succ (Zpos (digits2_pos m)) - 1)%Z with (Zpos (digits2_pos m))%Z by lia;
    rewrite Z.pow_succ_r by lia;
    assert (2 ^ Zpos (digits2_pos m) = 2 * 2 ^ (Zpos (digits2_pos m) - 1))%Z as Hp
      by (rewrite <- Z.pow_succ_r by lia; f_equal; lia); lia.
Qed.
Lemma valid_bounds s m e : valid_binary dprec demax (S754_finite s m e) = true ->
  (Zpos m < 2 ^ 53)%Z /\ (-1074 < e -> 2 ^ 52 <= Zpos m)%Z /\ (-1074 <= e <= 971)%Z.
Proof.
  cbn [valid_binary]. unfold bounded, canonical_mantissa, fexp, emin, dprec, demax. intros H.
  apply andb_prop in H as [H1 H2]. apply Zeq_bool_eq in H1. apply Zle_bool_imp_le in H2.
  pose proof (digits2_bound m) as [B1 B2].
  assert (Hd : (Zpos (digits2_pos m) <= 53)%Z) by lia.
  split; [|split].
  - eapply Z.lt_le_trans; [exact B2|]. apply Z.pow_le_mono_r; lia.
  - intros He. assert (Zpos (digits2_pos m) = 53)%Z as Hd' by lia. rewrite Hd' in B1. exact B1.
  - lia.
Qed.
Lemma uint_max_val : uint_max = S754_finite false 9007199252643840 (-21).
Proof. vm_compute. reflexivity. Qed.

Lemma qle_int z k : Qle_bool (inject_Z z) (inject_Z k) = (z <=? k)%Z.
Proof. unfold Qle_bool, inject_Z. cbn [Qnum Qden]. rewrite !Z.mul_1_r. reflexivity. Qed.
Lemma qle_frac a b k : Qle_bool (a # b) (inject_Z k) = (a <=? k * Zpos b)%Z.
Proof. unfold Qle_bool, inject_Z. cbn [Qnum Qden]. rewrite !Z.mul_1_r. reflexivity. Qed.
Lemma leb_eq a b c d : (a <= b <-> c <= d)%Z -> (a <=? b)%Z = (c <=? d)%Z.
Proof. intros H. destruct (Z.leb_spec a b), (Z.leb_spec c d); auto; lia. Qed.
Lemma leb_t a b : (a <= b)%Z -> true = (a <=? b)%Z.
Proof. intros H. symmetry. apply Z.leb_le. exact H. Qed.
Lemma leb_f a b : (b < a)%Z -> false = (a <=? b)%Z.
Proof. intros H. symmetry. apply Z.leb_gt. exact H. Qed.
Lemma qval_le s m e k : Qle_bool (qval (S754_finite s m e)) (inject_Z k) =
  if (0 <=? e)%Z then ((if s then - (Zpos m * 2 ^ e) else Zpos m * 2 ^ e) <=? k)%Z
  else ((if s then Zneg m else Zpos m) <=? k * 2 ^ (- e))%Z.
Proof.
  unfold qval. destruct (Z.leb_spec 0 e) as [He|He].
  - destruct s; [change (- inject_Z (Zpos m * 2 ^ e))%Q with (inject_Z (- (Zpos m * 2 ^ e)))|]; apply qle_int.
  - assert (Hp : Zpos (Z.to_pos (2 ^ (- e))) = (2 ^ (- e))%Z) by (apply Z2Pos.id; apply Z.pow_pos_nonneg; lia).
    destruct s; [change (- (Zpos m # Z.to_pos (2 ^ (- e))))%Q with (Zneg m # Z.to_pos (2 ^ (- e)))%Q|];
      rewrite qle_frac, Hp; reflexivity.
Qed.
Lemma pos_le m n : match Pos.compare_cont Eq m n with Gt => false | _ => true end = (Zpos m <=? Zpos n)%Z.
Proof. unfold Z.leb. cbn [Z.compare]. unfold Pos.compare. destruct (Pos.compare_cont Eq m n); reflexivity. Qed.
Lemma dle_max x : valid_binary dprec demax x = true -> is_finite x = true ->
  dle x (d_of_Z 4294967295) = Qle_bool (qval x) (inject_Z 4294967295).
Proof.
  intros Hv Hf. change (d_of_Z 4294967295) with uint_max. rewrite uint_max_val. destruct x as [s|s| |s m e]; try discriminate Hf.
  - reflexivity.
  - pose proof (valid_bounds _ _ _ Hv) as (B1 & B2 & B3). rewrite qval_le.
    assert (P53 : (2 ^ 53 = 9007199254740992)%Z) by reflexivity.
    assert (P52 : (2 ^ 52 = 4503599627370496)%Z) by reflexivity.
    assert (P22 : (2 ^ 22 = 4194304)%Z) by reflexivity.
    assert (P21 : (2 ^ 21 = 2097152)%Z) by reflexivity.
    assert (P20 : (2 ^ 20 = 1048576)%Z) by reflexivity.
    rewrite P53 in B1. rewrite P52 in B2.
    destruct s.
    + change (dle (S754_finite true m e) (S754_finite false 9007199252643840 (-21))) with true.
      destruct (Z.leb_spec 0 e) as [He|He]; apply leb_t.
      * pose proof (Z.pow_nonneg 2 e ltac:(lia)). nia.
      * pose proof (Z.pow_nonneg 2 (- e) ltac:(lia)). nia.
    + unfold dle, SFleb. cbn [SFcompare].
      destruct (Z.compare_spec e (-21)) as [He|He|He].
      * subst e. change (0 <=? -21)%Z with false. cbv iota. change (- -21)%Z with 21%Z. rewrite P21.
        rewrite pos_le. apply leb_eq. lia.
      * destruct (Z.leb_spec 0 e); [lia|]. apply leb_t.
        assert (2 ^ 22 <= 2 ^ (- e))%Z by (apply Z.pow_le_mono_r; lia). lia.
      * specialize (B2 ltac:(lia)). destruct (Z.leb_spec 0 e) as [H0|H0]; apply leb_f.
        -- assert (1 <= 2 ^ e)%Z by (apply Z.lt_pred_le; apply Z.pow_pos_nonneg; lia). nia.
        -- assert (2 ^ (- e) <= 2 ^ 20)%Z by (apply Z.pow_le_mono_r; lia). lia.
Qed.
Lemma dle_zero x : is_finite x = true -> dle dzero x = Qle_bool 0 (qval x).
Proof.
  destruct x as [s|s| |s m e]; try discriminate; intros _; [destruct s; reflexivity|].
  assert (Hq : Qle_bool 0 (qval (S754_finite s m e)) = negb s).
  { unfold qval. destruct (Z.leb_spec 0 e) as [He|He].
    - assert (1 <= 2 ^ e)%Z by (apply Z.lt_pred_le; apply Z.pow_pos_nonneg; lia).
      change 0%Q with (inject_Z 0). destruct s; cbn [negb].
      + change (- inject_Z (Zpos m * 2 ^ e))%Q with (inject_Z (- (Zpos m * 2 ^ e))). rewrite qle_int. symmetry. apply leb_f. nia.
      + rewrite qle_int. symmetry. apply leb_t. nia.
    - destruct s; reflexivity. }
  rewrite Hq. destruct s; reflexivity.
Qed.

Lemma repeat_checked w x l : valid_binary dprec demax x = true -> is_nan x = false ->
  let r := if (is_finite x && Qle_bool 0 (qval x) && Qle_bool (qval x) (inject_Z 4294967295))%bool
           then AOk (mkExpr ELine (XLine (List.concat (repeat l (Z.to_nat (qfloor (qval x)))))))
           else AFail in
  add_op w "*" [mkExpr ENumber (XNum x); mkExpr ELine (XLine l)] = r /\
  add_op w "*" [mkExpr ELine (XLine l); mkExpr ENumber (XNum x)] = r.
Proof.
  intros Hv Hn.
  assert (Hbl : bl_mult x l = if (is_finite x && Qle_bool 0 (qval x) && Qle_bool (qval x) (inject_Z 4294967295))%bool
     then AOk (List.concat (repeat l (Z.to_nat (qfloor (qval x))))) else AFail).
  { destruct (is_finite x) eqn:Hf.
    - simpl. rewrite <- (dle_zero x Hf), <- (dle_max x Hv Hf).
      unfold bl_mult. rewrite (dlt_dle x dzero) by (auto; reflexivity). rewrite (dlt_dle uint_max x) by (auto; reflexivity).
      fold uint_max. destruct (dle dzero x) eqn:H0; simpl; [|reflexivity]. destruct (dle x uint_max) eqn:H1; simpl; [|reflexivity].
      rewrite (d_trunc_floor x H0 H1), repeat_line_spec. reflexivity.
    - destruct x as [s|s| |s m e]; try discriminate. destruct s; reflexivity. }
  cbv zeta. split.
  - pose proof (op2_spec w "*" (SvNum x) (SvLine l)) as Q.
    unfold add_op, find_op, op_table. cbn [find op_name op_args etypes_match ety etype_eqb andb String.eqb Ascii.eqb Bool.eqb].
    cbn [op_fn op_res op_bl_mult eval get_num get_line abind]. rewrite Hbl. destruct (_ && _)%bool; reflexivity.
  - unfold add_op, find_op, op_table. cbn [find op_name op_args etypes_match ety etype_eqb andb String.eqb Ascii.eqb Bool.eqb].
    cbn [op_fn op_res op_bl_mult eval get_num get_line abind]. rewrite Hbl. destruct (_ && _)%bool; reflexivity.
Qed.

(** * Every tree can be written *)
Lemma plain_wr e : plain e = true -> exists ts, wr 2 e ts.
Proof.
  induction e as [x|x|n|l IH|o a b IHa IHb|f a IHa] using tree_ind'; intros H.
  - eexists. constructor.
  - eexists. constructor.
  - eexists. constructor.
  - assert (Hl : exists ts, wr_list l ts).
    { induction l as [|e l IHl]; [exists []; constructor|]. inversion IH; subst. cbn [plain] in H.
      apply andb_prop in H as [H1 H4]. destruct (H2 H1) as [t1 W1]. destruct (IHl H3 H4) as [t2 W2].
      exists (t1 ++ KComma :: t2). apply wr_cons; [apply wr_0, wr_1; exact W1|exact W2]. }
    destruct Hl as [ts W]. eexists. apply wr_vec. exact W.
  - cbn [plain] in H. apply andb_prop in H as [H Hb]. apply andb_prop in H as [Ho Ha].
    destruct (IHa Ha) as [s Ws]. destruct (IHb Hb) as [t Wt]. apply existsb_exists in Ho as (o' & Hin & Eo).
    apply String.eqb_eq in Eo. subst o'. destruct Hin as [<-|[<-|[<-|[<-|[]]]]].
    + eexists. apply wr_paren. apply wr_add; [apply wr_0, wr_1; exact Ws|apply wr_1; exact Wt].
    + eexists. apply wr_paren. apply wr_sub; [apply wr_0, wr_1; exact Ws|apply wr_1; exact Wt].
    + eexists. apply wr_paren. apply wr_0. apply wr_mul; [apply wr_1; exact Ws|exact Wt].
    + eexists. apply wr_paren. apply wr_0. apply wr_div; [apply wr_1; exact Ws|exact Wt].
  - destruct (IHa H) as [s Ws]. eexists. apply wr_call. apply wr_0, wr_1. exact Ws.
Qed.
Lemma tree_written e n : plain e = true -> exists ts,
  wr 0 e ts /\ tree_of (KKw n :: KEq :: ts ++ [KSemi]) = POk [SAssign n e] [].
Proof.
  intros H. destruct (plain_wr e H) as [ts W]. apply wr_1, wr_0 in W. exists ts. split; [exact W|].
  apply tree_complete. rewrite <- (app_nil_r (KKw n :: KEq :: ts ++ [KSemi])). constructor; constructor. exact W.
Qed.

Lemma wr_bin1 o a b s t : wr 1 a s -> wr 2 b t -> tight o = true -> wr 1 (ABin (bin_str o) a b) (s ++ bin_tok o :: t).
Proof. intros Ha Hb Ho. destruct o; try discriminate; [apply wr_mul|apply wr_div]; auto. Qed.
Lemma wr_bin0 o a b s t : wr 0 a s -> wr 1 b t -> tight o = false -> wr 0 (ABin (bin_str o) a b) (s ++ bin_tok o :: t).
Proof. intros Ha Hb Ho. destruct o; try discriminate; [apply wr_add|apply wr_sub]; auto. Qed.
Lemma assign_tree n e ts : wr 0 e ts -> tree_of (KKw n :: KEq :: ts ++ [KSemi]) = POk [SAssign n e] [].
Proof.
  intros W. apply tree_complete. rewrite <- (app_nil_r (KKw n :: KEq :: ts ++ [KSemi])). constructor; constructor. exact W.
Qed.
Lemma grouping n a b c s t u o1 o2 : wr 2 a s -> wr 2 b t -> wr 2 c u ->
  tree_of (KKw n :: KEq :: (s ++ bin_tok o1 :: t ++ bin_tok o2 :: u) ++ [KSemi]) = POk [SAssign n (grouped o1 o2 a b c)] [].
Proof.
  intros Wa Wb Wc. apply assign_tree. unfold grouped.
  replace (s ++ bin_tok o1 :: t ++ bin_tok o2 :: u) with ((s ++ bin_tok o1 :: t) ++ bin_tok o2 :: u)
    by (rewrite <- app_assoc; reflexivity).
  destruct (tight o2) eqn:T2, (tight o1) eqn:T1; simpl.
  - apply wr_0. apply wr_bin1; auto. apply wr_bin1; auto. apply wr_1. exact Wa.
  - rewrite <- app_assoc. simpl. apply wr_bin0; auto; [apply wr_0, wr_1; exact Wa|]. apply wr_bin1; auto. apply wr_1. exact Wb.
  - apply wr_bin0; auto; [|apply wr_1; exact Wc]. apply wr_0. apply wr_bin1; auto. apply wr_1. exact Wa.
  - apply wr_bin0; auto; [|apply wr_1; exact Wc]. apply wr_bin0; auto; [apply wr_0, wr_1; exact Wa|apply wr_1; exact Wb].
Qed.
Lemma minus_tightest n a b s t o : wr 2 a s -> wr 2 b t ->
  tree_of (KKw n :: KEq :: ((KMinus :: s) ++ bin_tok o :: t) ++ [KSemi]) =
    POk [SAssign n (ABin (bin_str o) (ACall "-" a) b)] [].
Proof.
  intros Wa Wb. apply assign_tree. destruct (tight o) eqn:T.
  - apply wr_0. apply wr_bin1; auto. apply wr_1. apply wr_neg. exact Wa.
  - apply wr_bin0; auto; [apply wr_0, wr_1, wr_neg; exact Wa|apply wr_1; exact Wb].
Qed.

(** * Examples *)
Lemma spells_compute s ts p : lex s = Some (ts, false) -> tree_of ts = POk p [] -> spells s p.
Proof. intros H1 H2. exists ts. split; [apply lex_tokenises; exact H1|apply tree_sound; exact H2]. Qed.
Definition demo : world :=
  mkWorld (fun x => x) (fun x => x) (fun x => x) (fun x => x) (fun x => x) (fun x => x)
          (fun _ => None) (fun s => Some s) (fun s => Some s).
Definition demo_text : string :=
  "L0 = 2.5; a: drift, L = L0*2, L = 7; b: quad, B2 = -3.5; one: LINE = (a, 2*b); all: LINE = (-one, a); k = [1,2];".
Definition nan_text : string := "a: drift; l: LINE = (a); m: LINE = ((1e308*10-1e308*10)*l);".
Definition kv_text : string := "a: b, c=1, d=nowhere;".
Lemma C06_no_undefined_conversion_refuted_w : parse_text demo [] true nan_text = Undefined UBCast.
Proof. vm_compute. reflexivity. Qed.
Lemma C06_abort_releases_properties_refuted_w : parse_text demo [] true kv_text = FailedKvFree.
Proof. vm_compute. reflexivity. Qed.
Lemma C15_nan_count_refuted_w : add_op demo "*" [mkExpr ENumber (XNum S754_nan); mkExpr ELine (XLine ["a"])] = AUB UBCast.
Proof. vm_compute. reflexivity. Qed.
