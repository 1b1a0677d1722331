(** Lattices read from a text can be printed and read again. *)
From Coq Require Import List String Ascii Bool ZArith Lia.
From Verif Require Import SMap SMap_Proofs Dbl Config_Model Config_Spec Lexer_Model Lexer_Spec Lexer_Proofs Glps_Model Glps_Spec.
From Verif Require Import Glps3_Proofs Glps4_Proofs Glps5_Proofs Glps6_Proofs Machine_Model.
From Verif Require Import Print_Model Print_Spec Print_Proofs Print2_Proofs Print3_Proofs Print4_Proofs Print5_Proofs.
Import ListNotations.
Open Scope string_scope.
Open Scope list_scope.

(** ** Names in a text are keywords *)
Lemma token_word l ts : tokenises l ts -> forall n, In (KKw n) ts -> word n.
Proof.
  induction 1 as [|r p rest ts L V T IH|r p rest t ts L V T IH]; intros n H; [contradiction|auto|].
  destruct H as [->|H]; [|auto]. inversion V; subst; try discriminate. unfold word.
  rewrite list_ascii_of_string_of_list_ascii. exact (proj1 L).
Qed.
Definition stmt_words (st : stmt) : list string :=
  match st with
  | SAssign n _ => [n] | SElem n t l => n :: t :: map fst l | SLine n t _ => [n; t] | SCall f _ => [f] | SCmd n => [n]
  end.
Lemma props_tokens l ts : wr_props l ts -> forall k, In k (map fst l) -> In (KKw k) ts.
Proof.
  induction 1 as [|k e l s t W P IH]; intros j H; [contradiction|]. destruct H as [<-|H]; [right; left; reflexivity|].
  right. right. right. apply in_or_app. right. apply IH. exact H.
Qed.
Lemma stmt_tokens st ts : wr_stmt st ts -> forall n, In n (stmt_words st) -> In (KKw n) ts.
Proof.
  destruct 1; intros k H0; simpl in H0; simpl.
  - destruct H0 as [<-|[]]. left. reflexivity.
  - destruct H0 as [<-|[<-|H0]]; [left; reflexivity|right; right; left; reflexivity|].
    right. right. right. apply in_or_app. left. eapply props_tokens; eauto.
  - destruct H0 as [<-|[<-|[]]]; [left; reflexivity|right; right; left; reflexivity].
  - destruct H0 as [<-|[]]. left. reflexivity.
  - destruct H0 as [<-|[]]. left. reflexivity.
Qed.
Lemma file_tokens p ts : wr_file p ts -> forall st n, In st p -> In n (stmt_words st) -> In (KKw n) ts.
Proof.
  induction 1 as [|s p ts us W F IH]; intros st n H1 H2; [contradiction|]. apply in_or_app. destruct H1 as [<-|H1].
  - left. eapply stmt_tokens; eauto.
  - right. eapply IH; eauto.
Qed.
Lemma spelled_words s p : spells s p -> forall st n, In st p -> In n (stmt_words st) -> word n.
Proof. intros (ts & T & W) st n H1 H2. eapply token_word; [exact T|]. eapply file_tokens; eauto. Qed.
(** ** A lattice read from a text *)
Lemma parsed_shape w vars s c : ssorted vars -> parse_text w vars true s = Parsed c ->
  ssorted (town c) /\ touter c = [] /\ exists es, own "elements" c = Some (TCfgs es) /\ elements_of c = es.
Proof.
  intros Hs E. apply (text_parsed w vars true s c Hs) in E as (p & r & Hp & Hr & S1 & S2 & S3).
  apply srun_inv in Hr as (env & _ & _ & l & _ & Hl). rewrite Hl in S3. destruct S3 as (es & _ & S3).
  split; [exact S1|]. split; [exact S2|]. exists es. unfold own, elements_of, tlookup. rewrite S3. split; reflexivity.
Qed.
Lemma forall2_in {A B} (R : A -> B -> Prop) l m b : Forall2 R l m -> In b m -> exists a, In a l /\ R a b.
Proof.
  induction 1 as [|x y l m H F IH]; intros I'; [contradiction|]. destruct I' as [<-|I']; [exists x; simpl; auto|].
  destruct (IH I') as (a & A1 & A2). exists a. simpl. auto.
Qed.
Lemma parsed_lattice w vars s c : ssorted vars -> (forall n v, In (n, v) vars -> word n) ->
  parse_text w vars true s = Parsed c -> all_writable c -> names_apart c -> lattice c (elements_of c).
Proof.
  intros Hs Hv E [W1 W2] Ap. destruct (parsed_shape _ _ _ _ Hs E) as (S1 & S2 & es & E1 & E2). rewrite E2 in *. clear E2.
  destruct (lattice_inv w vars s c Hs E) as (p & env & lat & ns & Hp & He & Hsel & Hne & Hn & Hd & H1 & H2 & H3).
  assert (Eo : elements_of c = es). { unfold elements_of, tlookup. unfold own in E1. rewrite E1. reflexivity. }
  rewrite Eo in H2.
  assert (Own : forall n, own n c = tlookup n c). { intros n. unfold own, tlookup. rewrite S2. simpl. destruct (sfind n (town c)); reflexivity. }
  pose proof (run_names w vars p env He) as (Nv & Ne & Nl).
  constructor; auto.
  - intros ->. inversion H2 as [A|]. rewrite <- A in Hn. simpl in Hn. subst ns. apply Hne. reflexivity.
  - intros n v Ho Hx. split; [|apply (W1 n v Ho Hx)].
    destruct (String.eqb_spec n "name") as [->|N].
    + apply kw_matches. exists "n"%char. eexists. split; [reflexivity|]. repeat split. right. exists ["a"; "m"]%char, "e"%char. repeat split.
    + rewrite Own, (H3 n Hx N) in Ho. assert (A : assoc n (e_vars env) <> None) by (destruct (assoc n (e_vars env)); discriminate).
      apply Nv in A as [A|(e & A)].
      * destruct (presets_names vars n) as (v' & Hv'); [|exact (Hv n v' Hv')].
        destruct (assoc n (presets vars)) as [y|] eqn:Ea; [|contradiction]. apply assoc_In in Ea. apply (in_map fst) in Ea. exact Ea.
      * apply (spelled_words s p Hp (SAssign n e) n A). left. reflexivity.
  - intros v Ho. rewrite Own, H1 in Ho. injection Ho as <-. exists (l_name lat). split; [reflexivity|].
    apply sselect_in in Hsel. assert (A : assoc (l_name lat) (e_lines env) <> None).
    { intros A. apply assoc_None in A. apply A. apply (in_map fst) in Hsel. exact Hsel. }
    apply Nl in A as (t & l & A). apply (spelled_words s p Hp _ _ A). left. reflexivity.
  - intros g Hg. destruct (forall2_in _ _ _ _ H2 Hg) as ([n d] & Hin & Sh). rewrite Forall_forall in Hd. apply Hd in Hin. simpl in Hin.
    destruct (run_elem w vars p env n d He Hin) as (p1 & ty & l & p2 & e1 & ps & Ep & _ & B & ->).
    assert (In (SElem n ty l) p) as Hst by (rewrite Ep; apply in_or_app; right; left; reflexivity).
    destruct Sh as (G1 & _ & G3 & _). exists n, ty. split; [exact G1|]. unfold own. split; [rewrite G3; reflexivity|]. split; [rewrite G3; reflexivity|].
    split; [apply (spelled_words s p Hp _ _ Hst); left; reflexivity|]. split; [apply (spelled_words s p Hp _ _ Hst); right; left; reflexivity|].
    intros k v Ho K1 K2. split; [|apply (W2 g Hg k v Ho)]. rewrite G3 in Ho.
    destruct (String.eqb_spec k "name"); [contradiction|]. destruct (String.eqb_spec k "type"); [contradiction|]. cbn [snd d_props] in Ho.
    destruct (assoc k ps) as [y|] eqn:Ek; [|discriminate]. apply assoc_In, (in_map fst) in Ek. simpl in Ek.
    rewrite (sprops_keys w e1 l ps B) in Ek. apply (spelled_words s p Hp _ _ Hst). right. right. exact Ek.
  - intros g h Hg Hh En. destruct (forall2_in _ _ _ _ H2 Hg) as ([n d] & Hin & G1 & _ & G3 & _).
    destruct (forall2_in _ _ _ _ H2 Hh) as ([n' d'] & Hin' & G1' & _ & G3' & _). rewrite Forall_forall in Hd.
    apply Hd in Hin. apply Hd in Hin'. simpl in Hin, Hin'. unfold own in En. rewrite G3, G3' in En. simpl in En. injection En as ->.
    rewrite Hin in Hin'. injection Hin' as ->. apply ssorted_ext; auto. intros k. rewrite G3, G3'. reflexivity.
  - intros g n Hg Ho. apply (Ap g n); [rewrite Eo; exact Hg|exact Ho].
Qed.

Lemma lookup_own c n : touter c = [] -> tlookup n c = own n c.
Proof. intros O. unfold own, tlookup. rewrite O. simpl. destruct (sfind n (town c)); reflexivity. Qed.
Lemma onearly_none o : onearly None o -> o = None.
Proof. destruct o; [contradiction|reflexivity]. Qed.
Lemma parsed_round_trip w w' vars s c : ssorted vars -> (forall n v, In (n, v) vars -> word n) ->
  parse_text w vars true s = Parsed c -> all_writable c -> names_apart c ->
  exists t c', glps_print c = Ok t /\ parse_text w' [] true t = Parsed c' /\ looks_alike onearly c c'.
Proof.
  intros Hs Hv E W A. pose proof (parsed_lattice w vars s c Hs Hv E W A) as L. destruct (round_trip w' c _ L) as (t & c' & P1 & P2 & B1 & B2 & es' & B3 & B4).
  exists t, c'. split; [exact P1|]. split; [exact P2|].
  destruct (parsed_shape _ _ _ _ Hs E) as (_ & Oc & _). destruct (parsed_shape w' [] _ _ I P2) as (_ & Oc' & es2 & E2 & E3).
  rewrite E2 in B3. injection B3 as ->.
  destruct (lattice_inv w vars s c Hs E) as (p & env & lat & ns & _ & _ & _ & _ & _ & _ & H1 & _).
  assert (V : forall n, n <> "elements" -> onearly (tlookup n c) (tlookup n c')).
  { intros n N. rewrite (lookup_own c n Oc), (lookup_own c' n Oc'). destruct (String.eqb_spec n "name") as [->|N'].
    - rewrite (lookup_own c _ Oc) in H1. rewrite B2, H1. reflexivity.
    - specialize (B1 n N'). unfold variable in B1. destruct (String.eqb_spec n "elements"); [contradiction|exact B1]. }
  split; [exact V|].
  rewrite E3. pose proof (fun g k => elem_sees w vars s c g k Hs E) as Se. clear L E W A E2 E3 P2. revert Se B4. generalize (elements_of c). intros es Se B4.
  induction B4 as [|g g' es es2 [T1 T2] F IH]; [constructor|]. constructor; [|apply IH; intros h k Hh; apply Se; right; exact Hh].
  split; [exact T1|]. intros n N. specialize (Se g n (or_introl eq_refl)). specialize (T1 n). unfold own in T1.
  destruct (sfind n (town g)) as [v|] eqn:Ev.
  - unfold tlookup. rewrite Ev. destruct (sfind n (town g')) as [v'|]; [exact T1|contradiction].
  - apply onearly_none in T1. unfold tlookup at 2. rewrite T1. rewrite (Se eq_refl N), (lookup_own c n Oc).
    specialize (T2 n). unfold variable in T2. destruct (String.eqb_spec n "elements"); [contradiction|exact T2].
Qed.

(** Short numbers come back as they were. *)
Lemma onearly_short o o' : onearly o o' -> (forall v, o = Some v -> short_val v) -> o' = o.
Proof.
  destruct o as [v|], o' as [v'|]; simpl; intros N S; try contradiction; [|reflexivity]. f_equal. apply nearly_short; auto.
Qed.
Lemma alike_short c c' : looks_alike onearly c c' -> touter c = [] -> all_short c ->
  (forall g n, In g (elements_of c) -> sfind n (town g) = None -> n <> "elements" -> tlookup n g = tlookup n c) ->
  looks_alike (fun o o' => o' = o) c c'.
Proof.
  intros [A B] O [S1 S2] T. split.
  - intros n N. apply onearly_short; [apply A; exact N|]. intros v E. rewrite (lookup_own c n O) in E. apply (S1 n v E N).
  - revert S2 T B. generalize (elements_of c), (elements_of c'). intros es es' S2 T B. induction B as [|g g' es es' [B1 B2] F IH]; [constructor|].
    constructor.
    + split.
      * intros n. apply onearly_short; [apply B1|]. intros v E. apply (S2 g (or_introl eq_refl) n v E).
      * intros n N. apply onearly_short; [apply B2; exact N|]. intros v E. destruct (sfind n (town g)) as [u|] eqn:Eu.
        -- unfold tlookup in E. rewrite Eu in E. injection E as <-. apply (S2 g (or_introl eq_refl) n u Eu).
        -- rewrite (T g n (or_introl eq_refl) Eu N) in E. rewrite (lookup_own c n O) in E. apply (S1 n v E N).
    + apply IH; intros; [eapply S2|eapply T]; eauto; right; assumption.
Qed.
Lemma parsed_exactly w w' vars s c : ssorted vars -> (forall n v, In (n, v) vars -> word n) ->
  parse_text w vars true s = Parsed c -> all_writable c -> all_short c -> names_apart c ->
  exists t c', glps_print c = Ok t /\ parse_text w' [] true t = Parsed c' /\ looks_alike (fun o o' => o' = o) c c'.
Proof.
  intros Hs Hv E W S A. destruct (parsed_round_trip w w' vars s c Hs Hv E W A) as (t & c' & P1 & P2 & L).
  exists t, c'. split; [exact P1|]. split; [exact P2|]. apply alike_short; auto.
  - apply (parsed_shape _ _ _ _ Hs E).
  - intros g n Hg Hn N. apply (elem_sees w vars s c g n Hs E Hg Hn N).
Qed.
