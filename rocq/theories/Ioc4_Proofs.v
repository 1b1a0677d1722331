(** The regular expressions of links: what matching finds is what there is. *)
From Coq Require Import List String Ascii Bool NArith ZArith Arith Lia.
From Verif Require Import SMap Dbl Lexer_Model Config_Spec Machine_Model Util_Model Array_Model Ioc_Model Ioc_Spec.
Import ListNotations.
Open Scope string_scope.
Open Scope list_scope.

(** ** Matching in general *)
Inductive M : re -> list ascii -> caps -> caps -> Prop :=
| M_chr x c : M (RChr x) [x] c c
| M_many p l c : l <> [] -> forallb p l = true -> M (RMany p) l c c
| M_seq a b l1 l2 c c1 c2 : M a l1 c c1 -> M b l2 c1 c2 -> M (RSeq a b) (l1 ++ l2) c c2
| M_skip a c : M (ROpt a) [] c c
| M_take a l c c' : M a l c c' -> M (ROpt a) l c c'
| M_cap n a l c c' : M a l c c' -> M (RCap n a) l c ((n, l) :: c').

Lemma firstn_front {A} (a b : list A) : firstn (List.length (a ++ b) - List.length b) (a ++ b) = a.
Proof. rewrite app_length. replace (_ - _) with (List.length a) by lia. rewrite firstn_app, Nat.sub_diag, firstn_all. simpl. apply app_nil_r. Qed.

Lemma rmatch_sound r : forall l c k res, rmatch r l c k = Some res ->
  exists pre rest c', l = pre ++ rest /\ M r pre c c' /\ k rest c' = Some res.
Proof.
  induction r as [x|p|a IHa b IHb|a IHa|n a IHa]; intros l c k res H.
  - destruct l as [|y l]; simpl in H; [discriminate|]. destruct (Ascii.eqb_spec x y) as [->|]; [|discriminate].
    exists [y], l, c. repeat split; auto. constructor.
  - simpl in H. revert res H. induction l as [|y l IH]; intros res H; [discriminate|].
    destruct (p y) eqn:Py; [|discriminate].
    match type of H with match ?g with _ => _ end = _ => destruct g as [r|] eqn:E end.
    + injection H as <-. destruct (IH _ eq_refl) as (pre & rest & c' & -> & Hm & Hk).
      inversion Hm; subst. exists (y :: pre), rest, c'. repeat split; auto. constructor; [discriminate|]. simpl. rewrite Py. auto.
    + exists [y], l, c. repeat split; auto. constructor; [discriminate|]. simpl. rewrite Py. reflexivity.
  - simpl in H. apply IHa in H as (p1 & r1 & c1 & -> & M1 & H). apply IHb in H as (p2 & r2 & c2 & -> & M2 & H).
    exists (p1 ++ p2), r2, c2. rewrite app_assoc. repeat split; auto. econstructor; eauto.
  - simpl in H. destruct (rmatch a l c k) as [r|] eqn:E.
    + injection H as <-. apply IHa in E as (pre & rest & c' & -> & Hm & Hk). exists pre, rest, c'. repeat split; auto. constructor 5. auto.
    + exists [], l, c. repeat split; auto. constructor.
  - simpl in H. apply IHa in H as (pre & rest & c' & -> & Hm & Hk). rewrite firstn_front in Hk.
    exists pre, rest, ((n, pre) :: c'). repeat split; auto. constructor. auto.
Qed.
Lemma rmatch_complete r : forall l c k pre rest c', l = pre ++ rest -> M r pre c c' -> k rest c' <> None -> rmatch r l c k <> None.
Proof.
  induction r as [x|p|a IHa b IHb|a IHa|n a IHa]; intros l c k pre rest c' -> Hm Hk.
  - inversion Hm; subst. simpl. rewrite Ascii.eqb_refl. auto.
  - inversion Hm as [|? ? ? Hn Hp| | | |]; subst. clear Hm. simpl. destruct pre as [|y pre]; [congruence|]. clear Hn. revert y Hp.
    induction pre as [|z pre IH]; intros y Hp; simpl in *.
    + rewrite andb_true_r in Hp. rewrite Hp. match goal with |- match ?g with _ => _ end <> _ => destruct g end; [discriminate|auto].
    + apply andb_true_iff in Hp as [Py Hp]. rewrite Py. specialize (IH _ Hp).
      match goal with |- match ?g with _ => _ end <> _ => destruct g end; first [discriminate|congruence].
  - inversion Hm; subst. simpl. rewrite <- app_assoc. eapply IHa; [reflexivity|eassumption|]. simpl. eapply IHb; [reflexivity|eassumption|assumption].
  - simpl. destruct (rmatch a _ c k) eqn:E; [discriminate|]. inversion Hm; subst; auto.
    exfalso. eapply IHa; eauto.
  - inversion Hm; subst. simpl. eapply IHa; [reflexivity|eassumption|]. simpl. rewrite firstn_front. auto.
Qed.
Lemma regex_sound r s c : regex_match r s = Some c -> M r (list_ascii_of_string s) [] c.
Proof.
  intros H. apply rmatch_sound in H as (pre & [|x rest] & c' & E & Hm & Hk); [|discriminate].
  injection Hk as <-. rewrite app_nil_r in E. rewrite E. auto.
Qed.
Lemma regex_complete r s c : M r (list_ascii_of_string s) [] c -> exists c', regex_match r s = Some c'.
Proof.
  intros H. destruct (regex_match r s) as [c'|] eqn:E; [eauto|]. exfalso.
  revert E. unfold regex_match. eapply rmatch_complete; [symmetry; apply app_nil_r|exact H|discriminate].
Qed.

(** ** Texts *)
Notation la := list_ascii_of_string.
Lemma la_app a b : la (a ++ b)%string = la a ++ la b.
Proof. induction a; simpl; congruence. Qed.
Lemma la_inj a b : la a = la b -> a = b.
Proof. intros H. rewrite <- (string_of_list_ascii_of_string a), <- (string_of_list_ascii_of_string b). congruence. Qed.
Lemma la_of l : la (string_of_list_ascii l) = l.
Proof. apply list_ascii_of_string_of_list_ascii. Qed.
Lemma word_of p l : l <> [] -> forallb p l = true -> word p (string_of_list_ascii l).
Proof. intros Hn Hp. split; [|rewrite la_of; auto]. destruct l; [congruence|discriminate]. Qed.
Lemma word_list p s : word p s -> la s <> [] /\ forallb p (la s) = true.
Proof. intros [Hn Hp]. split; auto. destruct s; [congruence|discriminate]. Qed.

Definition stops (p : ascii -> bool) (l : list ascii) : Prop := match l with [] => True | x :: _ => p x = false end.
Lemma span_uniq p : forall a a' r r', forallb p a = true -> forallb p a' = true -> stops p r -> stops p r' ->
  a ++ r = a' ++ r' -> a = a' /\ r = r'.
Proof.
  induction a as [|x a IH]; intros [|x' a'] r r' Ha Ha' Hr Hr' E; simpl in *; auto.
  - subst r. simpl in Hr. apply andb_true_iff in Ha' as [? _]. congruence.
  - subst r'. simpl in Hr'. apply andb_true_iff in Ha as [? _]. congruence.
  - injection E as -> E. apply andb_true_iff in Ha as [_ Ha]. apply andb_true_iff in Ha' as [_ Ha'].
    destruct (IH _ _ _ Ha Ha' Hr Hr' E) as [-> ->]. auto.
Qed.

Definition inst_list (i : option string) : list ascii := match i with None => [] | Some d => "["%char :: la d ++ ["]"%char] end.
Lemma la_bracket i : la (bracket i) = inst_list i.
Proof. destruct i; simpl; auto. rewrite la_app. reflexivity. Qed.
Definition dims_list (d : dimtext) : list ascii :=
  match d with D0 => [] | D1 i => "["%char :: la i ++ ["]"%char] | D2 i j => "["%char :: la i ++ ","%char :: la j ++ ["]"%char] end.
Lemma la_dims d : la (dim_text d) = dims_list d.
Proof. destruct d; simpl; auto; rewrite ?la_app; simpl; rewrite ?la_app; reflexivity. Qed.

Definition inst_caps n (i : option string) (c : caps) : caps := match i with None => c | Some d => (n, la d) :: c end.
Definition dims_caps n m (d : dimtext) (c : caps) : caps :=
  match d with D0 => c | D1 i => (n, la i) :: c | D2 i j => (m, la j) :: (n, la i) :: c end.

Lemma M_word n p l c c' : M (RCap n (RMany p)) l c c' -> exists s, word p s /\ l = la s /\ c' = (n, la s) :: c.
Proof.
  intros H. inversion H as [| | | | |? ? ? ? ? H2]; subst. inversion H2; subst.
  exists (string_of_list_ascii l). split; [apply word_of; auto|]. rewrite la_of. auto.
Qed.
Lemma word_M n p s c : word p s -> M (RCap n (RMany p)) (la s) c ((n, la s) :: c).
Proof. intros H. apply word_list in H as [? ?]. constructor. constructor; auto. Qed.
Lemma M_chr_inv x l c c' : M (RChr x) l c c' -> l = [x] /\ c' = c.
Proof. intros H. inversion H; auto. Qed.
Lemma M_seq_inv a b l c c2 : M (RSeq a b) l c c2 -> exists l1 l2 c1, l = l1 ++ l2 /\ M a l1 c c1 /\ M b l2 c1 c2.
Proof. intros H. inversion H; subst. eauto 8. Qed.
Lemma M_opt_inv a l c c' : M (ROpt a) l c c' -> (l = [] /\ c' = c) \/ M a l c c'.
Proof. intros H. inversion H; subst; auto. Qed.

Lemma M_inst n l c c' : M (inst_part n) l c c' <-> exists i, inst_ok i /\ l = inst_list i /\ c' = inst_caps n i c.
Proof.
  split.
  - intros H. apply M_opt_inv in H as [[-> ->]|H]; [exists None; simpl; auto|].
    cbn [seqs] in H. apply M_seq_inv in H as (l1 & l2 & c1 & -> & H1 & H). apply M_chr_inv in H1 as [-> ->].
    apply M_seq_inv in H as (l3 & l4 & c2 & -> & H1 & H). apply M_word in H1 as (s & Hs & -> & ->).
    apply M_chr_inv in H as [-> ->]. exists (Some s). simpl. auto.
  - intros (i & Hi & -> & ->). destruct i as [d|]; simpl; [|constructor 4].
    constructor 5. cbn [seqs]. change ("["%char :: la d ++ ["]"%char]) with (["["%char] ++ la d ++ ["]"%char]).
    econstructor; [constructor|]. econstructor; [apply word_M; exact Hi|constructor].
Qed.
Lemma M_dims n m l c c' : M (dims_part n m) l c c' <-> exists d, dim_ok d /\ l = dims_list d /\ c' = dims_caps n m d c.
Proof.
  split.
  - intros H. apply M_opt_inv in H as [[-> ->]|H]; [exists D0; simpl; auto|].
    cbn [seqs] in H. apply M_seq_inv in H as (l1 & l2 & c1 & -> & H1 & H). apply M_chr_inv in H1 as [-> ->].
    apply M_seq_inv in H as (l3 & l4 & c2 & -> & H1 & H). apply M_word in H1 as (s & Hs & -> & ->).
    apply M_seq_inv in H as (l5 & l6 & c3 & -> & H1 & H). apply M_chr_inv in H as [-> ->].
    apply M_opt_inv in H1 as [[-> ->]|H1]; [exists (D1 s); simpl; auto|].
    apply M_seq_inv in H1 as (l7 & l8 & c4 & -> & H1 & H). apply M_chr_inv in H1 as [-> ->].
    apply M_word in H as (s2 & Hs2 & -> & ->). exists (D2 s s2). simpl. auto.
  - intros (d & Hd & -> & ->). destruct d as [|i|i j]; simpl; [constructor 4| |].
    + constructor 5. cbn [seqs]. change ("["%char :: la i ++ ["]"%char]) with (["["%char] ++ la i ++ [] ++ ["]"%char]).
      econstructor; [constructor|]. econstructor; [apply word_M; exact Hd|]. econstructor; [constructor 4|constructor].
    + destruct Hd as [Hi Hj]. constructor 5. cbn [seqs].
      change ("["%char :: la i ++ ","%char :: la j ++ ["]"%char]) with (["["%char] ++ la i ++ ([","%char] ++ la j) ++ ["]"%char]).
      econstructor; [constructor|]. econstructor; [apply word_M; exact Hi|]. econstructor; [|constructor].
      constructor 5. econstructor; [constructor|]. apply word_M; exact Hj.
Qed.

(** ** The four kinds of links *)
Definition cap1 (sim : string) : caps := [(1, la sim)].
Definition set_text sim el i par : string := (sim ++ " " ++ el ++ bracket i ++ " " ++ par)%string.
Definition set_list sim el i par : list ascii := la sim ++ " "%char :: la el ++ inst_list i ++ " "%char :: la par.
Definition set_caps sim el i par : caps := (4, la par) :: inst_caps 3 i ((2, la el) :: cap1 sim).
Definition state_text sim el i par d : string := (sim ++ " " ++ el ++ bracket i ++ " " ++ par ++ dim_text d)%string.
Definition state_list sim el i par d : list ascii := la sim ++ " "%char :: la el ++ inst_list i ++ " "%char :: la par ++ dims_list d.
Definition state_caps sim el i par d : caps := dims_caps 5 6 d ((4, la par) :: inst_caps 3 i ((2, la el) :: cap1 sim)).
Definition orbit_text sim ty par d : string := (sim ++ " " ++ ty ++ " " ++ par ++ dim_text d)%string.
Definition orbit_list sim ty par d : list ascii := la sim ++ " "%char :: la ty ++ " "%char :: la par ++ dims_list d.
Definition orbit_caps sim ty par d : caps := dims_caps 4 5 d ((3, la par) :: (2, la ty) :: cap1 sim).
Definition elem_text sim el i : string := (sim ++ " " ++ el ++ bracket i)%string.
Definition elem_list sim el i : list ascii := la sim ++ " "%char :: la el ++ inst_list i.
Definition elem_caps sim el i : caps := inst_caps 3 i ((2, la el) :: cap1 sim).

Ltac msplit H := apply M_seq_inv in H as (?l & ?l & ?c & -> & ?Hm & H).
Lemma set_sound l c : M setting_pat l [] c -> exists sim el i par,
  ws sim /\ wn el /\ inst_ok i /\ ws par /\ l = set_list sim el i par /\ c = set_caps sim el i par.
Proof.
  unfold setting_pat. cbn [seqs]. intros H.
  apply M_seq_inv in H as (l1 & l2 & c1 & -> & H1 & H). apply M_word in H1 as (sim & W1 & -> & ->).
  apply M_seq_inv in H as (l3 & l4 & c2 & -> & H1 & H). apply M_chr_inv in H1 as [-> ->].
  apply M_seq_inv in H as (l5 & l6 & c3 & -> & H1 & H). apply M_word in H1 as (el & W2 & -> & ->).
  apply M_seq_inv in H as (l7 & l8 & c4 & -> & H1 & H). apply M_inst in H1 as (i & W3 & -> & ->).
  apply M_seq_inv in H as (l9 & l10 & c5 & -> & H1 & H). apply M_chr_inv in H1 as [-> ->].
  apply M_word in H as (par & W4 & -> & ->).
  exists sim, el, i, par. repeat (split; [assumption|]). split; reflexivity.
Qed.
Lemma set_M sim el i par : ws sim -> wn el -> inst_ok i -> ws par -> M setting_pat (set_list sim el i par) [] (set_caps sim el i par).
Proof.
  intros W1 W2 W3 W4. unfold setting_pat. cbn [seqs]. unfold set_list.
  econstructor; [apply word_M; exact W1|]. change (" "%char :: la el ++ ?r) with ([" "%char] ++ la el ++ r).
  econstructor; [constructor|]. econstructor; [apply word_M; exact W2|].
  econstructor; [apply M_inst; eauto|]. change (" "%char :: la par) with ([" "%char] ++ la par).
  econstructor; [constructor|]. apply word_M; exact W4.
Qed.
Lemma state_sound l c : M state_pat l [] c -> exists sim el i par d,
  ws sim /\ wn el /\ inst_ok i /\ wn par /\ dim_ok d /\ l = state_list sim el i par d /\ c = state_caps sim el i par d.
Proof.
  unfold state_pat. cbn [seqs]. intros H.
  apply M_seq_inv in H as (l1 & l2 & c1 & -> & H1 & H). apply M_word in H1 as (sim & W1 & -> & ->).
  apply M_seq_inv in H as (l3 & l4 & c2 & -> & H1 & H). apply M_chr_inv in H1 as [-> ->].
  apply M_seq_inv in H as (l5 & l6 & c3 & -> & H1 & H). apply M_word in H1 as (el & W2 & -> & ->).
  apply M_seq_inv in H as (l7 & l8 & c4 & -> & H1 & H). apply M_inst in H1 as (i & W3 & -> & ->).
  apply M_seq_inv in H as (l9 & l10 & c5 & -> & H1 & H). apply M_chr_inv in H1 as [-> ->].
  apply M_seq_inv in H as (l11 & l12 & c6 & -> & H1 & H). apply M_word in H1 as (par & W4 & -> & ->).
  apply M_dims in H as (d & W5 & -> & ->).
  exists sim, el, i, par, d. repeat (split; [assumption|]). split; reflexivity.
Qed.
Lemma state_M sim el i par d : ws sim -> wn el -> inst_ok i -> wn par -> dim_ok d ->
  M state_pat (state_list sim el i par d) [] (state_caps sim el i par d).
Proof.
  intros W1 W2 W3 W4 W5. unfold state_pat. cbn [seqs]. unfold state_list.
  econstructor; [apply word_M; exact W1|]. change (" "%char :: la el ++ ?r) with ([" "%char] ++ la el ++ r).
  econstructor; [constructor|]. econstructor; [apply word_M; exact W2|].
  econstructor; [apply M_inst; eauto|]. change (" "%char :: la par ++ ?r) with ([" "%char] ++ la par ++ r).
  econstructor; [constructor|]. econstructor; [apply word_M; exact W4|]. apply M_dims; eauto.
Qed.
Lemma orbit_sound l c : M orbit_pat l [] c -> exists sim ty par d,
  ws sim /\ wn ty /\ wn par /\ dim_ok d /\ l = orbit_list sim ty par d /\ c = orbit_caps sim ty par d.
Proof.
  unfold orbit_pat. cbn [seqs]. intros H.
  apply M_seq_inv in H as (l1 & l2 & c1 & -> & H1 & H). apply M_word in H1 as (sim & W1 & -> & ->).
  apply M_seq_inv in H as (l3 & l4 & c2 & -> & H1 & H). apply M_chr_inv in H1 as [-> ->].
  apply M_seq_inv in H as (l5 & l6 & c3 & -> & H1 & H). apply M_word in H1 as (el & W2 & -> & ->).
  apply M_seq_inv in H as (l9 & l10 & c5 & -> & H1 & H). apply M_chr_inv in H1 as [-> ->].
  apply M_seq_inv in H as (l11 & l12 & c6 & -> & H1 & H). apply M_word in H1 as (par & W4 & -> & ->).
  apply M_dims in H as (d & W5 & -> & ->).
  exists sim, el, par, d. repeat (split; [assumption|]). split; reflexivity.
Qed.
Lemma orbit_M sim ty par d : ws sim -> wn ty -> wn par -> dim_ok d ->
  M orbit_pat (orbit_list sim ty par d) [] (orbit_caps sim ty par d).
Proof.
  intros W1 W2 W4 W5. unfold orbit_pat. cbn [seqs]. unfold orbit_list.
  econstructor; [apply word_M; exact W1|]. change (" "%char :: la ty ++ ?r) with ([" "%char] ++ la ty ++ r).
  econstructor; [constructor|]. econstructor; [apply word_M; exact W2|].
  change (" "%char :: la par ++ ?r) with ([" "%char] ++ la par ++ r).
  econstructor; [constructor|]. econstructor; [apply word_M; exact W4|]. apply M_dims; eauto.
Qed.
Lemma elem_sound l c : M elem_pat l [] c -> exists sim el i,
  ws sim /\ wn el /\ inst_ok i /\ l = elem_list sim el i /\ c = elem_caps sim el i.
Proof.
  unfold elem_pat. cbn [seqs]. intros H.
  apply M_seq_inv in H as (l1 & l2 & c1 & -> & H1 & H). apply M_word in H1 as (sim & W1 & -> & ->).
  apply M_seq_inv in H as (l3 & l4 & c2 & -> & H1 & H). apply M_chr_inv in H1 as [-> ->].
  apply M_seq_inv in H as (l5 & l6 & c3 & -> & H1 & H). apply M_word in H1 as (el & W2 & -> & ->).
  apply M_inst in H as (i & W3 & -> & ->).
  exists sim, el, i. repeat (split; [assumption|]). split; reflexivity.
Qed.
Lemma elem_M sim el i : ws sim -> wn el -> inst_ok i -> M elem_pat (elem_list sim el i) [] (elem_caps sim el i).
Proof.
  intros W1 W2 W3. unfold elem_pat. cbn [seqs]. unfold elem_list.
  econstructor; [apply word_M; exact W1|]. change (" "%char :: la el ++ ?r) with ([" "%char] ++ la el ++ r).
  econstructor; [constructor|]. econstructor; [apply word_M; exact W2|]. apply M_inst; eauto.
Qed.

(** ** Each text can be read in one way *)
Lemma first_word p (sim sim' : string) r r' : word p sim -> word p sim' -> stops p r -> stops p r' ->
  la sim ++ r = la sim' ++ r' -> sim = sim' /\ r = r'.
Proof.
  intros W W' Hr Hr' E. apply word_list in W as [_ W]. apply word_list in W' as [_ W'].
  destruct (span_uniq _ _ _ _ _ W W' Hr Hr' E) as [E1 ->]. split; auto. apply la_inj; auto.
Qed.
Lemma inst_uniq i i' r r' : inst_ok i -> inst_ok i' ->
  match r with [] => True | x :: _ => x <> "["%char end -> match r' with [] => True | x :: _ => x <> "["%char end ->
  inst_list i ++ r = inst_list i' ++ r' -> i = i' /\ r = r'.
Proof.
  intros W W' Hr Hr' E. destruct i as [d|], i' as [d'|]; simpl in E; auto.
  - injection E as E. rewrite <- !app_assoc in E.
    destruct (first_word is_digit d d' ("]"%char :: r) ("]"%char :: r') W W' eq_refl eq_refl E) as [-> E1]. injection E1 as ->. auto.
  - subst r'. simpl in Hr'. congruence.
  - subst r. simpl in Hr. congruence.
Qed.
Lemma dims_uniq d d' : dim_ok d -> dim_ok d' -> dims_list d = dims_list d' -> d = d'.
Proof.
  intros W W' E. destruct d as [|i|i j], d' as [|i'|i' j']; simpl in E; auto; try discriminate.
  - injection E as E. destruct (first_word is_digit _ _ ["]"%char] ["]"%char] W W' eq_refl eq_refl E) as [-> _]. auto.
  - destruct W' as [W1 W2]. injection E as E. destruct (first_word is_digit _ _ ["]"%char] (","%char :: _) W W1 eq_refl eq_refl E) as [_ E1]. discriminate.
  - destruct W as [W1 W2]. injection E as E. destruct (first_word is_digit _ _ (","%char :: _) ["]"%char] W1 W' eq_refl eq_refl E) as [_ E1]. discriminate.
  - destruct W as [W1 W2], W' as [W3 W4]. injection E as E.
    destruct (first_word is_digit _ _ (","%char :: _) (","%char :: _) W1 W3 eq_refl eq_refl E) as [-> E1]. injection E1 as E1.
    destruct (first_word is_digit _ _ ["]"%char] ["]"%char] W2 W4 eq_refl eq_refl E1) as [-> _]. auto.
Qed.
Lemma dims_stops d : stops name_char (dims_list d).
Proof. destruct d; reflexivity. Qed.
Lemma inst_stops i r : stops name_char r -> stops name_char (inst_list i ++ r).
Proof. destruct i; simpl; auto. Qed.
Lemma dims_nil d : dims_list d = dims_list d ++ []. Proof. symmetry. apply app_nil_r. Qed.

Lemma set_uniq sim el i par sim' el' i' par' :
  ws sim -> wn el -> inst_ok i -> ws par -> ws sim' -> wn el' -> inst_ok i' -> ws par' ->
  set_list sim el i par = set_list sim' el' i' par' -> sim = sim' /\ el = el' /\ i = i' /\ par = par'.
Proof.
  intros W1 W2 W3 W4 V1 V2 V3 V4 E. unfold set_list in E.
  destruct (first_word plain _ _ (" "%char :: _) (" "%char :: _) W1 V1 eq_refl eq_refl E) as [-> E1]. injection E1 as E1.
  destruct (first_word unbracketed _ _ (inst_list i ++ " "%char :: la par) (inst_list i' ++ " "%char :: la par') W2 V2) as [-> E2]; auto;
    try (apply inst_stops; reflexivity).
  destruct (inst_uniq _ _ (" "%char :: la par) (" "%char :: la par') W3 V3) as [-> E3]; auto; try discriminate.
  injection E3 as E3. apply la_inj in E3. auto.
Qed.
Lemma state_uniq sim el i par d sim' el' i' par' d' :
  ws sim -> wn el -> inst_ok i -> wn par -> dim_ok d -> ws sim' -> wn el' -> inst_ok i' -> wn par' -> dim_ok d' ->
  state_list sim el i par d = state_list sim' el' i' par' d' -> sim = sim' /\ el = el' /\ i = i' /\ par = par' /\ d = d'.
Proof.
  intros W1 W2 W3 W4 W5 V1 V2 V3 V4 V5 E. unfold state_list in E.
  destruct (first_word plain _ _ (" "%char :: _) (" "%char :: _) W1 V1 eq_refl eq_refl E) as [-> E1]. injection E1 as E1.
  destruct (first_word unbracketed _ _ (inst_list i ++ " "%char :: la par ++ dims_list d) (inst_list i' ++ " "%char :: la par' ++ dims_list d') W2 V2) as [-> E2]; auto;
    try (apply inst_stops; reflexivity).
  destruct (inst_uniq _ _ (" "%char :: la par ++ dims_list d) (" "%char :: la par' ++ dims_list d') W3 V3) as [-> E3]; auto; try discriminate.
  injection E3 as E3. destruct (first_word unbracketed _ _ _ _ W4 V4 (dims_stops d) (dims_stops d') E3) as [-> E4].
  apply dims_uniq in E4; auto.
Qed.
Lemma orbit_uniq sim ty par d sim' ty' par' d' :
  ws sim -> wn ty -> wn par -> dim_ok d -> ws sim' -> wn ty' -> wn par' -> dim_ok d' ->
  orbit_list sim ty par d = orbit_list sim' ty' par' d' -> sim = sim' /\ ty = ty' /\ par = par' /\ d = d'.
Proof.
  intros W1 W2 W4 W5 V1 V2 V4 V5 E. unfold orbit_list in E.
  destruct (first_word plain _ _ (" "%char :: _) (" "%char :: _) W1 V1 eq_refl eq_refl E) as [-> E1]. injection E1 as E1.
  destruct (first_word unbracketed _ _ (" "%char :: _) (" "%char :: _) W2 V2 eq_refl eq_refl E1) as [-> E2]. injection E2 as E2.
  destruct (first_word unbracketed _ _ _ _ W4 V4 (dims_stops d) (dims_stops d') E2) as [-> E4].
  apply dims_uniq in E4; auto.
Qed.
Lemma elem_uniq sim el i sim' el' i' :
  ws sim -> wn el -> inst_ok i -> ws sim' -> wn el' -> inst_ok i' ->
  elem_list sim el i = elem_list sim' el' i' -> sim = sim' /\ el = el' /\ i = i'.
Proof.
  intros W1 W2 W3 V1 V2 V3 E. unfold elem_list in E.
  destruct (first_word plain _ _ (" "%char :: _) (" "%char :: _) W1 V1 eq_refl eq_refl E) as [-> E1]. injection E1 as E1.
  rewrite <- (app_nil_r (inst_list i)), <- (app_nil_r (inst_list i')) in E1.
  destruct (first_word unbracketed _ _ (inst_list i ++ []) (inst_list i' ++ []) W2 V2) as [-> E2]; auto; try (apply inst_stops; reflexivity).
  destruct (inst_uniq _ _ [] [] W3 V3) as [-> _]; auto.
Qed.

(** ** regex_match *)
Ltac texts := repeat rewrite la_app; rewrite ?la_bracket, ?la_dims; reflexivity.
Lemma set_iff link c : regex_match setting_pat link = Some c <->
  exists sim el i par, ws sim /\ wn el /\ inst_ok i /\ ws par /\ link = set_text sim el i par /\ c = set_caps sim el i par.
Proof.
  assert (T : forall sim el i par, la (set_text sim el i par) = set_list sim el i par) by (intros; unfold set_text; texts).
  split.
  - intros H. apply regex_sound, set_sound in H as (sim & el & i & par & W1 & W2 & W3 & W4 & E & ->).
    exists sim, el, i, par. repeat (split; [assumption|]). split; auto. apply la_inj. rewrite T. auto.
  - intros (sim & el & i & par & W1 & W2 & W3 & W4 & -> & ->).
    destruct (regex_complete setting_pat (set_text sim el i par) (set_caps sim el i par)) as [c' E]; [rewrite T; apply set_M; auto|].
    rewrite E. apply regex_sound, set_sound in E as (sim' & el' & i' & par' & V1 & V2 & V3 & V4 & E & ->).
    rewrite T in E. apply set_uniq in E as (-> & -> & -> & ->); auto.
Qed.
Lemma state_iff link c : regex_match state_pat link = Some c <->
  exists sim el i par d, ws sim /\ wn el /\ inst_ok i /\ wn par /\ dim_ok d /\ link = state_text sim el i par d /\ c = state_caps sim el i par d.
Proof.
  assert (T : forall sim el i par d, la (state_text sim el i par d) = state_list sim el i par d) by (intros; unfold state_text; texts).
  split.
  - intros H. apply regex_sound, state_sound in H as (sim & el & i & par & d & W1 & W2 & W3 & W4 & W5 & E & ->).
    exists sim, el, i, par, d. repeat (split; [assumption|]). split; auto. apply la_inj. rewrite T. auto.
  - intros (sim & el & i & par & d & W1 & W2 & W3 & W4 & W5 & -> & ->).
    destruct (regex_complete state_pat (state_text sim el i par d) (state_caps sim el i par d)) as [c' E]; [rewrite T; apply state_M; auto|].
    rewrite E. apply regex_sound, state_sound in E as (sim' & el' & i' & par' & d' & V1 & V2 & V3 & V4 & V5 & E & ->).
    rewrite T in E. apply state_uniq in E as (-> & -> & -> & -> & ->); auto.
Qed.
Lemma orbit_iff link c : regex_match orbit_pat link = Some c <->
  exists sim ty par d, ws sim /\ wn ty /\ wn par /\ dim_ok d /\ link = orbit_text sim ty par d /\ c = orbit_caps sim ty par d.
Proof.
  assert (T : forall sim ty par d, la (orbit_text sim ty par d) = orbit_list sim ty par d) by (intros; unfold orbit_text; texts).
  split.
  - intros H. apply regex_sound, orbit_sound in H as (sim & ty & par & d & W1 & W2 & W4 & W5 & E & ->).
    exists sim, ty, par, d. repeat (split; [assumption|]). split; auto. apply la_inj. rewrite T. auto.
  - intros (sim & ty & par & d & W1 & W2 & W4 & W5 & -> & ->).
    destruct (regex_complete orbit_pat (orbit_text sim ty par d) (orbit_caps sim ty par d)) as [c' E]; [rewrite T; apply orbit_M; auto|].
    rewrite E. apply regex_sound, orbit_sound in E as (sim' & ty' & par' & d' & V1 & V2 & V4 & V5 & E & ->).
    rewrite T in E. apply orbit_uniq in E as (-> & -> & -> & ->); auto.
Qed.
Lemma elem_iff link c : regex_match elem_pat link = Some c <->
  exists sim el i, ws sim /\ wn el /\ inst_ok i /\ link = elem_text sim el i /\ c = elem_caps sim el i.
Proof.
  assert (T : forall sim el i, la (elem_text sim el i) = elem_list sim el i) by (intros; unfold elem_text; texts).
  split.
  - intros H. apply regex_sound, elem_sound in H as (sim & el & i & W1 & W2 & W3 & E & ->).
    exists sim, el, i. repeat (split; [assumption|]). split; auto. apply la_inj. rewrite T. auto.
  - intros (sim & el & i & W1 & W2 & W3 & -> & ->).
    destruct (regex_complete elem_pat (elem_text sim el i) (elem_caps sim el i)) as [c' E]; [rewrite T; apply elem_M; auto|].
    rewrite E. apply regex_sound, elem_sound in E as (sim' & el' & i' & V1 & V2 & V3 & E & ->).
    rewrite T in E. apply elem_uniq in E as (-> & -> & ->); auto.
Qed.
