(** Proofs about the names of locations in HDF5 files. *)
From Coq Require Import List String Ascii Bool ZArith NArith Arith Lia.
From Verif Require Import SMap SMap_Proofs Dbl Machine_Model Array_Model Array_Spec Hdf_Model Hdf_Spec.
Import ListNotations.
Open Scope string_scope.
Open Scope list_scope.

(** ** Strings *)
Lemma app_cons_s c a b : (String c a ++ b)%string = String c (a ++ b). Proof. reflexivity. Qed.
Lemma app_assoc_s a b c : ((a ++ b) ++ c)%string = (a ++ (b ++ c))%string.
Proof. induction a as [|x a IH]; [reflexivity|]. rewrite !app_cons_s, IH. reflexivity. Qed.
Lemma app_nil_s a : (a ++ "")%string = a.
Proof. induction a as [|x a IH]; [reflexivity|]. rewrite app_cons_s, IH. reflexivity. Qed.
Lemma len_app a b : String.length (a ++ b)%string = String.length a + String.length b.
Proof. induction a as [|x a IH]; [reflexivity|]. rewrite app_cons_s. cbn [String.length]. lia. Qed.
Lemma take_app f g : take (String.length f) (f ++ g)%string = f.
Proof. induction f as [|c f IH]; [destruct g; reflexivity|]. rewrite app_cons_s. cbn [String.length take]. rewrite IH. reflexivity. Qed.
Lemma skip_app f c p : skip (S (String.length f)) (f ++ String c p)%string = p.
Proof. induction f as [|d f IH]; [destruct p; reflexivity|]. rewrite app_cons_s. exact IH. Qed.
Lemma take_len s : take (String.length s) s = s.
Proof. induction s as [|c s IH]; [reflexivity|]. cbn [String.length take]. rewrite IH. reflexivity. Qed.
Lemma take_more n s : String.length s <= n -> take n s = s.
Proof. revert n. induction s as [|c s IH]; intros n H; [destruct n; reflexivity|]. destruct n; cbn [String.length] in H; [lia|].
  cbn [take]. rewrite IH by lia. reflexivity. Qed.
Lemma app_inv_len a b c d : String.length a = String.length c -> (a ++ b)%string = (c ++ d)%string -> a = c /\ b = d.
Proof.
  revert c. induction a as [|x a IH]; intros [|y c] L E; cbn [String.length] in L; try lia; [auto|].
  rewrite !app_cons_s in E. injection E as -> E. destruct (IH c ltac:(lia) E) as [-> ->]. auto.
Qed.
Lemma slashless_cons c s : slashless (String c s) <-> c <> "/"%char /\ slashless s.
Proof.
  split.
  - intros H. split; [intros ->; apply (H "" s); reflexivity|].
    intros a b E. apply (H (String c a) b). rewrite E. reflexivity.
  - intros [N H] a b E. destruct a as [|x a]; [injection E as E1 E2; auto|].
    rewrite app_cons_s in E. injection E as E1 E2. exact (H a b E2).
Qed.
Lemma slashless_nil : slashless "".
Proof. intros [|x a] b E; discriminate E. Qed.

(** ** The last slash *)
Lemma last_none i s : last_slash i s = None -> slashless s.
Proof.
  revert i. induction s as [|c s IH]; intros i H; [exact slashless_nil|]. cbn [last_slash] in H.
  destruct (last_slash (S i) s) eqn:E; [discriminate|]. destruct (Ascii.eqb_spec c "/"); [discriminate|].
  apply slashless_cons. split; [assumption|]. eapply IH, E.
Qed.
Lemma last_none_conv i s : slashless s -> last_slash i s = None.
Proof.
  revert i. induction s as [|c s IH]; intros i H; [reflexivity|]. apply slashless_cons in H as [N H].
  cbn [last_slash]. rewrite (IH (S i) H). destruct (Ascii.eqb_spec c "/"); [contradiction|reflexivity].
Qed.
Lemma last_some i s k : last_slash i s = Some k ->
  exists f p, s = (f ++ "/" ++ p)%string /\ k = i + String.length f /\ slashless p.
Proof.
  revert i. induction s as [|c s IH]; intros i H; [discriminate|]. cbn [last_slash] in H.
  destruct (last_slash (S i) s) eqn:E.
  - injection H as ->. destruct (IH (S i) E) as (f & p & -> & -> & Sl). exists (String c f), p.
    split; [reflexivity|]. split; [cbn [String.length]; lia|exact Sl].
  - destruct (Ascii.eqb_spec c "/") as [->|]; [|discriminate]. injection H as <-. exists "", s.
    split; [reflexivity|]. split; [cbn; lia|]. eapply last_none, E.
Qed.
Lemma take_split n s : exists r, s = (take n s ++ r)%string.
Proof.
  revert s. induction n as [|n IH]; intros s; [exists s; destruct s; reflexivity|].
  destruct s as [|c s]; [exists ""; reflexivity|]. destruct (IH s) as (r & E). exists r. cbn [take]. rewrite app_cons_s, <- E. reflexivity.
Qed.
Lemma take_length n s : n <= String.length s -> String.length (take n s) = n.
Proof. revert s. induction n as [|n IH]; intros [|c s] H; cbn [String.length take] in *; try lia. rewrite IH; lia. Qed.
Lemma take_take m n s : m <= n -> take m (take n s) = take m s.
Proof. revert n s. induction m as [|m IH]; intros [|n] [|c s] H; cbn [take]; try reflexivity; try lia. rewrite IH by lia. reflexivity. Qed.
Lemma take_past f n x p : String.length f < n ->
  take n (f ++ String x p)%string = (f ++ String x (take (n - S (String.length f)) p))%string.
Proof.
  revert n. induction f as [|c f IH]; intros [|n] L; cbn [String.length] in *; try lia.
  - cbn [append take]. replace (S n - 1) with n by lia. reflexivity.
  - rewrite app_cons_s. cbn [take]. rewrite (IH n) by lia. reflexivity.
Qed.

(** The last slash before position n. *)
Lemma below_some s n k : n <= String.length s -> last_slash 0 (take n s) = Some k ->
  k < n /\ exists f p, s = (f ++ "/" ++ p)%string /\ k = String.length f /\
    forall f' p', s = (f' ++ "/" ++ p')%string -> String.length f' < n -> String.length f' <= k.
Proof.
  intros Hn H. apply last_some in H as (f & p & E & -> & Sl). destruct (take_split n s) as (r & Er).
  assert (Hl := take_length n s Hn). rewrite E in Er, Hl. rewrite !len_app in Hl. cbn [String.length] in Hl.
  split; [lia|]. exists f, (p ++ r)%string. split; [rewrite Er; rewrite !app_assoc_s; reflexivity|]. split; [reflexivity|].
  intros f' p' E' Lf'. cbn [Nat.add]. destruct (le_lt_dec (String.length f') (String.length f)) as [|Gt]; [assumption|exfalso].
  (* f' = f / q with q within p *)
  assert (Et : take n s = (f' ++ "/" ++ take (n - S (String.length f')) p')%string).
  { rewrite E'. apply take_past. exact Lf'. }
  rewrite E in Et.
  assert (exists q, f' = (f ++ "/" ++ q)%string) as (q & ->).
  { generalize dependent (take (n - S (String.length f')) p'). intros t Et. clear - Et Gt. revert f' Gt Et. induction f as [|c f IH]; intros f' Gt Et.
    - destruct f' as [|d f']; [cbn in Gt; lia|]. rewrite app_cons_s in Et. cbn [append] in Et. injection Et as <- _. exists f'. reflexivity.
    - destruct f' as [|d f']; [cbn in Gt; lia|]. rewrite !app_cons_s in Et. injection Et as <- Et. cbn [String.length] in Gt.
      destruct (IH f' ltac:(lia) Et) as (q & ->). exists q. reflexivity. }
  rewrite !app_assoc_s in Et. apply app_inv_len in Et as [_ Et]; [|reflexivity]. cbn [append] in Et. injection Et as Et.
  exact (Sl q _ Et).
Qed.
Lemma below_none s n : last_slash 0 (take n s) = None ->
  forall f p, s = (f ++ "/" ++ p)%string -> n <= String.length f.
Proof.
  intros H f p E. apply last_none in H. destruct (le_lt_dec n (String.length f)) as [|L]; [assumption|exfalso].
  apply (H f (take (n - S (String.length f)) p)). rewrite E. apply take_past. exact L.
Qed.

(** ** The search *)
Definition bound (s : string) (sep : option nat) : nat := match sep with Some (S k) => S k | _ => String.length s end.
Lemma find_last_bound s sep : find_last s (before sep) = last_slash 0 (take (bound s sep) s).
Proof. unfold find_last, before, bound. destruct sep as [[|k]|]; try (rewrite take_len; reflexivity). reflexivity. Qed.
Definition fits (s : string) (sep : option nat) : Prop := match sep with Some k => k < String.length s | None => True end.
Lemma bound_le s sep : fits s sep -> bound s sep <= String.length s.
Proof. destruct sep as [[|k]|]; cbn; lia. Qed.

Section SEARCH.
Context {A : Type} (openf : string -> option A) (spec : string).
Lemma find_named f p a : names_file openf spec f p a -> forall n sep fuel, fits spec sep -> bound spec sep = n ->
  String.length f < n -> n <= fuel -> find_file fuel openf spec sep = HRet (Some (String.length f), f, a).
Proof.
  intros (E & Of & Far). induction n as [n IH] using lt_wf_ind. intros sep fuel F B L Lf. destruct fuel as [|fuel]; [lia|].
  cbn [find_file]. rewrite find_last_bound, B. assert (Bn := bound_le _ _ F). rewrite B in Bn.
  destruct (last_slash 0 (take n spec)) as [k|] eqn:Ek.
  2: { exfalso. assert (n <= String.length f) by (eapply below_none; [exact Ek|exact E]). lia. }
  destruct (below_some _ _ _ Bn Ek) as (Lk & f' & p' & E' & -> & Mx).
  unfold upto. assert (Et : take (String.length f') spec = f') by (rewrite E'; apply take_app). rewrite Et.
  specialize (Mx f p E L). destruct (Nat.eq_dec (String.length f) (String.length f')) as [Q|Q].
  - rewrite E in E'. destruct (app_inv_len _ _ _ _ Q E') as [<- _]. rewrite Of. reflexivity.
  - rewrite (Far f' p' E') by lia. apply (IH (String.length f')); [lia|cbn; lia| |lia|lia].
    destruct (String.length f') eqn:Z; [lia|reflexivity].
Qed.
Lemma find_none : no_file openf spec -> ~ absolute spec -> forall n sep fuel, fits spec sep -> bound spec sep = n -> n < fuel ->
  find_file fuel openf spec sep = match openf spec with Some a => HRet (None, spec, a) | None => HExn RuntimeError end.
Proof.
  intros NF NA. induction n as [n IH] using lt_wf_ind. intros sep fuel F B Lf. destruct fuel as [|fuel]; [lia|].
  cbn [find_file]. rewrite find_last_bound, B. assert (Bn := bound_le _ _ F). rewrite B in Bn.
  destruct (last_slash 0 (take n spec)) as [k|] eqn:Ek; [|reflexivity].
  destruct (below_some _ _ _ Bn Ek) as (Lk & f' & p' & E' & -> & Mx).
  unfold upto. assert (Et : take (String.length f') spec = f') by (rewrite E'; apply take_app). rewrite Et.
  rewrite (NF f' p' E'). apply (IH (String.length f')); [lia|cbn; lia| |lia].
  destruct f' as [|c f']; [|reflexivity]. exfalso. apply NA. exists p'. exact E'.
Qed.
Lemma find_hangs : no_file openf spec -> absolute spec -> forall fuel sep, fits spec sep -> find_file fuel openf spec sep = HLoop.
Proof.
  intros NF (q & Eq). induction fuel as [|fuel IH]; intros sep F; [reflexivity|].
  cbn [find_file]. rewrite find_last_bound. assert (Bn := bound_le _ _ F).
  assert (Bp : 0 < bound spec sep) by (rewrite Eq; destruct sep as [[|k]|]; cbn; lia).
  destruct (last_slash 0 (take (bound spec sep) spec)) as [k|] eqn:Ek.
  2: { exfalso. assert (bound spec sep <= String.length "") by (eapply below_none; [exact Ek|exact Eq]). cbn in H. lia. }
  destruct (below_some _ _ _ Bn Ek) as (Lk & f' & p' & E' & -> & Mx).
  unfold upto. assert (Et : take (String.length f') spec = f') by (rewrite E'; apply take_app). rewrite Et.
  rewrite (NF f' p' E'). apply IH. cbn. lia.
Qed.
Lemma named_or_none : (exists f p a, names_file openf spec f p a) \/ no_file openf spec.
Proof.
  assert (D : forall m, m <= String.length spec -> (exists f p a, names_file openf spec f p a) \/
    forall f p, spec = (f ++ "/" ++ p)%string -> String.length spec - m <= String.length f -> openf f = None).
  { induction m as [|m IH]; intros Hm.
    - right. intros f p E L. rewrite E, !len_app in L. cbn [String.length] in L. lia.
    - destruct (IH ltac:(lia)) as [H|H]; [left; exact H|].
      set (n := String.length spec - S m). destruct (openf (take n spec)) as [a|] eqn:O.
      + destruct (take_split n spec) as (r & Er). destruct r as [|c r].
        { exfalso. rewrite app_nil_s in Er. assert (L := take_length n spec ltac:(lia)). rewrite <- Er in L. lia. }
        destruct (Ascii.eqb_spec c "/") as [->|N].
        * left. exists (take n spec), r, a. split; [exact Er|]. split; [exact O|].
          intros f' p' E' L. apply (H f' p' E'). rewrite take_length in L by lia. lia.
        * right. intros f p E L. destruct (Nat.eq_dec (String.length f) n) as [Q|Q]; [|apply (H f p E); lia].
          exfalso. rewrite E in Er at 1. apply app_inv_len in Er as [_ Er]; [|rewrite take_length; lia]. cbn [append] in Er. injection Er as Er _. auto.
      + right. intros f p E L. destruct (Nat.eq_dec (String.length f) n) as [Q|Q]; [|apply (H f p E); lia].
        rewrite <- Q, E, take_app in O. exact O. }
  destruct (D (String.length spec) (le_n _)) as [H|H]; [left; exact H|right]. intros f p E. apply (H f p E). lia.
Qed.
End SEARCH.
Lemma abs_dec spec : absolute spec \/ ~ absolute spec.
Proof.
  destruct spec as [|c s]; [right; intros (p & E); discriminate E|].
  destruct (Ascii.eqb_spec c "/") as [->|N]; [left; exists s; reflexivity|right; intros (p & E); injection E as E _; auto].
Qed.

(** ** Paths *)
Lemma parts_piece cur x q : slashless x -> parts_from cur (x ++ "/" ++ q)%string = part_of (cur ++ x)%string (parts_from "" q).
Proof.
  revert cur. induction x as [|c x IH]; intros cur H.
  - cbn [append parts_from]. rewrite app_nil_s. reflexivity.
  - apply slashless_cons in H as [N H]. rewrite app_cons_s. cbn [parts_from]. destruct (Ascii.eqb_spec c "/"); [contradiction|].
    rewrite IH by assumption. rewrite app_assoc_s. reflexivity.
Qed.
Lemma parts_last cur x : slashless x -> parts_from cur x = part_of (cur ++ x)%string [].
Proof.
  revert cur. induction x as [|c x IH]; intros cur H.
  - cbn [parts_from]. rewrite app_nil_s. reflexivity.
  - apply slashless_cons in H as [N H]. cbn [parts_from]. destruct (Ascii.eqb_spec c "/"); [contradiction|].
    rewrite IH by assumption. rewrite app_assoc_s. reflexivity.
Qed.
Lemma parts_pieces l : l <> [] -> Forall slashless l ->
  parts (String.concat "/" l) = filter (fun s => negb (String.eqb s "" || String.eqb s ".")) l.
Proof.
  unfold parts. induction l as [|x l IH]; intros N F; [contradiction|]. inversion F as [|? ? Fx Fl]; subst.
  destruct l as [|y l].
  - cbn [String.concat filter]. rewrite parts_last by exact Fx. unfold part_of. cbn [append].
    destruct (String.eqb x "" || String.eqb x ".")%bool; reflexivity.
  - change (String.concat "/" (x :: y :: l)) with (x ++ "/" ++ String.concat "/" (y :: l))%string.
    rewrite parts_piece by exact Fx. rewrite IH by (congruence || exact Fl). unfold part_of. cbn [append].
    cbn [filter]. destruct (String.eqb x "" || String.eqb x ".")%bool; reflexivity.
Qed.
Lemma parts_spell p names : spells p names -> parts p = names.
Proof. intros (l & N & -> & F & ->). apply parts_pieces; assumption. Qed.
Lemma spell_pieces p : exists l, l <> [] /\ p = String.concat "/" l /\ Forall slashless l.
Proof.
  induction p as [|c p (l & N & -> & F)]; [exists [""]; split; [congruence|]; split; [reflexivity|]; constructor; [exact slashless_nil|constructor]|].
  destruct l as [|x l]; [contradiction|]. inversion F as [|? ? Fx Fl]; subst. destruct (Ascii.eqb_spec c "/") as [->|Nc].
  - exists ("" :: x :: l). split; [congruence|]. split; [reflexivity|]. constructor; [exact slashless_nil|exact F].
  - exists (String c x :: l). split; [congruence|]. split; [destruct l; reflexivity|]. constructor; [apply slashless_cons; auto|exact Fl].
Qed.
Lemma spell_parts p : spells p (parts p).
Proof. destruct (spell_pieces p) as (l & N & E & F). exists l. repeat split; auto. rewrite E. apply parts_pieces; assumption. Qed.

Lemma lies_node n l x : lies n l x <-> node_at n l = Some x.
Proof.
  split.
  - induction 1 as [|links c n r x E _ IH]; [reflexivity|]. cbn [node_at]. rewrite E. exact IH.
  - revert n. induction l as [|c l IH]; intros n H; [injection H as ->; constructor|].
    cbn [node_at] in H. destruct n as [links|id]; [|discriminate]. destruct (sfind c links) eqn:E; [|discriminate].
    econstructor; [exact E|]. apply IH, H.
Qed.
Lemma open_group_some root p names g : spells p names -> p <> "" -> lies root names g -> is_group g -> open_group root p = Some g.
Proof.
  intros Sp Np L (links & ->). unfold open_group. destruct (String.eqb_spec p ""); [contradiction|].
  rewrite (parts_spell _ _ Sp). apply lies_node in L. rewrite L. reflexivity.
Qed.
Lemma open_group_none root p : (p = "" \/ forall names g, spells p names -> lies root names g -> ~ is_group g) -> open_group root p = None.
Proof.
  intros H. unfold open_group. destruct (String.eqb_spec p ""); [reflexivity|]. destruct H as [->|H]; [contradiction|].
  destruct (node_at root (parts p)) as [[links|id]|] eqn:E; try reflexivity. exfalso.
  apply (H (parts p) (HGroup links)); [apply spell_parts|apply lies_node; exact E|exists links; reflexivity].
Qed.

(** ** H5Loader::open() *)
Lemma opened fs spec f p root names g : names_file (fs_file fs) spec f p root -> p <> "" -> spells p names ->
  lies root names g -> is_group g -> comes_to (fun fuel => loader_open fuel fs spec) (HRet (mkLd root g)).
Proof.
  intros N Np Sp L G. split; [discriminate|]. exists (String.length spec). intros fuel Lf. unfold loader_open.
  assert (E := proj1 N). rewrite (find_named _ _ _ _ _ N (String.length spec) None fuel); [|exact I|reflexivity| |exact Lf].
  2: { rewrite E, !len_app. cbn. lia. }
  cbn [hbind after]. rewrite E. cbn [append]. rewrite skip_app. rewrite (open_group_some _ _ _ _ Sp Np L G). reflexivity.
Qed.
Lemma not_opened fs spec :
  (exists f p root, names_file (fs_file fs) spec f p root /\
    (p = "" \/ forall names g, spells p names -> lies root names g -> ~ is_group g)) \/
  (no_file (fs_file fs) spec /\ ~ absolute spec /\ fs_file fs spec = None) ->
  comes_to (fun fuel => loader_open fuel fs spec) (HExn RuntimeError).
Proof.
  intros [(f & p & root & N & H)|(N & A & O)]; (split; [discriminate|]); exists (S (String.length spec)); intros fuel Lf; unfold loader_open.
  - assert (E := proj1 N). rewrite (find_named _ _ _ _ _ N (String.length spec) None fuel); [|exact I|reflexivity| |lia].
    2: { rewrite E, !len_app. cbn. lia. }
    cbn [hbind after]. rewrite E. cbn [append]. rewrite skip_app. rewrite (open_group_none _ _ H). reflexivity.
  - rewrite (find_none _ _ N A (String.length spec) None fuel); [|exact I|reflexivity|lia]. rewrite O. reflexivity.
Qed.
Lemma file_alone fs spec root : no_file (fs_file fs) spec -> ~ absolute spec -> fs_file fs spec = Some root ->
  (forall names g, spells spec names -> lies root names g -> ~ is_group g) ->
  comes_to (fun fuel => loader_open fuel fs spec) (HExn RuntimeError).
Proof.
  intros N A O H. split; [discriminate|]. exists (S (String.length spec)). intros fuel Lf. unfold loader_open.
  rewrite (find_none _ _ N A (String.length spec) None fuel); [|exact I|reflexivity|lia]. rewrite O. cbn [hbind after].
  rewrite open_group_none; [reflexivity|right; exact H].
Qed.
Lemma hangs fs spec : never_returns (fun fuel => loader_open fuel fs spec) <-> absolute spec /\ no_file (fs_file fs) spec.
Proof.
  split.
  - intros H. destruct (named_or_none (fs_file fs) spec) as [(f & p & a & N)|N].
    + exfalso. assert (E := proj1 N). specialize (H (String.length spec)). unfold loader_open in H.
      rewrite (find_named _ _ _ _ _ N (String.length spec) None) in H; [|exact I|reflexivity| |lia].
      2: { rewrite E, !len_app. cbn. lia. }
      cbn [hbind] in H. destruct (open_group _ _) in H; discriminate H.
    + destruct (abs_dec spec) as [A|A]; [split; assumption|exfalso]. specialize (H (S (String.length spec))). unfold loader_open in H.
      rewrite (find_none _ _ N A (String.length spec) None) in H; [|exact I|reflexivity|lia].
      destruct (fs_file fs spec); cbn [hbind] in H; [destruct (open_group _ _) in H|]; discriminate H.
  - intros [A N] fuel. unfold loader_open. rewrite (find_hangs _ _ N A fuel None I). reflexivity.
Qed.
Lemma writer_hangs fs w spec : never_returns (fun fuel => writer_open fuel fs w spec) <-> absolute spec /\ no_file (open_rw fs) spec.
Proof.
  split.
  - intros H. destruct (named_or_none (open_rw fs) spec) as [(f & p & a & N)|N].
    + exfalso. assert (E := proj1 N). specialize (H (String.length spec)). unfold writer_open in H.
      rewrite (find_named _ _ _ _ _ N (String.length spec) None) in H; [|exact I|reflexivity| |lia].
      2: { rewrite E, !len_app. cbn. lia. }
      cbn [hbind] in H. destruct (put_at _ _ _) in H; discriminate H.
    + destruct (abs_dec spec) as [A|A]; [split; assumption|exfalso]. specialize (H (S (String.length spec))). unfold writer_open in H.
      rewrite (find_none _ _ N A (String.length spec) None) in H; [|exact I|reflexivity|lia].
      destruct (open_rw fs spec); cbn [hbind] in H; discriminate H.
  - intros [A N] fuel. unfold writer_open. rewrite (find_hangs _ _ N A fuel None I). reflexivity.
Qed.

(** What is opened was named. *)
Lemma opened_named fs spec ld : comes_to (fun fuel => loader_open fuel fs spec) (HRet ld) ->
  (exists f p names, names_file (fs_file fs) spec f p (ld_root ld) /\ spells p names /\ lies (ld_root ld) names (ld_group ld)) \/
  (no_file (fs_file fs) spec /\ fs_file fs spec = Some (ld_root ld) /\
   exists names, spells spec names /\ lies (ld_root ld) names (ld_group ld)).
Proof.
  intros (_ & n & H). specialize (H (n + S (String.length spec)) ltac:(lia)). unfold loader_open in H.
  assert (G : forall root p, match open_group root p with Some g => HRet (mkLd root g) | None => HExn RuntimeError end = HRet ld ->
    root = ld_root ld /\ exists names, spells p names /\ lies root names (ld_group ld)).
  { intros root p E. unfold open_group in E. destruct (String.eqb p ""); [discriminate|].
    destruct (node_at root (parts p)) as [[links|id]|] eqn:Q; try discriminate. injection E as <-. cbn. split; [reflexivity|].
    exists (parts p). split; [apply spell_parts|apply lies_node; exact Q]. }
  destruct (named_or_none (fs_file fs) spec) as [(f & p & a & N)|N].
  - left. assert (E := proj1 N). rewrite (find_named _ _ _ _ _ N (String.length spec) None) in H; [|exact I|reflexivity| |lia].
    2: { rewrite E, !len_app. cbn. lia. }
    cbn [hbind after] in H. rewrite E in H. cbn [append] in H. rewrite skip_app in H. apply G in H as (-> & names & Sp & L).
    exists f, p, names. auto.
  - right. destruct (abs_dec spec) as [A|A]; [rewrite (find_hangs _ _ N A _ None I) in H; discriminate H|].
    rewrite (find_none _ _ N A (String.length spec) None) in H; [|exact I|reflexivity|lia].
    destruct (fs_file fs spec) as [root|] eqn:O; [|discriminate H]. cbn [hbind after] in H. apply G in H as (-> & names & Sp & L).
    split; [exact N|]. split; [reflexivity|]. exists names. auto.
Qed.

(** ** load() *)
Lemma open_dset_some fs ld name start names id s : name <> "" -> spells name names ->
  (absolute name -> start = ld_root ld) -> (~ absolute name -> start = ld_group ld) ->
  lies start names (HData id) -> nth_error (fs_sets fs) id = Some s -> open_dset fs ld name = Some s.
Proof.
  intros Nn Sp Ha Hr L E. unfold open_dset. destruct name as [|c r]; [contradiction|]. rewrite (parts_spell _ _ Sp).
  assert ((if Ascii.eqb c "/" then ld_root ld else ld_group ld) = start) as ->.
  { destruct (Ascii.eqb_spec c "/") as [->|N]; [symmetry; apply Ha; exists r; reflexivity|symmetry; apply Hr].
    intros (q & Q). injection Q as Q _. auto. }
  apply lies_node in L. rewrite L. exact E.
Qed.
Lemma loaded fs ld name start names id s : name <> "" -> spells name names ->
  (absolute name -> start = ld_root ld) -> (~ absolute name -> start = ld_group ld) ->
  lies start names (HData id) -> nth_error (fs_sets fs) id = Some s ->
  List.length (d_ext s) <= 2 -> Forall (fun n => 0 < n) (d_ext s) ->
  exists m, loader_load fs ld name = HRet m /\ as_matrix s m.
Proof.
  intros Nn Sp Ha Hr L E Len Pos. unfold loader_load. rewrite (open_dset_some _ _ _ _ _ _ _ Nn Sp Ha Hr L E).
  unfold as_matrix, read_at. destruct (d_ext s) as [|n [|k [|x l]]] eqn:D.
  - eexists. split; [reflexivity|]. cbn. destruct (d_val s []); auto.
  - inversion Pos; subst. destruct (Nat.eqb_spec n 0); [lia|]. eexists. split; [reflexivity|]. cbn. repeat split.
  - inversion Pos as [|? ? P1 P2]; subst. inversion P2 as [|? ? P3 P4]; subst. destruct (Nat.eqb_spec (n * k) 0) as [Z|Z]; [nia|].
    eexists. split; [reflexivity|]. cbn. repeat split.
  - cbn in Len. lia.
Qed.
Lemma load_refused fs ld name :
  (name = "" \/ exists names start, spells name names /\
    (absolute name -> start = ld_root ld) /\ (~ absolute name -> start = ld_group ld) /\
    forall id s, lies start names (HData id) -> nth_error (fs_sets fs) id = Some s -> 2 < List.length (d_ext s)) ->
  loader_load fs ld name = HExn RuntimeError.
Proof.
  intros H. unfold loader_load. destruct (open_dset fs ld name) as [s|] eqn:E; [|reflexivity].
  unfold open_dset in E. destruct name as [|c r]; [discriminate|]. destruct H as [H|(names & start & Sp & Ha & Hr & H)]; [discriminate|].
  rewrite (parts_spell _ _ Sp) in E.
  assert ((if Ascii.eqb c "/" then ld_root ld else ld_group ld) = start) as Q.
  { destruct (Ascii.eqb_spec c "/") as [->|N]; [symmetry; apply Ha; exists r; reflexivity|symmetry; apply Hr].
    intros (q & Q). injection Q as Q _. auto. }
  rewrite Q in E. destruct (node_at start names) as [[links|id]|] eqn:Nd; try discriminate. apply lies_node in Nd.
  specialize (H id s Nd E). destruct (d_ext s) as [|a [|b [|d l]]]; cbn in H; try lia. reflexivity.
Qed.
