(** Proofs about what H5StateWriter leaves in a file. *)
From Coq Require Import List String Ascii Bool ZArith NArith Arith Lia.
From Verif Require Import SMap SMap_Proofs Dbl Util_Spec Machine_Model Array_Model Array_Spec Array3_Proofs Hdf_Model Hdf_Spec Hdf_Proofs.
Import ListNotations.
Open Scope string_scope.
Open Scope list_scope.

(** ** Trees *)
Lemma lies_det n l x y : lies n l x -> lies n l y -> x = y.
Proof. rewrite !lies_node. congruence. Qed.
Lemma put_at_ok x names : names <> [] -> forall root pl, lies root (removelast names) (HGroup pl) ->
  exists root', put_at root names x = Some root' /\ lies root' names x /\ elsewhere names root root'.
Proof.
  induction names as [|c r IH]; intros N root pl L; [contradiction|]. destruct r as [|d r].
  - inversion L; subst. exists (HGroup (sset c x pl)). split; [reflexivity|].
    split; [econstructor; [rewrite sfind_sset, String.eqb_refl; reflexivity|constructor]|].
    intros l n A B. destruct l as [|e l]; [exfalso; apply B; exists [c]; reflexivity|].
    assert (e <> c) as Ne by (intros ->; apply A; exists l; reflexivity).
    rewrite !lies_node. cbn [node_at]. rewrite sfind_sset. destruct (String.eqb_spec e c); [contradiction|reflexivity].
  - change (removelast (c :: d :: r)) with (c :: removelast (d :: r)) in L. inversion L as [|links c' n r' y E Ln]; subst.
    destruct (IH ltac:(congruence) n pl Ln) as (n2 & P & L2 & El).
    exists (HGroup (sset c n2 links)). split; [cbn [put_at]; cbn [put_at] in P; rewrite E, P; reflexivity|].
    split; [econstructor; [rewrite sfind_sset, String.eqb_refl; reflexivity|exact L2]|].
    intros l m A B. destruct l as [|e l]; [exfalso; apply B; exists (c :: d :: r); reflexivity|].
    rewrite !lies_node. cbn [node_at]. rewrite sfind_sset. destruct (String.eqb_spec e c) as [->|Ne]; [|reflexivity].
    rewrite E. rewrite <- !lies_node. apply El.
    + intros (q & Q). apply A. exists q. rewrite Q. reflexivity.
    + intros (q & Q). apply B. exists q. rewrite Q. reflexivity.
Qed.
Lemma lies_parent names : names <> [] -> forall n x, lies n names x -> exists pl, lies n (removelast names) (HGroup pl).
Proof.
  induction names as [|c r IH]; intros N n x L; [contradiction|]. inversion L as [|links c' n' r' y E Ln]; subst. destruct r as [|d r].
  - exists links. constructor.
  - destruct (IH ltac:(congruence) n' x Ln) as (pl & Lp). exists pl. change (removelast (c :: d :: r)) with (c :: removelast (d :: r)).
    econstructor; [exact E|exact Lp].
Qed.

(** ** Opening *)
Lemma set_file_same fs f n : fs_file (set_file fs f n) f = Some n.
Proof. cbn. rewrite String.eqb_refl. reflexivity. Qed.
Lemma set_file_other fs f n g : g <> f -> fs_file (set_file fs f n) g = fs_file fs g.
Proof. intros N. cbn. destruct (String.eqb_spec g f); [contradiction|reflexivity]. Qed.
Lemma writer_opens fs w spec f p root names pl : names_file (open_rw fs) spec f p root -> spells p names -> names <> [] ->
  lies root (removelast names) (HGroup pl) ->
  exists root', comes_to (fun fuel => writer_open fuel fs w spec)
      (HRet (set_file fs f root', mkW (Some (f, names)) (w_base w) (w_elems w))) /\
    lies root' names (HGroup []) /\ elsewhere names root root'.
Proof.
  intros N Sp Nn L. destruct (put_at_ok (HGroup []) names Nn root pl L) as (root' & P & L' & El).
  exists root'. split; [|split; assumption]. split; [discriminate|]. exists (String.length spec). intros fuel Lf. unfold writer_open.
  assert (E := proj1 N). rewrite (find_named _ _ _ _ _ N (String.length spec) None fuel); [|exact I|reflexivity| |exact Lf].
  2: { rewrite E, !len_app. cbn. lia. }
  cbn [hbind]. rewrite E. cbn [append]. rewrite skip_app. rewrite (parts_spell _ _ Sp), P. reflexivity.
Qed.

(** ** Appending *)
Lemma append_to_shape ab k m l l' : h5_append_to ab k m l = Some l' -> map h_name l' = map h_name l.
Proof.
  revert l'. induction l as [|h l IH]; intros l' H; cbn [h5_append_to] in H; [injection H as <-; reflexivity|].
  destruct (get_array ab k (h_idx h)) as [a| |]; try discriminate.
  destruct (write_row _ _ _ _) as [s|]; [|discriminate]. destruct (h5_append_to ab k m l) as [r|]; [|discriminate].
  injection H as <-. cbn [map h_name]. rewrite (IH r eq_refl). reflexivity.
Qed.
Lemma append_to_length ab k m l l' : h5_append_to ab k m l = Some l' -> List.length l' = List.length l.
Proof. intros H. apply append_to_shape in H. rewrite <- (map_length h_name l'), H. apply map_length. Qed.
Lemma put_sets_all pre old new : List.length new = List.length old -> put_sets (pre ++ old) (List.length pre) new = pre ++ new.
Proof.
  intros E. unfold put_sets. rewrite firstn_app, Nat.sub_diag, firstn_all, app_nil_r. cbn [firstn].
  rewrite skipn_all2 by (rewrite app_length; lia). rewrite app_nil_r. reflexivity.
Qed.
Lemma append_more ab states : forall fs w pre l, w_elems w <> [] -> fs_sets fs = pre ++ map h_dset (w_elems w) ->
  w_base w = List.length pre -> h5_run ab states (w_elems w) = Some l ->
  writer_append_all ab states fs w = HRet (mkFS (fs_file fs) (fs_new fs) (pre ++ map h_dset l), mkW (w_group w) (w_base w) l)
  /\ map h_name l = map h_name (w_elems w).
Proof.
  induction states as [|s states IH]; intros fs w pre l Ne Es Eb H.
  - cbn in H. injection H as <-. cbn [writer_append_all]. rewrite <- Es. destruct fs, w; auto.
  - cbn [h5_run] in H. destruct (h5_append ab s (w_elems w)) as [l1|] eqn:E1; [|discriminate].
    cbn [writer_append_all]. unfold writer_append. destruct (w_elems w) as [|e el] eqn:Ew; [contradiction|].
    cbn [hbind]. rewrite Ew. cbn [h5_append] in E1. rewrite E1. cbn [hbind fst snd].
    assert (Sh := append_to_shape _ _ _ _ _ E1). assert (Ln := append_to_length _ _ _ _ _ E1).
    edestruct (IH (mkFS (fs_file fs) (fs_new fs) (put_sets (fs_sets fs) (w_base w) (map h_dset l1))) (mkW (w_group w) (w_base w) l1) pre l) as [R1 R2].
    + cbn. intros ->. discriminate Ln.
    + cbn. rewrite Es, Eb. apply put_sets_all. rewrite !map_length. exact Ln.
    + exact Eb.
    + exact H.
    + cbn [fs_file fs_new w_group w_base w_elems] in R1, R2. split; [exact R1|congruence].
Qed.
Lemma link_all_ok l : forall base links, NoDup (map h_name l) -> (forall h, In h l -> sfind (h_name h) links = None) ->
  exists links', link_all base l links = Some links' /\
    (forall i h, nth_error l i = Some h -> sfind (h_name h) links' = Some (HData (base + i))) /\
    (forall nm, ~ In nm (map h_name l) -> sfind nm links' = sfind nm links).
Proof.
  induction l as [|h l IH]; intros base links Nd F.
  - exists links. split; [reflexivity|]. split; [intros [|i] h H; discriminate H|auto].
  - cbn [map] in Nd. inversion Nd as [|? ? Nh Nl]; subst. cbn [link_all]. rewrite (F h (or_introl eq_refl)).
    destruct (IH (S base) (sset (h_name h) (HData base) links) Nl) as (links' & E & K & O).
    { intros g Hg. rewrite sfind_sset. destruct (String.eqb_spec (h_name g) (h_name h)) as [Q|Q]; [|apply F; right; exact Hg].
      exfalso. apply Nh. rewrite <- Q. apply in_map, Hg. }
    exists links'. split; [exact E|]. split.
    + intros [|i] g Hg; cbn [nth_error] in Hg.
      * injection Hg as <-. rewrite (O _ Nh), sfind_sset, String.eqb_refl, Nat.add_0_r. reflexivity.
      * rewrite (K i g Hg). f_equal. f_equal. lia.
    + intros nm Nn. cbn [map In] in Nn. rewrite O by tauto. rewrite sfind_sset.
      destruct (String.eqb_spec nm (h_name h)) as [->|]; [tauto|reflexivity].
Qed.

(** ** The attributes by name *)
Definition name_of (t : attribute) : string := fst (fst t).
Lemma prepare_names ab kd : simple kd -> exists els, h5_prepare 100 ab kd 0 = Some els /\ map h_name els = map name_of (attributes kd).
Proof.
  intros Sk. destruct kd as [| |n]; [..|red in Sk; subst n]; eexists; (split; [cbn; reflexivity|reflexivity]).
Qed.
Fixpoint distinct (l : list string) : bool :=
  match l with [] => true | x :: r => negb (existsb (String.eqb x) r) && distinct r end%bool.
Lemma distinct_ok l : distinct l = true -> NoDup l.
Proof.
  induction l as [|x l IH]; intros H; [constructor|]. cbn [distinct] in H. apply andb_true_iff in H as [A B].
  constructor; [|apply IH, B]. intros Hx. apply negb_true_iff in A. rewrite (proj2 (existsb_exists _ _)) in A; [discriminate|].
  exists x. split; [exact Hx|apply String.eqb_refl].
Qed.
Lemma attribute_names kd : simple kd -> NoDup (map name_of (attributes kd)).
Proof. intros Sk. apply distinct_ok. destruct kd as [| |n]; [..|red in Sk; subst n]; reflexivity. Qed.
Definition plain_name (nm : string) : bool :=
  match nm with EmptyString => false | String c _ => negb (Ascii.eqb c "/") end && match parts nm with [x] => String.eqb x nm | _ => false end.
Lemma attribute_plain kd i nm sh den : simple kd -> nth_error (attributes kd) i = Some (nm, sh, den) ->
  nm <> "" /\ spells nm [nm] /\ ~ absolute nm /\ Forall (fun n => 0 < n) sh.
Proof.
  intros Sk E. assert (H : forallb (fun t => plain_name (name_of t) && forallb (Nat.ltb 0) (snd (fst t)))%bool (attributes kd) = true).
  { destruct kd as [| |n]; [..|red in Sk; subst n]; reflexivity. }
  rewrite forallb_forall in H. apply nth_error_In in E. specialize (H _ E). cbn [name_of fst snd] in H.
  apply andb_true_iff in H as [H1 H2]. unfold plain_name in H1. apply andb_true_iff in H1 as [H1 H3].
  destruct nm as [|c r]; [discriminate|]. split; [discriminate|]. split; [|split].
  - assert (Sp := spell_parts (String c r)). destruct (parts (String c r)) as [|x [|y l]]; try discriminate.
    apply String.eqb_eq in H3. rewrite H3 in Sp. exact Sp.
  - intros (q & Q). injection Q as -> _. discriminate H1.
  - apply Forall_forall. intros n Hn. rewrite forallb_forall in H2. apply Nat.ltb_lt, H2, Hn.
Qed.

(** ** Written, then loaded *)
Lemma append_all_new ab kd hist fs f names root : simple kd -> hist <> [] ->
  Forall (fun h => holds ab kd (fst h) (snd h)) hist -> abi_ok ab -> names <> [] ->
  fs_file fs f = Some root -> lies root names (HGroup []) ->
  exists l root' links, writer_append_all ab (map (fun h => (kd, fst h)) hist) fs (mkW (Some (f, names)) 0 []) =
      HRet (mkFS (fs_file (set_file fs f root')) (fs_new fs) (fs_sets fs ++ map h_dset l), mkW (Some (f, names)) (List.length (fs_sets fs)) l) /\
    lies root' names (HGroup links) /\ elsewhere names root root' /\
    forall i nm sh den, nth_error (attributes kd) i = Some (nm, sh, den) ->
      exists h, nth_error l i = Some h /\ records (map snd hist) nm sh den h /\
        sfind nm links = Some (HData (List.length (fs_sets fs) + i)).
Proof.
  intros Sk Nh Ho Ab Nn Ef Lg. destruct (each_recorded ab kd hist Ab Sk Nh Ho) as (l & R & Rec).
  destruct (prepare_names ab kd Sk) as (els & Pe & Pn).
  assert (Nd : NoDup (map h_name els)) by (rewrite Pn; apply attribute_names, Sk).
  destruct (link_all_ok els (List.length (fs_sets fs)) [] Nd (fun h _ => eq_refl)) as (links & Lk & Lf & _).
  destruct (lies_parent names Nn _ _ Lg) as (pl & Lp).
  destruct (put_at_ok (HGroup links) names Nn root pl Lp) as (root' & Pt & Lr & El).
  destruct hist as [|h0 hist]; [contradiction|]. cbn [map] in R. cbn [h5_run] in R. cbn [h5_append fst] in R. rewrite Pe in R. cbn [snd] in R.
  destruct (h5_append_to ab kd (fst h0) els) as [l1|] eqn:E1; [|discriminate].
  assert (Ne : els <> []) by (intros ->; destruct kd; discriminate Pn).
  assert (Sh := append_to_shape _ _ _ _ _ E1). assert (Ln := append_to_length _ _ _ _ _ E1).
  set (fs1 := mkFS (fs_file (set_file fs f root')) (fs_new fs) (fs_sets fs ++ map h_dset l1)).
  set (w1 := mkW (Some (f, names)) (List.length (fs_sets fs)) l1).
  destruct (append_more ab (map (fun h => (kd, fst h)) hist) fs1 w1 (fs_sets fs) l) as [A1 A2].
  { cbn. intros ->. destruct els; [contradiction|discriminate Ln]. }
  { reflexivity. } { reflexivity. } { exact R. }
  exists l, root', links. split; [|split; [exact Lr|split; [exact El|]]].
  - cbn [map writer_append_all]. unfold writer_append at 1. cbn [w_elems fst snd]. unfold writer_prepare. cbn [w_group]. rewrite Pe.
    destruct els as [|e els]; [contradiction|]. rewrite Ef. rewrite (proj1 (lies_node _ _ _) Lg). rewrite Lk.
    unfold relink. destruct names as [|c names]; [contradiction|]. rewrite Pt. cbn [hbind w_elems fs_sets w_base fs_file fs_new w_group].
    rewrite E1. cbn [hbind fst snd].
    replace (put_sets (fs_sets fs ++ map h_dset (e :: els)) (List.length (fs_sets fs)) (map h_dset l1)) with (fs_sets fs ++ map h_dset l1).
    2: { symmetry. apply put_sets_all. rewrite !map_length. exact Ln. }
    exact A1.
  - intros i nm sh den Ei. destruct (Rec i nm sh den Ei) as (h & Nth & Rc). exists h. split; [exact Nth|]. split; [exact Rc|].
    assert (Nm : map h_name l = map h_name els) by (cbn [w_elems w1] in A2; congruence).
    assert (Ni : nth_error (map h_name els) i = Some nm).
    { rewrite <- Nm, nth_error_map, Nth. cbn. f_equal. exact (proj1 Rc). }
    rewrite nth_error_map in Ni. destruct (nth_error els i) as [e|] eqn:Ee; [|discriminate]. injection Ni as <-.
    apply Lf. exact Ee.
Qed.
Lemma records_rows fs ld nm sh den h hist id n : nm <> "" -> spells nm [nm] -> ~ absolute nm -> Forall (fun n => 0 < n) sh ->
  List.length sh <= 1 -> hist <> [] -> records hist nm sh den h -> ld_group ld = n -> lies n [nm] (HData id) ->
  nth_error (fs_sets fs) id = Some (h_dset h) -> exists m, loader_load fs ld nm = HRet m /\ rows_of hist sh den m.
Proof.
  intros Nn Sp Na Ps Ls Nh (_ & Ex & Rv) <- L E.
  destruct (loaded fs ld nm (ld_group ld) [nm] id (h_dset h)) as (m & Lm & Am); auto.
  { intros A. contradiction. } { rewrite Ex. cbn. lia. }
  { rewrite Ex. constructor; [destruct hist; [contradiction|cbn; lia]|exact Ps]. }
  exists m. split; [exact Lm|]. unfold as_matrix in Am. rewrite Ex in Am. destruct sh as [|d [|e sh]]; [| |cbn in Ls; lia].
  - destruct Am as (Ar & Ac & Av). split; [exact Ar|]. split; [exact Ac|]. intros r c j Er Lj. cbn in Lj.
    replace j with 0 by lia. rewrite Av by (apply nth_error_Some; congruence). rewrite (Rv r c [] Er); [reflexivity|constructor].
  - destruct Am as (Ar & Ac & Av). split; [exact Ar|]. split; [rewrite Ac; cbn; lia|]. intros r c j Er Lj. cbn in Lj.
    rewrite Av; [|apply nth_error_Some; congruence|lia].
    rewrite (Rv r c [j] Er); [reflexivity|]. repeat constructor. lia.
Qed.
Lemma written_loads ab kd hist fs spec f p root names pl : abi_ok ab -> simple kd -> hist <> [] ->
  Forall (fun h => holds ab kd (fst h) (snd h)) hist ->
  names_file (open_rw fs) spec f p root -> spells p names -> names <> [] -> lies root (removelast names) (HGroup pl) ->
  exists fs1 w1 fs2 w2 ld, comes_to (fun fuel => writer_open fuel fs writer0 spec) (HRet (fs1, w1)) /\
    writer_append_all ab (map (fun h => (kd, fst h)) hist) fs1 w1 = HRet (fs2, w2) /\
    comes_to (fun fuel => loader_open fuel fs2 spec) (HRet ld) /\
    (forall i nm sh den, nth_error (attributes kd) i = Some (nm, sh, den) -> List.length sh <= 1 ->
      exists m, loader_load fs2 ld nm = HRet m /\ rows_of (map snd hist) sh den m) /\
    (forall i nm sh den, nth_error (attributes kd) i = Some (nm, sh, den) -> 2 <= List.length sh ->
      loader_load fs2 ld nm = HExn RuntimeError).
Proof.
  intros Ab Sk Nh Ho N Sp Nn Lp. destruct (writer_opens fs writer0 spec f p root names pl N Sp Nn Lp) as (r1 & Op & L1 & E1).
  cbn [w_base w_elems writer0] in Op.
  destruct (append_all_new ab kd hist (set_file fs f r1) f names r1 Sk Nh Ho Ab Nn (set_file_same _ _ _) L1) as (l & r2 & links & Ap & L2 & E2 & Rec).
  eexists _, _, _, _, (mkLd r2 (HGroup links)). split; [exact Op|]. split; [exact Ap|].
  assert (Np : p <> "").
  { intros ->. apply parts_spell in Sp. cbn in Sp. auto. }
  split.
  { apply (opened _ spec f p r2 names (HGroup links)); auto; [|exists links; reflexivity].
    destruct N as (E & _ & Far). split; [exact E|]. cbn [fs_file set_file]. split; [rewrite String.eqb_refl; reflexivity|].
    intros f' p' E' Lf. destruct (String.eqb_spec f' f) as [->|Nf]; [lia|]. specialize (Far f' p' E' Lf). unfold open_rw in Far.
    destruct (fs_file fs f'); [discriminate|reflexivity]. }
  assert (Sets : forall i h, nth_error l i = Some h ->
    nth_error (fs_sets (set_file fs f r1) ++ map h_dset l) (List.length (fs_sets (set_file fs f r1)) + i) = Some (h_dset h)).
  { intros i h Ei. rewrite nth_error_app2 by lia. replace (_ + i - _) with i by lia. rewrite nth_error_map, Ei. reflexivity. }
  split; intros i nm sh den Ei Ls; destruct (Rec i nm sh den Ei) as (h & Nth & Rc & Lk);
    destruct (attribute_plain kd i nm sh den Sk Ei) as (P1 & P2 & P3 & P4).
  - eapply (records_rows _ (mkLd r2 (HGroup links)) nm sh den h (map snd hist) _ (HGroup links)); eauto; [|econstructor; [exact Lk|constructor]].
    destruct hist; [contradiction|discriminate].
  - apply load_refused. right. exists [nm], (HGroup links). split; [exact P2|]. split; [intros; contradiction|]. split; [reflexivity|].
    intros id s Lid Es. assert (lies (HGroup links) [nm] (HData (List.length (fs_sets (set_file fs f r1)) + i))) as Lid' by (econstructor; [exact Lk|constructor]).
    assert (Q := lies_det _ _ _ _ Lid Lid'). injection Q as ->. pose proof (Sets i h Nth) as Es'. cbn [fs_sets set_file] in Es, Es'. rewrite Es' in Es. injection Es as <-.
    destruct Rc as (_ & Ex & _). rewrite Ex. cbn. lia.
Qed.

(** A new writer finds an empty group, and leaves everything else as it was. *)
Lemma replaced fs w spec f p root names pl : names_file (open_rw fs) spec f p root -> spells p names -> names <> [] ->
  lies root (removelast names) (HGroup pl) ->
  exists fs' w' root', comes_to (fun fuel => writer_open fuel fs w spec) (HRet (fs', w')) /\
    fs_file fs' f = Some root' /\ lies root' names (HGroup []) /\ elsewhere names root root' /\
    (forall g, g <> f -> fs_file fs' g = fs_file fs g) /\ fs_sets fs' = fs_sets fs.
Proof.
  intros N Sp Nn L. destruct (writer_opens fs w spec f p root names pl N Sp Nn L) as (root' & C & L' & El).
  eexists _, _, root'. split; [exact C|]. split; [apply set_file_same|]. split; [exact L'|]. split; [exact El|].
  split; [intros g Ng; apply set_file_other, Ng|reflexivity].
Qed.
Lemma put_at_parent x l : forall root r, put_at root l x = Some r -> l <> [] -> exists pl, lies root (removelast l) (HGroup pl).
Proof.
  induction l as [|c [|d l] IH]; intros root r P Nn; [contradiction| |].
  - destruct root as [links|id]; [|discriminate P]. exists links. constructor.
  - destruct root as [links|id]; [|discriminate P]. change (put_at (HGroup links) (c :: d :: l) x) with
      (match sfind c links with
       | Some n' => match put_at n' (d :: l) x with Some n2 => Some (HGroup (sset c n2 links)) | None => None end
       | None => None end) in P.
    destruct (sfind c links) as [n'|] eqn:Ec; [|discriminate]. destruct (put_at n' (d :: l) x) as [n2|] eqn:P2; [|discriminate P].
    destruct (IH n' n2 P2 ltac:(congruence)) as (pl & Lp). exists pl.
    change (removelast (c :: d :: l)) with (c :: removelast (d :: l)). econstructor; [exact Ec|exact Lp].
Qed.
Lemma writer_refused fs w spec :
  (exists f p root, names_file (open_rw fs) spec f p root /\
    forall names, spells p names -> names = [] \/ forall pl, ~ lies root (removelast names) (HGroup pl)) \/
  (no_file (open_rw fs) spec /\ ~ absolute spec /\ open_rw fs spec = None) ->
  comes_to (fun fuel => writer_open fuel fs w spec) (HExn RuntimeError).
Proof.
  intros [(f & p & root & N & H)|(N & A & O)]; (split; [discriminate|]); exists (S (String.length spec)); intros fuel Lf; unfold writer_open.
  - assert (E := proj1 N). rewrite (find_named _ _ _ _ _ N (String.length spec) None fuel); [|exact I|reflexivity| |lia].
    2: { rewrite E, !len_app. cbn. lia. }
    cbn [hbind]. rewrite E. cbn [append]. rewrite skip_app. assert (Sp := spell_parts p).
    destruct (put_at root (parts p) (HGroup [])) as [r|] eqn:P; [exfalso|reflexivity].
    specialize (H _ Sp). assert (Nn : parts p <> []) by (intros Q; rewrite Q in P; destruct root; discriminate P).
    destruct H as [H|H]; [contradiction|]. destruct (put_at_parent _ _ _ _ P Nn) as (pl & Lp). exact (H pl Lp).
  - rewrite (find_none _ _ N A (String.length spec) None fuel); [|exact I|reflexivity|lia]. rewrite O. reflexivity.
Qed.

(** ** Examples *)
(** A file system with one file, data.h5: the group runs with two datasets and the
    group first in it. *)
Definition grid2 : dset := mkDS [2; 3] (fun idx => match idx with [i; j] => Some (CN (N.of_nat (10 * i + j))) | _ => None end).
Definition cube : dset := mkDS [1; 2; 3] (fun _ => Some (CD dzero)).
Definition none3 : dset := mkDS [0; 3] (fun _ => None).
Definition tree0 : hnode := HGroup [("runs", HGroup [("cube", HData 1); ("first", HGroup []); ("grid", HData 0); ("none", HData 2)])].
Definition only (f : string) (n : hnode) : string -> option hnode := fun g => if String.eqb g f then Some n else None.
Definition fs_of (f : string) : h5fs := mkFS (only f tree0) (fun g => String.eqb g "new.h5") [grid2; cube; none3].
Lemma only_named f p n : (forall f' p', (f ++ "/" ++ p)%string = (f' ++ "/" ++ p')%string -> String.length f < String.length f' -> f' <> f) ->
  names_file (only f n) (f ++ "/" ++ p)%string f p n.
Proof.
  intros H. split; [reflexivity|]. split; [unfold only; rewrite String.eqb_refl; reflexivity|].
  intros f' p' E L. unfold only. destruct (String.eqb_spec f' f) as [->|]; [lia|reflexivity].
Qed.
Lemma only_named_rw f p : f <> "new.h5" -> names_file (open_rw (fs_of f)) (f ++ "/" ++ p)%string f p tree0 \/
  exists p', (f ++ "/" ++ p)%string = ("new.h5" ++ "/" ++ p')%string.
Proof.
  intros Nf. destruct (String.eqb_spec (take 7 (f ++ "/" ++ p)%string) "new.h5/") as [E|E].
  - right. destruct (take_split 7 (f ++ "/" ++ p)%string) as (r & Er). rewrite E in Er. exists r. exact Er.
  - left. split; [reflexivity|]. unfold open_rw, fs_of, only. cbn [fs_file fs_new]. split; [rewrite String.eqb_refl; reflexivity|].
    intros f' p' E' L. destruct (String.eqb_spec f' f) as [->|]; [lia|]. destruct (String.eqb_spec f' "new.h5") as [->|]; [|reflexivity].
    exfalso. apply E. rewrite E'. destruct p'; reflexivity.
Qed.
Lemma slashless_dec s : last_slash 0 s = None -> slashless s.
Proof. apply last_none. Qed.
