(** The recording of states in files. *)
From Coq Require Import List String Bool ZArith NArith Arith Lia.
From Verif Require Import SMap SMap_Proofs Dbl Lexer_Model Util_Model Util_Spec Util_Proofs Util2_Proofs Util3_Proofs Array_Model Array_Spec Array_Proofs Array2_Proofs.
Import ListNotations.
Open Scope string_scope.
Open Scope nat_scope.
Open Scope list_scope.

Lemma some_inj {A} (x y : A) : Some x = Some y -> x = y.
Proof. congruence. Qed.
Lemma inbounds_within sh idx : within sh idx -> inbounds sh idx = true.
Proof. induction 1 as [|i m idx sh H W IH]; [reflexivity|]. cbn [inbounds]. rewrite IH, (proj2 (Nat.ltb_lt _ _) H). reflexivity. Qed.
Lemma inside_within sh idx : within sh idx -> inside sh idx = true.
Proof. intros W. unfold inside. rewrite (within_len _ _ W), Nat.eqb_refl, inbounds_within by exact W. reflexivity. Qed.
Lemma append_nth ab kd m : forall l l' i h, h5_append_to ab kd m l = Some l' -> nth_error l i = Some h ->
  exists a s, get_array ab kd (h_idx h) = AInfo a /\
    write_row m a (extend (a_type a) (h_dset h) (S (h_next h) :: a_dim a)) (h_next h) = Some s /\
    nth_error l' i = Some (mkHE (h_idx h) (h_name h) s (S (h_next h))).
Proof.
  induction l as [|x l IH]; intros l' i h E N; [destruct i; discriminate N|]. cbn [h5_append_to] in E.
  destruct (get_array ab kd (h_idx x)) as [a| |] eqn:G; try discriminate E.
  destruct (write_row _ _ _ _) as [s|] eqn:Wr; [|discriminate E].
  destruct (h5_append_to ab kd m l) as [r|] eqn:A; [|discriminate E]. injection E as <-.
  destruct i as [|i].
  - injection N as <-. exists a, s. repeat split; assumption.
  - apply (IH r i h eq_refl N).
Qed.
Lemma prepare_nth ab kd : forall fuel i0 l i a, h5_prepare fuel ab kd i0 = Some l ->
  (forall j, j < i -> exists b, get_array ab kd (i0 + j) = AInfo b) -> get_array ab kd (i0 + i) = AInfo a ->
  nth_error l i = Some (mkHE (i0 + i) (a_name a) (mkDS (0 :: a_dim a) (fun _ => None)) 0).
Proof.
  induction fuel as [|fuel IH]; intros i0 l i a E B G; [discriminate E|]. cbn [h5_prepare] in E. destruct i as [|i].
  - rewrite Nat.add_0_r in *. rewrite G in E. destruct (h5_prepare fuel ab kd (S i0)); [|discriminate E]. injection E as <-. reflexivity.
  - destruct (B 0 ltac:(lia)) as (b & Gb). rewrite Nat.add_0_r in Gb. rewrite Gb in E.
    destruct (h5_prepare fuel ab kd (S i0)) as [l'|] eqn:E'; [|discriminate E]. injection E as <-. cbn [nth_error].
    replace (i0 + S i) with (S i0 + i) in * by lia. apply IH; [exact E'| |exact G].
    intros j L. replace (S i0 + j) with (i0 + S j) by lia. apply B. lia.
Qed.
Lemma zeros_within sh : Forall (lt 0) sh -> within sh (repeat 0 (List.length sh)).
Proof. induction 1; cbn; constructor; assumption. Qed.
Lemma dot_zeros st n : dot (repeat 0 n) st = 0%Z.
Proof. revert st. induction n as [|n IH]; intros [|s st]; cbn [repeat dot]; try reflexivity. rewrite IH. lia. Qed.

(** Rows of packed attributes. *)
Lemma packed_cells ab kd a i nm sh den m c : populated kd -> nth_error (attributes kd) i = Some (nm, sh, den) ->
  described ab kd a (nm, sh, den) -> packed ab sh den -> holds ab kd m c ->
  forall idx, within sh idx -> m (fst (a_ptr a)) (snd (a_ptr a) + 8 * Z.of_nat (flat sh idx))%Z = Some (c (den idx)).
Proof.
  intros P E G K H idx W. destruct (dims_positive kd i nm sh den P E) as [Pd _].
  destruct G as (_ & _ & _ & _ & G). destruct (G _ (zeros_within sh Pd)) as [Z _].
  destruct (G _ W) as [_ Hf]. specialize (H _ Hf). specialize (K _ W). rewrite <- Z in K. unfold raw in K.
  rewrite dot_zeros in K. cbn [fst snd] in K. rewrite Z.add_0_r in K. rewrite K in H. exact H.
Qed.
Definition tracks (states : list (field -> cell)) (i : nat) (nm : string) (sh : list nat) (den : list nat -> field) (l : list helem) : Prop :=
  exists h, nth_error l i = Some h /\ h_idx h = i /\ h_next h = List.length states /\ records states nm sh den h.
Lemma append_tracks ab kd m c states i nm sh den l l' : populated kd -> holds ab kd m c ->
  nth_error (attributes kd) i = Some (nm, sh, den) -> packed ab sh den ->
  tracks states i nm sh den l -> h5_append_to ab kd m l = Some l' -> tracks (states ++ [c]) i nm sh den l'.
Proof.
  intros P H E K (h & N & Hi & Hn & R1 & R2 & R3) A.
  destruct (append_nth ab kd m l l' i h A N) as (a & s & G & Wr & N'). rewrite Hi in G.
  pose proof (get_array_spec ab kd i P) as D. rewrite E, G in D.
  pose proof (packed_cells ab kd a i nm sh den m c P E D K H) as Pc.
  destruct D as (D1 & D2 & _). rewrite D2 in Wr.
  unfold write_row in Wr. destruct (forallb _ _); [|discriminate Wr]. apply some_inj in Wr. subst s.
  eexists. split; [exact N'|]. cbn [h_idx h_next h_name h_dset]. split; [exact Hi|]. split.
  { rewrite app_length, Hn. cbn. lia. }
  split; [exact R1|]. cbn [d_ext d_val]. split.
  { unfold extend. cbn [d_ext]. rewrite app_length, Hn. cbn [List.length]. rewrite Nat.add_1_r. reflexivity. }
  intros r c' idx Nr W. cbn [h_dset d_val]. rewrite D2, (inside_within _ _ W), andb_true_r, Hn.
  destruct (Nat.eqb_spec r (List.length states)) as [->|Dr].
  - rewrite nth_error_app2, Nat.sub_diag in Nr by lia. injection Nr as <-. apply Pc, W.
  - assert (L : r < List.length states).
    { assert (L : r < List.length (states ++ [c])) by (apply nth_error_Some; congruence). rewrite app_length in L. cbn in L. lia. }
    rewrite nth_error_app1 in Nr by exact L. unfold extend; cbn [d_val].
    rewrite !inside_within.
    + apply R3; assumption.
    + rewrite R2. constructor; assumption.
    + constructor; [lia|exact W].
Qed.
Lemma prepare_tracks ab kd l i nm sh den : populated kd -> nth_error (attributes kd) i = Some (nm, sh, den) ->
  h5_prepare 100 ab kd 0 = Some l -> tracks [] i nm sh den l.
Proof.
  intros P E Pr. pose proof (get_array_spec ab kd i P) as D. rewrite E in D.
  destruct (get_array ab kd i) as [a| |] eqn:G; [|destruct D..]. destruct D as (D1 & D2 & _).
  pose proof (prepare_nth ab kd 100 0 l i a Pr) as N. eexists. split.
  - apply N; [|exact G]. intros j L. cbn [Nat.add]. pose proof (get_array_spec ab kd j P) as D.
    destruct (nth_error (attributes kd) j) eqn:Ej.
    + destruct (get_array ab kd j) as [b| |]; [eauto|destruct D..].
    + exfalso. apply nth_error_None in Ej. assert (i < List.length (attributes kd)) by (apply nth_error_Some; congruence). lia.
  - split; [reflexivity|]. split; [reflexivity|]. split; [exact D1|]. split; [cbn [h_dset d_ext List.length]; rewrite D2; reflexivity|].
    intros r c idx Nr. destruct r; discriminate Nr.
Qed.
Lemma run_tracks ab i nm sh den : packed ab sh den -> forall hist states l l',
  Forall (hist_ok ab) hist -> (forall h, In h hist -> nth_error (attributes (fst (fst h))) i = Some (nm, sh, den)) ->
  (l = [] /\ states = [] /\ hist <> [] \/ l <> [] /\ tracks states i nm sh den l) ->
  h5_run ab (map fst hist) l = Some l' -> tracks (states ++ map snd hist) i nm sh den l'.
Proof.
  intros K. induction hist as [|[[kd m] c] hist IH]; intros states l l' Ok At S R.
  - destruct S as [(_ & _ & C)|[_ T]]; [congruence|]. cbn in R. injection R as <-. cbn [map]. rewrite app_nil_r. exact T.
  - inversion Ok as [|? ? [P H] Ok']; subst. cbn [fst snd] in P, H.
    assert (E : nth_error (attributes kd) i = Some (nm, sh, den)) by (apply (At (kd, m, c)); left; reflexivity).
    cbn [map h5_run fst] in R. destruct (h5_append ab (kd, m) l) as [l1|] eqn:A; [|discriminate R].
    assert (T1 : tracks (states ++ [c]) i nm sh den l1).
    { unfold h5_append in A. cbn [fst snd] in A. destruct S as [(-> & -> & _)|[Nl T]].
      - destruct (h5_prepare 100 ab kd 0) as [l0|] eqn:Pr; [|discriminate A].
        apply (append_tracks ab kd m c [] i nm sh den l0 l1); auto. apply (prepare_tracks ab kd); auto.
      - destruct l as [|x l]; [congruence|]. apply (append_tracks ab kd m c states i nm sh den (x :: l) l1); auto. }
    replace (states ++ map snd ((kd, m, c) :: hist)) with ((states ++ [c]) ++ map snd hist) by (rewrite <- app_assoc; reflexivity).
    apply (IH (states ++ [c]) l1 l' Ok'); auto.
    + intros h Hh. apply At. right. exact Hh.
    + right. split; [|exact T1]. destruct T1 as (h & N & _). intros ->. destruct i; discriminate N.
Qed.
Lemma run_records ab hist i nm sh den l : hist <> [] -> Forall (hist_ok ab) hist ->
  (forall h, In h hist -> nth_error (attributes (fst (fst h))) i = Some (nm, sh, den)) -> packed ab sh den ->
  h5_run ab (map fst hist) [] = Some l -> exists h, nth_error l i = Some h /\ records (map snd hist) nm sh den h.
Proof.
  intros N Ok At K R. destruct (run_tracks ab i nm sh den K hist [] [] l Ok At) as (h & Nh & _ & _ & Rc); auto.
  eauto.
Qed.

Lemma simple_packed ab kd i nm sh den : simple kd -> nth_error (attributes kd) i = Some (nm, sh, den) -> packed ab sh den.
Proof.
  Ltac pk W := win W; unfold at0, at1, at2, at3; cbn [List.length repeat place fst snd flat prodn fold_right];
    repeat match goal with H : _ < 1 |- _ => apply Nat.lt_1_r in H; subst end; f_equal; cbn [Z.of_nat]; lia.
  intros S E idx W. destruct kd as [| |n].
  - do 3 (destruct i as [|i]; [injection E as <- <- <-; pk W|]). destruct i; discriminate.
  - do 3 (destruct i as [|i]; [injection E as <- <- <-; pk W|]). destruct i; discriminate.
  - cbn in S. subst n. do 31 (destruct i as [|i]; [injection E as <- <- <-; pk W|]). cbn in E. destruct i; discriminate.
Qed.
Lemma simple_populated kd : simple kd -> populated kd.
Proof. destruct kd as [| |n]; cbn [simple populated]; auto. intros ->. split; [lia|vm_compute; reflexivity]. Qed.
Lemma row_writes ab kd m c i a nm sh den s r : populated kd -> nth_error (attributes kd) i = Some (nm, sh, den) ->
  described ab kd a (nm, sh, den) -> packed ab sh den -> holds ab kd m c -> exists s', write_row m a s r = Some s'.
Proof.
  intros P E D K H. pose proof (packed_cells ab kd a i nm sh den m c P E D K H) as Pc. destruct D as (_ & D & _).
  unfold write_row. rewrite D.
  match goal with |- context [if ?b then _ else _] => replace b with true; [eauto|] end. symmetry. apply forallb_forall.
  intros j Hj. apply in_seq in Hj. destruct (flat_onto sh j) as (idx & W & <-); [lia|]. rewrite Pc by exact W. reflexivity.
Qed.
Lemma append_completes ab kd m c : simple kd -> holds ab kd m c -> forall l,
  Forall (fun h => h_idx h < List.length (attributes kd)) l ->
  exists l', h5_append_to ab kd m l = Some l' /\ map h_idx l' = map h_idx l.
Proof.
  intros Sp H. pose proof (simple_populated kd Sp) as P. induction l as [|h l IH]; intros F; [exists []; split; reflexivity|].
  inversion F as [|? ? L F']; subst. destruct (IH F') as (r & E & Er). cbn [h5_append_to].
  pose proof (get_array_spec ab kd (h_idx h) P) as D.
  destruct (nth_error (attributes kd) (h_idx h)) as [[[nm sh] den]|] eqn:N; [|apply nth_error_None in N; lia].
  destruct (get_array ab kd (h_idx h)) as [a| |]; [|destruct D..].
  destruct (row_writes ab kd m c (h_idx h) a nm sh den (extend (a_type a) (h_dset h) (S (h_next h) :: a_dim a)) (h_next h)) as (s' & ->); auto.
  { apply (simple_packed ab kd (h_idx h) nm); assumption. }
  rewrite E. eexists. split; [reflexivity|]. cbn [map h_idx]. rewrite Er. reflexivity.
Qed.
Lemma prepare_completes ab kd : simple kd -> exists l, h5_prepare 100 ab kd 0 = Some l /\ l <> [] /\
  map h_idx l = seq 0 (List.length (attributes kd)).
Proof.
  intros Sp. destruct kd as [| |n]; [| |cbn in Sp; subst n];
    (eexists; split; [reflexivity|split; [discriminate|reflexivity]]).
Qed.
Lemma run_completes ab kd : simple kd -> forall hist l,
  (l = [] \/ map h_idx l = seq 0 (List.length (attributes kd))) ->
  Forall (fun h => exists c, holds ab kd h c) hist -> exists l', h5_run ab (map (fun m => (kd, m)) hist) l = Some l'.
Proof.
  intros Sp. induction hist as [|m hist IH]; intros l I F; [eexists; reflexivity|].
  inversion F as [|? ? [c H] F']; subst. cbn [map h5_run].
  assert (Ix : forall l, map h_idx l = seq 0 (List.length (attributes kd)) -> Forall (fun h => h_idx h < List.length (attributes kd)) l).
  { intros l0 E. apply Forall_forall. intros h Hh. apply (in_map h_idx) in Hh. rewrite E in Hh. apply in_seq in Hh. lia. }
  assert (exists l', h5_append ab (kd, m) l = Some l' /\ map h_idx l' = seq 0 (List.length (attributes kd))) as (l' & -> & E').
  { unfold h5_append. cbn [fst snd]. destruct (prepare_completes ab kd Sp) as (l0 & -> & _ & E0).
    destruct l as [|x l].
    - destruct (append_completes ab kd m c Sp H l0 (Ix _ E0)) as (l' & -> & E'). rewrite E0 in E'. eauto.
    - destruct I as [I|I]; [discriminate I|].
      destruct (append_completes ab kd m c Sp H (x :: l) (Ix _ I)) as (l' & -> & E'). rewrite I in E'. eauto. }
  apply IH; auto.
Qed.

Lemma each_recorded ab kd hist : abi_ok ab -> simple kd -> hist <> [] -> Forall (fun h => holds ab kd (fst h) (snd h)) hist ->
  exists l, h5_run ab (map (fun h => (kd, fst h)) hist) [] = Some l /\
    forall i nm sh den, nth_error (attributes kd) i = Some (nm, sh, den) ->
      exists h, nth_error l i = Some h /\ records (map snd hist) nm sh den h.
Proof.
  intros A Sp N F. destruct (run_completes ab kd Sp (map fst hist) []) as (l & E); [left; reflexivity| |].
  { apply Forall_forall. intros m Hm. apply in_map_iff in Hm as (h & <- & Hh). rewrite Forall_forall in F. eauto. }
  exists l. rewrite map_map in E. split; [exact E|]. intros i nm sh den Ei.
  pose proof (run_records ab (map (fun h => (kd, fst h, snd h)) hist) i nm sh den l) as R. rewrite !map_map in R. apply R.
  - destruct hist; [congruence|discriminate].
  - apply Forall_forall. intros x Hx. apply in_map_iff in Hx as (h & <- & Hh). rewrite Forall_forall in F.
    split; cbn [fst snd]; [apply simple_populated, Sp|auto].
  - intros x Hx. apply in_map_iff in Hx as (h & <- & Hh). exact Ei.
  - apply (simple_packed ab kd i nm); assumption.
  - exact E.
Qed.

(** ** Enumeration *)
Lemma enumeration ab kd : populated kd ->
  (forall i, (exists a, get_array ab kd i = AInfo a) <-> i < List.length (attributes kd)) /\
  (forall i, get_array ab kd i <> AUndef) /\
  (forall i j a b, get_array ab kd i = AInfo a -> get_array ab kd j = AInfo b -> a_name a = a_name b -> i = j).
Proof.
  intros P. assert (S0 := fun i => get_array_spec ab kd i P). split; [|split].
  - intros i. specialize (S0 i). split.
    + intros (a & E). rewrite E in S0. apply nth_error_Some. intros N. rewrite N in S0. exact S0.
    + intros L. destruct (nth_error (attributes kd) i) eqn:N; [|apply nth_error_None in N; lia].
      destruct (get_array ab kd i); [eauto|destruct S0..].
  - intros i E. specialize (S0 i). rewrite E in S0. exact S0.
  - intros i j a b Ei Ej Q. pose proof (S0 i) as Si. pose proof (S0 j) as Sj. rewrite Ei in Si. rewrite Ej in Sj.
    destruct (nth_error (attributes kd) i) as [[[nm sh] den]|] eqn:Ni; [|destruct Si].
    destruct (nth_error (attributes kd) j) as [[[nm' sh'] den']|] eqn:Nj; [|destruct Sj].
    destruct Si as (Si & _), Sj as (Sj & _). pose proof (names_distinct kd) as D. rewrite NoDup_nth_error in D. apply D.
    + rewrite map_length. apply nth_error_Some. congruence.
    + rewrite !nth_error_map, Ni, Nj. cbn. congruence.
Qed.
Lemma stays n n' i : 0 < n -> 0 < n' -> forall ab, match get_array ab (KMoment n) i, get_array ab (KMoment n') i with
  | AInfo a, AInfo b => a_name a = a_name b /\ a_type a = a_type b /\ List.length (a_dim a) = List.length (a_dim b)
  | ANone, ANone => True
  | _, _ => False
  end.
Proof.
  intros L L' ab. destruct n as [|n]; [lia|]. destruct n' as [|n']; [lia|].
  do 31 (destruct i as [|i]; [cbn; repeat split|]). cbn. destruct i; exact I.
Qed.
Lemma names_known ab kd i nm sh den : populated kd -> nth_error (attributes kd) i = Some (nm, sh, den) ->
  exists a, get_array ab kd i = AInfo a /\ a_name a = nm /\ a_dim a = sh /\
    forall idx, within sh idx -> raw a idx = place ab (den idx) /\ has_field kd (den idx).
Proof.
  intros P E. pose proof (get_array_spec ab kd i P) as S0. rewrite E in S0.
  destruct (get_array ab kd i) as [a| |]; [|destruct S0..]. destruct S0 as (S1 & S2 & _ & _ & S3). eauto.
Qed.
Lemma wraps ab kd : populated kd -> exists d, wrapstate ab kd = Some (Some d) /\
  forall nm i, sfind nm d = Some i <-> exists sh den, nth_error (attributes kd) i = Some (nm, sh, den).
Proof.
  intros P. destruct (wrap_names ab kd P) as (d & W & F). exists d. split; [exact W|]. intros nm i. split.
  - apply (wrap_keys ab kd d P W).
  - intros (sh & den & E). specialize (F i). rewrite E in F. exact F.
Qed.

(** ** Write, then read *)
Lemma write_read ab kd d m c i nm sh den arr : abi_ok ab -> populated kd -> wrapstate ab kd = Some (Some d) -> holds ab kd m c ->
  nth_error (attributes kd) i = Some (nm, sh, den) -> sh <> [] -> n_shape arr = sh -> nd_ok arr ->
  exists m' c', py_set ab kd d m nm (VArray arr) = (m', POk) /\ holds ab kd m' c' /\
    (forall idx, within sh idx -> nd_at arr idx = Some (c' (den idx))) /\
    (forall f, (forall idx, within sh idx -> f <> den idx) -> c' f = c f) /\
    shows (py_get ab kd d m' nm) sh (fun idx => c' (den idx)) /\
    (forall j nm' sh' den', nth_error (attributes kd) j = Some (nm', sh', den') -> nm' <> nm ->
       shows (py_get ab kd d m' nm') sh' (fun idx => c (den' idx))).
Proof.
  intros A P Wd H E Ne Sh Ok. destruct (set_array ab kd d m c i nm sh den arr A P Wd H E Ne Sh Ok) as (m' & S1 & S2).
  exists m', (patch sh den (value_of arr) c). split; [exact S1|]. split; [exact S2|]. split; [|split; [|split]].
  - intros idx W. rewrite (patch_at kd i nm) by assumption. unfold value_of.
    destruct Ok as [_ Ok]. rewrite Sh in Ok. destruct (Ok idx W) as [_ N]. destruct (nd_at arr idx); congruence.
  - intros f. apply patch_else.
  - apply (get_shows ab kd d m' _ i nm); assumption.
  - intros j nm' sh' den' E' D. pose proof (get_shows ab kd d m' _ j nm' sh' den' P Wd S2 E') as G.
    assert (Dj : i <> j) by congruence.
    unfold shows in *. destruct sh' as [|s0 sh'].
    + rewrite (patch_other kd i nm sh den j nm' [] den') in G; auto. constructor.
    + destruct G as (a & G1 & G2 & G3). exists a. split; [exact G1|]. split; [exact G2|]. intros idx W.
      rewrite G3 by exact W. f_equal. apply (patch_other kd i nm sh den j nm' (s0 :: sh')); auto.
Qed.
Lemma write_read_number ab kd d m c i nm den v x : abi_ok ab -> populated kd -> wrapstate ab kd = Some (Some d) -> holds ab kd m c ->
  nth_error (attributes kd) i = Some (nm, [], den) -> scalar_value (den []) v = Some x ->
  exists m', py_set ab kd d m nm v = (m', POk) /\ shows (py_get ab kd d m' nm) [] (fun _ => x) /\
    (forall j nm' sh' den', nth_error (attributes kd) j = Some (nm', sh', den') -> nm' <> nm ->
       shows (py_get ab kd d m' nm') sh' (fun idx => c (den' idx))).
Proof.
  intros A P Wd H E V. destruct (set_number ab kd d m c i nm den v x A P Wd H E V) as (m' & S1 & S2).
  exists m'. split; [exact S1|]. split.
  - pose proof (get_shows ab kd d m' _ i nm [] den P Wd S2 E) as G. unfold shows in *.
    rewrite (patch_at kd i nm [] den) in G; auto. constructor.
  - intros j nm' sh' den' E' D. pose proof (get_shows ab kd d m' _ j nm' sh' den' P Wd S2 E') as G.
    assert (Dj : i <> j) by congruence.
    unfold shows in *. destruct sh' as [|s0 sh'].
    + rewrite (patch_other kd i nm [] den j nm' [] den') in G; auto. constructor.
    + destruct G as (a & G1 & G2 & G3). exists a. split; [exact G1|]. split; [exact G2|]. intros idx W.
      rewrite G3 by exact W. f_equal. apply (patch_other kd i nm [] den j nm' (s0 :: sh')); auto.
Qed.

(** ** Witnesses *)
Definition ab0 : abi := mkAbi 64 400.
Lemma ab0_ok : abi_ok ab0.
Proof. split; cbn; lia. Qed.
Definition m0 : mem := fun b o =>
  match b with BNext => Some (CN 0) | BReal => Some (CD (if Z.eqb o 96 then done else dzero)) | _ => Some (CD dzero) end.
Definition c0 (f : field) : cell :=
  match f with FNext => CN 0 | FReal 1 PZ => CD done | _ => CD dzero end.
Lemma m0_holds kd : (forall n, kd = KMoment n -> n <= 2) -> holds ab0 kd m0 c0.
Proof.
  intros L f Hf. destruct f; try reflexivity. destruct kd as [| |n]; [destruct Hf..|]. specialize (L n eq_refl).
  cbn [has_field] in Hf. destruct k as [|[|k]]; [| |lia]; destruct p; reflexivity.
Qed.
Definition d_lin : smap nat := [("next_elem", 1); ("pos", 2); ("state", 0)].
Lemma d_lin_ok : wrapstate ab0 KVector = Some (Some d_lin).
Proof. reflexivity. Qed.
Lemma C41_failed_assignment_refuted_w : exists ab kd d m c v e m', abi_ok ab /\ populated kd /\ holds ab kd m c /\
  wrapstate ab kd = Some (Some d) /\ py_set ab kd d m "next_elem" v = (m', PErr e) /\
  shows (py_get ab kd d m "next_elem") [] (fun _ => CN 0) /\
  shows (py_get ab kd d m' "next_elem") [] (fun _ => CN 18446744073709551615).
Proof.
  exists ab0, KVector, d_lin, m0, c0, (VInt (-1)), PyOverflowError. eexists.
  split; [exact ab0_ok|]. split; [exact I|]. split; [apply m0_holds; discriminate|]. split; [exact d_lin_ok|].
  split; [reflexivity|]. split; reflexivity.
Qed.
Lemma C41_large_integer_refuted_w : exists ab kd d m c v e m', abi_ok ab /\ populated kd /\ holds ab kd m c /\
  wrapstate ab kd = Some (Some d) /\ py_set ab kd d m "pos" v = (m', PErr e) /\
  shows (py_get ab kd d m "pos") [] (fun _ => CD dzero) /\
  shows (py_get ab kd d m' "pos") [] (fun _ => CD (d_of_Z (-1))).
Proof.
  exists ab0, KVector, d_lin, m0, c0, (VInt (10 ^ 400)), PyOverflowError.
  exists (fun b o => if (blk_beq b BPos && Z.eqb o 0)%bool then Some (CD (d_of_Z (-1))) else m0 b o).
  split; [exact ab0_ok|]. split; [exact I|]. split; [apply m0_holds; discriminate|]. split; [exact d_lin_ok|].
  split; [|split; reflexivity].
  unfold py_set. cbn [d_lin sfind String.eqb Ascii.eqb Bool.eqb get_array vector_array base_array scalar a_dim a_type a_ptr set_scalar].
  replace (is_inf (d_of_Z (10 ^ 400))) with true by (vm_compute; reflexivity). reflexivity.
Qed.
Lemma C41_float_to_integer_refuted_w : exists ab kd d m c x y m', abi_ok ab /\ populated kd /\ holds ab kd m c /\
  wrapstate ab kd = Some (Some d) /\ x <> y /\ py_set ab kd d m "next_elem" (VFloat x) = (m', POk) /\
  py_set ab kd d m "next_elem" (VFloat y) = (m', POk).
Proof.
  exists ab0, KVector, d_lin, m0, c0, (d_of_Z 1), (ddiv (d_of_Z 3) (d_of_Z 2)). eexists.
  split; [exact ab0_ok|]. split; [exact I|]. split; [apply m0_holds; discriminate|]. split; [exact d_lin_ok|].
  split; [vm_compute; discriminate|]. split; [vm_compute; reflexivity|vm_compute; reflexivity].
Qed.
Lemma C41_deletion_refuted_w : exists ab kd d m c, abi_ok ab /\ populated kd /\ holds ab kd m c /\
  wrapstate ab kd = Some (Some d) /\ forall nm, In nm (map (fun t => fst (fst t)) (attributes kd)) ->
  snd (py_set ab kd d m nm VNull) = PUndef.
Proof.
  exists ab0, KVector, d_lin, m0, c0.
  split; [exact ab0_ok|]. split; [exact I|]. split; [apply m0_holds; discriminate|]. split; [exact d_lin_ok|].
  intros nm [<-|[<-|[<-|[]]]]; reflexivity.
Qed.
Lemma C42_charge_states_refuted_w : exists ab m c l i nm sh den h, abi_ok ab /\ holds ab (KMoment 2) m c /\
  h5_run ab [(KMoment 2, m)] [] = Some l /\ nth_error (attributes (KMoment 2)) i = Some (nm, sh, den) /\
  nth_error l i = Some h /\ nm = "IonZ" /\ ~ records [c] nm sh den h.
Proof.
  exists ab0, m0, c0. eexists. exists 17. eexists _, _, _, _.
  split; [exact ab0_ok|]. split; [apply m0_holds; intros n E; injection E as <-; lia|].
  split; [vm_compute; reflexivity|]. split; [reflexivity|]. split; [reflexivity|]. split; [reflexivity|].
  intros (_ & _ & R). specialize (R 0 c0 [1] eq_refl ltac:(repeat constructor)). vm_compute in R. discriminate R.
Qed.
Lemma C42_fewer_charge_states_refuted_w : exists ab m1 m2 c1 c2 l1 l2 h1 h2 i idx, abi_ok ab /\
  holds ab (KMoment 2) m1 c1 /\ holds ab (KMoment 1) m2 c2 /\
  h5_run ab [(KMoment 2, m1)] [] = Some l1 /\ h5_run ab [(KMoment 2, m1); (KMoment 1, m2)] [] = Some l2 /\
  nth_error l1 i = Some h1 /\ nth_error l2 i = Some h2 /\
  d_val (h_dset h1) idx <> None /\ d_val (h_dset h2) idx = None.
Proof.
  exists ab0, m0, m0, c0, c0. eexists _, _, _, _. exists 17, [0; 1].
  split; [exact ab0_ok|]. split; [apply m0_holds; intros n E; injection E as <-; lia|].
  split; [apply m0_holds; intros n E; injection E as <-; lia|].
  split; [vm_compute; reflexivity|]. split; [vm_compute; reflexivity|]. split; [reflexivity|]. split; [reflexivity|].
  split; vm_compute; [discriminate|reflexivity].
Qed.
