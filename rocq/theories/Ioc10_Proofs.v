(** Orbits; and that nothing is undefined. *)
From Coq Require Import List String Ascii Bool NArith ZArith Arith Lia.
From Verif Require Import SMap SMap_Proofs Dbl Lexer_Model Config_Spec Machine_Model Machine_Spec Machine_Proofs Machine2_Proofs Util_Model Util_Spec
  Array_Model Array_Spec Array_Proofs Array3_Proofs Ioc_Model Ioc_Spec Ioc_Proofs Ioc2_Proofs Ioc3_Proofs Ioc5_Proofs Ioc7_Proofs Ioc8_Proofs Ioc9_Proofs.
Import ListNotations.
Open Scope string_scope.
Open Scope list_scope.

Lemma collect_nth {A C} (f : A -> option C) : forall l vals, collect f l = Some vals ->
  List.length vals = List.length l /\ forall k a, nth_error l k = Some a -> exists v, nth_error vals k = Some v /\ f a = Some v.
Proof.
  induction l as [|a l IH]; simpl; intros vals H.
  - injection H as <-. split; auto. intros [|k] a; discriminate.
  - destruct (f a) as [c|] eqn:Ef; [|discriminate]. destruct (collect f l) as [r|]; [|discriminate]. injection H as <-.
    destruct (IH _ eq_refl) as [L N]. split; [simpl; congruence|]. intros [|k] a' E; simpl in *; [|auto].
    injection E as <-. eauto.
Qed.
Lemma collect_some {A C} (f : A -> option C) : forall l, (forall a, In a l -> f a <> None) -> collect f l <> None.
Proof.
  induction l as [|a l IH]; simpl; intros H; [discriminate|].
  destruct (f a) eqn:E; [|destruct (H a); auto]. destruct (collect f l); [discriminate|]. destruct IH; auto.
Qed.
Lemma overlay_len : forall buf vals, List.length (overlay buf vals) = List.length buf.
Proof. induction buf as [|b buf IH]; intros [|[x|] vals]; simpl; auto. Qed.
Lemma overlay_nth : forall buf vals k, nth_error (overlay buf vals) k =
  match nth_error buf k with
  | None => None
  | Some old => match nth_error vals k with Some (Some x) => Some x | _ => Some old end
  end.
Proof.
  induction buf as [|b buf IH]; intros vals k.
  - destruct vals as [|[x|] vals]; destruct k; reflexivity.
  - destruct vals as [|[x|] vals], k; cbn [overlay nth_error]; auto.
    + destruct (nth_error buf k); reflexivity.
Qed.
Lemma missing_iff vals : missing vals = false <-> forall k v, nth_error vals k = Some v -> v <> None.
Proof.
  unfold missing. induction vals as [|[x|] vals IH]; simpl.
  - split; auto. intros _ [|k] v; discriminate.
  - rewrite IH. split; intros H; [intros [|k] v; simpl; [intros [= <-]; discriminate|apply H]|intros k v; apply (H (S k))].
  - split; [discriminate|]. intros H. destruct (H 0 None eq_refl eq_refl).
Qed.
Lemma nth_firstn {A} n : forall (l : list A) k, nth_error (firstn n l) k = if Nat.ltb k n then nth_error l k else None.
Proof.
  induction n as [|n IH]; intros l k; [destruct k; reflexivity|]. destruct l as [|a l]; [destruct k; simpl; [reflexivity|destruct (Nat.ltb _ _); reflexivity]|].
  destruct k; [reflexivity|]. simpl. rewrite IH. reflexivity.
Qed.

Section Orbit.
Context {D B : Type}.
Variables (ab : abi) (kindof : B -> kind) (memof : B -> mem) (what : exn -> string).
Notation atomic := (atomic (D:=D) (B:=B) ab kindof memof).
Notation run_once := (run_once (D:=D) (B:=B) what).
Notation serves := (serves (D:=D) (B:=B) ab kindof memof what).
Notation replays := (replays (D:=D) (B:=B) ab kindof memof what).
Notation serves_sound := (serves_sound ab kindof memof what).
Notation attr_value := (attr_value ab kindof memof).
Notation well_stored := (well_stored ab kindof memof).
Notation usable := (usable (D:=D) kindof).
Implicit Types (s : vsim D B).

Lemma kept_at_is r s d j : serves r s -> watching_all s d -> In j (od_slots d) ->
  exists o, watching s (mkMD (od_sim d) (N.of_nat j) o (od_attr d) (od_dims d)) /\
    kept_at ab kindof memof s d j = kept ab kindof memof s o (od_attr d) (od_dims d) /\ j < List.length (m_elems (v_machine s)).
Proof.
  intros Hs W Hj. pose proof (serves_sound _ _ Hs) as S0. destruct (W j Hj) as [o Ho].
  destruct (sd_last _ _ S0 _ _ Ho) as [_ Lj]. rewrite Nat2N.id in Lj. exists o. split; [exact Ho|].
  unfold kept_at. destruct (nth_error (m_elems (v_machine s)) j) as [e|] eqn:E; [|apply nth_error_None in E; lia].
  rewrite (sd_index _ _ S0 _ _ E), Ho. auto.
Qed.
Lemma orbit_ok r s s' d buf out n al : serves r s -> well_stored -> watching_all s d ->
  atomic (VOrbit d buf) s = Some (s', OWave out n al) ->
  s' = s /\ n = Nat.min (List.length buf) (List.length (od_slots d)) /\ List.length out = List.length buf /\
  (forall k j old, nth_error (od_slots d) k = Some j -> nth_error buf k = Some old ->
     (exists b x, left_by s (N.of_nat j) = Some b /\ attr_value b (od_attr d) (od_dims d) x /\ nth_error out k = Some x) \/
     ((forall b x, left_by s (N.of_nat j) = Some b -> ~ attr_value b (od_attr d) (od_dims d) x) /\ nth_error out k = Some old)) /\
  (forall k, n <= k -> nth_error out k = nth_error buf k) /\
  (al = false <-> v_valid s = true /\ List.length (od_slots d) <= List.length buf /\
     forall j, In j (od_slots d) -> exists b x, left_by s (N.of_nat j) = Some b /\ attr_value b (od_attr d) (od_dims d) x).
Proof.
  intros Hs W Wa H. cbn [Ioc_Spec.atomic] in H.
  destruct (collect (kept_at ab kindof memof s d) (firstn (List.length buf) (od_slots d))) as [vals|] eqn:C; [|discriminate].
  injection H as <- <- <- <-. apply collect_nth in C as [CL CN]. rewrite firstn_length in CL.
  assert (Cases : forall k j, nth_error (od_slots d) k = Some j -> k < List.length buf ->
     exists v, nth_error vals k = Some v /\
       match v with
       | Some x => exists b, left_by s (N.of_nat j) = Some b /\ attr_value b (od_attr d) (od_dims d) x
       | None => forall b x, left_by s (N.of_nat j) = Some b -> ~ attr_value b (od_attr d) (od_dims d) x
       end).
  { intros k j Ej Lk. destruct (CN k j) as (v & Ev & Kv).
    { rewrite nth_firstn, (proj2 (Nat.ltb_lt _ _) Lk). auto. }
    exists v. split; auto. destruct (kept_at_is r s d j Hs Wa) as (o & Wo & Ko & _); [eapply nth_error_In; eauto|].
    rewrite Ko in Kv. destruct (kept_cases ab kindof memof what s _ r Hs W Wo) as [(b & x & K & L & V)|[(K & N)|(K & _)]];
      cbn [md_obs md_attr md_dims md_index] in *; rewrite K in Kv; [| |discriminate]; injection Kv as <-; [eauto|auto]. }
  split; auto. split; auto. split; [apply overlay_len|]. split; [|split].
  - intros k j old Ej Eo. assert (Lk : k < List.length buf) by (apply nth_error_Some; congruence).
    destruct (Cases k j Ej Lk) as (v & Ev & Hv). rewrite overlay_nth, Eo, Ev. destruct v as [x|].
    + destruct Hv as (b & L & V). left. eauto.
    + right. auto.
  - intros k Lk. rewrite overlay_nth. rewrite (proj2 (nth_error_None vals k)) by lia. destruct (nth_error buf k); reflexivity.
  - rewrite !orb_false_iff, negb_false_iff, Nat.ltb_ge, missing_iff. split.
    + intros ((V & M) & L). split; auto. split; auto. intros j Hj. apply In_nth_error in Hj as [k Ek].
      assert (Lk : k < List.length buf) by (assert (k < List.length (od_slots d)) by (apply nth_error_Some; congruence); lia).
      destruct (Cases k j Ek Lk) as ([x|] & Ev & Hv); [destruct Hv as (b & H1 & H2); eauto|]. destruct (M _ _ Ev eq_refl).
    + intros (V & L & F). split; [split; auto|auto]. intros k v Ev ->.
      assert (Lk : k < List.length vals) by (apply nth_error_Some; congruence).
      destruct (nth_error (od_slots d) k) as [j|] eqn:Ej; [|apply nth_error_None in Ej; lia].
      destruct (Cases k j Ej ltac:(lia)) as (v & Ev' & Hv). rewrite Ev in Ev'. injection Ev' as <-.
      destruct (F j (nth_error_In _ _ Ej)) as (b & x & H1 & H2). exact (Hv _ _ H1 H2).
Qed.
Lemma index_ok r s s' d buf out n al : serves r s -> 
  atomic (VIndex d buf) s = Some (s', OWave out n al) ->
  s' = s /\ n = Nat.min (List.length buf) (List.length (od_slots d)) /\ List.length out = List.length buf /\
  (forall k j, k < n -> nth_error (od_slots d) k = Some j -> nth_error out k = Some (d_of_Z (Z.of_nat j))) /\
  (forall k, n <= k -> nth_error out k = nth_error buf k) /\
  (al = false <-> List.length (od_slots d) <= List.length buf).
Proof.
  intros Hs H. pose proof (serves_sound _ _ Hs) as S0. cbn [Ioc_Spec.atomic] in H.
  destruct (collect _ _) as [es|] eqn:C; [|discriminate].
  injection H as <- <- <- <-. apply collect_nth in C as [CL CN]. rewrite firstn_length in CL.
  split; auto. split; auto. split; [apply overlay_len|]. split; [|split].
  - intros k j Lk Ej. destruct (CN k j) as (e & Ee & Ke).
    { rewrite nth_firstn, (proj2 (Nat.ltb_lt _ _)) by lia. auto. }
    rewrite overlay_nth. destruct (nth_error buf k) as [old|] eqn:Eb; [|apply nth_error_None in Eb; lia].
    rewrite nth_error_map, Ee. cbn [option_map]. rewrite (sd_index _ _ S0 _ _ Ke), nat_N_Z. reflexivity.
  - intros k Lk. rewrite overlay_nth. rewrite nth_error_map. rewrite (proj2 (nth_error_None es k)) by lia. destruct (nth_error buf k); reflexivity.
  - apply Nat.ltb_ge.
Qed.

(** ** Nothing is undefined *)
Lemma journey_throws vs : forall (els : list (elem D B)) f st t els' x,
  (forall e, In e els -> polite (el_class e)) -> journey els f vs st = (t, els', Throw x) -> caught x = true.
Proof.
  induction vs as [|i vs IH]; intros els f st t els' x P J; simpl in J; [discriminate|].
  destruct (nth_error els i) as [e|] eqn:E; [|discriminate].
  destruct (cl_advance _ _ _ _) as [d [st'|y]] eqn:A.
  - destruct (journey (update _ _ _) _ _ _) as [[t0 e0] r0] eqn:J0. injection J as <- <- ->. eapply IH; [|exact J0].
    intros e' He'. apply In_nth_error in He' as [j Hj]. destruct (Nat.eq_dec i j) as [<-|Nj].
    + erewrite nth_update_eq in Hj by eauto. injection Hj as <-. apply (P e). eapply nth_error_In; eauto.
    + rewrite nth_update_neq in Hj by auto. apply P. eapply nth_error_In; eauto.
  - injection J as <- <- ->. eapply (P e); [eapply nth_error_In; eauto|eauto].
Qed.
Lemma run_defined r s : serves r s -> all_classes r steady -> all_classes r polite -> fresh_defined s ->
  (Z.of_nat (List.length (m_elems (v_machine s))) <= INT_MAX)%Z -> run_once s <> None.
Proof.
  intros Hs A P F L. pose proof (serves_sound _ _ Hs) as S0. unfold Ioc_Spec.run_once.
  destruct (alloc_state _ _) as [st|e] eqn:Ea; [|rewrite (F _ Ea); discriminate].
  destruct (journey (m_elems (v_machine s)) true (seq 0 (List.length (m_elems (v_machine s)))) (mkSt 0 false (st_body st))) as [[t els'] x] eqn:J.
  assert (Hp' : propagate (v_machine s) st 0 INT_MAX = Some (mkRun els' (seen (m_elems (v_machine s)) t) x)).
  { apply (propagate_visits (v_machine s) st 0 INT_MAX); [eapply sound_size; eauto|unfold INT_MAX, INT_MIN; lia|eapply sound_undirected; eauto|].
    rewrite int_visits by auto. exact J. }
  rewrite Hp'. cbn [pr_events pr_end pr_elems].
  destruct (views_some (seen (m_elems (v_machine s)) t) (v_last s)) as [l ->].
  { intros ev Hev. unfold seen in Hev. apply in_flat_map in Hev as ((i & si) & _ & Hev).
    destruct (nth_error (m_elems (v_machine s)) i) as [e|] eqn:Ee; [|destruct Hev]. destruct (el_obs e) as [o|] eqn:Eo; [|destruct Hev].
    destruct Hev as [<-|[]]. cbn [ev_obs]. rewrite (sd_obs _ _ S0 _ _ Ee) in Eo. apply (sd_last _ _ S0 _ _ Eo). }
  destruct x as [st'|y]; [discriminate|]. rewrite (journey_throws _ _ _ _ _ _ _ (sound_classes r s polite S0 P) J). discriminate.
Qed.
Lemma alike_attr a b k nm sh den : alike a b -> nth_error (attributes a) k = Some (nm, sh, den) ->
  exists sh' den', nth_error (attributes b) k = Some (nm, sh', den').
Proof.
  intros A E. destruct a, b; try destruct A; eauto. cbn [attributes base_attrs app] in *.
  do 31 (destruct k as [|k]; [injection E as <- _ _; eexists _, _; reflexivity|]). destruct k; discriminate.
Qed.
Lemma not_next k : (forall b b', alike (kindof b) (kindof b')) -> (exists b par n, showable (kindof b) par n k) ->
  forall b sh den, nth_error (attributes (kindof b)) k = Some ("next_elem", sh, den) -> False.
Proof.
  intros Al (b0 & par & n & sh0 & den0 & E0 & Nn & _) b sh den E.
  destruct (alike_attr _ _ _ _ _ _ (Al b0 b) E0) as (sh' & den' & E'). rewrite E in E'. congruence.
Qed.
Lemma do_defined r s o : serves r s -> all_classes r polite -> well_stored -> (forall b b', alike (kindof b) (kindof b')) ->
  usable s o -> atomic o s <> None.
Proof.
  intros Hs P W Al U. pose proof (serves_sound _ _ Hs) as S0.
  destruct o as [|i q a v|i q a|d a|d buf|d buf|n|]; cbn [Ioc_Spec.atomic]; try discriminate.
  - destruct (nth_error _ _) as [e|] eqn:E; [|discriminate]. destruct (reconfigure _ _ _) as [m [u|x]] eqn:R; [discriminate|].
    assert (Cx : caught x = true); [|rewrite Cx; discriminate].
    unfold reconfigure in R. rewrite slot_nth, E in R. set (c := tset _ _ _) in R.
    assert (Gs : forall k y, get_str c k = Throw y -> caught y = true).
    { intros k y. unfold get_str. destruct (tfind k c) as [[]|]; intros [= <-]; reflexivity. }
    destruct (get_str c "type") as [t|y] eqn:Et; [|injection R as _ <-; eauto].
    destruct (sfind t _) as [k|] eqn:Ek; [|injection R as _ <-; reflexivity].
    destruct (rebuild k e c i) as [e'|y] eqn:Er; [discriminate|]. injection R as _ <-.
    unfold rebuild, build, base_ctor in Er. destruct (get_str c "name") as [nm|z] eqn:En; cbn [rbind] in Er; [|injection Er as <-; eauto].
    destruct (cl_ctor k c) as [d|z] eqn:Ec; cbn [rbind] in Er.
    + destruct (Nat.eqb _ _); [discriminate|]. injection Er as <-. reflexivity.
    + injection Er as <-. destruct (sd_uses _ _ S0) as (c0 & m0 & us & U1 & U2 & U3 & U4).
      apply new_machine_ok in U1 as (t0 & i0 & es & A1 & A2 & A3 & A4 & A5 & A6 & _).
      assert (HI : m_info (v_machine s) = i0) by (rewrite U4; destruct (uses_keeps us m0) as (_ & _ & -> & _); auto).
      rewrite HI in Ek. exact (proj1 (P _ _ A2 _ _ Ek) _ _ Ec).
  - destruct U as [Wa Sh]. destruct (kept_cases ab kindof memof what s d r Hs W Wa) as [(b & x & K & L & V)|[(K & N)|(K & b & sh & den & E)]]; rewrite K; try discriminate.
    intros _. exact (not_next _ Al Sh _ _ _ E).
  - destruct U as [Wa Sh]. destruct (collect _ _) eqn:C; [discriminate|]. exfalso. revert C. apply collect_some. intros j Hj.
    assert (Hin : In j (od_slots d)) by (rewrite <- (firstn_skipn (List.length buf)); apply in_or_app; auto).
    destruct (kept_at_is r s d j Hs Wa Hin) as (o & Wo & Ko & _). rewrite Ko.
    destruct (kept_cases ab kindof memof what s _ r Hs W Wo) as [(b & x & K & L & V)|[(K & N)|(K & b & sh & den & E)]];
      cbn [md_obs md_attr md_dims md_index] in *; rewrite K; try discriminate.
    intros _. exact (not_next _ Al Sh _ _ _ E).
  - destruct U as [Wa Sh]. destruct (collect _ _) eqn:C; [discriminate|]. exfalso. revert C. apply collect_some. intros j Hj.
    assert (Hin : In j (od_slots d)) by (rewrite <- (firstn_skipn (List.length buf)); apply in_or_app; auto).
    destruct (kept_at_is r s d j Hs Wa Hin) as (o & Wo & Ko & Lj). intros Q. apply nth_error_None in Q. lia.
Qed.
Lemma usable_same s s' o : v_measures s' = v_measures s -> usable s o -> usable s' o.
Proof. intros E. destruct o; cbn [Ioc_Spec.usable]; auto; unfold watching, watching_all; rewrite E; auto. Qed.
Lemma info_same r s h s' : serves r s -> replays s h s' -> m_info (v_machine s') = m_info (v_machine s).
Proof.
  intros Hs. induction 1 as [|h s1 s2 H IH Hd Hst Hr|h s1 s2 j o x H IH Ha]; auto.
  - apply (run_keeps what) in Hr as [_ ->]. auto.
  - destruct (do_keeps ab kindof memof _ _ _ _ Ha) as (_ & _ & _ & _ & _ & -> & _). auto.
Qed.
Lemma never_undefined r s scripts y : serves r s -> all_classes r steady -> all_classes r polite -> fresh_defined s ->
  (Z.of_nat (List.length (m_elems (v_machine s))) <= INT_MAX)%Z -> well_stored -> (forall b b', alike (kindof b) (kindof b')) ->
  (forall script o, In script scripts -> In o script -> usable s o) ->
  reach ab kindof memof what (start s scripts) y ->
  wstep what y <> Gone /\ forall i, cstep ab kindof memof i y <> Gone.
Proof.
  intros Hs A P F L W Al U R.
  assert (X : ~ (wstep what y = Gone \/ exists i, cstep ab kindof memof i y = Gone)).
  { intros X. destruct (undefined ab kindof memof what s scripts y R X) as (s1 & R1 & [(_ & _ & N)|(i & script & o & E & Ho & N)]);
      destruct (replays_keep ab kindof memof what r _ _ _ R1 Hs) as (I1 & I2 & I3 & I4).
    - revert N. eapply (run_defined r); eauto; [|rewrite I3; auto].
      intros e He. apply (F e). unfold alloc_state in *. rewrite <- (info_same r _ _ _ Hs R1). auto.
    - revert N. eapply (do_defined r); eauto. eapply usable_same; [exact I2|]. eapply U; eauto. eapply nth_error_In; eauto. }
  split; [intros Q; apply X; auto|intros i Q; apply X; eauto].
Qed.
End Orbit.
