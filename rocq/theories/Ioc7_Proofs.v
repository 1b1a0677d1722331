(** Settings, and what a simulation leaves to be read. *)
From Coq Require Import List String Ascii Bool NArith ZArith Arith Lia.
From Verif Require Import SMap SMap_Proofs Dbl Lexer_Model Config_Spec Machine_Model Machine_Spec Machine_Proofs Machine2_Proofs Util_Model
  Array_Model Array_Spec Array_Proofs Array3_Proofs Ioc_Model Ioc_Spec Ioc_Proofs Ioc2_Proofs Ioc3_Proofs Ioc5_Proofs.
Import ListNotations.
Open Scope string_scope.
Open Scope list_scope.

Section Use.
Context {D B : Type}.
Variables (ab : abi) (kindof : B -> kind) (memof : B -> mem) (what : exn -> string).
Notation atomic := (atomic (D:=D) (B:=B) ab kindof memof).
Notation run_once := (run_once (D:=D) (B:=B) what).
Notation serves := (serves (D:=D) (B:=B) ab kindof memof what).
Notation replays := (replays (D:=D) (B:=B) ab kindof memof what).
Notation reading := (reading (D:=D) (B:=B)).
Notation serves_sound := (serves_sound ab kindof memof what).
Implicit Types (s : vsim D B).

(** ** Settings *)
Lemma get_is i p a s : atomic (VGet i p a) s = Some (s, shown a (reading s i p)).
Proof.
  cbn [Ioc_Spec.atomic]. unfold Ioc_Spec.reading, shown. destruct (nth_error _ _) as [e|]; auto.
  destruct (tfind p _) as [[]|]; auto.
Qed.
Lemma set_ok i p a x s s' : atomic (VSet i p a x) s = Some (s', ODone) ->
  exists e m, nth_error (m_elems (v_machine s)) (N.to_nat i) = Some e /\
    reconfigure (v_machine s) i (tset p (TNum (of_val a x)) (eb_conf (el_base e))) = (m, Ok tt) /\ s' = set_machine s m.
Proof.
  cbn [Ioc_Spec.atomic]. destruct (nth_error _ _) as [e|] eqn:E; [|discriminate].
  destruct (reconfigure _ _ _) as [m [[]|y]] eqn:R; [intros [= <-]; eauto 6|destruct (caught y); discriminate].
Qed.
Lemma set_reads i p a x s s' : atomic (VSet i p a x) s = Some (s', ODone) ->
  forall i' p', reading s' i' p' = if (N.eqb i' i && String.eqb p' p)%bool then Some (of_val a x) else reading s i' p'.
Proof.
  intros H i' p'. apply set_ok in H as (e & m & E & R & ->).
  apply reconfigure_ok in R as (ob & t & k & nm & d & A1 & A2 & A3 & A4 & A5 & A6 & ->).
  rewrite E in A1. injection A1 as <-. unfold Ioc_Spec.reading. cbn [set_machine v_machine with_elems m_elems].
  destruct (N.eqb_spec i' i) as [->|Ni]; cbn [andb].
  - erewrite nth_update_eq by eauto. cbn [el_base eb_conf]. rewrite tfind_tset, E. destruct (String.eqb p' p); auto.
  - rewrite nth_update_neq by lia. reflexivity.
Qed.
Lemma set_rest i p a x s s' : atomic (VSet i p a x) s = Some (s', ODone) ->
  v_stop s' = v_stop s /\ v_dosim s' = v_dosim s /\ v_valid s' = v_valid s /\ v_msg s' = v_msg s /\
  v_measures s' = v_measures s /\ v_last s' = v_last s /\ v_scans s' = v_scans s.
Proof. intros H. apply set_ok in H as (e & m & E & R & ->). repeat split. Qed.

Lemma set_names r i p a x s s' : serves r s -> atomic (VSet i p a x) s = Some (s', ODone) ->
  (forall n, slots_named n (m_elems (v_machine s')) = slots_named n (m_elems (v_machine s))) /\
  (forall n, slots_typed n (m_elems (v_machine s')) = slots_typed n (m_elems (v_machine s))).
Proof.
  intros Hs H. pose proof (serves_sound _ _ Hs) as S0.
  assert (S1 : sound r s') by (eapply sound_do; eauto).
  apply set_ok in H as (e & m & E & R & ->).
  apply reconfigure_ok in R as (ob & t & k & nm & d & A1 & A2 & A3 & A4 & A5 & A6 & ->).
  rewrite E in A1. injection A1 as <-. cbn [set_machine v_machine with_elems m_elems] in *.
  assert (P : p <> "name").
  { intros ->. rewrite tfind_tset in A4. discriminate A4. }
  rewrite tfind_tset in A4. destruct (String.eqb_spec "name" p) as [X|_]; [congruence|].
  pose proof (sd_named _ _ S0 _ _ E) as Nm. rewrite Nm in A4. injection A4 as <-.
  split; intros n; unfold slots_named, slots_typed, slots_where; rewrite update_length; apply filter_ext; intros j;
    (destruct (Nat.eq_dec (N.to_nat i) j) as [<-|Nj]; [erewrite nth_update_eq by eauto; rewrite E; reflexivity|rewrite nth_update_neq by auto; reflexivity]).
Qed.

(** Which settings are refused. *)
Lemma set_refused i p a x s s' : atomic (VSet i p a x) s = Some (s', OAlarm) -> s' = s.
Proof.
  cbn [Ioc_Spec.atomic]. destruct (nth_error _ _) as [e|] eqn:E; [|congruence].
  destruct (reconfigure _ _ _) as [m [[]|y]] eqn:R; [discriminate|destruct (caught y); congruence].
Qed.
Lemma set_outcomes i p a x s s' o : atomic (VSet i p a x) s = Some (s', o) -> o = ODone \/ o = OAlarm.
Proof.
  cbn [Ioc_Spec.atomic]. destruct (nth_error _ _) as [e|] eqn:E; [|intros [= _ <-]; auto].
  destruct (reconfigure _ _ _) as [m [[]|y]] eqn:R; [intros [= _ <-]; auto|destruct (caught y); [|discriminate]; intros [= _ <-]; auto].
Qed.
(** The Configs in force describe the elements. *)
Lemma sound_suits r s : sound r s -> tidy_all r ->
  suit_all (m_info (v_machine s)) (lattice s) (m_elems (v_machine s)).
Proof.
  intros [(c & m & us & H1 & H2 & H3 & H4) _ _ _ _ _] T. unfold lattice. rewrite H4.
  pose proof H1 as H0. apply new_machine_ok in H0 as (t & i & es & A1 & A2 & A3 & A4 & A5 & A6 & A7 & A8 & A9 & A10).
  assert (Ti : tidy (m_info m)) by (rewrite A6; eapply T; eauto).
  assert (S1 : suit_all (m_info m) es (m_elems m)).
  { split; auto. intros j ec e Hj He. rewrite A6. apply describes_suits; eauto. }
  apply (uses_suits us) in S1; auto. destruct (uses_keeps us m) as (_ & _ & K & _). rewrite K.
  destruct S1 as [L S1]. split; [rewrite map_length; auto|].
  intros j ec e Hj He. rewrite nth_error_map, He in Hj. injection Hj as <-.
  destruct (nth_error (entries m es us) j) as [ec|] eqn:Ec.
  - pose proof (S1 _ _ _ Ec He) as X. destruct X as (nm & d & P1 & P2 & P3 & P4 & P5 & P6). rewrite P5. cbn [eb_conf].
    exists nm, d. repeat (split; [auto; fail|]). auto.
  - apply nth_error_None in Ec. assert (j < List.length (m_elems (uses m us))) by (apply nth_error_Some; congruence). lia.
Qed.
Lemma set_iff r i p a x s : serves r s -> tidy_all r -> atomic (VSet i p a x) s <> None ->
  ((exists s', atomic (VSet i p a x) s = Some (s', ODone)) <->
   exists e d, nth_error (m_elems (v_machine s)) (N.to_nat i) = Some e /\ p <> "name" /\ p <> "type" /\
     cl_ctor (el_class e) (tset p (TNum (of_val a x)) (eb_conf (el_base e))) = Ok d).
Proof.
  intros Hs T Nn. pose proof (serves_sound _ _ Hs) as S0. pose proof (sound_suits _ _ S0 T) as [L Su]. split.
  - intros (s' & H). apply set_ok in H as (e & m & E & R & _). exists e.
    apply reconfigure_ok in R as (ob & t & k & nm & d & A1 & A2 & A3 & A4 & A5 & A6 & _).
    rewrite E in A1. injection A1 as <-. rewrite tfind_tset in A2, A4.
    destruct (String.eqb_spec "name" p) as [X|X]; [discriminate|]. destruct (String.eqb_spec "type" p) as [Y|Y]; [discriminate|].
    destruct (Su (N.to_nat i) (eb_conf (el_base e)) e) as (nm1 & d1 & P1 & P2 & P3 & P4 & P5 & P6); auto.
    { unfold lattice. rewrite nth_error_map, E. reflexivity. }
    rewrite P1 in A2. injection A2 as <-. rewrite P2 in A3. injection A3 as <-. exists d. repeat split; auto.
  - intros (e & d & E & N1 & N2 & C). cbn [Ioc_Spec.atomic] in *. rewrite E in *.
    destruct (Su (N.to_nat i) (eb_conf (el_base e)) e) as (nm1 & d1 & P1 & P2 & P3 & P4 & P5 & P6); auto.
    { unfold lattice. rewrite nth_error_map, E. reflexivity. }
    assert (R : exists m, reconfigure (v_machine s) i (tset p (TNum (of_val a x)) (eb_conf (el_base e))) = (m, Ok tt)).
    { unfold reconfigure. rewrite slot_nth, E. unfold get_str at 1. rewrite tfind_tset.
      destruct (String.eqb_spec "type" p) as [X|X]; [congruence|]. rewrite P1, P2.
      unfold rebuild. assert (Hg : get_str (tset p (TNum (of_val a x)) (eb_conf (el_base e))) "name" = Ok nm1).
      { unfold get_str. rewrite tfind_tset. destruct (String.eqb_spec "name" p) as [Y|Y]; [congruence|]. rewrite P3. reflexivity. }
      unfold build, base_ctor. rewrite ?Hg. cbn [rbind]. rewrite C. cbn [rbind]. rewrite ?Nat.eqb_refl, ?N.eqb_refl, ?Z.eqb_refl. eauto. }
    destruct R as [m ->]. eauto.
Qed.

(** ** Histories of settings *)
Lemma run_keeps s s' : run_once s = Some s' ->
  map static (m_elems (v_machine s')) = map static (m_elems (v_machine s)) /\ m_info (v_machine s') = m_info (v_machine s).
Proof.
  intros H. apply (run_once_parts what) in H as [(e & Ha & Hc & ->)|(st & p & l & Ha & Hp & Hv & H)]; [split; reflexivity|].
  pose proof (propagate_static _ _ _ _ _ Hp) as Hs.
  destruct H as [(st' & He & ->)|(e & He & Hc & ->)]; split; auto.
Qed.
Lemma static_lattice s s' : map static (m_elems (v_machine s')) = map static (m_elems (v_machine s)) -> lattice s' = lattice s.
Proof. intros E. unfold lattice. apply (static_map _ (fun x => eb_conf (snd (fst x)))); auto. Qed.
Lemma reading_lattice s i p : reading s i p =
  match nth_error (lattice s) (N.to_nat i) with
  | Some c => match tfind p c with Some (TNum x) => Some x | _ => None end
  | None => None
  end.
Proof. unfold Ioc_Spec.reading, lattice. rewrite nth_error_map. destruct (nth_error _ _); reflexivity. Qed.
Lemma do_reads o x s s' i p : atomic o s = Some (s', x) ->
  reading s' i p = match o with
                   | VSet j q a v => match x with ODone => if (N.eqb i j && String.eqb p q)%bool then Some (of_val a v) else reading s i p
                                                | _ => reading s i p end
                   | _ => reading s i p
                   end.
Proof.
  intros H. destruct o as [|j q a v|j q a|d a|d buf|d buf|n|]; cbn [Ioc_Spec.atomic] in H.
  - injection H as <- <-. reflexivity.
  - destruct (set_outcomes _ _ _ _ _ _ _ H) as [->| ->].
    + apply (set_reads j q a v s s' H).
    + apply set_refused in H. subst. reflexivity.
  - injection H as <- <-. auto.
  - destruct (kept _ _ _ _ _ _ _) as [[v|]|]; [| |discriminate]; injection H as <- <-; auto.
  - destruct (collect _ _); [|discriminate]. injection H as <- <-. auto.
  - destruct (collect _ _); [|discriminate]. injection H as <- <-. auto.
  - injection H as <- <-. auto.
  - injection H as <- <-. auto.
Qed.
Lemma history_reads s h s' i p : replays s h s' -> reading s' i p = last_written i p h (reading s i p).
Proof.
  induction 1 as [|h s1 s2 H IH Hd Hst Hr|h s1 s2 j o x H IH Ha]; auto.
  - unfold last_written. rewrite fold_left_app. fold (last_written i p h (reading s i p)). rewrite <- IH. cbn [fold_left].
    apply run_keeps in Hr as [Hr _]. rewrite !reading_lattice, (static_lattice _ _ Hr). reflexivity.
  - unfold last_written. rewrite fold_left_app. fold (last_written i p h (reading s i p)). rewrite <- IH. cbn [fold_left].
    rewrite (do_reads _ _ _ _ i p Ha). destruct o; auto. 
Qed.
End Use.
