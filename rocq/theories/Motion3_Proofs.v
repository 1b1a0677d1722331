(** One element of a MomentMatrix machine, whatever went through it before in the
    same direction. *)
From Coq Require Import Reals List String Bool NArith ZArith Arith Lia Lra.
From Verif Require Import SMap SMap_Proofs Dbl Config_Spec Mat Mat_Proofs Minv Minv_Proofs Machine_Model Machine_Spec Machine_Proofs
  Machine2_Proofs Linear_Model Linear_Spec Linear_Proofs Linear2_Proofs Linear3_Proofs.
From Verif Require Import Moment_Model Moment_Spec Motion_Spec Moment_Proofs Moment2_Proofs Moment3_Proofs Moment4_Proofs
  Moment5_Proofs Moment6_Proofs Motion_Proofs Motion2_Proofs.
Import ListNotations.
Open Scope R_scope.
Open Scope string_scope.
Open Scope list_scope.

(** ** The loops, entry by entry *)
Lemma over_nth {A B} (f : B -> A -> A) xs : forall l r j x a, over f xs l = Ok r ->
  nth_error xs j = Some x -> nth_error l j = Some a -> nth_error r j = Some (f x a).
Proof.
  induction xs as [|y xs IH]; intros l r j x a H Hx Ha; [destruct j; discriminate|].
  cbn [over] in H. destruct l as [|b l]; [discriminate|]. apply rbind_ok in H as (r' & H1 & H). injection H as <-.
  destruct j as [|j]; cbn [nth_error] in *; [congruence|]. eauto.
Qed.
Lemma run_nth {A} (f : particle -> A -> A * option exn) ps : forall l r j p a, run_cells f ps l = (r, None) ->
  nth_error ps j = Some p -> nth_error l j = Some a -> exists b, nth_error r j = Some b /\ f p a = (b, None).
Proof.
  induction ps as [|q ps IH]; intros l r j p a H Hp Ha; [destruct j; discriminate|].
  cbn [run_cells] in H. destruct l as [|b l]; [discriminate|]. destruct (f q b) as [x [e|]] eqn:E; [discriminate|].
  destruct (run_cells f ps l) as [r' e'] eqn:E'. apply pair_eq in H as [<- ->].
  destruct j as [|j]; cbn [nth_error] in *.
  - injection Hp as ->. injection Ha as ->. exists x. auto.
  - eauto.
Qed.
Lemma rmap_nth {A B} (f : A -> res B) l : forall r j a, rmap f l = Ok r -> nth_error l j = Some a ->
  exists b, nth_error r j = Some b /\ f a = Ok b.
Proof.
  induction l as [|x l IH]; intros r j a H Ha; [destruct j; discriminate|].
  cbn [rmap] in H. apply rbind_ok in H as (b & H1 & H). apply rbind_ok in H as (r' & H2 & H). injection H as <-.
  destruct j as [|j]; cbn [nth_error] in *; [injection Ha as <-; eauto|]. eauto.
Qed.
Lemma nth_ex {A} (l : list A) j n : List.length l = n -> (j < n)%nat -> exists a, nth_error l j = Some a.
Proof. intros H Hj. destruct (nth_error l j) eqn:E; [eauto|]. apply nth_error_None in E. lia. Qed.
Lemma nth_lt {A} (l : list A) j a : nth_error l j = Some a -> (j < List.length l)%nat.
Proof. intros H. apply nth_error_Some. congruence. Qed.

Lemma nth_firstn {A} (l : list A) n : forall j, nth_error (firstn n l) j = if Nat.ltb j n then nth_error l j else None.
Proof.
  revert n. induction l as [|a l IH]; intros n j.
  - rewrite firstn_nil. destruct (Nat.ltb j n), j; reflexivity.
  - destruct n as [|n]; [destruct j; reflexivity|]. destruct j as [|j]; [reflexivity|]. cbn [firstn nth_error]. rewrite IH. reflexivity.
Qed.
Lemma nth_combine {A B} (l : list A) : forall (l' : list B) j a b, nth_error l j = Some a -> nth_error l' j = Some b ->
  nth_error (combine l l') j = Some (a, b).
Proof.
  induction l as [|x l IH]; intros [|y l'] [|j] a b; cbn [nth_error combine]; try discriminate; [congruence|]. apply IH.
Qed.

Section W.
Variable w : world.
Notation num := (w_num w).

Definition applied (b : bool) (T X : mat) : Prop := if b then inverse T = Ok X else X = T.
Lemma directed_nth b Ts X j T : directed b Ts = Ok X -> nth_error Ts j = Some T -> exists x, nth_error X j = Some x /\ applied b T x.
Proof.
  unfold directed, applied. destruct b; [apply rmap_nth|]. intros H HT. injection H as <-. eauto.
Qed.
Lemma directed_length b Ts X : directed b Ts = Ok X -> List.length X = List.length Ts.
Proof. unfold directed. destruct b; [apply rmap_length|intros [= <-]; auto]. Qed.
Lemma transport_nth d s X m0 m1 tm j T v m t : transport d s X = Ok (m0, m1, tm) ->
  List.length (md_real_in d) = List.length (ms_real s) -> (j < List.length (ms_real s))%nat ->
  nth_error X j = Some T -> nth_error (ms_m0 s) j = Some v -> nth_error (ms_m1 s) j = Some m -> nth_error (ms_tm s) j = Some t ->
  nth_error m0 j = Some (mapp 7 T v) /\ nth_error m1 j = Some (sandwich T m) /\ nth_error tm j = Some T.
Proof.
  unfold transport. intros H L Hj HX Hv Hm Ht. destruct (Nat.ltb _ _); [discriminate|].
  apply rbind_ok in H as (a & H1 & H). apply rbind_ok in H as (b & H2 & H). apply rbind_ok in H as (e & H3 & H).
  injection H as <- <- <-.
  assert (HX' : nth_error (firstn (List.length (md_real_in d)) X) j = Some T).
  { rewrite L. rewrite nth_firstn. destruct (Nat.ltb_spec j (List.length (ms_real s))); [exact HX|lia]. }
  split; [exact (over_nth _ _ _ _ _ _ _ H1 HX' Hv)|]. split; [exact (over_nth _ _ _ _ _ _ _ H2 HX' Hm)|].
  exact (over_nth _ _ _ _ _ _ _ H3 HX' Ht).
Qed.
Lemma calc_keeps s s' : calc_rms w s = Ok s' -> ms_pos s' = ms_pos s /\ ms_ref s' = ms_ref s /\ ms_real s' = ms_real s /\
  ms_m0 s' = ms_m0 s /\ ms_m1 s' = ms_m1 s /\ ms_tm s' = ms_tm s.
Proof.
  unfold calc_rms. destruct (_ && _)%bool; [discriminate|]. destruct (_ || _)%bool; [discriminate|].
  intros H. apply (f_equal (fun r => match r with Ok x => x | Throw _ => s end)) in H. rewrite <- H. auto 10.
Qed.

(** What an element does to charge state [j]. *)
Definition cell_done (f : cell_fun) (b : bool) (s s' : mstate) : Prop := forall j p v m,
  nth_error (ms_real s) j = Some p -> nth_error (ms_m0 s) j = Some v -> nth_error (ms_m1 s) j = Some m ->
  exists T X, f (recalc p) mid = (T, None) /\ applied b T X /\ nth_error (ms_tm s') j = Some X /\
    nth_error (ms_m0 s') j = Some (mapp 7 X v) /\ nth_error (ms_m1 s') j = Some (sandwich X m).
Definition shift_of (b : bool) (x : R) : R := if b then - x else x.

Lemma base_does k c d0 b s d s' : fresh d0 -> md_tm d0 = [] -> aligned s -> advance_base w k c d0 b s = (d, Ok s') ->
  exists f, setup w k d0 c (recalc (ms_ref s)) = Ok f /\
    ms_pos s' = ms_pos s + shift_of b (md_len d0) /\
    ms_ref s' = stepped b (md_len d0) (recalc (ms_ref s)) /\
    ms_real s' = map (fun p => stepped b (md_len d0) (recalc p)) (ms_real s) /\
    cell_done f b s s'.
Proof.
  intros F T0 A. rewrite base_eq by (apply fresh_miss; auto). cbv zeta. set (s1 := ms_recalc s).
  destruct (recompute w k c (note_input d0 s1) s1) as [tm [e|]] eqn:RC; [discriminate|].
  intros H. apply pair_eq in H as [_ H].
  assert (A1 := recalc_aligned s A). fold s1 in A1.
  unfold recompute in RC. rewrite (setup_stat w k (note_input d0 s1) d0) in RC by (repeat split).
  change (ms_ref s1) with (recalc (ms_ref s)) in RC.
  destruct (setup w k d0 c (recalc (ms_ref s))) as [f|] eqn:ES; [|discriminate]. exists f. split; auto.
  unfold finish in H. apply rbind_ok in H as (X & HX & H). apply rbind_ok in H as ([[m0 m1] tm'] & HT & H).
  apply calc_keeps in H as (K1 & K2 & K3 & K4 & K5 & K6). cbn [ms_pos ms_ref ms_real ms_m0 ms_m1 ms_tm] in *.
  split. { rewrite K1. unfold shift_of. destruct b; cbn; unfold Rminus; reflexivity. }
  split. { rewrite K2. reflexivity. }
  split. { rewrite K3. change (ms_real s1) with (map recalc (ms_real s)). rewrite map_map. reflexivity. }
  intros j p v m Hp Hv Hm. assert (Hj := nth_lt _ _ _ Hp).
  destruct A as (A2 & A3 & A4 & A5).
  destruct (nth_ex (ms_tm s) j _ A5 Hj) as [t Ht].
  assert (HM : nth_error (md_tm (note_input d0 s1)) j = Some mid).
  { cbn [note_input with_in md_tm]. rewrite T0. unfold resize. rewrite firstn_nil. cbn [app List.length]. rewrite Nat.sub_0_r.
    change (ms_real s1) with (map recalc (ms_real s)). rewrite map_length.
    rewrite (nth_error_nth' _ mid) by (rewrite repeat_length; auto). f_equal. apply nth_repeat. }
  destruct (run_nth f _ _ _ j (recalc p) mid RC) as (T & R1 & R2); auto.
  { change (ms_real s1) with (map recalc (ms_real s)). apply map_nth_error; auto. }
  destruct (directed_nth _ _ _ _ _ HX R1) as (x & X1 & X2).
  destruct (transport_nth _ _ _ _ _ _ j x v m t HT) as (Y1 & Y2 & Y3); auto.
    { change (ms_real s1) with (map recalc (ms_real s)). rewrite map_length. exact Hj. }
  exists T, x. rewrite K4, K5, K6. auto.
Qed.
Lemma sbend_does c d0 b s d s' : fresh d0 -> md_tm d0 = [] -> aligned s -> advance_sbend w c d0 b s = (d, Ok s') ->
  exists f, setup_sbend w d0 c (recalc (ms_ref s)) = Ok f /\
    ms_pos s' = ms_pos s + shift_of b (md_len d0) /\
    ms_ref s' = stepped b (md_len d0) (recalc (ms_ref s)) /\
    (forall j p v v', nth_error (ms_real s) j = Some p -> nth_error (ms_m0 s) j = Some v -> nth_error (ms_m0 s') j = Some v' ->
       nth_error (ms_real s') j =
       Some (add_phis (recalc p) (shift_of b (p_K (recalc p) * md_len d0 * 1000) + (v' PS_S - v PS_S)))) /\
    cell_done f b s s'.
Proof.
  intros F T0 A. rewrite sbend_eq by (apply fresh_miss; auto). cbv zeta. set (s1 := ms_recalc s).
  destruct (recompute w KSBend c (note_input d0 s1) s1) as [tm [e|]] eqn:RC; [discriminate|].
  intros H. apply pair_eq in H as [_ H].
  assert (A1 := recalc_aligned s A). fold s1 in A1.
  unfold recompute in RC. rewrite (setup_stat w KSBend (note_input d0 s1) d0) in RC by (repeat split).
  change (ms_ref s1) with (recalc (ms_ref s)) in RC. cbn [setup] in RC.
  destruct (setup_sbend w d0 c (recalc (ms_ref s))) as [f|] eqn:ES; [|discriminate]. exists f. split; auto.
  unfold finish_sbend in H. apply rbind_ok in H as (X & HX & H). apply rbind_ok in H as ([[m0 m1] tm'] & HT & H).
  apply rbind_ok in H as (real' & HR & H).
  apply calc_keeps in H as (K1 & K2 & K3 & K4 & K5 & K6). cbn [ms_pos ms_ref ms_real ms_m0 ms_m1 ms_tm] in *.
  split. { rewrite K1. unfold shift_of. destruct b; cbn; unfold Rminus; reflexivity. }
  split. { rewrite K2. unfold stepped. reflexivity. }
  assert (A' := A). destruct A' as (A2 & A3 & A4 & A5).
  split.
  - intros j p v v' Hp Hv Hv'. rewrite K3. rewrite K4 in Hv'. assert (Hj := nth_lt _ _ _ Hp).
    change (ms_real s1) with (map recalc (ms_real s)) in HR.
    change (md_real_in (with_out (with_tm (note_input d0 s1) tm) (ms_ref s1) (map recalc (ms_real s)))) with (map recalc (ms_real s)) in HR.
    change (ms_m0 s1) with (ms_m0 s) in HR.
    assert (HC : nth_error (map (fun '(v', v) => v' PS_S - v PS_S) (combine m0 (ms_m0 s))) j = Some (v' PS_S - v PS_S)).
    { rewrite (map_nth_error _ _ _ (d := (v', v))); [reflexivity|]. apply nth_combine; auto. }
    eapply (over_nth _ _ _ _ j) in HR; [| |rewrite (map_nth_error _ _ _ Hp); reflexivity].
    2:{ rewrite nth_firstn. rewrite map_length. destruct (Nat.ltb_spec j (List.length (ms_real s))); [exact HC|lia]. }
    rewrite HR. f_equal. f_equal. unfold shift_of, MtoMM. cbn [md_len with_out with_tm note_input with_in].
    destruct b; ring.
  - intros j p v m Hp Hv Hm. assert (Hj := nth_lt _ _ _ Hp).
    destruct (nth_ex (ms_tm s) j _ A5 Hj) as [t Ht].
    assert (HM : nth_error (md_tm (note_input d0 s1)) j = Some mid).
    { cbn [note_input with_in md_tm]. rewrite T0. unfold resize. rewrite firstn_nil. cbn [app List.length]. rewrite Nat.sub_0_r.
      change (ms_real s1) with (map recalc (ms_real s)). rewrite map_length.
      rewrite (nth_error_nth' _ mid) by (rewrite repeat_length; auto). f_equal. apply nth_repeat. }
    destruct (run_nth f _ _ _ j (recalc p) mid RC) as (T & R1 & R2); auto.
    { change (ms_real s1) with (map recalc (ms_real s)). apply map_nth_error; auto. }
    destruct (directed_nth _ _ _ _ _ HX R1) as (x & X1 & X2).
    destruct (transport_nth _ _ _ _ _ _ j x v m t HT) as (Y1 & Y2 & Y3); auto.
        { change (ms_real s1) with (map recalc (ms_real s)). rewrite map_length. exact Hj. }
    exists T, x. rewrite K4, K5, K6. auto.
Qed.

(** ** From the machine to the element *)
Lemma one_step b c m es us i ec st p max : sane w ->
  new_machine (moment_reg w) c = Ok m -> tfind "elements" c = Some (TCfgs es) ->
  Forall strips_to_some es -> smooth (fun r s => r = b /\ aligned s) strips_to_some m us ->
  nth_error (entries m es us) i = Some ec -> aligned (st_body st) ->
  max = (if b then -1 else 1)%Z -> propagate (uses m us) st (N.of_nat i) max = Some p ->
  exists k d0, is_a (mkind_name k) ec /\ mom_ctor w k ec = Ok d0 /\
    pr_end p = rbind (snd (advance_of w k ec d0 b (st_body st)))
                     (fun s' => Ok (mkSt (if b then size_decr (N.of_nat i) else size_incr (N.of_nat i)) b s')).
Proof.
  intros W Hm He HQ HS Hi A Hmax HP.
  destruct (cache_unseen w b c m es us (mconf (entries m es us)) W Hm He HQ HS eq_refl eq_refl) as (m2 & M1 & M2).
  assert (Hb : (max <? 0)%Z = b) by (rewrite Hmax; destruct b; reflexivity).
  specialize (M2 st (N.of_nat i) max Hb A). rewrite HP in M2. cbn [option_map] in M2.
  apply new_machine_ok in M1 as (t & inf & es2 & H1 & H2 & H3 & H4 & H5 & H6 & H7 & _ & _ & H8).
  destruct (mom_reg w _ _ H2) as [-> ->].
  assert (es2 = entries m es us) as -> by (apply some_eq in H3; apply (f_equal (fun v => match v with TCfgs l => l | _ => es2 end)) in H3; auto).
  destruct (nth_ex (m_elems m2) i _ H7 (nth_lt _ _ _ Hi)) as [e E].
  destruct (H8 i ec e Hi E) as (k & nm & d & D1 & D2 & D3 & D4 & Ee).
  apply mom_find in D2 as (q & -> & D2). cbn [cl_tname mom_class] in D1, D2.
  exists q, d. split; [exact D1|]. split; [exact D4|].
  set (st1 := mkSt (if (max <? 0)%Z then size_decr (N.of_nat i) else size_incr (N.of_nat i)) (max <? 0)%Z (st_body st)).
  destruct (advance_of w q ec d b (st_body st)) as [d' r] eqn:EA.
  destruct (run_any m2 st (N.of_nat i) max e d' (rbind r (fun s' => Ok (mkSt (st_next st1) (st_retreat st1) s')))) as (p2 & P1 & P2 & _).
  - rewrite Nat2N.id. exact E.
  - rewrite Hmax. destruct b; auto.
  - rewrite Ee. cbn [el_class el_base el_data cl_advance mom_class]. unfold mom_advance. cbn [eb_conf st_retreat st_body st_next].
    rewrite Hb. rewrite EA. unfold st1. cbn [st_next st_retreat]. rewrite Hb. reflexivity.
  - rewrite P1 in M2. cbn [option_map] in M2. apply some_eq in M2. rewrite M2, P2. unfold st1. cbn [st_next st_retreat snd]. rewrite Hb. reflexivity.
Qed.

Lemma ctor_data k c d : mom_ctor w k c = Ok d -> md_tm d = [] /\ md_sh d = sh_at w c /\
  md_len d = match k with KMark | KBPM | KOrbTrim | KStripper => 0 | _ => real_at num c "L" 0 end.
Proof.
  assert (S : mkSh (num_def w c "dx" 0 * MtoMM) (num_def w c "dy" 0 * MtoMM) (num_def w c "pitch" 0) (num_def w c "yaw" 0) (num_def w c "roll" 0) = sh_at w c)
    by (rewrite !real_num; reflexivity).
  unfold mom_ctor. rewrite S.
  assert (F : forall (r : res mdata) x, r = Ok x -> r = Ok d -> x = d) by (intros r x -> H; congruence).
  destruct k; cbv zeta; intros H;
    try (apply (F _ _ eq_refl) in H; rewrite <- H; cbn [md_tm md_sh md_len]; rewrite ?real_num; auto; fail);
    apply rbind_ok in H as (x & _ & H); try (destruct (_ || _)%bool; [|discriminate]);
    apply (F _ _ eq_refl) in H; rewrite <- H; cbn [md_tm md_sh md_len]; rewrite ?real_num; auto.
Qed.
Lemma ctor_fit c d : mom_ctor w KSBend c = Ok d -> flagged w c "HdipoleFitMode" 1 (md_fit d).
Proof.
  unfold mom_ctor. cbv zeta. intros H. apply rbind_ok in H as (x & Hx & H). destruct (_ || _)%bool; [|discriminate].
  injection H as <-. cbn [md_fit]. apply get_flag_ok; auto.
Qed.
Lemma is_a_inj a b c : is_a a c -> is_a b c -> a = b.
Proof. unfold is_a. congruence. Qed.
Lemma described_kind k c : is_a (mkind_name k) c -> described c ->
  In k [KMark; KBPM; KDrift; KQuad; KEQuad; KSolenoid; KOrbTrim; KSBend; KTMatrix].
Proof.
  intros H D. apply Exists_exists in D as (t & D1 & D2). assert (E := is_a_inj _ _ _ H D2). rewrite <- E in D1.
  destruct k; cbn [In mkind_name] in *; intuition discriminate.
Qed.
(** The matrix of a charge state stands for its course. *)
Lemma setup_goes k c d0 ref p f T0 T : mom_ctor w k c = Ok d0 -> is_a (mkind_name k) c -> described c -> proper_magnet num c ->
  moving ref -> moving p -> setup w k d0 c (recalc ref) = Ok f -> f (recalc p) T0 = (T, None) -> goes w c ref p T.
Proof.
  intros HC Hk HD HPM HR HP HS HT. assert (HK := described_kind _ _ Hk HD). destruct (ctor_data _ _ _ HC) as (C1 & C2 & C3).
  cbn [In] in HK. decompose [or] HK; try contradiction; subst k; cbn [mkind_name] in Hk.
  - cbn [setup] in HS. apply (f_equal (fun r => match r with Ok f => f | Throw _ => f end)) in HS. rewrite <- HS in HT.
    apply pair_eq in HT as [<- _]. apply none_goes. auto.
  - cbn [setup] in HS. apply (f_equal (fun r => match r with Ok f => f | Throw _ => f end)) in HS. rewrite <- HS in HT.
    apply pair_eq in HT as [<- _]. apply none_goes. auto.
  - eapply drift_goes; eauto.
  - eapply quad_goes; eauto.
  - eapply equad_goes; eauto. apply HPM; auto.
  - eapply sol_goes; eauto.
  - eapply trim_goes; eauto.
  - eapply sbend_goes; eauto. apply ctor_fit; auto.
  - eapply given_goes; eauto.
Qed.
Lemma mtr_twice (A : mat) : mtr (mtr A) = A. Proof. reflexivity. Qed.
Lemma moved T v S : transported T v S (mapp 7 T v) (sandwich T S).
Proof.
  split; [reflexivity|]. intros a b. unfold sandwich, msize.
  rewrite (dot_veq 7 a _ a (mapp 7 T (mapp 7 S (mapp 7 (mtr T) b)))).
  - rewrite dot_mapp. reflexivity.
  - reflexivity.
  - rewrite mapp_mmul, mapp_mmul. reflexivity.
Qed.

Theorem moment_motion c m es us i ec st p f : sane w ->
  new_machine (moment_reg w) c = Ok m -> tfind "elements" c = Some (TCfgs es) ->
  Forall strips_to_some es -> smooth (fun r s => r = false /\ aligned s) strips_to_some m us ->
  nth_error (entries m es us) i = Some ec -> described ec -> proper_magnet (w_num w) ec ->
  let s := st_body st in
  aligned s -> moving (ms_ref s) -> Forall moving (ms_real s) ->
  propagate (uses m us) st (N.of_nat i) 1 = Some p -> pr_end p = Ok f ->
  forall j q v S, nth_error (ms_real s) j = Some q -> nth_error (ms_m0 s) j = Some v -> nth_error (ms_m1 s) j = Some S ->
  exists T v' S' legs,
    nth_error (ms_tm (st_body f)) j = Some T /\ nth_error (ms_m0 (st_body f)) j = Some v' /\
    nth_error (ms_m1 (st_body f)) j = Some S' /\ transported T v S v' S' /\
    course w ec (ms_ref s) q legs /\ forall u, unit_last u -> passes legs u (mapp 7 T u).
Proof.
  intros W Hm He HQ HS Hi HD HPM s A HR HRs HP Hf j q v S Hq Hv Hs.
  destruct (one_step false c m es us i ec st p 1 W Hm He HQ HS Hi A eq_refl HP) as (k & d0 & Hk & HC & HE).
  rewrite Hf in HE. symmetry in HE. apply rbind_ok in HE as (s' & HA & HE). injection HE as <-. cbn [st_body].
  destruct (ctor_data _ _ _ HC) as (C1 & C2 & C3). assert (F := ctor_fresh w _ _ _ HC).
  assert (HK := described_kind _ _ Hk HD).
  destruct (advance_of w k ec d0 false (st_body st)) as [d' r] eqn:EA. cbn [snd] in HA. subst r.
  assert (X : exists g, setup w k d0 ec (recalc (ms_ref s)) = Ok g /\ cell_done g false s s').
  { assert (B : k = KSBend \/ advance_base w k ec d0 false (st_body st) = (d', Ok s')).
    { cbn [In] in HK. decompose [or] HK; try contradiction; subst k; auto. }
    destruct B as [->|B].
    - cbn [advance_of] in EA. destruct (sbend_does ec d0 false s d' s' F C1 A EA) as (g & G1 & _ & _ & _ & G2). eauto.
    - destruct (base_does k ec d0 false s d' s' F C1 A B) as (g & G1 & _ & _ & _ & G2). eauto. }
  destruct X as (g & G1 & G2). destruct (G2 j q v S Hq Hv Hs) as (T & X & T1 & T2 & T3 & T4 & T5).
  unfold applied in T2. subst X.
  assert (HQq : moving q) by (rewrite Forall_forall in HRs; apply HRs; apply nth_error_In in Hq; exact Hq).
  destruct (setup_goes k ec d0 (ms_ref s) q g mid T HC Hk HD HPM HR HQq G1 T1) as (legs & L1 & L2).
  exists T, (mapp 7 T v), (sandwich T S), legs. split; auto. split; auto. split; auto. split; [apply moved|]. split; auto.
Qed.

(** ** Positions and phases *)
Lemma kinematic_phis p x : kinematic (recalc p) -> kinematic (add_phis (recalc p) x).
Proof. intros H. exact H. Qed.
Lemma later_stepped p x y : moving p -> x = y -> later p (add_phis (recalc p) x) y.
Proof.
  intros M ->. split; [repeat split|]. split; [reflexivity|]. split; [reflexivity|].
  apply kinematic_phis. apply kinematic_recalc.
Qed.
Lemma guiding_kind k c : is_a (mkind_name k) c -> guiding c ->
  In k [KMark; KBPM; KDrift; KQuad; KEQuad; KSolenoid; KOrbTrim; KSBend; KTMatrix; KEDipole].
Proof.
  intros H [D|D].
  - assert (X := described_kind _ _ H D). cbn [In] in *. tauto.
  - assert (E := is_a_inj _ _ _ H D). destruct k; cbn [mkind_name] in E; try discriminate. cbn [In]. tauto.
Qed.
Lemma ctor_extent k c d l : mom_ctor w k c = Ok d -> is_a (mkind_name k) c -> k <> KStripper -> extent num c l -> md_len d = l.
Proof.
  intros HC Hk HN [E1 E2]. destruct (ctor_data _ _ _ HC) as (_ & _ & ->).
  assert (Y : forall n, Exists (fun t => is_a t c) ["marker"; "bpm"; "orbtrim"] -> is_a n c -> In n ["marker"; "bpm"; "orbtrim"]).
  { intros n X Hn. apply Exists_exists in X as (t & X1 & X2). rewrite (is_a_inj _ _ _ Hn X2). exact X1. }
  destruct k; try congruence; symmetry;
    first [ apply E2; intros X; apply (Y _ X) in Hk; cbn in Hk; intuition discriminate
          | apply E1; cbn [mkind_name] in Hk; auto ].
Qed.
Theorem moment_advance b c m es us i ec st p f l : sane w ->
  new_machine (moment_reg w) c = Ok m -> tfind "elements" c = Some (TCfgs es) ->
  Forall strips_to_some es -> smooth (fun r s => r = b /\ aligned s) strips_to_some m us ->
  nth_error (entries m es us) i = Some ec -> guiding ec -> extent (w_num w) ec l ->
  let s := st_body st in let s' := st_body f in
  let sign := if b then -1 else 1 in
  aligned s -> moving (ms_ref s) -> Forall moving (ms_real s) ->
  propagate (uses m us) st (N.of_nat i) (if b then -1 else 1)%Z = Some p -> pr_end p = Ok f ->
  ms_pos s' = ms_pos s + sign * l /\
  later (ms_ref s) (ms_ref s') (sign * (wavenumber (ms_ref s) * (l * 1000))) /\
  forall j q v, nth_error (ms_real s) j = Some q -> nth_error (ms_m0 s) j = Some v ->
  exists q' v', nth_error (ms_real s') j = Some q' /\ nth_error (ms_m0 s') j = Some v' /\
    exists extra, later q q' (sign * (wavenumber q * (l * 1000)) + extra) /\
      (is_a "sbend" ec -> extra = v' 4%nat - v 4%nat) /\ (~ is_a "sbend" ec -> extra = 0).
Proof.
  intros W Hm He HQ HS Hi HD HL s s' sign A HR HRs HP Hf.
  destruct (one_step b c m es us i ec st p _ W Hm He HQ HS Hi A eq_refl HP) as (k & d0 & Hk & HC & HE).
  rewrite Hf in HE. symmetry in HE. apply rbind_ok in HE as (s1 & HA & HE). 
  assert (Es : s' = s1) by (injection HE as <-; reflexivity). rewrite <- Es in HA. clear HE Es.
  destruct (ctor_data _ _ _ HC) as (C1 & C2 & C3). assert (F := ctor_fresh w _ _ _ HC).
  assert (HK := guiding_kind _ _ Hk HD).
  assert (EL : md_len d0 = l).
  { eapply ctor_extent; eauto. intros ->. cbn [In] in HK. decompose [or] HK; try contradiction; discriminate. }
  destruct (advance_of w k ec d0 b (st_body st)) as [d' r] eqn:EA. cbn [snd] in HA. subst r.
  assert (EX : forall p, moving p -> shift_of b (p_K (recalc p) * l * 1000) = sign * (wavenumber p * (l * 1000))).
  { intros p0 M. rewrite recalc_K by auto. unfold shift_of, sign. destruct b; ring. }
  assert (ER : later (ms_ref s) (stepped b (md_len d0) (recalc (ms_ref s))) (sign * (wavenumber (ms_ref s) * (l * 1000)))).
  { unfold stepped. apply later_stepped; auto. rewrite EL. exact (EX _ HR). }
  assert (EP : ms_pos s + shift_of b (md_len d0) = ms_pos s + sign * l).
  { rewrite EL. unfold shift_of, sign. destruct b; ring. }
  assert (B : k = KSBend \/ k <> KSBend /\ advance_base w k ec d0 b (st_body st) = (d', Ok s')).
  { cbn [In] in HK. decompose [or] HK; try contradiction; subst k; auto; right; split; auto; discriminate. }
  destruct B as [->|[NB B]].
  - cbn [advance_of] in EA. destruct (sbend_does ec d0 b s d' s' F C1 A EA) as (g & G1 & G2 & G3 & G4 & G5).
    split; [rewrite G2; exact EP|]. split; [rewrite G3; exact ER|].
    intros j q v Hq Hv. assert (Hj := nth_lt _ _ _ Hq). destruct A as (A1 & A2 & A3 & A4).
    destruct (nth_ex (ms_m1 s) j _ A3 Hj) as [S HSs].
    destruct (G5 j q v S Hq Hv HSs) as (T & X & T1 & T2 & T3 & T4 & T5).
    eexists _, _. split; [apply (G4 j q v _ Hq Hv T4)|]. split; [exact T4|].
    exists (mapp 7 X v 4%nat - v 4%nat). split; [|split; [auto|intros N; exfalso; apply N; exact Hk]].
    apply later_stepped.
    + rewrite Forall_forall in HRs. apply HRs. apply nth_error_In in Hq. exact Hq.
    + rewrite EL, EX; [reflexivity|]. rewrite Forall_forall in HRs. apply HRs. apply nth_error_In in Hq. exact Hq.
  - destruct (base_does k ec d0 b s d' s' F C1 A B) as (g & G1 & G2 & G3 & G4 & G5).
    split; [rewrite G2; exact EP|]. split; [rewrite G3; exact ER|].
    intros j q v Hq Hv. assert (Hj := nth_lt _ _ _ Hq). destruct A as (A1 & A2 & A3 & A4).
    destruct (nth_ex (ms_m1 s) j _ A3 Hj) as [S HSs].
    destruct (G5 j q v S Hq Hv HSs) as (T & X & T1 & T2 & T3 & T4 & T5).
    assert (MQ : moving q) by (rewrite Forall_forall in HRs; apply HRs; apply nth_error_In in Hq; exact Hq).
    eexists _, _. split; [rewrite G4; apply (map_nth_error _ _ _ Hq)|]. split; [exact T4|].
    exists 0. split; [|split; [|auto]].
    + unfold stepped. apply later_stepped; auto. rewrite EL, Rplus_0_r. exact (EX _ MQ).
    + intros Hs'. assert (E := is_a_inj _ _ _ Hk Hs'). destruct k; try discriminate. congruence.
Qed.
End W.
