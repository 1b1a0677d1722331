(** Going forward and then backward through a stretch of a machine. *)
From Coq Require Import Reals List String Bool NArith ZArith Arith Lia Lra.
From Verif Require Import SMap SMap_Proofs Dbl Config_Spec Mat Mat_Proofs Minv Minv_Proofs Machine_Model Machine_Spec Machine_Proofs
  Machine2_Proofs Machine4_Proofs Linear_Model Linear_Spec Linear_Proofs Linear2_Proofs Linear3_Proofs.
From Verif Require Import Moment_Model Moment_Spec Motion_Spec Round_Spec Moment_Proofs Moment2_Proofs Moment3_Proofs Moment4_Proofs
  Moment5_Proofs Moment6_Proofs Motion_Proofs Motion2_Proofs Motion3_Proofs Motion4_Proofs Motion5_Proofs Round_Proofs.
Import ListNotations.
Open Scope R_scope.
Open Scope string_scope.
Open Scope list_scope.

Section W.
Variable w : world.
Hypothesis W : sane w.
Notation num := (w_num w).

(** ** Elements used forward only *)
Definition kept (b : bool) (k : mkind) (c : tcfg) (d : mdata) : Prop :=
  shaped k c d /\ exists d0, mom_ctor w k c = Ok d0 /\ used w b k c d0 d.
Definition kept_ok (b : bool) := lift w (kept b).
Lemma used_fit b c m es us : new_machine (moment_reg w) c = Ok m -> tfind "elements" c = Some (TCfgs es) ->
  Forall strips_to_some es -> smooth (fun r s => r = b /\ aligned s) strips_to_some m us ->
  fit_all (kept_ok b) (mom_info w) (entries m es us) (m_elems (uses m us)).
Proof.
  intros Hm He HQ HS. destruct (new_moment w _ _ Hm) as (es0 & H1 & H2 & H3). assert (es0 = es) as -> by congruence.
  set (J := fun (r : bool) s => r = b /\ aligned s).
  assert (GC : forall t k c d, sfind t (si_elems (mom_info w)) = Some k -> tfind "type" c = Some (TStr t) ->
    strips_to_some c -> cl_ctor k c = Ok d -> kept_ok b k c d).
  { intros t k c0 d Ht Ht' Hq Hd. apply mom_find in Ht as (q & -> & ->). apply lift_class. split.
    - apply (ctor_ok w). 2: exact Hd. intros ->. apply Hq. exact Ht'.
    - exists d. split; [exact Hd|left; reflexivity]. }
  assert (GA : forall t k c c' d s, sfind t (si_elems (mom_info w)) = Some k ->
    kept_ok b k c' d -> kept_ok b k c s -> kept_ok b k c (cl_assign k d s)).
  { intros t k c0 c1 d s Ht _ Hs. apply mom_find in Ht as (q & -> & ->). exact Hs. }
  assert (GV : forall t k b0 d st d' st', sfind t (si_elems (mom_info w)) = Some k -> kept_ok b k (eb_conf b0) d ->
    J (st_retreat st) (st_body st) -> cl_advance k b0 d st = (d', Ok st') ->
    kept_ok b k (eb_conf b0) d' /\ J (st_retreat st) (st_body st') /\ st_retreat st' = st_retreat st).
  { intros t k b0 d s d' s' Ht Hg [HJ1 HJ2] Hadv. apply mom_find in Ht as (q & -> & ->). apply lift_class in Hg as [Hg (d0 & G1 & G2)].
    apply mom_advance_inv in Hadv as (Hadv & Hr & _). assert (O := Hadv). apply advance_ok in O as [O1 O2]; auto.
    split; [apply lift_class; split; [eauto|]|].
    - exists d0. split; [exact G1|]. rewrite HJ1 in Hadv. exact (used_step w b q _ d0 d _ d' _ G1 G2 HJ2 Hadv).
    - split; [split; [exact HJ1|exact O1]|exact Hr]. }
  destruct (new_fit strips_to_some (kept_ok b) (mom_info w) GC _ c _ es m H1 (mom_reg_find w) He Hm HQ) as [F0 HI].
  exact (uses_fit J strips_to_some (kept_ok b) (mom_info w) (mom_tidy w) GC GA GV us m es HI F0 HS).
Qed.
Lemma fit_elem g es els j e : fit_all (lift w g) (mom_info w) es els -> nth_error els j = Some e ->
  exists ec k, nth_error es j = Some ec /\ el_class e = mom_class w k /\ is_a (mkind_name k) ec /\ eb_conf (el_base e) = ec /\
    g k ec (el_data e).
Proof.
  intros F E. destruct (fit_nth _ _ _ _ _ _ F E) as (ec & Hec & (nm & d & H1 & H2 & H3 & H4 & H5 & H6)).
  apply mom_find in H2 as (k & E1 & E2). exists ec, k. rewrite E1 in *. split; auto. split; auto. split; [exact H1|].
  split; [rewrite H5; reflexivity|]. apply lift_class in H6. exact H6.
Qed.
Lemma fit_keeps g es els : fit_all (lift w g) (mom_info w) es els -> keeps_direction els.
Proof.
  intros F e He b d st d' st' H. apply In_nth_error in He as [j Hj]. destruct (fit_elem _ _ _ _ _ F Hj) as (ec & k & _ & E & _).
  rewrite E in H. apply mom_advance_inv in H as (_ & H & _). exact H.
Qed.

(** ** One step of the loop *)
Lemma loop_one (els : list (elem mdata mstate)) st evs e k ec : nth_error els (N.to_nat (st_next st)) = Some e ->
  el_class e = mom_class w k -> eb_conf (el_base e) = ec ->
  prop_loop 1 els st evs =
  let st1 := mkSt (if st_retreat st then size_decr (st_next st) else size_incr (st_next st)) (st_retreat st) (st_body st) in
  let n := N.to_nat (st_next st) in
  match advance_of w k ec (el_data e) (st_retreat st) (st_body st) with
  | (d, Throw x) => mkRun (update els n (with_data e d)) evs (Throw x)
  | (d, Ok s') => mkRun (update els n (with_data e d))
      (match el_obs e with Some o => evs ++ [mkEv o n (mkSt (st_next st1) (st_retreat st) s')] | None => evs end)
      (Ok (mkSt (st_next st1) (st_retreat st) s'))
  end.
Proof.
  intros E C1 C2. cbn [prop_loop]. rewrite slot_nth, E, C1. cbn [cl_advance mom_class]. unfold mom_advance. rewrite C2.
  cbn [st_retreat st_body st_next]. destruct (advance_of w k ec (el_data e) (st_retreat st) (st_body st)) as [d [s'|x]]; reflexivity.
Qed.

Variable Inv : mstate -> Prop.
Variable P : tcfg -> Prop.
(** Forward through a new element and back. *)
Definition bounces : Prop := forall k c d0 s d s1, is_a (mkind_name k) c -> P c -> mom_ctor w k c = Ok d0 -> aligned s -> Inv s ->
  advance_of w k c d0 false s = (d, Ok s1) -> aligned s1 ->
  Inv s1 /\ forall t d2 t2, aligned t -> restored s1 t -> advance_of w k c d true t = (d2, Ok t2) -> aligned t2 -> restored s t2.
Hypothesis HB : bounces.

Lemma restored_refl s : restored s s.
Proof.
  split; [reflexivity|]. split; [apply same_refl_p|]. repeat split.
  - induction (ms_real s); constructor; auto. apply same_refl_p.
  - induction (ms_m0 s); constructor; auto. reflexivity.
  - induction (ms_m1 s); constructor; auto. reflexivity.
Qed.
Lemma loop_round es n : forall i els s,
  fit_all (kept_ok false) (mom_info w) es els -> aligned s -> Inv s -> along es i n P -> (N.of_nat (i + n) <= SIZE_MAX)%N ->
  forall run f, prop_loop n els (mkSt (N.of_nat i) false s) [] = run -> pr_end run = Ok f ->
  st_next f = N.of_nat (i + n) /\ st_retreat f = false /\ aligned (st_body f) /\ Inv (st_body f) /\
  fit_all (kept_ok false) (mom_info w) es (pr_elems run) /\
  forall els' t evs run' g, (forall j, (i <= j < i + n)%nat -> nth_error els' j = nth_error (pr_elems run) j) ->
    aligned t -> restored (st_body f) t ->
    prop_loop n els' (mkSt (N.pred (N.of_nat (i + n))) true t) evs = run' -> pr_end run' = Ok g -> restored s (st_body g).
Proof.
  induction n as [|n IH]; intros i els s F A I AL SM run f Hr Hf.
  { cbn [prop_loop] in Hr. subst run. cbn [pr_end pr_elems] in *. injection Hf as <-. cbn [st_next st_retreat st_body].
    rewrite Nat.add_0_r. repeat (split; [auto; fail|]). intros els' t evs run' g _ At R Hr' Hg.
    cbn [prop_loop] in Hr'. subst run'. cbn [pr_end] in Hg. injection Hg as <-. exact R. }
  replace (S n) with (n + 1)%nat in Hr by lia. rewrite loop_app in Hr by (eapply fit_keeps; eauto).
  destruct (pr_end (prop_loop n els (mkSt (N.of_nat i) false s) [])) as [f1|x] eqn:E1; [|rewrite <- Hr in Hf; congruence].
  destruct (IH i els s F A I) with (run := prop_loop n els (mkSt (N.of_nat i) false s) []) (f := f1)
    as (N1 & N2 & N3 & N4 & N5 & N6); auto.
  { intros j Hj. apply AL. lia. } { lia. }
  set (els1 := pr_elems (prop_loop n els (mkSt (N.of_nat i) false s) [])) in *.
  destruct (AL (i + n)%nat) as (ec & Hec & HP); [lia|].
  destruct (nth_ex els1 (i + n) (List.length es)) as [e He]; [apply N5|eapply nth_lt; eauto|].
  destruct (fit_elem _ _ _ _ _ N5 He) as (ec' & k & Hec' & C1 & C2 & C3 & (SH & d0 & HC & U)).
  assert (ec' = ec) as -> by congruence.
  rewrite (loop_one els1 f1 _ e k ec) in Hr by (auto; rewrite N1, Nat2N.id; exact He). cbv zeta in Hr. rewrite N2 in Hr.
  destruct (advance_of w k ec (el_data e) false (st_body f1)) as [d1 [s2|x]] eqn:EA; [|subst run; discriminate].
  assert (O := EA). apply advance_ok in O as [O1 O2]; auto. cbn [outcome] in O1.
  assert (US := adv_used w false k ec d0 (el_data e) (st_body f1) HC U N3). rewrite EA in US.
  destruct (advance_of w k ec d0 false (st_body f1)) as [d1' r'] eqn:EA0. destruct US as [U1 U2]. cbn [fst snd] in U1, U2. subst r'.
  rewrite U2 in * by eauto.
  destruct (HB k ec d0 (st_body f1) d1' s2 C2 HP HC N3 N4 EA0 O1) as [I2 BK].
  subst run. cbn [pr_end] in Hf. assert (Ef : f = mkSt (size_incr (st_next f1)) false s2) by (cbn [st_next] in Hf; congruence). subst f. clear Hf.
  cbn [pr_elems st_next st_retreat st_body]. rewrite N1.
  split. { unfold size_incr. destruct (N.eqb_spec (N.of_nat (i + n)) SIZE_MAX); lia. }
  split; [reflexivity|]. split; [exact O1|]. split; [exact I2|]. rewrite Nat2N.id.
  split.
  { eapply fit_update; eauto. rewrite C1. apply lift_class. split; [eapply O2; eauto|]. exists d0. split; auto.
    exact (used_step w false k ec d0 (el_data e) (st_body f1) d1' s2 HC U N3 EA). }
  intros els' t evs run' g AG At R Hr' Hg.
  replace (N.pred (N.of_nat (i + S n))) with (N.of_nat (i + n)) in Hr' by lia.
  cbn [prop_loop] in Hr'. rewrite slot_nth in Hr'. cbn [st_next st_retreat st_body] in Hr'. rewrite Nat2N.id in Hr'.
  rewrite (AG (i + n)%nat) in Hr' by lia. rewrite (nth_update_eq els1 _ _ e He) in Hr'.
  cbn [with_data el_class el_base el_data] in Hr'. rewrite C1 in Hr'. cbn [cl_advance mom_class] in Hr'. unfold mom_advance in Hr'.
  rewrite C3 in Hr'. cbn [st_retreat st_body st_next] in Hr'.
  destruct (advance_of w k ec d1' true t) as [d3 [t2|x]] eqn:ET; cbn [rbind] in Hr'; [|subst run'; discriminate].
  assert (Q := ET). apply advance_ok in Q as [Q1 _]; auto; [|eapply O2; eauto]. cbn [outcome] in Q1.
  assert (RS := BK t d3 t2 At R ET Q1).
  destruct n as [|n].
  { cbn [prop_loop] in Hr'. subst run'. cbn [pr_end] in Hg. assert (Eg : t2 = st_body g) by (injection Hg as <-; reflexivity). rewrite <- Eg.
    cbn [prop_loop pr_end] in E1. assert (Es : f1 = mkSt (N.of_nat i) false s) by congruence. rewrite Es in RS. exact RS. }
  replace (size_decr (N.of_nat (i + S n))) with (N.pred (N.of_nat (i + S n))) in Hr'
    by (unfold size_decr; destruct (N.eqb_spec (N.of_nat (i + S n)) 0); [lia|reflexivity]).
  eapply N6; [|exact Q1|exact RS|exact Hr'|exact Hg].
  intros j Hj. rewrite nth_update_neq by lia. rewrite AG by lia. rewrite nth_update_neq by lia. reflexivity.
Qed.

Lemma machine_round c m es us i n st p f p' g :
  new_machine (moment_reg w) c = Ok m -> tfind "elements" c = Some (TCfgs es) ->
  Forall strips_to_some es -> smooth (fun r s => r = false /\ aligned s) strips_to_some m us ->
  (N.of_nat (List.length es) <= SIZE_MAX)%N -> along (entries m es us) i n P ->
  aligned (st_body st) -> Inv (st_body st) -> (Z.of_nat n <= INT_MAX)%Z ->
  propagate (uses m us) st (N.of_nat i) (Z.of_nat n) = Some p -> pr_end p = Ok f ->
  propagate (uses m (us ++ [UProp st (N.of_nat i) (Z.of_nat n)])) f (N.of_nat (i + n) - 1) (- Z.of_nat n) = Some p' ->
  pr_end p' = Ok g ->
  restored (st_body st) (st_body g).
Proof.
  intros Hm He HQ HS SM AL A I ZN HP Hf HP' Hg.
  assert (F := used_fit false c m es us Hm He HQ HS).
  assert (LE : List.length (entries m es us) = List.length es).
  { destruct F as [F _]. rewrite uses_length in F. destruct (new_moment w _ _ Hm) as (es0 & H1 & H2 & H3).
    apply new_machine_ok in Hm as (t0 & i0 & es1 & K1 & K2 & K3 & K4 & K5 & K6 & K7 & _). congruence. }
  destruct n as [|n].
  { unfold propagate in HP, HP'. cbn in HP, HP'. apply some_eq in HP, HP'. subst p p'. cbn [pr_end] in Hf, Hg.
    injection Hf as <-. injection Hg as <-. cbn [st_body].
    apply restored_refl. }
  assert (LI : (i + S n <= List.length es)%nat).
  { destruct (AL (i + n)%nat) as (ec & Hec & _); [lia|]. apply nth_lt in Hec. lia. }
  assert (NB : (Z.of_nat (S n) =? INT_MIN)%Z = false /\ (- Z.of_nat (S n) =? INT_MIN)%Z = false).
  { split; apply Z.eqb_neq; unfold INT_MIN, INT_MAX in *; lia. }
  unfold propagate in HP. rewrite (proj1 NB) in HP. replace (Z.of_nat (S n) <? 0)%Z with false in HP by (symmetry; apply Z.ltb_ge; lia).
  rewrite Zabs2Nat.id in HP. apply some_eq in HP.
  destruct (loop_round (entries m es us) (S n) i (m_elems (uses m us)) (st_body st) F A I AL) with (run := p) (f := f)
    as (N1 & N2 & N3 & N4 & N5 & N6); auto; [lia|].
  unfold uses in HP'. rewrite fold_left_app in HP'. cbn [fold_left use1] in HP'. fold (uses m us) in HP'.
  unfold propagate at 2 in HP'. rewrite (proj1 NB) in HP'. replace (Z.of_nat (S n) <? 0)%Z with false in HP' by (symmetry; apply Z.ltb_ge; lia).
  rewrite Zabs2Nat.id, HP in HP'. unfold propagate in HP'. rewrite (proj2 NB) in HP'.
  replace (- Z.of_nat (S n) <? 0)%Z with true in HP' by (symmetry; apply Z.ltb_lt; lia).
  replace (Z.abs_nat (- Z.of_nat (S n))) with (S n) in HP' by lia. apply some_eq in HP'. cbn [with_elems m_elems] in HP'.
  replace (N.of_nat (i + S n) - 1)%N with (N.pred (N.of_nat (i + S n))) in HP' by lia.
  eapply N6; [|exact N3|apply restored_refl|exact HP'|exact Hg]. reflexivity.
Qed.
End W.
