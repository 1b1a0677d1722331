From Coq Require Import List String Bool NArith ZArith Arith Lia.
From Verif Require Import SMap Dbl Config_Spec Machine_Model Machine_Proofs Reg_Model Reg_Spec Thr_Model Thr_Spec.
Import ListNotations.
Open Scope list_scope.

Lemma mine_app {A} i (l l' : list (nat * A)) : mine i (l ++ l') = mine i l ++ mine i l'.
Proof. unfold mine. rewrite filter_app, map_app. reflexivity. Qed.
Lemma mine_one {A} i (a : A) : mine i [(i, a)] = [a].
Proof. unfold mine. simpl. rewrite Nat.eqb_refl. reflexivity. Qed.
Lemma mine_other {A} i j (a : A) : i <> j -> mine j [(i, a)] = [].
Proof. intros H. unfold mine. simpl. apply Nat.eqb_neq in H. rewrite H. reflexivity. Qed.

Section P.
Context {D B : Type}.
Variable detail : Z.
Variable inner : shared D B -> tcfg -> list (call D B).
Notation tstep := (tstep detail inner).
Notation turn := (turn detail inner).
Notation turns := (turns detail inner).
Notation code := (code (D:=D) (B:=B) detail).
Notation start := (start (D:=D) (B:=B) detail).

Lemma after_app (g : shared D B) l l' : after g (l ++ l') = after (after g l) l'.
Proof. revert g; induction l as [|[i c] l IH]; intros g; simpl; auto. Qed.
Lemma gave_app (g : shared D B) l l' : gave g (l ++ l') = gave g l ++ gave (after g l) l'.
Proof. revert g; induction l as [|[i c] l IH]; intros g; simpl; auto. f_equal; auto. Qed.

Lemma takes_real (c : call D B) : takes_lock detail c = true <-> real_call detail c.
Proof.
  destruct c; simpl; try tauto.
  - destruct (get_str c "sim_type"); split; eauto; try discriminate. intros [s H]. discriminate.
  - apply Z.leb_le.
Qed.
Lemma takes_not (c : call D B) : takes_lock detail c = false <-> ~ real_call detail c.
Proof. rewrite <- takes_real. destruct (takes_lock detail c); split; intros; try discriminate; auto. exfalso; auto. Qed.

(** The calls that take the lock. *)
Definition loud (p : list (call D B)) := filter (takes_lock detail) p.
Lemma code_loud p : code p = flat_map (steps detail) (loud p).
Proof.
  unfold Thr_Model.code, loud. induction p as [|c p IH]; simpl; auto.
  unfold steps at 1. destruct (takes_lock detail c) eqn:E; simpl; rewrite IH; auto.
  unfold steps at 2. rewrite E. reflexivity.
Qed.
Lemma kept_loud p : kept detail p (loud p).
Proof.
  induction p as [|c p IH]; simpl; [constructor|].
  destruct (takes_lock detail c) eqn:E.
  - constructor; auto. apply takes_real; auto.
  - apply kept_not; auto. apply takes_not; auto.
Qed.

Definition mid (c : call D B) : list (instr D B) := match c with CMake m => [IBuild m] | _ => [] end.
(** Where a thread is: the calls it has not yet applied. *)
Inductive phase (g : shared D B) (own : bool) : thread D B -> list (call D B) -> Prop :=
| ph_idle s rest : own = false -> phase g own (mkT (code rest) s None) rest
| ph_read s c rest : own = true ->
    phase g own (mkT (IRead :: mid c ++ IApply c :: IUnlock :: IDone :: code rest) s None) (c :: rest)
| ph_build m rest : own = true ->
    phase g own (mkT (IBuild m :: IApply (CMake m) :: IUnlock :: IDone :: code rest) g None) (CMake m :: rest)
| ph_app c rest : own = true ->
    phase g own (mkT (IApply c :: IUnlock :: IDone :: code rest) g None) (c :: rest)
| ph_unl s a rest : own = true -> phase g own (mkT (IUnlock :: IDone :: code rest) s (Some a)) rest
| ph_done s a rest : own = false -> phase g own (mkT (IDone :: code rest) s (Some a)) rest.

Definition owns (y : sys D B) (i : nat) : bool := match y_lock y with Some j => Nat.eqb j i | None => false end.
Definition pend (t : thread D B) : list (answer D B) := match t_pend t with Some a => [a] | None => [] end.
Record inv (g : shared D B) (ps : list (list (call D B))) (l : list (nat * call D B)) (y : sys D B) : Prop := {
  i_sh : y_sh y = after g l;
  i_len : List.length (y_th y) = List.length ps;
  i_lock : forall j, y_lock y = Some j -> j < List.length ps;
  i_ids : Forall (fun p => fst p < List.length ps) l;
  i_th : forall i t p, nth_error (y_th y) i = Some t -> nth_error ps i = Some p ->
    exists rest, Forall (fun c => takes_lock detail c = true) rest /\ phase (y_sh y) (owns y i) t rest /\
      mine i l ++ rest = loud p /\ mine i (y_out y) ++ pend t = mine i (gave g l) }.

Lemma loud_all p : Forall (fun c => takes_lock detail c = true) (loud p).
Proof. apply Forall_forall. intros c H. apply filter_In in H. tauto. Qed.
Lemma loud_idem p : code (loud p) = code p.
Proof. rewrite code_loud, (code_loud p). f_equal. unfold loud. induction p as [|c p IH]; simpl; auto.
  destruct (takes_lock detail c) eqn:E; simpl; auto. rewrite E, IH. reflexivity. Qed.

Lemma inv_start g ps : inv g ps [] (start g ps).
Proof.
  constructor; simpl; auto.
  - apply map_length.
  - discriminate.
  - intros i t p Ht Hp. rewrite nth_error_map, Hp in Ht. simpl in Ht. injection Ht as <-.
    exists (loud p). repeat split; auto using loud_all.
    rewrite <- loud_idem. constructor. reflexivity.
Qed.

(** Only the owner's place depends on what is shared. *)
Lemma phase_other g g' t rest : phase g false t rest -> phase g' false t rest.
Proof. intros H. inversion H; subst; try discriminate; constructor; auto. Qed.

Lemma code_cons c rest : takes_lock detail c = true ->
  code (c :: rest) = ILock :: IRead :: mid c ++ IApply c :: IUnlock :: IDone :: code rest.
Proof. intros H. unfold Thr_Model.code. simpl. unfold steps at 1. rewrite H. simpl. rewrite <- app_assoc. reflexivity. Qed.

Hypothesis Q : quiet detail inner.
Lemma inner_nil g c : code (inner g c) = [].
Proof.
  pose proof (Q g c) as H. clear Q. induction H as [|x l Hx _ IH]; simpl; auto.
  apply takes_not in Hx. unfold steps. rewrite Hx. exact IH.
Qed.

Lemma inv_step g ps l y i y' : inv g ps l y -> tstep y i = Some y' -> exists l', inv g ps l' y'.
Proof.
  intros [Hsh Hlen Hlk Hid Hth] Hs. unfold Thr_Model.tstep in Hs.
  destruct (nth_error (y_th y) i) as [t|] eqn:Et; [|discriminate].
  assert (Hi : i < List.length ps) by (rewrite <- Hlen; apply nth_error_Some; congruence).
  destruct (nth_error ps i) as [p|] eqn:Ep; [|apply nth_error_None in Ep; lia].
  destruct (Hth i t p Et Ep) as (rest & Hall & Hph & Hm & Ho).
  (* the other threads *)
  assert (Hoth : forall l' g' lk t' out',
    (g' = y_sh y \/ owns y i = true) ->
    (lk = y_lock y \/ (y_lock y = None /\ lk = Some i) \/ (lk = None /\ owns y i = true)) ->
    (forall j, j <> i -> mine j l' = mine j l /\ mine j (gave g l') = mine j (gave g l) /\ mine j out' = mine j (y_out y)) ->
    forall j tj pj, j <> i -> nth_error (y_th (mkY g' lk (update (y_th y) i t') out')) j = Some tj -> nth_error ps j = Some pj ->
    exists rest0, Forall (fun c => takes_lock detail c = true) rest0 /\
      phase g' (owns (mkY g' lk (update (y_th y) i t') out') j) tj rest0 /\
      mine j l' ++ rest0 = loud pj /\ mine j out' ++ pend tj = mine j (gave g l')).
  { intros l' g' lk t' out' Hg Hl Hj j tj pj Hji Htj Hpj. simpl in Htj. rewrite nth_update_neq in Htj by auto.
    destruct (Hth j tj pj Htj Hpj) as (r & Ha & Hp & Hm' & Ho'). destruct (Hj j Hji) as (E1 & E2 & E3).
    exists r. rewrite E1, E2, E3. repeat split; auto.
    assert (Eo : owns (mkY g' lk (update (y_th y) i t') out') j = owns y j).
    { unfold owns in *. simpl. destruct Hl as [->|[[E ->]|[-> Ho2]]]; auto.
      - rewrite E. apply Nat.eqb_neq. auto.
      - destruct (y_lock y) as [o|]; [|discriminate]. apply Nat.eqb_eq in Ho2. subst o. symmetry. apply Nat.eqb_neq. auto. }
    rewrite Eo. destruct Hg as [->|Hg]; auto.
    assert (Ej : owns y j = false).
    { unfold owns in *. destruct (y_lock y) as [o|]; [|discriminate]. apply Nat.eqb_eq in Hg. subst o. apply Nat.eqb_neq. auto. }
    rewrite Ej in *. eapply phase_other; eauto. }
  assert (Hown : owns y i = true -> y_lock y = Some i).
  { unfold owns. destruct (y_lock y) as [o|]; [|discriminate]. intros H. apply Nat.eqb_eq in H. congruence. }
  assert (Hself : forall g' lk t' out' tj, nth_error (y_th (mkY g' lk (update (y_th y) i t') out')) i = Some tj -> tj = t').
  { intros g' lk t' out' tj H. simpl in H. erewrite nth_update_eq in H by eauto. congruence. }
  unfold put in Hs.
  inversion Hph; subst t rest; simpl in Hs.
  - (* idle *)
    destruct rest0 as [|c rest]; [discriminate|]. inversion Hall as [|? ? Hc Hall']; subst.
    rewrite code_cons in Hs by auto. simpl in Hs. destruct (y_lock y) eqn:El; [discriminate|]. injection Hs as <-.
    exists l. constructor; simpl; auto.
    + rewrite update_length; auto.
    + intros j E. injection E as <-. auto.
    + intros j tj pj Htj Hpj. destruct (Nat.eq_dec j i) as [->|Hji].
      * apply (Hself (y_sh y) (Some i) _ (y_out y)) in Htj. subst tj. rewrite Ep in Hpj. injection Hpj as <-.
        exists (c :: rest). repeat split; auto. constructor. unfold owns. simpl. apply Nat.eqb_refl.
      * eapply (Hoth l (y_sh y) (Some i)); eauto. 
  - (* read *)
    injection Hs as <-. exists l. inversion Hall as [|? ? Hc Hall']; subst. constructor; simpl; auto.
    + rewrite update_length; auto.
    + intros j tj pj Htj Hpj. destruct (Nat.eq_dec j i) as [->|Hji].
      * apply (Hself (y_sh y) (y_lock y) _ (y_out y)) in Htj. subst tj. rewrite Ep in Hpj. injection Hpj as <-.
        exists (c :: rest0). repeat split; auto. unfold owns in *; simpl. destruct c; simpl; constructor; auto.
      * eapply (Hoth l (y_sh y) (y_lock y)); eauto.
  - (* build *)
    injection Hs as <-. exists l. rewrite inner_nil. simpl. constructor; simpl; auto.
    + rewrite update_length; auto.
    + intros j tj pj Htj Hpj. destruct (Nat.eq_dec j i) as [->|Hji].
      * apply (Hself (y_sh y) (y_lock y) _ (y_out y)) in Htj. subst tj. rewrite Ep in Hpj. injection Hpj as <-.
        exists (CMake m :: rest0). repeat split; auto. constructor; auto.
      * eapply (Hoth l (y_sh y) (y_lock y)); eauto.
  - (* apply *)
    destruct (perform (y_sh y) c) as [g' a] eqn:Epf. injection Hs as <-. inversion Hall as [|? ? Hc Hall']; subst.
    exists (l ++ [(i, c)]). constructor; simpl; auto.
    + rewrite after_app, <- Hsh. simpl. rewrite Epf. reflexivity.
    + rewrite update_length; auto.
    + apply Forall_app. split; auto.
    + intros j tj pj Htj Hpj. destruct (Nat.eq_dec j i) as [->|Hji].
      * apply (Hself g' (y_lock y) _ (y_out y)) in Htj. subst tj. rewrite Ep in Hpj. injection Hpj as <-.
        exists rest0. repeat split; auto.
        -- constructor. auto.
        -- rewrite mine_app, mine_one, <- app_assoc. exact Hm.
        -- rewrite gave_app, mine_app. simpl. rewrite <- Hsh, Epf, mine_one. simpl.
           unfold pend in *. simpl in *. rewrite app_nil_r in Ho. congruence.
      * eapply (Hoth (l ++ [(i, c)]) g' (y_lock y)); eauto.
        intros k Hk. rewrite gave_app, !mine_app. simpl. rewrite <- Hsh, !mine_other, !app_nil_r by auto. auto.
  - (* unlock *)
    injection Hs as <-. exists l. constructor; simpl; auto.
    + rewrite update_length; auto.
    + discriminate.
    + intros j tj pj Htj Hpj. destruct (Nat.eq_dec j i) as [->|Hji].
      * apply (Hself (y_sh y) None _ (y_out y)) in Htj. subst tj. rewrite Ep in Hpj. injection Hpj as <-.
        exists rest0. repeat split; auto. constructor; auto.
      * eapply (Hoth l (y_sh y) None); eauto.
  - (* done *)
    injection Hs as <-. exists l. constructor; simpl; auto.
    + rewrite update_length; auto.
    + intros j tj pj Htj Hpj. destruct (Nat.eq_dec j i) as [->|Hji].
      * apply (Hself (y_sh y) (y_lock y) _ (y_out y)) in Htj. subst tj. rewrite Ep in Hpj. injection Hpj as <-.
        exists rest0. repeat split; auto.
        -- constructor; auto.
        -- rewrite mine_app, mine_one. unfold pend in *. simpl in *. rewrite app_nil_r. exact Ho.
      * eapply (Hoth l (y_sh y) (y_lock y)); eauto.
        intros k Hk. rewrite mine_app, mine_other, app_nil_r by auto. auto.
Qed.

Lemma inv_turns g ps sched : exists l, inv g ps l (turns (start g ps) sched).
Proof.
  assert (H : forall l y, inv g ps l y -> exists l', inv g ps l' (turns y sched)).
  { unfold Thr_Model.turns. induction sched as [|i s IH]; intros l y Hy; simpl; eauto.
    unfold turn at 2. destruct (tstep y i) as [y'|] eqn:E; eauto.
    destruct (inv_step _ _ _ _ _ _ Hy E) as (l' & Hl'). eauto. }
  eapply H. apply inv_start.
Qed.

Lemma phase_end g own t rest : phase g own t rest -> t_code t = [] ->
  Forall (fun c => takes_lock detail c = true) rest -> rest = [] /\ pend t = [].
Proof.
  intros H E Ha. inversion H; subst; simpl in E; try discriminate.
  destruct rest; auto. inversion Ha; subst. rewrite code_cons in E by auto. discriminate.
Qed.

Lemma atomic g ps sched : exists l,
  y_sh (turns (start g ps) sched) = after g l /\ Forall (fun p => fst p < List.length ps) l /\
  forall i p, nth_error ps i = Some p -> exists t rest last,
    nth_error (y_th (turns (start g ps) sched)) i = Some t /\
    kept detail p (mine i l ++ rest) /\
    mine i (gave g l) = mine i (y_out (turns (start g ps) sched)) ++ last /\ List.length last <= 1 /\
    (t_code t = [] -> rest = [] /\ last = []).
Proof.
  destruct (inv_turns g ps sched) as (l & [Hsh Hlen _ Hid Hth]). exists l. split; [exact Hsh|]. split; [exact Hid|].
  intros i p Hp. destruct (nth_error (y_th (turns (start g ps) sched)) i) as [t|] eqn:Et.
  2:{ apply nth_error_None in Et. assert (i < List.length ps) by (apply nth_error_Some; congruence). lia. }
  destruct (Hth i t p Et Hp) as (rest & Ha & Hph & Hm & Ho).
  exists t, rest, (pend t). split; [auto|]. split; [rewrite Hm; apply kept_loud|].
  split; [auto|]. split; [unfold pend; destruct (t_pend t); simpl; lia|].
  intros E. apply (phase_end _ _ _ _ Hph E Ha).
Qed.

(** Progress *)
Definition work (y : sys D B) : nat := list_sum (map (fun t => List.length (t_code t)) (y_th y)).
Lemma sum_update (f : thread D B -> nat) l i t t' : nth_error l i = Some t -> f t' < f t ->
  list_sum (map f (update l i t')) < list_sum (map f l).
Proof.
  revert i; induction l as [|x l IH]; destruct i; simpl; intros H Hl; try discriminate.
  - injection H as ->. lia.
  - specialize (IH _ H Hl). lia.
Qed.
Lemma step_work y i y' : tstep y i = Some y' -> work y' < work y.
Proof.
  unfold Thr_Model.tstep. destruct (nth_error (y_th y) i) as [t|] eqn:E; [|discriminate].
  destruct (t_code t) as [|[| |c|c| |] k] eqn:Ec; try discriminate;
    [destruct (y_lock y); [discriminate|]| | |destruct (perform (t_seen t) c)| |]; intros H; injection H as <-;
    unfold work, put; simpl; (eapply sum_update; [exact E|]); simpl; rewrite ?inner_nil, Ec; simpl; lia.
Qed.
Lemma can_go g ps l y : inv g ps l y -> ~ finished y -> exists i, i < List.length ps /\ tstep y i <> None.
Proof.
  intros [Hsh Hlen Hlk Hid Hth] Hf.
  assert (G : forall i t, nth_error (y_th y) i = Some t -> i < List.length ps /\
    exists p, nth_error ps i = Some p).
  { intros i t H. assert (Hi : i < List.length ps) by (rewrite <- Hlen; apply nth_error_Some; congruence).
    split; auto. destruct (nth_error ps i) eqn:E; eauto. apply nth_error_None in E. lia. }
  destruct (y_lock y) as [j|] eqn:El.
  - pose proof (Hlk j eq_refl) as Hj. exists j. split; auto.
    destruct (nth_error (y_th y) j) as [t|] eqn:Et; [|apply nth_error_None in Et; lia].
    destruct (G j t Et) as (_ & p & Hp). destruct (Hth j t p Et Hp) as (rest & Ha & Hph & _).
    unfold Thr_Model.tstep. rewrite Et.
    assert (Eo : owns y j = true) by (unfold owns; rewrite El; apply Nat.eqb_refl).
    rewrite Eo in Hph. inversion Hph; subst; simpl; try discriminate.
    destruct (perform (y_sh y) c); discriminate.
  - apply neg_Forall_Exists_neg in Hf.
    2:{ intros t. destruct (t_code t); [left; auto|right; discriminate]. }
    apply Exists_exists in Hf. destruct Hf as (t & Hin & Hn). apply In_nth_error in Hin. destruct Hin as (i & Et).
    destruct (G i t Et) as (Hi & p & Hp). exists i. split; auto.
    destruct (Hth i t p Et Hp) as (rest & Ha & Hph & _).
    unfold Thr_Model.tstep. rewrite Et.
    assert (Eo : owns y i = false) by (unfold owns; rewrite El; auto).
    rewrite Eo in Hph. inversion Hph; subst; simpl in *; try discriminate.
    destruct rest; [contradiction|]. inversion Ha; subst. rewrite code_cons by auto. rewrite El. discriminate.
Qed.
Lemma turn_work y i : work (turn y i) <= work y.
Proof. unfold Thr_Model.turn. destruct (tstep y i) eqn:E; auto. apply step_work in E. lia. Qed.
Lemma turns_work y s : work (turns y s) <= work y.
Proof.
  revert y; induction s as [|i s IH]; intros y; [simpl; lia|].
  change (turns y (i :: s)) with (turns (turn y i) s). specialize (IH (turn y i)). pose proof (turn_work y i). lia.
Qed.
Lemma round_work y i s : tstep y i <> None -> In i s -> work (turns y s) < work y.
Proof.
  revert y; induction s as [|j s IH]; intros y H Hin; [destruct Hin|].
  change (turns y (j :: s)) with (turns (turn y j) s).
  destruct (tstep y j) as [y'|] eqn:E.
  - pose proof (step_work _ _ _ E). unfold Thr_Model.turn. rewrite E. pose proof (turns_work y' s). lia.
  - unfold Thr_Model.turn. rewrite E. apply IH; auto. destruct Hin as [->|]; auto. contradiction.
Qed.
Lemma finished_dec (y : sys D B) : finished y \/ ~ finished y.
Proof.
  unfold finished. induction (y_th y) as [|t l IH]; [left; constructor|].
  destruct (t_code t) eqn:E; [|right; intros H; inversion H; congruence].
  destruct IH; [left; constructor; auto|right; intros H'; inversion H'; auto].
Qed.
Lemma finished_stays y s : finished y -> turns y s = y.
Proof.
  intros H. induction s as [|i s IH]; auto.
  change (turns y (i :: s)) with (turns (turn y i) s).
  replace (turn y i) with y; auto. unfold Thr_Model.turn, Thr_Model.tstep.
  destruct (nth_error (y_th y) i) as [t|] eqn:E; auto.
  rewrite (proj1 (Forall_forall _ _) H t (nth_error_In _ _ E)). reflexivity.
Qed.
Lemma turns_app y a b : turns y (a ++ b) = turns (turns y a) b.
Proof. unfold Thr_Model.turns. apply fold_left_app. Qed.
Lemma rounds_finish g ps rounds : forall sched,
  (forall r, In r rounds -> forall i, i < List.length ps -> In i r) ->
  work (turns (start g ps) sched) <= List.length rounds ->
  finished (turns (start g ps) (sched ++ List.concat rounds)).
Proof.
  induction rounds as [|r rounds IH]; intros sched Hr Hw.
  - simpl. rewrite app_nil_r. destruct (finished_dec (turns (start g ps) sched)) as [F|F]; auto.
    destruct (inv_turns g ps sched) as (l & Hi). destruct (can_go _ _ _ _ Hi F) as (i & _ & Hs).
    destruct (tstep _ i) eqn:E; [|contradiction]. apply step_work in E. simpl in Hw. lia.
  - simpl. destruct (finished_dec (turns (start g ps) sched)) as [F|F].
    + rewrite turns_app, finished_stays; auto.
    + rewrite app_assoc. apply IH; [intros; apply Hr; simpl; auto|].
      destruct (inv_turns g ps sched) as (l & Hi). destruct (can_go _ _ _ _ Hi F) as (i & Hil & Hs).
      rewrite turns_app. pose proof (round_work _ i r Hs (Hr r (or_introl eq_refl) i Hil)). simpl in Hw. lia.
Qed.
Lemma steps_len c : List.length (steps detail (c : call D B)) <= 6.
Proof. unfold steps. destruct (takes_lock detail c); [|simpl; lia]. destruct c; simpl; lia. Qed.
Lemma work_start g ps : work (start g ps) <= 6 * List.length (List.concat ps).
Proof.
  unfold work. simpl. rewrite map_map. simpl.
  induction ps as [|p ps IH]; simpl; [lia|]. rewrite app_length.
  assert (List.length (code p) <= 6 * List.length p).
  { unfold Thr_Model.code. clear. induction p as [|c p IH]; simpl; [lia|]. rewrite app_length. pose proof (steps_len c). lia. }
  lia.
Qed.
Lemma finishes g ps sched rounds :
  (forall r, In r rounds -> forall i, i < List.length ps -> In i r) ->
  6 * List.length (List.concat ps) <= List.length rounds ->
  finished (turns (start g ps) (sched ++ List.concat rounds)).
Proof.
  intros Hr Hn. apply rounds_finish; auto. pose proof (turns_work (start g ps) sched). pose proof (work_start g ps). lia.
Qed.
End P.

Section Stuck.
Context {D B : Type}.
Variable detail : Z.
Variable inner : shared D B -> tcfg -> list (call D B).
Notation tstep := (tstep detail inner).
Notation turns := (turns detail inner).

Notation turn := (turn detail inner).
Notation code := (code (D:=D) (B:=B) detail).
Notation start := (start (D:=D) (B:=B) detail).

(** Who touches what is shared or unlocks owns the mutex. *)
Fixpoint fits (own : bool) (k : list (instr D B)) : Prop :=
  match k with
  | [] => own = false
  | ILock :: k' => if own then True else fits true k'
  | IUnlock :: k' => own = true /\ fits false k'
  | IDone :: k' => fits own k'
  | _ :: k' => own = true /\ fits own k'
  end.
Lemma fits_code p k : fits false k -> fits false (code p ++ k).
Proof.
  intros H. induction p as [|c p IH]; auto. unfold Thr_Model.code in *. simpl. rewrite <- app_assoc.
  unfold steps. destruct (takes_lock detail c); auto. destruct c; simpl; tauto.
Qed.
Lemma code_true p : code p = [] \/ exists k, code p = ILock :: k.
Proof.
  induction p as [|c p IH]; auto. unfold Thr_Model.code in *. simpl. unfold steps at 1 3.
  destruct (takes_lock detail c); auto. right. simpl. eauto.
Qed.
Definition sane (y : sys D B) : Prop := forall i t, nth_error (y_th y) i = Some t -> fits (owns y i) (t_code t).
Lemma sane_start g ps : sane (start g ps).
Proof.
  intros i t H. simpl in H. rewrite nth_error_map in H. destruct (nth_error ps i); [|discriminate]. simpl in H. injection H as <-.
  simpl. rewrite <- (app_nil_r (code l)). apply fits_code. reflexivity.
Qed.
Lemma owns_eq (y : sys D B) i : owns y i = true -> y_lock y = Some i.
Proof. unfold owns. destruct (y_lock y) as [o|]; [|discriminate]. intros H. apply Nat.eqb_eq in H. congruence. Qed.
Lemma sane_step y i y' : sane y -> tstep y i = Some y' -> sane y'.
Proof.
  intros S. unfold Thr_Model.tstep. destruct (nth_error (y_th y) i) as [u|] eqn:Eu; [|discriminate].
  pose proof (S i u Eu) as Hu.
  assert (G : forall g lk t' o,
    (lk = y_lock y \/ (y_lock y = None /\ lk = Some i) \/ (lk = None /\ owns y i = true)) ->
    fits (match lk with Some j => Nat.eqb j i | None => false end) (t_code t') -> sane (mkY g lk (put y i t') o)).
  { intros g lk t' o Hl Hf j t Ht. unfold put in Ht. simpl in Ht. destruct (Nat.eq_dec i j) as [<-|N].
    - erewrite nth_update_eq in Ht by eauto. injection Ht as <-. exact Hf.
    - rewrite nth_update_neq in Ht by auto. specialize (S j t Ht). unfold owns in *. simpl.
      destruct Hl as [->|[[E ->]|[-> Ho]]]; auto.
      + rewrite E in S. apply Nat.eqb_neq in N. rewrite N. exact S.
      + destruct (y_lock y) as [q|]; [|discriminate]. apply Nat.eqb_eq in Ho. subst q.
        apply Nat.eqb_neq in N. rewrite N in S. exact S. }
  destruct (t_code u) as [|[| |c|c| |] r] eqn:Er; try discriminate; simpl in Hu.
  - destruct (y_lock y) eqn:El; [discriminate|]. intros H; injection H as <-. apply G; auto.
    rewrite Nat.eqb_refl. simpl. unfold owns in Hu. rewrite El in Hu. exact Hu.
  - intros H; injection H as <-. apply G; auto. apply Hu.
  - intros H; injection H as <-. apply G; auto. destruct Hu as [Ho Hu].
    change (fits (owns y i) (code (inner (t_seen u) c) ++ r)). rewrite Ho in *.
    destruct (code_true (inner (t_seen u) c)) as [->|[k ->]]; simpl; auto.
  - destruct (perform (t_seen u) c). intros H; injection H as <-. apply G; auto. apply Hu.
  - intros H; injection H as <-. apply G; [tauto|]. apply Hu.
  - intros H; injection H as <-. apply G; auto.
Qed.
Lemma sane_turns y s : sane y -> sane (turns y s).
Proof.
  revert y; induction s as [|i s IH]; intros y H; auto.
  change (turns y (i :: s)) with (turns (turn y i) s). apply IH. unfold Thr_Model.turn.
  destruct (tstep y i) eqn:E; auto. eapply sane_step; eauto.
Qed.

(** The owner of the mutex waits for it. *)
Definition dead (y : sys D B) (i : nat) : Prop := sane y /\ waits y i /\ y_lock y = Some i.
Lemma dead_step y i j y' : dead y i -> tstep y j = Some y' -> dead y' i /\ y_sh y' = y_sh y /\ (forall m, waits y m -> waits y' m).
Proof.
  intros (S & (t & k & Et & Ec & Hn) & Hl) Hs. pose proof (sane_step _ _ _ S Hs) as S'.
  unfold Thr_Model.tstep in Hs. destruct (nth_error (y_th y) j) as [u|] eqn:Eu; [|discriminate].
  pose proof (S j u Eu) as Hu.
  assert (Hij : forall r, t_code u = r -> r <> ILock :: k -> owns y j = true -> False).
  { intros r E1 E2 Ho. apply owns_eq in Ho. assert (i = j) by congruence. subst j. congruence. }
  destruct (t_code u) as [|[| |c|c| |] r] eqn:Er; try discriminate; simpl in Hu;
    try (exfalso; eapply Hij; [reflexivity|discriminate|tauto]).
  - rewrite Hl in Hs. discriminate.
  - injection Hs as <-. 
    assert (W : forall m, waits y m -> waits (mkY (y_sh y) (y_lock y) (put y j (mkT r (t_seen u) None)) (y_out y ++ match t_pend u with Some a => [(j, a)] | None => [] end)) m).
    { intros m (tm & km & E1 & E2 & E3). exists tm, km. unfold put. simpl. rewrite nth_update_neq; auto. intros <-. congruence. }
    split; [|split; auto]. split; [exact S'|]. split; auto. apply W. exists t, k. auto.
Qed.
Lemma dead_turns y i s : dead y i -> dead (turns y s) i /\ y_sh (turns y s) = y_sh y /\ (forall m, waits y m -> waits (turns y s) m).
Proof.
  revert y; induction s as [|j s IH]; intros y H; [auto|].
  change (turns y (j :: s)) with (turns (turn y j) s). unfold Thr_Model.turn.
  destruct (tstep y j) as [y'|] eqn:E; [|auto].
  destruct (dead_step _ _ _ _ H E) as (H1 & H2 & H3). destruct (IH _ H1) as (G1 & G2 & G3).
  split; [auto|]. split; [congruence|auto].
Qed.
Lemma code_real p : Exists (real_call detail) p -> exists k, code p = ILock :: k.
Proof.
  induction 1 as [c p H|c p H IH]; unfold Thr_Model.code in *; simpl; unfold steps at 1.
  - apply takes_real in H. rewrite H. simpl. eauto.
  - destruct (takes_lock detail c); simpl; eauto.
Qed.
Lemma deadlock g ps sched i t c k more :
  nth_error (y_th (turns (start g ps) sched)) i = Some t -> t_code t = IBuild c :: k ->
  Exists (real_call detail) (inner (t_seen t) c) ->
  let y := turns (start g ps) (sched ++ i :: more) in
  ~ finished y /\ waits y i /\ y_lock y = Some i /\ y_sh y = y_sh (turns (start g ps) sched) /\
  forall j, waits (turns (start g ps) sched) j -> waits y j.
Proof.
  intros Et Ec Hr y. subst y. rewrite turns_app. set (y := turns (start g ps) sched) in *.
  assert (S : sane y) by apply sane_turns, sane_start.
  pose proof (S i t Et) as Hf. rewrite Ec in Hf. destruct Hf as [Ho _]. apply owns_eq in Ho.
  destruct (code_real _ Hr) as (k' & Hk).
  assert (E : tstep y i = Some (mkY (y_sh y) (y_lock y) (put y i (mkT (ILock :: k' ++ k) (t_seen t) (t_pend t))) (y_out y))).
  { unfold Thr_Model.tstep. rewrite Et, Ec, Hk. reflexivity. }
  change (turns y (i :: more)) with (turns (turn y i) more). unfold Thr_Model.turn. rewrite E.
  set (y1 := mkY _ _ _ _) in *.
  assert (Dd : dead y1 i).
  { split; [eapply sane_step; eauto|]. split; [|exact Ho]. exists (mkT (ILock :: k' ++ k) (t_seen t) (t_pend t)), (k' ++ k).
    unfold y1, put. simpl. erewrite nth_update_eq by eauto. rewrite Ho. repeat split; auto. discriminate. }
  destruct (dead_turns y1 i more Dd) as ((_ & W & L) & Hs & Hw). split; [|repeat split; auto].
  - intros F. destruct W as (u & r & E1 & E2 & _). unfold finished in F.
    rewrite Forall_forall in F. rewrite (F u (nth_error_In _ _ E1)) in E2. discriminate.
  - intros j (tj & kj & E1 & E2 & E3). apply Hw. exists tj, kj. unfold y1, put. simpl.
    rewrite nth_update_neq; auto. intros <-. congruence.
Qed.
End Stuck.

(** Calls one after another *)
Section Alone.
Context {D B : Type}.
Lemma after_from (l : list (nat * call D B)) : forall r n ms,
  after (mkSh r n) l = mkSh (a_reg (afinal (mkAP r ms) (flat_map (fun p => as_op (snd p)) l))) (logger_after n l).
Proof.
  induction l as [|[i c] l IH]; intros r n ms; [reflexivity|].
  destruct c as [s b|s e k| |m|q|lvl msg]; simpl.
  - destruct (reg_state r s b) as [r' x]. apply IH.
  - destruct (reg_elem r s e k) as [r' x]. apply IH.
  - apply IH.
  - destruct (new_machine r m); apply IH.
  - apply IH.
  - apply IH.
Qed.
Lemma alone n (l1 l2 : list (nat * call D B)) i c :
  nth_error (gave (mkSh [] n) (l1 ++ (i, c) :: l2)) (List.length l1) = Some (i, due n l1 c).
Proof.
  rewrite gave_app. replace (List.length l1) with (List.length (gave (mkSh [] n) l1) + 0).
  2:{ rewrite Nat.add_0_r. generalize (mkSh (D:=D) (B:=B) [] n). induction l1 as [|[j d] l1 IH]; intros g; simpl; auto. }
  rewrite nth_error_app2 by lia. rewrite Nat.add_comm, Nat.add_sub. simpl.
  rewrite (after_from l1 [] n []). fold (types_after l1). do 2 f_equal.
  destruct c as [s b|s e k| |m|q|lvl msg]; simpl; auto.
  - destruct (reg_state (types_after l1) s b); reflexivity.
  - destruct (reg_elem (types_after l1) s e k); reflexivity.
Qed.
End Alone.
