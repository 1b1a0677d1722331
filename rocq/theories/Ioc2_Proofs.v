(** Invariants of the threads of a virtual accelerator. *)
From Coq Require Import List String Ascii Bool NArith ZArith Arith Lia.
From Verif Require Import SMap Dbl Lexer_Model Config_Spec Machine_Model Machine_Spec Machine_Proofs Machine2_Proofs
  Util_Model Array_Model Array_Spec Ioc_Model Ioc_Spec Ioc_Proofs.
Import ListNotations.
Open Scope string_scope.
Open Scope list_scope.

Section Threads.
Context {D B : Type}.
Variables (ab : abi) (kindof : B -> kind) (memof : B -> mem) (what : exn -> string).
Notation vsim := (vsim D B).
Notation sys := (sys D B).
Notation code := (code (D:=D) (B:=B) ab kindof memof).
Notation atomic := (atomic (D:=D) (B:=B) ab kindof memof).
Notation cstep := (cstep (D:=D) (B:=B) ab kindof memof).
Notation wstep := (wstep (D:=D) (B:=B) what).
Notation ystep := (ystep (D:=D) (B:=B) ab kindof memof what).
Notation reach := (reach (D:=D) (B:=B) ab kindof memof what).
Notation replays := (replays (D:=D) (B:=B) ab kindof memof what).
Notation run_once := (run_once (D:=D) (B:=B) what).
Notation finish := (finish (D:=D) (B:=B) what).
Implicit Types (s : vsim) (y : sys).

Definition outside (w : wpc (B:=B)) : Prop := match w with WEnter | WWait | WDone => True | _ => False end.
Definition not_in (c : cpc (D:=D) (B:=B)) : Prop := match c with CIn _ _ _ _ => False | _ => True end.
Definition held s1 y : Prop :=
  match y_lock y with
  | None => y_sim y = s1 /\ outside (y_worker y)
  | Some HW =>
      match y_worker y with
      | WTop => y_sim y = s1
      | WAlloc => v_dosim s1 = true /\ v_stop s1 = false /\ y_sim y = set_dosim s1 false
      | WProp n st => v_dosim s1 = true /\ v_stop s1 = false /\ 
          exists k, (N.of_nat k + n = 2147483647)%N /\ run_once s1 = finish k (y_sim y) st
      | WScan => v_dosim s1 = true /\ v_stop s1 = false /\ run_once s1 = Some (scan (y_sim y))
      | _ => False
      end
  | Some (HC i) =>
      outside (y_worker y) /\
      exists o rest l t, nth_error (y_clients y) i = Some (CIn o rest l t) /\ atomic o s1 = runm rest (y_sim y) l
  end.
Definition only_holder y : Prop :=
  forall j c, nth_error (y_clients y) j = Some c -> y_lock y <> Some (HC j) -> not_in c.
Definition inv s0 y : Prop := (exists s1, replays s0 (y_hist y) s1 /\ held s1 y) /\ only_holder y.

Lemma only_update y i c lk s ev w h : only_holder y ->
  (forall j, j <> i -> lk <> Some (HC j) -> y_lock y <> Some (HC j)) ->
  (lk <> Some (HC i) -> not_in c) ->
  only_holder (mkSys s lk ev w (update (y_clients y) i c) h).
Proof.
  intros H Hl Hc j c' Hj Hn. simpl in *.
  destruct (Nat.eq_dec i j) as [->|Hij].
  - destruct (nth_error (y_clients y) j) eqn:E.
    + rewrite (nth_update_eq _ _ _ _ E) in Hj. injection Hj as <-. auto.
    + rewrite update_none in Hj by auto. congruence.
  - rewrite nth_update_neq in Hj by auto. eapply H; eauto.
Qed.

Lemma only_same y lk s ev w h : only_holder y ->
  (forall j, lk <> Some (HC j) -> y_lock y <> Some (HC j)) ->
  only_holder (mkSys s lk ev w (y_clients y) h).
Proof. intros H Hl j c Hj Hn. simpl in *. eapply H; eauto. Qed.

Lemma inv_wstep s0 y y' : inv s0 y -> wstep y = Went y' -> inv s0 y'.
Proof.
  intros [(s1 & R & Hh) Ho] W. unfold wstep in W. unfold held in Hh.
  destruct (y_worker y) as [| | | |n st| |] eqn:Ew; try discriminate.
  - (* WEnter *) destruct (y_lock y) eqn:El; [discriminate|]. injection W as <-. destruct Hh as [Hs _].
    split; [|apply only_same; auto; rewrite El; congruence].
    exists s1. split; [auto|]. unfold held; simpl. auto.
  - (* WTop *) destruct (y_lock y) as [[|i]|] eqn:El; [|destruct Hh as [[] _]|destruct Hh as [_ []]].
    subst s1.
    destruct (v_stop (y_sim y)) eqn:Es; [|destruct (v_dosim (y_sim y)) eqn:Ed]; injection W as <-;
      (split; [|apply only_same; auto; rewrite El; congruence]); exists (y_sim y); (split; [assumption|]);
      unfold held; simpl; auto.
  - (* WWait *) destruct (y_event y); [|discriminate]. injection W as <-.
    split; [|apply only_same; auto]. exists s1. split; [auto|]. unfold held; simpl.
    destruct (y_lock y) as [[|i]|]; [destruct Hh| |]; auto.
  - (* WAlloc *) destruct (y_lock y) as [[|i]|] eqn:El; [|destruct Hh as [[] _]|destruct Hh as [_ []]].
    destruct Hh as (Hd & Hst & Hs).
    destruct (run_once_some what s1) as (k & Hk & F).
    assert (Em : v_machine (y_sim y) = v_machine s1) by (rewrite Hs; reflexivity). rewrite Em in W.
    destruct (alloc_state _ _) as [st|e].
    + injection W as <-. split; [|apply only_same; auto; rewrite El; congruence].
      exists s1. split; [auto|]. unfold held; simpl. rewrite Hs, F. repeat (split; [assumption|]). exists k. split; [lia|reflexivity].
    + destruct (caught e); [|discriminate]. injection W as <-.
      split; [|apply only_same; auto; rewrite El; congruence].
      exists s1. split; [auto|]. unfold held; simpl. rewrite Hs. auto.
  - (* WProp *) destruct (y_lock y) as [[|i]|] eqn:El; [|destruct Hh as [[] _]|destruct Hh as [_ []]].
    destruct Hh as (Hd & Hst & k & Hk & Hs).
    destruct (N.ltb_spec n 2147483647) as [Hn|Hn].
    + destruct k as [|k]; [lia|].
      destruct (slot _ _) as [e|] eqn:Sl.
      * destruct (cl_advance _ _ _ _) as [d [st2|x]] eqn:A.
        -- rewrite (finish_step _ _ _ _ _ _ _ Sl A) in Hs.
           destruct (el_obs e) as [o|].
           ++ destruct (viewed _ _ _) as [l|]; [|discriminate]. injection W as <-.
              split; [|apply only_same; auto; rewrite El; congruence].
              exists s1. split; [auto|]. unfold held; simpl. repeat (split; [assumption|]). exists k. split; [lia|exact Hs].
           ++ injection W as <-. split; [|apply only_same; auto; rewrite El; congruence].
              exists s1. split; [auto|]. unfold held; simpl. repeat (split; [assumption|]). exists k. split; [lia|exact Hs].
        -- rewrite (finish_throw _ _ _ _ _ _ _ Sl A) in Hs. destruct (caught x); [|discriminate].
           injection W as <-. split; [|apply only_same; auto; rewrite El; congruence].
           exists s1. split; [auto|]. unfold held; simpl. auto.
      * rewrite (finish_end _ _ _ _ Sl) in Hs. injection W as <-.
        split; [|apply only_same; auto; rewrite El; congruence].
        exists s1. split; [auto|]. unfold held; simpl. auto.
    + assert (k = 0) as -> by lia. rewrite finish_0 in Hs.
      injection W as <-. split; [|apply only_same; auto; rewrite El; congruence].
      exists s1. split; [auto|]. unfold held; simpl. auto.
  - (* WScan *) destruct (y_lock y) as [[|i]|] eqn:El; [|destruct Hh as [[] _]|destruct Hh as [_ []]].
    destruct Hh as (Hd & Hst & Hs). injection W as <-.
    split; [|apply only_same; auto; rewrite El; congruence].
    exists (scan (y_sim y)). split; [econstructor; eauto|]. unfold held; simpl. auto.
Qed.

Lemma inv_cstep s0 i y y' : inv s0 y -> cstep i y = Went y' -> inv s0 y'.
Proof.
  intros [(s1 & R & Hh) Ho] C. unfold Ioc_Model.cstep in C. unfold held in Hh.
  destruct (nth_error (y_clients y) i) as [[[|o todo]|o [|f rest] l todo|todo|todo]|] eqn:E; try discriminate.
  - (* takes the lock *) destruct (y_lock y) eqn:El; [discriminate|]. injection C as <-. destruct Hh as [Hs Hw].
    split; [|apply only_update; auto; [rewrite El; congruence|simpl; congruence]].
    exists s1. split; [auto|]. unfold held; simpl. split; auto.
    exists o, (code o), loc0, todo. split; [apply (nth_update_eq _ _ _ _ E)|]. subst s1. symmetry. apply code_atomic.
  - (* unlocks *)
    assert (Hl : y_lock y = Some (HC i)).
    { destruct (y_lock y) as [[|j]|] eqn:El; [exfalso|destruct (Nat.eq_dec i j) as [<-|Hij]; [reflexivity|exfalso]|exfalso];
        (eapply (Ho i _ E); rewrite El; congruence). }
    rewrite Hl in Hh. destruct Hh as (Hw & o' & rest & l' & t & E' & A).
    rewrite E in E'. injection E' as <- <- <- <-. simpl in A.
    injection C as <-. split.
    + exists (y_sim y). split; [econstructor; eauto|]. unfold held; simpl. auto.
    + apply only_update; auto.
      * intros j Hij _. rewrite Hl. congruence.
      * intros _. destruct (is_stop o); exact I.
  - (* a step *)
    assert (Hl : y_lock y = Some (HC i)).
    { destruct (y_lock y) as [[|j]|] eqn:El; [exfalso|destruct (Nat.eq_dec i j) as [<-|Hij]; [reflexivity|exfalso]|exfalso];
        (eapply (Ho i _ E); rewrite El; congruence). }
    rewrite Hl in Hh. destruct Hh as (Hw & o' & rest' & l' & t & E' & A).
    rewrite E in E'. injection E' as <- <- <- <-. simpl in A.
    destruct (f (y_sim y) l) as [[[s' l1] sig]|]; [|discriminate]. injection C as <-. split.
    + exists s1. split; [auto|]. unfold held; simpl. rewrite Hl. split; auto.
      exists o, rest, l1, todo. split; auto. apply (nth_update_eq _ _ _ _ E).
    + apply only_update; auto. intros Hn. congruence.
  - (* signals *) injection C as <-. split.
    + exists s1. split; [auto|]. unfold held; simpl. destruct (y_lock y) as [[|j]|] eqn:El; auto.
      destruct Hh as (Hw & o & rest & l & t & E' & A). split; auto. exists o, rest, l, t. split; auto.
      rewrite nth_update_neq; auto. congruence.
    + apply only_update; auto. intros _. exact I.
  - (* joins *) destruct (y_worker y) eqn:Ew; try discriminate. injection C as <-. split.
    + exists s1. split; [auto|]. unfold held; simpl. destruct (y_lock y) as [[|j]|] eqn:El; auto.
      destruct Hh as (Hw & o & rest & l & t & E' & A). split; auto. exists o, rest, l, t. split; auto.
      rewrite nth_update_neq; auto. congruence.
    + apply only_update; auto. intros _. exact I.
Qed.

Lemma inv_start s scripts : inv s (start s scripts).
Proof.
  split.
  - exists s. split; [constructor|]. unfold held; simpl. auto.
  - intros j c Hj _. simpl in Hj. rewrite nth_error_map in Hj.
    destruct (nth_error scripts j); [injection Hj as <-; exact I|discriminate].
Qed.
Lemma inv_reach s scripts y : reach (start s scripts) y -> inv s y.
Proof.
  induction 1 as [|y1 y2 _ IH St]; [apply inv_start|].
  destruct St as [W|i C]; [eapply inv_wstep; eauto|eapply inv_cstep; eauto].
Qed.

(** ** What holds of histories *)
Lemma atomic_flags o s s' r : atomic o s = Some (s', r) ->
  v_dosim s' = (match o with VDoSim => true | _ => v_dosim s end) /\
  v_stop s' = (match o with VStop => true | _ => v_stop s end).
Proof.
  destruct o as [|i p a x|i p a|d a|d buf|d buf|n|]; cbn [Ioc_Spec.atomic]; intros H.
  - injection H as <- <-. auto.
  - destruct (nth_error _ _); [|injection H as <- <-; auto].
    destruct (reconfigure _ _ _) as [m [u|e']]; [injection H as <- <-; auto|].
    destruct (caught e'); [injection H as <- <-; auto|discriminate].
  - injection H as <- <-. auto.
  - destruct (kept _ _ _ _ _ _ _) as [[v|]|]; [| |discriminate]; injection H as <- <-; auto.
  - destruct (collect _ _); [|discriminate]. injection H as <- <-; auto.
  - destruct (collect _ _); [|discriminate]. injection H as <- <-; auto.
  - injection H as <- <-. auto.
  - injection H as <- <-. auto.
Qed.
Lemma finish_flags k s st s' : finish k s st = Some s' -> v_dosim s' = v_dosim s /\ v_stop s' = v_stop s.
Proof.
  unfold Ioc_Proofs.finish. destruct (views _ _); [|discriminate].
  destruct (pr_end _) as [u|e]; [|destruct (caught e); [|discriminate]]; intros [= <-]; auto.
Qed.
Lemma run_flags s s' : run_once s = Some s' -> v_dosim s' = false /\ v_stop s' = v_stop s.
Proof.
  rewrite run_once_finish. destruct (alloc_state _ _) as [st|e].
  - intros H. apply finish_flags in H. exact H.
  - destruct (caught e); [|discriminate]. intros [= <-]. auto.
Qed.

Lemma count_app p h1 h2 : count p (h1 ++ h2) = count p h1 + count p h2.
Proof. unfold count. rewrite filter_app, app_length. reflexivity. Qed.

Lemma snoc_inj {A} (h1 h2 h : list A) a b : h1 ++ a :: h2 = h ++ [b] ->
  (h2 = [] /\ h1 = h /\ a = b) \/ exists h3, h2 = h3 ++ [b] /\ h = h1 ++ a :: h3.
Proof.
  intros H. destruct h2 as [|c h2] using rev_ind.
  - apply app_inj_tail in H as [-> ->]. auto.
  - right. clear IHh2. exists h2.
    change (h1 ++ a :: h2 ++ [c]) with (h1 ++ (a :: h2) ++ [c]) in H. rewrite app_assoc in H.
    apply app_inj_tail in H as [<- ->]. auto.
Qed.

Lemma unserved_snoc (h : list hop) x :
  unserved (h ++ [x]) <-> (is_request x = true \/ (unserved h /\ is_run x = false)).
Proof.
  split.
  - intros (h1 & a & h2 & E & Ha & Hc). symmetry in E. apply snoc_inj in E as [(-> & -> & ->)|(h3 & -> & ->)]; auto.
    right. rewrite count_app in Hc. split.
    + exists h1, a, h3. repeat split; auto. lia.
    + unfold count in Hc. simpl in Hc. destruct (is_run x); auto. simpl in Hc. lia.
  - intros [H|[(h1 & a & h2 & -> & Ha & Hc) H]].
    + exists h, x, []. repeat split; auto.
    + exists h1, a, (h2 ++ [x]). rewrite <- app_assoc. repeat split; auto. rewrite count_app, Hc.
      unfold count. simpl. rewrite H. reflexivity.
Qed.
Lemma unserved_nil : ~ unserved (@nil hop).
Proof. intros (h1 & a & h2 & E & _). destruct h1; discriminate. Qed.

Lemma replay_dosim s h s' : v_dosim s = false -> replays s h s' -> (v_dosim s' = true <-> unserved h).
Proof.
  intros H0. induction 1 as [|h s1 s2 R IH Hd Hst Hr|h s1 s2 i o r R IH Ha].
  - split; [congruence|]. intros U. destruct (unserved_nil U).
  - destruct (run_flags _ _ Hr) as [-> _]. rewrite unserved_snoc. simpl.
    split; [congruence|]. intros [E|[_ E]]; discriminate.
  - destruct (atomic_flags _ _ _ _ Ha) as [-> _]. rewrite unserved_snoc, <- IH. simpl.
    destruct o; simpl; intuition congruence.
Qed.
Lemma replay_stop s h s' : replays s h s' -> v_stop s' = (v_stop s || existsb is_end h)%bool.
Proof.
  induction 1 as [|h s1 s2 R IH Hd Hst Hr|h s1 s2 i o r R IH Ha].
  - simpl. rewrite orb_false_r. reflexivity.
  - destruct (run_flags _ _ Hr) as [_ ->]. rewrite existsb_app. simpl. rewrite orb_false_r. auto.
  - destruct (atomic_flags _ _ _ _ Ha) as [_ ->]. rewrite existsb_app. simpl. rewrite orb_false_r, orb_assoc, <- IH.
    destruct o; simpl; rewrite ?orb_false_r, ?orb_true_r; reflexivity.
Qed.
Lemma replay_runs s h s' : v_dosim s = false -> replays s h s' ->
  count is_run h + (if v_dosim s' then 1 else 0) <= count is_request h.
Proof.
  intros H0. induction 1 as [|h s1 s2 R IH Hd Hst Hr|h s1 s2 i o r R IH Ha].
  - rewrite H0. simpl. lia.
  - destruct (run_flags _ _ Hr) as [-> _]. rewrite Hd in IH. rewrite !count_app.
    unfold count at 2 4. simpl. lia.
  - destruct (atomic_flags _ _ _ _ Ha) as [-> _]. rewrite !count_app. unfold count at 2 4.
    destruct o; simpl; destruct (v_dosim s1); lia.
Qed.
Lemma replay_no_run_after_stop s h s' : replays s h s' -> forall h1 x h2, h = h1 ++ x :: h2 ->
  is_end x = true -> count is_run h2 = 0.
Proof.
  induction 1 as [|h s1 s2 R IH Hd Hst Hr|h s1 s2 i o r R IH Ha]; intros h1 x h2 E Hx.
  - destruct h1; discriminate.
  - symmetry in E. apply snoc_inj in E as [(-> & -> & ->)|(h3 & -> & ->)]; [discriminate|].
    rewrite (replay_stop _ _ _ R) in Hst. rewrite existsb_app in Hst. simpl in Hst. rewrite Hx in Hst.
    rewrite !orb_true_r in Hst. discriminate.
  - symmetry in E. apply snoc_inj in E as [(-> & -> & ->)|(h3 & -> & ->)]; [reflexivity|].
    rewrite count_app, (IH _ _ _ eq_refl Hx). reflexivity.
Qed.

(** ** Nobody waits for a signal that does not come *)
Definition sig_step : micro (D:=D) (B:=B) := fun s l => Some (s, leave l ODone, negb (l_flag l)).
Definition set_step : micro (D:=D) (B:=B) := fun s l => Some (if l_flag l then s else set_dosim s true, l, false).
Definition test_step : micro (D:=D) (B:=B) := fun s l => Some (s, with_flag l (v_dosim s), false).
(** The codes that change the flags. *)
Definition calm (o : vop) : Prop := match o with VDoSim | VStop => False | _ => True end.
Definition quiet (f : micro (D:=D) (B:=B)) : Prop :=
  forall s l s' l' sig, f s l = Some (s', l', sig) -> v_dosim s' = v_dosim s /\ v_stop s' = v_stop s /\ sig = false.
Lemma quiet_code o : calm o -> Forall quiet (code o).
Proof.
  assert (Q1 : forall f : vsim -> loc -> loc, quiet (fun s l => Some (s, f s l, false))).
  { intros f s l s' l' sig [= <- <- <-]. auto. }
  destruct o as [|i p a x|i p a|d a|d buf|d buf|n|]; simpl; try contradiction; intros _.
  - constructor; [|constructor; [|constructor]]; intros s l s' l' sig H.
    + destruct (slot _ _); injection H as <- <- <-; auto.
    + destruct (l_out l); [injection H as <- <- <-; auto|].
      destruct (reconfigure _ _ _) as [m [u|e']]; [injection H as <- <- <-; auto|].
      destruct (caught e'); [injection H as <- <- <-; auto|discriminate].
  - constructor; [|constructor]. intros s l s' l' sig H.
    destruct (slot _ _); [|injection H as <- <- <-; auto].
    destruct (get_num _ _); injection H as <- <- <-; auto.
  - constructor; [|constructor; [|constructor]]; [apply Q1|]. intros s l s' l' sig H.
    destruct (nth_error _ _); [|discriminate].
    destruct (fetch _ _ _ _ _ _) as [[v|]|]; [| |discriminate]; injection H as <- <- <-; auto.
  - unfold orbit_code. constructor; [apply (Q1 (fun s l => with_buf (with_flag l (v_valid s)) buf 0))|].
    apply Forall_app. split; [|constructor; [apply (Q1 (fun s l => leave l _))|constructor]].
    apply Forall_forall. intros f Hf. apply in_map_iff in Hf as (j & <- & _). intros s l s' l' sig H.
    destruct (l_out l); [injection H as <- <- <-; auto|].
    destruct (Nat.eqb _ _); [injection H as <- <- <-; auto|].
    destruct (nth_error _ _); [|discriminate]. destruct (mfind _ _); [|discriminate].
    destruct (nth_error _ _); [|discriminate].
    destruct (fetch _ _ _ _ _ _) as [[v|]|]; [| |discriminate]; injection H as <- <- <-; auto.
  - unfold index_code. constructor; [apply (Q1 (fun s l => with_buf (with_flag l true) buf 0))|].
    apply Forall_app. split; [|constructor; [apply (Q1 (fun s l => leave l _))|constructor]].
    apply Forall_forall. intros f Hf. apply in_map_iff in Hf as (j & <- & _). intros s l s' l' sig H.
    destruct (l_out l); [injection H as <- <- <-; auto|].
    destruct (Nat.eqb _ _); [injection H as <- <- <-; auto|].
    destruct (nth_error _ _); [|discriminate]. injection H as <- <- <-; auto.
  - constructor; [|constructor]. apply (Q1 (fun s l => leave l _)).
Qed.

(** The state of each thread between its steps. *)
Definition phase s (c : cpc (D:=D) (B:=B)) : Prop :=
  match c with
  | CReady _ => True
  | CIn VDoSim rest l _ =>
      rest = [test_step; set_step; sig_step] \/
      (rest = [set_step; sig_step] /\ l_flag l = v_dosim s) \/
      (rest = [sig_step] /\ v_dosim s = true) \/
      (rest = [] /\ v_dosim s = true)
  | CIn VStop rest _ _ => rest = stop_code \/ (rest = [] /\ v_stop s = true)
  | CIn o rest _ _ => Forall quiet rest
  | CSig _ | CJoin _ => v_stop s = true
  end.
Definition owes_do (c : cpc (D:=D) (B:=B)) : Prop :=
  match c with CIn VDoSim rest l _ => rest = [sig_step] /\ l_flag l = false | _ => False end.
Definition owes_stop (c : cpc (D:=D) (B:=B)) : Prop :=
  match c with CIn VStop rest _ _ => rest = [] | CSig _ => True | _ => False end.
Definition awake y : Prop :=
  (forall j c, nth_error (y_clients y) j = Some c -> phase (y_sim y) c) /\
  (v_dosim (y_sim y) = true -> y_worker y = WWait -> y_event y = false ->
     exists j c, nth_error (y_clients y) j = Some c /\ owes_do c) /\
  (v_stop (y_sim y) = true -> y_worker y = WWait -> y_event y = false ->
     exists j c, nth_error (y_clients y) j = Some c /\ owes_stop c) /\
  (y_worker y = WDone -> v_stop (y_sim y) = true).

(** Threads that are not inside see flags only grow; phases survive. *)
Lemma phase_out s s' c : not_in c -> phase s c -> (v_stop s = true -> v_stop s' = true) -> phase s' c.
Proof. destruct c; simpl; auto. contradiction. Qed.

Lemma awake_wstep s0 y y' : inv s0 y -> awake y -> wstep y = Went y' -> awake y'.
Proof.
  intros [(s1 & R & Hh) Ho] (P & Wd & Ws & Wf) W. unfold Ioc_Model.wstep in W. unfold held in Hh.
  assert (G : forall s' lk ev w h, (y_lock y = None \/ y_lock y = Some HW \/ s' = y_sim y) ->
     (v_stop s' = v_stop (y_sim y)) ->
     (w = WWait -> v_dosim s' = false /\ v_stop s' = false) ->
     (w = WDone -> v_stop s' = true) ->
     awake (mkSys s' lk ev w (y_clients y) h)).
  { intros s' lk ev w h Hl Est Hw Hf. split; [|split; [|split]]; simpl.
    - intros j c Hj. destruct Hl as [Hl|[Hl| ->]]; [| |eauto].
      + apply (phase_out (y_sim y)); [apply (Ho _ _ Hj); rewrite Hl; congruence|eauto|rewrite Est; auto].
      + apply (phase_out (y_sim y)); [apply (Ho _ _ Hj); rewrite Hl; congruence|eauto|rewrite Est; auto].
    - intros Hd Hww _. destruct (Hw Hww). congruence.
    - intros Hd Hww _. destruct (Hw Hww). congruence.
    - auto. }
  destruct (y_worker y) as [| | | |n st| |] eqn:Ew; try discriminate.
  - destruct (y_lock y) eqn:El; [discriminate|]. injection W as <-. apply G; auto; discriminate.
  - destruct (y_lock y) as [[|i]|] eqn:El; [|destruct Hh as [[] _]|destruct Hh as [_ []]].
    destruct (v_stop (y_sim y)) eqn:Es; [|destruct (v_dosim (y_sim y)) eqn:Ed]; injection W as <-; apply G; auto; try discriminate.
  - destruct (y_event y); [|discriminate]. injection W as <-. apply G; auto; discriminate.
  - destruct (y_lock y) as [[|i]|] eqn:El; [|destruct Hh as [[] _]|destruct Hh as [_ []]].
    destruct (alloc_state _ _) as [st|e]; [|destruct (caught e); [|discriminate]]; injection W as <-; apply G; auto; discriminate.
  - destruct (y_lock y) as [[|i]|] eqn:El; [|destruct Hh as [[] _]|destruct Hh as [_ []]].
    destruct (N.ltb n 2147483647); [|injection W as <-; apply G; auto; discriminate].
    destruct (slot _ _) as [e|]; [|injection W as <-; apply G; auto; discriminate].
    destruct (cl_advance _ _ _ _) as [d [st2|x]].
    + destruct (el_obs e) as [o|]; [destruct (viewed _ _ _); [|discriminate]|]; injection W as <-; apply G; auto; discriminate.
    + destruct (caught x); [|discriminate]. injection W as <-; apply G; auto; discriminate.
  - destruct (y_lock y) as [[|i]|] eqn:El; [|destruct Hh as [[] _]|destruct Hh as [_ []]].
    injection W as <-; apply G; auto; discriminate.
Qed.

Lemma holder_only y j c : only_holder y -> nth_error (y_clients y) j = Some c -> ~ not_in c -> y_lock y = Some (HC j).
Proof.
  intros Ho Hj Hc. destruct (y_lock y) as [[|i]|] eqn:El.
  - destruct Hc. apply (Ho _ _ Hj). rewrite El. congruence.
  - destruct (Nat.eq_dec i j) as [->|Hij]; auto. destruct Hc. apply (Ho _ _ Hj). rewrite El. congruence.
  - destruct Hc. apply (Ho _ _ Hj). rewrite El. congruence.
Qed.
Lemma owes_do_in c : owes_do c -> ~ not_in c.
Proof. destruct c as [t|[]|t|t]; simpl; tauto. Qed.

Lemma nth_update_cases {A} (l : list A) i a j c : nth_error (update l i a) j = Some c ->
  (i = j /\ c = a) \/ (i <> j /\ nth_error l j = Some c).
Proof.
  intros H. destruct (Nat.eq_dec i j) as [->|Hij].
  - destruct (nth_error l j) eqn:E.
    + rewrite (nth_update_eq _ _ _ _ E) in H. injection H as <-. auto.
    + rewrite update_none in H by auto. congruence.
  - rewrite nth_update_neq in H by auto. auto.
Qed.

Lemma awake_cstep s0 i y y' : inv s0 y -> awake y -> cstep i y = Went y' -> awake y'.
Proof.
  intros [(s1 & R & Hh) Ho] (P & Wd & Ws & Wf) C. clear s1 R Hh. unfold Ioc_Model.cstep in C.
  destruct (nth_error (y_clients y) i) as [[[|o todo]|o [|f rest] l todo|todo|todo]|] eqn:E; try discriminate.
  - (* takes the lock *)
    destruct (y_lock y) eqn:El; [discriminate|]. injection C as <-. split; [|split; [|split]]; simpl; auto.
    + intros j c Hj. apply nth_update_cases in Hj as [[<- ->]|[_ Hj]]; [|eauto].
      destruct o as [|i' p a x|i' p a|d a|d buf|d buf|n|]; simpl; auto.
      all: match goal with |- Forall quiet ?c => first
        [ exact (quiet_code (VSet _ _ _ _) I) | exact (quiet_code (VGet _ _ _) I) | exact (quiet_code (VMeas _ _) I)
        | exact (quiet_code (VOrbit _ _) I) | exact (quiet_code (VIndex _ _) I) | exact (quiet_code (VMsg _) I)] end.
    + intros Hd Hw He. destruct (Wd Hd Hw He) as (j & c & Hj & Hc).
      pose proof (holder_only _ _ _ Ho Hj (owes_do_in _ Hc)). congruence.
    + intros Hd Hw He. destruct (Ws Hd Hw He) as (j & c & Hj & Hc). exists j, c. split; auto.
      rewrite nth_update_neq; auto. intros <-. rewrite E in Hj. injection Hj as <-. destruct Hc.
  - (* unlocks *)
    pose proof (holder_only _ _ _ Ho E (fun x => x)) as El. injection C as <-.
    pose proof (P _ _ E) as Pi. split; [|split; [|split]]; simpl; auto.
    + intros j c Hj. apply nth_update_cases in Hj as [[<- ->]|[_ Hj]]; [|eauto].
      destruct o; simpl; auto. destruct Pi as [Pi|[_ Pi]]; [discriminate|auto].
    + intros Hd Hw He. destruct (Wd Hd Hw He) as (j & c & Hj & Hc). exists j, c. split; auto.
      rewrite nth_update_neq; auto. intros <-. rewrite E in Hj. injection Hj as <-.
      destruct o; try destruct Hc as [Hc _]; try discriminate; destruct Hc.
    + intros Hd Hw He. destruct (Ws Hd Hw He) as (j & c & Hj & Hc).
      destruct (Nat.eq_dec i j) as [<-|Hij].
      * rewrite E in Hj. injection Hj as <-. destruct o; try destruct Hc.
        exists i, (CSig todo). split; [apply (nth_update_eq _ _ _ _ E)|exact I].
      * exists j, c. split; auto. rewrite nth_update_neq; auto.
  - (* a step *)
    pose proof (holder_only _ _ _ Ho E (fun x => x)) as El.
    destruct (f (y_sim y) l) as [[[s' l1] sig]|] eqn:F; [|discriminate]. injection C as <-.
    pose proof (P _ _ E) as Pi.
    assert (Oth : (v_stop (y_sim y) = true -> v_stop s' = true) -> phase s' (CIn o rest l1 todo) ->
      forall j c, nth_error (update (y_clients y) i (CIn o rest l1 todo)) j = Some c -> phase s' c).
    { intros Hm Hp j c Hj. apply nth_update_cases in Hj as [[<- ->]|[Hij Hj]]; [auto|].
      apply (phase_out (y_sim y)); [apply (Ho _ _ Hj); rewrite El; congruence|eauto|auto]. }
    assert (NoDo : (forall c', nth_error (y_clients y) i = Some c' -> ~ owes_do c') -> v_dosim s' = v_dosim (y_sim y) ->
      v_dosim s' = true -> y_worker y = WWait -> y_event y = false -> False).
    { intros Hn Ed Hd Hw He. rewrite Ed in Hd. destruct (Wd Hd Hw He) as (j & c & Hj & Hc).
      pose proof (holder_only _ _ _ Ho Hj (owes_do_in _ Hc)) as El'. rewrite El in El'. injection El' as <-.
      apply (Hn _ Hj Hc). }
    assert (St : (forall c', nth_error (y_clients y) i = Some c' -> ~ owes_stop c') -> v_stop s' = v_stop (y_sim y) ->
      v_stop s' = true -> y_worker y = WWait -> y_event y = false ->
      exists j c, nth_error (update (y_clients y) i (CIn o rest l1 todo)) j = Some c /\ owes_stop c).
    { intros Hn Es Hs Hw He. rewrite Es in Hs. destruct (Ws Hs Hw He) as (j & c & Hj & Hc). exists j, c. split; auto.
      rewrite nth_update_neq; auto. intros <-. apply (Hn _ Hj Hc). }
    assert (Ed0 : forall b b', (b || b')%bool = false -> b = false) by (intros [] []; auto).
    destruct o as [|i' p a x|i' p a|d a|d buf|d buf|n|].
    + (* VDoSim *)
      assert (NS : forall c', nth_error (y_clients y) i = Some c' -> ~ owes_stop c').
      { intros c' Hc'. rewrite E in Hc'. injection Hc' as <-. simpl. auto. }
      destruct Pi as [Pi|[[Pi Pf]|[[Pi Pf]|[Pi _]]]]; [| | |discriminate]; injection Pi as -> ->.
      * injection F as <- <- <-. split; [|split; [|split]]; simpl; auto.
        -- apply Oth; auto. simpl. auto.
        -- rewrite orb_false_r. intros Hd Hw He. exfalso. apply NoDo; auto.
           intros c' Hc'. rewrite E in Hc'. injection Hc' as <-. simpl. intros [? _]. discriminate.
        -- rewrite orb_false_r. auto.
      * injection F as <- <- <-. split; [|split; [|split]]; simpl.
        -- apply Oth; [destruct (l_flag l); auto|]. simpl. right. right. left. split; auto.
           destruct (l_flag l) eqn:Ef; auto.
        -- rewrite orb_false_r. intros Hd Hw He. destruct (l_flag l) eqn:Ef.
           ++ exfalso. apply NoDo; auto.
              intros c' Hc'. rewrite E in Hc'. injection Hc' as <-. simpl. intros [? _]. discriminate.
           ++ exists i, (CIn VDoSim [sig_step] l todo). split; [apply (nth_update_eq _ _ _ _ E)|]. simpl. auto.
        -- rewrite orb_false_r. apply St; auto. destruct (l_flag l); auto.
        -- intros Hw. destruct (l_flag l); simpl; auto.
      * injection F as <- <- <-. split; [|split; [|split]]; simpl; auto.
        -- apply Oth; auto. simpl. auto.
        -- intros Hd Hw He. exfalso. destruct (l_flag l) eqn:Ef; [|simpl in He; rewrite orb_true_r in He; discriminate].
           apply NoDo; auto; [|apply (Ed0 _ _ He)].
           intros c' Hc'. rewrite E in Hc'. injection Hc' as <-. simpl. intros [_ ?]. congruence.
        -- intros Hs Hw He. apply St; auto. apply (Ed0 _ _ He).
    + apply Forall_cons_iff in Pi as [Pq Pr]. destruct (Pq _ _ _ _ _ F) as (Q1 & Q2 & ->).
      split; [|split; [|split]]; simpl; rewrite ?orb_false_r.
      * apply Oth; [rewrite Q2; auto|auto].
      * intros Hd Hw He. exfalso. apply NoDo; auto. intros c' Hc'. rewrite E in Hc'. injection Hc' as <-. simpl. auto.
      * apply St; auto. intros c' Hc'. rewrite E in Hc'. injection Hc' as <-. simpl. auto.
      * rewrite Q2. auto.
    + apply Forall_cons_iff in Pi as [Pq Pr]. destruct (Pq _ _ _ _ _ F) as (Q1 & Q2 & ->).
      split; [|split; [|split]]; simpl; rewrite ?orb_false_r.
      * apply Oth; [rewrite Q2; auto|auto].
      * intros Hd Hw He. exfalso. apply NoDo; auto. intros c' Hc'. rewrite E in Hc'. injection Hc' as <-. simpl. auto.
      * apply St; auto. intros c' Hc'. rewrite E in Hc'. injection Hc' as <-. simpl. auto.
      * rewrite Q2. auto.
    + apply Forall_cons_iff in Pi as [Pq Pr]. destruct (Pq _ _ _ _ _ F) as (Q1 & Q2 & ->).
      split; [|split; [|split]]; simpl; rewrite ?orb_false_r.
      * apply Oth; [rewrite Q2; auto|auto].
      * intros Hd Hw He. exfalso. apply NoDo; auto. intros c' Hc'. rewrite E in Hc'. injection Hc' as <-. simpl. auto.
      * apply St; auto. intros c' Hc'. rewrite E in Hc'. injection Hc' as <-. simpl. auto.
      * rewrite Q2. auto.
    + apply Forall_cons_iff in Pi as [Pq Pr]. destruct (Pq _ _ _ _ _ F) as (Q1 & Q2 & ->).
      split; [|split; [|split]]; simpl; rewrite ?orb_false_r.
      * apply Oth; [rewrite Q2; auto|auto].
      * intros Hd Hw He. exfalso. apply NoDo; auto. intros c' Hc'. rewrite E in Hc'. injection Hc' as <-. simpl. auto.
      * apply St; auto. intros c' Hc'. rewrite E in Hc'. injection Hc' as <-. simpl. auto.
      * rewrite Q2. auto.
    + apply Forall_cons_iff in Pi as [Pq Pr]. destruct (Pq _ _ _ _ _ F) as (Q1 & Q2 & ->).
      split; [|split; [|split]]; simpl; rewrite ?orb_false_r.
      * apply Oth; [rewrite Q2; auto|auto].
      * intros Hd Hw He. exfalso. apply NoDo; auto. intros c' Hc'. rewrite E in Hc'. injection Hc' as <-. simpl. auto.
      * apply St; auto. intros c' Hc'. rewrite E in Hc'. injection Hc' as <-. simpl. auto.
      * rewrite Q2. auto.
    + apply Forall_cons_iff in Pi as [Pq Pr]. destruct (Pq _ _ _ _ _ F) as (Q1 & Q2 & ->).
      split; [|split; [|split]]; simpl; rewrite ?orb_false_r.
      * apply Oth; [rewrite Q2; auto|auto].
      * intros Hd Hw He. exfalso. apply NoDo; auto. intros c' Hc'. rewrite E in Hc'. injection Hc' as <-. simpl. auto.
      * apply St; auto. intros c' Hc'. rewrite E in Hc'. injection Hc' as <-. simpl. auto.
      * rewrite Q2. auto.
    + (* VStop *)
      destruct Pi as [Pi|[Pi _]]; [|discriminate]. unfold stop_code in Pi. injection Pi as -> ->. injection F as <- <- <-.
      split; [|split; [|split]]; simpl; auto.
      * apply Oth; auto. simpl. auto.
      * rewrite orb_false_r. intros Hd Hw He. exfalso. apply NoDo; auto.
        intros c' Hc'. rewrite E in Hc'. injection Hc' as <-. simpl. auto.
      * intros _ _ _. eexists i, _. split; [apply (nth_update_eq _ _ _ _ E)|]. simpl. auto.
  - (* signals *)
    injection C as <-. pose proof (P _ _ E) as Pi. split; [|split; [|split]]; simpl; auto; try discriminate.
    intros j c Hj. apply nth_update_cases in Hj as [[<- ->]|[_ Hj]]; eauto.
  - (* joins *)
    destruct (y_worker y) eqn:Ew; try discriminate. injection C as <-.
    split; [|split; [|split]]; simpl; auto; try discriminate.
    intros j c Hj. apply nth_update_cases in Hj as [[<- ->]|[_ Hj]]; [exact I|eauto].
Qed.

Lemma awake_reach s scripts y : v_dosim s = false -> v_stop s = false -> reach (start s scripts) y -> awake y.
Proof.
  intros Hd Hs. induction 1 as [|y1 y2 Hr IH St].
  - split; [|split; [|split]]; simpl; try discriminate.
    intros j c Hj. rewrite nth_error_map in Hj. destruct (nth_error scripts j); [injection Hj as <-; exact I|discriminate].
  - pose proof (inv_reach _ _ _ Hr) as I1.
    destruct St as [W|i C]; [eapply awake_wstep; eauto|eapply awake_cstep; eauto].
Qed.

(** ** When nothing can be done any more *)
Notation stuck := (stuck (D:=D) (B:=B) ab kindof memof what).
Lemma stuck_idle s scripts y : v_dosim s = false -> v_stop s = false -> reach (start s scripts) y -> stuck y ->
  y_lock y = None /\
  (forall j c, nth_error (y_clients y) j = Some c -> c = CReady []) /\
  ((y_worker y = WWait /\ v_dosim (y_sim y) = false /\ v_stop (y_sim y) = false) \/
   (y_worker y = WDone /\ v_stop (y_sim y) = true)).
Proof.
  intros Hd Hs Hr [Bw Bc]. pose proof (inv_reach _ _ _ Hr) as [(s1 & R & Hh) Ho].
  pose proof (awake_reach _ _ _ Hd Hs Hr) as (P & Wd & Ws & Wf). unfold held in Hh.
  assert (El : y_lock y = None).
  { destruct (y_lock y) as [[|i]|] eqn:El; auto; exfalso.
    - unfold Ioc_Model.wstep in Bw. destruct (y_worker y) as [| | | |n st| |]; try contradiction.
      all: repeat match type of Bw with
        | context [match ?x with _ => _ end] => destruct x
        | Went _ = Blocked => discriminate Bw
        | Gone = Blocked => discriminate Bw
        end.
    - destruct Hh as (_ & o & rest & l & t & E & _). specialize (Bc i). unfold Ioc_Model.cstep in Bc. rewrite E in Bc.
      destruct rest as [|f rest]; [discriminate|]. destruct (f _ _) as [[[? ?] ?]|]; discriminate. }
  rewrite El in Hh. destruct Hh as [Hsim Hout].
  assert (Cl : forall j c, nth_error (y_clients y) j = Some c -> c = CReady [] \/ exists t, c = CJoin t).
  { intros j c Hj. pose proof (Ho _ _ Hj) as Hn. rewrite El in Hn. specialize (Hn ltac:(congruence)).
    specialize (Bc j). unfold Ioc_Model.cstep in Bc. rewrite Hj, El in Bc.
    destruct c as [[|o t]|o r l t|t|t]; try discriminate; [auto|destruct Hn|eauto]. }
  assert (Nd : ~ exists j c, nth_error (y_clients y) j = Some c /\ owes_do c).
  { intros (j & c & Hj & Hc). destruct (Cl _ _ Hj) as [->|[t ->]]; destruct Hc. }
  assert (Ns : ~ exists j c, nth_error (y_clients y) j = Some c /\ owes_stop c).
  { intros (j & c & Hj & Hc). destruct (Cl _ _ Hj) as [->|[t ->]]; destruct Hc. }
  unfold Ioc_Model.wstep in Bw.
  assert (W : (y_worker y = WWait /\ y_event y = false) \/ y_worker y = WDone).
  { destruct (y_worker y) eqn:Ew; try destruct Hout; [rewrite El in Bw; discriminate| |auto].
    destruct (y_event y); [discriminate|auto]. }
  assert (W2 : (y_worker y = WWait /\ v_dosim (y_sim y) = false /\ v_stop (y_sim y) = false) \/
               (y_worker y = WDone /\ v_stop (y_sim y) = true)).
  { destruct W as [[Hw He]|Hw]; [left|right; auto]. split; auto. split.
    - destruct (v_dosim (y_sim y)); auto. destruct Nd; auto.
    - destruct (v_stop (y_sim y)); auto. destruct Ns; auto. }
  split; auto. split; auto. intros j c Hj. destruct (Cl _ _ Hj) as [->|[t ->]]; auto. exfalso.
  pose proof (P _ _ Hj) as Pj. simpl in Pj. destruct W2 as [(_ & _ & X)|[Hw _]]; [congruence|].
  specialize (Bc j). unfold Ioc_Model.cstep in Bc. rewrite Hj, Hw in Bc. discriminate.
Qed.

(** ** Each thread's records, in its order *)
Lemma in_order s scripts y : reach (start s scripts) y ->
  List.length (y_clients y) = List.length scripts /\
  forall i script c, nth_error scripts i = Some script -> nth_error (y_clients y) i = Some c ->
    script = made_by i (y_hist y) ++ left c.
Proof.
  induction 1 as [|y1 y2 Hr [IHl IH] St].
  - simpl. split; [apply map_length|]. intros i sc c Hs Hc. rewrite nth_error_map, Hs in Hc. injection Hc as <-. reflexivity.
  - destruct St as [W|k C].
    + assert (E : y_clients y2 = y_clients y1 /\ (y_hist y2 = y_hist y1 \/ y_hist y2 = y_hist y1 ++ [HRun])).
      { unfold Ioc_Model.wstep in W.
        repeat match type of W with
        | context [match ?x with _ => _ end] => destruct x
        | Went _ = Went _ => injection W as <-
        end; try discriminate; simpl; auto. }
      destruct E as [-> Eh]. split; auto. intros i sc c Hs Hc.
      replace (made_by i (y_hist y2)) with (made_by i (y_hist y1)); [eauto|].
      destruct Eh as [->| ->]; auto. unfold made_by. rewrite flat_map_app. simpl. rewrite app_nil_r. reflexivity.
    + assert (E : exists c1 c2, nth_error (y_clients y1) k = Some c1 /\ y_clients y2 = update (y_clients y1) k c2 /\
        ((left c1 = left c2 /\ y_hist y2 = y_hist y1) \/
         exists o r, left c1 = o :: left c2 /\ y_hist y2 = y_hist y1 ++ [HDo k o r])).
      { unfold Ioc_Model.cstep in C.
        destruct (nth_error (y_clients y1) k) as [[[|o todo]|o [|f rest] l todo|todo|todo]|] eqn:E; try discriminate.
        - destruct (y_lock y1); [discriminate|]. injection C as <-. eexists _, _. simpl. eauto 6.
        - injection C as <-. eexists _, _. split; [reflexivity|]. split; [reflexivity|]. right. exists o, (l_res l).
          simpl. split; auto. destruct (is_stop o); reflexivity.
        - destruct (f _ _) as [[[s' l1] sig]|]; [|discriminate]. injection C as <-. eexists _, _. simpl. eauto 6.
        - injection C as <-. eexists _, _. simpl. eauto 6.
        - destruct (y_worker y1); try discriminate. injection C as <-. eexists _, _. simpl. eauto 6. }
      destruct E as (c1 & c2 & E1 & E2 & Eh). rewrite E2, update_length. split; auto.
      intros i sc c Hs Hc. apply nth_update_cases in Hc as [[<- ->]|[Hki Hc]].
      * rewrite (IH _ _ _ Hs E1). destruct Eh as [[-> ->]|(o & r & -> & ->)]; auto.
        unfold made_by. rewrite flat_map_app. simpl. rewrite Nat.eqb_refl. rewrite <- app_assoc. reflexivity.
      * rewrite (IH _ _ _ Hs Hc). f_equal. destruct Eh as [[_ ->]|(o & r & _ & ->)]; auto.
        unfold made_by. rewrite flat_map_app. simpl. rewrite (proj2 (Nat.eqb_neq i k)) by auto. rewrite app_nil_r. reflexivity.
Qed.

(** ** Everything ends *)
Definition ow (o : vop) : N := N.of_nat (List.length (code o)) + 4.
Definition tw (t : list vop) : N := fold_right (fun o n => ow o + n)%N 0%N t.
Definition cw (c : cpc (D:=D) (B:=B)) : N :=
  (match c with
   | CReady t => tw t
   | CIn _ rest _ t => N.of_nat (List.length rest) + 3 + tw t
   | CSig t => 2 + tw t
   | CJoin t => 1 + tw t
   end)%N.
Definition csum (l : list (cpc (D:=D) (B:=B))) : N := fold_right (fun c n => cw c + n)%N 0%N l.
Definition pw (w : wpc (B:=B)) : N :=
  (match w with
   | WDone | WWait => 0 | WTop => 1 | WEnter => 2 | WScan => 2
   | WProp n _ => 2147483647 - n + 3 | WAlloc => 2147483651
   end)%N.
Definition flagw y : N :=
  ((if v_dosim (y_sim y) then 2147483652 else 0) + (if y_event y then 3 else 0))%N.
Definition weight y : N := (2147483660 * csum (y_clients y) + flagw y + pw (y_worker y))%N.

Lemma csum_update l i c c' : nth_error l i = Some c -> (csum (update l i c') + cw c = csum l + cw c')%N.
Proof.
  revert i. induction l as [|a l IH]; intros [|i] H; try discriminate; simpl in *.
  - injection H as ->. lia.
  - specialize (IH _ H). lia.
Qed.

Lemma weight_wstep y y' : wstep y = Went y' -> (weight y' < weight y)%N.
Proof.
  intros W. unfold weight, flagw. unfold Ioc_Model.wstep in W.
  destruct (y_worker y) as [| | | |n st| |] eqn:Ew; try discriminate.
  - destruct (y_lock y); [discriminate|]. injection W as <-. simpl. lia.
  - destruct (v_stop (y_sim y)); [|destruct (v_dosim (y_sim y)) eqn:Ed]; injection W as <-; cbn -[N.mul N.add N.sub csum]; rewrite ?Ed; lia.
  - destruct (y_event y); [|discriminate]. injection W as <-. cbn -[N.mul N.add N.sub csum]. lia.
  - destruct (alloc_state _ _) as [st|e]; [|destruct (caught e); [|discriminate]]; injection W as <-; cbn -[N.mul N.add N.sub csum]; lia.
  - destruct (N.ltb_spec n 2147483647) as [Hn|Hn].
    + destruct (slot _ _) as [e|]; [|injection W as <-; cbn -[N.mul N.add N.sub csum]; lia].
      destruct (cl_advance _ _ _ _) as [d [st2|x]].
      * destruct (el_obs e) as [o|]; [destruct (viewed _ _ _); [|discriminate]|]; injection W as <-; cbn -[N.mul N.add N.sub csum]; lia.
      * destruct (caught x); [|discriminate]. injection W as <-; cbn -[N.mul N.add N.sub csum]; lia.
    + injection W as <-; cbn -[N.mul N.add N.sub csum]; lia.
  - injection W as <-; cbn -[N.mul N.add N.sub csum]; lia.
Qed.
Lemma weight_cstep i y y' : cstep i y = Went y' -> (weight y' < weight y)%N.
Proof.
  intros C. unfold Ioc_Model.cstep in C.
  assert (G : forall c c' s lk ev h, nth_error (y_clients y) i = Some c -> (cw c' < cw c)%N ->
    (weight (mkSys s lk ev (y_worker y) (update (y_clients y) i c') h) < weight y)%N).
  { intros c c' s lk ev h E Hc. unfold weight, flagw. cbn [y_sim y_clients y_event y_worker].
    pose proof (csum_update _ _ _ c' E). destruct (v_dosim s), ev, (v_dosim (y_sim y)), (y_event y); lia. }
  destruct (nth_error (y_clients y) i) as [[[|o todo]|o [|f rest] l todo|todo|todo]|] eqn:E; try discriminate.
  - destruct (y_lock y); [discriminate|]. injection C as <-. eapply G; eauto. cbn [cw tw fold_right]. unfold ow.
    change (fold_right _ 0%N todo) with (tw todo). lia.
  - injection C as <-. eapply G; eauto. destruct (is_stop o); cbn [cw List.length]; lia.
  - destruct (f _ _) as [[[s' l1] sig]|]; [|discriminate]. injection C as <-. eapply G; eauto. cbn [cw List.length]. lia.
  - injection C as <-. eapply G; eauto. cbn [cw]. lia.
  - destruct (y_worker y); try discriminate. injection C as <-. eapply G; eauto. cbn [cw]. lia.
Qed.
Lemma weight_step y y' : ystep y y' -> (weight y' < weight y)%N.
Proof. intros [W|i C]; [apply weight_wstep; auto|eapply weight_cstep; eauto]. Qed.
Lemma all_end y : Acc (fun b a => ystep a b) y.
Proof.
  remember (weight y) as w eqn:E. revert y E. induction w as [w IH] using (well_founded_induction N.lt_wf_0).
  intros y ->. constructor. intros y' St. eapply IH; [apply weight_step; eauto|reflexivity].
Qed.

(** ** What undefined behaviour comes from *)
Lemma gone_worker s scripts y : reach (start s scripts) y -> wstep y = Gone ->
  exists s1, replays s (y_hist y) s1 /\ v_dosim s1 = true /\ v_stop s1 = false /\ run_once s1 = None.
Proof.
  intros Hr G. pose proof (inv_reach _ _ _ Hr) as [(s1 & R & Hh) _]. exists s1. split; auto.
  unfold Ioc_Model.wstep in G. unfold held in Hh.
  destruct (y_worker y) as [| | | |n st| |] eqn:Ew; try discriminate.
  - destruct (y_lock y); discriminate.
  - destruct (v_stop (y_sim y)); [|destruct (v_dosim (y_sim y))]; discriminate.
  - destruct (y_event y); discriminate.
  - destruct (y_lock y) as [[|i]|]; [|destruct Hh as [[] _]|destruct Hh as [_ []]].
    destruct Hh as (H1 & H2 & H3). split; auto. split; auto. rewrite run_once_finish. rewrite H3 in G.
    change (v_machine (set_dosim s1 false)) with (v_machine s1) in G.
    destruct (alloc_state _ _) as [st|e]; [discriminate|]. destruct (caught e); [discriminate|reflexivity].
  - destruct (y_lock y) as [[|i]|]; [|destruct Hh as [[] _]|destruct Hh as [_ []]].
    destruct Hh as (H1 & H2 & k & Hk & H3). split; auto. split; auto. rewrite H3.
    destruct (N.ltb_spec n 2147483647) as [Hn|Hn]; [|discriminate].
    destruct k as [|k]; [lia|].
    destruct (slot _ _) as [e|] eqn:Es; [|discriminate].
    destruct (cl_advance _ _ _ _) as [d [st2|x]] eqn:Ea.
    + rewrite (finish_step _ _ _ _ _ _ _ Es Ea). destruct (el_obs e) as [o|]; [|discriminate].
      destruct (viewed _ _ _); [discriminate|reflexivity].
    + rewrite (finish_throw _ _ _ _ _ _ _ Es Ea). destruct (caught x); [discriminate|reflexivity].
Qed.
Lemma gone_client s scripts y i : reach (start s scripts) y -> cstep i y = Gone ->
  exists s1 o, replays s (y_hist y) s1 /\ atomic o s1 = None /\ exists c, nth_error (y_clients y) i = Some c /\ In o (left c).
Proof.
  intros Hr G. pose proof (inv_reach _ _ _ Hr) as [(s1 & R & Hh) Ho].
  unfold Ioc_Model.cstep in G.
  destruct (nth_error (y_clients y) i) as [[[|o todo]|o [|f rest] l todo|todo|todo]|] eqn:E; try discriminate.
  - destruct (y_lock y); discriminate.
  - pose proof (holder_only _ _ _ Ho E (fun x => x)) as El. unfold held in Hh. rewrite El in Hh.
    destruct Hh as (_ & o' & rest' & l' & t & E' & Ha). rewrite E in E'. injection E' as <- <- <- <-.
    exists s1, o. split; auto. simpl in Ha. destruct (f _ _) as [[[s' l'] sig]|]; [discriminate|].
    split; auto. eexists. split; eauto. left. reflexivity.
  - destruct (y_worker y); discriminate.
Qed.

(** ** The thread that ends it waits for the worker *)
Lemma joins s scripts y i c : reach (start s scripts) y -> nth_error (y_clients y) i = Some c ->
  In VStop (made_by i (y_hist y)) -> (exists t, c = CSig t \/ c = CJoin t) \/ y_worker y = WDone.
Proof.
  intros Hr. revert i c. induction Hr as [|y1 y2 Hr IH St]; intros i c Hi Hin; [destruct Hin|].
  destruct St as [W|k C].
  - assert (E : y_clients y2 = y_clients y1 /\ (y_worker y1 <> WDone) /\ (y_hist y2 = y_hist y1 \/ y_hist y2 = y_hist y1 ++ [HRun])).
    { unfold Ioc_Model.wstep in W.
      repeat match type of W with
      | context [match ?x with _ => _ end] => destruct x eqn:?
      | Went _ = Went _ => injection W as <-
      end; try discriminate; simpl; repeat split; auto; try congruence. }
    destruct E as (E1 & E2 & E3). rewrite E1 in Hi.
    assert (Hin' : In VStop (made_by i (y_hist y1))).
    { destruct E3 as [<-|E3]; auto. rewrite E3 in Hin. unfold made_by in Hin. rewrite flat_map_app in Hin.
      simpl in Hin. rewrite app_nil_r in Hin. exact Hin. }
    destruct (IH _ _ Hi Hin') as [?|?]; [auto|contradiction].
  - unfold Ioc_Model.cstep in C.
    destruct (nth_error (y_clients y1) k) as [[[|o todo]|o [|f rest] l todo|todo|todo]|] eqn:E; try discriminate.
    + destruct (y_lock y1); [discriminate|]. injection C as <-. simpl in *.
      apply nth_update_cases in Hi as [[<- ->]|[Hki Hi]]; [|eauto].
      destruct (IH _ _ E Hin) as [[t [?|?]]|?]; [discriminate|discriminate|auto].
    + injection C as <-. simpl in *. unfold made_by in Hin. rewrite flat_map_app in Hin.
      apply nth_update_cases in Hi as [[<- ->]|[Hki Hi]].
      * simpl in Hin. rewrite Nat.eqb_refl in Hin. apply in_app_iff in Hin as [Hin|[Hin|[]]].
        -- destruct (IH _ _ E Hin) as [[t [?|?]]|?]; [discriminate|discriminate|auto].
        -- subst o. simpl. eauto.
      * simpl in Hin. rewrite (proj2 (Nat.eqb_neq i k)) in Hin by auto. rewrite app_nil_r in Hin. eauto.
    + destruct (f _ _) as [[[s' l1] sig]|]; [|discriminate]. injection C as <-. simpl in *.
      apply nth_update_cases in Hi as [[<- ->]|[Hki Hi]]; [|eauto].
      destruct (IH _ _ E Hin) as [[t [?|?]]|?]; [discriminate|discriminate|auto].
    + injection C as <-. simpl in *. apply nth_update_cases in Hi as [[<- ->]|[Hki Hi]]; eauto.
    + destruct (y_worker y1) eqn:Ew; try discriminate. injection C as <-. simpl in *. auto.
Qed.

(** ** From anywhere, an end can be reached unless behaviour becomes undefined *)
Lemma reach_trans y1 y2 y3 : reach y1 y2 -> reach y2 y3 -> reach y1 y3.
Proof. intros H1 H2. induction H2; auto. econstructor; eauto. Qed.
Lemma clients_dec y : (exists i, cstep i y <> Blocked) \/ (forall i, cstep i y = Blocked).
Proof.
  assert (G : forall n, (exists i, cstep i y <> Blocked) \/ (forall i, i < n -> cstep i y = Blocked)).
  { induction n as [|n [IH|IH]]; [right; intros; lia|auto|].
    destruct (cstep n y) eqn:E; [right|left; exists n; congruence|left; exists n; congruence].
    intros i Hi. destruct (Nat.eq_dec i n) as [->|]; auto. apply IH. lia. }
  destruct (G (List.length (y_clients y))) as [H|H]; auto. right. intros i.
  destruct (Nat.lt_ge_cases i (List.length (y_clients y))) as [Hi|Hi]; auto.
  unfold Ioc_Model.cstep. rewrite (proj2 (nth_error_None _ _)); auto.
Qed.
Lemma comes_to_rest y : (forall y', reach y y' -> wstep y' <> Gone /\ forall i, cstep i y' <> Gone) ->
  exists y', reach y y' /\ stuck y'.
Proof.
  induction (all_end y) as [y _ IH]. intros G. destruct (G y (reach_refl _ _ _ _ _)) as [Gw Gc].
  assert (Next : forall y1, ystep y y1 -> exists y', reach y y' /\ stuck y').
  { intros y1 St. destruct (IH y1 St) as (y' & R & Hs).
    - intros y' R. apply G. eapply reach_trans; [|exact R]. econstructor; [constructor|exact St].
    - exists y'. split; auto. eapply reach_trans; [|exact R]. econstructor; [constructor|exact St]. }
  destruct (wstep y) as [| |y1] eqn:Ew; [|congruence|apply (Next y1); constructor; auto].
  destruct (clients_dec y) as [[i Hi]|Hc].
  - destruct (cstep i y) as [| |y1] eqn:Ec; [congruence|destruct (Gc i); auto|]. apply (Next y1). econstructor 2; eauto.
  - exists y. split; [constructor|]. split; auto.
Qed.

End Threads.
