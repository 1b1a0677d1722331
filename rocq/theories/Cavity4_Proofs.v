(** Proofs about the RF cavity: the data files. *)
From Coq Require Import Reals List String Bool NArith ZArith Lia Lra Psatz.
From Verif Require Import SMap Dbl Config_Spec Mat Mat_Proofs Machine_Model Machine_Spec Machine_Proofs Util_Model Moment_Model
  Moment_Spec Moment_Proofs Cavity_Model Cavity_Spec Cavity_Proofs Cavity2_Proofs Cavity3_Proofs.
Import ListNotations.
Open Scope R_scope.
Open Scope string_scope.
Open Scope list_scope.

Definition inside {A} (r : res A) : Prop := r <> Throw BadIndex.
Lemma in_bind {A B} (r : res A) (f : A -> res B) : inside r -> (forall x, r = Ok x -> inside (f x)) -> inside (rbind r f).
Proof. intros H1 H2. destruct r; simpl; auto. intros [= ->]. apply H1. reflexivity. Qed.
Lemma in_ok {A} (x : A) : inside (Ok x).
Proof. discriminate. Qed.
Lemma in_throw {A} e : e <> BadIndex -> inside (Throw e : res A).
Proof. congruence. Qed.
Lemma in_when {A} b e (r : res A) : e <> BadIndex -> (b = false -> inside r) -> inside (rwhen b e r).
Proof. destruct b; simpl; intros; [apply in_throw; auto|auto]. Qed.
#[local] Hint Resolve in_ok : core.
Ltac thr := apply in_throw; discriminate.

(** A cavity whose data can be worked with. *)
Definition usable (cv : cavity) : Prop :=
  (2 <= List.length (cv_data cv))%nat /\ (2 <= List.length (cv_axis cv))%nat /\
  check_limit (cv_eklim cv) = Ok tt /\ check_limit (cv_nrlim cv) = Ok tt /\
  (cv_cavi cv <= 4)%nat /\ (cv_cavi cv = 0%nat -> (3 <= List.length (cv_syn cv))%nat) /\
  (cv_cavi cv <> 0%nat -> (List.length (filter (fun P => String.eqb (r_type P) "AccGap") (cv_lat cv)) <= 2)%nat).

Lemma in_num_of w c n : inside (num_of w c n).
Proof. unfold num_of, get_num. destruct (tfind n c) as [[]|]; simpl; auto; thr. Qed.
Lemma in_flag w c n d : inside (get_flag w c n d).
Proof. unfold get_flag. cbv zeta. destruct (exact_uint _); auto; thr. Qed.
Lemma in_str c n : inside (get_str c n).
Proof. unfold get_str. destruct (tfind n c) as [[]|]; auto; thr. Qed.
Lemma in_vec c n : inside (get_vec c n).
Proof. unfold get_vec. destruct (tfind n c) as [[]|]; auto; thr. Qed.
Lemma in_fpow x y : inside (fpow x y).
Proof. unfold fpow. destruct (Rlt_dec _ _); auto; thr. Qed.
Lemma in_fdiv x y : inside (fdiv x y).
Proof. unfold fdiv. destruct (Req_EM_T _ _); auto; thr. Qed.
Lemma in_fit x l : inside (fit_pow x l).
Proof. unfold fit_pow. destruct (cal_fit_pow x l); auto; thr. Qed.
Lemma in_beta x : inside (beta_of x).
Proof. unfold beta_of. destruct (Rlt_dec _ _); auto; thr. Qed.
#[local] Hint Resolve in_num_of in_flag in_str in_vec in_fpow in_fdiv in_fit in_beta : core.

Lemma in_boost a cv p W F scl : usable cv -> inside (boost a cv p W F scl).
Proof.
  intros (U & _). unfold boost. destruct (_ && _)%bool; [thr|]. destruct (Nat.eqb_spec (List.length (cv_data cv)) 0); [lia|].
  destruct (Rle_dec _ _); [thr|]. destruct (Req_EM_T _ _); [thr|]. auto.
Qed.
Lemma in_complex Ek s : forall n P i acc, (List.length P <= n)%nat -> inside (complex_sum Ek s i P acc).
Proof.
  induction n as [n IH] using lt_wf_ind. intros P i acc L. destruct P as [|a [|b [|c [|d [|e P]]]]]; simpl; auto.
  destruct (ipow s i); [|thr]. apply in_bind; auto. intros x _. simpl in L. apply (IH (List.length P)); lia.
Qed.
Lemma in_phase w cv c p scl : usable cv -> inside (driven_phase w cv c p scl).
Proof.
  intros (_ & _ & L1 & L2 & U3 & U4 & _). unfold driven_phase. cbv zeta. apply in_bind.
  { destruct (Nat.eqb _ 0); auto. rewrite L1. auto. }
  intros _ _. destruct (Rle_dec _ _); [|apply in_bind; auto].
  assert (X : inside (cav_phase cv p (cv_f cv / p_freq p))).
  { unfold cav_phase. cbv zeta. apply in_bind; auto.
    destruct (cv_cavi cv) as [|[|[|[|[|k]]]]] eqn:E; try (apply in_bind; auto; fail); [|lia].
    specialize (U4 eq_refl). destruct (cv_syn cv) as [|x [|y [|z l]]]; simpl in U4; try lia. apply in_bind; auto. }
  destruct (Nat.eqb (cv_cavi cv) 0), (cv_nrm cv), (cv_cx cv), (Reqb (num_def w c "syncflag" 1) 1); auto. apply in_bind; auto. intros scale _. rewrite L2. simpl.
  unfold cav_phase_complex. destruct (negb _); [thr|]. apply in_bind; auto. eapply in_complex. reflexivity.
Qed.
Lemma in_long w cv c p : usable cv -> inside (propagate_long w cv c p).
Proof.
  intros U. unfold propagate_long. cbv zeta. apply in_bind; auto. intros scl _. destruct (Req_EM_T _ _); [thr|].
  apply in_bind; [apply in_phase; auto|]. intros F _. apply in_bind; [apply in_boost; auto|]. intros [[W F']|] _; auto; thr.
Qed.
Lemma in_transfac rows col gap K half : (2 <= List.length rows)%nat \/ half = false -> inside (cal_transfac rows col gap K half).
Proof.
  intros H. unfold cal_transfac. cbv zeta. destruct (_ || _)%bool eqn:E; [thr|]. apply orb_false_iff in E as [E _]. apply Nat.eqb_neq in E.
  destruct (Nat.eqb_spec (if half then (List.length rows / 2)%nat else List.length rows) 0) as [Z|Z].
  - exfalso. destruct half; [|lia]. destruct H as [H|]; [|discriminate]. apply Nat.div_small_iff in Z; lia.
  - destruct (Nat.eqb _ 1); [thr|]. destruct (Req_EM_T _ _); [thr|]. auto.
Qed.
Lemma in_facts cv label b K gap scl : usable cv -> inside (trans_facts cv label b K gap scl).
Proof.
  intros (_ & U & _). assert (X : inside (rbind (cal_transfac (cv_axis cv) 2 gap K true) (fun t => Ok (scale_V0 scl t)))).
  { apply in_bind; auto. apply in_transfac. auto. }
  unfold trans_facts. cbv zeta. destruct (cv_force cv); auto. destruct (fit_range label) as [[lo hi]|]; [|thr].
  destruct (Rlt_dec b lo); auto. destruct (Rlt_dec hi b); auto. destruct (fitted label gap b); auto; thr.
Qed.
Lemma in_column n : inside (get_column n).
Proof. unfold get_column. repeat match goal with |- context [if ?b then _ else _] => destruct b; auto end. thr. Qed.
#[local] Hint Resolve in_column : core.
Lemma in_multipole cv n K : inside (transit_multipole cv n K).
Proof.
  unfold transit_multipole. cbv zeta.
  assert (X : inside (rbind (get_column n) (fun col => rbind (cal_transfac (cv_mlp cv) col 0 K false) (fun t => Ok (t_T t, t_S t))))).
  { apply in_bind; auto. intros col _. apply in_bind; auto. apply in_transfac. auto. }
  assert (Y : inside (match mlp_table n (cv_cavi cv) with
    | Some (a, b) => Ok (pwr_series K a, pwr_series K b)
    | None => if (String.eqb n "CaviMlp_EDipole" || String.eqb n "CaviMlp_HDipole")%bool then Throw RuntimeError
        else match get_column n with Ok _ => Ok (0, 0) | Throw e => Throw e end end)).
  { destruct (mlp_table n (cv_cavi cv)) as [[a b]|]; auto. destruct (_ || _)%bool; [thr|]. pose proof (in_column n) as H. destruct (get_column n); [auto|].
    unfold inside in *. congruence. }
  destruct (cv_force cv); auto. destruct (mlp_range _) as [[lo hi]|]; auto. destruct (Rlt_dec K lo); auto. destruct (Rlt_dec hi K); auto.
Qed.
Lemma in_params_step cv b g k s P : inside (params_step cv b g k s P).
Proof.
  assert (X : forall lvl n1 n2 (f : R * R -> R * R), inside (if N.ltb (cv_mp cv) lvl then Ok (mkTlm (r_E0 P) 0 0 0)
    else rbind (if (if Rlt_dec s 0 then true else false) then rbind (transit_multipole cv n1 (k 0%nat)) (fun x => Ok (f x))
                else transit_multipole cv n2 (k 1%nat))
               (fun '(T, Sf) => Ok (mkTlm (r_E0 P) T Sf 0)))).
  { intros. destruct (N.ltb _ _); auto. apply in_bind; [|intros [T Sf] _; auto].
    destruct (Rlt_dec s 0); [apply in_bind; auto|]; apply in_multipole. }
  unfold params_step. cbv zeta.
  repeat match goal with |- context [if String.eqb ?a ?b then _ else _] => destruct (String.eqb a b); [first [apply X|auto; fail]|] end. thr.
Qed.
Lemma in_params cv b g k : forall l s, inside (params_loop cv b g k s l).
Proof.
  induction l as [|P l IH]; intros s; simpl; auto. apply in_bind; [apply in_params_step|]. intros x _. apply in_bind; auto.
Qed.
Definition gaps (l : list rawp) : nat := List.length (filter (fun P => String.eqb (r_type P) "AccGap") l).
Lemma two_step_seg cv p scl Rm b g s P t x : (h_seg x + gaps [P] <= 2)%nat ->
  inside (two_step cv p scl Rm b g s P t x) /\ forall x', two_step cv p scl Rm b g s P t x = Ok x' -> h_seg x' = (h_seg x + gaps [P])%nat.
Proof.
  unfold gaps. cbn [filter]. unfold two_step. cbv zeta.
  assert (FO : forall (lvl : N) kick sy, inside (if N.ltb (cv_mp cv) lvl then Ok x else Ok (on_two x (two_at 1 0 (kick / Rm) 3 2 (sy * (kick / Rm))))) /\
    forall x', (if N.ltb (cv_mp cv) lvl then Ok x else Ok (on_two x (two_at 1 0 (kick / Rm) 3 2 (sy * (kick / Rm))))) = Ok x' -> h_seg x' = (h_seg x + 0)%nat).
  { intros. destruct (N.ltb _ _); (split; [auto|]); intros x' [= <-]; simpl; lia. }
  assert (DI : forall kick, inside (if N.ltb (cv_mp cv) 1 then Ok x else Ok (on_two x (one_at 3 6 kick))) /\
    forall x', (if N.ltb (cv_mp cv) 1 then Ok x else Ok (on_two x (one_at 3 6 kick))) = Ok x' -> h_seg x' = (h_seg x + 0)%nat).
  { intros. destruct (N.ltb _ _); (split; [auto|]); intros x' [= <-]; simpl; lia. }
  destruct (String.eqb_spec (r_type P) "drift") as [->|].
  { intros _. split; auto. intros x' [= <-]. simpl. lia. }
  destruct (String.eqb_spec (r_type P) "EFocus1") as [->|]; [intros _; apply FO|].
  destruct (String.eqb_spec (r_type P) "EFocus2") as [->|]; [intros _; apply FO|].
  destruct (String.eqb_spec (r_type P) "EDipole") as [->|]; [intros _; apply DI|].
  destruct (String.eqb_spec (r_type P) "EQuad") as [->|]; [intros _; apply FO|].
  destruct (String.eqb_spec (r_type P) "HMono") as [->|]; [intros _; apply FO|].
  destruct (String.eqb_spec (r_type P) "HDipole") as [->|]; [intros _; apply DI|].
  destruct (String.eqb_spec (r_type P) "HQuad") as [->|].
  { intros _. simpl. destruct (N.ltb (cv_mp cv) 2); [split; [auto|]; intros x' [= <-]; lia|].
    match goal with |- context [Req_EM_T ?a ?b] => destruct (Req_EM_T a b) end; (split; [first [thr|auto]|]); [discriminate|].
    intros x' [= <-]. simpl. lia. }
  destruct (String.eqb_spec (r_type P) "AccGap") as [E|].
  - simpl. intros L. destruct (Nat.ltb_spec 2 (S (h_seg x))); [lia|]. split; auto. intros x' [= <-]. simpl. lia.
  - intros _. split; [thr|discriminate].
Qed.
Lemma in_two_loop cv p scl Rm b g : forall l s x, (h_seg x + gaps (map fst l) <= 2)%nat -> inside (two_loop cv p scl Rm b g s l x).
Proof.
  induction l as [|[P t] l IH]; intros s x L; simpl; auto.
  assert (G : gaps (map fst ((P, t) :: l)) = (gaps [P] + gaps (map fst l))%nat).
  { unfold gaps. simpl. destruct (String.eqb _ _); reflexivity. }
  rewrite G in L. destruct (two_step_seg cv p scl Rm b g (s + r_len P) P t x ltac:(lia)) as [X1 X2].
  apply in_bind; auto. intros x' E. apply IH. rewrite (X2 _ E). lia.
Qed.
Lemma gaps_firstn l : forall n, (gaps (firstn n l) <= gaps l)%nat.
Proof.
  induction l as [|P l IH]; intros [|n]; unfold gaps in *; simpl; try lia. specialize (IH n).
  destruct (String.eqb _ _); simpl; lia.
Qed.
Lemma map_fst_combine {A B} (l : list A) : forall (l' : list B), map fst (combine l l') = firstn (List.length l') l.
Proof. induction l as [|a l IH]; intros [|b l']; simpl; auto. rewrite IH. reflexivity. Qed.
Lemma in_cav_matrix w cv label Rm p scl F Ek : usable cv -> cv_cavi cv <> 0%nat -> inside (cav_matrix w cv label Rm p scl F Ek).
Proof.
  intros U N. assert (U' := U). destruct U' as (U1 & U2 & _ & _ & _ & _ & U3). specialize (U3 N).
  unfold cav_matrix. cbv zeta. destruct (Nat.eqb_spec (List.length (cv_data cv)) 0); [lia|].
  assert (EG : forall dis W0 p F k lam t, inside (eval_gap dis W0 p F k lam t)).
  { intros. unfold eval_gap. cbv zeta. apply in_bind; auto. intros. apply in_bind; auto. }
  apply in_bind; auto. intros b0 _. apply in_bind; [apply in_facts; auto|]. intros t0 _. apply in_bind; auto. intros [W1 F1] _.
  apply in_bind; auto. intros b1 _. apply in_bind; [apply in_facts; auto|]. intros t1 _. apply in_bind; auto. intros [W2 F2] _.
  apply in_bind; auto. intros b2 _. unfold two_gap_matrix, cav_params. cbv zeta. destruct (cv_data cv) as [|[z0 e0] rows]; [simpl in U1; lia|].
  apply in_bind; [destruct (cv_lat cv); [thr|apply in_params]|]. intros ls _. apply in_bind; auto. apply in_two_loop. simpl.
  rewrite map_fst_combine. eapply Nat.le_trans; [apply gaps_firstn|]. exact U3.
Qed.
Lemma in_gen_step cv p scl P g : inside (gen_step cv p scl P g).
Proof.
  unfold gen_step. cbv zeta.
  assert (FI : inside (rbind (fit_pow (g_k g) (r_T P)) (fun T => rbind (fit_pow (g_k g) (r_S P)) (fun S => Ok (T, S))))).
  { apply in_bind; auto. intros. apply in_bind; auto. }
  assert (FO : forall lvl (kick : R -> R -> R) sy, inside (if N.ltb (cv_mp cv) lvl then Ok g
    else rbind (rbind (fit_pow (g_k g) (r_T P)) (fun T => rbind (fit_pow (g_k g) (r_S P)) (fun S => Ok (T, S)))) (fun '(T, Sf) =>
         rbind (fdiv (kick T Sf) (cv_Rm cv)) (fun k => Ok (on_trans g (two_at 1 0 k 3 2 (sy * k))))))).
  { intros. destruct (N.ltb _ _); auto. apply in_bind; auto. intros [T Sf] _. apply in_bind; auto. }
  assert (DI : forall kick : R -> R -> R, inside (if N.ltb (cv_mp cv) 1 then Ok g
    else rbind (rbind (fit_pow (g_k g) (r_T P)) (fun T => rbind (fit_pow (g_k g) (r_S P)) (fun S => Ok (T, S)))) (fun '(T, Sf) => Ok (on_trans g (one_at 3 6 (kick T Sf)))))).
  { intros. destruct (N.ltb _ _); auto. apply in_bind; auto. intros [T Sf] _. auto. }
  repeat match goal with |- context [if String.eqb ?a ?b then _ else _] => destruct (String.eqb a b); [first [apply FO|apply DI|auto; fail|apply in_bind; auto; intros [T Sf] _; apply in_bind; auto]|] end. thr.
Qed.
Lemma in_gen_loop cv p scl : forall l g, inside (gen_loop cv p scl l g).
Proof. induction l as [|P l IH]; intros g; simpl; auto. apply in_bind; auto. apply in_gen_step. Qed.
Lemma in_gen_matrix w cv p scl F Ek : inside (gen_matrix w cv p scl F Ek).
Proof.
  unfold gen_matrix. cbv zeta. apply in_bind; auto. intros b _. destruct (_ && _)%bool; [thr|]. apply in_bind; auto. apply in_gen_loop.
Qed.
Lemma in_init w cv c phi p M0 : usable cv -> snd (init_cav w cv c phi p M0) <> Throw BadIndex.
Proof.
  intros U. unfold init_cav. cbv zeta.
  match goal with |- context [match ?r with _ => _ end] => assert (X : inside r) end.
  { apply in_bind.
    - unfold label_of. destruct U as (_ & _ & _ & _ & U & _). destruct (cv_cavi cv) as [|[|[|[|[|k]]]]]; auto. lia.
    - intros [label Rm] _. destruct (Req_EM_T _ _); [thr|]. apply in_bind; auto. intros scl _. apply in_bind; [apply in_boost; auto|].
      intros [[W F']|] _; [|thr]. apply in_bind; auto. destruct (Nat.ltb_spec 0 (cv_cavi cv)); [apply in_cav_matrix; auto; lia|apply in_gen_matrix]. }
  match goal with |- context [match ?r with _ => _ end] => destruct r as [[M q]|e] end; simpl; [discriminate|].
  intros [= ->]. apply X. reflexivity.
Qed.

(** ** Loading *)
Section Load.
Variable w : world.
Variable files : cavfiles.
Hypothesis PF : proper_files files.
Definition tab_ok (syn : list R) : Prop := syn = [] \/ (3 <= List.length syn)%nat.
Lemma piece_proper EC syn : proper_piece EC -> tab_ok syn -> inside (gen_piece w EC syn) /\
  forall P syn', gen_piece w EC syn = Ok (P, syn') -> tab_ok syn' /\ (is_a "AccGap" EC \/ syn <> [] -> syn' <> []).
Proof.
  intros HP HT. unfold gen_piece. destruct (get_str EC "type") as [t|e] eqn:ET.
  2: { pose proof (in_str EC "type") as X. rewrite ET in X. split; [unfold inside in *; simpl; congruence|discriminate]. }
  cbn [rbind]. assert (TY : tfind "type" EC = Some (TStr t)).
  { unfold get_str in ET. destruct (tfind "type" EC) as [[]|]; try discriminate. injection ET as ->. reflexivity. }
  destruct (num_of w EC "L") as [L|e] eqn:EL.
  2: { pose proof (in_num_of w EC "L") as X. rewrite EL in X. split; [unfold inside in *; simpl; congruence|discriminate]. }
  cbn [rbind]. destruct (String.eqb_spec t "drift") as [->|ND].
  { split; auto. intros P syn' [= <- <-]. split; auto. intros [A|A]; auto. unfold is_a in A. rewrite TY in A. discriminate. }
  destruct (num_of w EC "V0") as [V|e] eqn:EV.
  2: { pose proof (in_num_of w EC "V0") as X. rewrite EV in X. split; [unfold inside in *; simpl; congruence|discriminate]. }
  cbn [rbind]. cbv zeta.
  destruct HP as [D|(l & A1 & A2 & A3)]; [unfold is_a in D; rewrite TY in D; injection D as ->; congruence|].
  assert (TV : try_vec w EC "attr" = Some (map (w_num w) l)).
  { unfold try_vec, vec_at in *. destruct (tfind "attr" EC) as [[]|]; try discriminate. injection A1 as ->. reflexivity. }
  rewrite TV, map_length. destruct (Nat.ltb_spec (List.length l) 20); [lia|]. cbn [rwhen].
  destruct (String.eqb_spec t "AccGap") as [->|NG]; cbn [andb].
  - specialize (A3 TY). destruct (Nat.eqb_spec (List.length syn) 0) as [Z|Z].
    + destruct (Nat.ltb_spec (List.length l) 23); [lia|]. cbn [rwhen]. split; auto. intros P syn' H'.
      assert (LL : List.length syn' = 3%nat).
      { assert (E : syn' = firstn 3 (skipn 20 (map (w_num w) l))) by congruence. rewrite E.
        rewrite firstn_length, skipn_length, map_length. lia. }
      split; [right; lia|]. intros _ ->. discriminate LL.
    + split; auto. intros P syn' [= _ <-]. split; auto. intros _ ->. apply Z. reflexivity.
  - split; auto. intros P syn' [= _ <-]. split; auto. intros [A|A]; auto. unfold is_a in A. rewrite TY in A. congruence.
Qed.
Lemma pieces_proper : forall l syn, Forall proper_piece l -> tab_ok syn -> inside (gen_pieces w l syn) /\
  forall r syn', gen_pieces w l syn = Ok (r, syn') -> tab_ok syn' /\ (Exists (is_a "AccGap") l \/ syn <> [] -> syn' <> []).
Proof.
  induction l as [|EC l IH]; intros syn HP HT; cbn [gen_pieces].
  - split; auto. intros r syn' [= _ <-]. split; auto. intros [A|A]; auto. inversion A.
  - inversion HP; subst. destruct (piece_proper EC syn) as [P1 P2]; auto. destruct (gen_piece w EC syn) as [[P s1]|e] eqn:E.
    2: { split; [unfold inside in *; simpl; congruence|discriminate]. }
    destruct (P2 _ _ eq_refl) as [P3 P4]. cbn [rbind]. destruct (IH s1) as [I1 I2]; auto.
    destruct (gen_pieces w l s1) as [[r' s2]|e] eqn:E2.
    2: { split; [unfold inside in *; simpl; congruence|discriminate]. }
    cbn [rbind]. split; auto. intros r syn' [= _ <-]. destruct (I2 _ _ eq_refl) as [I3 I4]. split; auto.
    intros [A|A]; apply I4; [inversion A; subst; auto|auto].
Qed.
Lemma chop_len n k l : List.length (chop n k l) = k.
Proof. revert l. induction k; intros l; simpl; auto. Qed.
Lemma load_usable c : inside (load_cavity w files c) /\ forall cv, load_cavity w files c = Ok cv -> usable cv.
Proof.
  destruct PF as (P1 & P2 & P3 & P4 & P5).
  assert (BI : forall A (r : res A) (f : A -> res cavity), inside r -> (forall x, r = Ok x -> inside (f x) /\ forall cv, f x = Ok cv -> usable cv) ->
    inside (rbind r f) /\ forall cv, rbind r f = Ok cv -> usable cv).
  { intros A r f H1 H2. split; [apply in_bind; auto; intros x Hx; apply H2; auto|]. intros cv H. apply rbind_ok in H as (x & Hx & H). apply (H2 x Hx). exact H. }
  assert (WH : forall b (r : res cavity) e, e <> BadIndex -> inside r /\ (forall cv, r = Ok cv -> usable cv) ->
    inside (rwhen b e r) /\ forall cv, rwhen b e r = Ok cv -> usable cv).
  { intros b r e He [H1 H2]. destruct b; simpl; auto. split; [apply in_throw; auto|discriminate]. }
  unfold load_cavity. cbv zeta.
  apply BI; auto. intros f _. apply BI; auto. intros phi _. apply BI; auto. intros mp _. apply BI; auto. intros eg _.
  apply WH; [discriminate|]. apply WH; [discriminate|]. apply BI; auto. intros t _.
  destruct (cav_files t) as [[cavi [fld [thin mlp]]]|] eqn:CF.
  - assert (CI : (cavi <> 0 /\ cavi <= 4)%nat).
    { unfold cav_files in CF. cbv zeta in CF. repeat match type of CF with context [if ?b then _ else _] => destruct b; [injection CF as <- _ _ _; lia|] end. discriminate. }
    apply BI.
    { match goal with |- inside (match ?x with _ => _ end) => destruct x end; [|thr]. apply in_when; [discriminate|]. auto. }
    intros axis HA. apply BI.
    { match goal with |- inside (match ?x with _ => _ end) => destruct x end; [|thr]. apply in_when; [discriminate|]. auto. }
    intros ml _. apply BI; [apply P2|]. intros lat HL. split; auto. intros cv [= <-].
    assert (LA : (2 <= List.length axis)%nat).
    { match type of HA with match ?x with _ => _ end = _ => destruct x as [rows|] eqn:T end; [|discriminate]. unfold rwhen in HA. destruct (_ || _)%bool; [discriminate|]. injection HA as <-. eauto. }
    unfold usable. cbn [cv_data cv_axis cv_eklim cv_nrlim cv_cavi cv_syn cv_lat]. rewrite map_length. split; auto. split; auto. split; auto. split; auto.
    split; [lia|]. split; [lia|]. intros _. eapply P3. exact HL.
  - destruct (String.eqb t "Generic"); [|split; [thr|discriminate]].
    apply BI; auto. intros df _. apply BI; [apply P4|]. intros [conf|] HC; [|split; [thr|discriminate]].
    destruct (P5 _ _ HC) as (D1 & D2 & D3 & D4).
    apply BI. { unfold get_cfgs. destruct (tfind "elements" conf) as [[]|]; auto; thr. }
    intros Es HE. assert (HE' : tfind "elements" conf = Some (TCfgs Es)).
    { unfold get_cfgs in HE. destruct (tfind "elements" conf) as [[]|]; try discriminate. injection HE as ->. reflexivity. }
    destruct (D1 _ HE') as [D5 D6]. destruct (pieces_proper Es [] D5 (or_introl eq_refl)) as [G1 G2].
    apply BI; auto. intros [lat syn] HP. destruct (G2 _ _ HP) as [G3 G4].
    apply BI; auto. intros Ez HZ. assert (HZ' : vec_at conf "Ez" = Some Ez).
    { unfold get_vec in HZ. unfold vec_at. destruct (tfind "Ez" conf) as [[]|]; try discriminate. injection HZ as ->. reflexivity. }
    apply BI. { unfold readvec. simpl. destruct (Nat.eqb _ 0); auto; thr. }
    intros tb HR. split; auto. intros cv [= <-].
    assert (LR : (2 <= List.length (nt_rows tb))%nat).
    { unfold readvec in HR. change (2 <=? 0)%Z with false in HR. cbv iota in HR. cbv zeta in HR. change (Z.to_nat 2) with 2%nat in HR.
      destruct (Nat.eqb _ 0); [|discriminate]. injection HR as <-. cbn [nt_rows]. rewrite chop_len.
      specialize (D2 _ HZ'). exact (Nat.div_le_mono 4 (List.length Ez) 2 ltac:(lia) D2). }
    assert (LI : forall n, proper_limit conf n -> check_limit (try_vec w conf n) = Ok tt).
    { intros n HL. unfold try_vec. unfold proper_limit, vec_at in HL. destruct (tfind n conf) as [[]|]; auto.
      specialize (HL _ eq_refl). match goal with |- context [map _ ?v] => destruct v as [|? [|? ?]] end; simpl in HL; try lia. reflexivity. }
    unfold usable. cbn [cv_data cv_axis cv_eklim cv_nrlim cv_cavi cv_syn cv_lat]. rewrite !map_length. split; auto. split; auto. split; auto. split; auto.
    split; [lia|]. split; [|congruence]. intros _. destruct G3 as [->|]; auto. exfalso. apply G4; auto.
Qed.
Lemma with_sane : (forall f, w_readcfg w f <> Throw BadIndex) -> sane (with_cavities w files).
Proof.
  intros HR. repeat split; cbn [w_cav_ref w_cav_one w_readcfg with_cavities]; auto.
  - intros c p. apply in_bind; [apply load_usable|]. intros cv E. apply in_long. apply (load_usable c). exact E.
  - intros c phi p T. destruct (load_usable c) as [L1 L2]. destruct (load_cavity w files c) as [cv|e]; [apply in_init; auto|]. simpl.
    intros [= ->]. apply L1. reflexivity.
Qed.
End Load.
