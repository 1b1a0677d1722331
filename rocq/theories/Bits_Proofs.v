(** Double arithmetic: units, zeros, signs. *)
From Coq Require Import Reals List ZArith Arith Bool Lia Lra Floats.SpecFloat.
From Flocq Require Import Core IEEE754.BinarySingleNaN.
From Verif Require Import Dbl Number_Spec Number_Proofs Bits_Model Bits_Spec.
Import ListNotations.

(** ** Sign of zero *)
Lemma alike_refl x : alike x x. Proof. left; reflexivity. Qed.
Lemma alike_sym x y : alike x y -> alike y x.
Proof. intros [->|(s & t & -> & ->)]; [left; reflexivity|right; eauto]. Qed.
Lemma alike_trans x y z : alike x y -> alike y z -> alike x z.
Proof.
  intros [->|(s & t & -> & ->)] [<-|(s' & t' & E & ->)]; try (left; congruence); right; eauto.
Qed.
Lemma zeros_alike s t : alike (S754_zero s) (S754_zero t). Proof. right; eauto. Qed.

Ltac zz := repeat match goal with |- context [Bool.eqb ?a ?b] => destruct (Bool.eqb a b) end;
  first [apply alike_refl | apply zeros_alike].
Lemma add_alike x x' y y' : alike x x' -> alike y y' -> alike (dadd x y) (dadd x' y').
Proof.
  intros [->|(s & t & -> & ->)] [->|(s' & t' & -> & ->)]; [apply alike_refl|..];
    [destruct x'|destruct y'|]; unfold dadd; simpl; zz.
Qed.
Lemma sub_alike x x' y y' : alike x x' -> alike y y' -> alike (dsub x y) (dsub x' y').
Proof.
  intros [->|(s & t & -> & ->)] [->|(s' & t' & -> & ->)]; [apply alike_refl|..];
    [destruct x'|destruct y'|]; unfold dsub; simpl;
    repeat match goal with b : bool |- _ => destruct b end; simpl; zz.
Qed.
Lemma mul_alike x x' y y' : alike x x' -> alike y y' -> alike (dmul x y) (dmul x' y').
Proof.
  intros [->|(s & t & -> & ->)] [->|(s' & t' & -> & ->)]; [apply alike_refl|..];
    [destruct x'|destruct y'|]; unfold dmul; simpl; zz.
Qed.
Lemma div_alike x x' y : alike x x' -> alike (ddiv x y) (ddiv x' y).
Proof.
  intros [->|(s & t & -> & ->)]; [apply alike_refl|]. destruct y; unfold ddiv; simpl; zz.
Qed.
Lemma sqrt_alike x x' : alike x x' -> alike (dsqrt x) (dsqrt x').
Proof. intros [->|(s & t & -> & ->)]; [apply alike_refl|]. apply zeros_alike. Qed.

Lemma add_zero_l s x : alike (dadd (S754_zero s) x) x.
Proof. destruct x; unfold dadd; simpl; zz. Qed.
Lemma add_zero_r s x : alike (dadd x (S754_zero s)) x.
Proof. destruct x; unfold dadd; simpl; zz. Qed.
Lemma mul_zero_l s x : is_finite x = true -> exists t, dmul (S754_zero s) x = S754_zero t.
Proof. destruct x; try discriminate; intros _; unfold dmul; simpl; eauto. Qed.
Lemma mul_zero_r s x : is_finite x = true -> exists t, dmul x (S754_zero s) = S754_zero t.
Proof. destruct x; try discriminate; intros _; unfold dmul; simpl; eauto. Qed.

(** ** One *)
Lemma done_form : done = S754_finite false 4503599627370496 (-52). Proof. reflexivity. Qed.
Lemma mul_one_r x : number x -> dmul x done = x.
Proof.
  intros [W F]. assert (Ex : exists a : b64, x = B2SF a) by (exists (SF2B x W); symmetry; apply B2SF_SF2B).
  destruct Ex as [a ->]. change done with (B2SF (BinarySingleNaN.binary_normalize dprec demax _ _ mode_NE 1 0 false)).
  rewrite mul_same. f_equal. set (one := BinarySingleNaN.binary_normalize dprec demax _ _ mode_NE 1 0 false).
  assert (O : B2R one = 1%R) by (unfold one; vm_compute; lra).
  rewrite finite_SF, is_finite_SF_B2SF in F.
  pose proof (Bmult_correct dprec demax _ _ mode_NE a one) as C. rewrite O, Rmult_1_r in C.
  rewrite round_generic in C; [|apply valid_rnd_N|apply generic_format_B2R].
  rewrite Rlt_bool_true in C by apply abs_B2R_lt_emax. destruct C as (C1 & C2 & C3).
  assert (F1 : BinarySingleNaN.is_finite one = true) by reflexivity.
  apply B2R_Bsign_inj; auto.
  - rewrite C2, F, F1. reflexivity.
  - rewrite C3.
    + rewrite (eq_refl : Bsign one = false). apply xorb_false_r.
    + assert (X : BinarySingleNaN.is_finite (Bmult mode_NE a one) = true) by (rewrite C2, F, F1; reflexivity).
      destruct (Bmult mode_NE a one); [reflexivity|discriminate X|discriminate X|reflexivity].
Qed.
Lemma mul_one_l x : number x -> dmul done x = x.
Proof.
  intros H. rewrite <- (mul_one_r x H) at 2. destruct x as [b|b| |b m e]; try reflexivity; try (destruct b; reflexivity).
  unfold dmul. rewrite done_form. cbn [SFmul]. rewrite xorb_comm, Pos.mul_comm, Z.add_comm. reflexivity.
Qed.

(** ** Products *)
Lemma fold_alike (a b a' b' : fvec) l : (forall k, In k l -> alike (a k) (a' k) /\ alike (b k) (b' k)) ->
  forall t t', alike t t' ->
  alike (fold_left (fun t k => dadd t (dmul (a k) (b k))) l t)
        (fold_left (fun t k => dadd t (dmul (a' k) (b' k))) l t').
Proof.
  induction l as [|k l IH]; intros H t t' A; [exact A|]. cbn [fold_left]. apply IH.
  - intros k' I. apply H. right; auto.
  - destruct (H k (or_introl eq_refl)). apply add_alike; auto. apply mul_alike; auto.
Qed.
Lemma dot_alike n a b a' b' : (forall k, (k < n)%nat -> alike (a k) (a' k)) -> (forall k, (k < n)%nat -> alike (b k) (b' k)) ->
  alike (fdot n a b) (fdot n a' b').
Proof.
  intros Ha Hb. apply fold_alike; [|apply alike_refl]. intros k I. apply in_seq in I. split; [apply Ha|apply Hb]; lia.
Qed.
(** Terms that are zeros do not matter. *)
Lemma fold_zeros (f : nat -> double) l : (forall k, In k l -> exists s, f k = S754_zero s) ->
  forall t, alike (fold_left (fun t k => dadd t (f k)) l t) t.
Proof.
  induction l as [|k l IH]; intros H t; [apply alike_refl|]. cbn [fold_left].
  eapply alike_trans; [apply IH; intros; apply H; right; auto|].
  destruct (H k (or_introl eq_refl)) as [s ->]. apply add_zero_r.
Qed.
Lemma fold_one (f : nat -> double) n i : (i < n)%nat -> (forall k, (k < n)%nat -> k <> i -> exists s, f k = S754_zero s) ->
  alike (fold_left (fun t k => dadd t (f k)) (seq 0 n) dzero) (f i).
Proof.
  intros Hi H. replace n with (i + (1 + (n - i - 1)))%nat by lia. rewrite seq_app, fold_left_app, seq_app, fold_left_app.
  cbn [seq fold_left]. eapply alike_trans.
  { apply fold_zeros. intros k I. apply in_seq in I. apply H; lia. }
  eapply alike_trans; [|apply (add_zero_l false)]. apply add_alike; [|replace (0 + i)%nat with i by lia; apply alike_refl].
  apply fold_zeros. intros k I. apply in_seq in I. apply H; lia.
Qed.
Lemma unit_dot n T i v : (i < n)%nat -> unit_row n T i -> (forall k, (k < n)%nat -> number (v k)) ->
  alike (fdot n (T i) v) (v i) /\ alike (fdot n v (T i)) (v i).
Proof.
  intros Hi [U1 U2] Hv. split.
  - rewrite <- (mul_one_l (v i)) by auto. rewrite <- U1.
    apply (fold_one (fun k => dmul (T i k) (v k))); auto.
    intros k Hk Hn. destruct (U2 k Hk Hn) as [s ->]. apply mul_zero_l. apply Hv; auto.
  - rewrite <- (mul_one_r (v i)) by auto. rewrite <- U1.
    apply (fold_one (fun k => dmul (v k) (T i k))); auto.
    intros k Hk Hn. destruct (U2 k Hk Hn) as [s ->]. apply mul_zero_r. apply Hv; auto.
Qed.
Lemma id_unit n i : unit_row n fid i.
Proof.
  unfold unit_row, fid. rewrite Nat.eqb_refl. split; auto. intros k _ H.
  destruct (Nat.eqb_spec i k); [congruence|]. exists false. reflexivity.
Qed.
Lemma number_alike x y : alike x y -> number x -> number y.
Proof. intros [->|(s & t & -> & ->)]; [auto|]. intros _. split; reflexivity. Qed.

Lemma vector_untouched n T v i : (i < n)%nat -> unit_row n T i -> (forall k, (k < n)%nat -> number (v k)) ->
  alike (fapp n T v i) (v i).
Proof. intros. apply unit_dot; auto. Qed.
Lemma matrix_untouched n T M i j : (i < n)%nat -> (j < n)%nat -> unit_row n T i -> unit_row n T j ->
  (forall a b, (a < n)%nat -> (b < n)%nat -> number (M a b)) ->
  alike (fmul n (fmul n T M) (ftr T) i j) (M i j).
Proof.
  intros Hi Hj Ui Uj HM. change (alike (fdot n (fmul n T M i) (T j)) (M i j)).
  assert (S : forall k, (k < n)%nat -> alike (fmul n T M i k) (M i k)).
  { intros k Hk. apply (unit_dot n T i (fun a => M a k)); auto. }
  eapply alike_trans; [|apply S; auto].
  apply (unit_dot n T j (fmul n T M i)); auto.
  intros k Hk. eapply number_alike; [apply alike_sym, S; auto|auto].
Qed.

(** ** Envelopes *)
Lemma total_alike cs ds b : Forall2 (cell_alike b) cs ds -> ftotal cs = ftotal ds.
Proof.
  intros F. unfold ftotal. generalize dzero. induction F as [|c d cs ds (P & _) H IH]; [reflexivity|].
  intros t. cbn [fold_left]. destruct P as (_ & -> & _). apply IH.
Qed.
Lemma sum0_alike b cs ds i : (i < 7)%nat -> Forall2 (cell_alike b) cs ds -> forall v w, alike (v i) (w i) ->
  alike (fold_left (fun (v : fvec) c i => dadd (v i) (dmul (c_m0 c i) (fQ (c_p c)))) cs v i)
        (fold_left (fun (v : fvec) c i => dadd (v i) (dmul (c_m0 c i) (fQ (c_p c)))) ds w i).
Proof.
  intros Hi. induction 1 as [|c d cs ds (P & M & _) H IH]; intros v w A; [exact A|]. cbn [fold_left].
  apply IH. destruct P as (_ & -> & _). apply add_alike; auto. apply mul_alike; [auto|apply alike_refl].
Qed.
Lemma env0_alike b cs ds v w i : (i < 7)%nat -> cs <> [] -> Forall2 (cell_alike b) cs ds ->
  alike (fenv0 cs v i) (fenv0 ds w i).
Proof.
  intros Hi N H. unfold fenv0. rewrite (total_alike _ _ _ H). apply div_alike. unfold fsum0.
  destruct H as [|c d cs ds (P & M & _) H]; [congruence|]. apply (sum0_alike b); auto.
  destruct P as (_ & -> & _). apply mul_alike; [auto|apply alike_refl].
Qed.
Lemma sum1_alike b cs ds (e f : fvec) i j : (i < 7)%nat -> (j < 7)%nat -> (forall i, (i < 7)%nat -> alike (e i) (f i)) ->
  Forall2 (cell_alike b) cs ds -> alike (fsum1 cs e i j) (fsum1 ds f i j).
Proof.
  intros Hi Hj He H. unfold fsum1. set (z := fun _ _ => dzero).
  assert (A : alike (z i j) (z i j)) by apply alike_refl.
  revert A. generalize z at 1 3. generalize z.
  induction H as [|c d cs ds (P & M0 & M1 & _) H IH]; intros v w A; [exact A|]. cbn [fold_left]. apply IH.
  destruct (_ && _)%bool; [|exact A]. destruct P as (_ & -> & _).
  apply add_alike; [exact A|]. apply mul_alike; [apply alike_refl|]. apply add_alike; [auto|].
  apply mul_alike; apply sub_alike; auto.
Qed.
Lemma calc_alike b s t : f_cells s <> [] -> alike (f_pos s) (f_pos t) -> particle_alike (f_ref s) (f_ref t) ->
  Forall2 (cell_alike b) (f_cells s) (f_cells t) -> shown_alike b (fcalc s) (fcalc t).
Proof.
  intros N P R C. unfold shown_alike, fcalc. cbn [f_pos f_ref f_cells f_env0 f_rms f_env1].
  assert (E0 : forall i, (i < 7)%nat -> alike (fenv0 (f_cells s) (f_env0 s) i) (fenv0 (f_cells t) (f_env0 t) i))
    by (intros; eapply env0_alike; eauto).
  assert (E1 : forall i j, (i < 7)%nat -> (j < 7)%nat ->
    alike (fenv1 (f_cells s) (fenv0 (f_cells s) (f_env0 s)) i j) (fenv1 (f_cells t) (fenv0 (f_cells t) (f_env0 t)) i j)).
  { intros. unfold fenv1. rewrite (total_alike _ _ _ C). apply div_alike. eapply sum1_alike; eauto. }
  repeat (split; [auto; fail|]). split; [|auto]. intros. apply sqrt_alike. auto.
Qed.

(** ** Elements *)
Lemma palike_refl p : particle_alike p p.
Proof. unfold particle_alike. repeat split. apply alike_refl. Qed.
Lemma recalc_alike p q : particle_alike p q -> particle_alike (frecalc p) (frecalc q).
Proof.
  intros (H1 & H2 & H3 & H4 & H5 & H6 & H7 & H8 & H9 & H10 & H11 & H12). unfold particle_alike, frecalc. simpl.
  rewrite H1, H2, H3, H8, H11. repeat split; auto.
Qed.
Lemma palike_set p q : particle_alike p q -> p = set_phis (fphis p) q.
Proof.
  intros (H1 & H2 & H3 & H4 & H5 & H6 & H7 & H8 & H9 & H10 & H11 & H12). unfold set_phis. destruct p; simpl in *. congruence.
Qed.
Lemma step_alike len p q : particle_alike p q -> particle_alike (fstep len p) (fstep len q).
Proof.
  intros (H1 & H2 & H3 & H4 & H5 & H6 & H7 & H8 & H9 & H10 & H11 & H12). unfold particle_alike, fstep, set_phis. simpl.
  repeat (split; [auto; fail|]). rewrite H10. apply add_alike; [auto|apply alike_refl].
Qed.
Lemma blind_alike e r r' p p' : phase_blind e -> particle_alike r r' -> particle_alike p p' -> e_mat e r p = e_mat e r' p'.
Proof. intros B R P. rewrite (palike_set _ _ R), (palike_set _ _ P). apply B. Qed.

Lemma advance_alike b e s t : phase_blind e -> f_cells s <> [] -> shown_alike b s t ->
  shown_alike true (fadvance e s) (fadvance e t).
Proof.
  intros B N (P & R & C & _). unfold fadvance. apply recalc_alike in R. apply calc_alike.
  - simpl. destruct (f_cells s); [congruence|discriminate].
  - simpl. apply add_alike; [auto|apply alike_refl].
  - simpl. apply step_alike; auto.
  - cbn [f_cells]. clear N. induction C as [|c d cs ds (CP & M0 & M1 & _) C IH]; [constructor|]. cbn [map].
    constructor; [|exact IH]. apply recalc_alike in CP. unfold fcell_step, frecalc_cell, cell_alike. cbn [c_p c_m0 c_m1 c_tm].
    rewrite (blind_alike e _ _ _ _ B R CP). split; [apply step_alike; auto|]. split; [|split].
    + intros i Hi. apply dot_alike; [intros; apply alike_refl|auto].
    + intros i j Hi Hj. apply dot_alike; [|intros; apply alike_refl].
      intros k Hk. apply dot_alike; [intros; apply alike_refl|auto].
    + reflexivity.
Qed.
Lemma advance_cells e s : f_cells s <> [] -> f_cells (fadvance e s) <> [].
Proof. unfold fadvance. simpl. destruct (f_cells s); [congruence|discriminate]. Qed.
Lemma shown_weaken s t : shown_alike true s t -> shown_alike false s t.
Proof.
  intros (P & R & C & E). split; [auto|]. split; [auto|]. split; [|auto].
  clear R P E. induction C as [|c d cs ds (C1 & C2 & C3 & C4) C IH]; constructor; [|exact IH].
  split; [exact C1|]. split; [exact C2|]. split; [exact C3|]. discriminate.
Qed.
Lemma run_alike es : forall s t, Forall phase_blind es -> f_cells s <> [] -> shown_alike false s t ->
  shown_alike false (frun es s) (frun es t) /\ (es <> [] -> shown_alike true (frun es s) (frun es t)).
Proof.
  induction es as [|e es IH]; intros s t B N A; [split; [exact A|congruence]|].
  apply Forall_cons_iff in B as [B1 B2]. pose proof (advance_alike _ _ _ _ B1 N A) as A1.
  change (frun (e :: es) s) with (frun es (fadvance e s)). change (frun (e :: es) t) with (frun es (fadvance e t)).
  destruct (IH _ _ B2 (advance_cells e s N) (shown_weaken _ _ A1)) as [I1 I2]. split; [exact I1|]. intros _.
  destruct es as [|e' es]; [exact A1|]. apply I2. discriminate.
Qed.

Lemma recalc_idem p : frecalc (frecalc p) = frecalc p.
Proof. reflexivity. Qed.
Lemma env0_old cs v w : cs <> [] -> fenv0 cs v = fenv0 cs w.
Proof. unfold fenv0, fsum0. destruct cs; [congruence|reflexivity]. Qed.
Lemma advance_fresh e s : f_cells s <> [] -> up_to_date (fadvance e s).
Proof.
  intros N. unfold up_to_date. split; [apply advance_cells; auto|]. split; [reflexivity|]. split.
  - unfold fadvance. simpl. apply Forall_map, Forall_map. apply Forall_forall. reflexivity.
  - unfold fadvance, fcalc. cbn [f_cells f_env0 f_env1 f_rms]. split; [|split].
    + intros i. apply (f_equal (fun f : fvec => f i)), env0_old. destruct (f_cells s); [congruence|discriminate].
    + reflexivity.
    + reflexivity.
Qed.
Lemma run_fresh es : forall s, up_to_date s -> up_to_date (frun es s).
Proof.
  induction es as [|e es IH]; intros s U; [exact U|]. apply (IH (fadvance e s)), advance_fresh, U.
Qed.

Lemma still_alike p : is_finite (fK p) = true -> particle_alike (fstep dzero p) p.
Proof.
  intros F. unfold particle_alike, fstep, set_phis. simpl. repeat (split; [reflexivity|]).
  destruct (mul_zero_r false (fK p) F) as [t E]. change dzero with (S754_zero false). rewrite E.
  change (dmul (S754_zero t) d1000) with (S754_zero (xorb t false)). apply add_zero_r.
Qed.
Lemma marker_alike s : up_to_date s -> all_finite s -> shown_alike false (fadvance fmarker s) s.
Proof.
  intros (N & U1 & U2 & U3 & U4 & U5) (F1 & F2). unfold fadvance, fmarker. cbn [e_len].
  set (s1 := mkFS _ _ _ _ _ _).
  assert (A : shown_alike false (fcalc s1) (fcalc s)).
  { apply calc_alike; unfold s1; cbn [f_cells f_pos f_ref].
    - destruct (f_cells s); [congruence|discriminate].
    - apply (add_zero_r false).
    - rewrite U1. apply still_alike; auto.
    - clear s1 N U3 U4 U5. induction (f_cells s) as [|c cs IH]; [constructor|].
      apply Forall_cons_iff in U2 as [U2 U2']. apply Forall_cons_iff in F2 as [(K & M0 & M1) F2'].
      cbn [map]. constructor; [|auto]. unfold cell_alike, fcell_step, frecalc_cell. cbn [c_p c_m0 c_m1 e_len e_mat].
      rewrite U2. split; [apply still_alike; auto|]. split; [|split; [|discriminate]].
      + intros i Hi. apply vector_untouched; auto. apply id_unit.
      + intros i j Hi Hj. apply matrix_untouched; auto; apply id_unit. }
  destruct A as (A1 & A2 & A3 & A4 & A5 & A6). unfold shown_alike. cbn [fcalc f_env0 f_env1 f_rms f_cells] in *.
  assert (E0 : forall i, f_env0 s i = fenv0 (f_cells s) (f_env0 s) i) by exact U3.
  assert (E1 : forall i j, (i < 7)%nat -> (j < 7)%nat ->
    alike (fenv1 (f_cells s) (fenv0 (f_cells s) (f_env0 s)) i j) (f_env1 s i j)).
  { intros i j Hi Hj. rewrite U4. unfold fenv1. apply div_alike. apply (sum1_alike false); auto.
    - intros k Hk. rewrite <- E0. apply alike_refl.
    - clear. induction (f_cells s); constructor; auto. unfold cell_alike.
      split; [apply palike_refl|]. split; [intros; apply alike_refl|]. split; [intros; apply alike_refl|discriminate]. }
  repeat (split; [assumption|]). split; [|split].
  - intros i Hi. rewrite E0. apply A4; auto.
  - intros i Hi. rewrite U5. eapply alike_trans; [apply A5; auto|]. apply sqrt_alike. apply E1; auto.
  - intros i j Hi Hj. eapply alike_trans; [apply A6; auto|]. apply E1; auto.
Qed.

Lemma run_app A B s : frun (A ++ B) s = frun B (frun A s).
Proof. apply fold_left_app. Qed.
Lemma line_alike A B s : Forall phase_blind B -> up_to_date s -> all_finite (frun A s) ->
  shown_alike (match B with [] => false | _ => true end) (frun (A ++ fmarker :: B) s) (frun (A ++ B) s).
Proof.
  intros PB U F. rewrite !run_app. pose proof (run_fresh A s U) as U'.
  pose proof (marker_alike _ U' F) as M.
  change (frun (fmarker :: B) (frun A s)) with (frun B (fadvance fmarker (frun A s))).
  destruct (run_alike B _ _ PB (advance_cells fmarker _ (proj1 U')) M) as [R1 R2].
  destruct B; [exact R1|apply R2; discriminate].
Qed.

(** ** Vector and TransferMatrix *)
Lemma lin_marker s : (forall i, (i < 6)%nat -> number (fl_state s i)) ->
  alike (fl_pos (lin_advance (dzero, fid) s)) (fl_pos s) /\
  forall i, (i < 6)%nat -> alike (fl_state (lin_advance (dzero, fid) s) i) (fl_state s i).
Proof.
  intros F. split; [apply (add_zero_r false)|]. intros i Hi. apply vector_untouched; auto. apply id_unit.
Qed.

(** ** Signs *)
Definition plus (x : double) : Prop := match x with S754_finite true _ _ | S754_infinity true | S754_zero true => False | _ => True end.
Lemma plus_nbz x : plus x -> not_below_zero x.
Proof. destruct x as [[]|[]| |[] ? ?]; simpl; auto. Qed.
Lemma aux_plus m e l : plus (binary_round_aux dprec demax false m e l).
Proof.
  unfold binary_round_aux. destruct (shr_fexp _ _ m e l) as [m1 e1].
  destruct (shr_fexp _ _ _ e1 loc_Exact) as [m2 e2]. destruct (shr_m m2); simpl; auto. destruct (_ <=? _)%Z; exact I.
Qed.
Lemma norm_plus p e : plus (binary_round dprec demax false p e).
Proof. unfold binary_round. unfold shl_align_fexp. destruct (shl_align _ _ _). apply aux_plus. Qed.
Lemma add_plus x y : plus x -> not_below_zero y -> plus (dadd x y).
Proof.
  destruct x as [[]|[]| |[] mx ex]; simpl; try tauto; destruct y as [[]|[]| |[] my ey]; simpl; try tauto.
  all: try (intros; exact I). intros _ _. apply norm_plus.
Qed.
Lemma add_nbz x y : not_below_zero x -> not_below_zero y -> not_below_zero (dadd x y).
Proof.
  destruct x as [[]|[]| |[] mx ex]; simpl; try tauto; destruct y as [[]|[]| |[] my ey]; simpl; try tauto.
  all: try (intros; exact I). intros _ _. apply plus_nbz, norm_plus.
Qed.
Lemma mul_nbz x y : not_below_zero x -> not_below_zero y -> not_below_zero (dmul x y).
Proof.
  destruct x as [[]|[]| |[] mx ex]; simpl; try tauto; destruct y as [[]|[]| |[] my ey]; simpl; try tauto.
  all: try (intros; exact I). intros _ _. apply plus_nbz, aux_plus.
Qed.
Lemma square_nbz x : not_below_zero (dmul x x).
Proof. destruct x as [[]|[]| |[] mx ex]; simpl; auto; apply plus_nbz, aux_plus. Qed.
Lemma div_nbz x y : not_below_zero x -> plus y -> not_below_zero (ddiv x y).
Proof.
  destruct x as [[]|[]| |[] mx ex]; simpl; try tauto; destruct y as [[]|[]| |[] my ey]; simpl; try tauto.
  all: try (intros; exact I). intros _ _. destruct (SFdiv_core_binary _ _ _ _ _ _) as [[mz ez] lz]. apply plus_nbz, aux_plus.
Qed.
Lemma shr1_pos m : (0 <= shr_m m)%Z -> (0 <= shr_m (shr_1 m))%Z.
Proof. destruct m as [[|[]|[]] r s]; simpl; lia. Qed.
Lemma iter_shr_pos n : forall m, (0 <= shr_m m)%Z -> (0 <= shr_m (iter_pos shr_1 n m))%Z.
Proof. induction n; intros m H; simpl; auto using shr1_pos. Qed.
Lemma shr_fexp_pos m e l : (0 <= m)%Z -> (0 <= shr_m (fst (shr_fexp dprec demax m e l)))%Z.
Proof.
  intros H. unfold shr_fexp, shr.
  assert (P : (0 <= shr_m (shr_record_of_loc m l))%Z) by (destruct l as [|[]]; exact H).
  destruct (_ - e)%Z; simpl fst; auto using iter_shr_pos.
Qed.
Lemma aux_no_nan m e l : (0 <= m)%Z -> binary_round_aux dprec demax false m e l <> S754_nan.
Proof.
  intros H. unfold binary_round_aux. pose proof (shr_fexp_pos m e l H) as H1.
  destruct (shr_fexp _ _ m e l) as [m1 e1]. simpl fst in H1.
  assert (H2 : (0 <= round_nearest_even (shr_m m1) (loc_of_shr_record m1))%Z).
  { unfold round_nearest_even. destruct (loc_of_shr_record m1) as [|[]]; try lia. destruct (Z.even _); lia. }
  pose proof (shr_fexp_pos _ e1 loc_Exact H2) as H3.
  destruct (shr_fexp _ _ _ e1 loc_Exact) as [m2 e2]. simpl fst in H3. destruct (shr_m m2); try discriminate; [|lia].
  destruct (_ <=? _)%Z; discriminate.
Qed.
Lemma sqrt_nbz x : not_below_zero x -> not_below_zero (dsqrt x) /\ (dsqrt x = S754_nan -> x = S754_nan).
Proof.
  destruct x as [[]|[]| |[] mx ex]; simpl; try tauto; try (split; [exact I|discriminate]). intros _.
  unfold dsqrt, SFsqrt, SFsqrt_core_binary.
  set (e' := Z.min _ _). set (m' := match _ with Zpos p => _ | _ => _ end).
  assert (M : (0 <= m')%Z).
  { unfold m'. destruct (_ - _)%Z; try lia. apply Z.shiftl_nonneg. lia. }
  pose proof (Z.sqrtrem_spec m' M) as Q. destruct (Z.sqrtrem m') as [q r].
  split; [apply plus_nbz, aux_plus|]. intros E. exfalso. revert E. apply aux_no_nan. nia.
Qed.
Lemma mul_comm x y : dmul x y = dmul y x.
Proof.
  destruct x as [sx|sx| |sx mx ex], y as [sy|sy| |sy my ey]; try reflexivity; unfold dmul, SFmul;
    rewrite (Bool.xorb_comm sx sy); try reflexivity.
  rewrite (Pos.mul_comm mx my), (Z.add_comm ex ey). reflexivity.
Qed.

Lemma total_plus cs : Forall (fun c => not_below_zero (fQ (c_p c))) cs -> plus (ftotal cs).
Proof.
  intros F. unfold ftotal. assert (P : plus dzero) by exact I. revert P. generalize dzero.
  induction F as [|c cs H F IH]; intros t P; [exact P|]. cbn [fold_left]. apply IH, add_plus; auto.
Qed.
Lemma variance_nbz cs e i : (i < 6)%nat ->
  Forall (fun c => not_below_zero (fQ (c_p c)) /\ not_below_zero (c_m1 c i i)) cs -> not_below_zero (fenv1 cs e i i).
Proof.
  intros Hi F. unfold fenv1. apply div_nbz.
  - unfold fsum1. set (z := fun _ _ => dzero). assert (P : not_below_zero (z i i)) by exact I. revert P. generalize z.
    induction F as [|c cs (H1 & H2) F IH]; intros t P; [exact P|]. cbn [fold_left]. apply IH.
    destruct (_ && _)%bool; [|exact P]. apply add_nbz; auto. apply mul_nbz; auto. apply add_nbz; auto. apply square_nbz.
  - apply total_plus. eapply Forall_impl; [|exact F]. intros c [H _]; exact H.
Qed.
Lemma env_symmetric cs e i j : Forall (fun c => c_m1 c i j = c_m1 c j i) cs -> fenv1 cs e i j = fenv1 cs e j i.
Proof.
  intros F. unfold fenv1. f_equal. unfold fsum1. set (z := fun _ _ => dzero).
  assert (P : z i j = z j i) by reflexivity. revert P. generalize z.
  induction F as [|c cs H F IH]; intros t P; [exact P|]. cbn [fold_left]. apply IH.
  rewrite (Bool.andb_comm (Nat.ltb j 6)). destruct (_ && _)%bool; [|exact P].
  rewrite P, H, (mul_comm (dsub (c_m0 c i) (e i))). reflexivity.
Qed.

(** ** Planes *)
Lemma add_zon x y : zero_or_nan x -> zero_or_nan y -> zero_or_nan (dadd x y).
Proof.
  intros [[[] ->]| ->] [[[] ->]| ->]; unfold zero_or_nan; simpl; eauto.
Qed.
Lemma mul_zon_l x y : zero_or_nan x -> zero_or_nan (dmul x y).
Proof. intros [[s ->]| ->]; unfold zero_or_nan; destruct y; simpl; eauto. Qed.
Lemma mul_zon_r x y : zero_or_nan y -> zero_or_nan (dmul x y).
Proof. rewrite mul_comm. apply mul_zon_l. Qed.
Lemma dot_zon n a b : (forall k, (k < n)%nat -> zero_or_nan (a k) \/ zero_or_nan (b k)) -> zero_or_nan (fdot n a b).
Proof.
  intros H. unfold fdot. assert (Z : zero_or_nan dzero) by (left; exists false; reflexivity). revert Z. generalize dzero.
  assert (H' : forall k, In k (seq 0 n) -> zero_or_nan (a k) \/ zero_or_nan (b k)).
  { intros k I. apply in_seq in I. apply H. lia. }
  clear H. induction (seq 0 n) as [|k l IH]; intros t Z; [exact Z|]. cbn [fold_left]. apply IH.
  - intros k' I. apply H'. right. exact I.
  - apply add_zon; [exact Z|]. destruct (H' k (or_introl eq_refl)); [apply mul_zon_l|apply mul_zon_r]; auto.
Qed.
Lemma plane6 j : (j < 6)%nat -> plane 6 <> plane j.
Proof. intros H. do 6 (destruct j as [|j]; [discriminate|]). lia. Qed.
Lemma uncorrelated_step T M : planes_apart T -> uncorrelated M -> uncorrelated (fmul 7 (fmul 7 T M) (ftr T)).
Proof.
  intros HT HM.
  assert (S1 : forall i j, (i < 7)%nat -> (j < 7)%nat -> plane i <> plane j \/ i = 6%nat \/ j = 6%nat -> zero_or_nan (fmul 7 T M i j)).
  { intros i j Hi Hj D. apply dot_zon. intros k Hk.
    destruct (Nat.eq_dec k 6) as [->|K]; [right; apply HM; auto|].
    destruct (Nat.eq_dec (plane i) (plane k)) as [E|E]; [|left; apply HT; auto; lia].
    right. apply HM; auto. destruct D as [D|[->| ->]].
    - left. congruence.
    - exfalso. apply (plane6 k); [lia|exact E].
    - left. intros E'. apply (plane6 k); [lia|congruence]. }
  intros i j Hi Hj D. apply dot_zon. intros k Hk. unfold ftr.
  destruct (Nat.eq_dec k 6) as [->|K]; [left; apply S1; auto|].
  destruct (Nat.eq_dec (plane j) (plane k)) as [E|E]; [|right; apply HT; auto; lia].
  left. apply S1; auto. destruct D as [D| ->]; [left; congruence|auto].
Qed.
Lemma uncorrelated_run es : forall s, Forall (fun e => forall r p, planes_apart (e_mat e r p)) es ->
  Forall (fun c => uncorrelated (c_m1 c)) (f_cells s) -> Forall (fun c => uncorrelated (c_m1 c)) (f_cells (frun es s)).
Proof.
  induction es as [|e es IH]; intros s P U; [exact U|]. apply Forall_cons_iff in P as [P1 P2].
  change (frun (e :: es) s) with (frun es (fadvance e s)). apply IH; auto.
  unfold fadvance, fcalc. cbn [f_cells]. apply Forall_map, Forall_map. eapply Forall_impl; [|exact U].
  intros c Hc. apply uncorrelated_step; auto.
Qed.

(** ** Witnesses *)
Open Scope nat_scope.
(** Uranium-like ions of 931.494061 MeV/u at [Ek] eV/u, 80.5 MHz. *)
Definition w_part (Ek : double) : fpart :=
  frecalc (mkFP done done (d_of_Z 931494061) dzero dzero dzero dzero (d_of_Z 80500000) dzero dzero dzero Ek).
Definition w_state (Ek : double) (m0 : fvec) (m1 : fmat) : fstate :=
  fcalc (mkFS dzero (w_part Ek) [mkFC (w_part Ek) m0 m1 fid] (fun _ => dzero) (fun _ => dzero) (fun _ _ => dzero)).
Lemma w_fresh Ek m0 m1 : up_to_date (w_state Ek m0 m1).
Proof.
  unfold up_to_date. split; [discriminate|]. split; [reflexivity|]. split; [repeat constructor|].
  split; [reflexivity|]. split; reflexivity.
Qed.
Definition half_mega := d_of_Z 500000.
(** A converging beam: variances 9999.999999999993, 0.01, covariance
    -9.999999999999996. *)
Definition w_a : double := S754_finite false 5497558138879996 (-39).
Definition w_b : double := S754_finite true 5629499534213118 (-49).
Definition w_c : double := S754_finite false 5764607523034235 (-59).
Definition w_conv : fmat := fset (fset (fset (fset (fun _ _ => dzero) 0 0 w_a) 0 1 w_b) 1 0 w_b) 1 1 w_c.
(** 0.1 and 0.3 *)
Definition w_1 : double := S754_finite false 7205759403792794 (-56).
Definition w_3 : double := S754_finite false 5404319552844595 (-54).
Definition w_ten := d_of_Z 10.
Definition w_mix : fmat := fun i j =>
  match i, j with
  | 0, 0 | 1, 1 | 2, 2 | 3, 3 => w_ten
  | 0, 2 | 2, 0 | 1, 2 | 2, 1 => done
  | 0, 3 | 3, 0 => w_1
  | 1, 3 | 3, 1 => w_3
  | _, _ => dzero
  end.
Lemma all7 (P : nat -> Prop) : P 0 -> P 1 -> P 2 -> P 3 -> P 4 -> P 5 -> P 6 -> forall i, (i < 7)%nat -> P i.
Proof. intros. do 7 (destruct i as [|i]; [assumption|]). lia. Qed.
Lemma conv_cov : covariance_of_doubles w_conv.
Proof.
  split.
  - intros i j Hi Hj. revert i Hi j Hj.
    apply (all7 (fun i => forall j, (j < 7)%nat -> number (w_conv i j) /\ w_conv i j = w_conv j i));
      (intros j Hj; do 7 (destruct j as [|j]; [split; [split; reflexivity|reflexivity]|]); lia).
  - intros v. cbn [seq map fold_right w_conv fset Nat.eqb andb]. unfold w_a, w_b, w_c, dzero, dval.
    change (-39)%Z with (-59+20)%Z. change (-49)%Z with (-59+10)%Z. rewrite !powerRZ_add by lra.
    assert (P : (0 < powerRZ 2 (-59))%R) by (apply powerRZ_lt; lra). set (u := powerRZ 2 (-59)) in *.
    change (powerRZ 2 20) with (2 ^ 20)%R. change (powerRZ 2 10) with (2^10)%R.
    set (x := v 0). set (y := v 1).
    apply Rle_trans with (u * (5764607523034235 * (y - 5629499534213118 * 2^10 / 5764607523034235 * x) ^ 2 +
      (5497558138879996 * 2^20 - 5629499534213118^2 * 2 ^20 / 5764607523034235) * x ^ 2))%R; [|right; field].
    apply Rmult_le_pos; [lra|]. apply Rplus_le_le_0_compat; [|apply Rmult_le_pos; [|nra]].
    + pose proof (pow2_ge_0 (y - 5629499534213118 * 2^10 / 5764607523034235 * x)). lra.
    + lra.
Qed.
Lemma mix_cov : covariance_of_doubles w_mix.
Proof.
  split.
  - intros i j Hi Hj. revert i Hi j Hj.
    apply (all7 (fun i => forall j, (j < 7)%nat -> number (w_mix i j) /\ w_mix i j = w_mix j i));
      (intros j Hj; do 7 (destruct j as [|j]; [split; [split; reflexivity|reflexivity]|]); lia).
  - intros v. cbn [seq map fold_right w_mix].
    assert (E1 : dval w_ten = 10%R) by (vm_compute; lra).
    assert (E2 : dval done = 1%R) by (vm_compute; lra).
    assert (E3 : dval dzero = 0%R) by reflexivity.
    assert (E4 : (0 <= dval w_1 <= 1)%R) by (vm_compute; lra).
    assert (E5 : (0 <= dval w_3 <= 1)%R) by (vm_compute; lra).
    rewrite E1, E2, E3. set (a := dval w_1) in *. set (b := dval w_3) in *. clearbody a b.
    set (x := v 0). set (y := v 1). set (z := v 2). set (t := v 3).
    assert (H : forall c p q : R, (0 <= c <= 1 -> 0 <= p * p + q * q + 2 * (c * (p * q)))%R) .
    { intros c p q C. replace (p * p + q * q + 2 * (c * (p * q)))%R with ((1 - c) * (p * p + q * q) + c * ((p + q) * (p + q)))%R by ring.
      pose proof (Rle_0_sqr p). pose proof (Rle_0_sqr q). pose proof (Rle_0_sqr (p + q)). unfold Rsqr in *.
      apply Rplus_le_le_0_compat; apply Rmult_le_pos; lra. }
    assert (O : (0 <= 1 <= 1)%R) by lra.
    pose proof (H 1%R x z O). pose proof (H 1%R y z O). pose proof (H a x t E4). pose proof (H b y t E5).
    pose proof (Rle_0_sqr x). pose proof (Rle_0_sqr y). pose proof (Rle_0_sqr z). pose proof (Rle_0_sqr t).
    unfold Rsqr in *. lra.
Qed.
Lemma conv_w : exists e s, up_to_date s /\ all_finite s /\ (exists len, e = fdrift len) /\
  (exists c, f_cells s = [c] /\ fQ (c_p c) = done /\ covariance_of_doubles (c_m1 c)) /\
  dlt (f_env1 (fadvance e s) 0 0) dzero = true /\ f_rms (fadvance e s) 0 = S754_nan.
Proof.
  exists (fdrift done), (w_state half_mega (fun _ => dzero) w_conv).
  split; [apply w_fresh|]. split.
  { split; [reflexivity|]. constructor; [|constructor]. split; [reflexivity|].
    split; [split; reflexivity|]. apply conv_cov. }
  split; [exists done; reflexivity|]. split.
  { eexists. split; [reflexivity|]. split; [reflexivity|]. exact conv_cov. }
  split; vm_compute; reflexivity.
Qed.
Lemma mix_w : exists e s, up_to_date s /\ all_finite s /\ (exists len, e = fdrift len) /\
  (exists c, f_cells s = [c] /\ fQ (c_p c) = done /\ covariance_of_doubles (c_m1 c)) /\
  deq (f_env1 (fadvance e s) 0 2) (f_env1 (fadvance e s) 2 0) = false.
Proof.
  exists (fdrift (S754_finite false 4611686018427388 (-62))), (w_state half_mega (fun _ => dzero) w_mix).
  split; [apply w_fresh|]. split.
  { split; [reflexivity|]. constructor; [|constructor]. split; [reflexivity|].
    split; [split; reflexivity|]. apply mix_cov. }
  split; [eexists; reflexivity|]. split.
  { eexists. split; [reflexivity|]. split; [reflexivity|]. exact mix_cov. }
  vm_compute; reflexivity.
Qed.
Lemma rest_w : exists s, up_to_date s /\
  Forall (fun c => forall i, (i < 7)%nat -> number (c_m0 c i) /\ forall j, (j < 7)%nat -> number (c_m1 c i j)) (f_cells s) /\
  fEk (f_ref s) = dzero /\ fphis (f_ref s) = dzero /\ fphis (f_ref (fadvance fmarker s)) = S754_nan.
Proof.
  exists (w_state dzero (fun _ => dzero) (fun _ _ => dzero)). split; [apply w_fresh|]. split; [repeat constructor|].
  split; [reflexivity|]. split; [reflexivity|]. vm_compute. reflexivity.
Qed.
Lemma infinite_w : exists s, up_to_date s /\ is_finite (fK (f_ref s)) = true /\
  exists c, f_cells s = [c] /\ c_m0 c 0 = S754_infinity false /\ number (c_m0 c 2) /\
  exists d, f_cells (fadvance fmarker s) = [d] /\ c_m0 d 2 = S754_nan.
Proof.
  exists (w_state half_mega (fun i => if Nat.eqb i 0 then S754_infinity false else done) (fun _ _ => dzero)).
  split; [apply w_fresh|]. split; [reflexivity|]. eexists. split; [reflexivity|]. split; [reflexivity|].
  split; [split; reflexivity|]. eexists. split; [reflexivity|]. vm_compute. reflexivity.
Qed.

Lemma cells_step e s :
  f_cells (fadvance e s) = map (fun c => fcell_step e (frecalc (f_ref s)) (frecalc_cell c)) (f_cells s).
Proof. unfold fadvance, fcalc. cbn [f_cells]. apply map_map. Qed.
Lemma kept_trans I l1 l2 : Forall2 (kept I) l1 l2 -> forall l3, Forall2 (kept I) l2 l3 -> Forall2 (kept I) l1 l3.
Proof.
  induction 1 as [|c d l1 l2 [A0 A1] H IH]; intros l3 K; inversion K as [|x y l l' [B0 B1] K2]; subst; constructor; auto.
  split; intros; eapply alike_trans; eauto.
Qed.
Lemma kept_cell (I : nat -> Prop) e r c : (forall p i, I i -> (i < 7)%nat /\ unit_row 7 (e_mat e r p) i) ->
  (forall i, (i < 7)%nat -> number (c_m0 c i)) -> (forall i j, (i < 7)%nat -> (j < 7)%nat -> number (c_m1 c i j)) ->
  kept I c (fcell_step e r (frecalc_cell c)).
Proof.
  intros H M0 M1. unfold kept, fcell_step, frecalc_cell. cbn [c_m0 c_m1 c_p]. set (p := frecalc (c_p c)). clearbody p. split.
  - intros i Ii. destruct (H p i Ii) as [L U]. exact (vector_untouched 7 _ _ _ L U M0).
  - intros i j Ii Ij. destruct (H p i Ii) as [L U]. destruct (H p j Ij) as [L' U'].
    exact (matrix_untouched 7 _ _ _ _ L L' U U' M1).
Qed.
Lemma kept_step (I : nat -> Prop) e s : (forall r p i, I i -> (i < 7)%nat /\ unit_row 7 (e_mat e r p) i) ->
  all_finite s -> Forall2 (kept I) (f_cells s) (f_cells (fadvance e s)).
Proof.
  intros H (_ & F). rewrite cells_step. set (r := frecalc (f_ref s)). clearbody r.
  induction F as [|c cs (_ & M0 & M1) F IH]; constructor; [|exact IH]. apply kept_cell; auto.
Qed.
Lemma kept_run (I : nat -> Prop) es : forall s,
  Forall (fun e => forall r p i, I i -> (i < 7)%nat /\ unit_row 7 (e_mat e r p) i) es ->
  (forall A B, es = A ++ B -> B <> [] -> all_finite (frun A s)) -> Forall2 (kept I) (f_cells s) (f_cells (frun es s)).
Proof.
  induction es as [|e es IH]; intros s H F.
  - change (frun [] s) with s. clear. induction (f_cells s); constructor; auto. split; intros; apply alike_refl.
  - apply Forall_cons_iff in H as [H1 H2]. change (frun (e :: es) s) with (frun es (fadvance e s)).
    eapply kept_trans; [apply (kept_step I e s H1)|].
    + exact (F [] (e :: es) eq_refl ltac:(discriminate)).
    + apply IH; [exact H2|]. intros A B E N. exact (F (e :: A) B (f_equal (cons e) E) N).
Qed.
Lemma root_real s : Forall (fun c => not_below_zero (fQ (c_p c)) /\ forall i, (i < 6)%nat -> not_below_zero (c_m1 c i i)) (f_cells s) ->
  forall i, (i < 6)%nat -> not_below_zero (f_env1 (fcalc s) i i) /\ not_below_zero (f_rms (fcalc s) i) /\
    (f_rms (fcalc s) i = S754_nan -> f_env1 (fcalc s) i i = S754_nan).
Proof.
  intros F i Hi. unfold fcalc. cbn [f_env1 f_rms].
  assert (N : not_below_zero (fenv1 (f_cells s) (fenv0 (f_cells s) (f_env0 s)) i i)).
  { apply variance_nbz; auto. eapply Forall_impl; [|exact F]. intros c [H1 H2]; auto. }
  split; [exact N|]. apply sqrt_nbz. exact N.
Qed.
Lemma shown_symmetric s i j : Forall (fun c => c_m1 c i j = c_m1 c j i) (f_cells s) -> f_env1 (fcalc s) i j = f_env1 (fcalc s) j i.
Proof. apply env_symmetric. Qed.

Lemma drift_unit len r p i : In i [1; 3; 5; 6] -> (i < 7)%nat /\ unit_row 7 (e_mat (fdrift len) r p) i.
Proof.
  intros [<-|[<-|[<-|[<-|[]]]]]; (split; [lia|]; split; [reflexivity|]; intros k Hk N;
    do 7 (destruct k as [|k]; [try congruence; exists false; reflexivity|]); lia).
Qed.
Lemma drifts_keep lens s : (forall A B, lens = A ++ B -> B <> [] -> all_finite (frun (map fdrift A) s)) ->
  Forall2 (kept (fun i => In i [1; 3; 5; 6]%nat)) (f_cells s) (f_cells (frun (map fdrift lens) s)).
Proof.
  intros H. apply kept_run.
  - apply Forall_map, Forall_forall. intros len _ r p i. apply drift_unit.
  - intros A B E N. apply map_eq_app in E as (A' & B' & -> & <- & <-). apply (H A' B'); [reflexivity|].
    intros ->. apply N. reflexivity.
Qed.
Lemma drift_apart len r p : planes_apart (e_mat (fdrift len) r p).
Proof.
  intros i j Hi Hj N. revert i Hi N. do 6 (destruct j as [|j]; [intros i Hi N;
    do 7 (destruct i as [|i]; [try (exfalso; apply N; reflexivity); left; exists false; reflexivity|]); lia|]). lia.
Qed.
Lemma drift_blind len : phase_blind (fdrift len).
Proof. intros r p x y. reflexivity. Qed.
Lemma marker_blind : phase_blind fmarker.
Proof. intros r p x y. reflexivity. Qed.
