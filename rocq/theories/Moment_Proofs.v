(** Initial states, and per-charge-state arrays staying aligned. *)
From Coq Require Import Reals List String Bool NArith ZArith Arith Lia Lra DecimalString.
From Verif Require Import SMap SMap_Proofs Dbl Config_Spec Mat Mat_Proofs Minv Minv_Proofs
  Machine_Model Machine_Spec Machine_Proofs Machine2_Proofs Machine4_Proofs Moment_Model Moment_Spec.
Import ListNotations.
Open Scope R_scope.
Open Scope string_scope.
Open Scope list_scope.

Lemma rbind_ok {A C} (r : res A) (f : A -> res C) x : rbind r f = Ok x -> exists a, r = Ok a /\ f a = Ok x.
Proof. destruct r; simpl; [eauto|discriminate]. Qed.
Lemma rbind_throw {A C} (r : res A) (f : A -> res C) x :
  rbind r f = Throw x -> r = Throw x \/ exists a, r = Ok a /\ f a = Throw x.
Proof. destruct r; simpl; [eauto|left; congruence]. Qed.

(** ** Conversions *)
Lemma dtrunc_spec x z : dtrunc x = Some z <-> truncates x z.
Proof.
  destruct x as [s|s| |s m e]; cbn [dtrunc truncates]; cbv zeta.
  - split; [intros [= <-]; auto|intros ->; auto].
  - split; [discriminate|tauto].
  - split; [discriminate|tauto].
  - set (a := if (0 <=? e)%Z then (Z.pos m * 2 ^ e)%Z else (Z.pos m / 2 ^ (- e))%Z).
    assert (A : forall y, (0 <= y)%Z ->
      ((y * 2 ^ Z.max 0 (- e) <= Z.pos m * 2 ^ Z.max 0 e < (y + 1) * 2 ^ Z.max 0 (- e))%Z <-> y = a)).
    { intros y Hy. unfold a. destruct (Z.leb_spec 0 e).
      - rewrite (Z.max_l 0 (- e)), (Z.max_r 0 e) by lia. rewrite !Z.pow_0_r. lia.
      - rewrite (Z.max_r 0 (- e)), (Z.max_l 0 e) by lia. rewrite Z.pow_0_r.
        assert (P : (0 < 2 ^ (- e))%Z) by (apply Z.pow_pos_nonneg; lia).
        split.
        + intros [H1 H2]. apply Z.div_unique with (r := (Z.pos m - y * 2 ^ (- e))%Z); nia.
        + intros ->. pose proof (Z.div_mod (Z.pos m) (2 ^ (- e)) ltac:(lia)).
          pose proof (Z.mod_pos_bound (Z.pos m) (2 ^ (- e)) P). nia. }
    assert (PA : (0 <= a)%Z).
    { unfold a. destruct (Z.leb_spec 0 e); [apply Z.mul_nonneg_nonneg; [lia|apply Z.pow_nonneg; lia]|].
      apply Z.div_pos; [lia|apply Z.pow_pos_nonneg; lia]. }
    clearbody a. split.
    + intros [= <-]. rewrite A by lia. destruct s; lia.
    + intros [H1 H2]. rewrite A in H1 by lia. destruct s; f_equal; lia.
Qed.
Lemma truncates_unique x z z' : truncates x z -> truncates x z' -> z = z'.
Proof. rewrite <- !dtrunc_spec. congruence. Qed.

Lemma cast_size_ok x n : cast_size x = Ok n <-> truncates x (Z.of_N n) /\ (Z.of_N n < 2 ^ 64)%Z.
Proof.
  unfold cast_size, cast_unsigned. split.
  - destruct (dtrunc x) as [z|] eqn:E; [|discriminate].
    destruct (_ && _)%bool eqn:B; [|discriminate]. intros [= <-].
    apply andb_true_iff in B as [B1 B2]. rewrite Z.leb_le in B1. rewrite Z.ltb_lt in B2.
    rewrite Z2N.id by auto. apply dtrunc_spec in E. auto.
  - intros [H1 H2]. apply dtrunc_spec in H1. rewrite H1.
    rewrite (proj2 (Z.leb_le _ _)) by lia. rewrite (proj2 (Z.ltb_lt _ _)) by lia. simpl.
    rewrite N2Z.id. reflexivity.
Qed.

Lemma kinematic_recalc p : kinematic (recalc p).
Proof.
  unfold kinematic, recalc. simpl. split; [auto|]. split; [|split; [|split; [|split]]].
  - intros H. destruct (Req_EM_T (p_Es p) 0); [congruence|]. field. auto.
  - intros H. split; [apply sqrt_pos|]. apply sqrt_sqrt.
    set (g := if Req_EM_T (p_Es p) 0 then 1 else _) in *.
    assert (1 <= g * g) by nra. assert (/ (g * g) <= / 1) by (apply Rinv_le_contravar; lra).
    unfold Rdiv. rewrite Rinv_1 in *. lra.
  - set (b := sqrt _). intros H. destruct (Req_EM_T b 0) as [E|E]; [congruence|auto].
  - intros H. unfold C0, MtoMM. field. auto.
  - set (b := sqrt _). intros H H'. unfold C0, MtoMM. field. split; auto.
Qed.

Lemma recalc_idem p : recalc (recalc p) = recalc p.
Proof. reflexivity. Qed.

Section M.
Variable w : world.
Notation num := (w_num w).

(** ** Initial states *)
Lemma calc_rms_ok s s' : calc_rms w s = Ok s' ->
  ms_pos s' = ms_pos s /\ ms_ref s' = ms_ref s /\ ms_real s' = ms_real s /\ ms_m0 s' = ms_m0 s /\
  ms_m1 s' = ms_m1 s /\ ms_tm s' = ms_tm s /\ ms_phi0 s' = ms_phi0 s /\
  ms_env0 s' = env0_of (ms_real s) (ms_m0 s) /\
  ms_env1 s' = env1_of (ms_real s) (ms_m0 s) (ms_m1 s) (ms_env0 s') /\
  ms_rms s' = (fun j => sqrt (ms_env1 s' j j)).
Proof.
  unfold calc_rms. destruct (_ && _)%bool; [discriminate|]. destruct (_ || _)%bool; [discriminate|].
  intros [= <-]. simpl. repeat (split; [reflexivity|]). reflexivity.
Qed.
Lemma calc_rms_aligned s : aligned s -> exists s', calc_rms w s = Ok s' /\ aligned s'.
Proof.
  intros (H1 & H2 & H3 & H4). unfold calc_rms. rewrite H2, H3, Nat.ltb_irrefl. simpl.
  replace (Nat.eqb (List.length (ms_real s)) 0) with false.
  2:{ destruct (ms_real s); [congruence|reflexivity]. }
  rewrite andb_false_r. eexists. split; [reflexivity|]. repeat split; auto.
Qed.

Lemma load_storage_ok n c name l : load_storage n c name = Ok l <-> vec_at c name = Some l /\ List.length l = n.
Proof.
  unfold load_storage, get_vec, vec_at. destruct (tfind name c) as [[| | |]|]; try (split; [discriminate|intros [H _]; discriminate]).
  destruct (Nat.eqb_spec (List.length l0) n); split; try discriminate.
  - intros [= <-]. auto.
  - intros [[= <-] _]. auto.
  - intros [[= <-] H]. congruence.
Qed.

Definition cell_is (c : tcfg) (ref : particle) (k : N) (z q : double) (x : particle * (vec * mat)) : Prop :=
  exists lv lm,
    vec_at c (get_str_def c "vector_variable" "moment0" ++ dec k)%string = Some lv /\ List.length lv = 7%nat /\
    vec_at c (get_str_def c "matrix_variable" "initial" ++ dec k)%string = Some lm /\ List.length lm = 49%nat /\
    x = (recalc (mkP (num z) (num q) (p_Es ref) (p_W ref) (p_gamma ref) (p_beta ref) (p_bg ref) (p_freq ref)
                  (p_lambda ref) (p_K ref) (vec_of w lv PS_S) (p_Ek ref + vec_of w lv PS_PS * MeVtoeV)),
         (vec_of w lv, mat_of w lm)).
Notation vn c := (get_str_def c "vector_variable" "moment0").
Notation mn c := (get_str_def c "matrix_variable" "initial").
Lemma new_cell_ok c ref k z q x :
  new_cell w c (vn c) (mn c) ref k (num z) (num q) = Ok x <-> cell_is c ref k z q x.
Proof.
  unfold new_cell, cell_is. split.
  - intros H. apply rbind_ok in H as (lv & H1 & H). apply rbind_ok in H as (lm & H2 & H).
    apply load_storage_ok in H1, H2. injection H as <-. exists lv, lm. destruct H1, H2. auto.
  - intros (lv & lm & H1 & H2 & H3 & H4 & ->).
    rewrite (proj2 (load_storage_ok msize c _ lv)) by auto. simpl rbind.
    rewrite (proj2 (load_storage_ok (msize * msize) c _ lm)) by auto. reflexivity.
Qed.
Lemma new_cells_ok c ref zqs : forall k l,
  new_cells w c (vn c) (mn c) ref k zqs = Ok l <->
  List.length l = List.length zqs /\
  forall j z q x, nth_error zqs j = Some (z, q) -> nth_error l j = Some x -> cell_is c ref (k + N.of_nat j) z q x.
Proof.
  induction zqs as [|[z q] zqs IH]; intros k l; cbn [new_cells].
  - split; [intros [= <-]; split; auto; intros [|] ? ? ? H; discriminate|].
    intros [H _]. destruct l; [reflexivity|discriminate].
  - split.
    + intros H. apply rbind_ok in H as (x & H1 & H). apply rbind_ok in H as (l' & H2 & H).
      injection H as <-. apply new_cell_ok in H1. apply IH in H2 as [H2 H3]. split; [simpl; lia|].
      intros [|j] z' q' x' A Bx.
      * injection A as <- <-. injection Bx as <-. rewrite N.add_0_r. auto.
      * replace (k + N.of_nat (S j))%N with (N.succ k + N.of_nat j)%N by lia. eapply H3; eauto.
    + intros [H1 H2]. destruct l as [|x l]; [discriminate|].
      rewrite (proj2 (new_cell_ok c ref k z q x)).
      2:{ specialize (H2 0%nat z q x eq_refl eq_refl). rewrite N.add_0_r in H2. auto. }
      cbn [rbind]. rewrite (proj2 (IH (N.succ k) l)); [reflexivity|]. split; [simpl in H1; lia|].
      intros j z' q' x' A Bx. replace (N.succ k + N.of_nat j)%N with (k + N.of_nat (S j))%N by lia.
      eapply H2; eauto.
Qed.

Lemma vec_at_get c n : vec_at c n = match get_vec c n with Ok l => Some l | Throw _ => None end.
Proof. unfold vec_at, get_vec. destruct (tfind n c) as [[]|]; reflexivity. Qed.
Lemma get_vec_ok c n l : get_vec c n = Ok l <-> vec_at c n = Some l.
Proof. rewrite vec_at_get. destruct (get_vec c n); split; congruence. Qed.
Lemma str_at_get c n d : get_str_def c n d = str_at c n d.
Proof. reflexivity. Qed.

(** What construction amounts to. *)
Definition base_ref (c : tcfg) : particle :=
  recalc (mkP 0 0 (num_def w c "IonEs" 0) 0 0 0 0 (num_def w c "SampleFreq" SampleFreqDefault)
              0 0 0 (num_def w c "IonEk" 0)).
Lemma kin_base c : kinematic (base_ref c).
Proof. apply kinematic_recalc. Qed.
(** The single state of a Config without IonChargeStates. *)
Definition lone (c : tcfg) (ref : particle) (s : mstate) : Prop :=
  ms_real s = [ref] /\ ms_ref s = ref /\
  p_Z ref = real_at num c "IonZ" 0 /\ p_Q ref = real_at num c "IonQ" 1 /\
  p_Es ref = real_at num c "IonEs" 0 /\ p_Ek ref = real_at num c "IonEk" 0 /\
  p_freq ref = real_at num c "SampleFreq" 80500000 /\ p_phis ref = 0 /\ kinematic ref /\
  ms_m0 s = [match load_storage msize c (vn c) with Ok l => vec_of w l | Throw _ => w_junk0 w end] /\
  ms_m1 s = [match load_storage (msize * msize) c (mn c) with Ok l => mat_of w l | Throw _ => w_junk1 w end].

Lemma kin_ZQ p z q : kinematic p ->
  kinematic (mkP z q (p_Es p) (p_W p) (p_gamma p) (p_beta p) (p_bg p) (p_freq p) (p_lambda p) (p_K p) (p_phis p) (p_Ek p)).
Proof. intros H. exact H. Qed.
Definition many (c : tcfg) (zs qs : list double) (s : mstate) : Prop :=
  List.length qs = List.length zs /\
  exists (k0 : nat) zqs ref l,
    match num_at c "cstate" with
    | None => k0 = 0%nat /\ zqs = combine zs qs
    | Some x => truncates x (Z.of_nat k0) /\ (k0 < List.length zs)%nat /\ (Z.of_nat k0 < 2 ^ 64)%Z /\
                exists z q, nth_error zs k0 = Some z /\ nth_error qs k0 = Some q /\ zqs = [(z, q)]
    end /\
    p_Es ref = p_Es (base_ref c) /\ p_Ek ref = p_Ek (base_ref c) /\ p_freq ref = p_freq (base_ref c) /\
    kinematic ref /\ p_phis ref = 0 /\
    (forall z, nth_error zs 0 = Some z -> p_Z ref = real_at num c "IonZ" (num z)) /\
    (forall q, nth_error qs 0 = Some q -> p_Q ref = real_at num c "IonQ" (num q)) /\
    List.length l = List.length zqs /\
    (forall j z q x, nth_error zqs j = Some (z, q) -> nth_error l j = Some x ->
       cell_is c ref (N.of_nat k0 + N.of_nat j) z q x) /\
    ms_ref s = ref /\ ms_real s = map fst l /\ ms_m0 s = map (fun x => fst (snd x)) l /\
    ms_m1 s = map (fun x => snd (snd x)) l /\ ms_tm s = map (fun _ => mid) l.
Lemma combine_nth_pair {A C} (l : list A) (l' : list C) n a b :
  nth_error l n = Some a -> nth_error l' n = Some b -> nth_error (combine l l') n = Some (a, b).
Proof. revert l' n; induction l; destruct l', n; simpl; intros; try discriminate; try congruence; eauto. Qed.
Lemma combine_nth_inv {A C} (l : list A) (l' : list C) n a b :
  nth_error (combine l l') n = Some (a, b) -> nth_error l n = Some a /\ nth_error l' n = Some b.
Proof. revert l' n; induction l; destruct l', n; simpl; intros; try discriminate; try congruence; eauto.
  injection H as -> ->. auto. Qed.
Lemma real_at_def c n d : real_at num c n d = num_def w c n d.
Proof. unfold real_at, num_at, num_def. destruct (tfind n c) as [[]|]; reflexivity. Qed.

Lemma new_state_many c zs s :
  vec_at c "IonChargeStates" = Some zs -> new_state w c = Ok s ->
  zs <> [] /\ ms_pos s = 0 /\ aligned s /\ exists qs, vec_at c "NCharge" = Some qs /\ many c zs qs s.
Proof.
  intros HZ H. unfold new_state in H. apply rbind_ok in H as (ic & Hic & H).
  assert (TZ : tfind "IonChargeStates" c = Some (TVec zs)).
  { unfold vec_at in HZ. destruct (tfind "IonChargeStates" c) as [[]|]; congruence. }
  rewrite TZ in H. destruct zs as [|z0 zs]; [discriminate|]. split; [discriminate|].
  destruct (N.leb_spec (N.of_nat (List.length (z0 :: zs))) ic) as [|Hlt]; [discriminate|].
  apply rbind_ok in H as (qs & Hq & H). apply get_vec_ok in Hq.
  destruct (Nat.eqb_spec (List.length qs) (List.length (z0 :: zs))) as [HL|]; [|discriminate].
  cbn [negb] in H. destruct qs as [|q0 qs]; [discriminate|].
  apply rbind_ok in H as (l & Hl & H). apply new_cells_ok in Hl as [L1 L2].
  fold (base_ref c) in H, L2. set (ref := mkP _ _ _ _ _ _ _ _ _ _ _ _) in *.
  destruct (calc_rms_ok _ _ H) as (R1 & R2 & R3 & R4 & R5 & R6 & _). simpl in R1, R2, R3, R4, R5, R6.
  match type of L1 with _ = List.length ?z => set (zqs := z) in * end.
  assert (HM : match num_at c "cstate" with
    | None => zqs = combine (z0 :: zs) (q0 :: qs)
    | Some x => truncates x (Z.of_N ic) /\ (Z.of_N ic < 2 ^ 64)%Z /\
        exists z q, nth_error (z0 :: zs) (N.to_nat ic) = Some z /\ nth_error (q0 :: qs) (N.to_nat ic) = Some q /\
          zqs = [(z, q)] end).
  { unfold zqs, num_at. destruct (tfind "cstate" c) as [[x| | |]|]; try reflexivity.
    apply cast_size_ok in Hic as [H1 H2]. split; [auto|]. split; [auto|].
    destruct (nth_error (z0 :: zs) (N.to_nat ic)) as [z|] eqn:E1.
    2:{ apply nth_error_None in E1. lia. }
    destruct (nth_error (q0 :: qs) (N.to_nat ic)) as [q|] eqn:E2.
    2:{ apply nth_error_None in E2. lia. }
    exists z, q. rewrite (combine_nth_pair _ _ _ _ _ E1 E2). auto. }
  assert (NE : l <> []).
  { intros ->. destruct (num_at c "cstate") as [x|].
    - destruct HM as (_ & _ & z & q & _ & _ & ->). discriminate.
    - rewrite HM in L1. discriminate. }
  split; [congruence|]. split.
  { repeat split; rewrite ?R3, ?R4, ?R5, ?R6, ?map_length; auto. destruct l; [congruence|discriminate]. }
  exists (q0 :: qs). split; [auto|]. split; [auto|].
  exists (match num_at c "cstate" with Some _ => N.to_nat ic | None => 0%nat end), zqs, ref, l.
  split.
  { destruct (num_at c "cstate") as [x|]; [|auto]. destruct HM as (A1 & A2 & A3).
    rewrite N_nat_Z. split; [auto|]. split; [lia|]. split; auto. }
  repeat (split; [reflexivity|]). split; [apply (kin_ZQ (base_ref c)), kin_base|].
  split; [reflexivity|]. split; [|split; [|split; [auto|split]]].
  - intros z [= <-]. rewrite real_at_def. reflexivity.
  - intros q [= <-]. rewrite real_at_def. reflexivity.
  - intros j z q x A1 A2. specialize (L2 j z q x A1 A2). unfold num_at.
    destruct (tfind "cstate" c) as [[x'| | |]|]; rewrite ?N2Nat.id; exact L2.
  - auto.
Qed.

Lemma new_state_lone c s :
  vec_at c "IonChargeStates" = None -> new_state w c = Ok s ->
  num_at c "cstate" = None /\ ms_pos s = 0 /\ aligned s /\ ms_tm s = [mid] /\ exists ref, lone c ref s.
Proof.
  intros HZ H. unfold new_state in H. apply rbind_ok in H as (ic & _ & H).
  unfold vec_at in HZ. rewrite HZ in H.
  unfold num_at. destruct (match tfind "cstate" c with Some (TNum x) => Some x | _ => None end) as [x|] eqn:E; [discriminate|].
  fold (base_ref c) in H. set (b := base_ref c) in *.
  destruct (calc_rms_ok _ _ H) as (R1 & R2 & R3 & R4 & R5 & R6 & _). cbn [ms_pos ms_ref ms_real ms_m0 ms_m1 ms_tm] in *.
  split; [reflexivity|]. split; [auto|]. split.
  { repeat split; rewrite ?R3, ?R4, ?R5, ?R6; auto; discriminate. }
  split; [auto|]. exists (ms_ref s). unfold lone. rewrite R2, R3, R4, R5, !real_at_def.
  repeat (split; [reflexivity|]).
  split; [apply (kin_ZQ b), kin_base|]. split; reflexivity.
Qed.

Lemma new_state_describes c s : new_state w c = Ok s -> describes_state c.
Proof.
  intros H. unfold describes_state. destruct (vec_at c "IonChargeStates") as [zs|] eqn:E.
  2:{ apply (new_state_lone _ _ E H). }
  destruct (new_state_many _ _ _ E H) as (H1 & _ & _ & qs & H2 & H3 & k0 & zqs & ref & l & HC & _ & _ & _ & _ & _ & _ & _ & HL & HX & _).
  split; [auto|]. split; [eauto|]. split.
  - intros x Hx. rewrite Hx in HC. destruct HC as (C1 & C2 & C3 & _). exists (Z.of_nat k0). split; [auto|lia].
  - intros k [K1 K2].
    assert (X : exists z q x, cell_is c ref (N.of_nat k) z q x).
    { destruct (num_at c "cstate") as [x|].
      - destruct HC as (C1 & C2 & C3 & z & q & C4 & C5 & ->).
        specialize (K2 x eq_refl). assert (k = k0) by (pose proof (truncates_unique _ _ _ C1 K2); lia). subst k0.
        destruct l as [|y l]; [discriminate|]. exists z, q, y. specialize (HX 0%nat z q y eq_refl eq_refl).
        rewrite N.add_0_r in HX. auto.
      - destruct HC as [-> ->].
        destruct (nth_error zs k) as [z|] eqn:Ez; [|apply nth_error_None in Ez; lia].
        destruct (nth_error qs k) as [q|] eqn:Eq; [|apply nth_error_None in Eq; lia].
        pose proof (combine_nth_pair _ _ _ _ _ Ez Eq) as Ec.
        destruct (nth_error l k) as [y|] eqn:Ey.
        + exists z, q, y. apply (HX _ _ _ _ Ec Ey).
        + apply nth_error_None in Ey. rewrite HL, combine_length in Ey. lia. }
    destruct X as (z & q & x & lv & lm & X1 & X2 & X3 & X4 & _). split; eauto.
Qed.

Lemma cells_exist c ref zqs : forall k,
  (forall j, (j < List.length zqs)%nat -> exists lv lm,
    vec_at c (vn c ++ dec (k + N.of_nat j))%string = Some lv /\ List.length lv = 7%nat /\
    vec_at c (mn c ++ dec (k + N.of_nat j))%string = Some lm /\ List.length lm = 49%nat) ->
  exists l, new_cells w c (vn c) (mn c) ref k zqs = Ok l /\ List.length l = List.length zqs.
Proof.
  induction zqs as [|[z q] zqs IH]; intros k H; [exists []; auto|].
  destruct (H 0%nat ltac:(simpl; lia)) as (lv & lm & H1 & H2 & H3 & H4). rewrite N.add_0_r in *.
  destruct (IH (N.succ k)) as (l & Hl & HL).
  { intros j Hj. destruct (H (S j) ltac:(simpl; lia)) as (lv' & lm' & K).
    replace (k + N.of_nat (S j))%N with (N.succ k + N.of_nat j)%N in K by lia. eauto. }
  assert (X : exists x, new_cell w c (vn c) (mn c) ref k (num z) (num q) = Ok x).
  { eexists. apply new_cell_ok. exists lv, lm. repeat (split; [eassumption|]). reflexivity. }
  destruct X as [x X]. exists (x :: l). cbn [new_cells]. rewrite X.
  cbn [rbind]. rewrite Hl. cbn [rbind]. split; [reflexivity|]. simpl. auto.
Qed.

Lemma describes_new_state c : describes_state c -> exists s, new_state w c = Ok s.
Proof.
  unfold describes_state, new_state, num_at. intros H.
  destruct (vec_at c "IonChargeStates") as [zs|] eqn:E.
  - assert (TZ : tfind "IonChargeStates" c = Some (TVec zs)).
    { unfold vec_at in E. destruct (tfind "IonChargeStates" c) as [[]|]; congruence. }
    rewrite TZ. destruct H as (H1 & (qs & H2 & H3) & H4 & H5).
    destruct zs as [|z0 zs]; [congruence|]. destruct qs as [|q0 qs]; [discriminate|].
    unfold wanted, num_at in H5.
    assert (X : exists ic, match (match tfind "cstate" c with Some (TNum x) => Some x | _ => None end) with
        Some x => cast_size x | None => Ok 0%N end = Ok ic /\ (ic < N.of_nat (List.length (z0 :: zs)))%N /\
        forall x, match tfind "cstate" c with Some (TNum x) => Some x | _ => None end = Some x -> truncates x (Z.of_N ic)).
    { destruct (match tfind "cstate" c with Some (TNum x) => Some x | _ => None end) as [x|].
      - destruct (H4 x eq_refl) as (z & T & Hz1 & Hz2). exists (Z.to_N z).
        split; [apply cast_size_ok; rewrite Z2N.id by lia; auto|]. split; [lia|].
        intros x0 [= <-]. rewrite Z2N.id by lia. auto.
      - exists 0%N. split; [auto|]. split; [simpl; lia|]. discriminate. }
    destruct X as (ic & -> & X2 & X3). cbn [rbind].
    destruct (N.leb_spec (N.of_nat (List.length (z0 :: zs))) ic); [lia|].
    rewrite (proj2 (get_vec_ok c "NCharge" (q0 :: qs))) by auto. cbn [rbind].
    rewrite H3, Nat.eqb_refl. cbn [negb].
    match goal with |- context [new_cells w c (vn c) (mn c) ?r ?k ?z] => set (ref := r); set (k0 := k); set (zqs := z) end.
    assert (Z0 : zqs <> [] /\ forall j, (j < List.length zqs)%nat -> exists k, (k0 + N.of_nat j)%N = N.of_nat k /\
       (k < List.length (z0 :: zs))%nat /\
       forall x, match tfind "cstate" c with Some (TNum x) => Some x | _ => None end = Some x -> truncates x (Z.of_nat k)).
    { unfold zqs, k0. destruct (match tfind "cstate" c with Some (TNum x) => Some x | _ => None end) as [x|].
      - destruct (nth_error (z0 :: zs) (N.to_nat ic)) as [z|] eqn:E1.
        2:{ apply nth_error_None in E1. lia. }
        destruct (nth_error (q0 :: qs) (N.to_nat ic)) as [q|] eqn:E2.
        2:{ apply nth_error_None in E2. lia. }
        rewrite (combine_nth_pair _ _ _ _ _ E1 E2). split; [discriminate|]. intros j Hj. simpl in Hj.
        assert (j = 0)%nat by lia. subst j. exists (N.to_nat ic). split; [lia|]. split; [lia|].
        intros x' [= <-]. rewrite N_nat_Z. auto.
      - split; [discriminate|]. intros j Hj. rewrite combine_length in Hj. exists j.
        split; [lia|]. split; [lia|]. discriminate. }
    destruct Z0 as [NE Z0].
    destruct (cells_exist c ref zqs k0) as (l & Hl & HL).
    { intros j Hj. destruct (Z0 j Hj) as (k & -> & K1 & K2).
      destruct (H5 k (conj K1 K2)) as ((lv & A1 & A2) & (lm & A3 & A4)). exists lv, lm. auto. }
    rewrite Hl. cbn [rbind]. match goal with |- exists s, calc_rms w ?x = _ => destruct (calc_rms_aligned x) as (s & Hs & _) end.
    + repeat split; simpl; rewrite ?map_length; auto. destruct l; [destruct zqs; simpl in HL; congruence|discriminate].
    + eauto.
  - assert (TZ : match tfind "IonChargeStates" c with Some (TVec l) => Some l | _ => None end = None).
    { unfold vec_at in E. destruct (tfind "IonChargeStates" c) as [[]|]; congruence. }
    rewrite TZ. rewrite H. cbn [rbind].
    match goal with |- exists s, calc_rms w ?x = _ => destruct (calc_rms_aligned x) as (s & Hs & _) end.
    + repeat split; simpl; auto; discriminate.
    + eauto.
Qed.

Lemma state_charges c zs s : vec_at c "IonChargeStates" = Some zs -> new_state w c = Ok s ->
  List.length (ms_real s) = (match num_at c "cstate" with Some _ => 1 | None => List.length zs end)%nat /\
  forall j p v m, nth_error (ms_real s) j = Some p -> nth_error (ms_m0 s) j = Some v -> nth_error (ms_m1 s) j = Some m ->
    exists k, match num_at c "cstate" with Some x => truncates x (Z.of_nat k) | None => k = j end /\
              charge_state num c k p v m.
Proof.
  intros HZ H. destruct (new_state_many _ _ _ HZ H)
    as (_ & _ & _ & qs & Hq & HLq & k0 & zqs & ref & l & HC & E1 & E2 & E3 & _ & _ & _ & _ & HL & HX & _ & R1 & R2 & R3 & _).
  split.
  { rewrite R1, map_length, HL. destruct (num_at c "cstate").
    - destruct HC as (_ & _ & _ & z & q & _ & _ & ->). reflexivity.
    - destruct HC as [_ ->]. rewrite combine_length. lia. }
  intros j p v m Hp Hv Hm. rewrite R1 in Hp. rewrite R2 in Hv. rewrite R3 in Hm.
  rewrite nth_error_map in Hp, Hv, Hm. destruct (nth_error l j) as [x|] eqn:Ex; [|discriminate].
  simpl in Hp, Hv, Hm. injection Hp as <-. injection Hv as <-. injection Hm as <-.
  assert (j < List.length zqs)%nat by (rewrite <- HL; apply nth_error_Some; congruence).
  destruct (nth_error zqs j) as [[z q]|] eqn:Ezq; [|apply nth_error_None in Ezq; lia].
  specialize (HX _ _ _ _ Ezq Ex).
  assert (K : exists k, match num_at c "cstate" with Some x => truncates x (Z.of_nat k) | None => k = j end /\
    nth_error zs k = Some z /\ nth_error qs k = Some q /\ (N.of_nat k0 + N.of_nat j)%N = N.of_nat k).
  { destruct (num_at c "cstate").
    - destruct HC as (C1 & _ & _ & z' & q' & C4 & C5 & ->). assert (j = 0)%nat by (simpl in *; lia). subst j.
      injection Ezq as <- <-. exists k0. repeat (split; [auto|]). lia.
    - destruct HC as [-> ->]. apply combine_nth_inv in Ezq as [A1 A2]. exists j. repeat (split; [auto|]). lia. }
  destruct K as (k & K1 & K2 & K3 & K4). exists k. split; [auto|]. rewrite K4 in HX.
  destruct HX as (lv & lm & X1 & X2 & X3 & X4 & ->).
  assert (LV : forall i, (i < 7)%nat -> exists y, nth_error lv i = Some y /\ vec_of w lv i = num y).
  { intros i Hi. destruct (nth_error lv i) as [y|] eqn:Ey; [|apply nth_error_None in Ey; lia].
    exists y. unfold vec_of. rewrite Ey. auto. }
  destruct (LV 4%nat ltac:(lia)) as (ps & P1 & P2). destruct (LV 5%nat ltac:(lia)) as (pe & P3 & P4).
  exists zs, qs, z, q, lv, lm, ps, pe. repeat (split; [assumption|]). cbn [fst snd].
  split; [reflexivity|]. split; [reflexivity|].
  split; [simpl; rewrite E1, real_at_def; reflexivity|]. split; [simpl; rewrite E3, real_at_def; reflexivity|].
  split; [exact P2|].
  split; [simpl; rewrite E2, real_at_def; change (vec_of w lv PS_PS) with (vec_of w lv 5%nat); rewrite P4; reflexivity|].
  split; [apply kinematic_recalc|]. split; [exact LV|].
  intros a b Ha Hb. assert (7 * a + b < List.length lm)%nat by lia.
  destruct (nth_error lm (7 * a + b)) as [y|] eqn:Ey; [|apply nth_error_None in Ey; lia].
  exists y. split; [auto|]. unfold mat_of, msize. rewrite Ey. reflexivity.
Qed.

Lemma new_state_aligned c s : new_state w c = Ok s -> aligned s.
Proof.
  intros H. destruct (vec_at c "IonChargeStates") as [zs|] eqn:E.
  - apply (new_state_many _ _ _ E H).
  - apply (new_state_lone _ _ E H).
Qed.

Lemma fills_vec_of l : List.length l = 7%nat -> fills_vec num l (vec_of w l).
Proof.
  intros H i Hi. destruct (nth_error l i) as [y|] eqn:Ey; [|apply nth_error_None in Ey; lia].
  exists y. unfold vec_of. rewrite Ey. auto.
Qed.
Lemma fills_mat_of l : List.length l = 49%nat -> fills_mat num l (mat_of w l).
Proof.
  intros H a b Ha Hb. assert (7 * a + b < List.length l)%nat by lia.
  destruct (nth_error l (7 * a + b)) as [y|] eqn:Ey; [|apply nth_error_None in Ey; lia].
  exists y. split; [auto|]. unfold mat_of, msize. rewrite Ey. reflexivity.
Qed.
Lemma state_contents c s : new_state w c = Ok s ->
  ms_pos s = 0 /\ aligned s /\ reference num c (ms_ref s) /\ Forall (meq msize mid) (ms_tm s) /\
  match vec_at c "IonChargeStates" with
  | Some zs =>
      List.length (ms_real s) = (match num_at c "cstate" with Some _ => 1 | None => List.length zs end)%nat /\
      forall j p v m, nth_error (ms_real s) j = Some p -> nth_error (ms_m0 s) j = Some v -> nth_error (ms_m1 s) j = Some m ->
        exists k, match num_at c "cstate" with Some x => truncates x (Z.of_nat k) | None => k = j end /\
                  charge_state num c k p v m
  | None =>
      ms_real s = [ms_ref s] /\
      (forall l, vec_at c (str_at c "vector_variable" "moment0") = Some l -> List.length l = 7%nat ->
         exists v, ms_m0 s = [v] /\ fills_vec num l v) /\
      (forall l, vec_at c (str_at c "matrix_variable" "initial") = Some l -> List.length l = 49%nat ->
         exists m, ms_m1 s = [m] /\ fills_mat num l m)
  end.
Proof.
  intros H. unfold reference. destruct (vec_at c "IonChargeStates") as [zs|] eqn:E.
  - pose proof (state_charges _ _ _ E H) as X. destruct (new_state_many _ _ _ E H)
      as (Z1 & Z2 & Z3 & qs & Hq & HLq & k0 & zqs & ref & l & HC & E1 & E2 & E3 & E4 & E5 & E6 & E7 & HL & HX & R0 & R1 & R2 & R3 & R4).
    split; [auto|]. split; [auto|]. split.
    { rewrite R0, Hq, E1, E2, E3, !real_at_def. split; [reflexivity|]. split; [reflexivity|]. split; [reflexivity|].
      split; [exact E5|]. split; [exact E4|].
      destruct zs as [|z zs]; [congruence|]. destruct qs as [|q qs]; [discriminate|].
      auto. }
    split; [|exact X].
    rewrite R4. apply Forall_forall. intros x Hx. apply in_map_iff in Hx as (? & <- & _). reflexivity.
  - destruct (new_state_lone _ _ E H) as (Z0 & Z2 & Z3 & Z4 & ref & L1 & L2 & L3 & L4 & L5 & L6 & L7 & L8 & L9 & L10 & L11).
    split; [auto|]. split; [auto|]. split; [rewrite L2; do 5 (split; [assumption|]); auto|]. split.
    { rewrite Z4. constructor; [reflexivity|constructor]. }
    split; [congruence|]. rewrite L10, L11. split; intros l Hl Hn.
    + eexists. split; [reflexivity|]. assert (load_storage msize c (vn c) = Ok l) as -> by (apply load_storage_ok; auto).
      apply fills_vec_of; auto.
    + eexists. split; [reflexivity|]. assert (load_storage (msize * msize) c (mn c) = Ok l) as -> by (apply load_storage_ok; auto).
      apply fills_mat_of; auto.
Qed.
End M.
