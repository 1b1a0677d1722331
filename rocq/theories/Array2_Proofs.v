(** Attributes of states: writing, and files. *)
From Coq Require Import List String Bool ZArith NArith Arith Lia.
From Verif Require Import SMap SMap_Proofs Dbl Lexer_Model Util_Model Util_Spec Util_Proofs Util2_Proofs Util3_Proofs Array_Model Array_Spec Array_Proofs.
Import ListNotations.
Open Scope string_scope.
Open Scope nat_scope.
Open Scope list_scope.

Lemma place_inj ab kd f g : abi_ok ab -> has_field kd f -> has_field kd g -> place ab f = place ab g -> f = g.
Proof.
  intros [A B] F G E.
  assert (Q : forall s k k' o o', (s >= 8)%Z -> (0 <= o < s)%Z -> (0 <= o' < s)%Z ->
    (Z.of_nat k * s + o = Z.of_nat k' * s + o')%Z -> k = k' /\ o = o').
  { intros s k k' o o' Hs Ho Ho' E'.
    assert (Z.of_nat k = Z.of_nat k').
    { destruct (Z.lt_trichotomy (Z.of_nat k) (Z.of_nat k')) as [L|[L|L]]; [exfalso|exact L|exfalso]; nia. }
    split; [lia|]. rewrite H in E'. lia. }
  destruct f, g; try (exfalso; cbn [place] in E; discriminate E); try reflexivity;
    try (exfalso; destruct kd; cbn [has_field] in F, G; contradiction);
    try (exfalso; cbn [place] in E; apply (f_equal fst) in E; discriminate E);
    cbn [place] in E; apply (f_equal snd) in E; cbn [snd] in E; destruct kd; cbn [has_field] in F, G; try contradiction;
    try (f_equal; lia).
  - destruct p, p0; cbn [pidx] in E; first [reflexivity|lia].
  - destruct (Q 96%Z k k0 (8 * pidx p)%Z (8 * pidx p0)%Z) as [-> E']; try lia; try (destruct p; cbn [pidx]; lia); try (destruct p0; cbn [pidx]; lia).
    destruct p, p0; cbn [pidx] in E'; first [reflexivity|lia].
  - apply Q in E as [-> E']; try lia. f_equal; lia.
  - apply Q in E as [-> E']; try lia. f_equal; lia.
  - apply Q in E as [-> E']; try lia. f_equal; lia.
Qed.

(** To which attribute a variable belongs, and at which index. *)
Definition owner (kd : kind) (f : field) : nat :=
  match kd with
  | KMoment _ =>
      match f with
      | FEnv1 _ _ => 0 | FM1 _ _ _ => 1 | FT _ _ _ => 2 | FEnv0 _ => 3 | FRms _ => 4 | FM0 _ _ => 5
      | FRef p => match p with PZ => 6 | PQ => 7 | PEs => 8 | PW => 9 | PGamma => 10 | PBeta => 11 | PBg => 12
                  | PFreq => 13 | PIonK => 14 | PPhis => 15 | PEk => 16 | PLambda => 99 end
      | FReal _ p => match p with PZ => 17 | PEs => 18 | PW => 19 | PGamma => 20 | PBeta => 21 | PBg => 22
                     | PFreq => 23 | PIonK => 24 | PPhis => 25 | PEk => 26 | PQ => 27 | PLambda => 99 end
      | FLast => 28 | FNext => 29 | FPos => 30
      | _ => 99
      end
  | _ => match f with FNext => 1 | FPos => 2 | _ => 0 end
  end.
Definition index_of (f : field) : list nat :=
  match f with
  | FVec i | FEnv0 i | FRms i => [i]
  | FMat i j | FEnv1 i j => [i; j]
  | FReal k _ => [k] | FM0 k i => [i; k] | FM1 k i j | FT k i j => [i; j; k]
  | _ => []
  end.
Lemma owned kd i nm sh den idx : nth_error (attributes kd) i = Some (nm, sh, den) -> within sh idx ->
  owner kd (den idx) = i /\ index_of (den idx) = idx.
Proof.
  intros E W. destruct kd as [| |n].
  - do 3 (destruct i as [|i]; [injection E as <- <- <-; win W; split; reflexivity|]). destruct i; discriminate.
  - do 3 (destruct i as [|i]; [injection E as <- <- <-; win W; split; reflexivity|]). destruct i; discriminate.
  - do 31 (destruct i as [|i]; [injection E as <- <- <-; win W; split; reflexivity|]). cbn in E. destruct i; discriminate.
Qed.
Lemma within_dec sh : forall idx, {within sh idx} + {~ within sh idx}.
Proof.
  induction sh as [|m sh IH]; intros [|i idx].
  - left. constructor.
  - right. intros H. inversion H.
  - right. intros H. inversion H.
  - destruct (IH idx) as [W|W]; [|right; intros H; inversion H; auto].
    destruct (lt_dec i m) as [L|L]; [left; constructor; assumption|right; intros H; inversion H; auto].
Qed.

Lemma wrap_keys ab kd d : populated kd -> wrapstate ab kd = Some (Some d) ->
  forall nm i, sfind nm d = Some i -> exists sh den, nth_error (attributes kd) i = Some (nm, sh, den).
Proof.
  intros P E nm i H.
  assert (HI : In (nm, i) d).
  { clear E. induction d as [|[k v] d IH]; [discriminate H|]. cbn [sfind] in H. destruct (String.eqb_spec nm k) as [->|_].
    - injection H as ->. left. reflexivity.
    - right. auto. }
  clear H. destruct kd as [| |n].
  - vm_compute in E. injection E as <-.
    repeat (destruct HI as [HI|HI]; [injection HI as <- <-; eexists _, _; reflexivity|]). destruct HI.
  - vm_compute in E. injection E as <-.
    repeat (destruct HI as [HI|HI]; [injection HI as <- <-; eexists _, _; reflexivity|]). destruct HI.
  - destruct P as [P _]. destruct n as [|n]; [lia|]. vm_compute in E. injection E as <-.
    repeat (destruct HI as [HI|HI]; [injection HI as <- <-; eexists _, _; reflexivity|]). destruct HI.
Qed.

Lemma field_dec : forall f g : field, {f = g} + {f <> g}.
Proof. repeat decide equality. Qed.
(** The contents after writing [val] into an attribute. *)
Definition patch (sh : list nat) (den : list nat -> field) (val : list nat -> cell) (c : field -> cell) (f : field) : cell :=
  if within_dec sh (index_of f) then if field_dec f (den (index_of f)) then val (index_of f) else c f else c f.
Lemma patch_at kd i nm sh den val c idx : nth_error (attributes kd) i = Some (nm, sh, den) -> within sh idx ->
  patch sh den val c (den idx) = val idx.
Proof.
  intros E W. destruct (owned kd i nm sh den idx E W) as [_ O]. unfold patch. rewrite O.
  destruct (within_dec sh idx) as [_|N]; [|contradiction]. destruct (field_dec (den idx) (den idx)); congruence.
Qed.
Lemma patch_else sh den val c f : (forall idx, within sh idx -> f <> den idx) -> patch sh den val c f = c f.
Proof.
  intros H. unfold patch. destruct (within_dec sh (index_of f)) as [W|_]; [|reflexivity].
  destruct (field_dec f (den (index_of f))) as [E|_]; [|reflexivity]. destruct (H _ W E).
Qed.
Lemma patch_other kd i nm sh den i' nm' sh' den' val c idx :
  nth_error (attributes kd) i = Some (nm, sh, den) -> nth_error (attributes kd) i' = Some (nm', sh', den') -> i <> i' ->
  within sh' idx -> patch sh den val c (den' idx) = c (den' idx).
Proof.
  intros E E' D W. apply patch_else. intros idx' W' Q.
  destruct (owned kd i nm sh den idx' E W') as [O _]. destruct (owned kd i' nm' sh' den' idx E' W) as [O' _]. congruence.
Qed.

Lemma described_at ab kd d i nm sh den : populated kd -> wrapstate ab kd = Some (Some d) ->
  nth_error (attributes kd) i = Some (nm, sh, den) ->
  sfind nm d = Some i /\ exists a, get_array ab kd i = AInfo a /\ described ab kd a (nm, sh, den).
Proof.
  intros P Wd E. destruct (wrap_names ab kd P) as (d' & Wd' & F). rewrite Wd in Wd'. injection Wd' as <-.
  specialize (F i). rewrite E in F. split; [exact F|].
  pose proof (get_array_spec ab kd i P) as G. rewrite E in G. destruct (get_array ab kd i) as [a| |]; [eauto|destruct G..].
Qed.
Lemma writes_holds ab kd m m' c i nm sh den a val : abi_ok ab -> holds ab kd m c ->
  nth_error (attributes kd) i = Some (nm, sh, den) -> described ab kd a (nm, sh, den) ->
  (forall idx, within sh idx -> load m' (raw a idx) = Some (val idx)) ->
  (forall p, (forall idx, within sh idx -> p <> raw a idx) -> load m' p = load m p) ->
  holds ab kd m' (patch sh den val c).
Proof.
  intros A H E G V O f Hf. destruct G as (_ & _ & _ & _ & G). unfold patch.
  destruct (within_dec sh (index_of f)) as [W|N].
  - destruct (field_dec f (den (index_of f))) as [Q|Q].
    + rewrite Q at 1. rewrite <- (proj1 (G _ W)). apply V, W.
    + rewrite O; [apply H, Hf|]. intros idx Wi R. rewrite (proj1 (G _ Wi)) in R.
      apply (place_inj ab kd) in R; [|exact A|exact Hf|apply (G _ Wi)]. subst f.
      rewrite (proj2 (owned kd i nm sh den idx E Wi)) in Q. congruence.
  - rewrite O; [apply H, Hf|]. intros idx Wi R. rewrite (proj1 (G _ Wi)) in R.
    apply (place_inj ab kd) in R; [|exact A|exact Hf|apply (G _ Wi)]. subst f.
    rewrite (proj2 (owned kd i nm sh den idx E Wi)) in N. contradiction.
Qed.

Definition value_of (arr : ndarray) (idx : list nat) : cell := match nd_at arr idx with Some c => c | None => CN 0 end.
Lemma set_array ab kd d m c i nm sh den arr : abi_ok ab -> populated kd -> wrapstate ab kd = Some (Some d) -> holds ab kd m c ->
  nth_error (attributes kd) i = Some (nm, sh, den) -> sh <> [] -> n_shape arr = sh -> nd_ok arr ->
  exists m', py_set ab kd d m nm (VArray arr) = (m', POk) /\ holds ab kd m' (patch sh den (value_of arr) c).
Proof.
  intros A P Wd H E Ne Sh [_ Ok]. destruct (described_at ab kd d i nm sh den P Wd E) as (F & a & Ga & G).
  unfold py_set. rewrite F, Ga. pose proof G as (Gn & Gd & Gs & Gt & Gr). rewrite Gd.
  destruct (dims_positive kd i nm sh den P E) as [Pd Sz]. destruct (visit_all _ Pd) as (l & Vl & Hl).
  rewrite Sh in Ok.
  assert (Vv : forall idx, within sh idx -> nd_at arr idx = Some (value_of arr idx)).
  { intros idx W. destruct (Ok idx W) as [_ N]. unfold value_of. destruct (nd_at arr idx); congruence. }
  assert (Inj : forall x y, within sh x -> within sh y -> raw a x = raw a y -> x = y).
  { intros x y Wx Wy Q. rewrite (proj1 (Gr _ Wx)), (proj1 (Gr _ Wy)) in Q.
    apply (place_inj ab kd) in Q; [|exact A|apply (Gr _ Wx)|apply (Gr _ Wy)].
    rewrite <- (proj2 (owned kd i nm sh den x E Wx)), <- (proj2 (owned kd i nm sh den y E Wy)). congruence. }
  assert (Ld : forall idx, within sh idx -> load m (raw a idx) <> None).
  { intros idx W. destruct (Gr _ W) as [-> Hf]. rewrite (H _ Hf). discriminate. }
  destruct (copy_in_spec (fun idx => n_mem arr (py_raw arr idx)) a (value_of arr) l m) as (m1 & E1 & V1 & O1).
  { intros x y Hx Hy. apply Inj; apply Hl; assumption. }
  { intros idx Hi. apply Hl in Hi. rewrite py_raw_ok by (apply Ok, Hi). apply Vv, Hi. }
  { intros idx Hi. apply Ld, Hl, Hi. }
  destruct (copy_in_spec (nd_at arr) a (value_of arr) (again sh) m1) as (m2 & E2 & V2 & O2).
  { intros x y Hx Hy. apply Inj; apply again_within; assumption. }
  { intros idx Hi. apply Vv, again_within, Hi. }
  { intros idx Hi. rewrite V1; [discriminate|]. apply Hl, again_within, Hi. }
  exists m2. split.
  - destruct sh as [|s0 sh]; [congruence|]. rewrite Sh, Nat.eqb_refl.
    destruct (list_eq_dec Nat.eq_dec (s0 :: sh) (s0 :: sh)); [|congruence]. cbn [negb]. rewrite Vl, E1, E2. reflexivity.
  - apply (writes_holds ab kd m m2 c i nm sh den a); auto.
    + intros idx W. destruct (in_dec (list_eq_dec Nat.eq_dec) idx (again sh)) as [Hi|Hi]; [auto|].
      rewrite O2; [apply V1, Hl, W|]. intros idx' Hi' Q. apply Inj in Q; [congruence|exact W|apply again_within, Hi'].
    + intros p Hp. rewrite O2 by (intros idx Hi; apply Hp, again_within, Hi).
      apply O1. intros idx Hi. apply Hp, Hl, Hi.
Qed.

Lemma ptr_place ab kd a nm den : described ab kd a (nm, [], den) -> a_ptr a = place ab (den []) /\ has_field kd (den []).
Proof.
  intros (_ & _ & _ & _ & G). destruct (G [] (Forall2_nil _)) as [R Hf]. split; [|exact Hf]. rewrite <- R. unfold raw.
  destruct (a_ptr a). cbn. f_equal. lia.
Qed.
Lemma set_number ab kd d m c i nm den v x : abi_ok ab -> populated kd -> wrapstate ab kd = Some (Some d) -> holds ab kd m c ->
  nth_error (attributes kd) i = Some (nm, [], den) -> scalar_value (den []) v = Some x ->
  exists m', py_set ab kd d m nm v = (m', POk) /\ holds ab kd m' (patch [] den (fun _ => x) c).
Proof.
  intros A P Wd H E V. destruct (described_at ab kd d i nm [] den P Wd E) as (F & a & Ga & G).
  destruct (ptr_place ab kd a nm den G) as [Pt Hf].
  unfold py_set. rewrite F, Ga. pose proof G as (Gn & Gd & Gs & Gt & Gr). rewrite Gd. unfold set_scalar. rewrite (Gt eq_refl).
  destruct (store_spec m (a_ptr a) x) as (m' & S1 & S2 & S3); [rewrite Pt, (H _ Hf); discriminate|].
  exists m'. split.
  - unfold scalar_value in V.
    destruct (den []); destruct v; try discriminate V;
      try (destruct (is_inf (d_of_Z z)); [discriminate V|]);
      try (destruct ((0 <=? z)%Z && (z <? 18446744073709551616)%Z)%bool; [|discriminate V]);
      injection V as <-; unfold store_ok; rewrite S1; reflexivity.
  - apply (writes_holds ab kd m m' c i nm [] den a); auto.
    + intros idx W. win W. rewrite (proj1 (Gr [] (Forall2_nil _))), <- Pt. exact S2.
    + intros p Hp. apply S3. rewrite Pt, <- (proj1 (Gr [] (Forall2_nil _))). apply Hp. constructor.
Qed.

Lemma set_refused ab kd d m i nm sh den v : populated kd -> wrapstate ab kd = Some (Some d) ->
  nth_error (attributes kd) i = Some (nm, sh, den) -> ill sh v -> py_set ab kd d m nm v = (m, PErr PyValueError).
Proof.
  intros P Wd E I. destruct (described_at ab kd d i nm sh den P Wd E) as (F & a & Ga & G).
  unfold py_set. rewrite F, Ga. pose proof G as (Gn & Gd & Gs & Gt & Gr). rewrite Gd. destruct sh as [|s0 sh].
  - unfold set_scalar. destruct v as [x|z|arr| |]; cbn [ill] in I; try congruence; destruct (a_type a); try reflexivity; destruct I.
  - destruct v as [x|z|arr| |]; cbn [ill] in I; try reflexivity; [|destruct I].
    destruct I as [I|I]; [|discriminate I].
    destruct (Nat.eqb_spec (List.length (n_shape arr)) (List.length (s0 :: sh))) as [_|_]; [|reflexivity]. cbn [negb].
    destruct (list_eq_dec Nat.eq_dec (s0 :: sh) (n_shape arr)); [congruence|reflexivity].
Qed.
Lemma unknown_generic ab kd d m nm v : populated kd -> wrapstate ab kd = Some (Some d) ->
  ~ In nm (map (fun t => fst (fst t)) (attributes kd)) -> py_get ab kd d m nm = PGeneric /\ py_set ab kd d m nm v = (m, PGeneric).
Proof.
  intros P Wd N. unfold py_get, py_set. destruct (sfind nm d) as [i|] eqn:F; [|split; reflexivity].
  exfalso. apply N. destruct (wrap_keys ab kd d P Wd nm i F) as (sh & den & E).
  apply nth_error_In in E. apply (in_map (fun t => fst (fst t))) in E. exact E.
Qed.
Lemma names_distinct kd : NoDup (map (fun t : attribute => fst (fst t)) (attributes kd)).
Proof.
  destruct kd as [| |n]; cbn [attributes map fst base_attrs List.app];
    (repeat (constructor; [cbn [In]; intuition discriminate|])); constructor.
Qed.
