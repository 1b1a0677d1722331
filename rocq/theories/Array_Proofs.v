(** Attributes of states. *)
From Coq Require Import List String Bool ZArith NArith Arith Lia.
From Verif Require Import SMap SMap_Proofs Dbl Util_Model Util_Spec Util_Proofs Util2_Proofs Util3_Proofs Array_Model Array_Spec.
Import ListNotations.
Open Scope string_scope.
Open Scope nat_scope.
Open Scope list_scope.

Lemma within_cons m lim idx : within (m :: lim) idx -> exists i idx', idx = i :: idx' /\ i < m /\ within lim idx'.
Proof. intros H. inversion H; subst. eauto. Qed.
Lemma within_nil idx : within [] idx -> idx = [].
Proof. intros H. inversion H. reflexivity. Qed.
Ltac win H :=
  repeat match type of H with
  | within (_ :: _) _ => let i := fresh "i" in let r := fresh "r" in let L := fresh "L" in
      apply within_cons in H as (i & r & -> & L & H)
  | within [] _ => apply within_nil in H; subst
  end.

(** getArray() describes the attributes one by one. *)
Definition described (ab : abi) (kd : kind) (a : ainfo) (t : attribute) : Prop :=
  let '(nm, sh, den) := t in
  a_name a = nm /\ a_dim a = sh /\ List.length (a_stride a) = List.length sh /\
  (sh = [] -> a_type a = match den [] with FNext => TSizet | _ => TDouble end) /\
  forall idx, within sh idx -> raw a idx = place ab (den idx) /\ has_field kd (den idx).
Lemma get_array_spec ab kd i : populated kd ->
  match get_array ab kd i, nth_error (attributes kd) i with
  | AInfo a, Some t => described ab kd a t
  | ANone, None => True
  | _, _ => False
  end.
Proof.
  Ltac one := split; [reflexivity|split; [reflexivity|split; [reflexivity|split; [first [reflexivity|discriminate]|]]]];
    let idx := fresh "idx" in let W := fresh "W" in intros idx W; cbn [a_dim] in W; win W;
    unfold raw, at0, at1, at2, at3; cbn [a_ptr a_stride fst snd dot place has_field pidx]; split; [f_equal; lia|auto; lia].
  intros P. destruct kd as [| |n].
  - do 3 (destruct i as [|i]; [cbn [get_array vector_array base_array scalar attributes base_attrs nth_error]; one|]). cbn. destruct i; exact I.
  - do 3 (destruct i as [|i]; [cbn [get_array matrix_array base_array scalar attributes base_attrs nth_error]; one|]). cbn. destruct i; exact I.
  - destruct P as [P _]. destruct n as [|n]; [lia|].
    do 29 (destruct i as [|i]; [cbn [get_array moment_array ref_attr real_attr nonempty scalar attributes base_attrs nth_error List.app]; one|]).
    do 2 (destruct i as [|i]; [cbn [get_array moment_array base_array scalar attributes base_attrs nth_error List.app Nat.sub]; one|]).
    cbn. destruct i; exact I.
Qed.

Lemma within_len sh idx : within sh idx -> List.length idx = List.length sh.
Proof. intros H. induction H; cbn; congruence. Qed.
Lemma flat_lt sh idx : within sh idx -> flat sh idx < prodn sh.
Proof.
  induction 1 as [|i m idx sh H W IH]; cbn; [lia|]. fold (prodn sh). nia.
Qed.
Lemma flat_inj sh a : within sh a -> forall b, within sh b -> flat sh a = flat sh b -> a = b.
Proof.
  induction 1 as [|i m a sh H W IH]; intros b Hb E; inversion Hb as [|j m' b' sh' Hj Wb]; subst; [reflexivity|].
  cbn [flat] in E. pose proof (flat_lt _ _ W) as L1. pose proof (flat_lt _ _ Wb) as L2.
  assert (i = j) by (destruct (Nat.lt_trichotomy i j) as [L|[L|L]]; [exfalso|exact L|exfalso]; nia).
  subst j. f_equal. apply IH; [exact Wb|nia].
Qed.
Lemma flat_onto sh : forall j, j < prodn sh -> exists idx, within sh idx /\ flat sh idx = j.
Proof.
  induction sh as [|m sh IH]; intros j L.
  - exists []. cbn in L. split; [constructor|cbn; lia].
  - cbn in L. fold (prodn sh) in L. assert (P : prodn sh <> 0) by (intros E; rewrite E in L; lia).
    destruct (IH (j mod prodn sh)) as (idx & W & E); [apply Nat.mod_upper_bound, P|].
    exists (j / prodn sh :: idx). split.
    + constructor; [|exact W]. apply Nat.div_lt_upper_bound; lia.
    + cbn [flat]. rewrite E. pose proof (Nat.div_mod j (prodn sh) P). lia.
Qed.
Lemma dot_flat sh idx : within sh idx -> dot idx (cstrides sh) = (8 * Z.of_nat (flat sh idx))%Z.
Proof. induction 1 as [|i m idx sh H W IH]; [reflexivity|]. cbn [dot cstrides flat]. rewrite IH. lia. Qed.
Lemma wrap_dot st : forall idx b, wrap64 (b + dot idx (map wrap64 st)) = wrap64 (b + dot idx st).
Proof.
  unfold wrap64. induction st as [|s st IH]; intros idx b; [destruct idx; reflexivity|].
  destruct idx as [|i idx]; [reflexivity|]. cbn [dot map].
  rewrite !Z.add_assoc, IH.
  rewrite (Zplus_mod (b + Z.of_nat i * (s mod _))), (Zplus_mod (b + Z.of_nat i * s)). f_equal. f_equal.
  rewrite (Zplus_mod b), (Zplus_mod b (Z.of_nat i * s)). f_equal. f_equal. apply Zmult_mod_idemp_r.
Qed.
Lemma py_raw_ok a idx : (0 <= n_base a + dot idx (n_strides a) < 18446744073709551616)%Z ->
  py_raw a idx = (n_base a + dot idx (n_strides a))%Z.
Proof. intros H. unfold py_raw. rewrite wrap_dot. apply Z.mod_small, H. Qed.

(** ** Reading *)
Definition upd (dst : ndarray) (o : Z) (c : cell) : ndarray :=
  mkND (n_shape dst) (n_strides dst) (n_base dst) (fun o' => if Z.eqb o' o then Some c else n_mem dst o').
Lemma copy_out_spec m a sh val : (forall idx, within sh idx -> load m (raw a idx) = Some (val idx)) ->
  (8 * Z.of_nat (prodn sh) <= 18446744073709551616)%Z ->
  forall l dst, n_shape dst = sh -> n_strides dst = cstrides sh -> n_base dst = 0%Z ->
  (forall idx, In idx l -> within sh idx) ->
  exists r, copy_out m a dst l = Some r /\ n_shape r = sh /\ n_strides r = cstrides sh /\ n_base r = 0%Z /\
    (forall idx, In idx l -> nd_at r idx = Some (val idx)) /\
    (forall idx, within sh idx -> ~ In idx l -> nd_at r idx = nd_at dst idx).
Proof.
  intros V Sz. induction l as [|x l IH]; intros dst S1 S2 S3 W.
  - exists dst. repeat split; auto. intros idx [].
  - cbn [copy_out]. rewrite V by (apply W; left; reflexivity).
    assert (O : forall idx, within sh idx -> (n_base dst + dot idx (n_strides dst))%Z = (8 * Z.of_nat (flat sh idx))%Z).
    { intros idx Wi. rewrite S3, S2, dot_flat by exact Wi. reflexivity. }
    assert (Wx : within sh x) by (apply W; left; reflexivity). pose proof (flat_lt _ _ Wx) as Lx.
    rewrite py_raw_ok by (rewrite O by exact Wx; lia). rewrite O by exact Wx. rewrite S1.
    destruct (Z.ltb_spec (8 * Z.of_nat (flat sh x)) (8 * Z.of_nat (prodn sh))) as [_|H]; [|lia].
    destruct (IH (upd dst (8 * Z.of_nat (flat sh x)) (val x)) S1 S2 S3) as (r & E & R1 & R2 & R3 & R4 & R5).
    { intros idx Hi. apply W. right. exact Hi. }
    unfold upd in E. rewrite S1 in E. exists r. split; [exact E|]. split; [exact R1|]. split; [exact R2|]. split; [exact R3|].
    assert (U : forall idx, within sh idx -> nd_at (upd dst (8 * Z.of_nat (flat sh x)) (val x)) idx =
      if Nat.eqb (flat sh idx) (flat sh x) then Some (val x) else nd_at dst idx).
    { intros idx Wi. unfold nd_at, upd. cbn [n_mem n_base n_strides]. rewrite O by exact Wi.
      destruct (Nat.eqb_spec (flat sh idx) (flat sh x)) as [->|D]; [rewrite Z.eqb_refl; reflexivity|].
      destruct (Z.eqb_spec (8 * Z.of_nat (flat sh idx)) (8 * Z.of_nat (flat sh x))); [lia|reflexivity]. }
    assert (D : forall idx, In idx l \/ ~ In idx l) by (intros idx; destruct (in_dec (list_eq_dec Nat.eq_dec) idx l); auto).
    split.
    + intros idx [<-|Hi]; [|auto]. destruct (D x) as [Hi|Hi]; [auto|].
      rewrite R5, U, Nat.eqb_refl by auto. reflexivity.
    + intros idx Wi Ni. rewrite R5 by (auto; intros Hi; apply Ni; right; exact Hi). rewrite U by exact Wi.
      destruct (Nat.eqb_spec (flat sh idx) (flat sh x)) as [E'|_]; [|reflexivity].
      exfalso. apply Ni. left. symmetry. apply (flat_inj sh); auto.
Qed.

(** The dictionary of the Python object. *)
Lemma wrap_names ab kd : populated kd -> exists d, wrapstate ab kd = Some (Some d) /\
  forall i, match nth_error (attributes kd) i with Some t => sfind (fst (fst t)) d = Some i | None => True end.
Proof.
  intros P. destruct kd as [| |n].
  - eexists. split; [reflexivity|]. intros i. do 3 (destruct i as [|i]; [reflexivity|]). destruct i; exact I.
  - eexists. split; [reflexivity|]. intros i. do 3 (destruct i as [|i]; [reflexivity|]). destruct i; exact I.
  - destruct P as [P _]. destruct n as [|n]; [lia|]. eexists. split; [vm_compute; reflexivity|].
    intros i. do 31 (destruct i as [|i]; [vm_compute; reflexivity|]). cbn. destruct i; exact I.
Qed.
Lemma dims_positive kd i nm sh den : populated kd -> nth_error (attributes kd) i = Some (nm, sh, den) ->
  Forall (lt 0) sh /\ (8 * Z.of_nat (prodn sh) <= 18446744073709551616)%Z.
Proof.
  intros P E. destruct kd as [| |n].
  - do 3 (destruct i as [|i]; [injection E as <- <- <-; split; [repeat constructor|vm_compute; discriminate]|]). destruct i; discriminate.
  - do 3 (destruct i as [|i]; [injection E as <- <- <-; split; [repeat constructor|vm_compute; discriminate]|]). destruct i; discriminate.
  - destruct P as [P Q].
    do 31 (destruct i as [|i]; [injection E as <- <- <-; split; [repeat constructor; exact P|cbn [prodn fold_right]; lia]|]).
    cbn in E. destruct i; discriminate.
Qed.
Lemma visit_all sh : Forall (lt 0) sh -> exists l, nd_visit (S (prodn sh)) sh = Some l /\ forall i, In i l <-> within sh i.
Proof.
  intros P. destruct (nd_visit_spec sh (S (prodn sh)) P) as (l & E & _ & H); [unfold ndprod, prodn; lia|]. eauto.
Qed.

Lemma get_shows ab kd d m c i nm sh den : populated kd -> wrapstate ab kd = Some (Some d) -> holds ab kd m c ->
  nth_error (attributes kd) i = Some (nm, sh, den) -> shows (py_get ab kd d m nm) sh (fun idx => c (den idx)).
Proof.
  intros P Wd H E. destruct (wrap_names ab kd P) as (d' & Wd' & F). rewrite Wd in Wd'. injection Wd' as <-.
  specialize (F i). rewrite E in F. cbn [fst] in F. unfold py_get. rewrite F.
  pose proof (get_array_spec ab kd i P) as G. rewrite E in G. destruct (get_array ab kd i) as [a| |]; [|destruct G..].
  destruct G as (Gn & Gd & Gs & Gt & G). rewrite Gd. destruct sh as [|s0 sh].
  - cbn [shows]. destruct (G [] (Forall2_nil _)) as [R Hf]. unfold raw in R.
    replace (a_ptr a) with (place ab (den [])).
    + rewrite (H _ Hf). destruct (c (den [])); reflexivity.
    + rewrite <- R. destruct (a_ptr a). cbn. f_equal. lia.
  - destruct (dims_positive kd i nm _ den P E) as [Pd Sz]. destruct (visit_all _ Pd) as (l & -> & Hl).
    destruct (copy_out_spec m a (s0 :: sh) (fun idx => c (den idx))) with (l := l)
      (dst := mkND (s0 :: sh) (cstrides (s0 :: sh)) 0 (fun _ => None)) as (r & -> & R1 & _ & _ & R4 & _); auto.
    { intros idx W. destruct (G idx W) as [-> Hf]. apply H, Hf. }
    { intros idx. apply Hl. }
    exists r. split; [reflexivity|]. split; [exact R1|]. intros idx W. apply R4, Hl, W.
Qed.

(** ** Writing *)
Lemma blk_beq_eq b c : blk_beq b c = true <-> b = c.
Proof. split; [apply internal_blk_dec_bl|apply internal_blk_dec_lb]. Qed.
Lemma store_spec m p c : load m p <> None -> exists m', store m p c = Some m' /\ load m' p = Some c /\
  forall q, q <> p -> load m' q = load m q.
Proof.
  intros H. unfold store. destruct (load m p) eqn:E; [|congruence]. eexists. split; [reflexivity|].
  destruct p as [b o]. unfold load. cbn [fst snd]. split.
  - rewrite (proj2 (blk_beq_eq b b) eq_refl), Z.eqb_refl. reflexivity.
  - intros [b' o'] D. cbn [fst snd]. destruct (blk_beq b' b) eqn:B; [|reflexivity]. apply blk_beq_eq in B. subst b'.
    destruct (Z.eqb_spec o' o) as [->|_]; [congruence|reflexivity].
Qed.
Lemma copy_in_spec src a (val : list nat -> cell) l : forall m,
  (forall x y, In x l -> In y l -> raw a x = raw a y -> x = y) ->
  (forall idx, In idx l -> src idx = Some (val idx)) ->
  (forall idx, In idx l -> load m (raw a idx) <> None) ->
  exists m', copy_in src a m l = Some m' /\ (forall idx, In idx l -> load m' (raw a idx) = Some (val idx)) /\
    forall p, (forall idx, In idx l -> p <> raw a idx) -> load m' p = load m p.
Proof.
  induction l as [|x l IH]; intros m Inj S L; [exists m; repeat split; auto; intros ? []|].
  cbn [copy_in]. rewrite S by (left; reflexivity).
  destruct (store_spec m (raw a x) (val x)) as (m1 & -> & M1 & M2); [apply L; left; reflexivity|].
  destruct (IH m1) as (m' & E & R1 & R2).
  - intros u v Hu Hv. apply Inj; right; assumption.
  - intros idx Hi. apply S. right. exact Hi.
  - intros idx Hi. destruct (list_eq_dec Nat.eq_dec idx x) as [->|D]; [rewrite M1; discriminate|].
    rewrite M2; [apply L; right; exact Hi|]. intros Q. apply D, Inj; [right; exact Hi|left; reflexivity|exact Q].
  - exists m'. split; [exact E|]. split.
    + intros idx [<-|Hi]; [|auto]. destruct (in_dec (list_eq_dec Nat.eq_dec) x l) as [Hi|Hi]; [auto|].
      rewrite R2; [exact M1|]. intros idx Hi' Q. apply Hi. rewrite (Inj x idx); auto; [left; reflexivity|right; exact Hi'].
    + intros p Hp. rewrite R2; [apply M2, Hp; left; reflexivity|]. intros idx Hi. apply Hp. right. exact Hi.
Qed.
Lemma again_within dim idx : In idx (again dim) -> within dim idx.
Proof.
  destruct dim as [|d [|e [|g dim]]]; cbn [again]; intros H; try contradiction.
  - apply in_map_iff in H as (i & <- & Hi). apply in_seq in Hi. repeat constructor. lia.
  - apply in_flat_map in H as (i & Hi & H). apply in_map_iff in H as (j & <- & Hj). apply in_seq in Hi, Hj. repeat constructor; lia.
Qed.
