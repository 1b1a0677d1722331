(** Transit time factors computed from a table. *)
From Coq Require Import Reals List String Bool NArith ZArith Lia Lra Psatz.
From Verif Require Import SMap Dbl Config_Spec Machine_Model Moment_Model Moment_Proofs Cavity_Model Cavity_Spec Cavity13_Proofs Cavity5_Spec.
Import ListNotations.
Open Scope R_scope.
Open Scope string_scope.
Open Scope list_scope.

(** ** Sums *)
Lemma fold_shift {A} (f : A -> A -> R) : forall l s, fold_left (fun s '(a, b) => s + f a b) l s = s + fold_left (fun s '(a, b) => s + f a b) l 0.
Proof.
  induction l as [|[a b] l IH]; intros s; cbn [fold_left]; [ring|]. rewrite IH, (IH (0 + f a b)). ring.
Qed.
Lemma pairwise_sum {A} (f : A -> A -> R) d l : pairwise f l = over (List.length l) (fun k => f (nth k l d) (nth (S k) l d)).
Proof.
  induction l as [|a l IH]; [reflexivity|]. destruct l as [|b l]; [reflexivity|].
  assert (X : pairwise f (a :: b :: l) = (0 + f a b) + pairwise f (b :: l)) by exact (fold_shift f (combine (b :: l) (tl (b :: l))) (0 + f a b)).
  rewrite X, IH. clear X IH.
  unfold over. cbn [List.length]. destruct (List.length l) as [|m] eqn:E.
  - destruct l; [|discriminate]. cbn. ring.
  - rewrite (decomp_sum _ (S m)) by lia. cbn [pred nth]. rewrite Rplus_0_l. reflexivity.
Qed.
Lemma over_eq n f g : (forall k, (S k < n)%nat -> f k = g k) -> over n f = over n g.
Proof. intros H. unfold over. destruct n as [|[|m]]; auto. apply sum_eq. intros i Hi. apply H. lia. Qed.
Lemma over_scal n f x : over n (fun k => f k * x) = over n f * x.
Proof. unfold over. destruct n as [|[|m]]; try ring. rewrite <- scal_sum. ring. Qed.
Lemma over_plus n f g : over n (fun k => f k + g k) = over n f + over n g.
Proof. unfold over. destruct n as [|[|m]]; try ring. apply sum_plus. Qed.
Lemma over_le n f g : (forall k, (S k < n)%nat -> f k <= g k) -> over n f <= over n g.
Proof. intros H. unfold over. destruct n as [|[|m]]; try lra. apply sum_Rle. intros i Hi. apply H. lia. Qed.
Lemma over_0 n : over n (fun _ => 0) = 0.
Proof. unfold over. destruct n as [|[|m]]; auto. induction m; cbn in *; lra. Qed.
Lemma over_opp n f : over n (fun k => - f k) = - over n f.
Proof. rewrite <- (Rmult_1_r (over n f)), Ropp_mult_distr_r, <- over_scal. apply over_eq. intros. ring. Qed.

(** ** The factors *)
Section Table.
Variables (rows : list (list R)) (col : nat) (half : bool).
Notation n := (rows_used rows half).
Notation pos := (pos_at rows).
Notation fld := (field_at rows col).
Definition usable : Prop := has_column col rows /\ (2 <= n)%nat /\ voltage rows col n <> 0.
Definition facts (K : R) (mirror : bool) : ttf :=
  let c := centre rows col n - pos 0%nat in
  let s := if mirror then -1 else 1 in
  mkTTF (if mirror then pos (List.length rows - 1)%nat - c else c) (s * even_part rows col n K) (s * even_slope rows col n K)
        (odd_part rows col n K) (odd_slope rows col n K) (voltage rows col n / 1000000000).
Lemma used_le : (n <= List.length rows)%nat.
Proof. unfold rows_used. destruct half; [apply Nat.div_le_upper_bound; lia|lia]. Qed.
Lemma column_b : forallb (fun r => Nat.ltb col (List.length r)) rows = true <-> has_column col rows.
Proof. rewrite forallb_forall. unfold has_column. rewrite Forall_forall. split; intros H r Hr; apply Nat.ltb_lt, H, Hr || (apply Nat.ltb_lt; auto). Qed.
Definition zE : list (R * R) := firstn n (map (fun r => (nth 0 r 0, nth col r 0)) rows).
Lemma zE_len : List.length zE = n.
Proof. unfold zE. rewrite firstn_length, map_length. pose proof used_le. lia. Qed.
Lemma nth_firstn {A} (d : A) : forall m l k, (k < m)%nat -> nth k (firstn m l) d = nth k l d.
Proof. induction m as [|m IH]; intros l k H; [lia|]. destruct l as [|a l]; [reflexivity|]. destruct k; [reflexivity|]. cbn. apply IH. lia. Qed.
Lemma row_nth k : (k < List.length rows)%nat -> nth k (map (fun r => (nth 0 r 0, nth col r 0)) rows) (0, 0) = (pos k, fld k).
Proof.
  intros H. rewrite (nth_indep _ (0, 0) ((fun r => (nth 0 r 0, nth col r 0)) [])) by (rewrite map_length; exact H).
  rewrite (map_nth (fun r => (nth 0 r 0, nth col r 0))). reflexivity.
Qed.
Lemma zE_nth k : (k < n)%nat -> nth k zE (0, 0) = (pos k, fld k).
Proof. intros H. unfold zE. rewrite nth_firstn by exact H. apply row_nth. pose proof used_le. lia. Qed.
(** A sum over the shifted table. *)
Lemma shifted (f : R * R -> R * R -> R) x :
  pairwise f (map (fun '(z, E) => (z - x, E)) zE) = over n (fun k => f (pos k - x, fld k) (pos (S k) - x, fld (S k))).
Proof.
  rewrite (pairwise_sum f (0 - x, 0)). rewrite map_length, zE_len. apply over_eq. intros k Hk.
  pose proof (fun j => map_nth (fun '(z, E) => (z - x, E)) zE (0, 0) j) as M. cbv beta iota in M.
  rewrite !M, !zE_nth by lia. reflexivity.
Qed.
Lemma shift_twice x y : map (fun '(z, E) => (z - y, E)) (map (fun '(z, E) => (z - x, E)) zE) = map (fun '(z, E) => (z - (x + y), E)) zE.
Proof. rewrite map_map. apply map_ext. intros [z E]. f_equal. ring. Qed.

Lemma transfac_is K gap : cal_transfac rows (S col) gap K half =
  if (Nat.eqb (List.length rows) 0 || negb (forallb (fun r => Nat.ltb col (List.length r)) rows))%bool then Throw RuntimeError
  else if Nat.eqb n 0 then Throw BadIndex
  else if Nat.eqb n 1 then Throw NotFinite
  else if Req_EM_T (voltage rows col n) 0 then Throw NotFinite
  else Ok (facts K (Nat.eqb gap 2)).
Proof.
  unfold cal_transfac. cbv zeta. replace (S col - 1)%nat with col by lia.
  destruct (_ || _)%bool eqn:G; [reflexivity|]. apply orb_false_iff in G as [G0 _]. apply Nat.eqb_neq in G0.
  change (if half then (List.length rows / 2)%nat else List.length rows) with n.
  destruct (Nat.eqb_spec n 0) as [|N0]; [reflexivity|]. destruct (Nat.eqb_spec n 1) as [|N1]; [reflexivity|].
  fold zE. rewrite !zE_nth by lia. cbn [fst]. rewrite row_nth by lia. cbn [fst].
  fold (step rows n).
  rewrite !shifted.
  assert (E1 : over n (fun k => (Rabs (fld k) + Rabs (fld (S k))) / 2 * step rows n) = voltage rows col n) by reflexivity.
  rewrite E1. destruct (Req_EM_T (voltage rows col n) 0) as [|V]; [reflexivity|].
  assert (E2 : over n (fun k => (pos k - pos 0%nat + (pos (S k) - pos 0%nat)) / 2 * (Rabs (fld k) + Rabs (fld (S k))) / 2 * step rows n) / voltage rows col n =
               centre rows col n - pos 0%nat).
  { unfold centre. rewrite (over_eq n _ (fun k => between rows k * size_at rows col k * step rows n + (size_at rows col k * step rows n) * - pos 0%nat))
      by (intros; unfold between, size_at; field).
    rewrite over_plus, (over_scal n (fun k => size_at rows col k * step rows n)).
    change (over n (fun k => size_at rows col k * step rows n)) with (voltage rows col n). field. exact V. }
  rewrite E2. rewrite !shift_twice, !shifted.
  replace (pos 0%nat + (centre rows col n - pos 0%nat)) with (centre rows col n) by ring.
  assert (E3 : over n (fun k => (fld k + fld (S k)) / 2 * cos (K * (pos k - centre rows col n + (pos (S k) - centre rows col n)) / 2) * step rows n) / voltage rows col n =
               even_part rows col n K).
  { unfold even_part. f_equal. apply over_eq. intros k _. unfold mean_at, off, between. do 2 f_equal. f_equal. field. }
  assert (E4 : over n (fun k => - ((pos k - centre rows col n + (pos (S k) - centre rows col n)) / 2 * (fld k + fld (S k)) / 2 *
                 sin (K * (pos k - centre rows col n + (pos (S k) - centre rows col n)) / 2) * step rows n)) / voltage rows col n = even_slope rows col n K).
  { unfold even_slope. f_equal. rewrite over_opp. f_equal. apply over_eq. intros k _. unfold mean_at, off, between.
    replace (K * (pos k - centre rows col n + (pos (S k) - centre rows col n)) / 2) with (K * ((pos k + pos (S k)) / 2 - centre rows col n)) by field. field. }
  assert (E5 : over n (fun k => (fld k + fld (S k)) / 2 * sin (K * (pos k - centre rows col n + (pos (S k) - centre rows col n)) / 2) *
                 (pos (S k) - centre rows col n - (pos k - centre rows col n))) / voltage rows col n = odd_part rows col n K).
  { unfold odd_part. f_equal. apply over_eq. intros k _. unfold mean_at, off, between.
    replace (K * (pos k - centre rows col n + (pos (S k) - centre rows col n)) / 2) with (K * ((pos k + pos (S k)) / 2 - centre rows col n)) by field. field. }
  assert (E6 : over n (fun k => (pos k - centre rows col n + (pos (S k) - centre rows col n)) / 2 * (fld k + fld (S k)) / 2 *
                 cos (K * (pos k - centre rows col n + (pos (S k) - centre rows col n)) / 2) * step rows n) / voltage rows col n = odd_slope rows col n K).
  { unfold odd_slope. f_equal. apply over_eq. intros k _. unfold mean_at, off, between.
    replace (K * (pos k - centre rows col n + (pos (S k) - centre rows col n)) / 2) with (K * ((pos k + pos (S k)) / 2 - centre rows col n)) by field. field. }
  rewrite E3, E4, E5, E6. unfold facts.
  assert (E7 : voltage rows col n / MeVtoeV / MtoMM = voltage rows col n / 1000000000) by (unfold MeVtoeV, MtoMM; field).
  rewrite E7. destruct (Nat.eqb gap 2); f_equal; f_equal; ring.
Qed.

(** When there are factors, and which. *)
Lemma table_iff gap K : (exists t, cal_transfac rows (S col) gap K half = Ok t) <-> has_column col rows /\ (2 <= n)%nat /\ voltage rows col n <> 0.
Proof.
  rewrite transfac_is. rewrite <- column_b. pose proof used_le as U.
  destruct (Nat.eqb_spec (List.length rows) 0) as [L0|L0]; cbn [orb].
  { split; [intros [t Ht]; discriminate|intros (_ & N & _); lia]. }
  destruct (forallb _ rows); cbn [negb].
  2:{ split; [intros [t Ht]; discriminate|intros (H & _); discriminate]. }
  destruct (Nat.eqb_spec n 0) as [N0|N0]; [split; [intros [t Ht]; discriminate|intros (_ & N & _); lia]|].
  destruct (Nat.eqb_spec n 1) as [N1|N1]; [split; [intros [t Ht]; discriminate|intros (_ & N & _); lia]|].
  destruct (Req_EM_T _ 0) as [V|V]; [split; [intros [t Ht]; discriminate|intros (_ & _ & X); contradiction]|].
  split; [intros _; split; [reflexivity|split; [lia|exact V]]|intros _; eexists; reflexivity].
Qed.
Lemma table_ok gap K t : cal_transfac rows (S col) gap K half = Ok t ->
  t = facts K (Nat.eqb gap 2) /\ (2 <= n)%nat /\ voltage rows col n <> 0.
Proof.
  intros H. assert (I : exists t, cal_transfac rows (S col) gap K half = Ok t) by (exists t; exact H).
  apply table_iff in I. destruct I as (_ & N & V). split; [|auto].
  rewrite transfac_is in H. destruct (_ || _)%bool in H; [discriminate|]. destruct (Nat.eqb n 0) in H; [discriminate|].
  destruct (Nat.eqb n 1) in H; [discriminate|]. destruct (Req_EM_T _ _) in H; [discriminate|]. injection H as <-. reflexivity.
Qed.
Lemma table_value gap K t : cal_transfac rows (S col) gap K half = Ok t -> of_table rows col n (Nat.eqb gap 2) K t.
Proof.
  intros H. destruct (table_ok _ _ _ H) as (-> & _). unfold of_table, facts. cbn. repeat split; reflexivity.
Qed.

(** ** Slopes *)
Lemma over_derivable (f f' : nat -> R -> R) x : (forall k, derivable_pt_lim (f k) x (f' k x)) ->
  derivable_pt_lim (fun y => over n (fun k => f k y)) x (over n (fun k => f' k x)).
Proof.
  intros D. unfold over. destruct n as [|[|m]]; [apply derivable_pt_lim_const|apply derivable_pt_lim_const|].
  induction m as [|m IH]; [apply D|]. cbn [sum_f_R0]. apply (derivable_pt_lim_plus (fun y => sum_f_R0 (fun k => f k y) m) (f (S m))); auto.
Qed.
Lemma div_derivable (f : R -> R) x l v : derivable_pt_lim f x l -> derivable_pt_lim (fun y => f y / v) x (l / v).
Proof.
  intros D. unfold Rdiv.
  assert (X : derivable_pt_lim (fun y => (/ v) * f y) x (/ v * l)) by (apply (derivable_pt_lim_scal f); exact D).
  rewrite (Rmult_comm l). refine (derivable_pt_lim_ext _ _ _ _ _ X). intros y. ring.
Qed.
Lemma cos_k a b d x : derivable_pt_lim (fun y => a * cos (y * b) * d) x (- (b * a * sin (x * b) * d)).
Proof.
  replace (- (b * a * sin (x * b) * d)) with ((a * d) * (- sin (x * b) * b)) by ring.
  assert (X : derivable_pt_lim (fun y => (a * d) * cos (y * b)) x ((a * d) * (- sin (x * b) * b))).
  { apply (derivable_pt_lim_scal (fun y => cos (y * b))). apply (derivable_pt_lim_comp (fun y => y * b) cos); [|apply derivable_pt_lim_cos].
    pose proof (derivable_pt_lim_scal id b x 1 (derivable_pt_lim_id x)) as Y. rewrite Rmult_1_r in Y.
    refine (derivable_pt_lim_ext _ _ _ _ _ Y). intros y. unfold mult_real_fct, id. ring. }
  refine (derivable_pt_lim_ext _ _ _ _ _ X). intros y. ring.
Qed.
Lemma sin_k a b d x : derivable_pt_lim (fun y => a * sin (y * b) * d) x (b * a * cos (x * b) * d).
Proof.
  replace (b * a * cos (x * b) * d) with ((a * d) * (cos (x * b) * b)) by ring.
  assert (X : derivable_pt_lim (fun y => (a * d) * sin (y * b)) x ((a * d) * (cos (x * b) * b))).
  { apply (derivable_pt_lim_scal (fun y => sin (y * b))). apply (derivable_pt_lim_comp (fun y => y * b) sin); [|apply derivable_pt_lim_sin].
    pose proof (derivable_pt_lim_scal id b x 1 (derivable_pt_lim_id x)) as Y. rewrite Rmult_1_r in Y.
    refine (derivable_pt_lim_ext _ _ _ _ _ Y). intros y. unfold mult_real_fct, id. ring. }
  refine (derivable_pt_lim_ext _ _ _ _ _ X). intros y. ring.
Qed.
Lemma even_derivable K : derivable_pt_lim (even_part rows col n) K (even_slope rows col n K).
Proof.
  unfold even_part, even_slope. rewrite <- over_opp.
  apply (div_derivable (fun y => over n (fun k => mean_at rows col k * cos (y * off rows col n k) * step rows n))).
  apply (over_derivable (fun k y => mean_at rows col k * cos (y * off rows col n k) * step rows n)
           (fun k y => - (off rows col n k * mean_at rows col k * sin (y * off rows col n k) * step rows n))).
  intros k. apply cos_k.
Qed.
Lemma odd_derivable K : evenly_spaced rows n -> derivable_pt_lim (odd_part rows col n) K (odd_slope rows col n K).
Proof.
  intros E. unfold odd_slope.
  assert (X : derivable_pt_lim (fun y => over n (fun k => mean_at rows col k * sin (y * off rows col n k) * step rows n) / voltage rows col n) K
     (over n (fun k => off rows col n k * mean_at rows col k * cos (K * off rows col n k) * step rows n) / voltage rows col n)).
  { apply (div_derivable (fun y => over n (fun k => mean_at rows col k * sin (y * off rows col n k) * step rows n))).
    apply (over_derivable (fun k y => mean_at rows col k * sin (y * off rows col n k) * step rows n)
           (fun k y => (off rows col n k * mean_at rows col k * cos (y * off rows col n k) * step rows n))).
    intros k. apply sin_k. }
  refine (derivable_pt_lim_ext _ _ _ _ _ X). intros y. unfold odd_part. f_equal. apply over_eq. intros k Hk. rewrite (E k Hk). reflexivity.
Qed.

(** ** Bounds *)
Lemma over_abs m f : Rabs (over m f) <= over m (fun k => Rabs (f k)).
Proof. unfold over. destruct m as [|[|m]]; try (rewrite Rabs_R0; lra). apply sum_f_R0_triangle || apply Rsum_abs. Qed.
Lemma mean_size k : Rabs (mean_at rows col k) <= size_at rows col k.
Proof.
  unfold mean_at, size_at. unfold Rdiv. rewrite Rabs_mult, (Rabs_right (/ 2)) by lra.
  apply Rmult_le_compat_r; [lra|apply Rabs_triang].
Qed.
Lemma one_turn a b x : a * cos x + b * sin x <= sqrt (a * a + b * b).
Proof.
  pose proof (sin2_cos2 x) as P. unfold Rsqr in P.
  apply Rsqr_incr_0_var; [|apply sqrt_pos]. rewrite Rsqr_sqrt by nra. unfold Rsqr.
  assert (0 <= (a * sin x - b * cos x) * (a * sin x - b * cos x)) by apply Rle_0_sqr. nra.
Qed.
Lemma one_turn_abs a b x : Rabs (a * cos x + b * sin x) <= sqrt (a * a + b * b).
Proof.
  apply Rabs_le. split; [|apply one_turn].
  pose proof (one_turn (- a) (- b) x) as P. replace (- a * - a + - b * - b) with (a * a + b * b) in P by ring. lra.
Qed.
Lemma whole_bound K : evenly_spaced rows n -> 0 < step rows n -> voltage rows col n <> 0 ->
  even_part rows col n K * even_part rows col n K + odd_part rows col n K * odd_part rows col n K <= 1.
Proof.
  intros E P V.
  set (A := even_part rows col n K). set (B := odd_part rows col n K).
  assert (Vp : 0 < voltage rows col n).
  { assert (0 <= voltage rows col n); [|lra]. unfold voltage. rewrite <- (over_0 n). apply over_le. intros k _.
    apply Rmult_le_pos; [|lra]. unfold size_at. pose proof (Rabs_pos (fld k)). pose proof (Rabs_pos (fld (S k))). lra. }
  assert (Q : (A * A + B * B) * voltage rows col n <= sqrt (A * A + B * B) * voltage rows col n).
  { assert (EA : A * voltage rows col n = over n (fun k => mean_at rows col k * cos (K * off rows col n k) * step rows n))
      by (unfold A, even_part; field; lra).
    assert (EB : B * voltage rows col n = over n (fun k => mean_at rows col k * sin (K * off rows col n k) * step rows n)).
    { unfold B, odd_part. replace (over n _ / voltage rows col n * voltage rows col n)
        with (over n (fun k => mean_at rows col k * sin (K * off rows col n k) * (pos (S k) - pos k))) by (field; lra).
      apply over_eq. intros k Hk. rewrite (E k Hk). reflexivity. }
    replace ((A * A + B * B) * voltage rows col n) with ((A * voltage rows col n) * A + (B * voltage rows col n) * B) by ring.
    rewrite EA, EB, <- !over_scal, <- over_plus.
    rewrite Rmult_comm. unfold voltage. rewrite <- over_scal. apply over_le. intros k _.
    replace (mean_at rows col k * cos (K * off rows col n k) * step rows n * A + mean_at rows col k * sin (K * off rows col n k) * step rows n * B)
      with ((mean_at rows col k * (A * cos (K * off rows col n k) + B * sin (K * off rows col n k))) * step rows n) by ring.
    replace (size_at rows col k * step rows n * sqrt (A * A + B * B)) with ((size_at rows col k * sqrt (A * A + B * B)) * step rows n) by ring.
    apply Rmult_le_compat_r; [lra|]. eapply Rle_trans; [apply Rle_abs|]. rewrite Rabs_mult.
    apply Rmult_le_compat; [apply Rabs_pos|apply Rabs_pos|apply mean_size|apply one_turn_abs]. }
  apply Rmult_le_reg_r in Q; [|exact Vp].
  set (r := A * A + B * B) in *. assert (Z : 0 <= r) by (unfold r; nra).
  pose proof (sqrt_sqrt r Z) as SS. pose proof (sqrt_pos r) as SP. nra.
Qed.
Lemma table_bound gap K t : cal_transfac rows (S col) gap K half = Ok t -> evenly_spaced rows n -> 0 < step rows n ->
  t_T t * t_T t + t_S t * t_S t <= 1.
Proof.
  intros H E P. destruct (table_ok _ _ _ H) as (-> & _ & V). pose proof (whole_bound K E P V) as W.
  unfold facts. cbn. destruct (Nat.eqb gap 2); nra.
Qed.
End Table.
