(** Per-charge-state arrays stay aligned. *)
From Coq Require Import Reals List String Bool NArith ZArith Arith Lia Lra.
From Verif Require Import SMap SMap_Proofs Dbl Config_Spec Mat Mat_Proofs Minv Minv_Proofs
  Machine_Model Machine_Spec Machine_Proofs Machine2_Proofs Machine4_Proofs Moment_Model Moment_Spec Moment_Proofs.
Import ListNotations.
Open Scope R_scope.
Open Scope string_scope.
Open Scope list_scope.

(** ** Lists *)
Lemma over_ok {A B} (f : B -> A -> A) xs : forall l, (List.length xs <= List.length l)%nat ->
  exists r, over f xs l = Ok r /\ List.length r = List.length l.
Proof.
  induction xs as [|x xs IH]; intros l H; simpl; [eauto|].
  destruct l as [|a l]; [simpl in H; lia|]. destruct (IH l) as (r & -> & L); [simpl in H; lia|].
  simpl. eexists. split; [reflexivity|]. simpl. auto.
Qed.
Lemma over_length {A B} (f : B -> A -> A) xs : forall l r, over f xs l = Ok r -> List.length r = List.length l.
Proof.
  induction xs as [|x xs IH]; intros l r; simpl; [congruence|].
  destruct l as [|a l]; [discriminate|]. intros H. apply rbind_ok in H as (r' & H1 & H). injection H as <-.
  simpl. erewrite IH; eauto.
Qed.
Lemma run_length {A} (f : particle -> A -> A * option exn) ps : forall l r e,
  run_cells f ps l = (r, e) -> List.length r = List.length l.
Proof.
  induction ps as [|p ps IH]; intros l r e; simpl; [congruence|].
  destruct l as [|a l]; [congruence|]. destruct (f p a) as [b [x|]]; [intros [= <- <-]; reflexivity|].
  destruct (run_cells f ps l) as [r' e'] eqn:E. intros [= <- <-]. simpl. erewrite IH; eauto.
Qed.
Lemma run_throw {A} (f : particle -> A -> A * option exn) ps : forall l r e,
  run_cells f ps l = (r, Some e) -> (List.length ps <= List.length l)%nat -> exists p a, snd (f p a) = Some e.
Proof.
  induction ps as [|p ps IH]; intros l r e; simpl; [congruence|].
  destruct l as [|a l]; [simpl; lia|]. destruct (f p a) as [b [x|]] eqn:F.
  - intros [= <- <-] _. exists p, a. rewrite F. reflexivity.
  - destruct (run_cells f ps l) as [r' e'] eqn:E. intros [= <- ->] L. eapply IH; eauto. simpl in L; lia.
Qed.
Lemma rmap_length {A B} (f : A -> res B) l : forall r, rmap f l = Ok r -> List.length r = List.length l.
Proof.
  induction l as [|a l IH]; intros r; simpl; [intros [= <-]; reflexivity|]. intros H.
  apply rbind_ok in H as (b & _ & H). apply rbind_ok in H as (r' & H & E). injection E as <-. simpl. erewrite IH; eauto.
Qed.
Lemma rmap_throw {A B} (f : A -> res B) l e : rmap f l = Throw e -> exists a, In a l /\ f a = Throw e.
Proof.
  induction l as [|a l IH]; simpl; [discriminate|]. intros H. apply rbind_throw in H as [H|(b & _ & H)].
  - eauto.
  - apply rbind_throw in H as [H|(r & _ & H)]; [|discriminate]. destruct (IH H) as (a' & ? & ?). eauto.
Qed.
Lemma resize_length {A} n (x : A) l : List.length (resize n x l) = n.
Proof. unfold resize. rewrite app_length, repeat_length, firstn_length. lia. Qed.

(** ** No access beyond the end *)
Definition nb {A} (r : res A) : Prop := r <> Throw BadIndex.
Lemma nb_ok {A} (a : A) : nb (Ok a). Proof. discriminate. Qed.
Lemma nb_bind {A C} (r : res A) (f : A -> res C) : nb r -> (forall a, r = Ok a -> nb (f a)) -> nb (rbind r f).
Proof. destruct r; simpl; intros; auto. unfold nb in *. congruence. Qed.
Lemma nb_bind' {A C} (r : res A) (f : A -> res C) : nb r -> (forall a, nb (f a)) -> nb (rbind r f).
Proof. intros; apply nb_bind; auto. Qed.

Lemma nb_inverse A : nb (inverse A).
Proof. unfold inverse. destruct (minv _ _); discriminate. Qed.
Lemma nb_misalign sh len ref p : nb (get_misalign sh len ref p).
Proof. unfold get_misalign. repeat (apply nb_bind'; [apply nb_inverse|intros ?]). apply nb_ok. Qed.
Lemma nb_get_num c n : nb (get_num c n).
Proof. unfold get_num. destruct (tfind n c) as [[]|]; discriminate. Qed.
Lemma nb_get_vec c n : nb (get_vec c n).
Proof. unfold get_vec. destruct (tfind n c) as [[]|]; discriminate. Qed.
Lemma nb_cast lim x : nb (cast_unsigned lim x).
Proof. unfold cast_unsigned. destruct (dtrunc x); [destruct (_ && _)%bool|]; discriminate. Qed.
Lemma nb_cast_int x : nb (cast_int x).
Proof. unfold cast_int. destruct (dtrunc x); [destruct (_ && _)%bool|]; discriminate. Qed.
Lemma nb_load n c name : nb (load_storage n c name).
Proof. unfold load_storage. destruct (get_vec c name); [destruct (Nat.eqb _ _)|]; discriminate. Qed.
Lemma nb_rmap {A B} (f : A -> res B) l : (forall a, In a l -> nb (f a)) -> nb (rmap f l).
Proof. intros H E. apply rmap_throw in E as (a & Ha & E). exact (H a Ha E). Qed.
Lemma nb_over {A B} (f : B -> A -> A) xs l : (List.length xs <= List.length l)%nat -> nb (over f xs l).
Proof. intros H. destruct (over_ok f xs l H) as (r & -> & _). apply nb_ok. Qed.

Section M.
Variable w : world.
Hypothesis W : sane w.
Notation num := (w_num w).

Lemma nb_num_of c n : nb (num_of w c n).
Proof. unfold num_of. apply nb_bind'; [apply nb_get_num|intros; apply nb_ok]. Qed.
Lemma nb_flag c n d : nb (get_flag w c n d).
Proof. unfold get_flag. destruct (exact_uint _); discriminate. Qed.
Lemma nb_curve_loop c cv rg k : forall n prev, nb (curve_loop w c cv rg k n prev).
Proof.
  induction k as [|k IH]; intros n prev; simpl; [apply nb_ok|]. destruct (get_vec _ _); [|discriminate].
  apply nb_bind'.
  - destruct rg as [[|x [|y [|]]]|]; try discriminate.
    apply nb_bind'; [apply nb_cast|intros ?]. apply nb_bind'; [apply nb_cast|intros ?].
    destruct (_ || _)%bool; [discriminate|]. destruct (N.ltb _ _); discriminate.
  - intros part. destruct (match prev with Some _ => _ | None => _ end); [discriminate|].
    apply nb_bind'; [apply IH|intros; apply nb_ok].
Qed.
Lemma nb_curves c n : nb (get_curves w c n).
Proof.
  unfold get_curves. apply nb_bind'; [|intros; apply nb_curve_loop].
  destruct (get_str c _); [apply W|apply nb_ok].
Qed.

Lemma misaligned_nb d ref p T : snd (misaligned d ref p T) <> Some BadIndex.
Proof.
  unfold misaligned. pose proof (nb_misalign (md_sh d) (md_len d) ref p) as H.
  destruct (get_misalign _ _ _ _) as [[M IM]|e]; simpl; [discriminate|]. intros [= ->]. apply H. reflexivity.
Qed.

(** The functions of setup never report BadIndex. *)
Definition fine (r : res cell_fun) : Prop :=
  match r with Ok f => forall p T, snd (f p T) <> Some BadIndex | Throw e => e <> BadIndex end.
Lemma fine_bind {A} (r : res A) (f : A -> res cell_fun) : nb r -> (forall a, fine (f a)) -> fine (rbind r f).
Proof. destruct r; simpl; intros; auto. intros ->. apply H. reflexivity. Qed.
Lemma setup_fine k d c ref : fine (setup w k d c ref).
Proof.
  destruct k; cbn [setup fine]; try (intros; discriminate).
  - intros p T. unfold setup_orbtrim. destruct (misaligned d ref p _) as [T' [e|]] eqn:E.
    + pose proof (misaligned_nb d ref p) as X. simpl. intros [= ->]. eapply X. rewrite E. reflexivity.
    + destruct (Req_EM_T _ 0); discriminate.
  - unfold setup_sbend. repeat (apply fine_bind; [apply nb_num_of|intros ?]). intros p T.
    destruct (Req_EM_T _ 0); [discriminate|]. destruct (N.eqb _ _); [|apply misaligned_nb].
    pose proof (nb_num_of c "bg") as X. destruct (num_of w c "bg") as [x|e].
    + apply misaligned_nb.
    + simpl. intros [= ->]. apply X. reflexivity.
  - unfold setup_quad. apply fine_bind; [apply nb_num_of|intros l]. apply fine_bind; [apply nb_flag|intros n].
    destruct (negb _).
    + apply fine_bind; [apply nb_curves|intros cvs p T]. apply misaligned_nb.
    + apply fine_bind; [apply nb_num_of|intros B2 p T]. apply misaligned_nb.
  - unfold setup_solenoid. apply fine_bind; [apply nb_num_of|intros l]. apply fine_bind; [apply nb_flag|intros n].
    destruct (negb _).
    + apply fine_bind; [apply nb_curves|intros cvs p T]. apply misaligned_nb.
    + apply fine_bind; [apply nb_num_of|intros B2 p T]. apply misaligned_nb.
  - unfold setup_edipole. apply fine_bind; [apply nb_get_num|intros ver].
    apply fine_bind; [apply nb_num_of|intros l]. apply fine_bind; [apply nb_num_of|intros phi].
    apply fine_bind; [apply nb_num_of|intros sph]. apply fine_bind; [apply nb_flag|intros n].
    destruct (negb _); [discriminate|]. intros p T. cbv zeta. destruct (Req_EM_T _ 0); [discriminate|]. apply misaligned_nb.
  - unfold setup_equad. apply fine_bind; [apply nb_num_of|intros l]. apply fine_bind; [apply nb_flag|intros n].
    destruct (negb _).
    + apply fine_bind; [apply nb_curves|intros cvs p T]. apply misaligned_nb.
    + apply fine_bind; [apply nb_num_of|intros V]. apply fine_bind; [apply nb_num_of|intros B2 p T]. apply misaligned_nb.
  - intros p T. pose proof (nb_load (msize * msize) c "matrix") as X.
    destruct (load_storage _ _ _); simpl; [discriminate|]. intros [= ->]. apply X. reflexivity.
Qed.
Lemma recompute_length k c d s tm e : recompute w k c d s = (tm, e) -> List.length tm = List.length (md_tm d).
Proof.
  unfold recompute. destruct (setup w k d c (ms_ref s)); [apply run_length|]. congruence.
Qed.
Lemma recompute_nb k c d s tm e : (List.length (ms_real s) <= List.length (md_tm d))%nat ->
  recompute w k c d s = (tm, Some e) -> e <> BadIndex.
Proof.
  intros L. unfold recompute. pose proof (setup_fine k d c (ms_ref s)) as F.
  destruct (setup w k d c (ms_ref s)) as [f|x]; simpl in F.
  - intros H. apply run_throw in H as (p & a & H); auto. intros ->. exact (F p a H).
  - congruence.
Qed.

(** ** Elements *)
Definition shaped (k : mkind) (c : tcfg) (d : mdata) : Prop :=
  List.length (md_tm d) = List.length (md_real_in d) /\
  List.length (md_mis d) = List.length (md_real_in d) /\
  List.length (md_real_out d) = List.length (md_real_in d) /\
  (forall s, md_istate d = Some s -> aligned s) /\
  (k = KStripper -> vec_at c "IonChargeStates" <> Some []).

Lemma recalc_aligned s : aligned s -> aligned (ms_recalc s).
Proof.
  intros (H1 & H2 & H3 & H4). unfold aligned, ms_recalc. simpl. rewrite map_length. repeat split; auto.
  destruct (ms_real s); [congruence|discriminate].
Qed.
Lemma calc_aligned pos ref real m0 m1 tm e0 r e1 ph : real <> [] ->
  List.length m0 = List.length real -> List.length m1 = List.length real -> List.length tm = List.length real ->
  exists s', calc_rms w (mkMS pos ref real m0 m1 tm e0 r e1 ph) = Ok s' /\ aligned s'.
Proof. intros. apply calc_rms_aligned. repeat split; auto. Qed.

Lemma transport_ok d s Ts : aligned s -> List.length (md_real_in d) = List.length (ms_real s) ->
  List.length Ts = List.length (md_real_in d) ->
  exists m0 m1 tm, transport d s Ts = Ok (m0, m1, tm) /\ List.length m0 = List.length (ms_real s) /\
    List.length m1 = List.length (ms_real s) /\ List.length tm = List.length (ms_real s).
Proof.
  intros (A1 & A2 & A3 & A4) H1 H2. unfold transport. rewrite <- H2, firstn_all, Nat.ltb_irrefl.
  destruct (over_ok (mapp msize) Ts (ms_m0 s)) as (m0 & -> & L1); [lia|]. cbn [rbind].
  destruct (over_ok sandwich Ts (ms_m1 s)) as (m1 & -> & L2); [lia|]. cbn [rbind].
  destruct (over_ok (fun T _ => T) Ts (ms_tm s)) as (tm & -> & L3); [lia|]. cbn [rbind].
  exists m0, m1, tm. repeat split; congruence.
Qed.

Lemma directed_nb r Ts : nb (directed r Ts).
Proof. unfold directed. destruct r; [|apply nb_ok]. apply nb_rmap. intros; apply nb_inverse. Qed.
Lemma directed_length r Ts Ts' : directed r Ts = Ok Ts' -> List.length Ts' = List.length Ts.
Proof. unfold directed. destruct r; [apply rmap_length|congruence]. Qed.

Definition outcome (r : res mstate) : Prop := match r with Ok s => aligned s | Throw e => e <> BadIndex end.
Lemma outcome_bind {A} (r : res A) f : nb r -> (forall a, r = Ok a -> outcome (f a)) -> outcome (rbind r f).
Proof. destruct r; simpl; intros; auto. intros ->. apply H. reflexivity. Qed.

Lemma finish_ok d r s ref real : aligned s -> List.length (md_real_in d) = List.length (ms_real s) ->
  List.length (md_tm d) = List.length (md_real_in d) -> List.length real = List.length (ms_real s) ->
  outcome (finish w d r s ref real).
Proof.
  intros A L1 L2 L3. unfold finish. apply outcome_bind; [apply directed_nb|intros Ts HT].
  apply directed_length in HT. destruct (transport_ok d s Ts A L1) as (m0 & m1 & tm & -> & M1 & M2 & M3); [congruence|].
  cbn [rbind]. edestruct calc_aligned as (s' & -> & H); [| | | |exact H]; try congruence.
  destruct A as [A _]. destruct real; [|discriminate]. destruct (ms_real s); [congruence|discriminate].
Qed.
Lemma finish_sbend_ok d r s ref real : aligned s -> List.length (md_real_in d) = List.length (ms_real s) ->
  List.length (md_tm d) = List.length (md_real_in d) -> List.length real = List.length (ms_real s) ->
  outcome (finish_sbend w d r s ref real).
Proof.
  intros A L1 L2 L3. unfold finish_sbend. apply outcome_bind; [apply directed_nb|intros Ts HT].
  apply directed_length in HT. destruct (transport_ok d s Ts A L1) as (m0 & m1 & tm & -> & M1 & M2 & M3); [congruence|].
  cbn [rbind]. match goal with |- context [over ?f ?xs real] => destruct (over_ok f xs real) as (real' & -> & L4) end.
  { rewrite firstn_length. lia. }
  cbn [rbind]. edestruct calc_aligned as (s' & -> & H); [| | | |exact H]; try congruence.
  destruct A as [A _]. destruct real'; [|discriminate]. destruct (ms_real s); simpl in *; [congruence|lia].
Qed.
Lemma from_cache_ok d s : List.length (md_real_out d) = List.length (ms_real s) ->
  exists ref real, from_cache w d s = Ok (ref, real) /\ List.length real = List.length (ms_real s).
Proof.
  intros L. unfold from_cache. rewrite L, Nat.eqb_refl. rewrite andb_false_r.
  destruct (over_ok (fun x _ => x) (md_real_out d) (ms_real s)) as (real & -> & L'); [lia|]. simpl. eauto.
Qed.
Lemma cache_length d s : check_cache d s = true -> List.length (md_real_in d) = List.length (ms_real s).
Proof.
  unfold check_cache. intros H. apply andb_true_iff in H as [H _]. apply andb_true_iff in H as [H _].
  apply andb_true_iff in H as [_ H]. apply Nat.eqb_eq in H. auto.
Qed.
Lemma note_shape d s :
  List.length (md_real_in (note_input d s)) = List.length (ms_real s) /\
  List.length (md_tm (note_input d s)) = List.length (ms_real s) /\
  List.length (md_mis (note_input d s)) = List.length (ms_real s).
Proof. unfold note_input. simpl. rewrite !resize_length. auto. Qed.

Lemma base_ok k c d r s d' x : shaped k c d -> aligned s -> advance_base w k c d r s = (d', x) ->
  outcome x /\ (forall s', x = Ok s' -> shaped k c d').
Proof.
  intros (S1 & S2 & S3 & S4 & S5) A0. apply recalc_aligned in A0. unfold advance_base.
  set (s1 := ms_recalc s) in *. destruct (check_cache d s1) eqn:C.
  - apply cache_length in C. intros [= <- <-]. split; [|intros; exact (conj S1 (conj S2 (conj S3 (conj S4 S5))))].
    destruct (from_cache_ok d s1) as (ref & real & -> & L); [congruence|]. cbn [rbind]. apply finish_ok; auto.
  - destruct (note_shape d s1) as (N1 & N2 & N3). set (d1 := note_input d s1) in *.
    destruct (recompute w k c d1 s1) as [tm e] eqn:RC. pose proof (recompute_length _ _ _ _ _ _ RC) as LT.
    destruct e as [e|].
    + intros [= <- <-]. split; [|discriminate]. simpl. eapply recompute_nb; [|exact RC]. lia.
    + intros [= <- <-]. split; [|intros; unfold shaped].
      * apply finish_ok; [apply recalc_aligned; exact A0|..]; simpl in *; rewrite ?map_length in *; congruence.
      * simpl in *; rewrite ?map_length in *. repeat (split; [assumption || congruence|]). assumption.
Qed.
Lemma sbend_ok c d r s d' x : shaped KSBend c d -> aligned s -> advance_sbend w c d r s = (d', x) ->
  outcome x /\ (forall s', x = Ok s' -> shaped KSBend c d').
Proof.
  intros (S1 & S2 & S3 & S4 & S5) A0. apply recalc_aligned in A0. unfold advance_sbend.
  set (s1 := ms_recalc s) in *. destruct (check_cache d s1) eqn:C.
  - apply cache_length in C. intros [= <- <-]. split; [|intros; exact (conj S1 (conj S2 (conj S3 (conj S4 S5))))].
    destruct (from_cache_ok d s1) as (ref & real & -> & L); [congruence|]. cbn [rbind]. apply finish_sbend_ok; auto.
  - destruct (note_shape d s1) as (N1 & N2 & N3). set (d1 := note_input d s1) in *.
    destruct (recompute w KSBend c d1 s1) as [tm e] eqn:RC. pose proof (recompute_length _ _ _ _ _ _ RC) as LT.
    destruct e as [e|].
    + intros [= <- <-]. split; [|discriminate]. simpl. eapply recompute_nb; [|exact RC]. lia.
    + intros [= <- <-]. split; [|intros; unfold shaped].
      * apply finish_sbend_ok; [apply recalc_aligned; exact A0|..]; simpl in *; rewrite ?map_length in *; congruence.
      * simpl in *; rewrite ?map_length in *. repeat (split; [assumption || congruence|]). assumption.
Qed.
Lemma sext_ok c d r s : aligned s -> outcome (advance_sext w c d r s).
Proof.
  intros A0. apply recalc_aligned in A0. unfold advance_sext.
  apply outcome_bind; [apply nb_num_of|intros B3 _]. apply outcome_bind; [apply nb_num_of|intros l _].
  apply outcome_bind; [destruct (tfind "step" c) as [[]|]; try apply nb_ok; apply nb_cast_int|intros step _].
  destruct r; [discriminate|]. set (s1 := ms_recalc s) in *. cbv zeta. assert (A := A0). destruct A as (A1 & A2 & A3 & A4).
  rewrite A2, A3, A4, Nat.ltb_irrefl. cbn [orb]. apply outcome_bind.
  { apply nb_rmap. intros (p & v & m) _. unfold sext_cell. apply nb_bind'; [apply nb_misalign|intros [M IM]].
    destruct (sext_steps _ _ _ _ _ _ _ _ _ _) as [[v' m'] T]. apply nb_ok. }
  intros outs HO. apply rmap_length in HO. unfold cells in HO. rewrite !combine_length in HO.
  change (ms_m0 (ms_recalc s1)) with (ms_m0 s1). change (ms_m1 (ms_recalc s1)) with (ms_m1 s1).
  change (ms_tm (ms_recalc s1)) with (ms_tm s1).
  match goal with |- context [over ?f outs (ms_m0 s1)] => destruct (over_ok f outs (ms_m0 s1)) as (m0 & -> & L0); [lia|] end. cbn [rbind].
  match goal with |- context [over ?f outs (ms_m1 s1)] => destruct (over_ok f outs (ms_m1 s1)) as (m1 & -> & L1); [lia|] end. cbn [rbind].
  match goal with |- context [over ?f outs (ms_tm s1)] => destruct (over_ok f outs (ms_tm s1)) as (tm & -> & L2); [lia|] end. cbn [rbind].
  edestruct calc_aligned as (s' & -> & H); [| | | |exact H]; simpl ms_real; rewrite ?map_length; simpl in *; rewrite ?map_length in *; try congruence.
  destruct (ms_real s); [simpl in A1; congruence|discriminate].
Qed.
Lemma nb_at l i : nb (at_ l i).
Proof. unfold at_. destruct (nth_error l i); discriminate. Qed.
Lemma nb_charge proton mass beta chg : nb (charge_stripper proton mass beta chg).
Proof.
  unfold charge_stripper. destruct (Rle_dec _ 0); [discriminate|]. destruct (stripper_charge _ _).
  destruct (Rle_dec _ 0); discriminate.
Qed.
Lemma charge_length proton mass beta chg l : charge_stripper proton mass beta chg = Ok l -> List.length l = List.length chg.
Proof.
  unfold charge_stripper. destruct (Rle_dec _ 0); [discriminate|]. destruct (stripper_charge _ _).
  destruct (Rle_dec _ 0); [discriminate|]. intros [= <-]. apply map_length.
Qed.
Lemma nb_growth x y : nb (growth_rate x y).
Proof. unfold growth_rate. destruct (Req_EM_T x 0); [discriminate|]. destruct (Rlt_dec _ 0); discriminate. Qed.
Lemma stripper_ok c r s : aligned s -> vec_at c "IonChargeStates" <> Some [] -> outcome (advance_stripper w c r s).
Proof.
  intros A0 HS. apply recalc_aligned in A0. unfold advance_stripper.
  destruct (calc_rms_aligned w _ A0) as (s1 & -> & A). cbn [rbind]. destruct r; [discriminate|].
  unfold stripper_getmat. apply outcome_bind; [apply nb_get_vec|intros chgd HC].
  apply outcome_bind; [apply nb_get_vec|intros nchg HN]. cbv zeta.
  destruct (_ && _)%bool eqn:E1; [discriminate|]. destruct (negb (_ || _)%bool); [discriminate|].
  assert (A' := A). destruct A' as (A1 & A2 & A3 & A4).
  assert (ER : exists p0 ps, ms_real s1 = p0 :: ps) by (destruct (ms_real s1) as [|p0 ps]; [congruence|eauto]).
  destruct ER as (p0 & ps & ER).
  apply outcome_bind.
  { destruct (String.eqb (get_str_def c "charge_model" "baron") "off"); [apply nb_ok|]. rewrite ER. apply nb_charge. }
  intros amount HA. rewrite A2, A3, Nat.ltb_irrefl. cbn [orb].
  repeat (apply outcome_bind; [apply nb_at|intros ? _]).
  destruct (Req_EM_T _ 0); [discriminate|]. destruct (Req_EM_T _ 0); [discriminate|].
  destruct (Rlt_dec _ 0); [discriminate|]. repeat (apply outcome_bind; [apply nb_growth|intros ? _]).
  assert (LA : List.length amount = List.length chgd).
  { destruct (String.eqb (get_str_def c "charge_model" "baron") "off"); rewrite ?ER in HA.
    - injection HA as <-. rewrite map_length. simpl in E1. destruct (Nat.eqb_spec (List.length chgd) (List.length nchg)); [auto|discriminate].
    - apply charge_length in HA. rewrite map_length in HA. exact HA. }
  edestruct calc_aligned as (s' & -> & H); [| | | |exact H]; rewrite ?map_length; auto.
  apply get_vec_ok in HC. destruct chgd as [|z zs]; [congruence|]. destruct amount; discriminate.
Qed.

Lemma cav_cells_ok c len phi ps : forall tm tm' r, (List.length ps <= List.length tm)%nat ->
  cav_cells w c len phi ps tm = (tm', r) ->
  List.length tm' = List.length tm /\ nb r /\ (forall l, r = Ok l -> List.length l = List.length ps).
Proof.
  induction ps as [|p ps IH]; intros tm tm' r L; cbn [cav_cells].
  - destruct tm; intros [= <- <-]; (split; [auto|split; [apply nb_ok|intros l [= <-]; auto]]).
  - destruct tm as [|t tm]; [simpl in L; lia|]. destruct (cav_cell w c len phi p) as [T [p'|e]] eqn:E.
    + destruct (cav_cells w c len phi ps tm) as [tm'' r'] eqn:E2. intros [= <- <-].
      destruct (IH tm tm'' r' ltac:(simpl in L; lia) E2) as (I1 & I2 & I3). split; [simpl; auto|].
      split; [apply nb_bind'; [auto|intros; apply nb_ok]|].
      intros l H. apply rbind_ok in H as (l' & H1 & H). injection H as <-. simpl. rewrite (I3 _ H1). auto.
    + intros [= <- <-]. split; [reflexivity|]. split; [|discriminate].
      unfold cav_cell in E. destruct W as (_ & W2 & _).
      match type of E with (let '(_, _) := ?X in _) = _ => destruct X as [T' r'] eqn:E3 end.
      injection E as <- E. apply rbind_throw in E as [E|(a & _ & E)]; [|discriminate].
      intros [= ->]. eapply W2. rewrite E3. exact E.
Qed.
Lemma cav_misalign_ok d ref real mis e : (List.length real <= List.length (md_mis d))%nat ->
  cav_misalign d ref real = (mis, e) -> List.length mis = List.length (md_mis d) /\ e <> Some BadIndex.
Proof.
  unfold cav_misalign. intros L H. split; [eapply run_length; eauto|]. intros ->.
  apply run_throw in H as (p & a & H); auto. pose proof (nb_misalign (md_sh d) (md_len d) ref p) as X.
  destruct (get_misalign _ _ _ _); simpl in H; [discriminate|]. injection H as ->. apply X. reflexivity.
Qed.
Lemma cav_apply_ok c d r s ref real d' x : aligned s -> List.length (md_real_in d) = List.length (ms_real s) ->
  List.length (md_tm d) = List.length (md_real_in d) -> List.length (md_mis d) = List.length (md_real_in d) ->
  List.length real = List.length (ms_real s) ->
  cav_apply w c d r s ref real = (d', x) ->
  outcome x /\ List.length (md_tm d') = List.length (md_tm d) /\
  md_real_in d' = md_real_in d /\ md_mis d' = md_mis d /\ md_real_out d' = md_real_out d /\ md_istate d' = md_istate d.
Proof.
  intros A L1 L2 L3 L4. unfold cav_apply. assert (A' := A). destruct A' as (A1 & A2 & A3 & A4).
  rewrite L2, L3, L1, A2, A3, A4, L4, Nat.ltb_irrefl. cbn [orb]. cbv zeta.
  assert (NE : real <> []).
  { intros ->. destruct (ms_real s); [congruence|discriminate]. }
  destruct r; cbn [negb].
  - intros [= <- <-]. split; [|repeat split; congruence]. apply outcome_bind.
    { apply nb_rmap. intros (p_in & p & ((M & IM) & T) & v & m) _. unfold cav_backward.
      apply nb_bind'; [apply nb_inverse|intros; apply nb_ok]. }
    intros outs HO. apply rmap_length in HO. unfold cells_of in HO. rewrite !combine_length in HO.
    match goal with |- context [over ?f outs (ms_m0 s)] => destruct (over_ok f outs (ms_m0 s)) as (m0 & -> & K0); [lia|] end. cbn [rbind].
    match goal with |- context [over ?f outs (ms_m1 s)] => destruct (over_ok f outs (ms_m1 s)) as (m1 & -> & K1); [lia|] end. cbn [rbind].
    match goal with |- context [over ?f outs (ms_tm s)] => destruct (over_ok f outs (ms_tm s)) as (tm & -> & K2); [lia|] end. cbn [rbind].
    edestruct calc_aligned as (s' & -> & H); [| | | |exact H]; auto; congruence.
  - match goal with |- context [map snd ?o] => set (outs := o) end. intros [= <- <-].
    assert (HO : List.length outs = List.length (ms_real s)).
    { unfold outs. rewrite map_length. unfold cells_of. rewrite !combine_length. lia. }
    split.
    2:{ simpl. rewrite app_length, map_length, skipn_length, HO. repeat split; auto; lia. }
    match goal with |- context [over ?f outs (ms_m0 s)] => destruct (over_ok f outs (ms_m0 s)) as (m0 & -> & K0); [lia|] end. cbn [rbind].
    match goal with |- context [over ?f outs (ms_m1 s)] => destruct (over_ok f outs (ms_m1 s)) as (m1 & -> & K1); [lia|] end. cbn [rbind].
    match goal with |- context [over ?f outs (ms_tm s)] => destruct (over_ok f outs (ms_tm s)) as (tm & -> & K2); [lia|] end. cbn [rbind].
    edestruct calc_aligned as (s' & -> & H); [| | | |exact H]; auto; congruence.
Qed.
Lemma backward_length d s : check_backward d s = true -> List.length (md_real_out d) = List.length (ms_real s).
Proof.
  unfold check_backward. intros H. apply andb_true_iff in H as [H _]. apply andb_true_iff in H as [H _].
  apply Nat.eqb_eq in H. auto.
Qed.
Lemma cav_ok c d r s d' x : shaped KRFCavity c d -> aligned s -> advance_cav w c d r s = (d', x) ->
  outcome x /\ (forall s', x = Ok s' -> shaped KRFCavity c d').
Proof.
  intros (S1 & S2 & S3 & S4 & S5) A0. apply recalc_aligned in A0. unfold advance_cav.
  set (s1 := ms_recalc s) in *. destruct r.
  - destruct (check_backward d s1) eqn:C; cbn [negb]; [|intros [= <- <-]; split; [discriminate|discriminate]].
    apply backward_length in C.
    destruct (md_ref_in d) as [rin|]; [|intros [= <- <-]; split; discriminate].
    destruct (md_ref_out d) as [rout|]; [|intros [= <- <-]; split; discriminate].
    rewrite S3, Nat.ltb_irrefl.
    match goal with |- context [over ?f ?xs (ms_real s1)] => destruct (over_ok f xs (ms_real s1)) as (real & -> & LR) end.
    { rewrite combine_length. lia. }
    match goal with |- context [cav_misalign d ?a ?b] =>
      destruct (cav_misalign d a b) as [mis e] eqn:CM end.
    apply cav_misalign_ok in CM as [M1 M2]; [|rewrite ?firstn_length; lia].
    destruct e as [e|].
    { intros [= <- <-]. split; [|discriminate]. simpl. congruence. }
    intros H. apply cav_apply_ok in H as (O & O1 & O2 & O3 & O4 & O5); simpl in *; rewrite ?map_length in *; auto; try congruence.
    split; [auto|]. intros s' _. unfold shaped. rewrite O1, O2, O3, O4, O5. do 3 (split; [congruence|]). split; assumption.
  - destruct (check_cache d s1) eqn:C.
    + apply cache_length in C. destruct (from_cache_ok d s1) as (ref & real & -> & L); [congruence|].
      intros H. apply cav_apply_ok in H as (O & O1 & O2 & O3 & O4 & O5); auto.
      split; [auto|]. intros s' _. unfold shaped. rewrite O1, O2, O3, O4, O5. do 3 (split; [congruence|]). split; assumption.
    + destruct (note_shape d s1) as (N1 & N2 & N3). set (d1 := note_input d s1) in *.
      destruct (w_cav_ref w c (ms_ref s1)) as [[ref phi]|e] eqn:CR.
      2:{ intros [= <- <-]. split; [|discriminate]. simpl. intros ->. destruct W as (W1 & _). eapply W1; eauto. }
      destruct (cav_cells _ _ _ _ _ _) as [tm [real|e]] eqn:CC.
      2:{ apply cav_cells_ok in CC as (K1 & K2 & K3); [|simpl in *; lia]. intros [= <- <-]. split; [|discriminate].
          simpl. intros ->. apply K2. reflexivity. }
      apply cav_cells_ok in CC as (K1 & K2 & K3); [|simpl in *; lia]. specialize (K3 _ eq_refl).
      match goal with |- context [cav_misalign ?x ?a ?b] => destruct (cav_misalign x a b) as [mis e] eqn:CM end.
      apply cav_misalign_ok in CM as [M1 M2]; [|simpl in *; lia].
      destruct e as [e|].
      { intros [= <- <-]. split; [|discriminate]. simpl. congruence. }
      intros H. apply cav_apply_ok in H as (O & O1 & O2 & O3 & O4 & O5); simpl in *; rewrite ?map_length in *; auto; try congruence.
      split; [auto|]. intros s' _. unfold shaped. rewrite O1, O2, O3, O4, O5. rewrite ?map_length. do 3 (split; [congruence|]). split; assumption.
Qed.

Lemma advance_ok k c d r s d' x : shaped k c d -> aligned s -> advance_of w k c d r s = (d', x) ->
  outcome x /\ (forall s', x = Ok s' -> shaped k c d').
Proof.
  intros S A. destruct k; cbn [advance_of]; try apply base_ok; auto.
  - intros [= <- <-]. split; [|auto]. unfold advance_source. destruct r; [exact A|].
    destruct S as (_ & _ & _ & S & _). destruct (md_istate d) as [i|]; simpl; auto.
  - apply sbend_ok; auto.
  - intros [= <- <-]. split; [|auto]. apply sext_ok; auto.
  - apply cav_ok; auto.
  - intros [= <- <-]. split; [|auto]. apply stripper_ok; auto. apply S. reflexivity.
Qed.
Lemma ctor_ok k c d : (k = KStripper -> vec_at c "IonChargeStates" <> Some []) -> mom_ctor w k c = Ok d -> shaped k c d.
Proof.
  intros HS H. unfold mom_ctor in H.
  assert (X : forall len sh sk fit ist, (forall s, ist = Some s -> aligned s) ->
     shaped k c (mkMD len sh sk None [] None [] [] [] fit ist 0)).
  { intros. repeat split; simpl; auto; apply H0; auto. }
  destruct k; try (injection H as <-; apply X; discriminate).
  - apply rbind_ok in H as (s & H1 & H). injection H as <-. apply X. intros s' [= <-]. eapply new_state_aligned; eauto.
  - apply rbind_ok in H as (fit & H1 & H). destruct (_ || _)%bool; [|discriminate]. injection H as <-. apply X. discriminate.
  - apply rbind_ok in H as (u & H1 & H). injection H as <-. apply X. discriminate.
Qed.
End M.

(** ** The classes inside a Machine *)
Section R.
Variable w : world.

Lemma mom_find n k : sfind n (mom_elems w) = Some k -> exists q, k = mom_class w q /\ n = mkind_name q.
Proof.
  intros H. apply sfind_In in H.
  change (mom_elems w) with (map (fun k => (mkind_name k, mom_class w k))
    [KBPM; KDrift; KEDipole; KEQuad; KMark; KOrbTrim; KQuad; KRFCavity; KSBend; KSext; KSolenoid; KSource; KStripper; KTMatrix]) in H.
  apply in_map_iff in H as (q & E & _). injection E as <- <-. eauto.
Qed.
Lemma mkind_id_inj k k' : mkind_id k = mkind_id k' -> k = k'.
Proof. destruct k, k'; intros H; try reflexivity; discriminate H. Qed.
Lemma mom_class_inj k k' : mom_class w k = mom_class w k' -> k = k'.
Proof. intros H. apply (f_equal (@cl_id _ _)) in H. apply mkind_id_inj. auto. Qed.
Lemma mom_tidy : tidy (mom_info w).
Proof.
  intros n k H. apply mom_find in H as (q & -> & ->). split; [reflexivity|].
  intros n' k' H' E. apply mom_find in H' as (q' & -> & ->). simpl in E.
  rewrite (mkind_id_inj q q'); auto.
Qed.
Lemma mom_reg t i : sfind t (moment_reg w) = Some i -> t = "MomentMatrix" /\ i = mom_info w.
Proof. intros H. apply sfind_In in H as [H|[]]. injection H as <- <-. auto. Qed.
Lemma mom_reg_find : sfind "MomentMatrix" (moment_reg w) = Some (mom_info w).
Proof. reflexivity. Qed.

Lemma mom_advance_inv k b d st d' st' : mom_advance w k b d st = (d', Ok st') ->
  advance_of w k (eb_conf b) d (st_retreat st) (st_body st) = (d', Ok (st_body st')) /\
  st_retreat st' = st_retreat st /\ st_next st' = st_next st.
Proof.
  unfold mom_advance. destruct (advance_of _ _ _ _ _ _) as [d1 r] eqn:E. intros [= <- H].
  destruct r as [s|]; [|discriminate]. injection H as <-. auto.
Qed.
Lemma mom_advance_throw k b d st x : snd (mom_advance w k b d st) = Throw x ->
  snd (advance_of w k (eb_conf b) d (st_retreat st) (st_body st)) = Throw x.
Proof.
  unfold mom_advance. destruct (advance_of _ _ _ _ _ _) as [d1 r] eqn:E. simpl.
  destruct r as [s|]; simpl; congruence.
Qed.

Definition lift (g : mkind -> tcfg -> mdata -> Prop) (k : class mdata mstate) (c : tcfg) (d : mdata) : Prop :=
  forall q, k = mom_class w q -> g q c d.
Lemma lift_class g q c d : lift g (mom_class w q) c d <-> g q c d.
Proof. split; [intros H; apply H; auto|]. intros H q' E. apply mom_class_inj in E. subst; auto. Qed.

Lemma new_moment c m : new_machine (moment_reg w) c = Ok m ->
  exists es, tfind "sim_type" c = Some (TStr "MomentMatrix") /\ tfind "elements" c = Some (TCfgs es) /\
    m_info m = mom_info w.
Proof.
  intros Hm. apply new_machine_ok in Hm as (t & i & es & H1 & H2 & H3 & H4 & H5 & H6 & _).
  destruct (mom_reg _ _ H2) as [-> ->]. exists es. auto.
Qed.


Lemma stays_aligned : sane w -> forall c m es us st start max p,
  new_machine (moment_reg w) c = Ok m -> tfind "elements" c = Some (TCfgs es) ->
  Forall strips_to_some es -> smooth (fun _ => aligned) strips_to_some m us ->
  aligned (st_body st) -> propagate (uses m us) st start max = Some p ->
  (forall ev, In ev (pr_events p) -> aligned (st_body (ev_state ev))) /\
  match pr_end p with Ok st' => aligned (st_body st') | Throw x => x <> BadIndex end.
Proof.
  intros W c m es us st start max p Hm He HQ HS HA HP.
  destruct (new_moment _ _ Hm) as (es0 & H1 & H2 & H3). assert (es0 = es) as -> by congruence.
  set (J := fun (_ : bool) => aligned). set (good := lift shaped).
  assert (GC : forall t k c d, sfind t (si_elems (mom_info w)) = Some k -> tfind "type" c = Some (TStr t) ->
    strips_to_some c -> cl_ctor k c = Ok d -> good k c d).
  { intros t k c0 d Ht Ht' Hq Hd. apply mom_find in Ht as (q & -> & ->). apply lift_class.
    apply (ctor_ok w). 2: exact Hd. intros ->. apply Hq. exact Ht'. }
  assert (GA : forall t k c c' d s, sfind t (si_elems (mom_info w)) = Some k ->
    good k c' d -> good k c s -> good k c (cl_assign k d s)).
  { intros t k c0 c' d s Ht _ Hs. apply mom_find in Ht as (q & -> & ->). exact Hs. }
  assert (GV : forall t k b d st d' st', sfind t (si_elems (mom_info w)) = Some k -> good k (eb_conf b) d ->
    J (st_retreat st) (st_body st) -> cl_advance k b d st = (d', Ok st') ->
    good k (eb_conf b) d' /\ J (st_retreat st) (st_body st') /\ st_retreat st' = st_retreat st).
  { intros t k b d s d' s' Ht Hg HJ Hadv. apply mom_find in Ht as (q & -> & ->). apply lift_class in Hg.
    apply mom_advance_inv in Hadv as (Hadv & Hr & _). apply advance_ok in Hadv as [O1 O2]; auto.
    split; [apply lift_class; eauto|]. split; auto. }
  destruct (new_fit strips_to_some good (mom_info w) GC _ c _ es m H1 (mom_reg_find) He Hm HQ) as [F0 _].
  pose proof (uses_fit J strips_to_some good (mom_info w) (mom_tidy) GC GA GV us m es H3 F0 HS) as F.
  destruct (propagate_fit J good (mom_info w) GV _ _ _ _ _ _ F HA HP) as [P1 P2]. split; [exact P1|].
  destruct (pr_end p) as [st'|x]; [tauto|].
  destruct P2 as (t & k & b & d & s & T1 & T2 & T3 & T4 & T5). apply mom_find in T1 as (q & -> & ->).
  apply lift_class in T2. apply mom_advance_throw in T5.
  destruct (advance_of w q (eb_conf b) d (st_retreat s) (st_body s)) as [d' r] eqn:E. simpl in T5. subst r.
  apply advance_ok in E as [O _]; auto.
Qed.
End R.

(** ** allocState *)
Lemma alloc_iff w cm m c : new_machine (moment_reg w) cm = Ok m ->
  ((exists st, alloc_state m c = Ok st) <-> describes_state c).
Proof.
  intros Hm. destruct (new_moment w _ _ Hm) as (_ & _ & _ & HI). unfold alloc_state. rewrite HI. cbn [si_build mom_info].
  split.
  - intros [st H]. apply rbind_ok in H as (s & H & _). eapply new_state_describes; eauto.
  - intros H. destruct (describes_new_state w c H) as [s ->]. cbn [rbind]. eauto.
Qed.
Lemma alloc_contents w cm m c st : new_machine (moment_reg w) cm = Ok m -> alloc_state m c = Ok st ->
  let s := st_body st in
  st_next st = 0%N /\ st_retreat st = false /\ ms_pos s = 0 /\ aligned s /\
  reference (w_num w) c (ms_ref s) /\ Forall (meq 7 mid) (ms_tm s) /\
  match vec_at c "IonChargeStates" with
  | Some zs =>
      List.length (ms_real s) = (match num_at c "cstate" with Some _ => 1 | None => List.length zs end)%nat /\
      forall j p v m, nth_error (ms_real s) j = Some p -> nth_error (ms_m0 s) j = Some v ->
        nth_error (ms_m1 s) j = Some m ->
        exists k, match num_at c "cstate" with Some x => truncates x (Z.of_nat k) | None => k = j end /\
                  charge_state (w_num w) c k p v m
  | None =>
      ms_real s = [ms_ref s] /\
      (forall l, vec_at c (str_at c "vector_variable" "moment0") = Some l -> List.length l = 7%nat ->
         exists v, ms_m0 s = [v] /\ fills_vec (w_num w) l v) /\
      (forall l, vec_at c (str_at c "matrix_variable" "initial") = Some l -> List.length l = 49%nat ->
         exists m, ms_m1 s = [m] /\ fills_mat (w_num w) l m)
  end.
Proof.
  intros Hm H. destruct (new_moment w _ _ Hm) as (_ & _ & _ & HI). unfold alloc_state in H. rewrite HI in H.
  apply rbind_ok in H as (s & H & E). injection E as <-. split; [reflexivity|]. split; [reflexivity|].
  exact (state_contents w c s H).
Qed.

(** ** Lattices for the examples and refutations *)
Definition world0 (num : double -> R) (asserts : bool) : world :=
  mkW num (fun _ => None) (fun _ => Throw RuntimeError) "" (fun _ => 0) mid
      (mkP 0 0 0 0 0 0 0 0 0 0 0 0) asserts (fun _ p => Ok (p, 0)) (fun _ _ p T => (T, Ok p)) (fun _ => Ok tt)
      (fun _ _ _ _ _ _ => (1, 1, 1)).
Lemma world0_sane num a : sane (world0 num a).
Proof. repeat split; discriminate. Qed.
Definition state0 (n : nat) : mstate :=
  let p := recalc (mkP (1 / 2) 1 931000000 0 0 0 0 80500000 0 0 0 1000000) in
  mkMS 0 p (repeat p n) (repeat (fun i => if Nat.eqb i 6 then 1 else 0) n) (repeat mid n) (repeat mid n)
       (fun _ => 0) (fun _ => 0) mid 0.
Lemma state0_aligned n : aligned (state0 (S n)).
Proof. unfold aligned, state0. cbn [ms_real ms_m0 ms_m1 ms_tm]. rewrite !repeat_length. repeat split; discriminate. Qed.

(** Two charge states, each with centroid and covariance matrix. *)
Definition two_states : tcfg :=
  TCfg [("IonChargeStates", TVec [done; dzero]); ("NCharge", TVec [done; done]);
        ("initial0", TVec (repeat done 49)); ("initial1", TVec (repeat dzero 49));
        ("moment00", TVec (repeat done 7)); ("moment01", TVec (repeat dzero 7))] [].
Lemma two_states_described : describes_state two_states.
Proof.
  split; [discriminate|]. split; [exists [done; done]; split; reflexivity|]. split; [discriminate|].
  intros [|[|k]] [H _]; [| |simpl in H; lia]; split; eexists; split; try reflexivity.
Qed.
Definition foil (zs qs : list double) : tcfg :=
  TCfg [("IonChargeStates", TVec zs); ("NCharge", TVec qs); ("name", TStr "foil"); ("type", TStr "stripper")] [].
Definition foil_off (zs qs : list double) : tcfg :=
  TCfg [("IonChargeStates", TVec zs); ("NCharge", TVec qs); ("charge_model", TStr "off"); ("name", TStr "foil");
        ("type", TStr "stripper")] [].
Definition line2 : list tcfg :=
  [TCfg [("L", TNum done); ("name", TStr "d"); ("type", TStr "drift")] [];
   TCfg [("L", TNum done); ("name", TStr "c"); ("type", TStr "rfcavity")] [];
   foil [done; dzero; done] [done]; TCfg [("name", TStr "m"); ("type", TStr "marker")] []].


Lemma run_one {D B} (m : machine D B) st start e d st' :
  nth_error (m_elems m) (N.to_nat start) = Some e ->
  cl_advance (el_class e) (el_base e) (el_data e) (mkSt (size_incr start) false (st_body st)) = (d, Ok st') ->
  exists p, propagate m st start 1 = Some p /\ pr_end p = Ok st' /\
    pr_elems p = update (m_elems m) (N.to_nat start) (with_data e d).
Proof.
  intros He Ha. unfold propagate. cbn [Z.eqb INT_MIN]. eexists. split; [reflexivity|].
  change (Z.abs_nat 1) with 1%nat. cbn [prop_loop st_next st_retreat st_body]. rewrite slot_nth, He.
  change (1 <? 0)%Z with false. cbv iota. rewrite Ha. cbn [prop_loop]. split; reflexivity.
Qed.
Lemma plain_runs w k c d s : (k = KMark \/ k = KBPM \/ k = KDrift) -> shaped k c d -> aligned s ->
  exists d' s', advance_of w k c d false s = (d', Ok s').
Proof.
  intros K (S1 & S2 & S3 & S4 & S5) A0. apply recalc_aligned in A0.
  assert (advance_of w k c d false s = advance_base w k c d false s) as ->
    by (destruct K as [->|[->| ->]]; reflexivity).
  unfold advance_base. set (s1 := ms_recalc s) in *. destruct (check_cache d s1) eqn:C.
  - apply cache_length in C. destruct (from_cache_ok w d s1) as (ref & real & -> & L); [congruence|]. cbn [rbind].
    unfold finish. cbn [directed rbind].
    destruct (transport_ok d s1 (md_tm d) A0 C S1) as (m0 & m1 & tm & -> & M1 & M2 & M3). cbn [rbind].
    edestruct (calc_aligned w) as (s' & -> & H); [| | | |eauto]; try congruence.
    destruct A0 as [A1 _]. destruct real; [|discriminate]. destruct (ms_real s1); [congruence|discriminate].
  - destruct (note_shape d s1) as (N1 & N2 & N3). set (d1 := note_input d s1) in *.
    destruct (recompute w k c d1 s1) as [tm e] eqn:RC. pose proof (recompute_length _ _ _ _ _ _ _ RC) as LT.
    assert (e = None) as ->.
    { destruct e as [e|]; [|reflexivity]. exfalso. unfold recompute in RC.
      destruct K as [->|[->| ->]]; cbn [setup] in RC; apply run_throw in RC as (p & a & RC); try discriminate; lia. }
    unfold finish. cbn [directed rbind]. match goal with |- context [transport ?d ?s ?T] =>
      destruct (transport_ok d s T) as (m0 & m1 & tm' & -> & M1 & M2 & M3) end.
    + apply recalc_aligned; auto.
    + simpl in *. rewrite ?map_length in *. congruence.
    + simpl in *. rewrite ?map_length in *. congruence.
    + cbn [rbind]. edestruct (calc_aligned w) as (s' & -> & H); [| | | |eauto]; rewrite ?map_length; try congruence.
      destruct A0 as [A1 _]. simpl in A1 |- *. destruct (ms_real s); [exfalso; apply A1; reflexivity|discriminate].
Qed.

Lemma run_plain w (m : machine mdata mstate) st start e k :
  nth_error (m_elems m) (N.to_nat start) = Some e -> el_class e = mom_class w k ->
  (k = KMark \/ k = KBPM \/ k = KDrift) -> mom_ctor w k (eb_conf (el_base e)) = Ok (el_data e) ->
  aligned (st_body st) -> exists p st', propagate m st start 1 = Some p /\ pr_end p = Ok st'.
Proof.
  intros He Hk K Hc A. destruct (plain_runs w k (eb_conf (el_base e)) (el_data e) (st_body st) K) as (d' & s' & E); auto.
  { eapply ctor_ok; [|exact Hc]. intros ->. destruct K as [|[|]]; discriminate. }
  destruct (run_one m st start e d' (mkSt (size_incr start) false s') He) as (p & P1 & P2 & _).
  { rewrite Hk. cbn [cl_advance mom_class]. unfold mom_advance. cbn [st_retreat st_body]. rewrite E. reflexivity. }
  eauto.
Qed.
Definition mconf (es : list tcfg) : tcfg := TCfg [("elements", TCfgs es); ("sim_type", TStr "MomentMatrix")] [].
Lemma line2_example num a : exists m,
  new_machine (moment_reg (world0 num a)) (mconf line2) = Ok m /\
  Forall strips_to_some line2 /\
  smooth (fun _ => aligned) strips_to_some m
    [UReconf 2 (foil [done; dzero] []); UProp (mkSt 0 false (state0 2)) 0 1].
Proof.
  eexists. split; [reflexivity|]. split; [repeat constructor; unfold strips_to_some; discriminate|].
  split; [discriminate|]. split; [|exact I]. split; [apply state0_aligned|].
  eapply run_plain; [reflexivity|reflexivity|right; right; reflexivity|reflexivity|apply state0_aligned].
Qed.

(** A stripper without charge states leaves none; the next one asks for the
    velocity of the first. *)
Lemma growth_some x y : 0 < x -> 0 <= y -> exists g, growth_rate x y = Ok g.
Proof.
  intros H1 H2. unfold growth_rate. destruct (Req_EM_T x 0); [lra|]. destruct (Rlt_dec (y / x) 0); [|eauto].
  exfalso. apply (Rmult_lt_compat_r x) in r; auto. unfold Rdiv in r. rewrite Rmult_assoc, Rinv_l in r by auto. lra.
Qed.
Lemma grow1_diag i g M : (i < 5)%nat -> grow1 5 g M i i = M i i.
Proof.
  intros H. unfold grow1. cbn [seq fold_left]. unfold mset. destruct i as [|[|[|[|[|i]]]]]; simpl; try reflexivity. lia.
Qed.
Lemma stripped_bare w s p v : w_asserts w = false -> ms_real s = [p] -> p_Q p = 1 -> ms_m0 s = [v] -> ms_m1 s = [mid] ->
  List.length (ms_tm s) = 1%nat ->
  exists s', advance_stripper w (foil_off [] []) false s = Ok s' /\ ms_real s' = [].
Proof.
  intros W ER EQ E0 E1 ET. unfold advance_stripper.
  assert (A : aligned (ms_recalc s)).
  { unfold aligned, ms_recalc. simpl. rewrite ER, E0, E1, ET. repeat split. discriminate. }
  destruct (calc_rms_aligned w _ A) as (s1 & H1 & A1). pose proof (calc_rms_ok _ _ _ H1) as (_ & _ & R1 & R2 & R3 & _ & _ & R4 & _).
  rewrite H1. cbn [rbind]. simpl in R1, R2, R3. rewrite ER in R1. rewrite E0 in R2. rewrite E1 in R3. simpl in R1.
  unfold stripper_getmat.
  change (get_vec (foil_off [] []) "IonChargeStates") with (@Ok (list double) []).
  change (get_vec (foil_off [] []) "NCharge") with (@Ok (list double) []). cbn [rbind].
  change (get_str_def (foil_off [] []) "charge_model" "baron") with "off". cbv zeta.
  change (String.eqb "off" "off") with true. cbn [List.length Nat.eqb andb orb negb].
  rewrite R1, R2, R3. cbn [rbind List.length Nat.ltb Nat.leb orb].
  unfold vec_def. change (tfind "Stripper_Para" (foil_off [] [])) with (@None tval).
  change (tfind "Stripper_E0Para" (foil_off [] [])) with (@None tval). cbn [at_ nth_error rbind map combine].
  assert (T1 : total_charge [recalc p] = 1) by (unfold total_charge, rsum; simpl; rewrite EQ; ring).
  rewrite T1. unfold num_def.
  change (tfind "Stripper_lambda" (foil_off [] [])) with (@None tval).
  change (tfind "Stripper_upara" (foil_off [] [])) with (@None tval).
  change (tfind "Stripper_E1Para" (foil_off [] [])) with (@None tval).
  destruct (Req_EM_T 1 0); [lra|]. destruct (Req_EM_T (5574 / 1000) 0); [lra|]. destruct (Rlt_dec (26903 / 10000) 0); [lra|].
  match goal with |- context [grow1 5 _ ?M] => set (tmp := M) in * end.
  assert (T : forall i, (i < 6)%nat -> tmp i i = 1).
  { intros i _. unfold tmp, cells, rsum, vsub. simpl. rewrite EQ. rewrite R4. simpl. rewrite ER, E0. unfold env0_of, rsum. simpl.
    rewrite T1, EQ. unfold mid. rewrite Nat.eqb_refl. field. }
  match goal with |- context [growth_rate ?a (?a + _ + _)] => change a with (tmp 5%nat 5%nat) end. rewrite T by lia.
  match goal with |- context [growth_rate ?a ?b] => destruct (growth_some a b) as [g Hg] end; [lra| |].
  { match goal with |- 0 <= 1 + ?a + ?b => assert (0 <= a) by apply Rle_0_sqr; assert (0 <= b) by apply Rle_0_sqr end. lra. }
  rewrite Hg. cbn [rbind]. rewrite !grow1_diag by lia. rewrite !T by lia.
  match goal with |- context [growth_rate ?a ?b] => destruct (growth_some a b) as [gx Hx] end; [lra| |].
  { match goal with |- 0 <= 1 + ?a => assert (0 <= a) by apply Rle_0_sqr end. lra. }
  rewrite Hx. cbn [rbind].
  unfold calc_rms. rewrite W. cbn [ms_real ms_m0 ms_m1 List.length Nat.eqb andb Nat.ltb Nat.leb orb].
  eexists. split; [reflexivity|]. reflexivity.
Qed.
Lemma bare_fails w s zs qs : w_asserts w = false -> ms_real s = [] ->
  advance_stripper w (foil zs qs) false s = Throw BadIndex.
Proof.
  intros W E. unfold advance_stripper, calc_rms. rewrite W. cbn [andb ms_recalc ms_real ms_m0 ms_m1]. rewrite E.
  cbn [map List.length]. cbn [Nat.ltb Nat.leb orb rbind]. unfold stripper_getmat.
  change (get_vec (foil zs qs) "IonChargeStates") with (@Ok (list double) zs).
  change (get_vec (foil zs qs) "NCharge") with (@Ok (list double) qs). cbn [rbind].
  change (get_str_def (foil zs qs) "charge_model" "baron") with "baron". cbv zeta.
  change (String.eqb "baron" "off") with false. change (String.eqb "baron" "baron") with true. cbn [andb orb negb ms_real].
  reflexivity.
Qed.
Lemma two_steps {D B} (m : machine D B) st e0 e1 d st1 d1 x :
  m_elems m = [e0; e1] ->
  cl_advance (el_class e0) (el_base e0) (el_data e0) (mkSt 1 false (st_body st)) = (d, Ok st1) ->
  st_next st1 = 1%N -> st_retreat st1 = false ->
  cl_advance (el_class e1) (el_base e1) (el_data e1) (mkSt 2 false (st_body st1)) = (d1, x) ->
  exists p, propagate m st 0 2 = Some p /\ pr_end p = x.
Proof.
  intros He H0 H1 H2 H3. unfold propagate. cbn [Z.eqb INT_MIN]. eexists. split; [reflexivity|].
  rewrite He. change (Z.abs_nat 2) with 2%nat. cbn [prop_loop st_next st_retreat st_body]. rewrite slot_nth.
  cbn [N.to_nat nth_error]. change (size_incr 0) with 1%N. change (2 <? 0)%Z with false. cbv iota. rewrite H0, slot_nth, H1.
  change (N.to_nat 1) with 1%nat. cbn [update nth_error]. rewrite H2. change (size_incr 1) with 2%N. cbv iota. rewrite H3.
  destruct x; reflexivity.
Qed.
Lemma C30_empty_stripper_refuted_w : forall num, exists m p,
  new_machine (moment_reg (world0 num false)) (mconf [foil_off [] []; foil [done] [done]]) = Ok m /\
  aligned (state0 1) /\ propagate m (mkSt 0 false (state0 1)) 0 2 = Some p /\ pr_end p = Throw BadIndex.
Proof.
  intros num. set (w := world0 num false).
  destruct (stripped_bare w (state0 1) _ _ eq_refl eq_refl eq_refl eq_refl eq_refl eq_refl) as (s' & E1 & E2).
  pose proof (bare_fails w s' [done] [done] eq_refl E2) as E3.
  assert (X : exists m e0 e1, new_machine (moment_reg w) (mconf [foil_off [] []; foil [done] [done]]) = Ok m /\
    m_elems m = [e0; e1] /\ el_class e0 = mom_class w KStripper /\ el_class e1 = mom_class w KStripper /\
    eb_conf (el_base e0) = foil_off [] [] /\ eb_conf (el_base e1) = foil [done] [done]).
  { do 3 eexists. split; [reflexivity|]. repeat split. }
  destruct X as (m & e0 & e1 & Hm & He & K0 & K1 & C0 & C1).
  destruct (two_steps m (mkSt 0 false (state0 1)) e0 e1 (el_data e0) (mkSt 1 false s') (el_data e1) (Throw BadIndex) He)
    as (p & P1 & P2); try reflexivity.
  { rewrite K0. cbn [cl_advance mom_class]. unfold mom_advance. cbn [advance_of st_retreat st_body]. rewrite C0, E1. reflexivity. }
  { rewrite K1. cbn [cl_advance mom_class]. unfold mom_advance. cbn [advance_of st_retreat st_body]. rewrite C1, E3. reflexivity. }
  exists m, p. split; [exact Hm|]. split; [apply state0_aligned|]. split; [exact P1|exact P2].
Qed.

(** Without IonChargeStates an array of the wrong length is taken for missing. *)
Definition short_vector : tcfg := TCfg [("moment0", TVec [done])] [].
Lemma C47_wrong_length_refuted_w : forall w, exists s,
  vec_at short_vector "moment0" = Some [done] /\ new_state w short_vector = Ok s /\ ms_m0 s = [w_junk0 w].
Proof.
  intros w. destruct (describes_new_state w short_vector) as [s Hs]; [reflexivity|].
  exists s. split; [reflexivity|]. split; [exact Hs|].
  destruct (new_state_lone w short_vector s eq_refl Hs) as (_ & _ & _ & _ & ref & L).
  destruct L as (_ & _ & _ & _ & _ & _ & _ & _ & _ & L & _). exact L.
Qed.
