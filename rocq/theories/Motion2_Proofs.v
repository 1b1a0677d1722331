(** What each element of the MomentMatrix simulation does to a particle: the course
    of [Motion_Spec]. *)
From Coq Require Import Reals List String Bool NArith ZArith Arith Lia Lra.
From Verif Require Import SMap SMap_Proofs Dbl Config_Spec Mat Mat_Proofs Minv Minv_Proofs Machine_Model Machine_Spec Machine_Proofs
  Linear_Model Linear_Spec Linear_Proofs Linear2_Proofs Linear3_Proofs.
From Verif Require Import Moment_Model Moment_Spec Motion_Spec Moment_Proofs Moment2_Proofs Moment3_Proofs Moment4_Proofs
  Moment5_Proofs Moment6_Proofs Motion_Proofs.
Import ListNotations.
Open Scope R_scope.
Open Scope string_scope.
Open Scope list_scope.

Lemma eq_meq (A B : mat) : A = B -> meq 7 A B. Proof. intros ->. reflexivity. Qed.
Lemma affine_meq A B : meq 7 A B -> affine B -> affine A.
Proof. intros E H j Hj. rewrite (E 6%nat j) by lia. auto. Qed.
Lemma affine_coast kx ky b s : affine (coast kx ky b s).
Proof. intros j Hj. unfold coast, planes. idx7 j Hj; reflexivity. Qed.
Lemma affine_spiral k b s : affine (spiral k b s).
Proof. intros j Hj. unfold spiral. idx7 j Hj; reflexivity. Qed.
Lemma affine_bend kx ky h b d dv kphi g s : affine (bend_map kx ky h b d dv kphi g s).
Proof. intros j Hj. unfold bend_map, planes. idx7 j Hj; reflexivity. Qed.
Lemma affine_edge r a : affine (edge_matrix r a).
Proof. unfold edge_matrix. repeat (apply affine_set; [unfold PS_PX, PS_PY; lia|]). apply affine_id. Qed.
Lemma affine_fold (G : R -> mat) l : (forall b, affine (G b)) -> forall T, affine T -> affine (fold_left (fun T b => mmul 7 (G b) T) l T).
Proof. intros H. induction l as [|b l IH]; intros T HT; cbn [fold_left]; auto. apply IH. apply affine_mul; auto. Qed.

Lemma passes_veq l : forall u a b, veq 7 a b -> passes l u a -> passes l u b.
Proof.
  induction l as [|[A len|r] l IH]; intros u a b E H.
  - cbn [passes] in *. rewrite H. exact E.
  - destruct H as (x & u1 & H1 & H2 & H3 & H4). exists x, u1. eauto.
  - destruct H as (u1 & H1 & H2). exists u1. eauto.
Qed.
Section Kinds.
Variable w : world.
Notation num := (w_num w).
Lemma num_of_at c n x : num_of w c n = Ok x -> real_at num c n 0 = x /\ forall d, real_at num c n d = x.
Proof.
  unfold num_of, get_num, real_at, num_at. destruct (tfind n c) as [[]|]; cbn [rbind]; try discriminate.
  intros H. apply (f_equal (fun r => match r with Ok x => x | Throw _ => 0 end)) in H. auto.
Qed.

(** Fields: the matrix of all slices, from flows. *)
Definition sliced (G : R -> R -> mat) (L : R) (l : list R) : mat :=
  fold_left (fun T b => mmul 7 (G (L / INR (List.length l)) b) T) l mid.
Lemma sliced_ok A F G L l : (forall b, flow7 (A b) (F b)) -> (forall b s, meq 7 (G s b) (F b s)) -> (forall b s, affine (F b s)) ->
  does (stretches A L l) (sliced G L l) /\ affine (sliced G L l).
Proof.
  intros HF HG HA. split.
  - apply (stretches_do A F (G (L / INR (List.length l)))); auto.
  - apply affine_fold; [|apply affine_id]. intros b. eapply affine_meq; [apply HG|apply HA].
Qed.
Lemma sliced_one G L b : meq 7 (sliced G L [b]) (G L b).
Proof. unfold sliced. cbn [fold_left List.length INR]. replace (L / 1) with L by field. apply (mid_r 7). Qed.

Lemma inside_field c ref p d A F G L f0 l B T : moving p -> 0 < p_Es ref -> md_sh d = sh_at w c -> md_len d = real_at num c "L" 0 ->
  L = real_at num c "L" 0 * 1000 ->
  (forall b, flow7 (A b) (F b)) -> (forall b s, meq 7 (G s b) (F b s)) -> (forall b s, affine (F b s)) ->
  misaligned d (recalc ref) (recalc p) B = (T, None) -> field w c f0 l -> meq 7 B (sliced G L l) ->
  forall u, unit_last u ->
    passes (Via (framed num c (- L / 2) ref p) :: stretches A L l ++ [Via (fun u v => framed num c (L / 2) ref p v u)]) u (mapp 7 T u).
Proof.
  intros HM HE HS HD HL HF HG HA HT Hf HB u Hu. destruct (sliced_ok A F G L l HF HG HA) as [D E].
  rewrite HL. rewrite HL in D, E, HB. apply (inside_ok w c (real_at num c "L" 0) ref p d _ B T); auto.
  - apply (affine_meq _ _ HB E).
  - apply (does_meq _ (sliced G (real_at num c "L" 0 * 1000) l) B); [symmetry; exact HB|exact D].
Qed.
Lemma field_one c f0 n : get_flag w c "ncurve" 0 = Ok n -> n = 0%N -> field w c f0 [f0].
Proof. intros H ->. exists 0%N. split; [apply get_flag_ok; auto|]. cbn [N.eqb]. auto. Qed.

Section Element.
Variables (c : tcfg) (ref p : particle) (d : mdata).
Hypotheses (HR : moving ref) (HP : moving p) (HS : md_sh d = sh_at w c).
Definition goes (T : mat) : Prop := exists l, course w c ref p l /\ forall u, unit_last u -> passes l u (mapp 7 T u).

Definition slice (plane : R -> R -> mat -> mat) (k : R -> R) (s b : R) : mat :=
  mset (plane s (k b) mid) PS_S PS_PS (longi (recalc p) s).
Lemma curves_sliced n cvs L f k a f0 plane : get_flag w c "ncurve" 0 = Ok n -> n <> 0%N -> get_curves w c n = Ok cvs ->
  (forall x, f x = a * x) -> (forall x, k x = a * x) ->
  exists l, field w c f0 l /\ meq 7 (slices cvs L f plane (recalc p)) (sliced (slice plane k) L l).
Proof.
  intros H1 H2 H3 H4 H5. destruct (field_slices w c n cvs L f a f0 plane (recalc p) H1 H2 H3 H4) as (l & F1 & F2).
  exists l. split; auto. rewrite F2. apply eq_meq. unfold sliced. apply fold_ext. intros T b _. unfold slice. rewrite H5. reflexivity.
Qed.
Lemma field_goes A F plane k f0 n B T l : md_len d = real_at num c "L" 0 -> num_of w c "L" = Ok l -> get_flag w c "ncurve" 0 = Ok n ->
  (forall b, flow7 (A b) (F b)) -> (forall b s, meq 7 (slice plane k s b) (F b s)) -> (forall b s, affine (F b s)) ->
  misaligned d (recalc ref) (recalc p) B = (T, None) ->
  (n = 0%N /\ meq 7 B (slice plane k (l * MtoMM) f0)) \/
  (n <> 0%N /\ exists cvs a f, get_curves w c n = Ok cvs /\ (forall x, f x = a * x) /\ (forall x, k x = a * x) /\
     B = slices cvs (l * MtoMM) f plane (recalc p)) ->
  exists l, field w c f0 l /\ let L := real_at num c "L" 0 * 1000 in
    forall u, unit_last u ->
      passes (Via (framed num c (- L / 2) ref p) :: stretches A L l ++ [Via (fun u v => framed num c (L / 2) ref p v u)]) u (mapp 7 T u).
Proof.
  intros HD HL HN HF HG HA HT HB. apply num_of_at in HL as [HL _].
  assert (X : exists l', field w c f0 l' /\ meq 7 B (sliced (slice plane k) (real_at num c "L" 0 * 1000) l')).
  { rewrite HL. destruct HB as [[E HB]|[E (cvs & a & f & H1 & H2 & H3 & ->)]].
    - exists [f0]. split; [apply (field_one _ _ _ HN E)|]. rewrite sliced_one. exact HB.
    - apply (curves_sliced n cvs (l * MtoMM) f k a f0 plane); auto. }
  destruct X as (l' & X1 & X2). exists l'. split; auto. intros L u Hu.
  eapply (inside_field c ref p d A F (slice plane k) L f0 l' B T); eauto. apply HR.
Qed.
Ltac fn H HT := apply (f_equal (fun r => match r with Ok f => f | Throw _ => fun _ M => (M, None) end)) in H; rewrite <- H in HT; cbv beta zeta in HT.

Lemma quad_goes f T0 T : is_a "quadrupole" c -> md_len d = real_at num c "L" 0 ->
  setup_quad w d c (recalc ref) = Ok f -> f (recalc p) T0 = (T, None) -> goes T.
Proof.
  intros Hk HD H HT. unfold setup_quad in H. destruct (num_of w c "L") as [l|] eqn:EL; [|discriminate]. cbn [rbind] in H.
  destruct (get_flag w c "ncurve" 0) as [n|] eqn:EN; [|discriminate]. cbn [rbind] in H.
  set (k := fun b => b / rigidity p / 1000000).
  assert (X : exists B, misaligned d (recalc ref) (recalc p) B = (T, None) /\
    ((n = 0%N /\ meq 7 B (slice quad_planes k (l * MtoMM) (real_at num c "B2" 0))) \/
     (n <> 0%N /\ exists cvs a f, get_curves w c n = Ok cvs /\ (forall x, f x = a * x) /\ (forall x, k x = a * x) /\
     B = slices cvs (l * MtoMM) f quad_planes (recalc p)))).
  { destruct (N.eqb_spec n 0) as [E|E]; cbn [negb] in H.
    - destruct (num_of w c "B2") as [B2|] eqn:EB; [|discriminate]. cbn [rbind] in H. apply num_of_at in EB as [EB _]. fn H HT.
      eexists. split; [exact HT|]. left. split; auto. unfold slice, k. rewrite EB, recalc_brho by auto. unfold sqr, MtoMM.
      replace (1000 * 1000) with 1000000 by ring. reflexivity.
    - destruct (get_curves w c n) as [cvs|] eqn:EC; [|discriminate]. cbn [rbind] in H. fn H HT.
      eexists. split; [exact HT|]. right. split; auto. exists cvs, (1 / rigidity p / 1000000). eexists.
      split; [auto|]. split; [|split; [|reflexivity]]; intros x; cbv beta; rewrite ?recalc_brho by auto; unfold k, sqr, MtoMM, Rdiv;
      replace (1000 * 1000) with 1000000 by ring; ring. }
  destruct X as (B & X1 & X2).
  destruct (field_goes (fun b => coasting (k b) (- k b) p) (fun b => coast (k b) (- k b) (slip p)) quad_planes k (real_at num c "B2" 0) n B T l)
    as (ls & F1 & F2); auto.
  - intros b. apply coast_flow.
  - intros b s. unfold slice. rewrite recalc_longi by auto. apply quad_coast.
  - intros. apply affine_coast.
  - eexists. split; [apply (c_quad w c ref p ls Hk F1)|exact F2].
Qed.
Lemma equad_goes f T0 T : is_a "equad" c -> md_len d = real_at num c "L" 0 -> real_at num c "radius" 1 <> 0 ->
  setup_equad w d c (recalc ref) = Ok f -> f (recalc p) T0 = (T, None) -> goes T.
Proof.
  intros Hk HD HRad H HT. unfold setup_equad in H. destruct (num_of w c "L") as [l|] eqn:EL; [|discriminate]. cbn [rbind] in H.
  destruct (get_flag w c "ncurve" 0) as [n|] eqn:EN; [|discriminate]. cbn [rbind] in H.
  set (k := fun e => 2 * e / (beta_of p * lightspeed) / rigidity p / 1000000).
  set (f0 := real_at num c "V" 0 / (real_at num c "radius" 0 * real_at num c "radius" 0)).
  assert (HB : beta_of p * lightspeed <> 0).
  { destruct (moving_facts p HP) as (_ & B & _). unfold lightspeed. lra. }
  assert (X : exists B, misaligned d (recalc ref) (recalc p) B = (T, None) /\
    ((n = 0%N /\ meq 7 B (slice quad_planes k (l * MtoMM) f0)) \/
     (n <> 0%N /\ exists cvs a f, get_curves w c n = Ok cvs /\ (forall x, f x = a * x) /\ (forall x, k x = a * x) /\
     B = slices cvs (l * MtoMM) f quad_planes (recalc p)))).
  { destruct (N.eqb_spec n 0) as [E|E]; cbn [negb] in H.
    - destruct (num_of w c "V") as [V|] eqn:EB; [|discriminate]. cbn [rbind] in H. apply num_of_at in EB as [EB _].
      destruct (num_of w c "radius") as [r|] eqn:ER; [|discriminate]. cbn [rbind] in H. apply num_of_at in ER as [ER ER'].
      rewrite ER' in HRad. fn H HT.
      eexists. split; [exact HT|]. left. split; auto. unfold slice, k, f0. rewrite EB, ER, recalc_brho, recalc_beta by auto.
      unfold sqr, MtoMM, C0. fold lightspeed. replace (1000 * 1000) with 1000000 by ring. apply eq_meq. f_equal. f_equal. f_equal. f_equal.
      field. unfold lightspeed in *. split; lra.
    - destruct (get_curves w c n) as [cvs|] eqn:EC; [|discriminate]. cbn [rbind] in H. fn H HT.
      eexists. split; [exact HT|]. right. split; auto. exists cvs, (2 / (beta_of p * lightspeed) / rigidity p / 1000000). eexists.
      split; [auto|]. split; [|split; [|reflexivity]]; intros x; cbv beta; rewrite ?recalc_brho, ?recalc_beta by auto; unfold k, sqr, MtoMM, C0, Rdiv; fold lightspeed;
      replace (1000 * 1000) with 1000000 by ring; [rewrite (Rmult_comm lightspeed)|]; ring. }
  destruct X as (B & X1 & X2).
  destruct (field_goes (fun b => coasting (k b) (- k b) p) (fun b => coast (k b) (- k b) (slip p)) quad_planes k f0 n B T l)
    as (ls & F1 & F2); auto.
  - intros b. apply coast_flow.
  - intros b s. unfold slice. rewrite recalc_longi by auto. apply quad_coast.
  - intros. apply affine_coast.
  - eexists. split; [apply (c_equad w c ref p ls Hk F1)|exact F2].
Qed.
Lemma sol_goes f T0 T : is_a "solenoid" c -> md_len d = real_at num c "L" 0 ->
  setup_solenoid w d c (recalc ref) = Ok f -> f (recalc p) T0 = (T, None) -> goes T.
Proof.
  intros Hk HD H HT. unfold setup_solenoid in H. destruct (num_of w c "L") as [l|] eqn:EL; [|discriminate]. cbn [rbind] in H.
  destruct (get_flag w c "ncurve" 0) as [n|] eqn:EN; [|discriminate]. cbn [rbind] in H.
  set (k := fun b => b / rigidity p / 2 / 1000).
  assert (X : exists B, misaligned d (recalc ref) (recalc p) B = (T, None) /\
    ((n = 0%N /\ meq 7 B (slice sol_matrix k (l * MtoMM) (real_at num c "B" 0))) \/
     (n <> 0%N /\ exists cvs a f, get_curves w c n = Ok cvs /\ (forall x, f x = a * x) /\ (forall x, k x = a * x) /\
     B = slices cvs (l * MtoMM) f sol_matrix (recalc p)))).
  { assert (Y : forall x, x / (2 * rigidity p) / 1000 = k x).
    { intros x. unfold k, Rdiv. rewrite Rinv_mult. ring. }
    destruct (N.eqb_spec n 0) as [E|E]; cbn [negb] in H.
    - destruct (num_of w c "B") as [B2|] eqn:EB; [|discriminate]. cbn [rbind] in H. apply num_of_at in EB as [EB _]. fn H HT.
      eexists. split; [exact HT|]. left. split; auto. unfold slice. rewrite EB, recalc_brho by auto. unfold MtoMM. rewrite Y. reflexivity.
    - destruct (get_curves w c n) as [cvs|] eqn:EC; [|discriminate]. cbn [rbind] in H. fn H HT.
      eexists. split; [exact HT|]. right. split; auto. exists cvs, (1 / rigidity p / 2 / 1000). eexists.
      split; [auto|]. split; [|split; [|reflexivity]]; intros x; cbv beta; rewrite ?recalc_brho by auto; unfold MtoMM; rewrite ?Y; unfold k, Rdiv; ring. }
  destruct X as (B & X1 & X2).
  destruct (field_goes (fun b => spiralling (k b) p) (fun b => spiral (k b) (slip p)) sol_matrix k (real_at num c "B" 0) n B T l)
    as (ls & F1 & F2); auto.
  - intros b. apply spiral_flow.
  - intros b s. unfold slice. rewrite recalc_longi by auto. apply sol_spiral.
  - intros. apply affine_spiral.
  - eexists. split; [apply (c_sol w c ref p ls Hk F1)|exact F2].
Qed.
Lemma drift_goes f T0 T : is_a "drift" c -> md_len d = real_at num c "L" 0 ->
  setup w KDrift d c (recalc ref) = Ok f -> f (recalc p) T0 = (T, None) -> goes T.
Proof.
  intros Hk HD H HT. cbn [setup] in H. fn H HT. apply pair_eq in HT as [<- _].
  eexists. split; [apply (c_drift w c ref p Hk)|]. intros u _. apply does_end. eapply does_flow; [apply coast_flow|].
  rewrite recalc_longi by auto. rewrite HD. apply drift_coast.
Qed.
Lemma none_goes : is_a "marker" c \/ is_a "bpm" c -> goes mid.
Proof.
  intros Hk. eexists. split; [apply (c_none w c ref p Hk)|]. intros u _. cbn [passes]. symmetry. apply mid_app.
Qed.
Lemma given_goes f T0 T : is_a "tmatrix" c ->
  setup w KTMatrix d c (recalc ref) = Ok f -> f (recalc p) T0 = (T, None) -> goes T.
Proof.
  intros Hk H HT. cbn [setup] in H. fn H HT. unfold load_storage in HT.
  destruct (get_vec c "matrix") as [l|] eqn:E; [|discriminate]. destruct (Nat.eqb_spec (List.length l) (msize * msize)) as [EL|]; [|discriminate].
  apply pair_eq in HT as [<- _]. apply get_vec_at in E.
  eexists. split; [apply (c_given w c ref p l (mat_of w l) Hk E)|].
  - intros i j Hi Hj. unfold mat_of. change (7 * i + j)%nat with (msize * i + j)%nat.
    destruct (nth_error l (msize * i + j)) as [x|] eqn:Ex; [exists x; auto|]. apply nth_error_None in Ex. unfold msize in *. lia.
  - intros u _. eexists. split; reflexivity.
Qed.
Lemma rolled_ok a u : rolled a u (mapp 7 (rot_mat 0 0 0 0 a) u).
Proof.
  unfold rolled. assert (H := rot_at 0 0 0 0 a u). cbv zeta beta iota delta [turned] in H. rewrite cos_0, sin_0 in H.
  intros i Hi. rewrite (H i Hi). idx7 i Hi; ring.
Qed.
Lemma kick_ok tx ty u : tx = kick_of w c ref p "theta_x" "tm_xkick" -> ty = kick_of w c ref p "theta_y" "tm_ykick" ->
  kicked w c ref p u (mapp 7 (mset (mset mid PS_PX 6 tx) PS_PY 6 ty) u).
Proof.
  intros -> ->. unfold kicked. generalize (kick_of w c ref p "theta_x" "tm_xkick") (kick_of w c ref p "theta_y" "tm_ykick"). intros a b.
  intros i Hi. unfold mapp. cbn [sumn]. idx7 i Hi; look; ring.
Qed.
Lemma trim_goes f T0 T : is_a "orbtrim" c -> md_len d = 0 ->
  setup w KOrbTrim d c (recalc ref) = Ok f -> f (recalc p) T0 = (T, None) -> goes T.
Proof.
  intros Hk HD H HT. cbn [setup] in H. fn H HT. unfold setup_orbtrim in HT. cbv beta zeta in HT.
  set (tx := (if is_one c "realpara" false then _ else num_def w c "theta_x" 0)) in HT.
  set (ty := (if is_one c "realpara" false then _ else num_def w c "theta_y" 0)) in HT.
  assert (Z : p_Z ref <> 0) by apply HR.
  assert (EC : p_Z (recalc ref) * C0 / sqrt (sqr (p_W (recalc ref)) - sqr (p_Es (recalc ref))) = / rigidity ref).
  { unfold rigidity, sqr, C0, lightspeed. cbn [recalc p_Z p_W p_Es].
    unfold Rdiv. rewrite Rinv_mult, Rinv_inv. ring. }
  assert (KX : tx * p_Z (recalc p) / p_Z (recalc ref) = kick_of w c ref p "theta_x" "tm_xkick").
  { unfold tx, kick_of, is_one, num_at. rewrite EC, !real_num. cbn [recalc p_Z].
    destruct (tfind "realpara" c) as [[x| | |]|]; [destruct (deq x done)|..]; unfold Rdiv; ring. }
  assert (KY : ty * p_Z (recalc p) / p_Z (recalc ref) = kick_of w c ref p "theta_y" "tm_ykick").
  { unfold ty, kick_of, is_one, num_at. rewrite EC, !real_num. cbn [recalc p_Z].
    destruct (tfind "realpara" c) as [[x| | |]|]; [destruct (deq x done)|..]; unfold Rdiv; ring. }
  set (B := mset (mset mid PS_PX 6 (tx * p_Z (recalc p) / p_Z (recalc ref))) PS_PY 6 (ty * p_Z (recalc p) / p_Z (recalc ref))) in HT.
  assert (DB : does [Via (kicked w c ref p)] B) by (apply does_via; intros u; apply kick_ok; auto).
  assert (AB : affine B) by (unfold B; repeat (apply affine_set; [unfold PS_PX, PS_PY; lia|]); apply affine_id).
  destruct (misaligned d (recalc ref) (recalc p) B) as [T1 [e|]] eqn:EM; [discriminate|].
  assert (X := inside_ok w c 0 ref p d _ B T1 HP (proj1 HR) HS HD EM AB DB).
  replace (- (0 * 1000) / 2) with 0 in X by field. replace (0 * 1000 / 2) with 0 in X by field.
  eexists. split; [apply (c_trim w c ref p Hk)|]. intros u Hu.
  assert (EA : num_def w c "xyrotate" 0 * PI / 180 = angle_of w c "xyrotate") by (rewrite real_num; reflexivity).
  rewrite EA in HT. destruct (Req_EM_T (angle_of w c "xyrotate") 0) as [E0|E0].
  - apply pair_eq in HT as [<- _]. exists u. split; [|apply X; exact Hu].
    unfold rolled. rewrite E0, cos_0, sin_0. intros i Hi. idx7 i Hi; ring.
  - apply pair_eq in HT as [<- _]. exists (mapp 7 (rot_mat 0 0 0 0 (angle_of w c "xyrotate")) u). split; [apply rolled_ok|].
    assert (Y := mapp_mmul 7 T1 (rot_mat 0 0 0 0 (angle_of w c "xyrotate")) u).
    eapply passes_veq; [symmetry; exact Y|]. apply X.
    red. rewrite (rolled_ok _ u 6%nat) by lia. exact Hu.
Qed.
Lemma edge_ok L phi a u : L <> 0 -> phi <> 0 -> edge (phi / L) a u (mapp 7 (edge_matrix (L / phi) a) u).
Proof.
  intros HL Hphi. unfold edge, edge_matrix. replace (tan a / (L / phi)) with (phi / L * tan a) by (field; auto).
  replace (- tan a / (L / phi)) with (- (phi / L * tan a)) by (field; auto).
  generalize (phi / L * tan a). intros k i Hi. unfold mapp. cbn [sumn]. idx7 i Hi; look; ring.
Qed.
Lemma sector_does L phi phi1 phi2 K gd beta dd dz kd : L <> 0 -> phi <> 0 -> 0 < K + phi / L * (phi / L) ->
  beta * beta * gd * (p_Es ref / 1000000) <> 0 -> let h := phi / L in
  let B := sbend_matrix L phi phi1 phi2 K (p_Es (recalc ref)) (p_gamma (recalc ref)) dz beta gd dd kd mid in
  does [Via (edge h phi1);
        Along (bending (K + h * h) (- K) h (beta * beta * gd * (p_Es ref / 1000000)) dd (dd + dz) kd (gamma_of ref)) L;
        Via (edge h phi2)] B /\ affine B.
Proof.
  intros HL Hphi HK Hb h B.
  assert (G : gamma_of ref <> 0) by (destruct (moving_facts ref HR) as (G & _); lra).
  assert (E := sbend_body L phi phi1 phi2 K (p_Es (recalc ref)) (p_gamma (recalc ref)) dz beta gd dd kd HL Hphi HK).
  rewrite (recalc_gamma ref HR) in E. specialize (E G). cbv zeta in E. fold h in E.
  replace (beta * beta * gd * p_Es (recalc ref) / MeVtoeV) with (beta * beta * gd * (p_Es ref / 1000000)) in E
    by (cbn [recalc p_Es]; unfold MeVtoeV, Rdiv; ring).
  unfold B. rewrite (recalc_gamma ref HR). split.
  - eapply does_meq; [symmetry; exact E|].
    change [Via (edge h phi1); Along (bending (K + h * h) (- K) h (beta * beta * gd * (p_Es ref / 1000000)) dd (dd + dz) kd (gamma_of ref)) L; Via (edge h phi2)]
      with (([Via (edge h phi1)] ++ [Along (bending (K + h * h) (- K) h (beta * beta * gd * (p_Es ref / 1000000)) dd (dd + dz) kd (gamma_of ref)) L]) ++ [Via (edge h phi2)]).
    apply does_app; [apply does_app|].
    + apply does_via. intros u. apply edge_ok; auto.
    + eapply does_flow; [apply bend_flow; auto|reflexivity]. unfold h in *. lra.
    + apply does_via. intros u. apply edge_ok; auto.
  - apply (affine_meq _ _ E). apply affine_mul; [apply affine_edge|]. apply affine_mul; [apply affine_bend|apply affine_edge].
Qed.
Lemma sbend_goes f T0 T : is_a "sbend" c -> md_len d = real_at num c "L" 0 -> flagged w c "HdipoleFitMode" 1 (md_fit d) ->
  proper_magnet num c ->
  setup_sbend w d c (recalc ref) = Ok f -> f (recalc p) T0 = (T, None) -> goes T.
Proof.
  intros Hk HD HF [HPM _] H HT. unfold setup_sbend in H.
  destruct (num_of w c "L") as [l|] eqn:EL; [|discriminate]. cbn [rbind] in H.
  destruct (num_of w c "phi") as [phi|] eqn:Ep; [|discriminate]. cbn [rbind] in H.
  destruct (num_of w c "phi1") as [phi1|] eqn:Ep1; [|discriminate]. cbn [rbind] in H.
  destruct (num_of w c "phi2") as [phi2|] eqn:Ep2; [|discriminate]. cbn [rbind] in H. fn H HT.
  apply num_of_at in EL as [EL _]. apply num_of_at in Ep as [Ep _]. apply num_of_at in Ep1 as [Ep1 _]. apply num_of_at in Ep2 as [Ep2 _].
  rewrite real_num in HT.
  rewrite <- EL, <- Ep, <- Ep1, <- Ep2 in HT.
  replace (sqr MtoMM) with 1000000 in HT by (unfold sqr, MtoMM; ring). unfold MtoMM in HT.
  set (L := real_at num c "L" 0 * 1000) in *.
  change (real_at num c "phi" 0 * PI / 180) with (angle_of w c "phi") in HT.
  change (real_at num c "phi1" 0 * PI / 180) with (angle_of w c "phi1") in HT.
  change (real_at num c "phi2" 0 * PI / 180) with (angle_of w c "phi2") in HT.
  assert (CB := c_bend w c ref p (md_fit d) Hk HF). fold L in CB.
  specialize (HPM Hk). cbv zeta in HPM. fold L in HPM.
  destruct (Req_EM_T L 0) as [L0|L0].
  { apply pair_eq in HT as [<- _]. eexists. split; [exact CB|]. intros u _. cbn [passes]. symmetry. apply mid_app. }
  destruct (HPM L0) as (Hphi & Hfoc & Hbg). clear HPM.
  assert (Hphi' : angle_of w c "phi" <> 0).
  { unfold angle_of. assert (P := PI_RGT_0). intros Z. apply Hphi. apply (Rmult_eq_reg_r (PI / 180)); lra. }
  change (real_at num c "phi" 0 * PI / 180) with (angle_of w c "phi") in Hfoc.
  assert (HE : 0 < p_Es ref) by apply HR.
  assert (FIN : forall gd d0 kd beta qm B, 1 < gd -> beta = sqrt (1 - 1 / (gd * gd)) ->
    qm = (p_Z p - p_Z ref) / p_Z ref -> d0 = (gamma_of ref - gd) / (beta * beta * gd) - qm -> kd = 2 * PI / (beta * wavelength ref) ->
    B = sbend_matrix L (angle_of w c "phi") (angle_of w c "phi1") (angle_of w c "phi2") (real_at num c "K" 0 / 1000000)
          (p_Es (recalc ref)) (p_gamma (recalc ref)) qm beta gd d0 kd mid ->
    misaligned d (recalc ref) (recalc p) B = (T, None) ->
    forall u, unit_last u ->
      passes (Via (framed num c (- L / 2) ref p) :: sector w c ref p gd ++ [Via (fun u v => framed num c (L / 2) ref p v u)]) u (mapp 7 T u)).
  { intros gd d0 kd beta qm B Hg Hbeta Hqm Hd Hkd HB HM u Hu.
    assert (B2 : 0 < beta).
    { rewrite Hbeta. apply sqrt_lt_R0. assert (1 / (gd * gd) < 1); [|lra].
      apply (Rmult_lt_reg_r (gd * gd)); [nra|]. unfold Rdiv. rewrite Rmult_assoc, Rinv_l by nra. nra. }
    assert (HBb : beta * beta * gd * (p_Es ref / 1000000) <> 0).
    { apply Rmult_integral_contrapositive_currified; [|lra]. nra. }
    destruct (sector_does L (angle_of w c "phi") (angle_of w c "phi1") (angle_of w c "phi2") (real_at num c "K" 0 / 1000000)
      gd beta d0 qm kd L0 Hphi' Hfoc HBb) as [D A]. rewrite <- HB in D, A.
    apply (inside_ok w c (real_at num c "L" 0) ref p d _ B T); auto.
    unfold sector. fold L. rewrite <- Hbeta, <- Hqm.
    replace ((gamma_of ref - gd) / (beta * beta * gd)) with (d0 + qm) by (rewrite Hd; ring).
    replace (d0 + qm - qm) with d0 by ring. rewrite <- Hkd. exact D. }
  assert (HMR := moving_facts ref HR).
  destruct (N.eqb (md_fit d) 0) eqn:EF.
  - destruct (num_of w c "bg") as [bg|] eqn:Eb; [|discriminate]. apply num_of_at in Eb as [Eb Eb']. rewrite Eb' in Hbg.
    eexists. split; [exact CB|].
    assert (EG : ((sqrt (sqr bg + 1) - 1) * p_Es (recalc ref) + p_Es (recalc ref)) / p_Es (recalc ref) = sqrt (1 + real_at num c "bg" 0 ^ 2)).
    { rewrite Eb. cbn [recalc p_Es]. replace (1 + bg ^ 2) with (sqr bg + 1) by (unfold sqr; ring). field. lra. }
    rewrite EG in HT.
    match type of HT with misaligned _ _ _ (sbend_matrix _ _ _ _ _ _ _ ?qm ?beta ?gd ?d0 ?kd mid) = _ =>
      refine (FIN gd d0 kd beta qm _ _ _ _ _ _ eq_refl HT) end.
    + rewrite Eb. assert (Q0 : 0 < bg * bg) by (apply Rsqr_pos_lt; exact Hbg). assert (Q : sqrt 1 < sqrt (1 + bg ^ 2)) by (apply sqrt_lt_1; nra). rewrite sqrt_1 in Q. exact Q.
    + unfold sqr. reflexivity.
    + cbn [recalc p_Z]. reflexivity.
    + rewrite (recalc_gamma ref HR). unfold sqr. reflexivity.
    + rewrite recalc_lambda. reflexivity.
  - rewrite <- (recalc_gamma ref HR) in CB. eexists. split; [exact CB|]. match type of HT with misaligned _ _ _ (sbend_matrix _ _ _ _ _ _ _ ?qm ?beta ?gd ?d0 ?kd mid) = _ =>
      refine (FIN gd d0 kd beta qm _ _ _ _ _ _ eq_refl HT) end.
    + rewrite (recalc_gamma ref HR). destruct HMR as (G & _). exact G.
    + rewrite (recalc_gamma ref HR). apply (recalc_beta ref HR).
    + cbn [recalc p_Z]. reflexivity.
    + rewrite (recalc_gamma ref HR). unfold Rdiv. ring.
    + rewrite (recalc_K ref HR), (recalc_beta ref HR). reflexivity.
Qed.
End Element.
End Kinds.
