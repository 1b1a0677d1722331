(** Phases that differ by full turns: proofs. *)
From Coq Require Import Reals List String Bool NArith ZArith Arith Lia Lra.
From Verif Require Import SMap Dbl Config_Spec Mat Mat_Proofs Machine_Model Machine_Spec Machine_Proofs.
From Verif Require Import Moment_Model Moment_Spec Motion_Spec Moment_Proofs Moment2_Proofs Moment3_Proofs Moment6_Proofs Motion_Proofs Motion2_Proofs Motion3_Proofs Frame_Spec Frame_Proofs.
From Verif Require Import Cavity_Model Cavity_Spec Cavity2_Spec Cavity_Proofs Cavity2_Proofs Cavity3_Proofs Cavity4_Proofs Cavity5_Proofs Cavity6_Proofs.
Import ListNotations.
Open Scope R_scope.
Open Scope string_scope.
Open Scope list_scope.

Lemma cos_turn n x : cos (x + 2 * PI * IZR n) = cos x.
Proof.
  assert (P : forall k y, cos (y + 2 * PI * IZR (Z.pos k)) = cos y).
  { intros k y. rewrite <- (cos_period y (Pos.to_nat k)). f_equal. rewrite INR_IZR_INZ, positive_nat_Z. ring. }
  destruct n as [|k|k]; [f_equal; ring|apply P|]. rewrite <- (P k (x + 2 * PI * IZR (Z.neg k))). f_equal.
  change (Z.neg k) with (- Z.pos k)%Z. rewrite opp_IZR. ring.
Qed.
Lemma sin_turn n x : sin (x + 2 * PI * IZR n) = sin x.
Proof.
  assert (P : forall k y, sin (y + 2 * PI * IZR (Z.pos k)) = sin y).
  { intros k y. rewrite <- (sin_period y (Pos.to_nat k)). f_equal. rewrite INR_IZR_INZ, positive_nat_Z. ring. }
  destruct n as [|k|k]; [f_equal; ring|apply P|]. rewrite <- (P k (x + 2 * PI * IZR (Z.neg k))). f_equal.
  change (Z.neg k) with (- Z.pos k)%Z. rewrite opp_IZR. ring.
Qed.
Definition rto {A B} (f : A -> B) (r : res A) : res B := match r with Ok x => Ok (f x) | Throw e => Throw e end.

Section Turn.
Variable n : Z.
Let d := 2 * PI * IZR n.
Lemma cos_d x y : y = x + d -> cos y = cos x. Proof. intros ->. apply cos_turn. Qed.
Lemma sin_d x y : y = x + d -> sin y = sin x. Proof. intros ->. apply sin_turn. Qed.

(** ** Energies *)
Definition later_state (x : option (R * R * option R)) : option (R * R * option R) :=
  match x with Some (F, W, k) => Some (F + d, W, k) | None => None end.
Lemma boost_turn_step Z Es scl lam dz EE x : boost_step Z Es scl lam dz EE (later_state x) = later_state (boost_step Z Es scl lam dz EE x).
Proof.
  destruct x as [[[F W] [k|]]|]; [|reflexivity|reflexivity]. cbn [later_state boost_step]. cbv zeta.
  replace (F + d + k * dz) with (F + k * dz + d) by ring. rewrite (cos_d ((F + (F + k * dz)) / 2)) by field.
  destruct (Rlt_dec _ 0); reflexivity.
Qed.
Lemma boost_turn_loop Z Es scl lam dz l : forall x, fold_left (fun x EE => boost_step Z Es scl lam dz EE x) l (later_state x) =
  later_state (fold_left (fun x EE => boost_step Z Es scl lam dz EE x) l x).
Proof. induction l as [|EE l IH]; intros x; [reflexivity|]. cbn [fold_left]. rewrite boost_turn_step. apply IH. Qed.
Lemma boost_turn a cv p W F scl : boost a cv p W (F + d) scl = rto (fun o => match o with Some (W, F) => Some (W, F + d) | None => None end) (boost a cv p W F scl).
Proof.
  unfold boost. cbv zeta. destruct (_ && _)%bool; [reflexivity|]. destruct (Nat.eqb _ 0); [reflexivity|]. destruct (Rle_dec _ _); [reflexivity|].
  destruct (Req_EM_T (cv_f cv) 0); [reflexivity|]. cbn [rto]. f_equal. unfold boost_loop. set (k := if Req_EM_T _ _ then _ else _).
  change (Some (F + d, W, k)) with (later_state (Some (F, W, k))). rewrite boost_turn_loop.
  destruct (fold_left _ _ _) as [[[F' W'] k']|]; reflexivity.
Qed.
Definition set_phi (cv : cavity) (x : R) : cavity :=
  mkCav (cv_cavi cv) (cv_f cv) x (cv_Rm cv) (cv_force cv) (cv_mp cv) (cv_eg cv) (cv_lat cv) (cv_data cv) (cv_axis cv) (cv_mlp cv)
        (cv_syn cv) (cv_nrm cv) (cv_cx cv) (cv_eklim cv) (cv_nrlim cv).
Definition turn (cv : cavity) : cavity := set_phi cv (cv_phi cv + d).
Lemma phase_turn cv ref m : cav_phase (turn cv) ref m = rto (fun x => x + d) (cav_phase cv ref m).
Proof.
  unfold cav_phase. cbv zeta. cbn [turn set_phi cv_cavi cv_syn cv_phi].
  match goal with |- rbind ?a _ = _ => destruct a as [x|e] end; cbn [rbind rto]; [f_equal; ring|reflexivity].
Qed.
Lemma phase_complex_turn cv ref s m P : cav_phase_complex (turn cv) ref s m P = rto (fun x => x + d) (cav_phase_complex cv ref s m P).
Proof.
  unfold cav_phase_complex. cbv zeta. cbn [turn set_phi cv_phi]. destruct (negb _); [reflexivity|].
  destruct (complex_sum _ _ _ _ _); cbn [rbind rto]; [f_equal; ring|reflexivity].
Qed.

(** ** Matrices *)
Lemma e_turn Z V beta gamma T S F : e_kick Z V beta gamma T S (F + d) = e_kick Z V beta gamma T S F.
Proof. unfold e_kick. rewrite (cos_d F) by ring. rewrite (sin_d F) by ring. reflexivity. Qed.
Lemma h_turn Z V beta gamma T S F : h_kick Z V beta gamma T S (F + d) = h_kick Z V beta gamma T S F.
Proof. unfold h_kick. rewrite (cos_d (F + PI / 2)) by ring. rewrite (sin_d (F + PI / 2)) by ring. reflexivity. Qed.
Definition gturn (g : gen) : gen := mkGen (g_W g) (g_gamma g) (g_beta g) (g_Fy g + d) (g_k g) (g_Mt g) (g_Ml g).
Lemma gen_turn_step cv p scl P g : gen_step cv p scl P (gturn g) = rto gturn (gen_step cv p scl P g).
Proof.
  unfold gen_step. cbv zeta. cbn [gturn g_W g_gamma g_beta g_Fy g_k g_Mt g_Ml].
  destruct (String.eqb (r_type P) "drift"); [cbn [rto]; unfold gturn; cbn [g_W g_gamma g_beta g_Fy g_k g_Mt g_Ml]; f_equal; f_equal; ring|].
  set (fits := rbind (fit_pow (g_k g) (r_T P)) _).
  destruct (String.eqb (r_type P) "EFocus"); [destruct (N.ltb _ _); [reflexivity|]; destruct fits as [[T Sf]|]; [|reflexivity]; cbn [rbind]; rewrite e_turn; destruct (fdiv _ _); reflexivity|].
  destruct (String.eqb (r_type P) "EDipole"); [destruct (N.ltb _ _); [reflexivity|]; destruct fits as [[T Sf]|]; [|reflexivity]; cbn [rbind]; rewrite e_turn; reflexivity|].
  destruct (String.eqb (r_type P) "EQuad"); [destruct (N.ltb _ _); [reflexivity|]; destruct fits as [[T Sf]|]; [|reflexivity]; cbn [rbind]; rewrite e_turn; destruct (fdiv _ _); reflexivity|].
  destruct (String.eqb (r_type P) "HMono"); [destruct (N.ltb _ _); [reflexivity|]; destruct fits as [[T Sf]|]; [|reflexivity]; cbn [rbind]; rewrite h_turn; destruct (fdiv _ _); reflexivity|].
  destruct (String.eqb (r_type P) "HDipole"); [destruct (N.ltb _ _); [reflexivity|]; destruct fits as [[T Sf]|]; [|reflexivity]; cbn [rbind]; rewrite h_turn; reflexivity|].
  destruct (String.eqb (r_type P) "HQuad"); [destruct (N.ltb _ _); [reflexivity|]; destruct fits as [[T Sf]|]; [|reflexivity]; cbn [rbind]; rewrite h_turn; destruct (fdiv _ _); reflexivity|].
  destruct (String.eqb (r_type P) "AccGap"); [|reflexivity].
  destruct fits as [[T Sf]|]; [|reflexivity]. cbn [rbind]. rewrite (cos_d (g_Fy g)) by ring. rewrite (sin_d (g_Fy g)) by ring.
  destruct (Cavity_Model.beta_of _); reflexivity.
Qed.
Lemma gen_turn_loop cv p scl l : forall g, gen_loop cv p scl l (gturn g) = rto gturn (gen_loop cv p scl l g).
Proof.
  induction l as [|P l IH]; intros g; [reflexivity|]. cbn [gen_loop]. rewrite gen_turn_step. destruct (gen_step cv p scl P g); [|reflexivity].
  cbn [rto rbind]. apply IH.
Qed.
Definition hturn (x : two) : two := mkTwo (h_seg x) (h_beta x) (h_gamma x) (h_Fy x + d) (h_k x) (h_Mt x).
Lemma two_turn_step cv p scl Rm b g s P l x : two_step cv p scl Rm b g s P l (hturn x) = rto hturn (two_step cv p scl Rm b g s P l x).
Proof.
  unfold two_step. cbv zeta. cbn [hturn h_seg h_beta h_gamma h_Fy h_k h_Mt]. rewrite e_turn, !h_turn.
  destruct (String.eqb (r_type P) "drift"); [cbn [rto]; unfold hturn; cbn [h_seg h_beta h_gamma h_Fy h_k h_Mt]; f_equal; f_equal; ring|].
  destruct (String.eqb (r_type P) "EFocus1"); [destruct (N.ltb _ _); reflexivity|].
  destruct (String.eqb (r_type P) "EFocus2"); [destruct (N.ltb _ _); reflexivity|].
  destruct (String.eqb (r_type P) "EDipole"); [destruct (N.ltb _ _); reflexivity|].
  destruct (String.eqb (r_type P) "EQuad"); [destruct (N.ltb _ _); reflexivity|].
  destruct (String.eqb (r_type P) "HMono"); [destruct (N.ltb _ _); reflexivity|].
  destruct (String.eqb (r_type P) "HDipole"); [destruct (N.ltb _ _); reflexivity|].
  destruct (String.eqb (r_type P) "HQuad"); [destruct (N.ltb _ _); [reflexivity|]; destruct (Req_EM_T _ 0); reflexivity|].
  destruct (String.eqb (r_type P) "AccGap"); [|reflexivity]. destruct (Nat.ltb _ _); reflexivity.
Qed.
Lemma two_turn_loop cv p scl Rm b g l : forall s x, two_loop cv p scl Rm b g s l (hturn x) = rto hturn (two_loop cv p scl Rm b g s l x).
Proof.
  induction l as [|[P t] l IH]; intros s x; [reflexivity|]. cbn [two_loop]. rewrite two_turn_step. destruct (two_step cv p scl Rm b g _ P t x); [|reflexivity].
  cbn [rto rbind]. apply IH.
Qed.
Lemma gap_turn dis W p F k lam t : eval_gap dis W p (F + d) k lam t = rto (fun '(W, F) => (W, F + d)) (eval_gap dis W p F k lam t).
Proof.
  unfold eval_gap. cbv zeta. rewrite (cos_d (F + k * t_Ecen t)) by ring. rewrite (sin_d (F + k * t_Ecen t)) by ring.
  destruct (Cavity_Model.beta_of _); [|reflexivity]. cbn [rbind]. destruct (fdiv _ _); [|reflexivity]. cbn [rbind rto]. f_equal. f_equal. ring.
Qed.
Lemma kick_turn p t a a' : a' = a + d -> lon_kick p t a' = lon_kick p t a.
Proof. intros E. unfold lon_kick. rewrite (cos_d a a' E), (sin_d a a' E). reflexivity. Qed.

Section M.
Variable w : world.
Lemma gen_turn cv p scl F E : gen_matrix w cv p scl (F + d) E = gen_matrix w cv p scl F E.
Proof.
  unfold gen_matrix. cbv zeta. destruct (Cavity_Model.beta_of _) as [b|]; [|reflexivity]. cbn [rbind]. destruct (_ && _)%bool; [reflexivity|].
  match goal with |- context [gen_loop cv p scl (cv_lat cv) (mkGen ?a ?b ?c (F + d) ?k ?m ?l)] =>
    change (mkGen a b c (F + d) k m l) with (gturn (mkGen a b c F k m l)) end.
  rewrite gen_turn_loop. destruct (gen_loop _ _ _ _ _); reflexivity.
Qed.
Lemma rbind_ext {A B} (r : res A) (f g : A -> res B) : (forall x, f x = g x) -> rbind r f = rbind r g.
Proof. intros H. destruct r; [apply H|reflexivity]. Qed.
Lemma rbind_rto {A A' B} (h : A -> A') (r : res A) (f : A' -> res B) : rbind (rto h r) f = rbind r (fun x => f (h x)).
Proof. destruct r; reflexivity. Qed.
Lemma two_turn cv label Rm p scl F E : cav_matrix w cv label Rm p scl (F + d) E = cav_matrix w cv label Rm p scl F E.
Proof.
  unfold cav_matrix. cbv zeta. destruct (Nat.eqb _ 0); [reflexivity|]. apply rbind_ext; intros b0.
  apply rbind_ext; intros t0. rewrite gap_turn, rbind_rto. apply rbind_ext; intros [W1 F1].
  apply rbind_ext; intros b1. apply rbind_ext; intros t1. rewrite gap_turn, rbind_rto. apply rbind_ext; intros [W2 F2].
  apply rbind_ext; intros b2. apply rbind_ext; intros lines.
  unfold two_gap_matrix. cbv zeta. destruct (cv_data cv) as [|[z0 e0] rows]; [reflexivity|]. cbn [tab3 t_Ecen].
  match goal with |- context [mkTwo ?a ?b ?c (F + d) ?k ?m] => change (mkTwo a b c (F + d) k m) with (hturn (mkTwo a b c F k m)) end.
  rewrite two_turn_loop. destruct (two_loop _ _ _ _ _ _ _ _ _) as [x|]; [|reflexivity]. cbn [rbind rto]. cbn [hturn h_Mt].
  match goal with |- context [lon_kick p ?t (F + d + ?x)] => rewrite (kick_turn p t (F + x) (F + d + x)) by ring end.
  match goal with |- context [lon_kick p ?t (F1 + d + ?x)] => rewrite (kick_turn p t (F1 + x) (F1 + d + x)) by ring end. reflexivity.
Qed.
Lemma gen_loop_phi cv p scl l : forall g, gen_loop (turn cv) p scl l g = gen_loop cv p scl l g.
Proof.
  induction l as [|P l IH]; intros g; [reflexivity|]. cbn [gen_loop]. change (gen_step (turn cv) p scl P g) with (gen_step cv p scl P g).
  destruct (gen_step cv p scl P g); [|reflexivity]. apply IH.
Qed.
Lemma two_loop_phi cv p scl Rm b g l : forall s x, two_loop (turn cv) p scl Rm b g s l x = two_loop cv p scl Rm b g s l x.
Proof.
  induction l as [|[P t] l IH]; intros s x; [reflexivity|]. cbn [two_loop]. cbv zeta.
  change (two_step (turn cv) p scl Rm b g (s + r_len P) P t x) with (two_step cv p scl Rm b g (s + r_len P) P t x).
  destruct (two_step cv p scl Rm b g (s + r_len P) P t x); [|reflexivity]. apply IH.
Qed.
Lemma params_loop_phi cv b g k l : forall s, params_loop (turn cv) b g k s l = params_loop cv b g k s l.
Proof.
  induction l as [|P l IH]; intros s; [reflexivity|]. cbn [params_loop]. cbv zeta.
  change (params_step (turn cv) b g k (s + r_len P) P) with (params_step cv b g k (s + r_len P) P). rewrite IH. reflexivity.
Qed.
Lemma gen_phi cv p scl F E : gen_matrix w (turn cv) p scl F E = gen_matrix w cv p scl F E.
Proof.
  unfold gen_matrix. cbv zeta. change (cv_Rm (turn cv)) with (cv_Rm cv). change (cv_lat (turn cv)) with (cv_lat cv). change (cav_lambda (turn cv)) with (cav_lambda cv).
  destruct (Cavity_Model.beta_of _) as [b|]; [|reflexivity]. cbn [rbind]. rewrite gen_loop_phi. reflexivity.
Qed.
Lemma params_phi cv b g k : cav_params (turn cv) b g k = cav_params cv b g k.
Proof.
  unfold cav_params. change (cv_lat (turn cv)) with (cv_lat cv). change (cv_data (turn cv)) with (cv_data cv).
  destruct (cv_lat cv); [reflexivity|]. destruct (cv_data cv) as [|[z0 e0] rows]; [reflexivity|]. apply params_loop_phi.
Qed.
Lemma two_phi cv label Rm p scl F E : cav_matrix w (turn cv) label Rm p scl F E = cav_matrix w cv label Rm p scl F E.
Proof.
  unfold cav_matrix. cbv zeta. change (cv_data (turn cv)) with (cv_data cv). change (cav_lambda (turn cv)) with (cav_lambda cv).
  destruct (Nat.eqb _ 0); [reflexivity|]. destruct (Cavity_Model.beta_of _) as [b0|]; [|reflexivity]. cbn [rbind].
  change (trans_facts (turn cv)) with (trans_facts cv).
  destruct (trans_facts _ _ _ _ _ _) as [t0|]; [|reflexivity]. cbn [rbind]. destruct (eval_gap _ _ _ _ _ _ _) as [[W1 F1]|]; [|reflexivity]. cbn [rbind rto].
  destruct (Cavity_Model.beta_of _) as [b1|]; [|reflexivity]. cbn [rbind]. destruct (trans_facts _ _ _ _ _ _) as [t1|]; [|reflexivity]. cbn [rbind].
  destruct (eval_gap _ _ _ _ _ _ _) as [[W2 F2]|]; [|reflexivity]. cbn [rbind rto].
  destruct (Cavity_Model.beta_of _) as [b2|]; [|reflexivity]. cbn [rbind]. rewrite params_phi. destruct (cav_params _ _ _ _) as [lines|]; [|reflexivity]. cbn [rbind].
  unfold two_gap_matrix. cbv zeta. change (cv_data (turn cv)) with (cv_data cv). destruct (cv_data cv) as [|[z0 e0] rows]; [reflexivity|].
  change (cav_lambda (turn cv)) with (cav_lambda cv). change (cv_lat (turn cv)) with (cv_lat cv). rewrite two_loop_phi. reflexivity.
Qed.
Lemma init_turn cv c c' phi p M0 : num_of w c' "scl_fac" = num_of w c "scl_fac" ->
  init_cav w (turn cv) c' (phi + d) p M0 = init_cav w cv c phi p M0.
Proof.
  intros E. unfold init_cav. cbv zeta. rewrite E. cbn [turn set_phi cv_f cv_cavi].
  match goal with |- (match ?a with _ => _ end) = (match ?b with _ => _ end) => replace a with b; [reflexivity|] end.
  destruct (label_of _) as [[label Rm]|]; [|reflexivity]. cbn [rbind]. destruct (Req_EM_T _ 0); [reflexivity|].
  destruct (num_of w c "scl_fac") as [scl|]; [|reflexivity]. cbn [rbind].
  set (F := cv_f cv / p_freq p * p_phis p + phi).
  replace (cv_f cv / p_freq p * p_phis p + (phi + d)) with (F + d) by (unfold F; ring).
  change (boost (w_asserts w) (set_phi cv (cv_phi cv + d)) p (p_Ek p + p_Es p) (F + d) scl) with (boost (w_asserts w) cv p (p_Ek p + p_Es p) (F + d) scl).
  rewrite boost_turn. destruct (boost _ _ _ _ _ _) as [[[W Fo]|]|]; cbn [rto rbind]; try reflexivity.
  replace (Fo + d - (F + d)) with (Fo - F) by ring.
  change (set_phi cv (cv_phi cv + d)) with (turn cv). rewrite two_phi, gen_phi, two_turn, gen_turn. reflexivity.
Qed.
Lemma growth_turn cv ref p_in p m x : growth_factors (turn cv) ref p_in p m x = growth_factors cv ref p_in p m x.
Proof.
  unfold growth_factors. destruct x as [[[a b] c] e]. cbv zeta. cbn [turn set_phi cv_phi].
  rewrite (cos_d (cv_phi cv)) by ring. rewrite (sin_d (cv_phi cv)) by ring. reflexivity.
Qed.

Variables c c' : tcfg.
Hypothesis T : turned (w_num w) n c c'.
Lemma num_of_same m : m <> "phi" -> num_of w c' m = num_of w c m.
Proof. intros H. unfold num_of, get_num. rewrite (proj1 T m H). reflexivity. Qed.
Lemma num_def_same m x : m <> "phi" -> num_def w c' m x = num_def w c m x.
Proof. intros H. unfold num_def. rewrite (proj1 T m H). reflexivity. Qed.
Lemma flag_same m x : m <> "phi" -> get_flag w c' m x = get_flag w c m x.
Proof. intros H. unfold get_flag, get_num, get_str. rewrite (proj1 T m H). reflexivity. Qed.
Lemma phi_turned : exists x, num_of w c "phi" = Ok x /\ num_of w c' "phi" = Ok (x + 360 * IZR n).
Proof.
  destruct T as (_ & x & x' & H1 & H2 & H3). exists (w_num w x). unfold num_of, get_num. rewrite H1, H2. cbn [rbind]. rewrite H3. auto.
Qed.
Lemma driven_turn cv ref scl : driven_phase w (turn cv) c' ref scl = rto (fun x => x + d) (driven_phase w cv c ref scl).
Proof.
  unfold driven_phase. cbv zeta. rewrite num_def_same by discriminate.
  change (cv_cavi (turn cv)) with (cv_cavi cv). change (cv_f (turn cv)) with (cv_f cv). change (cv_eklim (turn cv)) with (cv_eklim cv).
  change (cv_nrm (turn cv)) with (cv_nrm cv). change (cv_cx (turn cv)) with (cv_cx cv). change (cv_nrlim (turn cv)) with (cv_nrlim cv).
  match goal with |- rbind ?a _ = _ => destruct a as [[]|e] end; cbn [rbind]; [|reflexivity].
  destruct (Rle_dec 1 _).
  - destruct (Nat.eqb _ 0); [|apply phase_turn]. destruct (cv_nrm cv) as [nrm|]; [|apply phase_turn]. destruct (cv_cx cv) as [P|]; [|apply phase_turn].
    destruct (Reqb _ 1); [|apply phase_turn]. destruct (fdiv _ _); [|reflexivity]. cbn [rbind]. destruct (check_limit _); [|reflexivity]. cbn [rbind]. apply phase_complex_turn.
  - destruct phi_turned as (x & -> & ->). cbn [rbind rto]. f_equal. unfold d. field.
Qed.
Lemma long_turn cv ref : propagate_long w (turn cv) c' ref = rto (fun '(p, x) => (p, x + d)) (propagate_long w cv c ref).
Proof.
  unfold propagate_long. cbv zeta. rewrite num_of_same by discriminate. destruct (num_of w c "scl_fac") as [scl|]; [|reflexivity]. cbn [rbind].
  destruct (Req_EM_T _ 0); [reflexivity|]. rewrite driven_turn. destruct (driven_phase w cv c ref scl) as [F|]; [|reflexivity]. cbn [rbind rto].
  change (cv_f (turn cv)) with (cv_f cv). change (boost (w_asserts w) (turn cv)) with (boost (w_asserts w) cv).
  replace (cv_f cv / p_freq ref * p_phis ref + (F + d)) with (cv_f cv / p_freq ref * p_phis ref + F + d) by ring.
  rewrite boost_turn. destruct (boost _ _ _ _ _ _) as [[[W Fo]|]|]; cbn [rto rbind]; try reflexivity.
  f_equal. f_equal. f_equal. ring.
Qed.
Variable files : cavfiles.
Lemma load_turn : load_cavity w files c' = rto turn (load_cavity w files c).
Proof.
  unfold load_cavity. rewrite !num_of_same, !num_def_same, !flag_same by discriminate.
  unfold get_str, get_str_def. rewrite !(proj1 T) by discriminate. fold (get_str c "cavtype"). 
  destruct (num_of w c "f") as [f|]; [|reflexivity]. cbn [rbind]. destruct phi_turned as (x & -> & ->). cbn [rbind].
  replace ((x + 360 * IZR n) * PI / 180) with (x * PI / 180 + d) by (unfold d; field). set (phi := x * PI / 180).
  destruct (get_flag w c "MpoleLevel" 2) as [mp|]; [|reflexivity]. cbn [rbind].
  destruct (get_flag w c "EmitGrowth" 0) as [eg|]; [|reflexivity]. cbn [rbind].
  unfold rwhen. destruct (N.ltb 2 mp); [reflexivity|]. destruct (N.ltb 1 eg); [reflexivity|].
  destruct (get_str c "cavtype") as [t|]; [|reflexivity]. cbn [rbind]. cbv zeta.
  destruct (cav_files t) as [[cavi [fld [thin mlp]]]|].
  - match goal with |- rbind ?a _ = _ => destruct a as [axis|] end; [|reflexivity]. cbn [rbind].
    match goal with |- rbind ?a _ = _ => destruct a as [ml|] end; [|reflexivity]. cbn [rbind].
    match goal with |- rbind ?a _ = _ => destruct a as [lat|] end; reflexivity.
  - destruct (String.eqb t "Generic"); [|reflexivity].
    match goal with |- rbind ?a _ = _ => destruct a as [df|] end; [|reflexivity]. cbn [rbind].
    match goal with |- rbind ?a _ = _ => destruct a as [[conf|]|] end; [|reflexivity|reflexivity]. cbn [rbind].
    match goal with |- rbind ?a _ = _ => destruct a as [Es|] end; [|reflexivity]. cbn [rbind].
    match goal with |- rbind ?a _ = _ => destruct a as [[lat syn]|] end; [|reflexivity]. cbn [rbind].
    match goal with |- rbind ?a _ = _ => destruct a as [Ez|] end; [|reflexivity]. cbn [rbind].
    match goal with |- rbind ?a _ = _ => destruct a as [tt|] end; reflexivity.
Qed.
Notation w' := (with_cavities w files).
Lemma cav_ref_turn p : w_cav_ref w' c' p = rto (fun '(q, x) => (q, x + d)) (w_cav_ref w' c p).
Proof. cbn [w_cav_ref with_cavities]. rewrite load_turn. destruct (load_cavity w files c) as [cv|]; [|reflexivity]. cbn [rto rbind]. apply long_turn. Qed.
Lemma cav_one_turn phi p M0 : w_cav_one w' c' (phi + d) p M0 = w_cav_one w' c phi p M0.
Proof.
  cbn [w_cav_one with_cavities]. rewrite load_turn. destruct (load_cavity w files c) as [cv|]; [|reflexivity]. cbn [rto]. apply init_turn.
  apply num_of_same. discriminate.
Qed.
Lemma cav_growth_turn ref p_in p m x : w_cav_growth w' c' ref p_in p m x = w_cav_growth w' c ref p_in p m x.
Proof.
  cbn [w_cav_growth with_cavities]. rewrite load_turn. destruct (load_cavity w files c) as [cv|]; [|reflexivity]. cbn [rto].
  change (cv_eg (turn cv)) with (cv_eg cv). destruct (N.eqb _ 0); [reflexivity|]. apply growth_turn.
Qed.
Lemma ctor_turn : mom_ctor w' KRFCavity c' = mom_ctor w' KRFCavity c.
Proof.
  unfold mom_ctor. cbv zeta. unfold num_def. rewrite !(proj1 T) by discriminate. cbn [w_cav_ctor with_cavities]. rewrite load_turn.
  destruct (load_cavity w files c); reflexivity.
Qed.
Lemma cells_turn len phi ps : forall tm, cav_cells w' c' len (phi + d) ps tm = cav_cells w' c len phi ps tm.
Proof.
  induction ps as [|p ps IH]; intros tm; [reflexivity|]. destruct tm as [|M tm]; [reflexivity|]. cbn [cav_cells]. unfold cav_cell.
  rewrite cav_one_turn, IH. reflexivity.
Qed.
Lemma forward_turn ref p_in p M IM Tm v m : cav_forward w' c' ref p_in p M IM Tm v m = cav_forward w' c ref p_in p M IM Tm v m.
Proof. unfold cav_forward. cbv zeta. rewrite cav_growth_turn. reflexivity. Qed.
Lemma calc_turn s s' : (forall x, calc_rms w' (mkMS (ms_pos s) (ms_ref s) (ms_real s) (ms_m0 s) (ms_m1 s) (ms_tm s) (ms_env0 s) (ms_rms s) (ms_env1 s) x) =
    rto (fun t => mkMS (ms_pos t) (ms_ref t) (ms_real t) (ms_m0 t) (ms_m1 t) (ms_tm t) (ms_env0 t) (ms_rms t) (ms_env1 t) x) (calc_rms w' s)) /\
  (calc_rms w' s = Ok s' -> ms_phi0 s' = ms_phi0 s).
Proof.
  unfold calc_rms. cbn [ms_pos ms_ref ms_real ms_m0 ms_m1 ms_tm ms_env0 ms_rms ms_env1].
  destruct (_ && _)%bool; [split; [reflexivity|discriminate]|]. destruct (_ || _)%bool; [split; [reflexivity|discriminate]|].
  split; [reflexivity|]. intros H. apply (f_equal (fun r => match r with Ok x => x | Throw _ => s' end)) in H. rewrite <- H. reflexivity.
Qed.
Lemma fmod_turn x y : exists k, fmod (x + 360 * IZR y) 360 = fmod x 360 + 360 * IZR k.
Proof.
  unfold fmod. cbv zeta. set (a := if Rle_dec 0 ((x + 360 * IZR y) / 360) then _ else _). set (b := if Rle_dec 0 (x / 360) then _ else _).
  exists (y - a + b)%Z. rewrite plus_IZR, minus_IZR. ring.
Qed.
Lemma advance_turn e0 s e f e' f' : fresh e0 -> advance_cav w' c e0 false s = (e, Ok f) -> advance_cav w' c' e0 false s = (e', Ok f') -> same_but_turns f f'.
Proof.
  intros F H H'. rewrite cav_eq in H, H' by (apply fresh_miss; auto). unfold cav_miss in H, H'. cbv zeta in H, H'.
  rewrite cav_ref_turn in H'. destruct (w_cav_ref w' c _) as [[ref phi]|]; [|discriminate]. cbn [rto] in H'.
  rewrite cells_turn in H'. destruct (cav_cells w' c _ phi _ _) as [tm [reals|]]; [|discriminate].
  match type of H with context [cav_misalign ?x ref reals] =>
    match type of H' with context [cav_misalign ?y ref reals] => change (cav_misalign y ref reals) with (cav_misalign x ref reals) in H';
      destruct (cav_misalign x ref reals) as [mis [ex|]]; [discriminate|] end end.
  unfold cav_apply in H, H'. cbv zeta in H, H'. cbn [with_out with_mis with_tm with_phi note_input with_in md_real_in md_tm md_mis md_phi md_len negb] in H, H'.
  destruct (_ || _)%bool; [discriminate|].
  match type of H with context [map ?g (combine ?a ?b)] => set (outs := map g (combine a b)) in H end.
  match type of H' with context [map ?g (combine ?a ?b)] => assert (EO : map g (combine a b) = outs) end.
  { apply map_ext. intros (pi & p & [[M IM] T'] & v & m). apply forward_turn. }
  rewrite EO in H'. apply pair_eq in H as [_ H]. apply pair_eq in H' as [_ H'].
  apply rbind_ok in H as (m0 & M0 & H). apply rbind_ok in H as (m1 & M1 & H). apply rbind_ok in H as (tm' & M2 & H).
  rewrite M0 in H'. cbn [rbind] in H'. rewrite M1 in H'. cbn [rbind] in H'. rewrite M2 in H'. cbn [rbind] in H'.
  match type of H with calc_rms _ ?x = _ => set (s0 := x) in H; match type of H' with calc_rms _ ?y = _ =>
    pose proof (proj1 (calc_turn s0 f) (ms_phi0 y) : calc_rms w' y = _) as E0; rewrite E0 in H'; clear E0; cbn [ms_phi0] in H' end end.
  rewrite H in H'. cbn [rto] in H'. apply (f_equal (fun r => match r with Ok x => x | Throw _ => f' end)) in H'. rewrite <- H'.
  unfold same_but_turns. cbn [ms_pos ms_ref ms_real ms_m0 ms_m1 ms_tm ms_env0 ms_rms ms_env1 ms_phi0]. repeat (split; [reflexivity|]).
  rewrite (proj2 (calc_turn s0 f) H). unfold s0. cbn [ms_phi0].
  replace ((phi + d) * 180 / PI) with (phi * 180 / PI + 360 * IZR n) by (unfold d; field; apply PI_neq0). apply fmod_turn.
Qed.
Lemma goes_turn s f f' : sane w' -> is_a "rfcavity" c -> goes_through w' c s f -> goes_through w' c' s f' -> same_but_turns f f'.
Proof.
  intros W HK G G'. destruct (through_step _ _ _ _ W G) as (A & k & e & a & Hk & HC & EA). destruct (through_step _ _ _ _ W G') as (_ & k' & e' & a' & Hk' & HC' & EA').
  assert (k = KRFCavity) as -> by (eapply kind_one; [exact Hk|exact HK]).
  assert (HK' : is_a "rfcavity" c') by (unfold is_a in *; rewrite (proj1 T) by discriminate; exact HK).
  assert (k' = KRFCavity) as -> by (eapply kind_one; [exact Hk'|exact HK']). cbn [advance_of] in EA, EA'.
  rewrite ctor_turn, HC in HC'. injection HC' as <-. eapply advance_turn; eauto. eapply ctor_fresh; eauto.
Qed.
End M.
End Turn.
