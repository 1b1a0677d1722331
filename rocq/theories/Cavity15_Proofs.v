(** The phase a cavity is driven at. *)
From Coq Require Import Reals List String Bool NArith ZArith Lia Lra.
From Verif Require Import SMap Dbl Config_Spec Mat Machine_Model Util_Model Moment_Model Moment_Spec Moment_Proofs Cavity_Model Cavity_Spec Cavity_Proofs.
From Verif Require Import Cavity2_Proofs Cavity5_Proofs Cavity13_Proofs Cavity14_Proofs Cavity5_Spec Thin_Spec Thin2_Proofs.
Import ListNotations.
Open Scope R_scope.
Open Scope string_scope.
Open Scope list_scope.

(** ** What has been loaded *)
Section Load.
Variables (w : world) (files : cavfiles) (c : tcfg) (cv : cavity).
Notation num := (w_num w).
Hypothesis L : load_cavity w files c = Ok cv.
Lemma num_of_is n x : num_of w c n = Ok x -> num_def w c n 0 = x /\ real_at num c n 0 = x.
Proof.
  unfold num_of, get_num, num_def, real_at, num_at. destruct (tfind n c) as [[]|]; cbn [rbind]; intros H; inversion H; auto.
Qed.
Lemma num_def_is n d : num_def w c n d = real_at num c n d.
Proof. unfold num_def, real_at, num_at. destruct (tfind n c) as [[]|]; reflexivity. Qed.
Lemma load_facts : cv_f cv = real_at num c "f" 0 /\ cv_phi cv = phi_given num c /\
  cv_force cv = negb (Reqb (real_at num c "forcettfcalc" 0) 0) /\
  exists t, tfind "cavtype" c = Some (TStr t) /\
    match cav_files t with
    | Some (k, _) => cv_cavi cv = k /\ cv_Rm cv = real_at num c "Rm" 0
    | None => t = "Generic" /\ cv_cavi cv = 0%nat /\
        forall n conf, tfind "datafile" c = Some (TStr n) -> cf_gen files (str_at c "Eng_Data_Dir" (w_defpath w) ++ "/" ++ n)%string = Ok (Some conf) ->
          cv_Rm cv = real_at num conf "Rm" (real_at num c "Rm" 0) /\
          cv_nrm cv = match tfind "RefNorm" conf with Some (TNum x) => Some (num x) | _ => None end /\
          cv_cx cv = match tfind "SyncFit" conf with Some (TVec x) => Some (map num x) | _ => None end
    end.
Proof.
  revert L. unfold load_cavity. intros L'.
  apply rbind_ok in L' as (f & Hf & L'). apply rbind_ok in L' as (ph & Hp & L'). cbv zeta in L'.
  apply rbind_ok in L' as (mp & _ & L'). apply rbind_ok in L' as (eg & _ & L').
  apply rwhen_ok in L' as [_ L']. apply rwhen_ok in L' as [_ L']. apply rbind_ok in L' as (t & Ht & L').
  apply num_of_is in Hf as [_ Hf]. apply num_of_is in Hp as [_ Hp].
  assert (T : tfind "cavtype" c = Some (TStr t)).
  { unfold get_str in Ht. destruct (tfind "cavtype" c) as [[]|]; try discriminate. injection Ht as ->. reflexivity. }
  destruct (cav_files t) as [[k [fld [thin mlp]]]|] eqn:F.
  - apply rbind_ok in L' as (ax & _ & L'). apply rbind_ok in L' as (ml & _ & L'). apply rbind_ok in L' as (lat & _ & L').
    apply ok_in in L'. subst cv. cbn [cv_f cv_phi cv_force cv_cavi cv_Rm]. rewrite !num_def_is. unfold phi_given. rewrite Hf, Hp.
    repeat split. exists t. rewrite F. auto.
  - destruct (String.eqb_spec t "Generic") as [->|]; [|discriminate].
    apply rbind_ok in L' as (df & Hdf & L'). apply rbind_ok in L' as (o & Ho & L'). destruct o as [conf|]; [|discriminate].
    apply rbind_ok in L' as (Es & HE & L'). apply rbind_ok in L' as ([lat syn] & HP & L'). apply rbind_ok in L' as (Ez & HZ & L').
    apply rbind_ok in L' as (tb & HR & L').
    apply ok_in in L'. subst cv. cbn [cv_f cv_phi cv_force cv_cavi cv_Rm cv_nrm cv_cx]. rewrite !num_def_is. unfold phi_given. rewrite Hf, Hp.
    repeat split. exists "Generic". rewrite F. split; [exact T|]. split; [reflexivity|]. split; [reflexivity|].
    intros n conf' Hn Hc. unfold get_str in Hdf. rewrite Hn in Hdf. injection Hdf as <-.
    change (get_str_def c "Eng_Data_Dir" (w_defpath w)) with (str_at c "Eng_Data_Dir" (w_defpath w)) in Ho.
    rewrite Hc in Ho. injection Ho as <-. split; [|split; reflexivity].
    unfold try_num, real_at, num_at. destruct (tfind "Rm" conf') as [[]|]; reflexivity.
Qed.
End Load.

(** ** Powers *)
Lemma fpow_ok x y z : fpow x y = Ok z -> 0 < x /\ z = Rpower x y.
Proof. unfold fpow. destruct (Rlt_dec 0 x); intros H; inversion H; auto. Qed.
Definition phase_fit (x : string * (R * R * R)) : Prop := let '(t, (a, b, d)) := x in exists k fs, cav_files t = Some (k, fs) /\
  forall cv ref m x, cv_cavi cv = k -> cav_phase cv ref m = Ok x -> 0 < energy_MeV ref /\ x = cv_phi cv - sine_fit a b d (energy_MeV ref) - p_phis ref * m.
Lemma fit_is a b d cv ref m x : rbind (rbind (fpow ((p_W ref - p_Es ref) / MeVtoeV) b) (fun z => Ok (a * z + d))) (fun Fyc => Ok (cv_phi cv - Fyc - p_phis ref * m)) = Ok x ->
  0 < energy_MeV ref /\ x = cv_phi cv - sine_fit a b d (energy_MeV ref) - p_phis ref * m.
Proof.
  intros H. apply rbind_ok in H as (y & H1 & H). apply rbind_ok in H1 as (z & H1 & H2). apply fpow_ok in H1 as [P ->]. apply ok_in in H2. apply ok_in in H.
  subst x y. split; [exact P|reflexivity].
Qed.
Lemma sync_cavi t a b d : In (t, (a, b, d)) sync_fits -> phase_fit (t, (a, b, d)).
Proof.
  generalize (t, (a, b, d)). intros x [<-|[<-|[<-|[<-|[]]]]]; do 2 eexists; (split; [reflexivity|]); intros cv ref m y E H;
    unfold cav_phase in H; rewrite E in H; eapply fit_is; exact H.
Qed.
Lemma complex_cons E g i a b c d e P acc : complex_sum E g i (a :: b :: c :: d :: e :: P) acc =
  match ipow g i with
  | None => Throw Abort
  | Some s => rbind (fpow E b) (fun x => complex_sum E g (i + 1)%Z P (acc + (a * x + c * ln E + d * exp (- E) + e) * s))
  end.
Proof. reflexivity. Qed.
Lemma complex_is E g M : (forall m, (m <= M)%nat -> ipow g (Z.of_nat m) = Some (g ^ m)) -> forall k P acc x n, (List.length P < k)%nat ->
  complex_sum E g (Z.of_nat n) P acc = Ok x -> (n + List.length P <= M)%nat -> x = acc + g ^ n * peak_fit g E P.
Proof.
  intros HM. induction k as [|k IH]; intros P acc x n Hk H Le; [lia|].
  destruct P as [|a [|b [|c [|d [|e P]]]]].
  1-5: cbn in H; apply ok_in in H; subst x; cbn [peak_fit]; ring.
  cbn [List.length] in Hk, Le. rewrite complex_cons, HM in H by lia.
  apply rbind_ok in H as (y & Hy & H). apply fpow_ok in Hy as [Pos ->].
  replace (Z.of_nat n + 1)%Z with (Z.of_nat (S n)) in H by lia. apply IH in H; [|lia|lia]. rewrite H. cbn [pow peak_fit]. ring.
Qed.

(** ** The phase at the entrance *)
Section Entry.
Variables (w : world) (files : cavfiles) (c : tcfg) (ref ref' : particle) (F : R).
Notation num := (w_num w).
Hypothesis G : w_cav_ref (with_cavities w files) c ref = Ok (ref', F).
Lemma ref_inv : exists cv scl, load_cavity w files c = Ok cv /\ propagate_long w cv c ref = Ok (ref', F) /\ driven_phase w cv c ref scl = Ok F /\
  scl = real_at num c "scl_fac" 0.
Proof.
  revert G. unfold with_cavities. cbn [w_cav_ref]. intros G'. apply rbind_ok in G' as (cv & L & G'). destruct (long_inv w cv c ref ref' F G') as (W & Fy & Fy' & scl & D & Sc & _).
  exists cv, scl. apply num_of_is in Sc as [_ Sc]. auto.
Qed.
Lemma entry_named t a b d : tfind "cavtype" c = Some (TStr t) -> In (t, (a, b, d)) sync_fits -> 1 <= real_at num c "syncflag" 1 ->
  0 < energy_MeV ref /\ entry_phase num c ref F = phi_given num c - sine_fit a b d (energy_MeV ref).
Proof.
  intros Ht Hin Hs. destruct ref_inv as (cv & scl & L & _ & D & _). destruct (load_facts w files c cv L) as (Lf & Lp & _ & t' & Ht' & Lc).
  rewrite Ht in Ht'. injection Ht' as <-. destruct (sync_cavi _ _ _ _ Hin) as (k & fs & Hk & Hc). rewrite Hk in Lc. destruct Lc as [Lc _].
  assert (K0 : Nat.eqb k 0 = false).
  { clear - Hin Hk. revert Hin Hk. generalize (a, b, d). intros z. unfold sync_fits. cbn [In].
    intros [X|[X|[X|[X|[]]]]]; apply (f_equal fst) in X; cbn [fst] in X; subst t; intros X; inversion X; reflexivity. }
  unfold driven_phase in D. cbv zeta in D. rewrite Lc, K0 in D. cbn [rbind] in D. rewrite num_def_is in D.
  destruct (Rle_dec 1 (real_at num c "syncflag" 1)) as [_|N]; [|contradiction].
  assert (D' : cav_phase cv ref (cv_f cv / p_freq ref) = Ok F) by exact D.
  destruct (Hc cv ref _ F Lc D') as [P E]. split; [exact P|]. unfold entry_phase, harmonic. rewrite E, Lf, Lp. ring.
Qed.
Lemma generic_data conf : data_file w files c conf -> exists cv scl, load_cavity w files c = Ok cv /\ driven_phase w cv c ref scl = Ok F /\ scl = real_at num c "scl_fac" 0 /\
  cv_f cv = real_at num c "f" 0 /\ cv_phi cv = phi_given num c /\ cv_cavi cv = 0%nat /\
  cv_nrm cv = match tfind "RefNorm" conf with Some (TNum x) => Some (num x) | _ => None end /\
  cv_cx cv = match tfind "SyncFit" conf with Some (TVec x) => Some (map num x) | _ => None end.
Proof.
  intros (Ht & n & Hn & Hc). destruct ref_inv as (cv & scl & L & _ & D & Sc). destruct (load_facts w files c cv L) as (Lf & Lp & _ & t' & Ht' & Lc).
  rewrite Ht in Ht'. injection Ht' as <-. destruct (cav_files "Generic") as [[? ?]|] eqn:X; [discriminate X|]. destruct Lc as (_ & Lc & Y).
  destruct (Y n conf Hn Hc) as (_ & Y1 & Y2). exists cv, scl. auto 12.
Qed.
Lemma entry_gap conf l : data_file w files c conf -> gap_numbers conf l -> 1 <= real_at num c "syncflag" 1 ->
  real_at num c "syncflag" 1 <> 1 \/ ~ has_peaks conf ->
  0 < energy_MeV ref /\ exists a b d, nth_error l 20 = Some a /\ nth_error l 21 = Some b /\ nth_error l 22 = Some d /\
    entry_phase num c ref F = phi_given num c - sine_fit (num a) (num b) (- num d) (energy_MeV ref).
Proof.
  intros Hd (pre & EC & post & He & Hpre & Hec & Hl) Hs Hn. destruct (generic_data conf Hd) as (cv & scl & L & D & Sc & Lf & Lp & Lc & N1 & N2).
  destruct Hd as (Ht & n & Hn' & Hc).
  destruct (generic_loaded w files c cv L Ht) as (df & conf' & Es & Ez & G1 & G2 & G3 & _ & G5 & _).
  rewrite Hn' in G1. injection G1 as <-. unfold str_at in Hc. unfold get_str_def in G2. rewrite Hc in G2. injection G2 as <-. rewrite He in G3. injection G3 as <-.
  destruct G5 as [_ G5]. unfold vec_at in Hl. destruct (tfind "attr" EC) as [[]|] eqn:Ha; try discriminate. injection Hl as ->.
  destruct (G5 pre EC post l eq_refl) as [Len Q]; auto.
  { intros e Hin. rewrite Forall_forall in Hpre. apply Hpre in Hin. exact Hin. }
  destruct (Q 0%nat) as (a & Qa & Sa); [lia|]. destruct (Q 1%nat) as (b & Qb & Sb); [lia|]. destruct (Q 2%nat) as (d & Qd & Sd); [lia|].
  destruct (cv_syn cv) as [|x [|y [|z [|? ?]]]] eqn:Sy; cbn in Len; try lia. cbn [nth_error] in Sa, Sb, Sd. injection Sa as ->. injection Sb as ->. injection Sd as ->.
  assert (D' : cav_phase cv ref (cv_f cv / p_freq ref) = Ok F).
  { unfold driven_phase in D. cbv zeta in D. rewrite Lc in D. cbn [Nat.eqb] in D. apply rbind_ok in D as (u & _ & D). rewrite num_def_is in D.
    destruct (Rle_dec 1 (real_at num c "syncflag" 1)) as [_|N]; [|contradiction].
    destruct (cv_nrm cv) as [nrm|]; [|exact D]. destruct (cv_cx cv) as [P|]; [|exact D].
    assert (X : Reqb (real_at num c "syncflag" 1) 1 = false).
    { unfold Reqb. destruct (Req_EM_T _ 1) as [E|]; auto. exfalso. destruct Hn as [Hn|Hn]; [auto|]. apply Hn. split.
      - destruct (tfind "RefNorm" conf) as [[]|]; try discriminate; eauto.
      - destruct (tfind "SyncFit" conf) as [[]|]; try discriminate; eauto. }
    rewrite X in D. exact D. }
  unfold cav_phase in D'. rewrite Lc, Sy in D'. apply fit_is in D' as [P E]. split; [exact P|]. exists a, b, d.
  split; [exact Qa|]. split; [exact Qb|]. split; [exact Qd|]. unfold entry_phase, harmonic. rewrite E, Lf, Lp. ring.
Qed.
Lemma entry_peaks conf x P : data_file w files c conf -> tfind "RefNorm" conf = Some (TNum x) -> tfind "SyncFit" conf = Some (TVec P) ->
  (Z.of_nat (List.length P) <= 2147483647)%Z -> real_at num c "syncflag" 1 = 1 ->
  num x <> 0 /\ Nat.modulo (List.length P) 5 = 0%nat /\
  entry_phase num c ref F = phi_given num c - peak_fit (real_at num c "scl_fac" 0 * p_Z ref / num x) (energy_MeV ref) (map num P).
Proof.
  intros Hd H1 H2 Hl Hs. destruct (generic_data conf Hd) as (cv & scl & L & D & Sc & Lf & Lp & Lc & N1 & N2). rewrite H1 in N1. rewrite H2 in N2.
  unfold driven_phase in D. cbv zeta in D. rewrite Lc in D. cbn [Nat.eqb] in D. apply rbind_ok in D as (u & _ & D). rewrite num_def_is in D.
  rewrite Hs in D. destruct (Rle_dec 1 1) as [_|N]; [|lra]. rewrite N1, N2 in D. unfold Reqb in D. destruct (Req_EM_T 1 1) as [_|N]; [|lra].
  apply rbind_ok in D as (g & Hg & D). apply rbind_ok in D as (u' & _ & D). unfold fdiv in Hg. destruct (Req_EM_T (num x) 0) as [|Nz]; [discriminate|].
  apply ok_in in Hg. split; [exact Nz|]. unfold cav_phase_complex in D. rewrite map_length in D.
  destruct (Nat.eqb_spec (List.length P mod 5) 0) as [M|]; [|discriminate]. cbn [negb] in D. split; [exact M|].
  apply rbind_ok in D as (y & Hy & D). apply ok_in in D. apply (complex_is _ _ (List.length P)) with (k := S (List.length P)) (n := 0%nat) in Hy;
    [|intros m Hm; apply ipow_power; etransitivity; [|exact Hl]; apply inj_le; exact Hm|rewrite map_length; apply Nat.lt_succ_diag_r|rewrite map_length; apply Nat.le_refl].
  rewrite <- D, Hy, <- Hg, Sc, Lf, Lp. unfold entry_phase, harmonic, energy_MeV, MeVtoeV. cbn [pow]. ring.
Qed.
Lemma entry_fixed : real_at num c "syncflag" 1 < 1 -> F = phi_given num c.
Proof.
  intros Hs. destruct ref_inv as (cv & scl & L & _ & D & _). unfold driven_phase in D. cbv zeta in D. apply rbind_ok in D as (u & _ & D).
  rewrite num_def_is in D. destruct (Rle_dec 1 _) as [N|_]; [lra|]. apply rbind_ok in D as (x & Hx & D). apply num_of_is in Hx as [_ Hx]. apply ok_in in D.
  rewrite <- D. unfold phi_given. rewrite Hx. reflexivity.
Qed.
(** What happens in the cavity depends on that phase alone. *)
Lemma entry_counts cv : load_cavity w files c = Ok cv -> exists W Fo, boost (w_asserts w) cv ref (p_W ref) (entry_phase num c ref F) (real_at num c "scl_fac" 0) = Ok (Some (W, Fo)) /\
  p_Ek ref' = W - p_Es ref /\ p_phis ref' = p_phis ref + (Fo - entry_phase num c ref F) / harmonic num c ref.
Proof.
  intros L. destruct ref_inv as (cv' & scl & L' & Pr & D & Sc). rewrite L in L'. injection L' as <-.
  destruct (long_inv w cv c ref ref' F Pr) as (W & Fy & Fy' & scl' & D' & Sc' & _ & -> & B & ->). apply num_of_is in Sc' as [_ Sc'].
  destruct (load_facts w files c cv L) as (Lf & _). unfold entry_phase, harmonic. rewrite <- Lf, Sc'. exists W, Fy'. split; [exact B|].
  unfold boosted, add_phis, recalc, set_Ek. cbn. split; [reflexivity|]. reflexivity.
Qed.
End Entry.

(** ** When the beam arrives does not matter *)
Section Arrival.
Variables (w : world) (files : cavfiles) (c : tcfg).
Notation num := (w_num w).
Lemma boost_at a cv p x W F scl : boost a cv (at_phase p x) W F scl = boost a cv p W F scl.
Proof. reflexivity. Qed.
Lemma boosted_at p x W d m : boosted (at_phase p x) W d m = at_phase (boosted p W d m) (p_phis (boosted p W d m) + (x - p_phis p)).
Proof. unfold boosted, add_phis, recalc, set_Ek, at_phase. cbn. f_equal. ring. Qed.
Lemma fit_at cv ref m x : rbind (cav_phase cv (at_phase ref x) m) (fun F => Ok (F + m * x)) = rbind (cav_phase cv ref m) (fun F => Ok (F + m * p_phis ref)).
Proof.
  unfold cav_phase. cbv zeta. change (p_W (at_phase ref x)) with (p_W ref). change (p_Es (at_phase ref x)) with (p_Es ref). change (p_phis (at_phase ref x)) with x.
  match goal with |- rbind (rbind ?A _) _ = _ => destruct A as [y|e] end; [|reflexivity]. cbn [rbind]. f_equal. ring.
Qed.
Lemma peak_at cv ref g m P x : rbind (cav_phase_complex cv (at_phase ref x) g m P) (fun F => Ok (F + m * x)) =
  rbind (cav_phase_complex cv ref g m P) (fun F => Ok (F + m * p_phis ref)).
Proof.
  unfold cav_phase_complex. destruct (negb _); [reflexivity|]. change (p_W (at_phase ref x)) with (p_W ref). change (p_Es (at_phase ref x)) with (p_Es ref).
  change (p_phis (at_phase ref x)) with x. destruct (complex_sum _ _ _ _ _) as [y|e]; [|reflexivity]. cbn [rbind]. f_equal. ring.
Qed.
Lemma rbind_shift (A B : res R) a b : rbind A (fun F => Ok (F + a)) = rbind B (fun F => Ok (F + b)) -> A = rbind B (fun F => Ok (F - (a - b))).
Proof.
  destruct A as [x|e], B as [y|e']; cbn [rbind]; intros H; try discriminate; [|congruence]. apply ok_in in H. f_equal. lra.
Qed.
Lemma driven_at cv ref scl x : 1 <= real_at num c "syncflag" 1 ->
  driven_phase w cv c (at_phase ref x) scl = rbind (driven_phase w cv c ref scl) (fun F => Ok (F - cv_f cv / p_freq ref * (x - p_phis ref))).
Proof.
  intros Hs. unfold driven_phase. cbv zeta. rewrite num_def_is. change (p_freq (at_phase ref x)) with (p_freq ref). change (p_Z (at_phase ref x)) with (p_Z ref).
  destruct (if Nat.eqb (cv_cavi cv) 0 then _ else _) as [u|e]; [|reflexivity]. cbn [rbind].
  destruct (Rle_dec 1 _) as [_|N]; [|contradiction].
  assert (P1 := rbind_shift _ _ _ _ (fit_at cv ref (cv_f cv / p_freq ref) x)).
  rewrite <- Rmult_minus_distr_l in P1.
  destruct (Nat.eqb (cv_cavi cv) 0); [|exact P1]. destruct (cv_nrm cv) as [nrm|]; [|exact P1]. destruct (cv_cx cv) as [P|]; [|exact P1].
  destruct (Reqb _ 1); [|exact P1]. destruct (fdiv _ _) as [g|e]; [|reflexivity]. cbn [rbind]. destruct (check_limit _) as [u'|e]; [|reflexivity]. cbn [rbind].
  rewrite (rbind_shift _ _ _ _ (peak_at cv ref g (cv_f cv / p_freq ref) P x)). rewrite <- Rmult_minus_distr_l. reflexivity.
Qed.
Lemma arrival ref x : 1 <= real_at num c "syncflag" 1 ->
  w_cav_ref (with_cavities w files) c (at_phase ref x) =
  match w_cav_ref (with_cavities w files) c ref with
  | Ok (ref', F) => Ok (at_phase ref' (p_phis ref' + (x - p_phis ref)), F - harmonic num c ref * (x - p_phis ref))
  | Throw e => Throw e
  end.
Proof.
  intros Hs. unfold with_cavities. cbn [w_cav_ref]. destruct (load_cavity w files c) as [cv|e] eqn:L; [|reflexivity]. cbn [rbind].
  destruct (load_facts w files c cv L) as (Lf & _). unfold harmonic. rewrite <- Lf. unfold propagate_long. cbv zeta.
  destruct (num_of w c "scl_fac") as [scl|e]; [|reflexivity]. cbn [rbind]. change (p_freq (at_phase ref x)) with (p_freq ref).
  destruct (Req_EM_T (p_freq ref) 0) as [|]; [reflexivity|]. rewrite driven_at by exact Hs. destruct (driven_phase w cv c ref scl) as [F|e]; [|reflexivity]. cbn [rbind].
  change (p_phis (at_phase ref x)) with x. change (p_W (at_phase ref x)) with (p_W ref). rewrite boost_at.
  replace (cv_f cv / p_freq ref * x + (F - cv_f cv / p_freq ref * (x - p_phis ref))) with (cv_f cv / p_freq ref * p_phis ref + F) by ring.
  destruct (boost _ _ _ _ _ _) as [[[W Fo]|]|e]; [|reflexivity|reflexivity]. cbn [rbind]. rewrite boosted_at. reflexivity.
Qed.
End Arrival.
