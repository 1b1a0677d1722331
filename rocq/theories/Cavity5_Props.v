(** C74, C75: the phase an RF cavity is driven at and the transit time factors of its
    gaps and multipoles, in exact arithmetic.  Also parts of C66. *)
From Coq Require Import Reals List String Bool NArith ZArith Lia Lra.
From Verif Require Import SMap Dbl Config_Spec Mat Machine_Model Moment_Model Moment_Spec Moment2_Proofs Cavity_Model Cavity_Spec Cavity5_Proofs Cavity14_Proofs
  Cavity5_Spec Cavity15_Proofs Cavity16_Proofs Cavity17_Proofs Cavity18_Proofs.
Import ListNotations.
Open Scope R_scope.
Open Scope string_scope.
Open Scope list_scope.

(** ** C74 *)
(** Cavities of the four types with a name are driven such that the phase at the
    entrance is the given one, less the phase of the greatest gain at that energy. *)
Theorem C74_named_types : forall w files c ref ref' F, w_cav_ref (with_cavities w files) c ref = Ok (ref', F) ->
  forall t a b d, tfind "cavtype" c = Some (TStr t) -> In (t, (a, b, d)) sync_fits -> 1 <= real_at (w_num w) c "syncflag" 1 ->
  0 < energy_MeV ref /\ entry_phase (w_num w) c ref F = phi_given (w_num w) c - sine_fit a b d (energy_MeV ref).
Proof. exact entry_named. Qed.
Print Assumptions C74_named_types.
Example C74_named_types_ex : let w := world0 num01 true in exists ref' F,
  w_cav_ref (with_cavities w files5) cavity5 slow = Ok (ref', F) /\ tfind "cavtype" cavity5 = Some (TStr "0.041QWR") /\
  In ("0.041QWR", (4.394, - 0.4965, - 4.731)) sync_fits /\ 1 <= real_at (w_num w) cavity5 "syncflag" 1.
Proof.
  destruct (named5 true) as (p' & F & H). exists p', F. split; [exact H|]. split; [reflexivity|]. split; [left; reflexivity|].
  change (real_at (w_num (world0 num01 true)) cavity5 "syncflag" 1) with 1. lra.
Qed.

(** For a Generic cavity the fit is numbers 21 to 23 of the first gap in its file, the
    last of them with its sign changed. *)
Theorem C74_first_gap : forall w files c ref ref' F, w_cav_ref (with_cavities w files) c ref = Ok (ref', F) ->
  forall conf l, data_file w files c conf -> gap_numbers conf l -> 1 <= real_at (w_num w) c "syncflag" 1 ->
  real_at (w_num w) c "syncflag" 1 <> 1 \/ ~ has_peaks conf ->
  0 < energy_MeV ref /\ exists a b d, nth_error l 20 = Some a /\ nth_error l 21 = Some b /\ nth_error l 22 = Some d /\
    entry_phase (w_num w) c ref F = phi_given (w_num w) c - sine_fit (w_num w a) (w_num w b) (- w_num w d) (energy_MeV ref).
Proof. exact entry_gap. Qed.
Print Assumptions C74_first_gap.
Example C74_first_gap_ex : let w := world0 num01 true in let files := files_of (Some conf7) in exists ref' F,
  w_cav_ref (with_cavities w files) cavity1 slow = Ok (ref', F) /\ data_file w files cavity1 conf7 /\
  gap_numbers conf7 (repeat done 23) /\ 1 <= real_at (w_num w) cavity1 "syncflag" 1 /\ ~ has_peaks conf7.
Proof.
  destruct (ref7 true) as (p' & F & H). exists p', F. split; [exact H|]. split; [apply data7|]. split; [apply gap7|].
  split; [|apply peaks7]. change (real_at (w_num (world0 num01 true)) cavity1 "syncflag" 1) with 1. lra.
Qed.

(** If the file has RefNorm and SyncFit and syncflag is 1, the fit is by peaks. *)
Theorem C74_by_peaks : forall w files c ref ref' F, w_cav_ref (with_cavities w files) c ref = Ok (ref', F) ->
  forall conf x P, data_file w files c conf -> tfind "RefNorm" conf = Some (TNum x) -> tfind "SyncFit" conf = Some (TVec P) ->
  (Z.of_nat (List.length P) <= 2147483647)%Z -> real_at (w_num w) c "syncflag" 1 = 1 ->
  w_num w x <> 0 /\ Nat.modulo (List.length P) 5 = 0%nat /\
  entry_phase (w_num w) c ref F = phi_given (w_num w) c - peak_fit (real_at (w_num w) c "scl_fac" 0 * p_Z ref / w_num w x) (energy_MeV ref) (map (w_num w) P).
Proof. exact entry_peaks. Qed.
Print Assumptions C74_by_peaks.
Example C74_by_peaks_ex : let w := world0 num01 true in let files := files_of (Some conf8) in exists ref' F,
  w_cav_ref (with_cavities w files) cavity1 slow = Ok (ref', F) /\ data_file w files cavity1 conf8 /\
  tfind "RefNorm" conf8 = Some (TNum done) /\ tfind "SyncFit" conf8 = Some (TVec [dzero; dzero; dzero; done; dzero]) /\
  real_at (w_num w) cavity1 "syncflag" 1 = 1.
Proof.
  destruct (ref8 true) as (p' & F & H). exists p', F. split; [exact H|]. split; [apply data8|]. repeat split; reflexivity.
Qed.

(** With a syncflag below one the cavity is driven at the phase that is given. *)
Theorem C74_phase_as_given : forall w files c ref ref' F, w_cav_ref (with_cavities w files) c ref = Ok (ref', F) ->
  real_at (w_num w) c "syncflag" 1 < 1 -> F = phi_given (w_num w) c.
Proof. exact entry_fixed. Qed.
Print Assumptions C74_phase_as_given.
Example C74_phase_as_given_ex : let w := world0 num01 true in exists ref' F,
  w_cav_ref (with_cavities w files2) cavity2 slow = Ok (ref', F) /\ real_at (w_num w) cavity2 "syncflag" 1 < 1.
Proof.
  destruct (ref2 true slow) as (p' & F & H).
  { unfold passable. split; [cbn; lra|]. split; [apply slow_beta|]. repeat split; cbn; lra. }
  exists p', F. split; [exact H|]. change (real_at (w_num (world0 num01 true)) cavity2 "syncflag" 1) with 0. lra.
Qed.

(** The energy and the phase of the reference particle behind the cavity are those of a
    particle that sees this phase at the entrance. *)
Theorem C74_seen_by_the_reference : forall w files c ref ref' F, w_cav_ref (with_cavities w files) c ref = Ok (ref', F) ->
  forall cv, load_cavity w files c = Ok cv ->
  exists W Fo, boost (w_asserts w) cv ref (p_W ref) (entry_phase (w_num w) c ref F) (real_at (w_num w) c "scl_fac" 0) = Ok (Some (W, Fo)) /\
    p_Ek ref' = W - p_Es ref /\ p_phis ref' = p_phis ref + (Fo - entry_phase (w_num w) c ref F) / harmonic (w_num w) c ref.
Proof. exact entry_counts. Qed.
Print Assumptions C74_seen_by_the_reference.
Example C74_seen_by_the_reference_ex : let w := world0 num01 true in exists ref' F,
  w_cav_ref (with_cavities w files5) cavity5 slow = Ok (ref', F) /\ load_cavity w files5 cavity5 = Ok loaded5.
Proof. destruct (named5 true) as (p' & F & H). exists p', F. split; [exact H|apply load5]. Qed.

(** A reference particle that arrives at another phase leaves with the same energy and
    as much earlier or later as it came; the phase the cavity is driven at follows. *)
Theorem C74_arrival_does_not_matter : forall w files c ref x, 1 <= real_at (w_num w) c "syncflag" 1 ->
  w_cav_ref (with_cavities w files) c (at_phase ref x) =
  match w_cav_ref (with_cavities w files) c ref with
  | Ok (ref', F) => Ok (at_phase ref' (p_phis ref' + (x - p_phis ref)), F - harmonic (w_num w) c ref * (x - p_phis ref))
  | Throw e => Throw e
  end.
Proof. exact arrival. Qed.
Print Assumptions C74_arrival_does_not_matter.
Example C74_arrival_does_not_matter_ex : let w := world0 num01 true in 1 <= real_at (w_num w) cavity5 "syncflag" 1 /\
  exists r, w_cav_ref (with_cavities w files5) cavity5 slow = Ok r.
Proof.
  split; [change (real_at (w_num (world0 num01 true)) cavity5 "syncflag" 1) with 1; lra|].
  destruct (named5 true) as (p' & F & H). exists (p', F). exact H.
Qed.

(** The documentation adds the last number of the fit; it is subtracted. *)
Theorem C74_documented_fit_refuted : exists w files c conf l ref ref' F a b d,
  w_cav_ref (with_cavities w files) c ref = Ok (ref', F) /\ data_file w files c conf /\ ~ has_peaks conf /\ gap_numbers conf l /\
  nth_error l 20 = Some a /\ nth_error l 21 = Some b /\ nth_error l 22 = Some d /\
  entry_phase (w_num w) c ref F <> phi_given (w_num w) c - sine_fit (w_num w a) (w_num w b) (w_num w d) (energy_MeV ref).
Proof. exact C74_documented_fit_refuted_w. Qed.
Print Assumptions C74_documented_fit_refuted.

(** The documentation has growing exponentials of the energy; they are falling ones. *)
Theorem C74_documented_peaks_refuted : exists w files c conf x P ref ref' F,
  w_cav_ref (with_cavities w files) c ref = Ok (ref', F) /\ data_file w files c conf /\
  tfind "RefNorm" conf = Some (TNum x) /\ tfind "SyncFit" conf = Some (TVec P) /\
  entry_phase (w_num w) c ref F <>
    phi_given (w_num w) c - peak_fit_documented (real_at (w_num w) c "scl_fac" 0 * p_Z ref / w_num w x) (energy_MeV ref) (map (w_num w) P).
Proof. exact C74_documented_peaks_refuted_w. Qed.
Print Assumptions C74_documented_peaks_refuted.

(** ** C75 *)
(** When a table of a field gives transit time factors. *)
Theorem C75_tables_that_do : forall rows col half gap K, (exists t, cal_transfac rows (S col) gap K half = Ok t) <->
  has_column col rows /\ (2 <= rows_used rows half)%nat /\ voltage rows col (rows_used rows half) <> 0.
Proof. exact table_iff. Qed.
Print Assumptions C75_tables_that_do.
Example C75_tables_that_do_ex : has_column 1 hill /\ (2 <= rows_used hill false)%nat /\ voltage hill 1 (rows_used hill false) <> 0.
Proof. split; [apply hill_column|]. change (rows_used hill false) with 3%nat. split; [lia|]. rewrite hill_voltage. lra. Qed.

(** They are the even and the odd part of the field, seen from its centre. *)
Theorem C75_from_the_table : forall rows col half gap K t, cal_transfac rows (S col) gap K half = Ok t ->
  of_table rows col (rows_used rows half) (Nat.eqb gap 2) K t.
Proof. exact table_value. Qed.
Print Assumptions C75_from_the_table.
Example C75_from_the_table_ex : exists t, cal_transfac hill 2 2 1 false = Ok t.
Proof. apply hill_ok. Qed.

(** The slopes are the slopes: of the even part always, of the odd part for rows at the
    same distance. *)
Theorem C75_slopes : forall rows col gap half t, (forall K, cal_transfac rows (S col) gap K half = Ok (t K)) ->
  forall K, derivable_pt_lim (fun x => t_T (t x)) K (t_Tp (t K)) /\
    (evenly_spaced rows (rows_used rows half) -> derivable_pt_lim (fun x => t_S (t x)) K (t_Sp (t K))).
Proof. exact table_slopes. Qed.
Print Assumptions C75_slopes.
Example C75_slopes_ex : exists t, (forall K, cal_transfac hill 2 1 K false = Ok (t K)) /\ evenly_spaced hill (rows_used hill false).
Proof.
  exists (fun K => match cal_transfac hill 2 1 K false with Ok t => t | Throw _ => mkTTF 0 0 0 0 0 0 end). split; [|exact hill_even].
  intros K. destruct (hill_ok 1 K) as [t ->]. reflexivity.
Qed.

(** No particle gets more than the field has to give, if the rows are at the same
    distance. *)
Theorem C75_no_more_than_the_field_partial : forall rows col half gap K t, cal_transfac rows (S col) gap K half = Ok t ->
  evenly_spaced rows (rows_used rows half) -> 0 < step rows (rows_used rows half) ->
  t_T t * t_T t + t_S t * t_S t <= 1.
Proof. exact table_bound. Qed.
Print Assumptions C75_no_more_than_the_field_partial.
Example C75_no_more_than_the_field_partial_ex : (exists t, cal_transfac hill 2 1 5 false = Ok t) /\
  evenly_spaced hill (rows_used hill false) /\ 0 < step hill (rows_used hill false).
Proof. split; [apply hill_ok|]. split; [exact hill_even|]. change (rows_used hill false) with 3%nat. rewrite hill_step. lra. Qed.

(** Without that the odd part can be more than all of the field. *)
Theorem C75_uneven_refuted : exists rows K t, cal_transfac rows 2 0 K false = Ok t /\ in_order rows (List.length rows) /\ t_S t < -1.
Proof. exact C75_uneven_refuted_w. Qed.
Print Assumptions C75_uneven_refuted.

(** In the range of a fit the gaps of a cavity type have factors that depend on the
    velocity alone, whatever is in the table, and that are those of a gap. *)
Theorem C75_gap_fits : forall label lo hi L V gap b, In (label, (lo, hi, L, V)) gap_fits -> (gap = 1 \/ gap = 2)%nat -> lo <= b <= hi ->
  exists t, (forall cv K scl, cv_force cv = false -> trans_facts cv label b K gap scl = Ok (scaled_voltage scl t)) /\ fair_gap gap L V t.
Proof. exact gap_fit. Qed.
Print Assumptions C75_gap_fits.
Example C75_gap_fits_ex : In (53%nat, (0.3, 0.6, 250, 2.12878493)) gap_fits /\ 0.3 <= 0.5 <= 0.6 /\ cv_force easy = false.
Proof. split; [right; right; right; left; reflexivity|]. split; [lra|reflexivity]. Qed.

(** Outside, or if told so, they come from the first half of the axis table. *)
Theorem C75_gap_tables : forall cv label b K gap scl t,
  (cv_force cv = true \/ exists lo hi L V, In (label, (lo, hi, L, V)) gap_fits /\ (b < lo \/ hi < b)) ->
  (trans_facts cv label b K gap scl = Ok t <->
   has_column 1 (cv_axis cv) /\ (2 <= rows_used (cv_axis cv) true)%nat /\ voltage (cv_axis cv) 1 (rows_used (cv_axis cv) true) <> 0 /\
   exists t0, of_table (cv_axis cv) 1 (rows_used (cv_axis cv) true) (Nat.eqb gap 2) K t0 /\ t = scaled_voltage scl t0).
Proof. exact gap_table. Qed.
Print Assumptions C75_gap_tables.
Example C75_gap_tables_ex : cv_force loaded5 = true /\ exists t, trans_facts loaded5 41 1 1 1 1 = Ok t.
Proof. split; [reflexivity|]. destruct (facts5 1 1 1) as (c & T & E & _); [left; reflexivity|]. eauto. Qed.

(** In the range of a fit multipoles have factors that depend on the wave number alone:
    more than half of the field is seen, next to none of it odd. *)
Theorem C75_multipole_fits : forall cavi lo hi name col sgn K, In (cavi, (lo, hi)) multipole_fits -> In (name, (col, sgn)) multipoles ->
  ~ no_dipole_fit cavi name -> lo <= K <= hi ->
  exists T X, (forall cv, cv_cavi cv = cavi -> cv_force cv = false -> transit_multipole cv ("CaviMlp_" ++ name) K = Ok (T, X)) /\
    1 / 2 <= sgn * T <= 0.9985 /\ - (1 / 20) <= X <= 1 / 20 /\ T * T + X * X < 1.
Proof. exact multipole_fit. Qed.
Print Assumptions C75_multipole_fits.
Example C75_multipole_fits_ex : In (2%nat, (0.006, 0.035)) multipole_fits /\ In ("EQuad", (4%nat, 1)) multipoles /\
  ~ no_dipole_fit 2 "EQuad" /\ 0.006 <= 0.02 <= 0.035.
Proof. split; [right; left; reflexivity|]. split; [cbn; tauto|]. split; [intros [[?|?] _]; discriminate|lra]. Qed.

(** Half wave resonators have no fit of dipoles. *)
Theorem C75_no_dipole_fits : forall cavi lo hi name cv K, In (cavi, (lo, hi)) multipole_fits -> no_dipole_fit cavi name -> lo <= K <= hi ->
  cv_cavi cv = cavi -> cv_force cv = false -> transit_multipole cv ("CaviMlp_" ++ name) K = Throw RuntimeError.
Proof. exact multipole_none. Qed.
Print Assumptions C75_no_dipole_fits.
Example C75_no_dipole_fits_ex : In (3%nat, (0.01687155, 0.0449908)) multipole_fits /\ no_dipole_fit 3 "EDipole" /\ 0.01687155 <= 0.02 <= 0.0449908.
Proof. split; [right; right; left; reflexivity|]. split; [split; left; reflexivity|lra]. Qed.

(** Outside, or if told so, the factors of a multipole come from its column of the
    whole table. *)
Theorem C75_multipole_tables : forall cv name col sgn K T X, In (name, (col, sgn)) multipoles ->
  (cv_force cv = true \/ exists lo hi, In (cv_cavi cv, (lo, hi)) multipole_fits /\ (K < lo \/ hi < K)) ->
  (transit_multipole cv ("CaviMlp_" ++ name) K = Ok (T, X) <->
   has_column col (cv_mlp cv) /\ (2 <= List.length (cv_mlp cv))%nat /\ voltage (cv_mlp cv) col (List.length (cv_mlp cv)) <> 0 /\
   T = even_part (cv_mlp cv) col (List.length (cv_mlp cv)) K /\ X = odd_part (cv_mlp cv) col (List.length (cv_mlp cv)) K).
Proof. exact multipole_table. Qed.
Print Assumptions C75_multipole_tables.
Example C75_multipole_tables_ex : In ("HQuad", (7%nat, -1)) multipoles /\ cv_force loaded5 = true /\
  exists x, transit_multipole loaded5 "CaviMlp_HQuad" 1 = Ok x.
Proof. split; [cbn; tauto|]. split; [reflexivity|]. exact (multi5 "CaviMlp_HQuad" 1 8 eq_refl). Qed.

(** ** C66 *)
(** A piece of the type the documentation has for magnetic focusing stops the particle
    with an error. *)
Theorem C66_documented_types_refuted : exists w files c conf es ref' F T,
  data_file w files c conf /\ tfind "elements" conf = Some (TCfgs es) /\
  Forall (fun e => In (str_at e "type" "") ["drift"; "HFocus"; "AccGap"]) es /\
  w_cav_ref (with_cavities w files) c slow = Ok (ref', F) /\ snd (w_cav_one (with_cavities w files) c F slow T) = Throw RuntimeError.
Proof. exact C66_documented_types_refuted_w. Qed.
Print Assumptions C66_documented_types_refuted.

(** What a cavity takes from its entry and, if it is Generic, from its data file. *)
Theorem C66_settings : forall w files c cv, load_cavity w files c = Ok cv ->
  cv_f cv = real_at (w_num w) c "f" 0 /\ cv_phi cv = phi_given (w_num w) c /\
  (cv_force cv = true <-> real_at (w_num w) c "forcettfcalc" 0 <> 0) /\
  (tfind "cavtype" c <> Some (TStr "Generic") -> cv_Rm cv = real_at (w_num w) c "Rm" 0) /\
  (forall conf, data_file w files c conf ->
     cv_Rm cv = real_at (w_num w) conf "Rm" (real_at (w_num w) c "Rm" 0) /\
     (forall r, cv_nrm cv = Some r <-> exists x, tfind "RefNorm" conf = Some (TNum x) /\ r = w_num w x) /\
     (forall P, cv_cx cv = Some P <-> exists l, tfind "SyncFit" conf = Some (TVec l) /\ P = map (w_num w) l)).
Proof. exact settings. Qed.
Print Assumptions C66_settings.
Example C66_settings_ex : let w := world0 num01 true in let files := files_of (Some conf8) in
  load_cavity w files cavity1 = Ok (loaded7 (Some 1) (Some [0; 0; 0; 1; 0])) /\ data_file w files cavity1 conf8.
Proof. split; [apply load8|apply data8]. Qed.
