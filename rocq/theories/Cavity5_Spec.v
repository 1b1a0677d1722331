(** The phase a cavity is driven at, and the transit time factors of its gaps and
    multipoles, stated on their own. *)
From Coq Require Import Reals List String Bool NArith.
From Verif Require Import SMap Dbl Config_Spec Machine_Model Moment_Model Moment_Spec Cavity_Model Cavity_Spec.
Import ListNotations.
Open Scope R_scope.
Open Scope string_scope.
Open Scope list_scope.

(** ** Phases *)
(** How the phase of the greatest gain depends on the energy [E] in MeV: by type
    [a E^b + d]. *)
Definition sync_fits : list (string * (R * R * R)) :=
  [("0.041QWR", (4.394, - 0.4965, - 4.731)); ("0.085QWR", (5.428, - 0.5008, 1.6));
   ("0.29HWR", (22.35, - 0.5348, 2.026)); ("0.53HWR", (41.43, - 0.5775, 2.59839))].
Definition sine_fit (a b d E : R) : R := a * Rpower E b + d.
(** Groups of five numbers, one for each power of the strength [g]. *)
Fixpoint peak_fit (g E : R) (P : list R) : R :=
  match P with
  | a :: b :: c :: d :: e :: P' => (a * Rpower E b + c * ln E + d * exp (- E) + e) + g * peak_fit g E P'
  | _ => 0
  end.
(** The same as the documentation has it. *)
Fixpoint peak_fit_documented (g E : R) (P : list R) : R :=
  match P with
  | a :: b :: c :: d :: e :: P' => (a * Rpower E b + c * ln E + d * exp E + e) + g * peak_fit_documented g E P'
  | _ => 0
  end.
(** The kinetic energy in MeV. *)
Definition energy_MeV (p : particle) : R := (p_W p - p_Es p) / 1000000.
(** The phase of the cavity when a particle enters: the phase of the particle at the
    frequency of the cavity, and the driven phase [F]. *)
Definition harmonic (num : double -> R) (c : tcfg) (p : particle) : R := real_at num c "f" 0 / p_freq p.
Definition entry_phase (num : double -> R) (c : tcfg) (p : particle) (F : R) : R := harmonic num c p * p_phis p + F.
Definition phi_given (num : double -> R) (c : tcfg) : R := real_at num c "phi" 0 * PI / 180.
(** The data file of a Generic cavity. *)
Definition data_file (w : world) (files : cavfiles) (c conf : tcfg) : Prop :=
  tfind "cavtype" c = Some (TStr "Generic") /\ exists n, tfind "datafile" c = Some (TStr n) /\
  cf_gen files (str_at c "Eng_Data_Dir" (w_defpath w) ++ "/" ++ n)%string = Ok (Some conf).
(** The numbers of its first gap. *)
Definition gap_numbers (conf : tcfg) (l : list double) : Prop :=
  exists pre EC post, tfind "elements" conf = Some (TCfgs (pre ++ EC :: post)) /\
    Forall (fun e => ~ is_a "AccGap" e) pre /\ is_a "AccGap" EC /\ vec_at EC "attr" = Some l.
(** The file has what the fit by peaks needs. *)
Definition has_peaks (conf : tcfg) : Prop :=
  (exists x, tfind "RefNorm" conf = Some (TNum x)) /\ exists P, tfind "SyncFit" conf = Some (TVec P).
(** The same particle at another phase. *)
Definition at_phase (p : particle) (x : R) : particle :=
  mkP (p_Z p) (p_Q p) (p_Es p) (p_W p) (p_gamma p) (p_beta p) (p_bg p) (p_freq p) (p_lambda p) (p_K p) x (p_Ek p).

(** ** Transit time factors of a table *)
Section Table.
Variables (rows : list (list R)) (col n : nat) (K : R).
(** Position and field in row [k]; [n] rows count. *)
Definition pos_at (k : nat) : R := nth 0 (nth k rows []) 0.
Definition field_at (k : nat) : R := nth col (nth k rows []) 0.
Definition between (k : nat) : R := (pos_at k + pos_at (S k)) / 2.
Definition mean_at (k : nat) : R := (field_at k + field_at (S k)) / 2.
Definition size_at (k : nat) : R := (Rabs (field_at k) + Rabs (field_at (S k))) / 2.
(** The sum over the intervals, of mean length [step]. *)
Definition over (f : nat -> R) : R := match n with S (S m) => sum_f_R0 f m | _ => 0 end.
Definition step : R := (pos_at (n - 1) - pos_at 0) / INR (n - 1).
(** The voltage, the centre of the field, and positions seen from there. *)
Definition voltage : R := over (fun k => size_at k * step).
Definition centre : R := over (fun k => between k * size_at k * step) / voltage.
Definition off (k : nat) : R := between k - centre.
(** The even and the odd part of what a particle with wave number [K] sees. *)
Definition even_part : R := over (fun k => mean_at k * cos (K * off k) * step) / voltage.
Definition odd_part : R := over (fun k => mean_at k * sin (K * off k) * (pos_at (S k) - pos_at k)) / voltage.
(** Their slopes as computed. *)
Definition even_slope : R := - over (fun k => off k * mean_at k * sin (K * off k) * step) / voltage.
Definition odd_slope : R := over (fun k => off k * mean_at k * cos (K * off k) * step) / voltage.
(** All intervals have the same length. *)
Definition evenly_spaced : Prop := forall k, (S k < n)%nat -> pos_at (S k) - pos_at k = step.
(** Positions increase. *)
Definition in_order : Prop := forall k, (S k < n)%nat -> pos_at k < pos_at (S k).
End Table.
(** The rows have entries in this column. *)
Definition has_column (col : nat) (rows : list (list R)) : Prop := Forall (fun r => (col < List.length r)%nat) rows.
(** The rows that count: all of them, or the first half. *)
Definition rows_used (rows : list (list R)) (half : bool) : nat :=
  if half then Nat.div (List.length rows) 2 else List.length rows.
(** What the table gives, for the gap in it or for its mirror image at the other end. *)
Definition of_table (rows : list (list R)) (col n : nat) (mirror : bool) (K : R) (t : ttf) : Prop :=
  let c := centre rows col n - pos_at rows 0 in
  let s := if mirror then -1 else 1 in
  t_Ecen t = (if mirror then pos_at rows (List.length rows - 1) - c else c) /\
  t_T t = s * even_part rows col n K /\ t_Tp t = s * even_slope rows col n K /\
  t_S t = odd_part rows col n K /\ t_Sp t = odd_slope rows col n K /\
  t_V0 t = voltage rows col n / 1000000000.

(** ** Fits *)
(** Types, the range of velocities they have fits for, their length in mm and the
    voltage of one gap in MV. *)
Definition gap_fits : list (nat * (R * R * R * R)) :=
  [(41%nat, (0.025, 0.08, 120, 0.492385)); (85%nat, (0.05, 0.25, 150, 0.9838574));
   (29%nat, (0.15, 0.4, 150, 1.242518)); (53%nat, (0.3, 0.6, 250, 2.12878493))].
(** What is fitted for a gap: not all of the voltage counts, and less of it the greater
    the wave number; seen from its centre the field is even; the gaps are on either
    side of the middle and see the field with opposite signs. *)
Definition fair_gap (gap : nat) (L V : R) (t : ttf) : Prop :=
  let s := if Nat.eqb gap 1 then -1 else 1 in
  0 < s * t_T t < 1 /\ s * t_Tp t < 0 /\ t_S t = 0 /\ t_Sp t < 0 /\ t_V0 t = V /\
  (if Nat.eqb gap 1 then L / 2 < t_Ecen t < L else 0 < t_Ecen t < L / 2).
(** The same with a field scaled by [s]. *)
Definition scaled_voltage (s : R) (t : ttf) : ttf :=
  mkTTF (t_Ecen t) (t_T t) (t_Tp t) (t_S t) (t_Sp t) (t_V0 t * s).
(** Multipoles: the column of the table, counted from 0, and the sign of the field seen
    by a slow change. *)
Definition multipoles : list (string * (nat * R)) :=
  [("EDipole", (1%nat, -1)); ("EFocus1", (2%nat, -1)); ("EFocus2", (3%nat, 1)); ("EQuad", (4%nat, 1));
   ("HDipole", (5%nat, 1)); ("HMono", (6%nat, 1)); ("HQuad", (7%nat, -1))].
(** Types, and the range of wave numbers (1/mm) they have fits of multipoles for. *)
Definition multipole_fits : list (nat * (R * R)) :=
  [(1%nat, (0.025, 0.055)); (2%nat, (0.006, 0.035)); (3%nat, (0.01687155, 0.0449908)); (4%nat, (0.0112477, 0.0224954))].
(** Half wave resonators have no fits of dipoles. *)
Definition no_dipole_fit (cavi : nat) (name : string) : Prop :=
  (cavi = 3 \/ cavi = 4)%nat /\ (name = "EDipole" \/ name = "HDipole").
