(** What a particle does in a cavity with two gaps (quarter and half wave
    resonators), piece by piece. *)
From Coq Require Import Reals List String Bool NArith.
From Verif Require Import Mat Machine_Model Moment_Model Cavity_Model Cavity_Spec Cavity3_Spec.
Import ListNotations.
Open Scope R_scope.
Open Scope string_scope.
Open Scope list_scope.

(** The types: the label of the fits and the radius in mm. *)
Definition two_gaps : list (nat * (nat * R)) :=
  [(1%nat, (41%nat, 17)); (2%nat, (85%nat, 17)); (3%nat, (29%nat, 20)); (4%nat, (53%nat, 20)); (5%nat, (53%nat, 20))].

Section Cavity.
Variables (cv : cavity) (p : particle) (scl Rm : R).
(** The transit time factors of a multipole. *)
Definition factors (name : string) (k : R) : R * R :=
  match transit_multipole cv ("CaviMlp_" ++ name)%string k with Ok x => x | Throw _ => (0, 0) end.
(** The gain of energy in a gap in MeV, and its slope. *)
Definition gain (t : ttf) (a : R) : R := p_Z p * t_V0 t * (t_T t * cos a - t_S t * sin a).
Definition slope (t : ttf) (a : R) : R := - (p_Z p * t_V0 t * (t_T t * sin a + t_S t * cos a)).

(** Energies before, between and after the gaps, and the phase in the middle; [len] is
    half the length. *)
Record ways := mkWays { e0 : R; e1 : R; e2 : R; gap1 : ttf; gap2 : ttf; f0 : R; f1 : R }.
Definition on_its_way (label : nat) (len : R) (x : ways) : Prop :=
  let k0 := wave_at cv p (e0 x) in
  let k1 := wave_at cv p (e1 x) in
  let g := gap1 x in
  let a := f0 x + k0 * t_Ecen g in
  trans_facts cv label (beta_at p (e0 x)) k0 1 scl = Ok g /\
  e1 x = e0 x + 1000000 * gain g a /\
  f1 x = a + k1 * (len - t_Ecen g) +
         p_Z p * t_V0 g * k0 * (t_Tp g * sin a + t_Sp g * cos a) / (2 * ((e0 x - p_Es p) / 1000000)) /\
  trans_facts cv label (beta_at p (e1 x)) k1 2 scl = Ok (gap2 x) /\
  e2 x = e1 x + 1000000 * gain (gap2 x) (f1 x + k1 * t_Ecen (gap2 x)).
Definition energy_in (x : ways) (i : nat) : R := match i with 0%nat => e0 x | 1%nat => e1 x | _ => e2 x end.

(** ** Transverse motion *)
Variable x : ways.
(** The first half of the cavity is the mirror image of the second. *)
Definition twin (t : string) : string :=
  if String.eqb t "EFocus1" then "EFocus2" else if String.eqb t "EFocus2" then "EFocus1" else t.
(** A multipole of type [t] sees phase [F]: in the first half its mirror image sees
    it backwards.  The phase advance is the average over the half. *)
Definition mean_wave (i : nat) : R := (wave_at cv p (energy_in x i) + wave_at cv p (energy_in x (S i))) / 2.
Definition e_field (ahead : bool) (t : string) (F : R) : R :=
  let (T, S') := if ahead then factors (twin t) (mean_wave 0) else factors t (mean_wave 1) in
  let F := if ahead then - F else F in
  T * cos F - S' * sin F.
Definition h_field (ahead : bool) (t : string) (F : R) : R :=
  let (T, S') := if ahead then factors (twin t) (mean_wave 0) else factors t (mean_wave 1) in
  let F := if ahead then - F else F in
  T * sin F + S' * cos F.
(** The kicks at relative velocity [b] and energy [g] over rest energy. *)
Definition e_strength (P : rawp) (b g : R) (ahead : bool) (F : R) : R :=
  qV p scl P * e_field ahead (r_type P) F / (b ^ 2 * g * 931.49432).
Definition h_strength (P : rawp) (b g : R) (ahead : bool) (F : R) : R :=
  4 * PI * 1e-7 * 299792458 * qV p scl P * h_field ahead (r_type P) F / (b * g * 931.49432).

(** Where the particle is: gaps passed, phase, and the velocity and energy that count
    for the kicks.  These are those behind the last gap; but from a magnetic
    quadrupole on, up to the next gap, the mean over the half. *)
Record place := mkPlace { passed : nat; phase : R; vel : R; gam : R }.
Definition mean_of (f : R -> R) (ahead : bool) : R :=
  let i := if ahead then 0%nat else 1%nat in (f (energy_in x i) + f (energy_in x (S i))) / 2.
Definition next_place (P : rawp) (ahead : bool) (h : place) : place :=
  if String.eqb (r_type P) "drift" then
    mkPlace (passed h) (phase h + wave_at cv p (energy_in x (passed h)) * r_len P) (vel h) (gam h)
  else if String.eqb (r_type P) "HQuad" then
    if N.leb 2 (cv_mp cv) then mkPlace (passed h) (phase h) (mean_of (beta_at p) ahead) (mean_of (gamma_at p) ahead) else h
  else if String.eqb (r_type P) "AccGap" then
    let n := S (passed h) in
    mkPlace n (phase h) (beta_at p (energy_in x n)) (gamma_at p (energy_in x n))
  else h.
Definition through2 (P : rawp) (ahead : bool) (h : place) (r : ray) : ray :=
  let e := e_strength P (vel h) (gam h) ahead (phase h) in
  let m := h_strength P (vel h) (gam h) ahead (phase h) in
  let q := h_strength P (mean_of (beta_at p) ahead) (mean_of (gamma_at p) ahead) ahead (phase h) in
  let when (n : N) (r1 : ray) := if N.leb n (cv_mp cv) then r1 else r in
  if String.eqb (r_type P) "drift" then drifted_by (r_len P) r
  else if (String.eqb (r_type P) "EFocus1" || String.eqb (r_type P) "EFocus2")%bool then lens_by (e / Rm) (e / Rm) r
  else if String.eqb (r_type P) "EDipole" then when 1%N (kick_by e r)
  else if String.eqb (r_type P) "EQuad" then when 2%N (lens_by (e / Rm) (- (e / Rm)) r)
  else if String.eqb (r_type P) "HMono" then when 2%N (lens_by (m / Rm) (m / Rm) r)
  else if String.eqb (r_type P) "HDipole" then when 1%N (kick_by m r)
  else if String.eqb (r_type P) "HQuad" then when 2%N (lens_by (q / Rm) (- (q / Rm)) r)
  else damp_by (if ahead then momentum_at p (e0 x) / momentum_at p (e1 x) else momentum_at p (e1 x) / momentum_at p (e2 x)) r.
(** [s] is the position of the end of the piece before; the middle is at 0. *)
Definition is_ahead (s : R) : bool := if Rlt_dec s 0 then true else false.
Fixpoint through2_all (l : list rawp) (s : R) (h : place) (r : ray) : ray :=
  match l with
  | [] => r
  | P :: l' => let a := is_ahead (s + r_len P) in
               through2_all l' (s + r_len P) (next_place P a h) (through2 P a h r)
  end.
Definition at_entry : place := mkPlace 0 (f0 x) (beta_at p (e0 x)) (gamma_at p (e0 x)).
(** In which halves the gaps are. *)
Fixpoint gap_halves (l : list rawp) (s : R) : list bool :=
  match l with
  | [] => []
  | P :: l' => (if String.eqb (r_type P) "AccGap" then [is_ahead (s + r_len P)] else []) ++ gap_halves l' (s + r_len P)
  end.

(** ** Longitudinal motion *)
(** Deviations of phase and energy (MeV) through a drift and a gap. *)
Definition slide (W L : R) (d : R * R) : R * R :=
  (fst d - 2 * PI / (299792458 * 1000 / cv_f cv) * (L * 1000000 / (p_Es p * momentum_at p W ^ 3)) * snd d, snd d).
Definition push (t : ttf) (a : R) (d : R * R) : R * R := (fst d, snd d + slope t a * fst d).
Definition deviations (len : R) (d : R * R) : R * R :=
  let z1 := t_Ecen (gap1 x) in
  let z2 := t_Ecen (gap2 x) in
  slide (e2 x) (len - z2) (push (gap2 x) (f1 x + mean_wave 1 * z2)
    (slide (e1 x) (z2 - (z1 - len)) (push (gap1 x) (f0 x + mean_wave 0 * z1) (slide (e0 x) z1 d)))).
End Cavity.

(** ** Tables *)
(** Not empty and no row with less than [n] entries. *)
Definition wide (n : nat) (rows : list (list R)) : Prop := rows <> [] /\ Forall (fun r => (n <= List.length r)%nat) rows.
(** The types with data files of their own, and how these are called. *)
Definition named_types : list (string * string) :=
  [("0.041QWR", "41"); ("0.085QWR", "85"); ("0.29HWR", "29"); ("0.53HWR", "53")].
