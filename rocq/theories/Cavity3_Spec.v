(** What a particle does in a cavity of type Generic, piece by piece, in the terms of
    accelerator physics.  Lengths in mm, energies [W] in eV, voltages in MV. *)
From Coq Require Import Reals List String Bool NArith.
From Verif Require Import Mat Moment_Model Cavity_Model Cavity_Spec.
Import ListNotations.
Open Scope R_scope.

Section Cavity.
Variables (cv : cavity) (p : particle) (scl : R).
(** Relative velocity, energy over rest energy, and phase advance per length. *)
Definition beta_at (W : R) : R := sqrt (1 - (p_Es p / W) ^ 2).
Definition gamma_at (W : R) : R := W / p_Es p.
Definition wave_at (W : R) : R := 2 * PI / (beta_at W * (299792458 * 1000 / cv_f cv)).
(** Momentum over rest mass. *)
Definition momentum_at (W : R) : R := beta_at W * gamma_at W.
(** Transit time factors: polynomials in the phase advance, highest power first. *)
Definition Tf (P : rawp) (W : R) : R := poly (wave_at W) (rev (r_T P)).
Definition Sf (P : rawp) (W : R) : R := poly (wave_at W) (rev (r_S P)).
(** Charge times voltage. *)
Definition qV (P : rawp) : R := p_Z p * (r_E0 P * scl).

(** Energy and phase after a piece: drifts advance the phase, gaps change the
    energy. *)
Definition after (P : rawp) (WF : R * R) : R * R :=
  let (W, F) := WF in
  if String.eqb (r_type P) "drift" then (W, F + wave_at W * r_len P)
  else if String.eqb (r_type P) "AccGap" then
    (W + 1000000 * (qV P * (Tf P W * cos F - Sf P W * sin F)), F)
  else (W, F).
Definition after_all (l : list rawp) (WF : R * R) : R * R := fold_left (fun x P => after P x) l WF.

(** ** Transverse motion *)
Record ray := mkRay { x : R; x' : R; y : R; y' : R }.
(** The kicks of electric and magnetic fields. *)
Definition electric (P : rawp) (W F : R) : R :=
  qV P * (Tf P W * cos F - Sf P W * sin F) / (beta_at W * momentum_at W * 931.49432).
Definition magnetic (P : rawp) (W F : R) : R :=
  4 * PI * 1e-7 * 299792458 * qV P * (Tf P W * sin F + Sf P W * cos F) / (momentum_at W * 931.49432).
Definition drifted_by (L : R) (r : ray) : ray := mkRay (x r + L * x' r) (x' r) (y r + L * y' r) (y' r).
(** A lens of strength [a] in x and [b] in y; a vertical kick; damping. *)
Definition lens_by (a b : R) (r : ray) : ray := mkRay (x r) (x' r + a * x r) (y r) (y' r + b * y r).
Definition kick_by (a : R) (r : ray) : ray := mkRay (x r) (x' r) (y r) (y' r + a).
Definition damp_by (a : R) (r : ray) : ray := mkRay (x r) (a * x' r) (y r) (a * y' r).
(** Fields beyond the level of multipoles asked for are left out. *)
Definition through (P : rawp) (W F : R) (r : ray) : ray :=
  let e := electric P W F / cv_Rm cv in
  let h := magnetic P W F / cv_Rm cv in
  let when (n : N) (r1 : ray) := if N.leb n (cv_mp cv) then r1 else r in
  if String.eqb (r_type P) "drift" then drifted_by (r_len P) r
  else if String.eqb (r_type P) "EFocus" then lens_by e e r
  else if String.eqb (r_type P) "EDipole" then when 1%N (kick_by (electric P W F) r)
  else if String.eqb (r_type P) "EQuad" then when 2%N (lens_by e (- e) r)
  else if String.eqb (r_type P) "HMono" then when 2%N (lens_by h h r)
  else if String.eqb (r_type P) "HDipole" then when 1%N (kick_by (magnetic P W F) r)
  else if String.eqb (r_type P) "HQuad" then when 2%N (lens_by h (- h) r)
  else damp_by (momentum_at W / momentum_at (fst (after P (W, F)))) r.
Fixpoint through_all (l : list rawp) (WF : R * R) (r : ray) : ray :=
  match l with
  | [] => r
  | P :: l' => through_all l' (after P WF) (through P (fst WF) (snd WF) r)
  end.

(** ** Longitudinal motion with the transit time factors of one particle *)
Inductive stage := SDrift (L : R) | SGap (a b : R) | SNothing.
Definition stage_of (P : rawp) (W : R) : stage :=
  if String.eqb (r_type P) "drift" then SDrift (r_len P)
  else if String.eqb (r_type P) "AccGap" then SGap (qV P * Tf P W) (qV P * Sf P W)
  else SNothing.
Fixpoint stages (l : list rawp) (WF : R * R) : list stage :=
  match l with
  | [] => []
  | P :: l' => stage_of P (fst WF) :: stages l' (after P WF)
  end.
(** Phase and energy in MeV. *)
Definition moves (s : stage) (FE : R * R) : R * R :=
  let (F, E) := FE in
  match s with
  | SDrift L => (F + wave_at (1000000 * E) * L, E)
  | SGap a b => (F, E + (a * cos F - b * sin F))
  | SNothing => (F, E)
  end.
Definition moves_all (l : list stage) (FE : R * R) : R * R := fold_left (fun x s => moves s x) l FE.
(** The same for the phase of the beam, whose frequency the cavity's is [n] times. *)
Definition beam_moves (n phi : R) (l : list stage) (FE : R * R) : R * R :=
  let y := moves_all l (n * fst FE + phi, snd FE) in ((fst y - phi) / n, snd y).
End Cavity.

(** The derivative of a curve in the phase plane. *)
Definition velocity (c : R -> R * R) (t a b : R) : Prop :=
  derivable_pt_lim (fun s => fst (c s)) t a /\ derivable_pt_lim (fun s => snd (c s)) t b.
(** The vector of a ray; [u] and [v] are the longitudinal components. *)
Definition ray_vec (r : ray) (u v : R) : vec :=
  fun i => nth i [x r; x' r; y r; y' r; u; v; 1] 0.
(** Tables of coefficients short enough for an int. *)
Definition int_tables (l : list rawp) : Prop :=
  Forall (fun P => (N.of_nat (List.length (r_T P)) <= 2147483647 /\ N.of_nat (List.length (r_S P)) <= 2147483647)%N) l.
