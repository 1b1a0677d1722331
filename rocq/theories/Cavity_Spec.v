(** What is said about the RF cavity. *)
From Coq Require Import Reals List String Bool NArith ZArith.
From Verif Require Import SMap Dbl Config_Spec Mat Machine_Model Moment_Model Moment_Spec Cavity_Model.
Import ListNotations.
Open Scope R_scope.

(** ** Polynomials *)
(** The polynomial with the given coefficients, lowest power first. *)
Fixpoint poly (x : R) (l : list R) : R :=
  match l with [] => 0 | a :: l' => a + x * poly x l' end.

(** ** Energy *)
(** The mean field between neighbouring points of the table. *)
Definition mean_fields (fields : list R) : list R :=
  map (fun '(a, b) => (a + b) / 2) (combine fields (tl fields)).
(** The phases and energies a particle passes through by the midpoint rule: phase [F],
    energy [E] and phase advance per length [k] at the start, [q] charge times field
    scale, [wl] the wavelength of the cavity, [h] the step; lengths in mm. *)
Fixpoint track (q Es wl h : R) (F E k : R) (fields : list R) : list (R * R) :=
  match fields with
  | [] => []
  | e :: fields' =>
      let F' := F + k * h in
      let E' := E + q * e * cos ((F + F') / 2) * (h / 1000) in
      (F', E') :: track q Es wl h F' E' (2 * PI / (sqrt (1 - (Es / E') ^ 2) * wl)) fields'
  end.
(** The step of a table. *)
Definition step_of (rows : list (R * R)) : R :=
  (fst (last rows (0, 0)) - fst (hd (0, 0) rows)) / (INR (List.length rows) - 1).
(** Phases and energies of the particle in the cavity. *)
Definition track_in (cv : cavity) (p : particle) (E F scl : R) : list (R * R) :=
  track (p_Z p * scl) (p_Es p) (299792458 * 1000 / cv_f cv) (step_of (cv_data cv))
           F E (2 * PI * cv_f cv / (p_beta p * (299792458 * 1000))) (mean_fields (map snd (cv_data cv))).
(** The particle is above rest at every point of the table but the last. *)
Definition gets_through (cv : cavity) (p : particle) (E F scl : R) : Prop :=
  forall F' E', In (F', E') (removelast (track_in cv p E F scl)) -> p_Es p < E'.
(** The largest energy the field can give or take: charge times integral of the
    field's magnitude. *)
Definition field_integral (cv : cavity) : R :=
  fold_right Rplus 0 (map (fun e => Rabs (e * (step_of (cv_data cv) / 1000))) (mean_fields (map snd (cv_data cv)))).
(** A massive particle in motion, in a cavity with a frequency and a field table. *)
Definition enters (cv : cavity) (p : particle) (E : R) : Prop :=
  0 < p_Es p /\ 0 < p_beta p /\ p_Es p <= E /\ cv_f cv <> 0 /\ (2 <= List.length (cv_data cv))%nat.

(** ** Matrices *)
(** The plane of a component of a centroid: horizontal, vertical, longitudinal, and
    the constant. *)
Definition plane (i : nat) : nat := match i with 0 | 1 => 0 | 2 | 3 => 1 | 4 | 5 => 2 | _ => 3 end%nat.
(** The planes do not mix, nothing enters from the constant but a vertical kick, and
    the constant stays. *)
Definition uncoupled (M : mat) : Prop :=
  (forall i j, (i < 7)%nat -> (j < 7)%nat -> plane i <> plane j -> ~ (plane i = 1%nat /\ j = 6%nat) -> M i j = 0) /\
  M 6%nat 6%nat = 1.
(** The determinant of the block of the plane that starts with component [i]. *)
Definition det_at (M : mat) (i : nat) : R := M i i * M (S i) (S i) - M i (S i) * M (S i) i.
(** The matrix of a cavity: both transverse planes shrink alike, and the
    longitudinal plane keeps its area. *)
Definition cav_shape (M : mat) : Prop :=
  uncoupled M /\ det_at M 0 = det_at M 2 /\ det_at M 0 <> 0 /\ det_at M 4 = 1.

(** ** Data files *)
(** An element of a data file has what its type needs: a piece that is no drift 20
    attributes, a gap 23. *)
Definition proper_piece (EC : tcfg) : Prop :=
  is_a "drift" EC \/
  exists l, vec_at EC "attr" = Some l /\ (20 <= List.length l)%nat /\ (is_a "AccGap" EC -> (23 <= List.length l)%nat).
(** A limit has both its ends. *)
Definition proper_limit (conf : tcfg) (n : string) : Prop :=
  forall l, vec_at conf n = Some l -> (2 <= List.length l)%nat.
Definition proper_data (conf : tcfg) : Prop :=
  (forall l, tfind "elements" conf = Some (TCfgs l) -> Forall proper_piece l /\ Exists (is_a "AccGap") l) /\
  (forall l, vec_at conf "Ez" = Some l -> (4 <= List.length l)%nat) /\
  proper_limit conf "EnergyLimit" /\ proper_limit conf "NormLimit".
(** Files as the program expects them: tables of at least two rows, at most two gaps
    in a thin lens file, proper data files.  They may be missing. *)
Definition proper_files (files : cavfiles) : Prop :=
  (forall n rows, cf_table files n = Ok rows -> (2 <= List.length rows)%nat) /\
  (forall n, cf_thin files n <> Throw BadIndex) /\
  (forall n l, cf_thin files n = Ok l -> (List.length (filter (fun P => String.eqb (r_type P) "AccGap") l) <= 2)%nat) /\
  (forall n, cf_gen files n <> Throw BadIndex) /\
  (forall n conf, cf_gen files n = Ok (Some conf) -> proper_data conf).

(** ** States *)
(** No particle is below rest energy. *)
Definition above_rest (s : mstate) : Prop := 0 <= p_Ek (ms_ref s) /\ Forall (fun p => 0 <= p_Ek p) (ms_real s).
