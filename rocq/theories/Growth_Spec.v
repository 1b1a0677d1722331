(** Emittance growth in RF cavities. *)
From Coq Require Import Reals List String Bool NArith.
From Coquelicot Require Import Coquelicot.
From Verif Require Import Mat Machine_Model Moment_Model Cavity_Model Cavity_Spec.
Import ListNotations.
Open Scope R_scope.
Open Scope string_scope.
Open Scope list_scope.

(** ** A beam with a spread of phases *)
(** The mean of [h] over phases that are spread with density (15/16)(1-u^2)^2 over [-D, D]. *)
Definition density (u : R) : R := 15 / 16 * (1 - u ^ 2) ^ 2.
Definition mean (D : R) (h : R -> R) : R := RInt (fun u => density u * h (D * u)) (-1) 1.
Definition variance (D : R) (h : R -> R) : R := mean D (fun d => (h d - mean D h) ^ 2).

(** ** The growth *)
Section Growth.
Variables (cv : cavity) (ref a b : particle).   (* the reference, the charge state before and after *)
(** Mean velocity and energy; the voltage from the gain of energy, none for a rebuncher. *)
Definition mid_beta : R := (p_beta a + p_beta b) / 2.
Definition mid_gamma : R := (p_gamma a + p_gamma b) / 2.
Definition voltage : R :=
  let c := cos (cv_phi cv) in
  if (if Rlt_dec (-1 / 10000) c then if Rlt_dec c (1 / 10000) then true else false else false)
  then 0 else (p_W b - p_W a) / (p_Z ref * c).
(** The wave length in mm, and the focusing per mm that goes with the voltage. *)
Definition wave_length : R := 299792458 * 1000 / cv_f cv.
Definition focusing : R :=
  PI * Rabs (p_Z ref) * voltage / (p_Es ref * (mid_beta * mid_gamma) ^ 2 * (p_beta b * p_gamma b) * wave_length).
(** What is added to the mean square of an angle, where the focusing differs with the
    phase; [r2] is the mean square of the position. *)
Definition added (D r2 : R) : R := focusing ^ 2 * variance D (fun d => sin (cv_phi cv + d)) * r2.
(** What is added to the mean square of the energy (MeV). *)
Definition added_energy (D : R) : R :=
  let k := 2 * PI / (mid_beta * wave_length) in
  let per_MeV := 1000000 / ((mid_gamma - 1) * p_Es ref) in
  (2 * focusing * mid_gamma ^ 2 * D * (D / k) / per_MeV) ^ 2 * (cos (cv_phi cv) ^ 2 / 8 + D * sin (cv_phi cv) / 576).
End Growth.

(** The covariance [S] carried along by [T]. *)
Definition carried_by (T S : mat) (i k : nat) : R := sumn 7 (fun a => T i a * sumn 7 (fun b => S a b * T k b)).
(** Rows and columns of the angles and the energy stretched. *)
Definition stretch (gx gy gz : R) (i : nat) : R := match i with 1%nat => gx | 3%nat => gy | 5%nat => gz | _ => 1 end.
