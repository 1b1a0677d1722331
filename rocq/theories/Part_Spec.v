(** What the text of a state says about particles and signs. *)
From Coq Require Import List String Ascii Bool ZArith.
From Coq Require Import Floats.SpecFloat.
From Verif Require Import Dbl Show_Model Show_Spec.
Import ListNotations.
Local Open Scope string_scope.
Local Open Scope list_scope.

(** The quantities of a particle, by the names users know from the interface of states. *)
Definition quantities (p : pview) : list (string * double) :=
  [("IonZ", pv_IonZ p); ("IonQ", pv_IonQ p); ("IonEs", pv_IonEs p); ("IonEk", pv_IonEk p); ("SampleIonK", pv_SampleIonK p);
   ("phis", pv_phis p); ("IonW", pv_IonW p); ("gamma", pv_gamma p); ("beta", pv_beta p); ("bg", pv_bg p)].
(** name=number, with a blank before all but the first. *)
Fixpoint equations (first : bool) (l : list (string * double)) : list ascii :=
  match l with
  | [] => []
  | (n, x) :: l' => (if first then [] else chars " ") ++ chars n ++ chars "=" ++ show_sci 10 x ++ equations false l'
  end.
(** The text is [a], then a line with the particle, then [b]. *)
Definition has_particle (t : list ascii) (p : pview) (a b : list ascii) : Prop :=
  t = a ++ [newline] ++ chars "    " ++ equations true (quantities p) ++ [newline] ++ b.
(** Less than zero, or the zero that is. *)
Definition negative (x : double) : bool :=
  match x with S754_zero s | S754_infinity s | S754_finite s _ _ => s | S754_nan => false end.
