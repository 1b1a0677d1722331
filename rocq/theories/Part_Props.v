(** C89: the particles and the signs in the text of a state. *)
From Coq Require Import Reals List String Ascii Bool NArith ZArith Lia.
From Coq Require Import Floats.SpecFloat.
From Verif Require Import SMap Dbl Config_Spec Machine_Model Lexer_Spec Number_Spec Print_Model Print_Spec
  Show_Model Show_Spec Part_Spec Show_Proofs Show2_Proofs Show3_Proofs Show4_Proofs Show5_Proofs Part_Proofs.
Import ListNotations.
Open Scope nat_scope.
Open Scope string_scope.
Open Scope list_scope.

(** From level 2 on, the text of a state with particles has the reference particle below its heading,
    and each charge state below a heading with its number: every quantity under its name. *)
Theorem C89_particles s level f : (2 <= level)%Z -> mv_states s <> [] ->
  (exists a b, has_particle (fst (show_moment s level f)) (mv_ref s) (a ++ chars "  Reference state:") b) /\
  forall i c, nth_error (mv_states s) i = Some c ->
    exists a d b, reads d (N.of_nat i) /\ has_particle (fst (show_moment s level f)) (cv_real c) (a ++ chars "  Charge state " ++ d) b.
Proof. exact (shown_particles s level f). Qed.
Print Assumptions C89_particles.
Example C89_particles_ex : (2 <= 2)%Z /\ mv_states (one_state minus0) <> [] /\ nth_error (mv_states (one_state minus0)) 0 <> None /\
  string_of_list_ascii (equations true (firstn 2 (quantities (one_part minus0)))) = "IonZ=-0.0000000000e+00 IonQ=-0.0000000000e+00".
Proof. split; [lia|]. split; [discriminate|]. split; [discriminate|]. vm_compute. reflexivity. Qed.

(** A number begins with a minus if and only if it has that sign: zeros and infinities too. *)
Theorem C89_sign p v : well_formed v -> (exists t, show_sci p v = "-"%char :: t) <-> negative v = true.
Proof. exact (sign_shown p v). Qed.
Print Assumptions C89_sign.
Example C89_sign_ex : well_formed (S754_infinity true) /\ string_of_list_ascii (show_sci 3 (S754_infinity true)) = "-inf" /\
  string_of_list_ascii (show_sci 3 (S754_zero true)) = "-0.000e+00" /\ string_of_list_ascii (show_sci 3 (S754_zero false)) = "0.000e+00".
Proof. split; [reflexivity|]. vm_compute. auto. Qed.
