(** Beam lines of the simulation type MomentMatrix: several elements one after the other. *)
From Coq Require Import Reals List String Bool NArith ZArith.
From Verif Require Import SMap Dbl Config_Spec Mat Machine_Model Machine_Spec Moment_Model Moment_Spec Motion_Spec Frame_Spec.
Import ListNotations.
Open Scope R_scope.
Open Scope string_scope.
Open Scope list_scope.

(** Beam [s] has gone through consecutive elements with these entries, in one forward propagation of
    a machine after any history of reconfigurations and completed forward propagations, and came out
    as [f]. *)
Definition travels (w : world) (ecs : list tcfg) (s f : mstate) : Prop :=
  exists c m es us i st p st',
    new_machine (moment_reg w) c = Ok m /\ tfind "elements" c = Some (TCfgs es) /\
    Forall strips_to_some es /\ smooth (fun r s => r = false /\ aligned s) strips_to_some m us /\
    (N.of_nat (i + List.length ecs) <= SIZE_MAX)%N /\ (Z.of_nat (List.length ecs) <= INT_MAX)%Z /\
    firstn (List.length ecs) (skipn i (entries m es us)) = ecs /\ st_body st = s /\ aligned s /\
    propagate (uses m us) st (N.of_nat i) (Z.of_nat (List.length ecs)) = Some p /\ pr_end p = Ok st' /\ st_body st' = f.
(** One element after the other, each in a machine of its own. *)
Inductive in_turn (w : world) : list tcfg -> mstate -> mstate -> Prop :=
| it_none s : in_turn w [] s s
| it_next ec l s s1 f : goes_through w ec s s1 -> in_turn w l s1 f -> in_turn w (ec :: l) s f.
(** The length of a line is the sum of the lengths of its elements. *)
Inductive line_extent (num : double -> R) : list tcfg -> R -> Prop :=
| le_none : line_extent num [] 0
| le_next c l x y : extent num c x -> line_extent num l y -> line_extent num (c :: l) (x + y).
(** The same ion with the same energy, some phase further on. *)
Definition moved_on (p p' : particle) (phase : R) : Prop := same_ion p p' /\ p_Ek p' = p_Ek p /\ p_phis p' = p_phis p + phase.
