(** C49 and C51 for the simulation type MomentMatrix, in exact arithmetic. *)
From Coq Require Import Reals List String Bool NArith ZArith Arith Lia Lra.
From Verif Require Import SMap Dbl Config_Spec Mat Mat_Proofs Minv Machine_Model Machine_Spec Linear_Spec
  Moment_Model Moment_Spec Motion_Spec Moment_Proofs Moment2_Proofs Moment6_Proofs Motion_Proofs Motion2_Proofs
  Motion3_Proofs Motion4_Proofs Motion5_Proofs.
Import ListNotations.
Open Scope R_scope.
Open Scope string_scope.
Open Scope list_scope.

(** ** C49 *)

(** After any history of reconfigurations and completed forward propagations, an
    element that guides the beam takes every charge state along its course: into
    the frame of the misaligned element, through its edges and along the solution of
    the equations of motion for that charge state, slice by slice where the field is
    given by curves, and back.  Centroid and covariance follow. *)
Theorem C49_moment_follows_the_motion : forall w c m es us i ec st p f, sane w ->
  new_machine (moment_reg w) c = Ok m -> tfind "elements" c = Some (TCfgs es) ->
  Forall strips_to_some es -> smooth (fun r s => r = false /\ aligned s) strips_to_some m us ->
  nth_error (entries m es us) i = Some ec -> described ec -> proper_magnet (w_num w) ec ->
  let s := st_body st in
  aligned s -> moving (ms_ref s) -> Forall moving (ms_real s) ->
  propagate (uses m us) st (N.of_nat i) 1 = Some p -> pr_end p = Ok f ->
  forall j q v S, nth_error (ms_real s) j = Some q -> nth_error (ms_m0 s) j = Some v -> nth_error (ms_m1 s) j = Some S ->
  exists T v' S' legs,
    nth_error (ms_tm (st_body f)) j = Some T /\ nth_error (ms_m0 (st_body f)) j = Some v' /\
    nth_error (ms_m1 (st_body f)) j = Some S' /\ transported T v S v' S' /\
    course w ec (ms_ref s) q legs /\ forall u, unit_last u -> passes legs u (mapp 7 T u).
Proof. exact moment_motion. Qed.
Print Assumptions C49_moment_follows_the_motion.
Example C49_moment_follows_the_motion_ex : forall a, exists m p f,
  let w := world0 one_num a in let us := [UReconf 1 (lens done)] in let st := mkSt 0 false (state0 2) in
  sane w /\ new_machine (moment_reg w) (mconf guides) = Ok m /\ Forall strips_to_some guides /\
  smooth (fun r s => r = false /\ aligned s) strips_to_some m us /\
  nth_error (entries m guides us) 1 = Some (lens done) /\ described (lens done) /\ proper_magnet one_num (lens done) /\
  aligned (st_body st) /\ moving (ms_ref (st_body st)) /\ Forall moving (ms_real (st_body st)) /\
  propagate (uses m us) st 1 1 = Some p /\ pr_end p = Ok f.
Proof.
  intros a. destruct (guides_runs a) as (W & m & Hm & HQ & HS & _ & _ & HE). exists m.
  destruct (moment_completes (world0 one_num a) false (mconf guides) m guides [UReconf 1 (lens done)] 1 (lens done) (mkSt 0 false (state0 2))
    W Hm eq_refl HQ HS HE (proj2 guides_described) (proj2 (guides_equipped a)) ltac:(discriminate) (state0_aligned 1)
    (proj1 (state0_moving 2)) (proj2 (state0_moving 2))) as (p & f & P1 & P2).
  exists p, f. repeat (split; [first [exact W | exact Hm | exact HQ | exact HS | exact HE | apply guides_described | apply guides_proper
    | apply state0_aligned | apply state0_moving | exact P1]|]). exact P2.
Qed.

(** The course determines where a particle ends. *)
Theorem C49_course_is_unique : forall w c ref p legs, moving p -> 0 < p_Es ref -> course w c ref p legs ->
  forall u a b, passes legs u a -> passes legs u b -> veq 7 a b.
Proof. exact course_one. Qed.
Print Assumptions C49_course_is_unique.
Example C49_course_is_unique_ex : forall a, exists legs,
  let p := ms_ref (state0 1) in moving p /\ 0 < p_Es p /\ course (world0 one_num a) magnet p p legs /\ legs <> [].
Proof.
  intros a. eexists. cbv zeta. split; [apply (state0_moving 1)|]. split; [cbn; lra|].
  split; [apply (c_bend _ _ _ _ 1); reflexivity|]. destruct (Req_EM_T _ 0) as [E|]; [|discriminate].
  exfalso. change (1 * 1000 = 0) in E. lra.
Qed.

(** And where it came from. *)
Theorem C49_course_can_be_retraced : forall w c ref p legs, moving p -> 0 < p_Es ref -> ~ is_a "tmatrix" c ->
  course w c ref p legs -> forall u u2 a, passes legs u a -> passes legs u2 a -> veq 7 u u2.
Proof. exact course_back. Qed.
Print Assumptions C49_course_can_be_retraced.
Example C49_course_can_be_retraced_ex : forall a, exists legs,
  let p := ms_ref (state0 1) in moving p /\ 0 < p_Es p /\ ~ is_a "tmatrix" (lens done) /\
  course (world0 one_num a) (lens done) p p legs.
Proof.
  intros a. eexists. cbv zeta. split; [apply (state0_moving 1)|]. split; [cbn; lra|]. split; [discriminate|].
  apply (c_quad _ _ _ _ [1]); [reflexivity|]. exists 0%N. split; reflexivity.
Qed.

(** An element with all its settings lets every moving beam pass, forward and
    backward ([b]); backward the motion must be one that can be retraced. *)
Theorem C49_element_completes : forall w b c m es us i ec st, sane w ->
  new_machine (moment_reg w) c = Ok m -> tfind "elements" c = Some (TCfgs es) ->
  Forall strips_to_some es -> smooth (fun r s => r = b /\ aligned s) strips_to_some m us ->
  nth_error (entries m es us) i = Some ec -> described ec -> equipped w ec ->
  (b = true -> proper_magnet (w_num w) ec /\ ~ is_a "tmatrix" ec) ->
  aligned (st_body st) -> moving (ms_ref (st_body st)) -> Forall moving (ms_real (st_body st)) ->
  exists p f, propagate (uses m us) st (N.of_nat i) (if b then -1 else 1)%Z = Some p /\ pr_end p = Ok f.
Proof. exact moment_completes. Qed.
Print Assumptions C49_element_completes.
Example C49_element_completes_ex : forall a, exists m,
  let w := world0 one_num a in let us := [UReconf 1 (lens done)] in let st := mkSt 0 false (state0 2) in
  sane w /\ new_machine (moment_reg w) (mconf guides) = Ok m /\ Forall strips_to_some guides /\
  smooth (fun r s => r = true /\ aligned s) strips_to_some m us /\
  nth_error (entries m guides us) 0 = Some magnet /\ described magnet /\ equipped w magnet /\
  proper_magnet one_num magnet /\ ~ is_a "tmatrix" magnet /\
  aligned (st_body st) /\ moving (ms_ref (st_body st)) /\ Forall moving (ms_real (st_body st)).
Proof.
  intros a. destruct (guides_runs a) as (W & m & Hm & HQ & _ & HS & HE & _). exists m.
  repeat (split; [first [exact W | exact Hm | exact HQ | exact HS | exact HE | apply guides_described | apply guides_proper
    | apply guides_equipped | discriminate | apply state0_aligned | apply state0_moving]|]). apply state0_moving.
Qed.

(** ** C51 *)

(** An element that guides the beam moves the state by its length, forward or
    backward, and every particle's phase by the wave number of that particle times
    the length; a sector magnet adds what it does to the phase of the centroid.
    Energies stay. *)
Theorem C51_position_and_phases : forall w b c m es us i ec st p f l, sane w ->
  new_machine (moment_reg w) c = Ok m -> tfind "elements" c = Some (TCfgs es) ->
  Forall strips_to_some es -> smooth (fun r s => r = b /\ aligned s) strips_to_some m us ->
  nth_error (entries m es us) i = Some ec -> guiding ec -> extent (w_num w) ec l ->
  let s := st_body st in let s' := st_body f in
  let sign := if b then -1 else 1 in
  aligned s -> moving (ms_ref s) -> Forall moving (ms_real s) ->
  propagate (uses m us) st (N.of_nat i) (if b then -1 else 1)%Z = Some p -> pr_end p = Ok f ->
  ms_pos s' = ms_pos s + sign * l /\
  later (ms_ref s) (ms_ref s') (sign * (wavenumber (ms_ref s) * (l * 1000))) /\
  forall j q v, nth_error (ms_real s) j = Some q -> nth_error (ms_m0 s) j = Some v ->
  exists q' v', nth_error (ms_real s') j = Some q' /\ nth_error (ms_m0 s') j = Some v' /\
    exists extra, later q q' (sign * (wavenumber q * (l * 1000)) + extra) /\
      (is_a "sbend" ec -> extra = v' 4%nat - v 4%nat) /\ (~ is_a "sbend" ec -> extra = 0).
Proof. exact moment_advance. Qed.
Print Assumptions C51_position_and_phases.
Example C51_position_and_phases_ex : forall a, exists m p f,
  let w := world0 one_num a in let us := [UReconf 1 (lens done)] in let st := mkSt 0 false (state0 2) in
  sane w /\ new_machine (moment_reg w) (mconf guides) = Ok m /\ Forall strips_to_some guides /\
  smooth (fun r s => r = true /\ aligned s) strips_to_some m us /\
  nth_error (entries m guides us) 0 = Some magnet /\ guiding magnet /\ extent one_num magnet 1 /\
  aligned (st_body st) /\ moving (ms_ref (st_body st)) /\ Forall moving (ms_real (st_body st)) /\
  propagate (uses m us) st 0 (-1) = Some p /\ pr_end p = Ok f.
Proof.
  intros a. destruct (guides_runs a) as (W & m & Hm & HQ & _ & HS & HE & _). exists m.
  destruct (moment_completes (world0 one_num a) true (mconf guides) m guides [UReconf 1 (lens done)] 0 magnet (mkSt 0 false (state0 2))
    W Hm eq_refl HQ HS HE (proj1 guides_described) (proj1 (guides_equipped a)) ltac:(intros _; split; [apply guides_proper|discriminate]) (state0_aligned 1)
    (proj1 (state0_moving 2)) (proj2 (state0_moving 2))) as (p & f & P1 & P2).
  exists p, f. repeat (split; [first [exact W | exact Hm | exact HQ | exact HS | exact HE | left; apply guides_described
    | split; [intros X; apply Exists_exists in X as (t & X & Y); destruct X as [<-|[<-|[<-|[]]]]; discriminate | reflexivity]
    | apply state0_aligned | apply state0_moving | exact P1]|]). exact P2.
Qed.
