(** C24, C27, C28, C29 for the simulation types Vector and TransferMatrix, in
    exact arithmetic: [num] is any interpretation of doubles as real numbers. *)
From Coq Require Import Reals List String Bool NArith ZArith Arith Lia Lra.
From Verif Require Import SMap Dbl Config_Spec Mat Mat_Proofs Machine_Model Machine_Spec
  Linear_Model Linear_Spec Linear_Proofs Linear2_Proofs.
Import ListNotations.
Open Scope R_scope.
Open Scope string_scope.
Open Scope list_scope.

(** ** C24 *)

(** A Vector or TransferMatrix machine without a source propagates, after any
    history of reconfigurations, propagations and observer changes, exactly as a
    machine built from the entries now in force. *)
Theorem C24_linear_without_source : forall num,
  (forall c m es us c',
     new_machine (vector_reg num) c = Ok m -> tfind "elements" c = Some (TCfgs es) ->
     (forall e, In e (m_elems m) -> el_tname e <> "source") ->
     tfind "sim_type" c' = Some (TStr "Vector") -> tfind "elements" c' = Some (TCfgs (entries m es us)) ->
     exists m2, new_machine (vector_reg num) c' = Ok m2 /\
       forall st start max,
         option_map pr_end (propagate (uses m us) st start max)
         = option_map pr_end (propagate m2 st start max)) /\
  (forall c m es us c',
     new_machine (matrix_reg num) c = Ok m -> tfind "elements" c = Some (TCfgs es) ->
     (forall e, In e (m_elems m) -> el_tname e <> "source") ->
     tfind "sim_type" c' = Some (TStr "TransferMatrix") ->
     tfind "elements" c' = Some (TCfgs (entries m es us)) ->
     exists m2, new_machine (matrix_reg num) c' = Ok m2 /\
       forall st start max,
         option_map pr_end (propagate (uses m us) st start max)
         = option_map pr_end (propagate m2 st start max)).
Proof.
  intros num.
  exact (conj (linear_reconfigured num (new_vector num) (mapp lsize) 0 "Vector")
              (linear_reconfigured num (new_matrix num) (mmul lsize) 100 "TransferMatrix")).
Qed.
Print Assumptions C24_linear_without_source.
Example C24_linear_without_source_ex : forall num, exists m,
  new_machine (vector_reg num) (lconf "Vector" line1) = Ok m /\
  (forall e, In e (m_elems m) -> el_tname e <> "source") /\
  (forall us, us = [UReconf 0 (lentry "d" "drift" [("L", TNum done)])] ->
     entries m line1 us = lentry "d" "drift" [("L", TNum done)] :: tl line1).
Proof.
  intros num. eexists. split; [reflexivity|]. split.
  - intros e He. cbn [m_elems app] in He. repeat (destruct He as [<-|He]; [discriminate|]). destruct He.
  - intros us ->. reflexivity.
Qed.

(** With a source it does not: a reconfigured source goes on delivering the state
    it was built with. *)
Theorem C24_linear_source_refuted : forall num, num dzero <> num done ->
  exists m m' m2 p p2 f f2,
    new_machine (vector_reg num) (lconf "Vector" (src_line [dzero])) = Ok m /\
    reconfigure m 0 (lentry "src" "source" [("initial", TVec [done])]) = (m', Ok tt) /\
    new_machine (vector_reg num) (lconf "Vector" (src_line [done])) = Ok m2 /\
    propagate m' (mkSt 0 false (mkLS 0 (fun _ => 0))) 0 1 = Some p /\ pr_end p = Ok f /\
    propagate m2 (mkSt 0 false (mkLS 0 (fun _ => 0))) 0 1 = Some p2 /\ pr_end p2 = Ok f2 /\
    ~ veq lsize (ls_val (st_body f)) (ls_val (st_body f2)).
Proof. exact C24_linear_source_refuted_w. Qed.
Print Assumptions C24_linear_source_refuted.
Example C24_linear_source_refuted_ex : exists num : double -> R, num dzero <> num done.
Proof. exists (fun d => if deq d dzero then 0 else 1). vm_compute. lra. Qed.

(** ** C27 *)

(** Two machines made from the same lattice, one of each type: over any range of
    elements without a source, forward or backward, the vector that comes out is
    the matrix that comes out applied to [u], if that held going in -- as it does
    for the vector [u] and the identity.  Positions agree too. *)
Theorem C27_vector_is_matrix_applied : forall num cv cm mv mm es start max sv sm u,
  tfind "elements" cv = Some (TCfgs es) -> tfind "elements" cm = Some (TCfgs es) ->
  new_machine (vector_reg num) cv = Ok mv -> new_machine (matrix_reg num) cm = Ok mm ->
  (N.of_nat (List.length es) <= SIZE_MAX)%N -> (INT_MIN < max <= INT_MAX)%Z ->
  no_source (m_elems mv) (visits (List.length es) start max) ->
  ls_pos (st_body sv) = ls_pos (st_body sm) ->
  veq lsize (ls_val (st_body sv)) (mapp lsize (ls_val (st_body sm)) u) ->
  exists pv pm fv fm,
    propagate mv sv start max = Some pv /\ pr_end pv = Ok fv /\
    propagate mm sm start max = Some pm /\ pr_end pm = Ok fm /\
    ls_pos (st_body fv) = ls_pos (st_body fm) /\
    veq lsize (ls_val (st_body fv)) (mapp lsize (ls_val (st_body fm)) u).
Proof. exact vector_matrix. Qed.
Print Assumptions C27_vector_is_matrix_applied.
Example C27_vector_is_matrix_applied_ex : forall num (u : vec), exists mv mm,
  new_machine (vector_reg num) (lconf "Vector" line1) = Ok mv /\
  new_machine (matrix_reg num) (lconf "TransferMatrix" line1) = Ok mm /\
  no_source (m_elems mv) (visits (List.length line1) 1 3) /\ visits (List.length line1) 1 3 = [1; 2; 3]%nat /\
  veq lsize u (mapp lsize mid u).
Proof.
  intros num u. destruct (line1_vector num) as (mv & H1 & H2 & H3 & _). destruct (line1_matrix num) as (mm & K1 & _).
  exists mv, mm. split; [exact H1|]. split; [exact K1|]. split; [apply optical_not_source; exact H3|].
  split; [reflexivity|]. symmetry. apply mid_app.
Qed.

(** Through a source the two types do not agree: the same "initial" is the state
    vector for one and (the start of) the matrix for the other. *)
Theorem C27_through_a_source_refuted : forall num, num dzero = 0 -> num done = 1 ->
  exists mv mm pv pm fv fm u,
    new_machine (vector_reg num) (lconf "Vector" (src_line [dzero; done])) = Ok mv /\
    new_machine (matrix_reg num) (lconf "TransferMatrix" (src_line [dzero; done])) = Ok mm /\
    propagate mv (mkSt 0 false (mkLS 0 u)) 0 1 = Some pv /\ pr_end pv = Ok fv /\
    propagate mm (mkSt 0 false (mkLS 0 mid)) 0 1 = Some pm /\ pr_end pm = Ok fm /\
    ~ veq lsize (ls_val (st_body fv)) (mapp lsize (ls_val (st_body fm)) u).
Proof. exact C27_through_a_source_refuted_w. Qed.
Print Assumptions C27_through_a_source_refuted.
Example C27_through_a_source_refuted_ex : exists num : double -> R, num dzero = 0 /\ num done = 1.
Proof. exists (fun d => if deq d dzero then 0 else 1). vm_compute. split; reflexivity. Qed.

(** ** C28 *)

(** The matrices of drift, quadrupole, sector bend and solenoid are symplectic for
    all real lengths, strengths and angles (the length and angle of a bend not
    being zero: the code divides by them). *)
Theorem C28_linear_elements : forall l k,
  symplectic lsize (drift_matrix l) /\ symplectic lsize (quad_matrix l k) /\
  symplectic lsize (solenoid_matrix l k) /\
  (forall phi, l <> 0 -> phi <> 0 -> symplectic lsize (sbend_matrix l phi k)).
Proof.
  intros l k. exact (conj (drift_symplectic l) (conj (quad_symplectic l k)
    (conj (solenoid_symplectic l k) (fun phi _ _ => sbend_symplectic l phi k)))).
Qed.
Print Assumptions C28_linear_elements.
Example C28_linear_elements_ex :
  quad_matrix 1 0 0%nat 1%nat = 1000 /\ ~ symplectic lsize (mscal 2 (quad_matrix 1 0)).
Proof.
  assert (E : quad_matrix 1 0 0%nat 1%nat = 1000).
  { unfold quad_matrix, get2by2, mset. cbn [Nat.eqb andb PS_X PS_Y].
    unfold plane_sn, MtoMM. replace (0 / sqr 1000) with 0 by (unfold sqr; lra).
    destruct (Rlt_dec 0 0); [lra|]. rewrite Ropp_0, sqrt_0. destruct (Req_EM_T 0 0); [lra|congruence]. }
  split; [exact E|]. intros C. assert (S := quad_symplectic 1 0).
  assert (L0 : (0 < lsize)%nat) by (unfold lsize; lia). assert (L1 : (1 < lsize)%nat) by (unfold lsize; lia).
  specialize (C 0%nat 1%nat L0 L1). specialize (S 0%nat 1%nat L0 L1).
  cbv [mmul mtr sumn J lsize mscal] in C, S. lra.
Qed.

(** ... so any stretch of such elements takes a symplectic matrix (the identity,
    say) to a symplectic matrix, in either direction of travel. *)
Theorem C28_linear_line : forall num c m start max s,
  new_machine (matrix_reg num) c = Ok m ->
  (N.of_nat (List.length (m_elems m)) <= SIZE_MAX)%N -> (INT_MIN < max <= INT_MAX)%Z ->
  (forall i e, In i (visits (List.length (m_elems m)) start max) -> nth_error (m_elems m) i = Some e ->
               optical (el_tname e) /\ proper_bend num (eb_conf (el_base e))) ->
  symplectic lsize (ls_val (st_body s)) ->
  exists p f, propagate m s start max = Some p /\ pr_end p = Ok f /\
    symplectic lsize (ls_val (st_body f)).
Proof. exact line_symplectic. Qed.
Print Assumptions C28_linear_line.
Example C28_linear_line_ex : forall num, num done <> 0 -> num half <> 0 -> exists m,
  new_machine (matrix_reg num) (lconf "TransferMatrix" line1) = Ok m /\
  (forall i e, In i (visits (List.length (m_elems m)) 0 5) -> nth_error (m_elems m) i = Some e ->
               optical (el_tname e) /\ proper_bend num (eb_conf (el_base e))) /\ symplectic lsize mid.
Proof.
  intros num N1 N2. destruct (line1_matrix num) as (m & H1 & H2 & H3 & H4). exists m. split; [exact H1|].
  split; [|exact symplectic_mid]. intros i e _ E. apply nth_error_In in E.
  split; [apply H3; exact E|apply H4; assumption].
Qed.

(** Each transverse plane of an uncoupled element has determinant one. *)
Theorem C28_linear_determinants : forall l k phi i, i = 0%nat \/ i = 2%nat ->
  det2 (drift_matrix l) i = 1 /\ det2 (quad_matrix l k) i = 1 /\
  (l <> 0 -> phi <> 0 -> det2 (sbend_matrix l phi k) i = 1).
Proof.
  intros l k phi i H. exact (conj (proj1 (linear_determinants l k phi i H))
    (conj (proj1 (proj2 (linear_determinants l k phi i H)))
          (fun _ _ => proj2 (proj2 (linear_determinants l k phi i H))))).
Qed.
Print Assumptions C28_linear_determinants.
Example C28_linear_determinants_ex : det2 (mset mid 0 0 2) 0 = 2 /\ det2 (drift_matrix 3) 2 = 1.
Proof. split; [cbv [det2 mset mid Nat.eqb andb]; lra|]. apply (linear_determinants 3 0 0 2). right; reflexivity. Qed.

(** ** C29 *)

(** Cutting one entry of a lattice in two (same strength, lengths adding up, a
    bend's angles in proportion) does not change where the lattice takes a state:
    same position, same vector. *)
Theorem C29_cut_vector : forall num c c' m m' pre ec ea eb post st,
  new_machine (vector_reg num) c = Ok m -> new_machine (vector_reg num) c' = Ok m' ->
  tfind "elements" c = Some (TCfgs (pre ++ ec :: post)) ->
  tfind "elements" c' = Some (TCfgs (pre ++ ea :: eb :: post)) ->
  cut num ec ea eb ->
  (Z.of_nat (List.length (pre ++ ea :: eb :: post)) <= INT_MAX)%Z ->
  exists p p' f f',
    propagate m st 0 INT_MAX = Some p /\ pr_end p = Ok f /\
    propagate m' st 0 INT_MAX = Some p' /\ pr_end p' = Ok f' /\
    ls_pos (st_body f) = ls_pos (st_body f') /\ veq lsize (ls_val (st_body f)) (ls_val (st_body f')).
Proof. exact split_vector. Qed.
Print Assumptions C29_cut_vector.

(** ... same position, same matrix. *)
Theorem C29_cut_matrix : forall num c c' m m' pre ec ea eb post st,
  new_machine (matrix_reg num) c = Ok m -> new_machine (matrix_reg num) c' = Ok m' ->
  tfind "elements" c = Some (TCfgs (pre ++ ec :: post)) ->
  tfind "elements" c' = Some (TCfgs (pre ++ ea :: eb :: post)) ->
  cut num ec ea eb ->
  (Z.of_nat (List.length (pre ++ ea :: eb :: post)) <= INT_MAX)%Z ->
  exists p p' f f',
    propagate m st 0 INT_MAX = Some p /\ pr_end p = Ok f /\
    propagate m' st 0 INT_MAX = Some p' /\ pr_end p' = Ok f' /\
    ls_pos (st_body f) = ls_pos (st_body f') /\ meq lsize (ls_val (st_body f)) (ls_val (st_body f')).
Proof. exact split_matrix. Qed.
Print Assumptions C29_cut_matrix.
Example C29_cut_vector_ex : forall num, num done = 1 -> num half = / 2 -> num dzero = 0 ->
  let ec := lentry "q" "quadrupole" [("K", TNum done); ("L", TNum done)] in
  let eh := lentry "q" "quadrupole" [("K", TNum done); ("L", TNum half)] in
  let bc := lentry "b" "sbend" [("L", TNum done); ("phi", TNum done)] in
  let bh := lentry "b" "sbend" [("L", TNum half); ("phi", TNum half)] in
  cut num ec eh eh /\ cut num bc bh bh /\
  (exists m m', new_machine (vector_reg num) (lconf "Vector" (line1 ++ ec :: line1)) = Ok m /\
                new_machine (vector_reg num) (lconf "Vector" (line1 ++ eh :: eh :: line1)) = Ok m') /\
  (exists m m', new_machine (matrix_reg num) (lconf "TransferMatrix" (line1 ++ ec :: line1)) = Ok m /\
                new_machine (matrix_reg num) (lconf "TransferMatrix" (line1 ++ eh :: eh :: line1)) = Ok m').
Proof. exact cut_example. Qed.
Example C29_cut_matrix_ex : exists num : double -> R, num done = 1 /\ num half = / 2 /\ num dzero = 0.
Proof.
  exists (fun d => if deq d done then 1 else if deq d half then / 2 else 0). vm_compute. split; [|split]; reflexivity.
Qed.

(** The matrices themselves, for all real parameters. *)
Theorem C29_linear_elements : forall l1 l2 k,
  meq lsize (drift_matrix (l1 + l2)) (mmul lsize (drift_matrix l2) (drift_matrix l1)) /\
  meq lsize (quad_matrix (l1 + l2) k) (mmul lsize (quad_matrix l2 k) (quad_matrix l1 k)) /\
  meq lsize (solenoid_matrix (l1 + l2) k) (mmul lsize (solenoid_matrix l2 k) (solenoid_matrix l1 k)) /\
  (forall phi1 phi2, l1 <> 0 -> l2 <> 0 -> l1 + l2 <> 0 ->
   phi1 <> 0 -> phi2 <> 0 -> phi1 + phi2 <> 0 -> l1 * phi2 = l2 * phi1 ->
   meq lsize (sbend_matrix (l1 + l2) (phi1 + phi2) k)
     (mmul lsize (sbend_matrix l2 phi2 k) (sbend_matrix l1 phi1 k))).
Proof.
  intros l1 l2 k. exact (conj (drift_split l1 l2) (conj (quad_split l1 l2 k) (conj (solenoid_split l1 l2 k)
    (fun p1 p2 _ _ _ => sbend_split l1 l2 p1 p2 k)))).
Qed.
Print Assumptions C29_linear_elements.
Example C29_linear_elements_ex : (3:R) <> 0 /\ (6:R) <> 0 /\ (3:R) + 6 <> 0 /\
  (1:R) <> 0 /\ (2:R) <> 0 /\ (1:R) + 2 <> 0 /\ (3:R) * 2 = 6 * 1.
Proof. lra. Qed.
