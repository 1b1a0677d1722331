(** C91: the tutorial's simulation. *)
From Coq Require Import List String Ascii Bool NArith ZArith Reals.
From Verif Require Import SMap Dbl Number_Spec Config_Spec Lexer_Model Glps_Model Glps6_Proofs Machine_Model Machine_Spec Tut_Model Tut_Spec Tut_Proofs.
Import ListNotations.
Open Scope string_scope.
Open Scope list_scope.

(** Which Configs make a machine of this simulation type. *)
Theorem C91_constructs c : (exists m, new_machine reg1d c = Ok m) <->
  tfind "sim_type" c = Some (TStr "Simple1D") /\ exists es, tfind "elements" c = Some (TCfgs es) /\ Forall entry1d es.
Proof. exact (constructs1d c). Qed.
Print Assumptions C91_constructs.
Definition tut : res tcfg := match parse_text demo [] true lattice1d with Parsed t => Ok t | _ => Throw Abort end.
Example C91_constructs_ex :
  match tut with
  | Ok t => match get_cfgs t "elements" with
            | Ok es => List.length es = 3%nat /\ map (fun e => (number e "A", number e "L")) es =
                         [(dzero, dzero); (d_of_Z 1, d_of_Z 10); (d_of_Z (-2), d_of_Z 10)] /\
                       match new_machine reg1d t with Ok _ => True | Throw _ => False end
            | Throw _ => False
            end
  | Throw _ => False
  end.
Proof. vm_compute. auto. Qed.

(** Propagation passes the entries of the lattice as they are after all
    reconfigurations, each once and in order, from the start as many as allowed;
    nothing throws, and no element changes. *)
Theorem C91_result c m0 es0 m es st start k :
  new_machine reg1d c = Ok m0 -> tfind "elements" c = Some (TCfgs es0) -> reconfs m0 es0 m es ->
  (Z.of_nat (List.length es0) <= INT_MAX)%Z -> (Z.of_nat k <= INT_MAX)%Z ->
  exists q st', propagate m st (N.of_nat start) (Z.of_nat k) = Some q /\ pr_elems q = m_elems m /\ pr_end q = Ok st' /\
    st_body st' = fold_left pass1 (firstn k (skipn start es)) (st_body st).
Proof. exact (result1d c m0 es0 m es st start k). Qed.
Print Assumptions C91_result.
Example C91_result_ex :
  match tut with
  | Ok t => match get_cfgs t "elements", new_machine reg1d t with
            | Ok es, Ok m =>
                match reconfigure m 1 (gen1d 5 sec) with
                | (m', Ok _) => match propagate m' (mkSt 0 false (at1 0 0)) 0 2 with
                                | Some q => match pr_end q with
                                            | Ok st => st_body st = fold_left pass1 [hd (gen1d 0 0) es; gen1d 5 sec] (at1 7 7) /\ s_pos (st_body st) = d_of_Z sec
                                            | Throw _ => False
                                            end
                                | None => False
                                end
                | _ => False
                end
            | _, _ => False
            end
  | Throw _ => False
  end.
Proof. vm_compute. auto. Qed.

(** The program of the tutorial, with any lattice of this type. *)
Theorem C91_main c m es : new_machine reg1d c = Ok m -> tfind "elements" c = Some (TCfgs es) -> (Z.of_nat (List.length es) <= INT_MAX)%Z ->
  main1d m = Some (fold_left pass1 (firstn 1 es) (mkS1 dzero dzero dzero), fold_left pass1 es (mkS1 dzero dzero dzero)).
Proof. exact (main1d_is c m es). Qed.
Print Assumptions C91_main.
Example C91_main_ex :
  match tut with
  | Ok t => match get_cfgs t "elements", new_machine reg1d t with
            | Ok es, Ok _ => tfind "elements" t = Some (TCfgs es) /\ List.length es = 3%nat /\
                s_pos (fold_left pass1 es (mkS1 dzero dzero dzero)) = d_of_Z 20 /\
                dlt (s_xv (fold_left pass1 es (mkS1 dzero dzero dzero))) (s_xv (fold_left pass1 (firstn 1 es) (mkS1 dzero dzero dzero))) = true
            | _, _ => False
            end
  | Throw _ => False
  end.
Proof. vm_compute. auto. Qed.

(** After a source nothing that was before it matters, neither the state nor elements. *)
Theorem C91_source pre pre' src post b b' : is_source src ->
  fold_left pass1 (pre ++ src :: post) b = fold_left pass1 (pre' ++ src :: post) b'.
Proof. exact (sources_win pre src post b b' pre'). Qed.
Print Assumptions C91_source.
Example C91_source_ex : is_source (TCfg [("type", TStr "source"); ("x", TNum (d_of_Z 3))] []) /\
  fold_left pass1 [gen1d 1 sec; TCfg [("type", TStr "source"); ("x", TNum (d_of_Z 3))] []; gen1d 2 sec] (at1 7 7) = mkS1 (d_of_Z sec) (d_of_Z 5) (d_of_Z 2).
Proof. vm_compute. auto. Qed.

(** An element without acceleration leaves place and velocity as they are, whatever the
    velocity and the length. *)
Theorem C91_no_drift c s : ~ is_source c -> number c "A" = dzero -> is_finite (ddiv (number c "L") (d_of_Z 299792458)) = true ->
  dval (s_x (pass1 s c)) = dval (s_x s) /\ dval (s_xv (pass1 s c)) = dval (s_xv s).
Proof. exact (no_drift1d c s). Qed.
Print Assumptions C91_no_drift.
Example C91_no_drift_ex : ~ is_source (gen1d 0 sec) /\ number (gen1d 0 sec) "A" = dzero /\
  is_finite (ddiv (number (gen1d 0 sec) "L") (d_of_Z 299792458)) = true.
Proof. split; [discriminate|]. split; vm_compute; reflexivity. Qed.

(** So a particle with a transverse velocity stays where it is. *)
Theorem C91_motion_refuted : exists c s, entry1d c /\ ~ is_source c /\
  ~ moves (dval (number c "A")) (dval (number c "L") / 299792458) (dval (s_x s)) (dval (s_xv s)) (dval (s_x (pass1 s c))) (dval (s_xv (pass1 s c))).
Proof. exact C91_motion_refuted_w. Qed.
Print Assumptions C91_motion_refuted.

(** From rest it goes twice as far as it should. *)
Theorem C91_rest_refuted : exists c s, entry1d c /\ ~ is_source c /\ dval (s_xv s) = 0%R /\
  ~ moves (dval (number c "A")) (dval (number c "L") / 299792458) (dval (s_x s)) (dval (s_xv s)) (dval (s_x (pass1 s c))) (dval (s_xv (pass1 s c))).
Proof. exact C91_rest_refuted_w. Qed.
Print Assumptions C91_rest_refuted.

(** Two halves of an element do not act as the whole. *)
Theorem C91_cut_refuted : exists c h s, entry1d c /\ entry1d h /\ number h "A" = number c "A" /\ dadd (number h "L") (number h "L") = number c "L" /\
  s_xv (pass1 (pass1 s h) h) = s_xv (pass1 s c) /\ s_x (pass1 (pass1 s h) h) <> s_x (pass1 s c).
Proof. exact C91_cut_refuted_w. Qed.
Print Assumptions C91_cut_refuted.

(** Propagation backwards does not lead back. *)
Theorem C91_backward_refuted : exists c m st q1 st1 q2 st2, new_machine reg1d c = Ok m /\ propagate m st 0 1 = Some q1 /\ pr_end q1 = Ok st1 /\
  propagate m st1 0 (-1) = Some q2 /\ pr_end q2 = Ok st2 /\ s_pos (st_body st2) <> s_pos (st_body st).
Proof. exact C91_backward_refuted_w. Qed.
Print Assumptions C91_backward_refuted.

(** What is printed shows no state. *)
Theorem C91_shown_refuted : exists s s' level, s_x s <> s_x s' /\ show1d s level = show1d s' level.
Proof. exact C91_shown_refuted_w. Qed.
Print Assumptions C91_shown_refuted.
