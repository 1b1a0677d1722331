(** C89: what printing a machine or a state, the trace and the txt output say. *)
From Coq Require Import Reals List String Ascii Bool NArith ZArith.
From Coq Require Import Floats.SpecFloat.
From Verif Require Import SMap Dbl Config_Spec Machine_Model Lexer_Spec Number_Spec Print_Model Print_Spec
  Show_Model Show_Spec Show_Proofs Show2_Proofs Show3_Proofs Show4_Proofs Show5_Proofs.
Import ListNotations.
Open Scope nat_scope.
Open Scope string_scope.
Open Scope list_scope.

(** The text of a new machine: the simulation type, the number of elements, and
    for each element of the Config, in order, a line with its position, name and
    type; no other line looks like one of these. *)
Theorem C89_machine {D B} (own : elem D B -> extra) (r : registry D B) c m es f :
  new_machine r c = Ok m -> get_cfgs c "elements" = Ok es ->
  (forall t, get_str c "sim_type" = Ok t -> one_line t) ->
  (forall ec n, In ec es -> get_str ec "name" = Ok n \/ get_str ec "type" = Ok n -> one_line n) ->
  (exists t d ls, get_str c "sim_type" = Ok t /\ reads d (N.of_nat (List.length es)) /\
     lines (fst (show_machine own m f)) = (chars "sim_type: " ++ chars t) :: (chars "#Elements: " ++ d) :: ls) /\
  Forall2 (fun l p => exists n t, get_str (snd p) "name" = Ok n /\ get_str (snd p) "type" = Ok t /\
                                  element_line l (N.of_nat (fst p)) n t)
    (lines_with "Element " (fst (show_machine own m f))) (combine (seq 0 (List.length es)) es).
Proof. exact (new_text own r c m es f). Qed.
Print Assumptions C89_machine.
Example C89_machine_ex :
  match new_machine reg89 (conf89 [el89 "a" "push" minus0; el89 "b" "stop" dzero]) with
  | Ok m => map string_of_list_ascii (lines (fst (show_machine (fun e => if N.eqb (el_index e) 0 then Transfer [[minus0; dzero]; [dzero; minus0]] else InitVec [minus0]) m Default))) =
      ["sim_type: Toy"; "#Elements: 2"; "Element 0: a (push)"; "Transfer: [2,2]((-0,0),(0,-0))";
       "Element 1: b (stop)"; "Initial: [1](-0)"; ""]
  | Throw _ => False
  end.
Proof. vm_compute. reflexivity. Qed.

(** After a reconfigure() that succeeds only the line of that element is another:
    it has the new name. *)
Theorem C89_reconfigure {D B} (own : elem D B -> extra) (m m' : machine D B) idx c n o f :
  one_line (m_simtype m) -> (forall e, In e (m_elems m) -> one_line (el_name e) /\ one_line (el_tname e)) ->
  reconfigure m idx c = (m', Ok tt) -> get_str c "name" = Ok n -> one_line n -> nth_error (m_elems m) (N.to_nat idx) = Some o ->
  exists l, lines_with "Element " (fst (show_machine own m' f)) =
            update (lines_with "Element " (fst (show_machine own m f))) (N.to_nat idx) l /\
    element_line l idx n (el_tname o).
Proof. exact (reconf_text own m m' idx c n o f). Qed.
Print Assumptions C89_reconfigure.
Example C89_reconfigure_ex :
  match new_machine reg89 (conf89 [el89 "a" "push" minus0; el89 "b" "push" dzero]) with
  | Ok m => snd (reconfigure m 1 (el89 "z" "push" minus0)) = Ok tt /\
      map string_of_list_ascii (lines_with "Element " (fst (show_machine none89 (fst (reconfigure m 1 (el89 "z" "push" minus0))) Default))) =
      ["Element 0: a (push)"; "Element 1: z (push)"]
  | Throw _ => False
  end.
Proof. vm_compute. split; reflexivity. Qed.

(** A name with a line end in it can make up elements that are not there. *)
Theorem C89_forged_refuted : exists (D B : Type) (r : registry D B) c m own,
  new_machine r c = Ok m /\ List.length (m_elems m) = 1 /\
  List.length (lines_with "Element " (fst (show_machine own m Default))) = 2.
Proof. exact C89_forged_refuted_w. Qed.
Print Assumptions C89_forged_refuted.

(** Neither the trace nor txt observers change what propagate() does. *)
Theorem C89_silent {D B} (view : B -> body) (level : nat -> option Z) trace (m : machine D B) st start max f :
  option_map fst (out_propagate view level trace m st start max f) = propagate m st start max.
Proof. exact (out_propagate_silent view level trace m st start max f). Qed.
Print Assumptions C89_silent.
Example C89_silent_ex :
  match new_machine reg89 (conf89 [el89 "a" "push" minus0; el89 "b" "stop" dzero; el89 "c" "push" dzero]) with
  | Ok m => match out_propagate BMom (fun _ => None) true m (mkSt 0 false (one_state dzero)) 0 100 Default with
            | Some (p, (t, _)) => pr_end p = Throw RuntimeError /\ t <> []
            | None => False
            end
  | Throw _ => False
  end.
Proof. vm_compute. split; [reflexivity|discriminate]. Qed.

(** The trace has a line for each element that ran to its end, in the order in
    which they ran - also backwards, also when an exception ends the run - with its
    position, its name, and the state as it was after it.  They are those which an
    observer on every element would be called for.  Without txt observers on the
    same stream the states are in the format the stream had. *)
Theorem C89_trace {D B} (view : B -> body) (level : nat -> option Z) (m : machine D B) st start max f p t f' :
  (forall e, In e (m_elems m) -> one_line (el_name e)) ->
  out_propagate view level true m st start max f = Some (p, (t, f')) ->
  exists q, propagate (watched m) st start max = Some q /\
    Forall2 (traced_as (fun b r => exists g, True /\ r = first_line (fst (show_body (view b) 0 g))) m) (lines_with "After [" t) (pr_events q).
Proof. exact (trace_all view level (fun _ => True) m st start max f p t f' (fun _ _ _ _ _ _ => I) I). Qed.
Print Assumptions C89_trace.
Example C89_trace_ex :
  match new_machine reg89 (conf89 [el89 "a" "push" minus0; el89 "b" "push" dzero; el89 "c" "stop" dzero]) with
  | Ok m => match out_propagate BMom (fun _ => None) true m (mkSt 0 false (one_state dzero)) 0 100 Default,
                  out_propagate BMom (fun _ => Some 1%Z) true (with_elems m (set_observer (m_elems m) 0 (Some 3))) (mkSt 0 false (one_state dzero)) 1 (-100) Default with
            | Some (_, (t, _)), Some (_, (t', _)) =>
                map string_of_list_ascii (lines t) =
                ["After [0] a State: moment0 mean=[1](-0)"; "After [1] b State: moment0 mean=[1](0)"; ""] /\
                map string_of_list_ascii (lines_with "After [" t') =
                ["After [1] b State: moment0 mean=[1](0)"; "After [0] a State: moment0 mean=[1](-0.0000000000e+00)"]
            | _, _ => False
            end
  | Throw _ => False
  end.
Proof. vm_compute. split; reflexivity. Qed.

Theorem C89_trace_format {D B} (view : B -> body) (level : nat -> option Z) (m : machine D B) st start max f p t f' :
  (forall o, level o = None) -> (forall e, In e (m_elems m) -> one_line (el_name e)) ->
  out_propagate view level true m st start max f = Some (p, (t, f')) ->
  exists q, propagate (watched m) st start max = Some q /\
    Forall2 (traced_as (fun b r => r = first_line (fst (show_body (view b) 0 f))) m) (lines_with "After [" t) (pr_events q).
Proof. exact (trace_plain view level m st start max f p t f'). Qed.
Print Assumptions C89_trace_format.
Example C89_trace_format_ex :
  match new_machine reg89 (conf89 [el89 "a" "push" minus0; el89 "b" "push" minus0]) with
  | Ok m => match out_propagate BMom (fun _ => None) true m (mkSt 0 false (one_state dzero)) 1 (-1) (Sci 2) with
            | Some (_, (t, _)) => map string_of_list_ascii (lines t) = ["After [1] b State: moment0 mean=[1](-0.00e+00)"; ""]
            | None => False
            end
  | Throw _ => False
  end.
Proof. vm_compute. reflexivity. Qed.

(** With them it is not: the same run writes other lines to the trace. *)
Theorem C89_format_refuted : exists (D B : Type) (view : B -> body) (m : machine D B) st max p t1 t2 f1 f2,
  out_propagate view (fun _ => None) true m st 0 max Default = Some (p, (t1, f1)) /\
  out_propagate view (fun _ => Some 1%Z) true m st 0 max Default = Some (p, (t2, f2)) /\
  List.length (pr_events p) = 1 /\ lines_with "After [" t1 <> lines_with "After [" t2.
Proof. exact C89_format_refuted_w. Qed.
Print Assumptions C89_format_refuted.

(** The txt output of a moment simulation, of detail 1 or more: for each call of an
    observer one entry, with the element's index and name and the state as it then
    was, as show() writes it on a new stream. *)
Theorem C89_txt {D B} (view : B -> body) (level : nat -> option Z) (m : machine D B) st start max f p t f' d :
  (1 <= d)%Z -> (forall o, level o = Some d) -> (forall b, exists s, view b = BMom s) ->
  out_propagate view level false m st start max f = Some (p, (t, f')) ->
  exists entries, t = List.concat entries /\
    Forall2 (fun text ev => exists e i, nth_error (m_elems m) (ev_slot ev) = Some e /\ reads i (el_index e) /\
       text = chars "After Element [" ++ i ++ chars "] " ++ chars (el_name e) ++ chars " " ++
              fst (show_body (view (st_body (ev_state ev))) d Default) ++ [newline]) entries (pr_events p).
Proof. exact (txt_all view level m st start max f p t f' d). Qed.
Print Assumptions C89_txt.
Example C89_txt_ex :
  match new_machine reg89 (conf89 [el89 "a" "push" minus0; el89 "b" "push" minus0; el89 "c" "push" dzero]) with
  | Ok m => match out_propagate BMom (fun _ => Some 1%Z) false (with_elems m (set_observer (m_elems m) 1 (Some 3))) (mkSt 0 false (one_state dzero)) 0 3 (Sci 2) with
            | Some (_, (t, _)) => map string_of_list_ascii (lines t) =
                ["After Element [1] b "; "State:"; "  energy [eV] ="; "     -0.00000000e+00"; "  moment0 mean =";
                 "     -0.0000000000e+00,"; "  moment0 rms ="; "     -0.0000000000e+00,"; "  moment1 mean ="; "     -0.0000000000e+00,"; ""]
            | None => False
            end
  | Throw _ => False
  end.
Proof. vm_compute. reflexivity. Qed.

(** All that run_flame writes: with -v a line for each element and each that ran,
    and with -v or without an entry for each call of a txt observer; a grep finds
    these and nothing else. *)
Theorem C89_tool {D B} (own : elem D B -> extra) (view : B -> body) (level : nat -> option Z) verb (m : machine D B) st max out :
  one_line (m_simtype m) -> (forall e, In e (m_elems m) -> one_line (el_name e) /\ one_line (el_tname e)) ->
  tool_out own view level verb m st max = Some out ->
  exists p q, propagate m st 0 max = Some p /\ propagate (watched m) st 0 max = Some q /\
    (if verb then Forall2 (fun l e => element_line l (el_index e) (el_name e) (el_tname e)) (lines_with "Element " out) (m_elems m)
     else lines_with "Element " out = []) /\
    (if verb then Forall2 (traced_as (fun b r => exists f, r = first_line (fst (show_body (view b) 0 f))) m) (lines_with "After [" out) (pr_events q)
     else lines_with "After [" out = []) /\
    Forall2 (viewed_as (fun o b r => exists d f, level o = Some d /\ r = first_line (fst (show_body (view b) d f))) m)
      (lines_with "After Element [" out) (filter (fun ev => match level (ev_obs ev) with Some _ => true | None => false end) (pr_events p)).
Proof. exact (tool_all own view level verb m st max out). Qed.
Print Assumptions C89_tool.
Example C89_tool_ex :
  match new_machine reg89 (conf89 [el89 "a" "push" minus0; el89 "b" "push" minus0]) with
  | Ok m => match tool_out none89 BMom (fun _ => Some 0%Z) true (with_elems m (set_observer (m_elems m) 1 (Some 3))) (mkSt 0 false (one_state dzero)) 100 with
            | Some t => map string_of_list_ascii (lines t) =
                ["# Machine configuration"; "sim_type: Toy"; "#Elements: 2"; "Element 0: a (push)"; "Element 1: b (push)"; ""; "";
                 "After [0] a State: moment0 mean=[1](-0)"; "After Element [1] b State: moment0 mean=[1](-0)";
                 "After [1] b State: moment0 mean=[1](-0)"; ""; "# Final State: moment0 mean=[1](-0)"; ""]
            | None => False
            end
  | Throw _ => False
  end.
Proof. vm_compute. reflexivity. Qed.

(** From level 1 on, what is shown of a moment state does not depend on what was
    written to the stream before. *)
Theorem C89_formats s level f g : (1 <= level)%Z -> fst (show_moment s level f) = fst (show_moment s level g).
Proof. exact (moment_indep s level f g). Qed.
Print Assumptions C89_formats.
Example C89_formats_ex : fst (show_moment (one_state minus0) 1 Default) = fst (show_moment (one_state minus0) 1 (Sci 3)) /\
  fst (show_moment (one_state minus0) 0 Default) <> fst (show_moment (one_state minus0) 0 (Sci 3)).
Proof. vm_compute. split; [reflexivity|discriminate]. Qed.

(** From level 1 on, a higher level shows no less, and begins with what level 1 shows. *)
Theorem C89_levels b l l' f : (1 <= l <= l')%Z ->
  (List.length (fst (show_body b l f)) <= List.length (fst (show_body b l' f)))%nat /\
  exists r, fst (show_body b l' f) = fst (show_body b 1 f) ++ r.
Proof. exact (body_levels b l l' f). Qed.
Print Assumptions C89_levels.
Example C89_levels_ex :
  let two := mkMV (one_part dzero) [mkCV (one_part minus0) [minus0; dzero] [[minus0; dzero]; [dzero; minus0]]; mkCV (one_part dzero) [dzero] [[minus0]]]
                  [minus0; dzero] [dzero; minus0] [[minus0; minus0]; [dzero; dzero]] in
  map string_of_list_ascii (lines (fst (show_body (BMom two) 3 Default))) =
  [""; "State:"; "  energy [eV] ="; "     -0.00000000e+00"; "  moment0 mean ="; "     -0.0000000000e+00,  0.0000000000e+00,";
   "  moment0 rms ="; "      0.0000000000e+00, -0.0000000000e+00,"; "  moment1 mean ="; "     -0.0000000000e+00, -0.0000000000e+00,";
   "      0.0000000000e+00,  0.0000000000e+00,"; "  Reference state:";
   "    IonZ=0.0000000000e+00 IonQ=0.0000000000e+00 IonEs=0.0000000000e+00 IonEk=0.0000000000e+00 SampleIonK=0.0000000000e+00 phis=0.0000000000e+00 IonW=0.0000000000e+00 gamma=0.0000000000e+00 beta=0.0000000000e+00 bg=0.0000000000e+00";
   "  Charge state 0";
   "    IonZ=-0.0000000000e+00 IonQ=-0.0000000000e+00 IonEs=-0.0000000000e+00 IonEk=-0.0000000000e+00 SampleIonK=-0.0000000000e+00 phis=-0.0000000000e+00 IonW=-0.0000000000e+00 gamma=-0.0000000000e+00 beta=-0.0000000000e+00 bg=-0.0000000000e+00";
   "    moment0 [2](-0.0000000000e+00,0.0000000000e+00)"; "    moment1 [2,2]((-0.0000000000e+00,0.0000000000e+00),(0.0000000000e+00,-0.0000000000e+00))";
   "  Charge state 1";
   "    IonZ=0.0000000000e+00 IonQ=0.0000000000e+00 IonEs=0.0000000000e+00 IonEk=0.0000000000e+00 SampleIonK=0.0000000000e+00 phis=0.0000000000e+00 IonW=0.0000000000e+00 gamma=0.0000000000e+00 beta=0.0000000000e+00 bg=0.0000000000e+00";
   "    moment0 [1](0.0000000000e+00)"; "    moment1 [1,1]((-0.0000000000e+00))"; ""].
Proof. vm_compute. reflexivity. Qed.

(** A number in scientific format is a decimal number of as many digits as asked
    for, and within half a unit of the last of them. *)
Theorem C89_digits (p : nat) s m e : well_formed (S754_finite s m e) ->
  exists t k d, show_sci p (S754_finite s m e) = sign_text s ++ t /\ decimal t k d /\
    (10 ^ Z.of_nat p <= k < 10 ^ (Z.of_nat p + 1))%Z /\ (Rabs (decval k d - dval (S754_finite false m e)) <= powerRZ 10 d / 2)%R.
Proof. exact (show_sci_finite p s m e). Qed.
Print Assumptions C89_digits.
Example C89_digits_ex : well_formed (S754_finite true 6004799503160661 (-54)) /\
  string_of_list_ascii (show_sci 3 (S754_finite true 6004799503160661 (-54))) = "-3.333e-01".
Proof. vm_compute. split; reflexivity. Qed.

(** Python: show(level) is what show() writes, for levels up to the largest int, and
    str() is level 0. *)
Theorem C89_python b l : (0 <= l < 2 ^ 31)%Z -> py_show b l = fst (show_body b l Default) /\ py_str b = fst (show_body b 0 Default).
Proof. exact (py_both b l). Qed.
Print Assumptions C89_python.
Example C89_python_ex : string_of_list_ascii (py_show (BMom (one_state minus0)) 0) = "State: moment0 mean=[1](-0)" /\
  string_of_list_ascii (py_str (BMom (mkMV (one_part dzero) [] [] [] []))) = "State: empty" /\
  string_of_list_ascii (py_str (BMat [[minus0; dzero]; [dzero; minus0]])) = ("State: [2,2]((-0,0),(0,-0))" ++ String newline "")%string.
Proof. vm_compute. repeat split. Qed.

(** Beyond it a higher level shows less. *)
Theorem C89_python_level_refuted : exists b l l', (1 <= l < l')%Z /\ (l' < 2 ^ 64)%Z /\
  (List.length (py_show b l') < List.length (py_show b l))%nat.
Proof. exact C89_python_level_refuted_w. Qed.
Print Assumptions C89_python_level_refuted.

(** States of Vector simulations show nothing, at any level: two of them cannot be
    told apart, though matrices with the same numbers can. *)
Theorem C89_vector_refuted : exists v w : list double, v <> w /\ py_str (BVec v) = [] /\
  (forall l, py_show (BVec v) l = py_show (BVec w) l) /\
  (forall l f, show_body (BVec v) l f = show_body (BVec w) l f) /\ py_str (BMat [v]) <> py_str (BMat [w]).
Proof. exact C89_vector_refuted_w. Qed.
Print Assumptions C89_vector_refuted.
