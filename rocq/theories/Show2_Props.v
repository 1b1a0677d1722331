(** C89, continued: the text of machines made from lattice files. *)
From Coq Require Import List String Ascii Bool NArith ZArith.
From Verif Require Import SMap Dbl Config_Spec Lexer_Model Lexer_Spec Glps_Model Glps_Spec Glps6_Proofs Machine_Model
  Show_Model Show_Spec Show5_Proofs Show6_Proofs.
Import ListNotations.
Open Scope string_scope.
Open Scope list_scope.

(** The lines of elements in the text of a machine made from a lattice file are the
    flattening of the line whose name the Config shows, in order and numbered from
    zero, each with the type that the file gives to the element.  Whatever the file
    contains, it cannot make up or hide an element: of the names only those of the
    registered simulation types, which are not from the file, must be on one line. *)
Theorem C89_lattice {D B} (own : elem D B -> extra) (r : registry D B) w vars s t m f :
  ssorted vars -> parse_text w vars true s = Parsed t -> new_machine r t = Ok m ->
  (forall k, sfind k r <> None -> one_line k) ->
  exists p1 n ty ms p2 nss,
    spells s (p1 ++ SLine n ty ms :: p2) /\ tlookup "name" t = Some (TStr n) /\ flats w vars p1 ms nss /\
    Forall2 (fun l q => exists et ps, In (SElem (snd q) et ps) (p1 ++ SLine n ty ms :: p2) /\ element_line l (N.of_nat (fst q)) (snd q) et)
      (lines_with "Element " (fst (show_machine own m f))) (combine (seq 0 (List.length (List.concat nss))) (List.concat nss)).
Proof. exact (lattice_text own r w vars s t m f). Qed.
Print Assumptions C89_lattice.
Definition lattice89 : string :=
  "sim_type = ""Toy""; x = 3; a:b: push, name=""Element 7: q (push)""; c: stop, x=1; l: LINE = (a:b, 2*c); k: LINE = (-l);".
Example C89_lattice_ex :
  match parse_text demo [] true lattice89 with
  | Parsed t => match new_machine reg89 t with
                | Ok m => map string_of_list_ascii (lines_with "Element " (fst (show_machine none89 m Default))) =
                          ["Element 0: c (stop)"; "Element 1: c (stop)"; "Element 2: a:b (push)"]
                | Throw _ => False
                end
  | _ => False
  end /\ (forall k, sfind k reg89 <> None -> one_line k).
Proof.
  split; [vm_compute; reflexivity|].
  intros k. unfold reg89. cbn [sfind]. destruct (String.eqb_spec k "Toy") as [->|]; [|congruence].
  intros _ H. vm_compute in H. intuition discriminate.
Qed.

(** Python shows all of it: names from a file do not end the C string early. *)
Theorem C89_lattice_python {D B} (own : elem D B -> extra) (r : registry D B) w vars s t m :
  ssorted vars -> parse_text w vars true s = Parsed t -> new_machine r t = Ok m ->
  (forall k, sfind k r <> None -> ~ In "000"%char (chars k)) -> py_machine_str own m = fst (show_machine own m Default).
Proof. exact (lattice_python own r w vars s t m). Qed.
Print Assumptions C89_lattice_python.
Example C89_lattice_python_ex :
  match parse_text demo [] true lattice89 with
  | Parsed t => match new_machine reg89 t with
                | Ok m => map string_of_list_ascii (lines (py_machine_str (fun e => if N.eqb (el_index e) 0 then InitVec [minus0] else Nothing) m)) =
                          ["sim_type: Toy"; "#Elements: 3"; "Element 0: c (stop)"; "Initial: [1](-0)"; "Element 1: c (stop)"; "Element 2: a:b (push)"; ""]
                | Throw _ => False
                end
  | _ => False
  end.
Proof. vm_compute. reflexivity. Qed.

(** The text can be read back: two machines made from lattice files whose texts are
    equal have the same simulation type and the same names and types of elements in
    the same order. *)
Theorem C89_lattice_faithful {D B D' B'} own own' (r : registry D B) (r' : registry D' B') w w' vars vars' s s' t t' m m' f f' :
  ssorted vars -> parse_text w vars true s = Parsed t -> new_machine r t = Ok m -> (forall k, sfind k r <> None -> one_line k) ->
  ssorted vars' -> parse_text w' vars' true s' = Parsed t' -> new_machine r' t' = Ok m' -> (forall k, sfind k r' <> None -> one_line k) ->
  fst (show_machine own m f) = fst (show_machine own' m' f') ->
  m_simtype m = m_simtype m' /\ map (fun e => (el_name e, el_tname e)) (m_elems m) = map (fun e => (el_name e, el_tname e)) (m_elems m').
Proof. exact (lattice_faithful own own' r r' w w' vars vars' s s' t t' m m' f f'). Qed.
Print Assumptions C89_lattice_faithful.
Example C89_lattice_faithful_ex :
  match parse_text demo [] true lattice89, parse_text demo [] true "sim_type = ""Toy""; a:b: push, x=1; c: stop, x=2; d: LINE = (c, c); e: LINE = (d, a:b);" with
  | Parsed t, Parsed t' =>
      tlookup "name" t <> tlookup "name" t' /\
      match new_machine reg89 t, new_machine reg89 t' with
      | Ok m, Ok m' => fst (show_machine none89 m Default) = fst (show_machine none89 m' Default) /\
          map (fun e => (el_name e, el_tname e)) (m_elems m) = [("c", "stop"); ("c", "stop"); ("a:b", "push")]
      | _, _ => False
      end
  | _, _ => False
  end.
Proof. vm_compute. repeat split; discriminate. Qed.
