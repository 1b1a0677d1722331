(** The generator of databases for virtual accelerators: python/flame/ioc.py and the
    files in python/flame/data.

    Left out: log messages, the copying of files, the text layout of
    lattice.substitutions (here the rows of each of its file sections, in order; the
    quotes are those of names from lattice files, which have no quotes), fields of records
    but name, DTYP and link.  EPICS: macros are replaced as by macLib, values first. *)
From Coq Require Import List String Ascii Bool NArith ZArith Arith.
From Verif Require Import SMap Machine_Model.
Import ListNotations.
Open Scope string_scope.
Open Scope list_scope.

(** dict(elem) (ioc.py:38-40): what is used of it. *)
Record gelem := mkG { g_name : string; g_type : string }.
(** ioc.py:12-13. *)
Definition default_mangler (e : gelem) : string := "$(PREF)" ++ g_name e ++ ":".

(** '%d' of a number that is not negative (ioc.py:49-52). *)
Definition digit (n : nat) : ascii := ascii_of_nat (48 + n).
Fixpoint dec_fuel (f n : nat) : list ascii :=
  match f with
  | O => []
  | S f => if Nat.ltb n 10 then [digit n] else dec_fuel f (Nat.div n 10) ++ [digit (Nat.modulo n 10)]
  end.
Definition dec (n : nat) : string := string_of_list_ascii (dec_fuel (S n) n).

(** "x in outnames". *)
Definition is_in (x : string) (l : list string) : bool := existsb (String.eqb x) l.
(** The loop ioc.py:48-50; None: more passes than allowed. *)
Fixpoint free_number (fuel : nat) (rname : string) (n : nat) (out : list string) : option nat :=
  match fuel with
  | O => None
  | S f => if is_in (rname ++ dec n) out then free_number f rname (S n) out else Some n
  end.

(** (elem, ename, rname). *)
Record row := mkRow { w_elem : gelem; w_ename : string; w_rname : string }.

Section Gen.
(** self._M; os.path.isfile(os.path.join(self._I, etype+'.template')). *)
Variables (mangle : gelem -> string) (is_file : string -> bool).

(** ioc.py:42-53. *)
Definition name_it (out : list string) (e : gelem) : option (string * string) :=
  let rname := mangle e in
  if is_in rname out then
    match free_number (S (List.length out)) rname 1 out with
    | None => None
    | Some n => Some (g_name e ++ "[" ++ dec n ++ "]", rname ++ dec n)%string
    end
  else Some (g_name e, rname).

(** The loop ioc.py:37-68, what becomes of eall. *)
Fixpoint rows (out : list string) (es : list gelem) : option (list row) :=
  match es with
  | [] => Some []
  | e :: es' =>
      match name_it out e with
      | None => None
      | Some (ename, rname) =>
          match rows (rname :: out) es' with
          | None => None
          | Some rest => Some (if is_file (g_type e) then mkRow e ename rname :: rest else rest)
          end
      end
  end.
(** nmarkers (ioc.py:43-44). *)
Definition markers (es : list gelem) : nat := List.length (filter (fun e => String.eqb (g_type e) "marker") es).
(** eout (ioc.py:68), a dictionary in order of insertion. *)
Fixpoint put_row (w : row) (l : list (string * list row)) : list (string * list row) :=
  match l with
  | [] => [(g_type (w_elem w), [w])]
  | (t, ws) :: l' => if String.eqb t (g_type (w_elem w)) then (t, ws ++ [w]) :: l' else (t, ws) :: put_row w l'
  end.
Definition groups (l : list row) : list (string * list row) := fold_left (fun g w => put_row w g) l [].

(** What emit_subst (ioc.py:25-107) writes: the file sections of lattice.substitutions
    (84-98) and NELM in st.cmd (103). *)
Record output := mkOut { o_sections : list (string * list row); o_nelm : nat }.
Definition emit (es : list gelem) : option (res output) :=
  match rows [] es with
  | None => None
  | Some all =>
      match groups all with
      | [] => Some (Throw RuntimeError)
      | gs => Some (Ok (mkOut (("common.template", all) :: map (fun g => (fst g ++ ".template", snd g)%string) gs) (markers es)))
      end
  end.
End Gen.

(** ** The files *)
Record rec := mkR { r_name : string; r_dtyp : string; r_link : string }.
(** python/flame/data/core.db:1-33. *)
Definition core_db : list rec :=
  [mkR "$(P)Msg-I" "FLAME Last Message" "$(SIM)";
   mkR "$(P)Run-Cmd" "FLAME Simulate" "$(SIM)";
   mkR "$(P)Time-I" "FLAME Runtime" "$(SIM)";
   mkR "$(P)RunCnt-I" "FLAME Run Count" "$(SIM)"].

(** python/flame/data/orbit.db:1-90. *)
Definition orbit_db : list rec :=
  [mkR "$(P)IDX-I" "FLAME Index Orbit" "$(SIM) $(ENAME=marker) $(VECTOR=pos)";
   mkR "$(P)S-I" "FLAME State Orbit" "$(SIM) $(ENAME=marker) pos";
   mkR "$(P)X-I" "FLAME State Orbit" "$(SIM) $(ENAME=marker) $(VECTOR=moment0_env)[0]";
   mkR "$(P)PX-I" "FLAME State Orbit" "$(SIM) $(ENAME=marker) $(VECTOR=moment0_env)[1]";
   mkR "$(P)Y-I" "FLAME State Orbit" "$(SIM) $(ENAME=marker) $(VECTOR=moment0_env)[2]";
   mkR "$(P)PY-I" "FLAME State Orbit" "$(SIM) $(ENAME=marker) $(VECTOR=moment0_env)[3]";
   mkR "$(P)Z-I" "FLAME State Orbit" "$(SIM) $(ENAME=marker) $(VECTOR=moment0_env)[4]";
   mkR "$(P)PZ-I" "FLAME State Orbit" "$(SIM) $(ENAME=marker) $(VECTOR=moment0_env)[5]";
   mkR "$(P)Ek-I" "FLAME State Orbit" "$(SIM) $(ENAME=marker) $(VECTOR=IonEk)[0]";
   mkR "$(P)EkRef-I" "FLAME State Orbit" "$(SIM) $(ENAME=marker) $(VECTOR=ref_IonEk)";
   mkR "$(P)Phas-I" "FLAME State Orbit" "$(SIM) $(ENAME=marker) $(VECTOR=phis)[0]";
   mkR "$(P)PhasRef-I" "FLAME State Orbit" "$(SIM) $(ENAME=marker) $(VECTOR=ref_phis)"].

(** python/flame/data/common.template:1-18. *)
Definition common_template : list rec :=
  [mkR "$(P)IDX-I" "FLAME Index" "$(SIM) $(ELEM)";
   mkR "$(P)Name-I" "" "";
   mkR "$(P)S-I" "FLAME State" "$(SIM) $(ELEM) pos"].

(** python/flame/data/bpm.template:1-51. *)
Definition bpm_template : list rec :=
  [mkR "$(P)X-I" "FLAME State" "$(SIM) $(ELEM) $(ENAME=moment0_env)[0]";
   mkR "$(P)PX-I" "FLAME State" "$(SIM) $(ELEM) $(ENAME=moment0_env)[1]";
   mkR "$(P)Y-I" "FLAME State" "$(SIM) $(ELEM) $(ENAME=moment0_env)[2]";
   mkR "$(P)PY-I" "FLAME State" "$(SIM) $(ELEM) $(ENAME=moment0_env)[3]";
   mkR "$(P)Z-I" "FLAME State" "$(SIM) $(ELEM) $(ENAME=moment0_env)[4]";
   mkR "$(P)PZ-I" "FLAME State" "$(SIM) $(ELEM) $(ENAME=moment0_env)[5]";
   mkR "$(P)EK-I" "FLAME State" "$(SIM) $(ELEM) $(ENAME=IonEk)[0]"].

(** python/flame/data/drift.template:1-1. *)
Definition drift_template : list rec :=
  [].

(** python/flame/data/edipole.template:1-13. *)
Definition edipole_template : list rec :=
  [mkR "$(P)Angle-SP" "FLAME Setting" "$(SIM) $(ELEM) phi";
   mkR "$(P)Angle-RB" "FLAME Setting" "$(SIM) $(ELEM) phi"].

(** python/flame/data/equad.template:1-13. *)
Definition equad_template : list rec :=
  [mkR "$(P)V-SP" "FLAME Setting" "$(SIM) $(ELEM) V";
   mkR "$(P)V-RB" "FLAME Setting" "$(SIM) $(ELEM) V"].

(** python/flame/data/marker.template:1-95. *)
Definition marker_template : list rec :=
  [mkR "$(P)X-I" "FLAME State" "$(SIM) $(ELEM) $(ENAME=moment0_env)[0]";
   mkR "$(P)PX-I" "FLAME State" "$(SIM) $(ELEM) $(ENAME=moment0_env)[1]";
   mkR "$(P)Y-I" "FLAME State" "$(SIM) $(ELEM) $(ENAME=moment0_env)[2]";
   mkR "$(P)PY-I" "FLAME State" "$(SIM) $(ELEM) $(ENAME=moment0_env)[3]";
   mkR "$(P)Z-I" "FLAME State" "$(SIM) $(ELEM) $(ENAME=moment0_env)[4]";
   mkR "$(P)PZ-I" "FLAME State" "$(SIM) $(ELEM) $(ENAME=moment0_env)[5]";
   mkR "$(P)X_RMS-I" "FLAME State" "$(SIM) $(ELEM) $(ENAME=moment0_rms)[0]";
   mkR "$(P)PX_RMS-I" "FLAME State" "$(SIM) $(ELEM) $(ENAME=moment0_rms)[1]";
   mkR "$(P)Y_RMS-I" "FLAME State" "$(SIM) $(ELEM) $(ENAME=moment0_rms)[2]";
   mkR "$(P)PY_RMS-I" "FLAME State" "$(SIM) $(ELEM) $(ENAME=moment0_rms)[3]";
   mkR "$(P)Z_RMS-I" "FLAME State" "$(SIM) $(ELEM) $(ENAME=moment0_rms)[4]";
   mkR "$(P)PZ_RMS-I" "FLAME State" "$(SIM) $(ELEM) $(ENAME=moment0_rms)[5]";
   mkR "$(P)EK-I" "FLAME State" "$(SIM) $(ELEM) $(ENAME=IonEk)[0]"].

(** python/flame/data/orbtrim.template:1-1. *)
Definition orbtrim_template : list rec :=
  [].

(** python/flame/data/quadrupole.template:1-13. *)
Definition quadrupole_template : list rec :=
  [mkR "$(P)B-SP" "FLAME Setting" "$(SIM) $(ELEM) B2";
   mkR "$(P)B-RB" "FLAME Setting" "$(SIM) $(ELEM) B2"].

(** python/flame/data/rfcavity.template:1-27. *)
Definition rfcavity_template : list rec :=
  [mkR "$(P)Phas-SP" "FLAME Setting" "$(SIM) $(ELEM) phi";
   mkR "$(P)Phas-RB" "FLAME Setting" "$(SIM) $(ELEM) phi";
   mkR "$(P)Scle-SP" "FLAME Setting" "$(SIM) $(ELEM) scl_fac";
   mkR "$(P)Scle-RB" "FLAME Setting" "$(SIM) $(ELEM) scl_fac"].

(** python/flame/data/sbend.template:1-13. *)
Definition sbend_template : list rec :=
  [mkR "$(P)Angle-SP" "FLAME Setting" "$(SIM) $(ELEM) phi";
   mkR "$(P)Angle-RB" "FLAME Setting" "$(SIM) $(ELEM) phi"].

(** python/flame/data/sextupole.template:1-13. *)
Definition sextupole_template : list rec :=
  [mkR "$(P)B-SP" "FLAME Setting" "$(SIM) $(ELEM) B3";
   mkR "$(P)B-RB" "FLAME Setting" "$(SIM) $(ELEM) B3"].

(** python/flame/data/solenoid.template:1-13. *)
Definition solenoid_template : list rec :=
  [mkR "$(P)B-SP" "FLAME Setting" "$(SIM) $(ELEM) B";
   mkR "$(P)B-RB" "FLAME Setting" "$(SIM) $(ELEM) B"].

(** python/flame/data/source.template:1-42. *)
Definition source_template : list rec :=
  [mkR "$(P)X-I" "FLAME State" "$(SIM) $(ELEM) $(ENAME=moment0_env)[0]";
   mkR "$(P)PX-I" "FLAME State" "$(SIM) $(ELEM) $(ENAME=moment0_env)[1]";
   mkR "$(P)Y-I" "FLAME State" "$(SIM) $(ELEM) $(ENAME=moment0_env)[2]";
   mkR "$(P)PY-I" "FLAME State" "$(SIM) $(ELEM) $(ENAME=moment0_env)[3]";
   mkR "$(P)Z-I" "FLAME State" "$(SIM) $(ELEM) $(ENAME=moment0_env)[4]";
   mkR "$(P)PZ-I" "FLAME State" "$(SIM) $(ELEM) $(ENAME=moment0_env)[5]"].

(** python/flame/data/stripper.template:1-1. *)
Definition stripper_template : list rec :=
  [].

(** The files of that directory named [type].template. *)
Definition shipped : list (string * list rec) :=
  [("bpm", bpm_template); ("drift", drift_template); ("edipole", edipole_template); ("equad", equad_template); ("marker", marker_template); ("orbtrim", orbtrim_template); ("quadrupole", quadrupole_template); ("rfcavity", rfcavity_template); ("sbend", sbend_template); ("sextupole", sextupole_template); ("solenoid", solenoid_template); ("source", source_template); ("stripper", stripper_template)].

(** os.path.isfile(tempfile) (ioc.py:57-58) for that directory; the contents of those
    files. *)
Definition has_template (t : string) : bool := match sfind t (("common", common_template) :: shipped) with Some _ => true | None => false end.
Definition template_file (f : string) : option (list rec) :=
  sfind f (("common.template", common_template) :: map (fun p => (fst p ++ ".template", snd p)%string) shipped).

(** ** Macros *)
(** "name" or "name=default" (as in python/flame/data/orbit.db:6 or bpm.template:5). *)
Fixpoint split_eq (l acc : list ascii) : list ascii * option (list ascii) :=
  match l with
  | [] => (rev acc, None)
  | c :: r => if Ascii.eqb c "=" then (rev acc, Some r) else split_eq r (c :: acc)
  end.
(** The value of a macro (python/flame/data/st.cmd:11-13, the rows of ioc.py:87-96). *)
Definition macro (env : list (string * string)) (l : list ascii) : option (list ascii) :=
  let '(n, d) := split_eq l [] in
  match sfind (string_of_list_ascii n) env with
  | Some v => Some (list_ascii_of_string v)
  | None => d
  end.
(** [Some acc]: within the parentheses of a macro; None: a macro without value. *)
Fixpoint expand_list (env : list (string * string)) (l : list ascii) (mode : option (list ascii)) : option (list ascii) :=
  match mode, l with
  | None, [] => Some []
  | None, c :: r =>
      if Ascii.eqb c "$" then
        match r with
        | "("%char :: r' => expand_list env r' (Some [])
        | _ => option_map (cons c) (expand_list env r None)
        end
      else option_map (cons c) (expand_list env r None)
  | Some _, [] => None
  | Some acc, c :: r =>
      if Ascii.eqb c ")" then
        match macro env (rev acc), expand_list env r None with
        | Some v, Some t => Some (v ++ t)
        | _, _ => None
        end
      else expand_list env r (Some (c :: acc))
  end.
(** All macros of a text of python/flame/data. *)
Definition expand (env : list (string * string)) (s : string) : option string :=
  option_map string_of_list_ascii (expand_list env (list_ascii_of_string s) None).

(** ** The database *)
(** All, if none is missing. *)
Fixpoint all_some {A} (l : list (option A)) : option (list A) :=
  match l with
  | [] => Some []
  | Some a :: l' => option_map (cons a) (all_some l')
  | None :: _ => None
  end.
(** A record as it is loaded (python/flame/data/st.cmd:11-13). *)
Definition load (env : list (string * string)) (r : rec) : option rec :=
  match expand env (r_name r), expand env (r_link r) with
  | Some n, Some l => Some (mkR n (r_dtyp r) l)
  | _, _ => None
  end.
(** A row {P="rname", ELEM="ename"} of a section of lattice.substitutions. *)
Definition load_row (pref sim : string) (file : string) (w : row) : option (list rec) :=
  let env := [("PREF", pref); ("SIM", sim)] in
  match template_file file, expand env (w_rname w), expand env (w_ename w) with
  | Some rs, Some p, Some e => all_some (map (load (("P", p) :: ("ELEM", e) :: env)) rs)
  | _, _, _ => None
  end.
(** A file section (ioc.py:84-98). *)
Definition load_section (pref sim : string) (s : string * list row) : option (list rec) :=
  option_map (@List.concat rec) (all_some (map (load_row pref sim (fst s)) (snd s))).
(** st.cmd:11-13, the prefix and the name of the simulation being parameters (there TST:
    and THESIM). *)
Definition database (pref sim : string) (o : output) : option (list rec) :=
  match all_some (map (load [("P", pref); ("SIM", sim)]) core_db), all_some (map (load [("P", pref); ("SIM", sim)]) orbit_db),
        all_some (map (load_section pref sim) (o_sections o)) with
  | Some a, Some b, Some c => Some (a ++ b ++ List.concat c)
  | _, _, _ => None
  end.
