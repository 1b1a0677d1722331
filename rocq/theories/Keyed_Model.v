(** Model of the two caches of lattice-like data files, kept for the whole program:
    CurveMap (src/moment_sup.cpp:18, 396-417) for the files of field curves, and
    ElementRFCavity::CavConfMap (src/rf_cavity.cpp:22, 807-826) for the generic data files
    of cavities.  Unlike numeric_table_cache (Util_Model) both have the file's time as
    part of the key.

    The files are those of Util_Model: time of last change, in seconds, and text.  What
    the parser makes of a text is a parameter.  Simplified: the parser sees the text
    only (the file's path, which gives include paths, does not change with it). *)
From Coq Require Import DecimalString List String Ascii Bool ZArith.
From Verif Require Import SMap Dbl Config_Spec Machine_Model Util_Model.
Import ListNotations.
Open Scope string_scope.
Open Scope list_scope.

(** std::ostream << time_t *)
Definition time_text (m : Z) : string := NilZero.string_of_int (Z.to_int m).
(** SB()<<CurveFile<<"|"<<last_write_time(CurveFile) (moment_sup.cpp:398, rf_cavity.cpp:808) *)
Definition fkey (p : string) (m : Z) : string := (p ++ "|" ++ time_text m)%string.

Section Keyed.
Context {C : Type}.
Variable parse : string -> option C.   (* GLPSParser::parse_file; None: it throws *)

(** GetCurveData (moment_sup.cpp:395-417).  [f1], [f2]: the files when the time is read
    and when the text is read.  A missing file makes last_write_time or the parser
    throw. *)
Definition curve_get (f1 f2 : files) (ch : smap C) (p : string) : smap C * res C :=
  match f1 p with
  | None => (ch, Throw RuntimeError)
  | Some (m, _) =>
      match sfind (fkey p m) ch with
      | Some c => (ch, Ok c)
      | None =>
          match match f2 p with Some (_, s) => parse s | None => None end with
          | None => (ch, Throw RuntimeError)
          | Some c => (sset (fkey p m) c ch, Ok c)
          end
      end
  end.
(** ElementRFCavity::LoadCavityFile, generic files (rf_cavity.cpp:807-829).  What the
    parser throws is caught: the pointer stays null, is kept in the map, and used.
    [None]: the null pointer is dereferenced (line 829). *)
Definition cavity_get (f1 f2 : files) (ch : smap (option C)) (p : string) : smap (option C) * option (res C) :=
  match f1 p with
  | None => (ch, Some (Throw RuntimeError))
  | Some (m, _) =>
      let '(ch, conf) :=
        match sfind (fkey p m) ch with
        | Some c => (ch, c)
        | None =>
            let c := match f2 p with Some (_, s) => parse s | None => None end in
            (sset (fkey p m) c ch, c)
        end in
      (ch, match conf with Some c => Some (Ok c) | None => None end)
  end.

(** What happens to files and caches; [d]: what happens to the files between the two
    looks at the file. *)
Inductive kop := KFile (o : fsop) | KCurve (p : string) (d : list fsop) | KCavity (p : string) (d : list fsop).
Record kstate := mkK { k_files : files; k_curves : smap C; k_cavs : smap (option C) }.
Definition k0 : kstate := mkK (fun _ => None) [] [].
Definition kstep (st : kstate) (o : kop) : kstate :=
  match o with
  | KFile o => mkK (fs_step (k_files st) o) (k_curves st) (k_cavs st)
  | KCurve p d =>
      let f2 := fold_left fs_step d (k_files st) in
      mkK f2 (fst (curve_get (k_files st) f2 (k_curves st) p)) (k_cavs st)
  | KCavity p d =>
      let f2 := fold_left fs_step d (k_files st) in
      mkK f2 (k_curves st) (fst (cavity_get (k_files st) f2 (k_cavs st) p))
  end.
Definition krun (h : list kop) : kstate := fold_left kstep h k0.

(** ** Threads *)

(** Neither map has a lock.  GetCurveData is called while states are propagated
    (moment.cpp:1071, 1235, 1386), of any machine in any thread.  A thread's accesses to
    the map: find begins and ends (moment_sup.cpp:399); if nothing was found insert
    begins and ends (line 412). *)
Inductive acc := FindB (k : string) (v : C) | FindE (k : string) (v : C) | InsB (k : string) (v : C) | InsE (k : string) (v : C).
(** The map, what each thread has yet to do, and who is within which access (true: a
    write). *)
Record race := mkR { r_map : smap C; r_code : list (list acc); r_in : list (nat * bool) }.
Definition fetches (l : list (string * C)) : list acc := map (fun p => FindB (fst p) (snd p)) l.
Definition rput (r : race) (i : nat) (k : list acc) : list (list acc) :=
  update (r_code r) i k.
Definition leave (i : nat) (l : list (nat * bool)) : list (nat * bool) := filter (fun p => negb (Nat.eqb (fst p) i)) l.
(** A step of thread [i].  [None]: a data race, two accesses at the same time of which
    one is a write. *)
Definition rstep (r : race) (i : nat) : option race :=
  match nth_error (r_code r) i with
  | None | Some [] => Some r
  | Some (FindB k v :: c) =>
      if existsb snd (r_in r) then None
      else Some (mkR (r_map r) (rput r i (FindE k v :: c)) ((i, false) :: r_in r))
  | Some (FindE k v :: c) =>
      let c := match sfind k (r_map r) with Some _ => c | None => InsB k v :: c end in
      Some (mkR (r_map r) (rput r i c) (leave i (r_in r)))
  | Some (InsB k v :: c) =>
      match r_in r with
      | [] => Some (mkR (r_map r) (rput r i (InsE k v :: c)) [(i, true)])
      | _ => None
      end
  | Some (InsE k v :: c) =>
      (* std::map::insert leaves a value that is there *)
      Some (mkR (match sfind k (r_map r) with Some _ => r_map r | None => sset k v (r_map r) end)
                (rput r i c) (leave i (r_in r)))
  end.
Fixpoint rsteps (r : race) (s : list nat) : option race :=
  match s with
  | [] => Some r
  | i :: s' => match rstep r i with Some r' => rsteps r' s' | None => None end
  end.
(** Threads that fetch the files of these keys, with what the parser makes of them. *)
Definition race0 (ch : smap C) (ps : list (list (string * C))) : race := mkR ch (map fetches ps) [].
End Keyed.
Arguments kop : clear implicits.
Arguments kstate : clear implicits.
Arguments acc : clear implicits.
Arguments race : clear implicits.
