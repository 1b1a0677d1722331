(** Model of H5Loader (h5loader.h, h5loader.cpp), of H5StateWriter::open(), close(),
    prepare(), append() and setAttr() as far as they name things in files
    (h5writer.cpp:64-252) and of the program h5loadertest (h5loadertest.cpp).

    The HDF5 library is modelled by what it does to trees of groups and datasets.
    Left out: types of data other than numbers, attributes of datasets, links other than
    hard ones, errors that depend on the medium, files changed by others, the state
    after an exception. *)
From Coq Require Import List String Ascii Bool ZArith NArith Arith.
From Verif Require Import SMap Dbl Lexer_Model Util_Model Machine_Model Array_Model.
Import ListNotations.
Open Scope string_scope.
Open Scope list_scope.

(** HRet: returns.  HExn: throws.  HUndef: undefined behaviour.  HLoop: out of fuel. *)
Inductive hout (A : Type) := HRet (a : A) | HExn (e : exn) | HUndef | HLoop.
Arguments HRet {A}. Arguments HExn {A}. Arguments HUndef {A}. Arguments HLoop {A}.
Definition hbind {A B} (r : hout A) (f : A -> hout B) : hout B :=
  match r with HRet a => f a | HExn e => HExn e | HUndef => HUndef | HLoop => HLoop end.

(** ** What the library does *)
(** A group with its links, or a dataset by its number. *)
Inductive hnode := HGroup (links : list (string * hnode)) | HData (id : nat).
(** The files there are, by the names they are opened by; the names by which a file can
    be made; all datasets. *)
Record h5fs := mkFS { fs_file : string -> option hnode; fs_new : string -> bool; fs_sets : list dset }.
Definition set_file (fs : h5fs) (f : string) (n : hnode) : h5fs :=
  mkFS (fun g => if String.eqb g f then Some n else fs_file fs g) (fs_new fs) (fs_sets fs).
(** The parts of a path: between slashes, but for empty ones and the dot. *)
Definition part_of (s : string) (l : list string) : list string :=
  if String.eqb s "" || String.eqb s "." then l else s :: l.
Fixpoint parts_from (cur p : string) : list string :=
  match p with
  | EmptyString => part_of cur []
  | String c p' => if Ascii.eqb c "/" then part_of cur (parts_from "" p')
                   else parts_from (cur ++ String c EmptyString) p'
  end.
Definition parts (p : string) : list string := parts_from "" p.
(** What is found in this order of links. *)
Fixpoint node_at (n : hnode) (l : list string) : option hnode :=
  match l with
  | [] => Some n
  | c :: r => match n with
              | HGroup links => match sfind c links with Some n' => node_at n' r | None => None end
              | HData _ => None
              end
  end.
(** Makes the last link; the others must be there. *)
Fixpoint put_at (n : hnode) (l : list string) (x : hnode) : option hnode :=
  match l, n with
  | [], _ => None
  | _, HData _ => None
  | [c], HGroup links => Some (HGroup (sset c x links))
  | c :: r, HGroup links =>
      match sfind c links with
      | Some n' => match put_at n' r x with Some n2 => Some (HGroup (sset c n2 links)) | None => None end
      | None => None
      end
  end.

(** ** The search for the file, h5loader.cpp:59-74, h5writer.cpp:74-89 *)
Fixpoint take (n : nat) (s : string) : string :=
  match n, s with S k, String c s' => String c (take k s') | _, _ => "" end.
Fixpoint skip (n : nat) (s : string) : string :=
  match n, s with S k, String _ s' => skip k s' | _, _ => s end.
(** find_last_of('/', pos); None is npos. *)
Fixpoint last_slash (i : nat) (s : string) : option nat :=
  match s with
  | EmptyString => None
  | String c s' => match last_slash (S i) s' with
                   | Some k => Some k
                   | None => if Ascii.eqb c "/" then Some i else None
                   end
  end.
Definition find_last (s : string) (pos : option nat) : option nat :=
  last_slash 0 (match pos with None => s | Some k => take (S k) s end).
(** sep-1 of a size_t: 0-1 is npos, and npos-1 is beyond the end of every string. *)
Definition before (sep : option nat) : option nat :=
  match sep with Some (S k) => Some k | _ => None end.
(** substr(0, sep). *)
Definition upto (s : string) (sep : option nat) : string := match sep with None => s | Some k => take k s end.
(** The loop: where the file name ends, the file name and what was opened. *)
Fixpoint find_file {A} (fuel : nat) (openf : string -> option A) (spec : string) (sep : option nat)
  : hout (option nat * string * A) :=
  match fuel with
  | O => HLoop
  | S fuel' =>
      let sep := find_last spec (before sep) in
      let fname := upto spec sep in
      match openf fname with
      | Some a => HRet (sep, fname, a)
      | None => match sep with
                | None => HExn RuntimeError
                | Some _ => find_file fuel' openf spec sep
                end
      end
  end.

(** ** H5Loader *)
(** The opened file and the opened group. *)
Record loader := mkLd { ld_root : hnode; ld_group : hnode }.
(** substr(sep+1): npos+1 is 0. *)
Definition after (s : string) (sep : option nat) : string := match sep with None => s | Some k => skip (S k) s end.
(** openGroup; an empty name is an error. *)
Definition open_group (root : hnode) (p : string) : option hnode :=
  if String.eqb p "" then None
  else match node_at root (parts p) with Some (HGroup l) => Some (HGroup l) | _ => None end.
(** open(), h5loader.cpp:50-86. *)
Definition loader_open (fuel : nat) (fs : h5fs) (spec : string) : hout loader :=
  hbind (find_file fuel (fs_file fs) spec None) (fun t =>
  let '(sep, _, root) := t in
  match open_group root (after spec sep) with
  | Some g => HRet (mkLd root g)
  | None => HExn RuntimeError
  end).
(** A matrix: rows, columns, entries. *)
Record hmat := mkHM { hm_rows : nat; hm_cols : nat; hm_at : nat -> nat -> option double }.
(** Conversion to double by the library. *)
Definition as_double (c : cell) : double := match c with CD x => x | CN n => d_of_Z (Z.of_N n) end.
Definition read_at (s : dset) (idx : list nat) : option double :=
  match d_val s idx with Some c => Some (as_double c) | None => None end.
(** openDataSet: a name that begins with a slash is looked up from the root. *)
Definition open_dset (fs : h5fs) (ld : loader) (name : string) : option dset :=
  match name with
  | EmptyString => None
  | String c _ =>
      match node_at (if Ascii.eqb c "/" then ld_root ld else ld_group ld) (parts name) with
      | Some (HData id) => nth_error (fs_sets fs) id
      | _ => None
      end
  end.
(** load(), h5loader.cpp:96-128.  fsize is {1,1} but for the extents there are.  The
    address of the first of no elements fails BOOST_UBLAS_CHECK. *)
Definition loader_load (fs : h5fs) (ld : loader) (name : string) : hout hmat :=
  match open_dset fs ld name with
  | None => HExn RuntimeError
  | Some s =>
      match d_ext s with
      | [] => HRet (mkHM 1 1 (fun _ _ => read_at s []))
      | [n] => if Nat.eqb n 0 then HExn BadIndex else HRet (mkHM n 1 (fun i _ => read_at s [i]))
      | [n; m] => if Nat.eqb (n * m) 0 then HExn BadIndex else HRet (mkHM n m (fun i j => read_at s [i; j]))
      | _ => HExn RuntimeError
      end
  end.

(** ** h5loadertest, h5loadertest.cpp:14-41 *)
(** None: an error message, and exit code 1. *)
Definition loadertest (fuel : nat) (fs : h5fs) (spec : string) : hout (option hmat) :=
  match find_last spec None with
  | None => HRet None
  | Some k =>
      match loader_open fuel fs (take k spec) with
      | HRet ld => match loader_load fs ld (skip (S k) spec) with
                   | HRet m => HRet (Some m)
                   | HExn _ => HRet None
                   | HUndef => HUndef | HLoop => HLoop
                   end
      | HExn _ => HRet None
      | HUndef => HUndef | HLoop => HLoop
      end
  end.

(** ** H5StateWriter *)
(** The group that is open, by file and path; the elements, and the number of the first
    dataset of theirs.  The datasets of the elements are those of the file: nothing else
    writes to them. *)
Record writer := mkW { w_group : option (string * list string); w_base : nat; w_elems : list helem }.
(** The constructor, h5writer.cpp:37. *)
Definition writer0 : writer := mkW None 0 [].
(** openFile with H5F_ACC_RDWR|H5F_ACC_CREAT: a file that is not there is made. *)
Definition open_rw (fs : h5fs) (f : string) : option hnode :=
  match fs_file fs f with
  | Some n => Some n
  | None => if fs_new fs f then Some (HGroup []) else None
  end.
(** open(), h5writer.cpp:64-112: a group that is there is unlinked, and made anew.
    close() forgets the group and the file; elements are kept. *)
Definition writer_open (fuel : nat) (fs : h5fs) (w : writer) (spec : string) : hout (h5fs * writer) :=
  hbind (find_file fuel (open_rw fs) spec None) (fun t =>
  let '(sep, fname, root) := t in
  match sep with
  | None => HRet (set_file fs fname root, mkW (Some (fname, [])) (w_base w) (w_elems w))
  | Some k =>
      let group := skip (S k) spec in
      match put_at root (parts group) (HGroup []) with
      | Some root' => HRet (set_file fs fname root', mkW (Some (fname, parts group)) (w_base w) (w_elems w))
      | None => HExn RuntimeError
      end
  end).
(** createDataSet of each element in turn; a name that is taken is an error. *)
Fixpoint link_all (base : nat) (l : list helem) (links : list (string * hnode)) : option (list (string * hnode)) :=
  match l with
  | [] => Some links
  | h :: r => match sfind (h_name h) links with
              | Some _ => None
              | None => link_all (S base) r (sset (h_name h) (HData base) links)
              end
  end.
(** The group has these links now. *)
Definition relink (root : hnode) (path : list string) (links : list (string * hnode)) : option hnode :=
  match path with [] => Some (HGroup links) | _ => put_at root path (HGroup links) end.
(** prepare(), h5writer.cpp:122-188. *)
Definition writer_prepare (ab : abi) (k : kind) (fs : h5fs) (w : writer) : hout (h5fs * writer) :=
  match w_group w with
  | None => HExn RuntimeError
  | Some (f, path) =>
      match h5_prepare 100 ab k 0 with
      | None => HUndef
      | Some [] => HExn LogicError
      | Some els =>
          match fs_file fs f with
          | None => HExn RuntimeError
          | Some root =>
              match node_at root path with
              | Some (HGroup links) =>
                  match link_all (List.length (fs_sets fs)) els links with
                  | None => HExn RuntimeError
                  | Some links' =>
                      match relink root path links' with
                      | None => HExn RuntimeError
                      | Some root' =>
                          HRet (mkFS (fs_file (set_file fs f root')) (fs_new fs) (fs_sets fs ++ map h_dset els),
                                mkW (Some (f, path)) (List.length (fs_sets fs)) els)
                      end
                  end
              | _ => HExn RuntimeError
              end
          end
      end
  end.
(** The datasets from this number on are now these. *)
Definition put_sets (sets : list dset) (base : nat) (new : list dset) : list dset :=
  firstn base sets ++ new ++ skipn (base + List.length new) sets.
(** append(), h5writer.cpp:190-234. *)
Definition writer_append (ab : abi) (km : kind * mem) (fs : h5fs) (w : writer) : hout (h5fs * writer) :=
  hbind (match w_elems w with [] => writer_prepare ab (fst km) fs w | _ => HRet (fs, w) end) (fun t =>
  let '(fs1, w1) := t in
  match h5_append_to ab (fst km) (snd km) (w_elems w1) with
  | None => HUndef
  | Some els => HRet (mkFS (fs_file fs1) (fs_new fs1) (put_sets (fs_sets fs1) (w_base w1) (map h_dset els)),
                      mkW (w_group w1) (w_base w1) els)
  end).
Fixpoint writer_append_all (ab : abi) (states : list (kind * mem)) (fs : h5fs) (w : writer) : hout (h5fs * writer) :=
  match states with
  | [] => HRet (fs, w)
  | s :: r => hbind (writer_append ab s fs w) (fun t => writer_append_all ab r (fst t) (snd t))
  end.

(** setAttr(), h5writer.cpp:236-252: the bytes of the value, read from a string whose
    memory holds these bytes.  None: reads beyond the end of it. *)
Fixpoint strlen (b : list ascii) : option nat :=
  match b with
  | [] => None
  | c :: r => if Ascii.eqb c "000" then Some 0 else match strlen r with Some n => Some (S n) | None => None end
  end.
Definition attr_bytes (b : list ascii) : option (list ascii) :=
  match strlen b with
  | None => None
  | Some n => if Nat.leb (Nat.max 16 n) (List.length b) then Some (firstn (Nat.max 16 n) b) else None
  end.
