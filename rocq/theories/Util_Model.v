(** Model of src/util.cpp and the index iterator of src/flame/util.h.

    Text is a list of characters.  The C locale is assumed; the extraction of a
    double from a stream follows the C++ standard library (num_get: characters are
    collected as long as they can continue a number, then converted by strtod). *)
From Coq Require Import List String Ascii Bool ZArith NArith Arith.
From Verif Require Import SMap Dbl Config_Spec Lexer_Model Machine_Model.
Import ListNotations.

(** ** numeric_table, util.h:72-86 *)
Record ntable := mkNT { nt_cols : smap nat; nt_rows : list (list double) }.
Definition nt_empty : ntable := mkNT [] [].

(** numeric_table::readvec, util.cpp:13-23.  A length that is no multiple of the
    number of columns writes beyond the matrix.  The only caller (rf_cavity.cpp:870)
    passes 2; zero (a division by it) and negative numbers count as undefined. *)
Fixpoint chop (n k : nat) (l : list double) : list (list double) :=
  match k with O => [] | S k' => firstn n l :: chop n k' (skipn n l) end.
Definition readvec (t : ntable) (l : list double) (numcol : Z) : res ntable :=
  if (numcol <=? 0)%Z then Throw Abort
  else
    let n := Z.to_nat numcol in
    if Nat.eqb (List.length l mod n) 0
    then Ok (mkNT (nt_cols t) (chop n (List.length l / n) l))
    else Throw Abort.

(** isspace() in the C locale. *)
Definition is_space (c : ascii) : bool := (Ascii.eqb c " " || in_range 9 13 c)%bool.
Fixpoint drop (p : ascii -> bool) (l : list ascii) : list ascii :=
  match l with c :: l' => if p c then drop p l' else l | [] => [] end.

(** The characters collected for one number: sign, digits, dot, digits and, if there
    were digits, an exponent with sign and digits.  Returns the number, None if
    strtod does not take all of it or it is too large, and the rest. *)
Definition take_sign (l : list ascii) : bool * list ascii :=
  match l with
  | c :: r => if is_sign c then (Ascii.eqb c "-", r) else (false, l)
  | [] => (false, l)
  end.
Definition take_exp (l : list ascii) : option Z * list ascii :=
  match l with
  | c :: r =>
      if is_exp c then
        let '(s, r) := take_sign r in
        let (d, r) := span is_digit r in
        (match d with [] => None | _ => Some (if s then - digits_val d else digits_val d)%Z end, r)
      else (Some 0%Z, l)
  | [] => (Some 0%Z, l)
  end.
Definition extract (l : list ascii) : option double * list ascii :=
  let '(s, l) := take_sign l in
  let (d1, l) := span is_digit l in
  let '(d2, _, l) := scan_frac l in
  match d1 ++ d2 with
  | [] => (None, l)
  | d =>
      let '(e, l) := take_exp l in
      (match e with
       | None => None
       | Some e =>
           let x := strtod_val (digits_val d) (e - Z.of_nat (List.length d2)) in
           if is_inf x then None else Some (if s then dopp x else x)
       end, l)
  end.

(** The loop of util.cpp:70-77.  A number that can not be read ends it; at the end
    of the line that passes for the end of the numbers. *)
Fixpoint read_row (fuel : nat) (l : list ascii) : option (res (list double)) :=
  match drop is_space l with
  | [] => Some (Ok [])
  | l =>
      match fuel with
      | O => None
      | S f =>
          match extract l with
          | (Some x, []) => Some (Ok [x])
          | (Some x, r) =>
              match read_row f r with
              | Some (Ok xs) => Some (Ok (x :: xs))
              | o => o
              end
          | (None, []) => Some (Ok [])
          | (None, _) => Some (Throw RuntimeError)
          end
      end
  end.

(** std::getline: pieces ended by a newline, and what follows the last one. *)
Fixpoint lines (l : list ascii) : list (list ascii) :=
  match l with
  | [] => []
  | c :: l' =>
      if is_nl c then [] :: lines l'
      else match lines l' with [] => [[c]] | x :: r => (c :: x) :: r end
  end.

(** The words of a header, util.cpp:52-62. *)
Fixpoint words (l : list ascii) : list (list ascii) :=
  match l with
  | [] => []
  | c :: l' =>
      if is_blank c then words l'
      else match l' with
           | [] => [[c]]
           | c' :: _ => if is_blank c' then [c] :: words l'
                        else match words l' with [] => [[c]] | w :: r => (c :: w) :: r end
           end
  end.
Fixpoint number_cols (k : nat) (ws : list (list ascii)) (m : smap nat) : smap nat :=
  match ws with
  | [] => m
  | x :: ws' => number_cols (S k) ws' (sset (string_of_list_ascii x) k m)
  end.

(** Trailing carriage returns go, unless there is nothing else, util.cpp:44-46. *)
Definition is_eol (c : ascii) : bool := (Ascii.eqb c cr || Ascii.eqb c nl)%bool.
Definition trim (l : list ascii) : list ascii :=
  match rev (drop is_eol (rev l)) with [] => l | t => t end.

(** The loop over the lines, util.cpp:35-93: columns and rows so far (last row
    first). *)
Fixpoint read_lines (ls : list (list ascii)) (cols : smap nat) (rows : list (list double))
  : smap nat * option (res (list (list double))) :=
  match ls with
  | [] => (cols, Some (Ok rows))
  | l :: ls' =>
      match drop is_blank l with
      | [] => read_lines ls' cols rows
      | _ =>
          let l := trim l in
          match l with
          | "%"%char :: h => read_lines ls' (number_cols 0 (words h) []) rows
          | _ =>
              match read_row (List.length l) l with
              | None => (cols, None)
              | Some (Throw e) => (cols, Some (Throw e))
              | Some (Ok xs) =>
                  match rows with
                  | r :: _ => if Nat.eqb (List.length r) (List.length xs)
                              then read_lines ls' cols (xs :: rows)
                              else (cols, Some (Throw RuntimeError))
                  | [] => read_lines ls' cols [xs]
                  end
              end
          end
      end
  end.

(** numeric_table::read, util.cpp:25-111, of a stream (None: it could not be
    opened).  Without rows the old matrix keeps its shape and is filled with
    zeros. *)
Definition nt_read (t : ntable) (strm : option string) : ntable * option (res unit) :=
  match strm with
  | None => (t, Some (Throw RuntimeError))
  | Some s =>
      let '(cols, r) := read_lines (lines (list_ascii_of_string s)) (nt_cols t) [] in
      match r with
      | None => (mkNT cols (nt_rows t), None)
      | Some (Throw e) => (mkNT cols (nt_rows t), Some (Throw e))
      | Some (Ok []) => (mkNT cols (map (map (fun _ => dzero)) (nt_rows t)), Some (Ok tt))
      | Some (Ok rows) => (mkNT cols (rev rows), Some (Ok tt))
      end
  end.

(** ** numeric_table_cache, util.cpp:113-171 *)
(** Files: modification time (seconds) and content. *)
Definition files := string -> option (Z * string).
Definition tcache := smap (Z * ntable).

(** fetch, util.cpp:130-163.  [f1], [f2], [f3]: the files when the modification time
    is read, when the file is read, and when its modification time is read again.
    Other exceptions of the file system are RuntimeError. *)
Definition is_absolute (p : string) : bool :=
  match p with String "/" _ => true | _ => false end.
Definition fetch (f1 f2 f3 : files) (ch : tcache) (p : string) : tcache * option (res ntable) :=
  if negb (is_absolute p) then (ch, Some (Throw LogicError))
  else
    match f1 p with
    | None => (ch, Some (Throw RuntimeError))
    | Some (mtime, _) =>
        let miss :=
          match nt_read nt_empty (match f2 p with Some (_, s) => Some s | None => None end) with
          | (_, None) => (ch, None)
          | (_, Some (Throw e)) => (ch, Some (Throw e))
          | (t, Some (Ok _)) =>
              match f3 p with
              | None => (ch, Some (Throw RuntimeError))
              | Some (m, _) => (sset p (m, t) ch, Some (Ok t))
              end
          end in
        match sfind p ch with
        | None => miss
        | Some (m, t) => if Z.ltb m mtime then miss else (ch, Some (Ok t))
        end
    end.

(** What happens to files and cache: writing a file, removing it, clear()
    (util.cpp:165-169), and fetch with what happens to the files meanwhile. *)
Inductive fsop := FWrite (p : string) (mtime : Z) (s : string) | FRemove (p : string).
Definition fs_step (f : files) (o : fsop) : files :=
  match o with
  | FWrite p m s => fun q => if String.eqb q p then Some (m, s) else f q
  | FRemove p => fun q => if String.eqb q p then None else f q
  end.
Inductive tcop := OFile (o : fsop) | OClear | OFetch (p : string) (d1 d2 : list fsop).
Definition tc_step (st : files * tcache) (o : tcop) : files * tcache * option (res ntable) :=
  let '(f, ch) := st in
  match o with
  | OFile o => (fs_step f o, ch, None)
  | OClear => (f, [], None)
  | OFetch p d1 d2 =>
      let f2 := fold_left fs_step d1 f in
      let f3 := fold_left fs_step d2 f2 in
      let '(ch, r) := fetch f f2 f3 ch p in (f3, ch, r)
  end.
Definition tc_run (h : list tcop) : files * tcache :=
  fold_left (fun st o => fst (tc_step st o)) h (fun _ => None, []).

(** ** ndindex_iterate, util.h:114-137 *)
(** next(): the index and done afterwards. *)
Fixpoint nd_bump (lim idx : list nat) : list nat * bool :=
  match lim, idx with
  | m :: lim', i :: idx' =>
      if Nat.ltb (S i) m then (S i :: idx', false)
      else let '(r, d) := nd_bump lim' idx' in (0 :: r, d)
  | _, _ => (idx, true)
  end.
(** [for(ndindex_iterate<MAX> idx(n, lim); !idx.done; idx.next())]: the indices
    seen, None if it does not end within [fuel] steps. *)
Fixpoint nd_loop (fuel : nat) (lim idx : list nat) : option (list (list nat)) :=
  match fuel with
  | O => None
  | S f =>
      match nd_bump lim idx with
      | (_, true) => Some [idx]
      | (idx', false) => match nd_loop f lim idx' with Some r => Some (idx :: r) | None => None end
      end
  end.
Definition nd_visit (fuel : nat) (lim : list nat) : option (list (list nat)) :=
  nd_loop fuel lim (repeat 0 (List.length lim)).
