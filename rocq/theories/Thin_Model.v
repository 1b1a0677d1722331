(** Model of the reader of thin lens files, src/rf_cavity.cpp:767-800, and of the data
    files of a cavity as texts. *)
From Coq Require Import List String Ascii Bool ZArith Arith Reals.
From Verif Require Import SMap Dbl Config_Spec Lexer_Model Machine_Model Util_Model Moment_Model Cavity_Model.
Import ListNotations.

(** std::istringstream over a line: what is left, eofbit and failbit. *)
Record istr := mkIS { is_rest : list ascii; is_eof : bool; is_fail : bool }.
Definition is_open (l : list ascii) : istr := mkIS l false false.
(** The sentry of operator>>: sets failbit unless the stream is good, then skips white
    space; at the end of the text eofbit and failbit. *)
Definition sentry (s : istr) : istr :=
  if (is_eof s || is_fail s)%bool then mkIS (is_rest s) (is_eof s) true
  else match drop is_space (is_rest s) with
       | [] => mkIS [] true true
       | l => mkIS l false false
       end.
(** operator>>(std::string&) into an empty string. *)
Definition get_word (s : istr) : string * istr :=
  let s := sentry s in
  if is_fail s then (EmptyString, s)
  else let (w, r) := span (fun c => negb (is_space c)) (is_rest s) in
       (string_of_list_ascii w, mkIS r (match r with [] => true | _ => false end) false).
(** A double without initial value: as it was, set by a conversion that failed (to
    zero or the largest double), or read. *)
Inductive field := Unset | Failed | Given (x : double).
(** operator>>(double&). *)
Definition get_number (s : istr) : field * istr :=
  let s := sentry s in
  if is_fail s then (Unset, s)
  else let (o, r) := extract (is_rest s) in
       (match o with Some x => Given x | None => Failed end,
        mkIS r (match r with [] => true | _ => false end) (match o with Some _ => false | None => true end)).

(** RawParams, rf_cavity.h:57-62, as far as it is set here. *)
Record thin := mkThin { th_type : string; th_name : string; th_len : field; th_aper : field; th_E0 : field }.
(** rf_cavity.cpp:784-797: one line. *)
Definition thin_line (l : list ascii) : res thin :=
  let s := is_open l in
  let (t, s) := get_word s in
  let (n, s) := get_word s in
  let (len, s) := get_number s in
  let (aper, s) := get_number s in
  let (E0, s) := if (String.eqb t "drift" || String.eqb t "AccGap")%bool then (Given dzero, s) else get_number s in
  if (is_fail s && negb (is_eof s))%bool then Throw RuntimeError else Ok (mkThin t n len aper E0).
(** rf_cavity.cpp:772-798: the loop over the lines. *)
Fixpoint thin_lines (ls : list (list ascii)) : res (list thin) :=
  match ls with
  | [] => Ok []
  | l :: ls' =>
      match drop is_blank l with
      | [] => thin_lines ls'
      | c :: _ =>
          if Ascii.eqb c "%" then thin_lines ls'
          else rbind (thin_line (trim l)) (fun t => rbind (thin_lines ls') (fun r => Ok (t :: r)))
      end
  end.
(** rf_cavity.cpp:767-803 on a stream; None: it could not be opened. *)
Definition thin_read (strm : option string) : res (list thin) :=
  match strm with None => Throw RuntimeError | Some s => thin_lines (lines (list_ascii_of_string s)) end.

(** The pieces as the computations use them (the aperture is not used).  To use a
    number that is not set is undefined, BadIndex. *)
Definition thin_raw (num : double -> R) (t : thin) : res rawp :=
  match th_len t, th_E0 t with
  | Given L, Given E =>
      Ok (mkRaw (th_type t) (num L) (if (String.eqb (th_type t) "drift" || String.eqb (th_type t) "AccGap")%bool then 0%R else num E) [] [])
  | _, _ => Throw BadIndex
  end.
Fixpoint thin_raws (num : double -> R) (l : list thin) : res (list rawp) :=
  match l with
  | [] => Ok []
  | t :: l' => rbind (thin_raw num t) (fun P => rbind (thin_raws num l') (fun r => Ok (P :: r)))
  end.

(** The data files of cavities as texts; [gen] reads those of Generic cavities,
    rf_cavity.cpp:806-823.  Tables come from numeric_table_cache::fetch, util.cpp:130-163,
    while files do not change. *)
Definition text_files (num : double -> R) (texts : string -> option string) (gen : string -> res (option tcfg)) : cavfiles :=
  mkCF (fun n => if negb (is_absolute n) then Throw LogicError
                 else match nt_read nt_empty (texts n) with
                      | (t, Some (Ok _)) => Ok (map (map num) (nt_rows t))
                      | (_, Some (Throw e)) => Throw e
                      | (_, None) => Throw Abort
                      end)
       (fun n => rbind (thin_read (texts n)) (thin_raws num))
       gen.
