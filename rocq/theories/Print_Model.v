(** Model of GLPSPrint, src/config.cpp:424-573: a Config written as GLPS text.

    Configs are the value trees of Config_Spec, iterated in the order of the sorted
    inner scope.  The output stream is the text written so far.

    Numbers are written by operator<<(ostream, double) with the default format of a
    stream in the C locale: printf's %g with six significant digits.  [show_num]
    computes these digits exactly, rounding half to even as glibc does.
    Simplified: the sign of a NaN (glibc writes nan or -nan) is not represented. *)
From Coq Require Import List String Ascii Bool ZArith.
From Verif Require Import SMap Dbl Config_Model Config_Spec Lexer_Model Machine_Model.
Import ListNotations.
Open Scope string_scope.
Open Scope list_scope.

(** ** Numbers: operator<<(ostream, double), used by src/config.cpp:433, 448, 472, 487 *)

(** floor (log10 k), [k >= 1].  [fuel] at least the number of digits. *)
Fixpoint log10_fuel (fuel : nat) (k : Z) : option Z :=
  match fuel with
  | O => None
  | S f => if (k <? 10)%Z then Some 0%Z else option_map Z.succ (log10_fuel f (k / 10))
  end.
Definition log10 (k : Z) : option Z := log10_fuel (Z.to_nat (Z.log2 k) + 1) k.

(** n / d rounded to an integer, half to even; [d > 0] *)
Definition div_even (n d : Z) : Z :=
  let q := (n / d)%Z in
  match (2 * (n - q * d) ?= d)%Z with
  | Lt => q
  | Gt => (q + 1)%Z
  | Eq => if Z.even q then q else (q + 1)%Z
  end.

(** A positive double m * 2^e as a fraction. *)
Definition frac_of (m : positive) (e : Z) : Z * Z :=
  if (0 <=? e)%Z then (Zpos m * 2 ^ e, 1)%Z else (Zpos m, 2 ^ (- e))%Z.

(** The six digits q and the exponent X of its %e notation: n/d is about
    q * 10^(X - 5).  Doubles are above 10^-400. *)
Definition six_digits (n d : Z) : option (Z * Z) :=
  match log10 (n * 10 ^ 400 / d) with
  | None => None
  | Some k =>
      let x := (k - 400)%Z in
      let q := if (5 <=? x)%Z then div_even n (d * 10 ^ (x - 5)) else div_even (n * 10 ^ (5 - x)) d in
      Some (if (q =? 1000000)%Z then (100000, x + 1)%Z else (q, x))
  end.

Definition digit_char (z : Z) : ascii := ascii_of_N (48 + Z.to_N z).
(** The last [k] decimal digits of [n]. *)
Fixpoint digit_list (k : nat) (n : Z) : list ascii :=
  match k with O => [] | S k => digit_list k (n / 10) ++ [digit_char (n mod 10)] end.
(** %g drops the zeros at the end of the fraction. *)
Fixpoint drop_zeros (l : list ascii) : list ascii :=
  match l with
  | [] => []
  | c :: r => match drop_zeros r with
              | [] => if Ascii.eqb c "0" then [] else [c]
              | t => c :: t
              end
  end.
(** ... and the point if nothing follows. *)
Definition fraction_text (l : list ascii) : list ascii :=
  match drop_zeros l with [] => [] | t => "."%char :: t end.
(** The exponent of %e: a sign and at least two digits. *)
Definition exp_digits (x : Z) : list ascii :=
  "e"%char :: (if (x <? 0)%Z then "-"%char else "+"%char) ::
  digit_list (if (Z.abs x <? 100)%Z then 2 else 3) (Z.abs x).

(** %g: the exponent form if X < -4 or X >= 6, else the fixed form. *)
Definition digits_text (q x : Z) : list ascii :=
  let ds := digit_list 6 q in
  if ((x <? -4) || (6 <=? x))%bool%Z
  then firstn 1 ds ++ fraction_text (skipn 1 ds) ++ exp_digits x
  else if (x <? 0)%Z
  then "0"%char :: fraction_text (repeat "0"%char (Z.to_nat (- x - 1)) ++ ds)
  else firstn (Z.to_nat x + 1) ds ++ fraction_text (skipn (Z.to_nat x + 1) ds).

Definition sign_text (s : bool) : list ascii := if s then ["-"%char] else [].
(** [strm << v] *)
Definition show_num (v : double) : list ascii :=
  match v with
  | S754_zero s => sign_text s ++ ["0"%char]
  | S754_infinity s => sign_text s ++ list_ascii_of_string "inf"
  | S754_nan => list_ascii_of_string "nan"
  | S754_finite s m e =>
      let (n, d) := frac_of m e in
      match six_digits n d with
      | Some (q, x) => sign_text s ++ digits_text q x
      | None => [] (* unreachable: Print_Proofs *)
      end
  end.

(** ** Values *)
Definition txt (s : string) : list ascii := list_ascii_of_string s.
Definition quoted (s : string) : list ascii := dquote :: txt s ++ [dquote].

(** The loop of src/config.cpp:443-449 and 482-488: separated by comma and blank. *)
Fixpoint separated (l : list (list ascii)) : list ascii :=
  match l with
  | [] => []
  | [x] => x
  | x :: r => x ++ txt ", " ++ separated r
  end.
Definition show_vec (v : list double) : list ascii := txt "[" ++ separated (map show_num v) ++ txt "]".

(** glps_show_props, src/config.cpp:426-458: one property of an element. *)
Definition show_prop (n : string) (v : tval) : list ascii :=
  match v with
  | TNum x => txt ", " ++ txt n ++ txt " = " ++ show_num x
  | TStr s => txt ", " ++ txt n ++ txt " = " ++ quoted s
  | TVec l => txt ", " ++ txt n ++ txt " = " ++ show_vec l
  | TCfgs _ => []
  end.

(** glps_show, src/config.cpp:460-500: one variable. *)
Definition show_var (n : string) (v : tval) : list ascii :=
  match v with
  | TNum x => txt n ++ txt " = " ++ show_num x ++ txt ";" ++ [nl]
  | TStr s => txt n ++ txt " = " ++ quoted s ++ txt ";" ++ [nl]
  | TVec l => txt n ++ txt " = " ++ show_vec l ++ txt ";" ++ [nl]
  | TCfgs _ =>
      if String.eqb n "elements" then []
      else txt "# " ++ txt n ++ txt " = [... skipped ...];" ++ [nl]
  end.

(** ** Elements, src/config.cpp:526-561 *)

(** lines 552-558: the properties in the inner scope *)
Fixpoint show_props (m : smap tval) : list ascii :=
  match m with
  | [] => []
  | (n, v) :: r =>
      (if (String.eqb n "name" || String.eqb n "type")%bool then [] else show_prop n v) ++ show_props r
  end.

(** One turn of the loop: the names collected so far ([line], in reverse), those
    already defined ([eshown]) and the text written.  An exception other than the
    two caught (an empty name or type) leaves the function. *)
Record pstep := mkStep { st_line : list string; st_shown : list string; st_text : list ascii }.
Definition show_elem (st : pstep) (g : tcfg) : res pstep :=
  let close t := t ++ show_props (town g) ++ txt ";" ++ [nl] in
  match get_str g "name", get_str g "type" with
  | Ok n, Ok t =>
      if (String.eqb n "" || String.eqb t "")%bool then Throw RuntimeError
      else
        let line := n :: st_line st in
        if existsb (String.eqb n) (st_shown st) then Ok (mkStep line (st_shown st) (st_text st))
        else Ok (mkStep line (n :: st_shown st) (close (st_text st ++ txt n ++ txt ": " ++ txt t)))
  | _, _ => Ok (mkStep (st_line st) (st_shown st) (close (st_text st ++ txt "# <malformed element>")))
  end.
Fixpoint show_elems (st : pstep) (l : list tcfg) : res pstep :=
  match l with
  | [] => Ok st
  | g :: r => rbind (show_elem st g) (fun st' => show_elems st' r)
  end.

(** ** GLPSPrint, src/config.cpp:503-573.  The text of a call that returns. *)
Definition show_vars (m : smap tval) : list ascii :=
  List.concat (map (fun nv => show_var (fst nv) (snd nv)) m).
Definition glps_print (conf : tcfg) : res string :=
  let vars := show_vars (town conf) in                                      (* 506-510 *)
  rbind
    match get_cfgs conf "elements" with                                     (* 512-521 *)
    | Throw _ => Ok (vars ++ txt "# Missing beamline element list" ++ [nl])
    | Ok v =>
        rbind (show_elems (mkStep [] [] vars) v) (fun st =>
          let lname := txt (get_str_def conf "name" "default") in           (* 563 *)
          Ok (st_text st ++ lname ++ txt ": LINE = (" ++ separated (map txt (rev (st_line st)))
              ++ txt ");" ++ [nl] ++ txt "USE: " ++ lname ++ txt ";" ++ [nl])) (* 564-572 *)
    end
    (fun t => Ok (string_of_list_ascii t)).
