(** Model of the GLPS scanner, src/glps.l:19-75.

    The flex automaton is written out as the longest match of each rule, selected
    by the first character; Lexer_Proofs relates it to the regular expressions of
    the source.  Semantic values are those the rules store in [yylval]. *)
From Coq Require Import List String Ascii Bool ZArith NArith.
From Verif Require Import Dbl.
Import ListNotations.

(** ** Tokens: src/glps.y:25-30 and the single characters of src/glps.l:45 *)
Inductive token :=
| KKw (s : string) | KStr (s : string) | KNum (x : double)
| KEq | KColon | KSemi | KLPar | KRPar | KLBrk | KRBrk | KComma
| KPlus | KMul | KDiv | KMinus.

(** ** Character classes *)
Definition in_range (a b : N) (c : ascii) : bool :=
  let n := N_of_ascii c in (N.leb a n && N.leb n b)%bool.

Definition is_digit : ascii -> bool := in_range 48 57.
(** [A-Za-z] *)
Definition is_letter (c : ascii) : bool := (in_range 65 90 c || in_range 97 122 c)%bool.
Definition is_colon (c : ascii) : bool := Ascii.eqb c ":".
(** [A-Za-z0-9_:], src/glps.l:21 *)
Definition is_kwchar (c : ascii) : bool :=
  (is_letter c || is_digit c || Ascii.eqb c "_" || is_colon c)%bool.
Definition nl : ascii := "010".
Definition cr : ascii := "013".
Definition tab : ascii := "009".
Definition dquote : ascii := """".
Definition is_nl (c : ascii) : bool := Ascii.eqb c nl.
(** [ \t], src/glps.l:47 *)
Definition is_blank (c : ascii) : bool := (Ascii.eqb c " " || Ascii.eqb c tab)%bool.
(** any character except quote, newline and carriage return, src/glps.l:67 *)
Definition is_quoted (c : ascii) : bool :=
  negb (Ascii.eqb c dquote || Ascii.eqb c nl || Ascii.eqb c cr).

Fixpoint span (p : ascii -> bool) (l : list ascii) : list ascii * list ascii :=
  match l with
  | [] => ([], [])
  | c :: l' => if p c then let (a, b) := span p l' in (c :: a, b) else ([], l)
  end.

(** ** Numbers *)
Definition digit_val (c : ascii) : Z := Z.of_N (N_of_ascii c) - 48.
Definition digits_val (l : list ascii) : Z :=
  fold_left (fun acc c => (acc * 10 + digit_val c)%Z) l 0%Z.

(** strtod (src/glps.l:35) of the decimal [m * 10^e], [m >= 0]: the correctly
    rounded double (glibc, round to nearest even). *)
Definition strtod_val (m e : Z) : double :=
  match m with
  | Zpos p =>
      if (0 <=? e)%Z then binary_normalize dprec demax (m * 10 ^ e) 0 false
      else match (10 ^ (- e))%Z with
           | Zpos q =>
               let '(mz, ez, lz) := SFdiv_core_binary dprec demax (Zpos p) 0 (Zpos q) 0 in
               binary_round_aux dprec demax false mz ez lz
           | _ => S754_nan (* unreachable: a power of ten is positive *)
           end
  | _ => S754_zero false
  end.

Definition is_inf (x : double) : bool := match x with S754_infinity _ => true | _ => false end.
Definition is_zero (x : double) : bool := match x with S754_zero _ => true | _ => false end.

(** The range check of src/glps.l:36: strtod reports ERANGE on overflow and on
    underflow; a denormal result is accepted. *)
Definition num_in_range (m : Z) (x : double) : bool :=
  negb (is_inf x || (is_zero x && negb (Z.eqb m 0))).

(** Longest match of the number pattern of src/glps.l:32 (digits, optionally a dot and
    digits, optionally an exponent), for an
    input starting with a digit.  Returns mantissa digits (integer and fraction
    part), number of fraction digits, exponent, the matched text and the rest. *)
Definition is_exp (c : ascii) : bool := (Ascii.eqb c "e" || Ascii.eqb c "E")%bool.
Definition is_sign (c : ascii) : bool := (Ascii.eqb c "+" || Ascii.eqb c "-")%bool.

Definition scan_exp (l : list ascii) : Z * list ascii * list ascii :=
  match l with
  | c :: l1 =>
      if is_exp c then
        match l1 with
        | s :: l2 =>
            if is_digit s then
              let (d, r) := span is_digit l1 in (digits_val d, c :: d, r)
            else if is_sign s then
              match l2 with
              | d0 :: _ =>
                  if is_digit d0 then
                    let (d, r) := span is_digit l2 in
                    ((if Ascii.eqb s "-" then - digits_val d else digits_val d)%Z, c :: s :: d, r)
                  else (0%Z, [], l)
              | [] => (0%Z, [], l)
              end
            else (0%Z, [], l)
        | [] => (0%Z, [], l)
        end
      else (0%Z, [], l)
  | [] => (0%Z, [], l)
  end.

Definition scan_frac (l : list ascii) : list ascii * list ascii * list ascii :=
  match l with
  | c :: l1 => if Ascii.eqb c "." then let (d, r) := span is_digit l1 in (d, c :: d, r) else ([], [], l)
  | [] => ([], [], l)
  end.

Definition scan_num (l : list ascii) : Z * Z * list ascii * list ascii :=
  let (d1, r1) := span is_digit l in
  let '(d2, t2, r2) := scan_frac r1 in
  let '(ex, t3, r3) := scan_exp r2 in
  (digits_val (d1 ++ d2), (ex - Z.of_nat (List.length d2))%Z, d1 ++ t2 ++ t3, r3).

(** Longest match of the keyword pattern of src/glps.l:21: all
    keyword characters, without trailing colons. *)
Definition scan_kw (l : list ascii) : list ascii * list ascii :=
  let (body, r) := span is_kwchar l in
  let (colons, core) := span is_colon (rev body) in
  (rev core, rev colons ++ r).

Definition punct (c : ascii) : option token :=
  (if Ascii.eqb c "=" then Some KEq else
   if Ascii.eqb c ":" then Some KColon else
   if Ascii.eqb c ";" then Some KSemi else
   if Ascii.eqb c "(" then Some KLPar else
   if Ascii.eqb c ")" then Some KRPar else
   if Ascii.eqb c "[" then Some KLBrk else
   if Ascii.eqb c "]" then Some KRBrk else
   if Ascii.eqb c "," then Some KComma else
   if Ascii.eqb c "+" then Some KPlus else
   if Ascii.eqb c "*" then Some KMul else
   if Ascii.eqb c "/" then Some KDiv else
   if Ascii.eqb c "-" then Some KMinus else None)%char.

(** ** One scanner action on non-empty input.  [SErr]: glps_error followed by
    yyterminate(), so the parser sees the end of input. *)
Inductive sres :=
| STok (t : token) (text rest : list ascii)
| SSkip (text rest : list ascii)
| SErr.

Definition scan (l : list ascii) : sres :=
  match l with
  | [] => SErr
  | c :: l' =>
      if is_letter c then                              (* glps.l:21-30 *)
        let (t, r) := scan_kw l in STok (KKw (string_of_list_ascii t)) t r
      else if is_digit c then                          (* glps.l:32-41 *)
        let '(m, e, t, r) := scan_num l in
        let x := strtod_val m e in
        if num_in_range m x then STok (KNum x) t r else SErr
      else if Ascii.eqb c "#" then                     (* glps.l:43; without the newline: line 69 *)
        let (t, r) := span (fun c => negb (is_nl c)) l in
        match r with
        | n :: r' => SSkip (t ++ [n]) r'
        | [] => SErr
        end
      else if is_blank c then SSkip [c] l'             (* glps.l:47 *)
      else if is_nl c then SSkip [c] l'                (* glps.l:49 *)
      else if Ascii.eqb c dquote then                  (* glps.l:51-67 *)
        let (t, r) := span is_quoted l' in
        match r with
        | q :: r' => if Ascii.eqb q dquote then STok (KStr (string_of_list_ascii t)) (c :: t ++ [q]) r' else SErr
        | [] => SErr
        end
      else match punct c with                          (* glps.l:45 *)
           | Some t => STok t [c] l'
           | None => SErr                              (* glps.l:69-75 *)
           end
  end.

(** The token sequence delivered to the parser and whether the scanner reported an
    error (which also ends the sequence).  [fuel] is the number of actions; every
    action consumes input, so [length l] always suffices (Lexer_Proofs); running
    out is the distinct outcome [None]. *)
Fixpoint lex_fuel (fuel : nat) (l : list ascii) : option (list token * bool) :=
  match l with
  | [] => Some ([], false)
  | _ =>
      match fuel with
      | O => None
      | S f =>
          match scan l with
          | STok t _ r => match lex_fuel f r with Some (ts, e) => Some (t :: ts, e) | None => None end
          | SSkip _ r => lex_fuel f r
          | SErr => Some ([], true)
          end
      end
  end.

Definition lex (s : string) : option (list token * bool) :=
  let l := list_ascii_of_string s in lex_fuel (List.length l) l.
