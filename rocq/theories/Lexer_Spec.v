(** The scanner as flex documents it: regular expressions and longest match. *)
From Coq Require Import List String Ascii Bool ZArith.
From Verif Require Import Dbl Lexer_Model.
Import ListNotations.

(** ** Regular expressions *)
Inductive re :=
| RChr (p : ascii -> bool)
| RSeq (a b : re)
| RStar (a : re)
| ROpt (a : re).

Inductive matches : re -> list ascii -> Prop :=
| m_chr p c : p c = true -> matches (RChr p) [c]
| m_seq a b s t : matches a s -> matches b t -> matches (RSeq a b) (s ++ t)
| m_star0 a : matches (RStar a) []
| m_star a s t : matches a s -> matches (RStar a) t -> matches (RStar a) (s ++ t)
| m_opt0 a : matches (ROpt a) []
| m_opt a s : matches a s -> matches (ROpt a) s.

Definition one (c : ascii) : ascii -> bool := Ascii.eqb c.
Fixpoint oneof (l : list ascii) (c : ascii) : bool :=
  match l with [] => false | x :: r => (Ascii.eqb x c || oneof r c)%bool end.
Definition range (a b : ascii) (c : ascii) : bool :=
  (N.leb (N_of_ascii a) (N_of_ascii c) && N.leb (N_of_ascii c) (N_of_ascii b))%bool.
Definition por (p q : ascii -> bool) (c : ascii) : bool := (p c || q c)%bool.
Definition pnot (p : ascii -> bool) (c : ascii) : bool := negb (p c).

Open Scope char_scope.
Definition c_alpha := por (range "A" "Z") (range "a" "z").
Definition c_digit := range "0" "9".
Definition c_word := por c_alpha (por c_digit (one "_")).
Definition c_nl : ascii := "010".
Definition c_cr : ascii := "013".
Definition c_tab : ascii := "009".
Definition c_quote : ascii := """".

(** ** The rules, src/glps.l *)
Inductive rule := LKeyword | LNumber | LComment | LPunct | LBlank | LNewline | LString.

Definition rule_re (r : rule) : re :=
  match r with
  | LKeyword => (* line 21 *)
      RSeq (RChr c_alpha) (ROpt (RSeq (RStar (RChr (por c_word (one ":")))) (RChr c_word)))
  | LNumber => (* line 32 *)
      RSeq (RSeq (RChr c_digit) (RStar (RChr c_digit)))
        (RSeq (ROpt (RSeq (RChr (one ".")) (RStar (RChr c_digit))))
              (ROpt (RSeq (RChr (oneof ["e"; "E"]))
                       (RSeq (ROpt (RChr (oneof ["+"; "-"])))
                             (RSeq (RChr c_digit) (RStar (RChr c_digit)))))))
  | LComment => (* line 43 *)
      RSeq (RChr (one "#")) (RSeq (RStar (RChr (pnot (one c_nl)))) (RChr (one c_nl)))
  | LPunct => (* line 45 *)
      RChr (oneof ["="; ":"; ";"; "("; ")"; "["; "]"; ","; "+"; "*"; "/"; "-"])
  | LBlank => RChr (oneof [" "; c_tab])    (* line 47 *)
  | LNewline => RChr (one c_nl)            (* line 49 *)
  | LString => (* lines 51-67: the start condition <quote> from one quote to the next *)
      RSeq (RChr (one c_quote))
        (RSeq (RStar (RChr (pnot (oneof [c_quote; c_nl; c_cr])))) (RChr (one c_quote)))
  end.

(** [p] is the longest lexeme at the beginning of [p ++ rest], and [r] its rule. *)
Definition longest (r : rule) (p rest : list ascii) : Prop :=
  matches (rule_re r) p /\
  forall r' p' rest', p ++ rest = p' ++ rest' -> matches (rule_re r') p' ->
    (List.length p' <= List.length p)%nat.

(** Decimal notation: [m * 10^e]. *)
Fixpoint dec (acc : Z) (l : list ascii) : Z :=
  match l with [] => acc | c :: r => dec (acc * 10 + (Z.of_N (N_of_ascii c) - 48)) r end.
Inductive exponent : list ascii -> Z -> Prop :=
| ex_none : exponent [] 0
| ex_plain c d : d <> [] -> forallb c_digit d = true -> In c ["e"; "E"] -> exponent (c :: d) (dec 0 d)
| ex_plus c d : d <> [] -> forallb c_digit d = true -> In c ["e"; "E"] -> exponent (c :: "+" :: d) (dec 0 d)
| ex_minus c d : d <> [] -> forallb c_digit d = true -> In c ["e"; "E"] -> exponent (c :: "-" :: d) (- dec 0 d).
Inductive fraction : list ascii -> list ascii -> Prop :=
| fr_none : fraction [] []
| fr_some d : forallb c_digit d = true -> fraction ("." :: d) d.
Inductive decimal : list ascii -> Z -> Z -> Prop :=
| dec_intro d f fd x xe : d <> [] -> forallb c_digit d = true -> fraction f fd -> exponent x xe ->
    decimal (d ++ f ++ x) (dec 0 (d ++ fd)) (xe - Z.of_nat (List.length fd)).

(** A literal that strtod can represent: no overflow, and zero only for zero.
    (Which double is nearest is the subject of Number_Spec.) *)
Definition representable (m : Z) (x : double) : Prop :=
  (forall s, x <> S754_infinity s) /\ (forall s, x = S754_zero s -> m = 0%Z).

(** The token of a lexeme; none for blanks and comments. *)
Inductive value : rule -> list ascii -> option token -> Prop :=
| v_kw p : value LKeyword p (Some (KKw (string_of_list_ascii p)))
| v_num p m e : decimal p m e -> representable m (strtod_val m e) ->
    value LNumber p (Some (KNum (strtod_val m e)))
| v_str p : value LString (c_quote :: p ++ [c_quote]) (Some (KStr (string_of_list_ascii p)))
| v_blank p : value LBlank p None
| v_nl p : value LNewline p None
| v_comment p : value LComment p None
| v_eq : value LPunct ["="] (Some KEq)
| v_colon : value LPunct [":"] (Some KColon)
| v_semi : value LPunct [";"] (Some KSemi)
| v_lpar : value LPunct ["("] (Some KLPar)
| v_rpar : value LPunct [")"] (Some KRPar)
| v_lbrk : value LPunct ["["] (Some KLBrk)
| v_rbrk : value LPunct ["]"] (Some KRBrk)
| v_comma : value LPunct [","] (Some KComma)
| v_plus : value LPunct ["+"] (Some KPlus)
| v_mul : value LPunct ["*"] (Some KMul)
| v_div : value LPunct ["/"] (Some KDiv)
| v_minus : value LPunct ["-"] (Some KMinus).

(** The input is a sequence of longest lexemes with the given tokens. *)
Inductive tokenises : list ascii -> list token -> Prop :=
| tk_nil : tokenises [] []
| tk_skip r p rest ts : longest r p rest -> value r p None -> tokenises rest ts -> tokenises (p ++ rest) ts
| tk_tok r p rest t ts : longest r p rest -> value r p (Some t) -> tokenises rest ts ->
    tokenises (p ++ rest) (t :: ts).

(** Blanks, newlines and complete comment lines. *)
Inductive spaces : list ascii -> Prop :=
| sp_nil : spaces []
| sp_blank c w : In c [" "; c_tab; c_nl] -> spaces w -> spaces (c :: w)
| sp_comment t w : ~ In c_nl t -> spaces w -> spaces ("#" :: t ++ c_nl :: w).

(** [a] ends at a lexeme boundary of [a ++ b]: its lexemes are lexemes of the whole. *)
Inductive boundary : list ascii -> list ascii -> list token -> Prop :=
| bd_nil b : boundary [] b []
| bd_skip k p a b ts : longest k p (a ++ b) -> value k p None -> boundary a b ts -> boundary (p ++ a) b ts
| bd_tok k p a b t ts : longest k p (a ++ b) -> value k p (Some t) -> boundary a b ts -> boundary (p ++ a) b (t :: ts).
