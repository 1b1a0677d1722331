(** What users of numeric tables, the table cache and the index iterator may
    assume, stated on its own. *)
From Coq Require Import Reals List String Ascii Bool ZArith Arith.
From Verif Require Import SMap Dbl Config_Spec Lexer_Spec Number_Spec Machine_Model Util_Model.
Import ListNotations.
Open Scope char_scope.

(** ** Numerals *)
(** An optional sign, digits with an optional dot among them, an optional
    exponent: the decimal number [(-1)^neg * m * 10^e]. *)
Inductive signed : list ascii -> bool -> Prop :=
| sg_none : signed [] false | sg_plus : signed ["+"] false | sg_minus : signed ["-"] true.
Inductive numeral : list ascii -> bool -> Z -> Z -> Prop :=
| nu_intro s neg d f fd x xe : signed s neg -> forallb c_digit d = true -> fraction f fd -> d ++ fd <> [] ->
    exponent x xe -> numeral (s ++ d ++ f ++ x) neg (dec 0 (d ++ fd)) (xe - Z.of_nat (List.length fd)).
(** The decimal number. *)
Definition numval (neg : bool) (m e : Z) : R := ((if neg then -1 else 1) * decval m e)%R.
(** [x] is the double nearest to what the word says. *)
Definition reads_as (w : list ascii) (x : double) : Prop :=
  exists neg m e, numeral w neg m e /\ nearest (numval neg m e) x.
(** A numeral that is not too large for a double. *)
Definition fits (w : list ascii) : Prop :=
  exists neg m e, numeral w neg m e /\ (decval m e < overflow_bound)%R.

(** ** Lines *)
Definition blanks (l : list ascii) : Prop := Forall (fun c => In c [" "; c_tab]) l.
(** White space within a line: blank, tab, vertical tab, form feed, carriage return. *)
Definition white (c : ascii) : Prop := In c [" "; c_tab; "011"; "012"; c_cr].
(** Words with white space between them, and perhaps around. *)
Inductive row : list ascii -> list (list ascii) -> Prop :=
| row_end sp : Forall white sp -> row sp []
| row_word sp p rest ws : Forall white sp -> fits p ->
    (rest = [] \/ exists c r, rest = c :: r /\ white c) -> row rest ws -> row (sp ++ p ++ rest) (p :: ws).
(** A header: % and words. *)
Inductive spaced : list ascii -> list (list ascii) -> Prop :=
| sp_end sp : blanks sp -> spaced sp []
| sp_word sp p rest ws : blanks sp -> p <> [] -> Forall (fun c => ~ In c [" "; c_tab]) p ->
    (rest = [] \/ exists c r, rest = c :: r /\ In c [" "; c_tab]) -> spaced rest ws -> spaced (sp ++ p ++ rest) (p :: ws).
Inductive header : list ascii -> list (list ascii) -> Prop :=
| hd_intro l ws cs : spaced l ws -> (forall a c, l = a ++ [c] -> c <> c_cr) -> Forall (eq c_cr) cs ->
    header ("%" :: l ++ cs) ws.

(** What the lines say: the names of the last header if there is one, and the words
    row by row. *)
Inductive describes : list (list ascii) -> option (list (list ascii)) -> list (list (list ascii)) -> Prop :=
| d_nil : describes [] None []
| d_blank l ls n r : blanks l -> describes ls n r -> describes (l :: ls) n r
| d_header l ns ls n r : header l ns -> describes ls n r ->
    describes (l :: ls) (Some match n with Some x => x | None => ns end) r
| d_row l ws ls n r : row l ws -> ws <> [] -> describes ls n r -> describes (l :: ls) n (ws :: r).

Definition txt (s : string) : list ascii := list_ascii_of_string s.
(** The text is made of these lines; the last one may lack its newline. *)
Definition made_of (txt : list ascii) (ls : list (list ascii)) : Prop :=
  Forall (fun l => ~ In c_nl l) ls /\
  (txt = List.concat (map (fun l => l ++ [c_nl]) ls) \/
   exists a b, ls = a ++ [b] /\ b <> [] /\ txt = List.concat (map (fun l => l ++ [c_nl]) a) ++ b).

(** Column [k] carries the name; if several do, the last one is found. *)
Definition named (ns : option (list (list ascii))) (name : string) (k : nat) : Prop :=
  match ns with
  | None => False
  | Some ns => nth_error ns k = Some (list_ascii_of_string name) /\
      forall j, (k < j)%nat -> nth_error ns j <> Some (list_ascii_of_string name)
  end.

(** A line that is neither blank nor a header. *)
Definition data_line (l : list ascii) : Prop := ~ blanks l /\ forall r, l <> "%" :: r.

(** The line is a sequence of numerals with these values, white space before each,
    and something at the end that is no number but could become one, or is one that
    is too large.  Each numeral is as long as possible. *)
Inductive numbers : list ascii -> list double -> Prop :=
| ns_end sp : Forall white sp -> numbers sp []
| ns_rest sp p : Forall white sp -> Forall (fun c => c_digit c = true \/ In c ["+"; "-"; "."; "e"; "E"]) p -> ~ fits p ->
    numbers (sp ++ p) []
| ns_num sp p x rest xs : Forall white sp -> reads_as p x ->
    (forall q neg m e r, numeral q neg m e -> p ++ rest = q ++ r -> (List.length q <= List.length p)%nat) ->
    numbers rest xs -> numbers (sp ++ p ++ rest) (x :: xs).

(** What a data line is read as: carriage returns at its end do not count. *)
Definition line_numbers (l : list ascii) (xs : list double) : Prop :=
  exists l' cs, l = l' ++ cs /\ Forall (eq c_cr) cs /\ numbers l' xs.
(** The data lines among the lines. *)
Inductive data_lines : list (list ascii) -> list (list ascii) -> Prop :=
| dl_nil : data_lines [] []
| dl_skip l ls ds : ~ data_line l -> data_lines ls ds -> data_lines (l :: ls) ds
| dl_keep l ls ds : data_line l -> data_lines ls ds -> data_lines (l :: ls) (l :: ds).

(** ** Files *)
(** The file at [p] after a history. *)
Definition touched (p : string) (f : option (Z * string)) (o : fsop) : option (Z * string) :=
  match o with
  | FWrite q m s => if String.eqb p q then Some (m, s) else f
  | FRemove q => if String.eqb p q then None else f
  end.
Definition file_ops (o : tcop) : list fsop :=
  match o with OFile o => [o] | OClear => [] | OFetch _ d1 d2 => d1 ++ d2 end.
Definition file_after (h : list tcop) (p : string) : option (Z * string) :=
  fold_left (touched p) (flat_map file_ops h) None.
(** What reading the file gives; no file is an error. *)
Definition content (f : option (Z * string)) : option (res ntable) :=
  match f with
  | None => Some (Throw RuntimeError)
  | Some (_, s) => match nt_read nt_empty (Some s) with
      | (t, Some (Ok _)) => Some (Ok t) | (_, Some (Throw e)) => Some (Throw e) | (_, None) => None end
  end.
(** No file changes while it is being fetched. *)
Definition undisturbed (h : list tcop) : Prop := forall p d1 d2, In (OFetch p d1 d2) h -> d1 = [] /\ d2 = [].
(** Whatever is written to a file after it was fetched is dated later. *)
Definition dated (h : list tcop) : Prop := forall a p d1 d2 b m s c, 
  h = a ++ OFetch p d1 d2 :: b ++ OFile (FWrite p m s) :: c ->
  forall m0 s0, file_after a p = Some (m0, s0) -> (m0 < m)%Z.

(** ** Index tuples *)
Definition within (lim idx : list nat) : Prop := Forall2 lt idx lim.
Definition ndprod (lim : list nat) : nat := fold_right Nat.mul 1%nat lim.
