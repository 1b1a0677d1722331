(** Data files of cavities, stated on their own. *)
From Coq Require Import Reals List String Ascii Bool ZArith Arith.
From Verif Require Import SMap Dbl Config_Spec Lexer_Spec Number_Spec Machine_Model Util_Model Util_Spec Moment_Model Cavity_Model Thin_Model.
Import ListNotations.
Open Scope char_scope.

(** ** Thin lens files *)
(** The line begins with these words; white space before each, and white space or
    nothing after them. *)
Definition ends (rest : list ascii) : Prop := rest = [] \/ exists c r, rest = c :: r /\ white c.
Inductive begins : list ascii -> list (list ascii) -> Prop :=
| b_end rest : ends rest -> begins rest []
| b_word sp p rest ws : Forall white sp -> p <> [] -> Forall (fun c => ~ white c) p -> ends rest -> begins rest ws ->
    begins (sp ++ p ++ rest) (p :: ws).
(** Drifts and gaps have no field. *)
Definition fieldless (t : list ascii) : Prop := t = txt "drift" \/ t = txt "AccGap".
(** A piece in words: type, name, length, aperture and, unless there is none, field. *)
Record piece := mkPiece { pi_type : list ascii; pi_name : list ascii; pi_len : list ascii; pi_aper : list ascii; pi_E0 : list ascii }.
Definition piece_line (l : list ascii) (P : piece) : Prop :=
  (forall r, pi_type P <> "%" :: r) /\ fits (pi_len P) /\ fits (pi_aper P) /\
  ((fieldless (pi_type P) /\ begins l [pi_type P; pi_name P; pi_len P; pi_aper P]) \/
   (~ fieldless (pi_type P) /\ fits (pi_E0 P) /\ begins l [pi_type P; pi_name P; pi_len P; pi_aper P; pi_E0 P])).
(** Blank lines and comments. *)
Definition passed_over (l : list ascii) : Prop := blanks l \/ exists b r, blanks b /\ l = b ++ "%" :: r.
Inductive lists_pieces : list (list ascii) -> list piece -> Prop :=
| lp_nil : lists_pieces [] []
| lp_skip l ls Ps : passed_over l -> lists_pieces ls Ps -> lists_pieces (l :: ls) Ps
| lp_piece l P ls Ps : piece_line l P -> lists_pieces ls Ps -> lists_pieces (l :: ls) (P :: Ps).
(** The lines that are not passed over. *)
Inductive told : list (list ascii) -> list (list ascii) -> Prop :=
| td_nil : told [] []
| td_skip l ls ds : passed_over l -> told ls ds -> told (l :: ls) ds
| td_keep l ls ds : ~ passed_over l -> told ls ds -> told (l :: ls) (l :: ds).
(** What has been read is what is written. *)
Definition given_as (w : list ascii) (f : field) : Prop := exists x, f = Given x /\ reads_as w x.
Definition read_as (P : piece) (t : thin) : Prop :=
  txt (th_type t) = pi_type P /\ txt (th_name t) = pi_name P /\ given_as (pi_len P) (th_len t) /\ given_as (pi_aper P) (th_aper t) /\
  (~ fieldless (pi_type P) -> given_as (pi_E0 P) (th_E0 t)) /\ (fieldless (pi_type P) -> th_E0 t = Given dzero).

(** What is written in a line is in the piece made of it, as far as it goes. *)
Definition labelled (l : list ascii) (t : thin) : Prop :=
  (forall w, begins l [w] -> txt (th_type t) = w) /\ (forall w n, begins l [w; n] -> txt (th_name t) = n) /\
  (forall w n a, begins l [w; n; a] -> fits a -> given_as a (th_len t)) /\
  (forall w n a b, begins l [w; n; a; b] -> fits a -> fits b -> given_as b (th_aper t)) /\
  (forall w n a b x, begins l [w; n; a; b; x] -> ~ fieldless w -> fits a -> fits b -> fits x -> given_as x (th_E0 t)).

(** A word that does not begin like a number. *)
Definition no_number (w : list ascii) : Prop :=
  exists c r, w = c :: r /\ c_digit c = false /\ ~ In c ["+"; "-"; "."].

(** A line with a word in place of a number. *)
Definition wrong_words (ws : list (list ascii)) : Prop :=
  (exists t n p r, ws = t :: n :: p :: r /\ no_number p) \/
  (exists t n a p r, ws = t :: n :: a :: p :: r /\ fits a /\ no_number p) \/
  (exists t n a b p r, ws = t :: n :: a :: b :: p :: r /\ ~ fieldless t /\ fits a /\ fits b /\ no_number p).

(** ** From the text to the cavity *)
Open Scope string_scope.
(** The piece as used in computations. *)
Definition used_as (num : double -> R) (P : piece) (r : rawp) : Prop :=
  txt (r_type r) = pi_type P /\ (exists x, reads_as (pi_len P) x /\ r_len r = num x) /\
  (~ fieldless (pi_type P) -> exists x, reads_as (pi_E0 P) x /\ r_E0 r = num x) /\ (fieldless (pi_type P) -> r_E0 r = 0%R).
(** A table of numbers. *)
Definition table_as (num : double -> R) (rows : list (list (list ascii))) (T : list (list R)) : Prop :=
  Forall2 (Forall2 (fun w y => exists x, reads_as w x /\ y = num x)) rows T.
(** The first two columns. *)
Definition columns (axis : list (list R)) (data : list (R * R)) : Prop :=
  Forall2 (fun r d => nth_error r 0 = Some (fst d) /\ nth_error r 1 = Some (snd d)) axis data.

(** ** Files of Generic cavities *)
(** An element of the file, and the piece made of it. *)
Definition element_piece (num : double -> R) (EC : tcfg) (P : rawp) : Prop :=
  exists L, tfind "type" EC = Some (TStr (r_type P)) /\ tfind "L" EC = Some (TNum L) /\ r_len P = num L /\
  (r_type P <> "drift" -> exists V attr, tfind "V0" EC = Some (TNum V) /\ r_E0 P = num V /\ tfind "attr" EC = Some (TVec attr) /\
     List.length (r_T P) = 10%nat /\ List.length (r_S P) = 10%nat /\
     forall i, (i < 10)%nat -> exists a b, nth_error attr i = Some a /\ nth_error attr (10 + i) = Some b /\
       nth_error (r_T P) i = Some (num a) /\ nth_error (r_S P) i = Some (num b)).
(** The coefficients of the synchronous phase are those of the first gap. *)
Definition first_gap (num : double -> R) (Es : list tcfg) (syn : list R) : Prop :=
  ((forall EC, In EC Es -> tfind "type" EC <> Some (TStr "AccGap")) -> syn = []) /\
  forall a EC b attr, Es = (a ++ EC :: b)%list -> (forall E, In E a -> tfind "type" E <> Some (TStr "AccGap")) ->
    tfind "type" EC = Some (TStr "AccGap") -> tfind "attr" EC = Some (TVec attr) ->
    List.length syn = 3%nat /\ forall i, (i < 3)%nat -> exists x, nth_error attr (20 + i) = Some x /\ nth_error syn i = Some (num x).

(** ** Files that are no good *)
(** A table that is not there, whose rows are of unequal length, that has no rows, or has one with
    less than [n] numbers. *)
Definition bad_table (n : nat) (o : option string) : Prop :=
  match o with
  | None => True
  | Some s => exists ls h rows, made_of (txt s) ls /\ describes ls h rows /\
      ((exists a b, In a rows /\ In b rows /\ List.length a <> List.length b) \/
       rows = []%list \/ exists r, In r rows /\ (List.length r < n)%nat)
  end.
(** A thin lens file that is not there, or has a word in place of a number. *)
Definition bad_pieces (o : option string) : Prop :=
  match o with
  | None => True
  | Some s => exists ls l ws, made_of (txt s) ls /\ In l ls /\ ~ passed_over l /\ begins l ws /\ wrong_words ws
  end.
(** The line has four good words where five belong; the field of the piece made of it has no value. *)
Definition unset_field (l : list ascii) (t : thin) : Prop := forall w n a b,
  begins l [w; n; a; b]%list -> fits a -> fits b -> ~ fieldless w -> (forall x, ~ begins l [w; n; a; b; x]%list) -> th_E0 t = Unset.
