(** What the command line tool should do, stated on its own. *)
From Coq Require Import List String Ascii Bool NArith ZArith.
From Verif Require Import SMap Dbl Config_Spec Lexer_Spec Glps_Model Glps_Spec Machine_Model Machine_Spec Util_Spec Cli_Model.
Import ListNotations.
Open Scope string_scope.
Open Scope list_scope.

(** ** Definitions *)
Definition without (c : ascii) (s : string) : Prop := ~ In c (txt s).
(** name=type:value *)
Definition defines_as (lexd : string -> option double) (d : string) (nv : string * tval) : Prop :=
  exists ty v, d = (fst nv ++ "=" ++ ty ++ ":" ++ v)%string /\ fst nv <> "" /\ without "=" (fst nv) /\ without ":" ty /\
    ((In ty ["double"; "D"] /\ exists x, lexd v = Some x /\ snd nv = TNum x) \/ (In ty ["str"; "S"] /\ snd nv = TStr v)).
(** Of several definitions of a name the last one counts. *)
Definition latest (nvs : list (string * tval)) (vars : smap tval) : Prop :=
  ssorted vars /\
  forall n, (~ In n (map fst nvs) /\ sfind n vars = None) \/
            (exists a v b, nvs = a ++ (n, v) :: b /\ ~ In n (map fst b) /\ sfind n vars = Some v).
(** The definitions as statements of the lattice file. *)
Definition written (vars : smap tval) : list stmt :=
  map (fun nv => SAssign (fst nv) (match snd nv with TNum x => ANum x | TStr s => AStr s | _ => AStr "" end)) vars.

(** ** Numbers of elements *)
Definition int_word (s : string) (z : Z) : Prop :=
  exists sg ds, txt s = sg ++ ds /\ ds <> [] /\ forallb c_digit ds = true /\
    (((sg = [] \/ sg = ["+"%char]) /\ z = dec 0 ds) \/ (sg = ["-"%char] /\ z = (- dec 0 ds)%Z)) /\ (INT_MIN <= z <= INT_MAX)%Z.
Definition limit (a : cliargs) (max : Z) : Prop :=
  match a_max a with None => max = INT_MAX | Some s => int_word s max end.

(** ** Output formats *)
(** The words between commas; empty ones do not count, but for the last. *)
Definition comma_words (s : string) (ws : list string) : Prop :=
  exists ps l, s = String.concat "," (ps ++ [l]) /\ Forall (without ",") (ps ++ [l]) /\
    ws = filter (fun p => negb (String.eqb p "")) ps ++ [l].
Definition names_file (w : string) : Prop := exists x, w = ("file=" ++ x)%string.
Definition last_file (ws : list string) (o : option string) : Prop :=
  ((forall w, In w ws -> ~ names_file w) /\ o = None) \/
  exists a x b, ws = a ++ ("file=" ++ x)%string :: b /\ (forall w, In w b -> ~ names_file w) /\ o = Some x.
Definition gives_level (w : string) (z : Z) : Prop := (w = "verbose" /\ z = 1%Z) \/ exists x, w = ("verbose=" ++ x)%string /\ int_word x z.
Definition about_level (w : string) : Prop := w = "verbose" \/ exists x, w = ("verbose=" ++ x)%string.
Definition last_level (ws : list string) (z : Z) : Prop :=
  (forall w, In w ws -> about_level w -> exists y, gives_level w y) /\
  (((forall w, In w ws -> ~ about_level w) /\ z = 1%Z) \/
   exists a w b, ws = a ++ w :: b /\ (forall v, In v b -> ~ about_level v) /\ gives_level w z).
(** Words without an equals sign. *)
Inductive picked : list string -> list string -> Prop :=
| pk_nil : picked [] []
| pk_take n ws ns : without "=" n -> picked ws ns -> picked (n :: ws) (n :: ns)
| pk_skip n ws ns : ~ without "=" n -> picked ws ns -> picked (n :: ws) ns.
Definition format_as (h5 : bool) (s : string) (f : factory) : Prop :=
  exists k ws, comma_words s (k :: ws) /\
    ((k = "txt" /\ exists o z, last_file ws o /\ last_level ws z /\ f = FText o z) \/
     (h5 = true /\ k = "hdf5" /\ exists o, last_file ws o /\ f = FH5 o) \/
     (k = "utest" /\ exists ns, f = FUtest ns /\ picked ws ns)).

(** ** Selected elements *)
Section Machine.
Context {D B : Type}.
Definition selected (a : cliargs) (els : list (elem D B)) (i : nat) : bool :=
  match nth_error els i with
  | None => false
  | Some e => (a_all a || existsb (String.eqb (el_tname e)) (a_types a) || existsb (String.eqb (el_name e)) (a_names a) ||
               (a_last a && Nat.eqb (S i) (List.length els)))%bool
  end.
(** What is shown of a trail. *)
Definition on_show (a : cliargs) (els : list (elem D B)) (trail : list (nat * pstate B)) : list (nat * pstate B) :=
  filter (fun p => selected a els (fst p)) trail.
Definition as_pairs (shown : list (event B)) : list (nat * pstate B) := map (fun v => (ev_slot v, ev_state v)) shown.
(** The machine of the lattice file with the definitions. *)
Definition built (lexd : string -> option double) (reg : registry D B) (w : world) (a : cliargs) (m : machine D B) : Prop :=
  exists nvs vars s c, Forall2 (defines_as lexd) (a_define a) nvs /\ latest nvs vars /\ a_lattice a = Some s /\
    parse_text w vars true s = Parsed c /\ new_machine reg c = Ok m.
(** How the program ends when the simulation does. *)
Definition ended (r : res (pstate B)) (shown : list (event B)) (o : outcome) : Prop :=
  match r with
  | Ok s => o = Done shown s
  | Throw e => o = if match e with Abort | BadIndex | NotFinite => true | _ => false end then Undefined else Stopped shown
  end.
End Machine.
