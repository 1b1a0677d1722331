(** Model of the command line tool run_flame, tools/cli.cpp.
    Not modelled: how boost::program_options takes argv apart (cli.cpp:49-106; the
    record [cliargs] is its result), --verbose (only adds text), what is measured by
    --timeit, the layout of what is printed (StateBase::show) and warnings on
    std::cerr. *)
From Coq Require Import List String Ascii Bool NArith ZArith Arith.
From Verif Require Import SMap Dbl Config_Spec Lexer_Model Glps_Model Machine_Model.
Import ListNotations.
Open Scope string_scope.
Open Scope list_scope.

(** ** Strings *)
(** std::string::find_first_of(c, pos). *)
Fixpoint find_from (c : ascii) (l : list ascii) (pos : nat) : option nat :=
  match l with
  | [] => None
  | x :: l' =>
      match pos with
      | O => if Ascii.eqb x c then Some 0 else option_map S (find_from c l' 0)
      | S p => option_map S (find_from c l' p)
      end
  end.
(** substr(pos, n). *)
Definition substr (l : list ascii) (pos n : nat) : list ascii := firstn n (skipn pos l).

(** tokenize, cli.cpp:30-48: the loop; [fuel] is at least the number of characters left
    plus one. *)
Fixpoint tokens (fuel : nat) (inp : list ascii) (pos : nat) : option (list (list ascii)) :=
  match fuel with
  | O => None
  | S k =>
      match find_from "," inp pos with
      | None => Some [skipn pos inp]
      | Some sep =>
          option_map (fun r => if negb (Nat.eqb sep pos) then substr inp pos (sep - pos) :: r else r)
                     (tokens k inp (S sep))
      end
  end.
Definition tokenize (s : string) : option (list string) :=
  let l := list_ascii_of_string s in
  option_map (map string_of_list_ascii) (tokens (S (S (List.length l))) l 0).

(** boost::lexical_cast<int>(std::string): a sign, digits, nothing else, and in the
    range of int.  None: bad_lexical_cast. *)
Fixpoint digits_value (l : list ascii) (acc : Z) : option Z :=
  match l with
  | [] => Some acc
  | c :: l' => if is_digit c then digits_value l' (10 * acc + Z.of_N (N_of_ascii c - 48)) else None
  end.
Definition lex_int (s : string) : option Z :=
  let l := list_ascii_of_string s in
  let '(neg, l) := match l with
                   | "-"%char :: r => (true, r)
                   | "+"%char :: r => (false, r)
                   | _ => (false, l)
                   end in
  match l with
  | [] => None
  | _ => match digits_value l 0 with
         | Some v => let v := if neg then (- v)%Z else v in
                     if (Z.leb INT_MIN v && Z.leb v INT_MAX)%bool then Some v else None
         | None => None
         end
  end.

(** ** Arguments *)
Record cliargs := mkArgs {
  a_define : list string;       (* -D *)
  a_lattice : option string;    (* the text of the lattice file; None: not readable *)
  a_max : option string;        (* -M *)
  a_format : string;            (* -F, "txt" by default *)
  a_all : bool;                 (* -A *)
  a_types : list string;        (* -T *)
  a_names : list string;        (* -N *)
  a_last : bool;                (* -L *)
  a_timeit : bool               (* --timeit *)
}.

(** -D, cli.cpp:396-432: [lexd] is boost::lexical_cast<double>; None: the program
    ends with exit code 1 (exit(1), or an exception caught by main). *)
Definition define (lexd : string -> option double) (def : string) : option (string * tval) :=
  let l := list_ascii_of_string def in
  match find_from "=" l 0 with
  | None => None
  | Some equal =>
      match find_from ":" l equal with
      | None => None
      | Some colon =>
          if Nat.eqb equal 0 then None
          else
            let name := string_of_list_ascii (substr l 0 equal) in
            let type := string_of_list_ascii (substr l (equal + 1) (colon - equal - 1)) in
            let value := string_of_list_ascii (skipn (colon + 1) l) in
            if (String.eqb type "double" || String.eqb type "D")%bool
            then option_map (fun x => (name, TNum x)) (lexd value)
            else if (String.eqb type "str" || String.eqb type "S")%bool then Some (name, TStr value)
            else None
      end
  end.
Fixpoint defines (lexd : string -> option double) (vars : smap tval) (defs : list string) : option (smap tval) :=
  match defs with
  | [] => Some vars
  | d :: r => match define lexd d with
              | Some (n, v) => defines lexd (sset n v vars) r
              | None => None
              end
  end.

(** ** Output formats *)
Inductive factory :=
| FText (file : option string) (detail : Z)     (* StreamObserver::Factory, cli.cpp:256-303 *)
| FH5 (file : option string)                    (* H5Observer::Factory, cli.cpp:306-352 *)
| FUtest (names : list string).                 (* UnitTestObserver::Factory, cli.cpp:227-252 *)
(** std::string::substr(n) when [p] is what the first n characters are. *)
Definition after (p s : string) : option string :=
  let n := String.length p in
  if String.eqb (String.substring 0 n s) p then Some (String.substring n (String.length s - n) s) else None.
(** One option of the format txt, cli.cpp:268-280; None: bad_lexical_cast. *)
Definition text_option (f : option string * Z) (cmd : string) : option (option string * Z) :=
  match after "file=" cmd with
  | Some x => Some (Some x, snd f)
  | None =>
      if String.eqb cmd "verbose" then Some (fst f, 1%Z)
      else match after "verbose=" cmd with
           | Some x => option_map (pair (fst f)) (lex_int x)
           | None => Some f
           end
  end.
Fixpoint text_options (f : option string * Z) (cmds : list string) : option (option string * Z) :=
  match cmds with
  | [] => Some f
  | c :: r => match text_option f c with Some f => text_options f r | None => None end
  end.
Definition h5_option (f : option string) (cmd : string) : option string :=
  match after "file=" cmd with Some x => Some x | None => f end.
Definition has_char (c : ascii) (s : string) : bool :=
  match find_from c (list_ascii_of_string s) 0 with Some _ => true | None => false end.
(** cli.cpp:461-482; None: exit code 1.  With [h5] the program was built with HDF5. *)
Definition make_factory (h5 : bool) (format : string) : option factory :=
  match tokenize format with
  | None | Some [] => None
  | Some (k :: cmds) =>
      if String.eqb k "txt" then option_map (fun f => FText (fst f) (snd f)) (text_options (None, 1%Z) cmds)
      else if (h5 && String.eqb k "hdf5")%bool then Some (FH5 (fold_left h5_option cmds None))
      else if String.eqb k "utest" then Some (FUtest (filter (fun c => negb (has_char "=" c)) cmds))
      else None
  end.

(** UnitTestObserver::lookup, cli.cpp:126-159: the arrays of the state by their number:
    name, whether of doubles (otherwise of size_t), and number of dimensions.
    Elements of a new vector of unsigned are zero. *)
Definition printable (a : string * (bool * nat)) : bool :=
  let (dbl, nd) := snd a in ((dbl || Nat.eqb nd 0) && Nat.leb nd 2)%bool.
Fixpoint utest_map (arrays : list (string * (bool * nat))) (idx : nat) (L : smap nat) : smap nat :=
  match arrays with
  | [] => L
  | a :: r => utest_map r (S idx) (if printable a then sset (fst a) idx L else L)
  end.
Definition utest_index (arrays : list (string * (bool * nat))) (names : list string) : list nat :=
  let L := utest_map arrays 0 [] in
  map (fun n => match sfind n L with Some i => i | None => 0 end) names.

(** ** Selection of elements *)
Section Machine.
Context {D B : Type}.
(** ofact->observe(): an Observer, or NULL (cli.cpp:332-336). *)
Definition observe (f : factory) : option nat := match f with FH5 None => None | _ => Some 0 end.
(** cli.cpp:505-510: unless it has an observer. *)
Definition attach (o : option nat) (els : list (elem D B)) (i : nat) : list (elem D B) :=
  match nth_error els i with
  | Some e => match el_obs e with None => set_observer els i o | Some _ => els end
  | None => els
  end.
(** cli.cpp:490-547.  The assertion in line 492 holds: the machine is new. *)
Definition select (a : cliargs) (o : option nat) (m : machine D B) : machine D B :=
  let n := List.length (m_elems m) in
  let els := if a_all a then fold_left (fun els i => set_observer els i o) (seq 0 n) (m_elems m) else m_elems m in
  let els := fold_left (fun els t => fold_left (attach o) (equal_range_type m t) els) (a_types a) els in
  let els := fold_left (fun els t => fold_left (attach o) (equal_range m t) els) (a_names a) els in
  let els := if (a_last a && negb (Nat.eqb n 0))%bool then attach o els (n - 1) else els in
  with_elems m els.

(** ** main, cli.cpp:373-587.  What the program did: exit code, the calls of view()
    with element (slot) and state, and the final state; or it was undefined. *)
Inductive outcome :=
| Done (shown : list (event B)) (final : pstate B)     (* exit code 0 *)
| Stopped (shown : list (event B))                     (* exit code 1 *)
| Undefined.
(** catch(std::exception&), cli.cpp:584-587; assertions and undefined behaviour are not
    caught. *)
Definition stopped (shown : list (event B)) (e : exn) : outcome :=
  match e with
  | KeyError | InvalidArgument | RuntimeError | LogicError => Stopped shown
  | Abort | BadIndex | NotFinite => Undefined
  end.
Definition run_machine (a : cliargs) (m : machine D B) (max : Z) : outcome :=
  match alloc_state m (TCfg [] []) with
  | Throw e => stopped [] e
  | Ok st =>
      match propagate m st 0 max with
      | None => Undefined
      | Some p =>
          match pr_end p with
          | Throw e => stopped (pr_events p) e
          | Ok st1 =>
              if a_timeit a then
                match propagate (with_elems m (pr_elems p)) st1 0 max with
                | None => Undefined
                | Some q => match pr_end q with
                            | Throw e => stopped (pr_events p ++ pr_events q) e
                            | Ok st2 => Done (pr_events p ++ pr_events q) st2
                            end
                end
              else Done (pr_events p) st1
          end
      end
  end.
Definition main (lexd : string -> option double) (h5 : bool) (reg : registry D B) (w : world) (a : cliargs) : outcome :=
  match defines lexd [] (a_define a) with
  | None => Stopped []
  | Some vars =>
      match a_lattice a with
      | None => Stopped []
      | Some text =>
          match parse_text w vars true text with
          | Glps_Model.Failed | BadGet => Stopped []
          | FailedKvFree | Glps_Model.Undefined _ | OutOfFuel => Undefined
          | Parsed c =>
              match (match a_max a with None => Some INT_MAX | Some s => lex_int s end) with
              | None => Stopped []
              | Some max =>
                  match make_factory h5 (a_format a) with
                  | None => Stopped []
                  | Some f =>
                      match new_machine reg c with
                      | Throw e => stopped [] e
                      | Ok m => run_machine a (select a (observe f) m) max
                      end
                  end
              end
          end
      end
  end.
End Machine.
