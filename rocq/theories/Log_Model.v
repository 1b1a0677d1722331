(** Log messages: Machine::LogRecord, the loggers of base.cpp and of the Python module, the
    levels.  Left out: how the text of a message is put together (an ostringstream), the
    mutex (messages and changes of the logger are one after the other), Python's handlers
    (what is kept is what handle() is called with; makeRecord() and handle() do not fail). *)
From Coq Require Import List String Ascii Bool NArith ZArith Arith.
From Verif Require Import Gen_Model.
Import ListNotations.
Open Scope string_scope.
Open Scope list_scope.

(** flame/base.h:527-532. *)
Definition FLAME_ERROR : Z := 40.
Definition FLAME_WARN : Z := 30.
Definition FLAME_INFO : Z := 20.
Definition FLAME_DEBUG : Z := 10.
Definition FLAME_FINE : Z := 0.

(** Machine::LogRecord (flame/base.h:497-511). *)
Record logrec := mkLog { l_file : string; l_line : nat; l_level : Z; l_text : string }.

Definition NL : ascii := ascii_of_nat 10.
(** Logcerr::log (base.cpp:282-288): what is written to std::cerr. *)
Definition last_is (c : ascii) (l : list ascii) : bool :=
  match rev l with x :: _ => Ascii.eqb x c | [] => false end.
Definition cerr_log (r : logrec) : list ascii :=
  list_ascii_of_string (l_file r) ++ ":"%char :: list_ascii_of_string (dec (l_line r)) ++ list_ascii_of_string " : " ++
  list_ascii_of_string (l_text r) ++
  (if (match list_ascii_of_string (l_text r) with [] => true | _ => false end || negb (last_is NL (list_ascii_of_string (l_text r))))%bool
   then [NL] else []).

(** std::string::find_last_not_of (modmain.cpp:24). *)
Fixpoint find_last_not_of (c : ascii) (l : list ascii) (i : nat) (best : option nat) : option nat :=
  match l with
  | [] => best
  | x :: l' => find_last_not_of c l' (S i) (if Ascii.eqb x c then best else Some i)
  end.
(** msg.c_str() ends at the first NUL (modmain.cpp:31). *)
Fixpoint c_str (l : list ascii) : list ascii :=
  match l with [] => [] | c :: l' => if Ascii.eqb c "000" then [] else c :: c_str l' end.
(** PyLogger::log (modmain.cpp:20-34): the arguments of makeRecord: logger, level, file,
    line, message.  Text is ASCII. *)
Record pyrec := mkPyLog { y_name : string; y_level : Z; y_file : string; y_line : nat; y_text : list ascii }.
Definition py_log (r : logrec) : pyrec :=
  let msg := list_ascii_of_string (l_text r) in
  let msg := match find_last_not_of NL msg 0 None with Some pos => firstn pos msg | None => msg end in
  mkPyLog "flame.machine" (l_level r) (l_file r) (l_line r) (c_str msg).

(** Machine::p_logger: Logcerr, PyLogger, or another one (base.cpp:296). *)
Inductive logger := Cerr | Python | Other (id : nat).
Inductive shown := ToCerr (t : list ascii) | ToPython (r : pyrec) | ToOther (id : nat) (r : logrec).
(** log_detail and p_logger as they are when nothing was set (base.cpp:295-296). *)
Record logging := mkLg { g_detail : Z; g_logger : logger }.
Definition log_start : logging := mkLg FLAME_WARN Cerr.
(** What happens: FLAME_LOG(level) << text (flame/base.h:534-543), Machine::log_detail = n,
    Machine::set_logger(p) where None is a null pointer (base.cpp:298-307). *)
Inductive logev := DoLog (r : logrec) | SetDetail (n : Z) | SetLogger (p : option logger).
(** Machine::LogRecord::~LogRecord (base.cpp:309-317). *)
Definition send (lg : logger) (r : logrec) : shown :=
  match lg with Cerr => ToCerr (cerr_log r) | Python => ToPython (py_log r) | Other i => ToOther i r end.
(** Machine::detail (flame/base.h:520). *)
Definition detail (g : logging) (lvl : Z) : bool := Z.leb (g_detail g) lvl.
Definition log_step (g : logging) (e : logev) : logging * list shown :=
  match e with
  | DoLog r => (g, if detail g (l_level r) then [send (g_logger g) r] else [])
  | SetDetail n => (mkLg n (g_logger g), [])
  | SetLogger p => (mkLg (g_detail g) (match p with Some l => l | None => Cerr end), [])
  end.
Fixpoint log_run (g : logging) (es : list logev) : list shown :=
  match es with
  | [] => []
  | e :: es' => let (g', o) := log_step g e in o ++ log_run g' es'
  end.

(** setLogLevel (modmain.cpp:46-55): "H" takes the lowest 16 bits of any integer. *)
Definition set_log_level (n : Z) : logev := SetDetail (n mod 65536).
(** import flame (modmain.cpp:99-108, python/flame/__init__.py:43). *)
Definition import_flame : list logev := [SetLogger (Some Python); set_log_level FLAME_WARN].

(** The option --verbose of run_flame (cli.cpp:394-400); None: undefined behaviour of
    arithmetic of type int. *)
Definition in_int (n : Z) : bool := (Z.leb (-2147483648) n && Z.leb n 2147483647)%bool.
Definition set_verbose (verb : Z) : option (list logev) :=
  if Z.ltb 2 verb then
    if (in_int (verb - 2) && in_int (10 * (verb - 2)) && in_int (FLAME_ERROR - 10 * (verb - 2)))%bool
    then Some [SetDetail (FLAME_ERROR - 10 * (verb - 2))] else None
  else Some [].
