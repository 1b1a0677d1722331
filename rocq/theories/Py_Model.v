(** Model of the conversions between Python objects and Config:
    python/flame/modconfig.cpp (List2Config, conf2dict, list2conf,
    PyGLPSParse2Config, PyGLPSParse, PyGLPSPrint) and of the methods of Machine
    in python/flame/modmachine.cpp that use them (__init__, conf, allocState,
    reconfigure).  Python 3.  Config is the tree of Config_Spec ([tcfg]), which
    the proofs of C01 and C03 justify. *)
From Coq Require Import List String Ascii NArith ZArith Bool.
From Verif Require Import SMap Dbl Config_Model Config_Spec Glps_Model Machine_Model Print_Model.
Import ListNotations.
Local Open Scope string_scope.
Local Open Scope list_scope.

(** ** Python objects, as far as the code looks at them.  Instances of
    subclasses count as their base class. *)
Inductive pyobj :=
| PyNone
| PyNumber (x : option double)
    (** a number (PyNumber_Check) that exports no buffer; PyNumber_Float yields x or raises (complex, huge int) *)
| PyStr (s : list N)             (** str: its code points *)
| PyBytes (b : string)           (** bytes, bytearray: a buffer and a sequence of integers *)
| PyArray (nd : nat) (x : option (list double))
    (** numpy array of nd dimensions; its cells in C order as double, or None when they cannot be converted *)
| PyList (l : list pyobj)
| PyTuple (l : list pyobj)
| PyDict (l : list (pyobj * pyobj))  (** items in insertion order *)
| PyFile (data : option string)      (** has an attribute read; None: read() raises or returns no buffer *)
| PyOther.                           (** none of these: no number, sequence, buffer *)

(** How a call ends: with a value, by an exception (which Python sees as such,
    pyflame.h:25-29), or by following a null or invalid pointer. *)
Inductive py (A : Type) := Ret (a : A) | Raise | Crash.
Arguments Ret {A}. Arguments Raise {A}. Arguments Crash {A}.
Definition pbind {A B} (x : py A) (f : A -> py B) : py B :=
  match x with Ret a => f a | Raise => Raise | Crash => Crash end.

(** ** Strings *)

(** PyUnicode_AsUTF8String, used by PyCString (pyflame.h:138-145) and by format
    "s" of PyArg_ParseTuple: surrogates cannot be encoded. *)
Definition byte (n : N) : ascii := ascii_of_N n.
Definition utf8_char (c : N) : option (list ascii) :=
  if (c <? 128)%N then Some [byte c]
  else if (c <? 2048)%N then Some [byte (192 + c / 64); byte (128 + c mod 64)]
  else if ((55296 <=? c) && (c <? 57344))%N%bool then None
  else if (c <? 65536)%N then
    Some [byte (224 + c / 4096); byte (128 + c / 64 mod 64); byte (128 + c mod 64)]
  else if (c <? 1114112)%N then
    Some [byte (240 + c / 262144); byte (128 + c / 4096 mod 64);
          byte (128 + c / 64 mod 64); byte (128 + c mod 64)]
  else None.
Fixpoint utf8 (s : list N) : option (list ascii) :=
  match s with
  | [] => Some []
  | c :: s' =>
      match utf8_char c, utf8 s' with Some a, Some b => Some (a ++ b) | _, _ => None end
  end.

(** PyUnicode_FromString and format "s" of Py_BuildValue: strict UTF-8; no
    overlong forms, surrogates or code points beyond 10FFFF. *)
Definition cont (b : ascii) : option N :=
  let n := N_of_ascii b in
  if ((128 <=? n) && (n <? 192))%N%bool then Some (n - 128)%N else None.
Fixpoint unutf8 (l : list ascii) : option (list N) :=
  match l with
  | [] => Some []
  | a :: l1 =>
      let n := N_of_ascii a in
      if (n <? 128)%N then option_map (cons n) (unutf8 l1)
      else if (n <? 192)%N then None
      else if (n <? 224)%N then
        match l1 with
        | b :: l2 =>
            match cont b with
            | Some x => let c := ((n - 192) * 64 + x)%N in
                        if (c <? 128)%N then None else option_map (cons c) (unutf8 l2)
            | None => None
            end
        | _ => None
        end
      else if (n <? 240)%N then
        match l1 with
        | b :: b' :: l2 =>
            match cont b, cont b' with
            | Some x, Some y =>
                let c := ((n - 224) * 4096 + x * 64 + y)%N in
                if ((c <? 2048) || ((55296 <=? c) && (c <? 57344)))%N%bool then None
                else option_map (cons c) (unutf8 l2)
            | _, _ => None
            end
        | _ => None
        end
      else
        match l1 with
        | b :: b' :: b'' :: l2 =>
            match cont b, cont b', cont b'' with
            | Some x, Some y, Some z =>
                let c := ((n - 240) * 262144 + x * 4096 + y * 64 + z)%N in
                if ((c <? 65536) || (1114112 <=? c))%N%bool then None
                else option_map (cons c) (unutf8 l2)
            | _, _, _ => None
            end
        | _ => None
        end
  end.

(** What a C function taking [const char*] sees of an array of bytes. *)
Fixpoint cstr (l : list ascii) : list ascii :=
  match l with
  | [] => []
  | a :: l' => if (N_of_ascii a =? 0)%N then [] else a :: cstr l'
  end.

(** ** List2Config, modconfig.cpp:22-86 *)

(** [PyArg_ParseTuple(item, "sO", &kname, &value)], modconfig.cpp:34-35: a tuple
    of two, the first a str without a null character. *)
Definition parse_item (it : pyobj) : option (string * pyobj) :=
  match it with
  | PyTuple [PyStr k; v] =>
      match utf8 k with
      | Some b => if Nat.eqb (List.length (cstr b)) (List.length b)
                  then Some (string_of_list_ascii b, v) else None
      | None => None
      end
  | _ => None
  end.

(** PyMapping_Items of a dict, or a list as it is, modconfig.cpp:66-72. *)
Definition dict_items (l : list (pyobj * pyobj)) : list pyobj :=
  map (fun kv => PyTuple [fst kv; snd kv]) l.
Definition entries (e : pyobj) : option (list pyobj) :=
  match e with
  | PyDict l => Some (dict_items l)
  | PyList l => Some l
  | _ => None
  end.

Section Rec.
(** List2Config one level deeper. *)
Context (rec : tcfg -> list pyobj -> py tcfg).

(** modconfig.cpp:63-77; each new Config is a new scope of [ret]. *)
Fixpoint to_configs (ret : tcfg) (l : list pyobj) : py (list tcfg) :=
  match l with
  | [] => Ret []
  | e :: l' =>
      match entries e with
      | None => Raise
      | Some its => pbind (rec (tscope ret) its) (fun c =>
                    pbind (to_configs ret l') (fun cs => Ret (c :: cs)))
      end
  end.

(** modconfig.cpp:37-84: array, number, str, sequence, in this order. *)
Definition to_value (ret : tcfg) (v : pyobj) : py tval :=
  match v with
  | PyArray nd (Some l) => if Nat.leb nd 2 then Ret (TVec l) else Raise
  | PyArray _ None => Raise
  | PyNumber (Some x) => Ret (TNum x)
  | PyNumber None => Raise
  | PyStr s =>
      match utf8 s with
      | Some b => Ret (TStr (string_of_list_ascii (cstr b)))
      | None => Raise
      end
  | PyList l | PyTuple l => pbind (to_configs ret l) (fun cs => Ret (TCfgs cs))
  | PyBytes b =>                       (* a sequence of integers *)
      match b with EmptyString => Ret (TCfgs []) | _ => Raise end
  | PyNone | PyDict _ | PyFile _ | PyOther => Raise
  end.

(** modconfig.cpp:28-85 *)
Fixpoint take_items (ret : tcfg) (l : list pyobj) : py tcfg :=
  match l with
  | [] => Ret ret
  | it :: l' =>
      match parse_item it with
      | None => Raise
      | Some (k, v) => pbind (to_value ret v) (fun x => take_items (tset k x ret) l')
      end
  end.
End Rec.

(** [room] is 4 - depth; modconfig.cpp:24-25: depth beyond 3 is refused. *)
Fixpoint list2config (room : nat) (ret : tcfg) (l : list pyobj) : py tcfg :=
  match room with
  | O => Raise
  | S r => take_items (list2config r) ret l
  end.

(** list2conf, modconfig.cpp:150-157. *)
Definition list2conf (l : list pyobj) : py tcfg := list2config 4 (TCfg [] []) l.

(** ** conf2dict, modconfig.cpp:98-148 *)

(** PyUnicode_FromString(v.c_str()), and Py_BuildValue("s", key.c_str()). *)
Definition to_str (s : string) : py pyobj :=
  match unutf8 (cstr (list_ascii_of_string s)) with
  | Some u => Ret (PyStr u)
  | None => Raise
  end.

Fixpoint to_python (v : tval) : py pyobj :=
  match v with
  | TNum x => Ret (PyNumber (Some x))
  | TStr s => to_str s
  | TVec l => Ret (PyArray 1 (Some l))
  | TCfgs l =>
      pbind ((fix each (l : list tcfg) : py (list pyobj) :=
                match l with
                | [] => Ret []
                | TCfg own _ :: l' =>
                    pbind ((fix ents (m : smap tval) : py (list pyobj) :=
                              match m with
                              | [] => Ret []
                              | (k, x) :: m' =>
                                  pbind (to_python x) (fun p =>
                                  pbind (to_str k) (fun q =>
                                  pbind (ents m') (fun ps => Ret (PyTuple [q; p] :: ps))))
                              end) own) (fun its =>
                    pbind (each l') (fun ps => Ret (PyList its :: ps)))
                end) l) (fun ps => Ret (PyList ps))
  end.

(** The entries of the inner scope only, in the order of the map
    (config.h:209-214). *)
Fixpoint conf_items (m : smap tval) : py (list pyobj) :=
  match m with
  | [] => Ret []
  | (k, x) :: m' =>
      pbind (to_python x) (fun p =>
      pbind (to_str k) (fun q =>
      pbind (conf_items m') (fun ps => Ret (PyTuple [q; p] :: ps))))
  end.
Definition conf2dict (c : tcfg) : py (list pyobj) := conf_items (town c).

(** ** PyGLPSParse2Config, modconfig.cpp:186-274 *)

(** modconfig.cpp:202-224.  None: a Python exception is set and NULL returned.
    PyCString of a key that is no str raises. *)
Fixpoint extra_vars (vars : smap tval) (l : list (pyobj * pyobj)) : py (option (smap tval)) :=
  match l with
  | [] => Ret (Some vars)
  | (k, v) :: l' =>
      match k with
      | PyStr ks =>
          match utf8 ks with
          | None => Raise
          | Some kb =>
              let set x := extra_vars (sset (string_of_list_ascii (cstr kb)) x vars) l' in
              match v with
              | PyArray _ (Some [x]) => set (TNum x)  (* arrays of one cell are numbers *)
              | PyArray _ _ => Raise
              | PyNumber (Some x) => set (TNum x)
              | PyNumber None => Raise
              | PyStr s =>
                  match utf8 s with
                  | Some b => set (TStr (string_of_list_ascii (cstr b)))
                  | None => Raise
                  end
              | _ => Ret None
              end
          end
      | _ => Raise
      end
  end.

(** GLPSParser::parse_byte with the presets; FailedKvFree has already released
    memory wrongly. *)
Definition parsed (w : world) (vars : smap tval) (s : string) : py (option tcfg) :=
  match parse_text w vars true s with
  | Parsed c => Ret (Some c)
  | Failed | BadGet => Raise
  | FailedKvFree | Undefined _ | OutOfFuel => Crash
  end.

(** The arguments config and extra; None: not given.  [mem] tells the bytes of
    the buffer an array exports, if it is contiguous.  The path argument belongs
    to the world [w]. *)
Definition parse2config (w : world) (mem : nat -> option (list double) -> option string)
    (config : option pyobj) (extra : pyobj) : py (option tcfg) :=
  match config with
  | None => Ret None                                     (* modconfig.cpp:191-192 *)
  | Some conf =>
      pbind (match extra with
             | PyNone => Ret (Some sempty)
             | PyDict l => extra_vars sempty l
             | _ => Ret None                             (* modconfig.cpp:225-228 *)
             end) (fun vars =>
      match vars with
      | None => Ret None
      | Some vars =>
          match conf with
          | PyFile None => Ret None                      (* modconfig.cpp:243-246 *)
          | PyFile (Some s) => parsed w vars s
          | PyBytes s => parsed w vars s
          | PyArray nd x => match mem nd x with Some s => parsed w vars s | None => Raise end
          | PyStr u =>
              match utf8 u with
              | Some b => parsed w vars (string_of_list_ascii (cstr b))
              | None => Raise
              end
          | PyDict l => pbind (list2conf (dict_items l)) (fun c => Ret (Some c))
          | PyList l => pbind (list2conf l) (fun c => Ret (Some c))
          | PyNone | PyNumber _ | PyTuple _ | PyOther => Raise
          end
      end)
  end.

(** PyGLPSParse, modconfig.cpp:276-281: NULL becomes NULL, that is the exception
    already set. *)
Definition py_parse w mem config extra : py pyobj :=
  pbind (parse2config w mem config extra) (fun c =>
  match c with
  | None => Raise
  | Some c => pbind (conf2dict c) (fun l => Ret (PyList l))
  end).

(** PyGLPSPrint, modconfig.cpp:159-180. *)
Definition py_print (inp : pyobj) : py pyobj :=
  match entries inp with
  | None => Raise
  | Some l =>
      pbind (list2conf l) (fun c =>
      match glps_print c with
      | Ok s => to_str s
      | Throw _ => Raise
      end)
  end.

(** ** Methods of Machine *)
Section Machine.
Context {D B : Type}.

(** An exception of the C++ code. *)
Definition lift {A} (r : res A) : py A := match r with Ok a => Ret a | Throw _ => Raise end.

(** PyMachine_init, modmachine.cpp:20-33: [Machine( *C )] whatever C is. *)
Definition py_machine (reg : @registry D B) w mem config extra : py (@machine D B) :=
  pbind (parse2config w mem config extra) (fun c =>
  match c with
  | None => Crash
  | Some c => lift (new_machine reg c)
  end).

(** Config::flatten (config.cpp:116-124) on a tree. *)
Definition tflatten (c : tcfg) : tcfg := TCfg (smerge (town c) (touter c)) [].

(** PyMachine_conf, modmachine.cpp:60-84.  [index] None: Python's None. *)
Definition py_conf (m : @machine D B) (index : option Z) : py (list pyobj) :=
  match index with
  | None => conf2dict (tflatten (m_conf m))
  | Some i =>
      if Z.ltb i 0 then Raise
      else match slot (m_elems m) (Z.to_N i) with
           | None => Raise
           | Some e => conf2dict (tflatten (eb_conf (el_base e)))
           end
  end.

(** Config::push_scope (config.cpp:109-114) on a tree. *)
Definition tpush (c : tcfg) : tcfg := TCfg [] (town (tflatten c)).

(** PyMachine_allocState, modmachine.cpp:87-113: [config] None or a dict. *)
Definition py_alloc (m : @machine D B) (config : option (list (pyobj * pyobj))) (inherit : bool)
  : py (@pstate B) :=
  match config with
  | None => lift (alloc_state m (m_conf m))
  | Some d =>
      pbind (list2config 4 (if inherit then tpush (m_conf m) else TCfg [] []) (dict_items d))
            (fun c => lift (alloc_state m c))
  end.

(** PyMachine_reconfigure, modmachine.cpp:195-219: depth 3 leaves no room for
    lists of Configs. *)
Definition py_reconfigure (m : @machine D B) (idx : N) (d : list (pyobj * pyobj)) (replace : bool)
  : @machine D B * py unit :=
  match slot (m_elems m) idx with
  | None => (m, Raise)
  | Some e =>
      match list2config 1 (if replace then TCfg [] [] else eb_conf (el_base e)) (dict_items d) with
      | Ret c => let (m', r) := reconfigure m idx c in (m', lift r)
      | Raise => (m, Raise)
      | Crash => (m, Crash)
      end
  end.
End Machine.
