(** What the conversions between Python objects and Config are supposed to do,
    without reference to the functions of Py_Model. *)
From Coq Require Import List String Ascii NArith Bool.
From Verif Require Import SMap Dbl Config_Model Config_Spec Glps_Model Machine_Model Py_Model.
Import ListNotations.
Local Open Scope list_scope.

(** ** Text: UTF-8 as in RFC 3629 *)
Inductive utf8_of : N -> list N -> Prop :=
| u1 a : (a < 128)%N -> utf8_of a [a]
| u2 a b : (a < 32 -> b < 64 -> 128 <= a * 64 + b ->
    utf8_of (a * 64 + b) [192 + a; 128 + b])%N
| u3 a b c : (a < 16 -> b < 64 -> c < 64 -> 2048 <= a * 4096 + b * 64 + c ->
    ~ (55296 <= a * 4096 + b * 64 + c < 57344) ->
    utf8_of (a * 4096 + b * 64 + c) [224 + a; 128 + b; 128 + c])%N
| u4 a b c d : (a < 8 -> b < 64 -> c < 64 -> d < 64 ->
    65536 <= a * 262144 + b * 4096 + c * 64 + d < 1114112 ->
    utf8_of (a * 262144 + b * 4096 + c * 64 + d) [240 + a; 128 + b; 128 + c; 128 + d])%N.
(** The bytes [s] spell the code points [u]. *)
Inductive text : list N -> list N -> Prop :=
| t_nil : text [] []
| t_cons c b u s : utf8_of c b -> text u s -> text (c :: u) (b ++ s).
Definition bytes (s : string) : list N := map N_of_ascii (list_ascii_of_string s).

(** The characters before the first null character. *)
Fixpoint before_nul (u : list N) : list N :=
  match u with
  | [] => []
  | c :: u' => if N.eqb c 0 then [] else c :: before_nul u'
  end.
Definition has_nul (u : list N) : Prop := In 0%N u.

(** ** Values *)

(** A Python object as a single value of a Config: a number, a vector or a
    string. *)
Inductive leaf : pyobj -> tval -> Prop :=
| l_num x : leaf (PyNumber (Some x)) (TNum x)
| l_vec nd l : nd <= 2 -> leaf (PyArray nd (Some l)) (TVec l)
| l_str u b s : text u b -> text (before_nul u) (bytes s) -> leaf (PyStr u) (TStr s).

(** An entry (k, v) of a list of entries. *)
Inductive entry : pyobj -> string -> pyobj -> Prop :=
| en u k v : text u (bytes k) -> ~ has_nul u -> entry (PyTuple [PyStr u; v]) k v.
Definition no_entry (k : string) (l : list pyobj) : Prop :=
  forall it v, In it l -> ~ entry it k v.
(** The last entry for [k] comes after [pre] and has value [v]. *)
Definition last_entry (k : string) (l pre : list pyobj) (v : pyobj) : Prop :=
  exists it post, l = pre ++ it :: post /\ entry it k v /\ no_entry k post.

(** The list of entries of a Config inside a list. *)
Inductive holds : pyobj -> list pyobj -> Prop :=
| h_list l : holds (PyList l) l
| h_dict l : holds (PyDict l) (map (fun kv => PyTuple [fst kv; snd kv]) l).
(** A list of Configs. *)
Inductive configs : pyobj -> list pyobj -> Prop :=
| c_list l : configs (PyList l) l
| c_tuple l : configs (PyTuple l) l.

(** What a single object becomes: a value, or as many Configs. *)
Definition value_for (v : pyobj) (o : option tval) : Prop :=
  (exists x, leaf v x /\ o = Some x) \/
  (exists es cs, configs v es /\ o = Some (TCfgs cs) /\ List.length cs = List.length es) \/
  (v = PyBytes EmptyString /\ o = Some (TCfgs [])).
(** [c] holds the last value given for every name of the entries [l]; other
    names are as in [base]. *)
Definition takes (base : string -> option tval) (l : list pyobj) (c : tcfg) : Prop :=
  (forall n, no_entry n l -> tfind n c = base n) /\
  (forall n pre v, last_entry n l pre v -> value_for v (tfind n c)).

(** Objects that can become a value with at most [n] levels of Configs inside. *)
Fixpoint convertible (n : nat) (v : pyobj) : Prop :=
  (exists x, leaf v x) \/ v = PyBytes EmptyString \/
  exists es, configs v es /\
    match n with
    | O => es = []
    | S n' => Forall (fun e => exists its, holds e its /\
                Forall (fun it => exists k w, entry it k w /\ convertible n' w) its) es
    end.
Definition convertible_items (n : nat) (l : list pyobj) : Prop :=
  Forall (fun it => exists k w, entry it k w /\ convertible n w) l.

(** ** From Python and back: the same entries, each key once, in byte order *)
Inductive tidied : pyobj -> pyobj -> Prop :=
| td_num x : tidied (PyNumber (Some x)) (PyNumber (Some x))
| td_vec nd l : tidied (PyArray nd (Some l)) (PyArray 1 (Some l))
| td_str u : tidied (PyStr u) (PyStr (before_nul u))
| td_none : tidied (PyBytes EmptyString) (PyList [])
| td_list v l l' : configs v l -> Forall2 tidied_config l l' -> tidied v (PyList l')
with tidied_config : pyobj -> pyobj -> Prop :=
| td_config e l l' : holds e l -> tidied_items l l' -> tidied_config e (PyList l')
with tidied_items : list pyobj -> list pyobj -> Prop :=
| td_items l (m : list (string * (pyobj * pyobj))) :
    ssorted m ->
    (forall k it v', In (k, (it, v')) m ->
       exists pre v, last_entry k l pre v /\ tidied v v' /\ entry it k v') ->
    (forall k, ~ no_entry k l -> exists x, In (k, x) m) ->
    tidied_items l (map (fun kx => fst (snd kx)) m).

(** ** From Config and back *)

(** Every Config is a map: its entries are in order (config.h:79). *)
Inductive proper : tval -> Prop :=
| p_num x : proper (TNum x)
| p_vec l : proper (TVec l)
| p_str s : proper (TStr s)
| p_cfgs l : Forall proper_cfg l -> proper (TCfgs l)
with proper_cfg : tcfg -> Prop :=
| p_cfg c : ssorted (town c) -> Forall (fun kv => proper (snd kv)) (town c) -> proper_cfg c.

(** Strings without null characters, at any depth; keys too. *)
Inductive nul_free : tval -> Prop :=
| n_num x : nul_free (TNum x)
| n_vec l : nul_free (TVec l)
| n_str s : ~ has_nul (bytes s) -> nul_free (TStr s)
| n_cfgs l : Forall nul_free_cfg l -> nul_free (TCfgs l)
with nul_free_cfg : tcfg -> Prop :=
| n_cfg c : Forall (fun kv => ~ has_nul (bytes (fst kv)) /\ nul_free (snd kv)) (town c) -> nul_free_cfg c.

(** At most [n] levels of lists of Configs. *)
Fixpoint levels (n : nat) (v : tval) : Prop :=
  match v with
  | TCfgs l =>
      match n with
      | O => l = []
      | S n' => Forall (fun c => Forall (fun kv => levels n' (snd kv)) (town c)) l
      end
  | _ => True
  end.
Definition cfg_levels (n : nat) (c : tcfg) : Prop := Forall (fun kv => levels n (snd kv)) (town c).

(** The same entries at every level (whatever else is visible). *)
Inductive same : tval -> tval -> Prop :=
| s_num x : same (TNum x) (TNum x)
| s_vec l : same (TVec l) (TVec l)
| s_str s : same (TStr s) (TStr s)
| s_cfgs l l' : Forall2 same_cfg l l' -> same (TCfgs l) (TCfgs l')
with same_cfg : tcfg -> tcfg -> Prop :=
| s_cfg c c' : Forall2 (fun e e' => fst e = fst e' /\ same (snd e) (snd e')) (town c) (town c') ->
    same_cfg c c'.
(** Looking a name up gives the same in both. *)
Definition osame (o o' : option tval) : Prop :=
  match o, o' with None, None => True | Some v, Some v' => same v v' | _, _ => False end.

(** The list of elements of a lattice. *)
Definition elements (c : tcfg) (es : list tcfg) : Prop :=
  sfind "elements"%string (town c) = Some (TCfgs es).

(** ** Lattices read from a text *)
Definition scalar (v : tval) : Prop := match v with TCfgs _ => False | _ => True end.
(** Apart from the list of elements there are only numbers, vectors and strings. *)
Definition simple_lattice (c : tcfg) (es : list tcfg) : Prop :=
  (forall n v, In (n, v) (town c) -> n <> "elements"%string -> scalar v) /\
  (forall g n v, In g es -> In (n, v) (town g) -> scalar v).
(** Element [g'] sees what [g] sees, as far as it is its own or comes before
    "elements" in byte order; and nothing else. *)
Definition sees_earlier (g g' : tcfg) : Prop :=
  (forall n, sfind n (town g) = sfind n (town g')) /\
  forall n, n <> "elements"%string ->
    (sfind n (town g) <> None \/ str_lt n "elements" -> tfind n g' = tfind n g) /\
    (sfind n (town g) = None -> ~ str_lt n "elements" -> tfind n g' = None).

(** ** Methods of Machine *)
(** [c] is configured by [l]: only values, no lists of Configs (unless empty). *)
Definition flat_entries (l : list pyobj) : Prop :=
  forall it, In it l -> exists k v, entry it k v /\ convertible 0 v.
(** The configuration that element [i] of a machine keeps. *)
Definition kept_conf {D B} (m : @machine D B) (i : nat) : option tcfg :=
  option_map (fun e => eb_conf (el_base e)) (nth_error (m_elems m) i).
(** A dict with these items. *)
Definition dict_of (l : list pyobj) (d : list (pyobj * pyobj)) : Prop :=
  l = map (fun kv => PyTuple [fst kv; snd kv]) d.

(** ** extra *)
Inductive extra_key : pyobj -> string -> Prop :=
| ek u b k : text u b -> text (before_nul u) (bytes k) -> extra_key (PyStr u) k.
Inductive extra_value : pyobj -> tval -> Prop :=
| ev_num x : extra_value (PyNumber (Some x)) (TNum x)
| ev_cell nd x : extra_value (PyArray nd (Some [x])) (TNum x)
| ev_str u b s : text u b -> text (before_nul u) (bytes s) -> extra_value (PyStr u) (TStr s).
(** The presets of a parser are those of a dict: of the items with the same name
    the last one counts. *)
Definition presets_of (d : list (pyobj * pyobj)) (vars : smap tval) : Prop :=
  ssorted vars /\
  (forall pre k v post n x, d = pre ++ (k, v) :: post -> extra_key k n -> extra_value v x ->
     (forall k' v', In (k', v') post -> ~ extra_key k' n) -> sfind n vars = Some x) /\
  (forall n, (forall k v, In (k, v) d -> ~ extra_key k n) -> sfind n vars = None).
(** An argument extra that is understood: names with numbers or strings. *)
Definition good_extra (e : pyobj) : Prop :=
  e = PyNone \/ exists d, e = PyDict d /\
    forall k v, In (k, v) d -> (exists u, k = PyStr u) /\
      ((exists x, v = PyNumber x) \/ (exists nd x, v = PyArray nd x) \/ (exists u, v = PyStr u)).
(** The parser leaves the text in a defined way (the others: C06). *)
Definition well_parsed (w : world) (s : string) : Prop :=
  forall vars, match parse_text w vars true s with
               | Parsed _ | Failed | BadGet => True | FailedKvFree | Undefined _ | OutOfFuel => False
               end.
(** The text a config argument stands for. *)
Inductive config_text (mem : nat -> option (list double) -> option string) : pyobj -> string -> Prop :=
| ct_file s : config_text mem (PyFile (Some s)) s
| ct_bytes s : config_text mem (PyBytes s) s
| ct_array nd x s : mem nd x = Some s -> config_text mem (PyArray nd x) s
| ct_str u b s : text u b -> text (before_nul u) (bytes s) -> config_text mem (PyStr u) s.
(** A configuration in which only numbers, vectors and strings are visible, none
    with null characters.  Config keeps its entries in order (config.h:79). *)
Definition plain_conf (c : tcfg) : Prop :=
  ssorted (town c) /\ ssorted (touter c) /\
  forall n v, tfind n c = Some v -> scalar v /\ ~ has_nul (bytes n) /\ nul_free v.

(** ** What is shown of a Config *)
(** A value of a Config as a Python object. *)
Inductive shown : tval -> pyobj -> Prop :=
| sh_num x : shown (TNum x) (PyNumber (Some x))
| sh_vec l : shown (TVec l) (PyArray 1 (Some l))
| sh_str s u : text u (before_nul (bytes s)) -> shown (TStr s) (PyStr u)
| sh_cfgs l ps : Forall2 shown_config l ps -> shown (TCfgs l) (PyList ps)
with shown_config : tcfg -> pyobj -> Prop :=
| sh_cfg own outer its : Forall2 shown_entry own its -> shown_config (TCfg own outer) (PyList its)
with shown_entry : string * tval -> pyobj -> Prop :=
| sh_entry k v q p : shown (TStr k) q -> shown v p -> shown_entry (k, v) (PyTuple [q; p]).
(** Every name visible in [c] once, in byte order, with its value. *)
Definition shows_all (c : tcfg) (l : list pyobj) : Prop :=
  exists es, ssorted es /\ (forall n, sfind n es = tfind n c) /\ Forall2 shown_entry es l.
(** The constructor of states looks at nothing but the values visible. *)
Definition state_by_values {D B} (m : @machine D B) : Prop :=
  forall c c', (forall n, tfind n c = tfind n c') -> si_build (m_info m) c = si_build (m_info m) c'.
