(** Model of the virtual accelerator (vaccel/): the device support that lets the
    records of an EPICS IOC change the settings of a Machine, have it simulated by a
    worker thread, and show what the simulation gave.

    EPICS itself is outside: a record is processed with the fields it has at that time
    (they are arguments here) and what the device support leaves in the record is the
    outcome.  epicsMutex is a lock, epicsEvent a binary semaphore, scanIoRequest() is
    counted.  boost::regex_match is modelled by a backtracking matcher (greedy, Perl
    order).  Log output, debug levels and time stamps are left out.

    [B] is the body of a state as in Machine_Model; [kindof] and [memof] show it as the
    memory of Array_Model in which getArray() points. *)
From Coq Require Import List String Ascii Bool NArith ZArith.
From Verif Require Import SMap Dbl Lexer_Model Config_Spec Machine_Model Util_Model Array_Model.
Import ListNotations.
Open Scope string_scope.
Open Scope list_scope.

(** ** Links *)

(** The regular expressions in use: a character, one or more characters of a class,
    sequence, an optional part, a capture group. *)
Inductive re :=
| RChr (c : ascii)
| RMany (p : ascii -> bool)
| RSeq (a b : re)
| ROpt (a : re)
| RCap (n : nat) (a : re).
Definition caps := list (nat * list ascii).

(** Matching at the front of [l]; [k] matches what follows.  The first way that
    succeeds is taken: longest repetitions first, optional parts taken first. *)
Fixpoint rmatch (r : re) (l : list ascii) (c : caps) (k : list ascii -> caps -> option caps) : option caps :=
  match r with
  | RChr x => match l with y :: l' => if Ascii.eqb x y then k l' c else None | [] => None end
  | RMany p =>
      (fix go (l : list ascii) : option caps :=
         match l with
         | [] => None
         | y :: l' => if p y then match go l' with Some r => Some r | None => k l' c end else None
         end) l
  | RSeq a b => rmatch a l c (fun l' c' => rmatch b l' c' k)
  | ROpt a => match rmatch a l c k with Some r => Some r | None => k l c end
  | RCap n a =>
      rmatch a l c (fun l' c' => k l' ((n, firstn (List.length l - List.length l') l) :: c'))
  end.
(** boost::regex_match: all of the string. *)
Definition regex_match (r : re) (s : string) : option caps :=
  rmatch r (list_ascii_of_string s) [] (fun l c => match l with [] => Some c | _ => None end).
(** M.str(n); M[n].matched. *)
Fixpoint group (c : caps) (n : nat) : option string :=
  match c with
  | [] => None
  | (m, l) :: c' => if Nat.eqb m n then Some (string_of_list_ascii l) else group c' n
  end.
Definition str (c : caps) (n : nat) : string := match group c n with Some s => s | None => EmptyString end.

(** \S and [^\s\[] and \d. *)
Definition no_space (c : ascii) : bool := negb (is_space c).
Definition name_char (c : ascii) : bool := (no_space c && negb (Ascii.eqb c "["))%bool.
Fixpoint seqs (l : list re) : re := match l with [] => RMany (fun _ => false) | [a] => a | a :: l' => RSeq a (seqs l') end.
(** (?:\[(\d+)\])? *)
Definition inst_part (n : nat) : re := ROpt (seqs [RChr "["; RCap n (RMany is_digit); RChr "]"]).
(** (?:\[(\d+)(?:,(\d+))?\])? *)
Definition dims_part (n m : nat) : re :=
  ROpt (seqs [RChr "["; RCap n (RMany is_digit); ROpt (seqs [RChr ","; RCap m (RMany is_digit)]); RChr "]"]).
(** flameset.cpp:19. *)
Definition setting_pat : re :=
  seqs [RCap 1 (RMany no_space); RChr " "; RCap 2 (RMany name_char); inst_part 3; RChr " "; RCap 4 (RMany no_space)].
(** flamemeasure.cpp:43. *)
Definition state_pat : re :=
  seqs [RCap 1 (RMany no_space); RChr " "; RCap 2 (RMany name_char); inst_part 3; RChr " ";
        RCap 4 (RMany name_char); dims_part 5 6].
(** flameorbit.cpp:34. *)
Definition orbit_pat : re :=
  seqs [RCap 1 (RMany no_space); RChr " "; RCap 2 (RMany name_char); RChr " "; RCap 3 (RMany name_char); dims_part 4 5].
(** flameelem.cpp:18. *)
Definition elem_pat : re :=
  seqs [RCap 1 (RMany no_space); RChr " "; RCap 2 (RMany name_char); inst_part 3].

(** boost::lexical_cast<size_t> of digits: bad_lexical_cast (here: None) if too large. *)
Definition to_size (s : string) : option N :=
  let n := Z.to_N (digits_val (list_ascii_of_string s)) in
  if N.leb n SIZE_MAX then Some n else None.
(** A group of digits if it took part in the match: [Some None] if it did not. *)
Definition size_group (c : caps) (n : nat) : option (option N) :=
  match group c n with
  | None => Some None
  | Some s => match to_size s with Some k => Some (Some k) | None => None end
  end.

(** ** Analog records: the fields that convert between VAL and the device's number *)
Record ana := mkAna { a_aslo : double; a_aoff : double; a_linr : bool; a_eslo : double; a_eoff : double }.
Definition nonzero (x : double) : bool := negb (deq x dzero).
(** flameset.cpp:49-52, 120-123, flamemeasure.cpp:144-147, flamedev.cpp:118-121. *)
Definition to_val (a : ana) (x : double) : double :=
  let x := if nonzero (a_aslo a) then dmul x (a_aslo a) else x in
  let x := dadd x (a_aoff a) in
  if (a_linr a && nonzero (a_eslo a))%bool then dadd (dmul x (a_eslo a)) (a_eoff a) else x.
(** flameset.cpp:87-92. *)
Definition of_val (a : ana) (x : double) : double :=
  let x := if a_linr a then (if nonzero (a_eslo a) then ddiv (dsub x (a_eoff a)) (a_eslo a) else x) else x in
  let x := dsub x (a_aoff a) in
  if nonzero (a_aslo a) then ddiv x (a_aslo a) else x.

Section Ioc.
Context {D B : Type}.
Variables (ab : abi) (kindof : B -> kind) (memof : B -> mem).
(** e.what(). *)
Variable what : exn -> string.

(** Which of the model's ends of a function are exceptions (all derive from
    std::exception); the others are nothing that can be caught. *)
Definition caught (e : exn) : bool :=
  match e with KeyError | InvalidArgument | RuntimeError | LogicError => true | Abort | BadIndex | NotFinite => false end.

(** Sim (flame.h:47-79).  A VIOCObserver is known by its number; [v_last] has their
    [last].  [v_scans] counts the calls of scanIoRequest(aftersim). *)
Record vsim := mkV {
  v_machine : machine D B;
  v_stop : bool; v_dosim : bool; v_valid : bool;
  v_msg : string;
  v_measures : list (N * nat);
  v_last : list (option (pstate B));
  v_scans : nat
}.
Definition set_machine (s : vsim) (m : machine D B) : vsim :=
  mkV m (v_stop s) (v_dosim s) (v_valid s) (v_msg s) (v_measures s) (v_last s) (v_scans s).
Definition set_stop (s : vsim) : vsim :=
  mkV (v_machine s) true (v_dosim s) (v_valid s) (v_msg s) (v_measures s) (v_last s) (v_scans s).
Definition set_dosim (s : vsim) (b : bool) : vsim :=
  mkV (v_machine s) (v_stop s) b (v_valid s) (v_msg s) (v_measures s) (v_last s) (v_scans s).
Definition set_last (s : vsim) (l : list (option (pstate B))) : vsim :=
  mkV (v_machine s) (v_stop s) (v_dosim s) (v_valid s) (v_msg s) (v_measures s) l (v_scans s).
Definition set_elems (s : vsim) (els : list (elem D B)) : vsim := set_machine s (with_elems (v_machine s) els).
(** flame.cpp:56 and 57-60. *)
Definition set_good (s : vsim) : vsim :=
  mkV (v_machine s) (v_stop s) (v_dosim s) true (v_msg s) (v_measures s) (v_last s) (v_scans s).
Definition set_bad (s : vsim) (e : exn) : vsim :=
  mkV (v_machine s) (v_stop s) (v_dosim s) false (what e) (v_measures s) (v_last s) (v_scans s).
(** flame.cpp:65. *)
Definition scan (s : vsim) : vsim :=
  mkV (v_machine s) (v_stop s) (v_dosim s) (v_valid s) (v_msg s) (v_measures s) (v_last s) (S (v_scans s)).

(** Sim::Sim (flame.cpp:12-28) and what flamePrepare (flame.cpp:94-121) puts in. *)
Definition new_sim (m : machine D B) : vsim := mkV m false false false EmptyString [] [] 0.

Fixpoint mfind (i : N) (l : list (N * nat)) : option nat :=
  match l with [] => None | (j, o) :: l' => if N.eqb i j then Some o else mfind i l' end.

(** Sim::get_measure (flamedev.cpp:26-38).  Throw InvalidArgument: at() fails; Abort:
    the assertion. *)
Definition get_measure (s : vsim) (i : N) : res (vsim * nat) :=
  match mfind i (v_measures s) with
  | Some o => Ok (s, o)
  | None =>
      match slot (m_elems (v_machine s)) i with
      | None => Throw InvalidArgument
      | Some e =>
          match el_obs e with
          | Some _ => Throw Abort
          | None =>
              let o := List.length (v_last s) in
              Ok (mkV (with_elems (v_machine s) (set_observer (m_elems (v_machine s)) (N.to_nat i) (Some o)))
                      (v_stop s) (v_dosim s) (v_valid s) (v_msg s) (v_measures s ++ [(i, o)])
                      (v_last s ++ [None]) (v_scans s), o)
          end
      end
  end.

(** VIOCObserver::view (flamemeasure.cpp:12-18): a clone, later assign().  None: there
    is no such observer. *)
Definition viewed (last : list (option (pstate B))) (o : nat) (st : pstate B) : option (list (option (pstate B))) :=
  match nth_error last o with
  | None => None
  | Some None => Some (update last o (Some (mkSt 0 false (st_body st))))
  | Some (Some old) => Some (update last o (Some (mkSt (st_next old) (st_retreat old) (st_body st))))
  end.

(** ** Initialisation of records *)

(** SimGlobal.sims. *)
Definition simmap := smap vsim.
(** IErr: a message on stderr, and dpvt stays NULL.  IUndef: undefined behaviour, a
    failed assertion, or [fuel] exhausted. *)
Inductive ires (A : Type) := IOk (a : A) | IErr | IUndef.
Arguments IOk {A}. Arguments IErr {A}. Arguments IUndef {A}.
Definition ibind {A C} (r : ires A) (f : A -> ires C) : ires C :=
  match r with IOk a => f a | IErr => IErr | IUndef => IUndef end.
Definition of_res {A} (r : res A) : ires A :=
  match r with Ok a => IOk a | Throw e => if caught e then IErr else IUndef end.
Definition of_opt {A} (r : option A) : ires A := match r with Some a => IOk a | None => IErr end.

(** flamePrepare (flame.cpp:94-121); [conf] is what the parser makes of the file, None
    if it throws. *)
Definition prepare (r : registry D B) (g : simmap) (name : string) (conf : option tcfg) : simmap * ires unit :=
  match sfind name g with
  | Some _ => (g, IErr)
  | None =>
      match conf with
      | None => (g, IErr)
      | Some c =>
          match new_machine r c with
          | Ok m => (sset name (new_sim m) g, IOk tt)
          | Throw e => (g, if caught e then IErr else IUndef)
          end
      end
  end.

(** Machine::find and the number of the element found (base.h:346-355). *)
Definition find_index (s : vsim) (n : string) (i : N) : option (N * elem D B) :=
  match find (v_machine s) n i with
  | None => None
  | Some j => match nth_error (m_elems (v_machine s)) j with Some e => Some (el_index e, e) | None => None end
  end.
Definition or0 (o : option N) : N := match o with Some n => n | None => 0%N end.

(** SimDevSetting (flame.h:92-97). *)
Record setdev := mkSD { sd_sim : string; sd_index : N; sd_param : string }.
(** setting_init_a (flameset.cpp:13-67): the device and VAL. *)
Definition init_setting (g : simmap) (link : string) (a : ana) : ires (setdev * double) :=
  ibind (of_opt (regex_match setting_pat link)) (fun c =>
  ibind (of_opt (sfind (str c 1) g)) (fun s =>
  ibind (of_opt (size_group c 3)) (fun inst =>
  ibind (of_opt (find_index s (str c 2) (or0 inst))) (fun '(i, e) =>
  ibind (of_res (get_num (eb_conf (el_base e)) (str c 4))) (fun x =>
  IOk (mkSD (str c 1) i (str c 4), to_val a x)))))).

(** The loop over getArray() in flamemeasure.cpp:83-99, flameorbit.cpp:78-94: the number
    of the attribute. *)
Fixpoint find_attr (fuel : nat) (kd : kind) (param : string) (ndim : nat) (idx : nat) : ires nat :=
  match fuel with
  | O => IUndef
  | S f =>
      match get_array ab kd idx with
      | AUndef => IUndef
      | ANone => IErr
      | AInfo a =>
          if String.eqb (a_name a) param then
            match a_type a with
            | TSizet => IErr
            | TDouble => if Nat.eqb (List.length (a_dim a)) ndim then IOk idx else IErr
            end
          else find_attr f kd param ndim (S idx)
      end
  end.
(** The state they ask: allocState(Config()), base.cpp:193-197. *)
Definition attr_number (s : vsim) (param : string) (dims : list N) : ires nat :=
  ibind (of_res (alloc_state (v_machine s) (TCfg [] []))) (fun st =>
  find_attr 100 (kindof (st_body st)) param (List.length dims) 0).
Definition dims_of (a b : option N) : list N :=
  match a, b with Some x, Some y => [x; y] | Some x, None => [x] | None, Some y => [y] | None, None => [] end.

(** SimDevMeasScalar (flamemeasure.cpp:20-29). *)
Record measdev := mkMD { md_sim : string; md_index : N; md_obs : nat; md_attr : nat; md_dims : list N }.
(** measure_init_common (flamemeasure.cpp:31-108).  The simulations afterwards, too: an
    observer may have been attached although the record is refused. *)
Definition init_state (g : simmap) (link : string) : simmap * ires measdev :=
  match regex_match state_pat link with
  | None => (g, IErr)
  | Some c =>
      match sfind (str c 1) g, size_group c 3, size_group c 5, size_group c 6 with
      | Some s, Some inst, Some d0, Some d1 =>
          match find_index s (str c 2) (or0 inst) with
          | None => (g, IErr)
          | Some (i, _) =>
              match get_measure s i with
              | Throw e => (g, if caught e then IErr else IUndef)
              | Ok (s', o) =>
                  (sset (str c 1) s' g,
                   ibind (attr_number s' (str c 4) (dims_of d0 d1)) (fun k =>
                   IOk (mkMD (str c 1) i o k (dims_of d0 d1))))
              end
          end
      | _, _, _, _ => (g, IErr)
      end
  end.

(** SimDevOrbit (flameorbit.cpp:12-21); the range of iterators is the list of slots. *)
Record orbdev := mkOD { od_sim : string; od_slots : list nat; od_attr : nat; od_dims : list N }.
(** flameorbit.cpp:65-68. *)
Fixpoint get_measures (s : vsim) (l : list nat) : res vsim :=
  match l with
  | [] => Ok s
  | j :: l' =>
      match nth_error (m_elems (v_machine s)) j with
      | None => Throw Abort
      | Some e => rbind (get_measure s (el_index e)) (fun '(s', _) => get_measures s' l')
      end
  end.
(** orbit_init_common (flameorbit.cpp:23-103). *)
Definition init_orbit (g : simmap) (link : string) : simmap * ires orbdev :=
  match regex_match orbit_pat link with
  | None => (g, IErr)
  | Some c =>
      match sfind (str c 1) g, size_group c 4, size_group c 5 with
      | Some s, Some d0, Some d1 =>
          match equal_range_type (v_machine s) (str c 2) with
          | [] => (g, IErr)
          | l =>
              match get_measures s l with
              | Throw e => (g, if caught e then IErr else IUndef)
              | Ok s' =>
                  (sset (str c 1) s' g,
                   ibind (attr_number s' (str c 3) (dims_of d0 d1)) (fun k =>
                   IOk (mkOD (str c 1) l k (dims_of d0 d1))))
              end
          end
      | _, _, _ => (g, IErr)
      end
  end.

(** elem_init_common (flameelem.cpp:11-47): the number that elem_read_index
    (flameelem.cpp:56-66) shows. *)
Definition init_elem (g : simmap) (link : string) : ires N :=
  ibind (of_opt (regex_match elem_pat link)) (fun c =>
  ibind (of_opt (sfind (str c 1) g)) (fun s =>
  ibind (of_opt (size_group c 3)) (fun inst =>
  ibind (of_opt (find_index s (str c 2) (or0 inst))) (fun '(i, _) => IOk i)))).

(** ** Processing of records *)

(** What is in the record afterwards.  OAlarm: CATCH_ALARM (flame.h:101), nothing else
    was changed.  OVal: VAL and whether READ/INVALID was raised; OWave: the buffer, NORD
    and the same; OText: the bytes copied. *)
Inductive vout :=
| ODone | OAlarm | OVal (x : double) (alarm : bool) | OWave (buf : list double) (nord : nat) (alarm : bool)
| OText (s : list ascii).

(** A value in a kept state: flamemeasure.cpp:125-135, flameorbit.cpp:140-149.  [Some
    None]: not available.  None: undefined behaviour. *)
Definition fetch (last : option (pstate B)) (k : nat) (dims : list N) : option (option double) :=
  match last with
  | None => Some None
  | Some st =>
      match get_array ab (kindof (st_body st)) k with
      | AUndef => None
      | ANone => Some None
      | AInfo a =>
          let d := map N.to_nat dims in
          if (Nat.eqb (List.length d) (List.length (a_dim a)) && inbounds (a_dim a) d)%bool
          then match load (memof (st_body st)) (raw a d) with Some (CD x) => Some (Some x) | _ => None end
          else Some None
      end
  end.

(** The processing of a record is a sequence of small steps on the shared Sim, made
    while the lock is held.  Its own variables: *)
Record loc := mkLoc {
  l_flag : bool; l_conf : tcfg; l_buf : list double; l_i : nat; l_out : bool; l_res : vout
}.
Definition loc0 : loc := mkLoc false (TCfg [] []) [] 0 false ODone.
Definition with_flag (l : loc) (b : bool) : loc := mkLoc b (l_conf l) (l_buf l) (l_i l) (l_out l) (l_res l).
Definition with_conf (l : loc) (c : tcfg) : loc := mkLoc (l_flag l) c (l_buf l) (l_i l) (l_out l) (l_res l).
Definition with_buf (l : loc) (b : list double) (i : nat) : loc := mkLoc (l_flag l) (l_conf l) b i (l_out l) (l_res l).
(** The loop or the function has been left. *)
Definition leave (l : loc) (r : vout) : loc := mkLoc (l_flag l) (l_conf l) (l_buf l) (l_i l) true r.
(** A step: None is undefined behaviour, the boolean says that event.signal() was called. *)
Definition micro := vsim -> loc -> option (vsim * loc * bool).

(** write_do_sim (flamedev.cpp:92-101) with Sim::queueSim (flame.cpp:69-82). *)
Definition do_sim_code : list micro :=
  [ fun s l => Some (s, with_flag l (v_dosim s), false);
    fun s l => Some (if l_flag l then s else set_dosim s true, l, false);
    fun s l => Some (s, leave l ODone, negb (l_flag l)) ].

(** setting_change_ao (flameset.cpp:81-110) with VAL [x]. *)
Definition set_code (i : N) (param : string) (a : ana) (x : double) : list micro :=
  [ fun s l =>
      match slot (m_elems (v_machine s)) i with
      | None => Some (s, leave l OAlarm, false)
      | Some e => Some (s, with_conf l (tset param (TNum (of_val a x)) (eb_conf (el_base e))), false)
      end;
    fun s l =>
      if l_out l then Some (s, l, false)
      else
        match reconfigure (v_machine s) i (l_conf l) with
        | (m, Ok _) => Some (set_machine s m, leave l ODone, false)
        | (m, Throw e) => if caught e then Some (set_machine s m, leave l OAlarm, false) else None
        end ].

(** setting_readback_ai (flameset.cpp:112-129). *)
Definition get_code (i : N) (param : string) (a : ana) : list micro :=
  [ fun s l =>
      match slot (m_elems (v_machine s)) i with
      | None => Some (s, leave l OAlarm, false)
      | Some e =>
          match get_num (eb_conf (el_base e)) param with
          | Ok x => Some (s, leave l (OVal (to_val a x) false), false)
          | Throw _ => Some (s, leave l OAlarm, false)
          end
      end ].

(** measure_read_ai (flamemeasure.cpp:116-153). *)
Definition meas_code (d : measdev) (a : ana) : list micro :=
  [ fun s l => Some (s, with_flag l (v_valid s), false);
    fun s l =>
      match nth_error (v_last s) (md_obs d) with
      | None => None
      | Some last =>
          match fetch last (md_attr d) (md_dims d) with
          | None => None
          | Some (Some x) => Some (s, leave l (OVal (to_val a x) (negb (l_flag l))), false)
          | Some None => Some (s, leave l (OVal (to_val a dzero) true), false)
          end
      end ].

(** orbit_read_wf (flameorbit.cpp:112-160) into the buffer [buf], which has NELM
    numbers: the beginning, one pass of the loop, and the end. *)
Definition orbit_code (d : orbdev) (buf : list double) : list micro :=
  (fun s l => Some (s, with_buf (with_flag l (v_valid s)) buf 0, false)) ::
  map (fun j s l =>
         if l_out l then Some (s, l, false)
         else if Nat.eqb (l_i l) (List.length buf) then Some (s, leave (with_flag l false) ODone, false)
         else
           match nth_error (m_elems (v_machine s)) j with
           | None => None
           | Some e =>
               match mfind (el_index e) (v_measures s) with
               | None => None
               | Some o =>
                   match nth_error (v_last s) o with
                   | None => None
                   | Some last =>
                       match fetch last (od_attr d) (od_dims d) with
                       | None => None
                       | Some (Some x) => Some (s, with_buf l (update (l_buf l) (l_i l) x) (S (l_i l)), false)
                       | Some None => Some (s, with_buf (with_flag l false) (l_buf l) (S (l_i l)), false)
                       end
                   end
               end
           end) (od_slots d) ++
  [fun s l => Some (s, leave l (OWave (l_buf l) (l_i l) (negb (l_flag l))), false)].

(** orbit_index_wf (flameorbit.cpp:164-190). *)
Definition index_code (d : orbdev) (buf : list double) : list micro :=
  (fun s l => Some (s, with_buf (with_flag l true) buf 0, false)) ::
  map (fun j s l =>
         if l_out l then Some (s, l, false)
         else if Nat.eqb (l_i l) (List.length buf) then Some (s, leave (with_flag l false) ODone, false)
         else
           match nth_error (m_elems (v_machine s)) j with
           | None => None
           | Some e => Some (s, with_buf l (update (l_buf l) (l_i l) (d_of_Z (Z.of_N (el_index e)))) (S (l_i l)), false)
           end) (od_slots d) ++
  [fun s l => Some (s, leave l (OWave (l_buf l) (l_i l) (negb (l_flag l))), false)].

(** read_last_msg (flamedev.cpp:69-79). *)
Definition msg_code (nelm : nat) : list micro :=
  [ fun s l => Some (s, leave l (OText (firstn nelm (list_ascii_of_string (v_msg s)))), false) ].

(** The first part of flameCleanup (flame.cpp:172-187) and Sim::~Sim (flame.cpp:30-37);
    the signal comes after the lock is released. *)
Definition stop_code : list micro := [ fun s l => Some (set_stop s, leave l ODone, false) ].

(** The records that can be processed, and the end of the IOC. *)
Inductive vop :=
| VDoSim
| VSet (i : N) (param : string) (a : ana) (x : double)
| VGet (i : N) (param : string) (a : ana)
| VMeas (d : measdev) (a : ana)
| VOrbit (d : orbdev) (buf : list double)
| VIndex (d : orbdev) (buf : list double)
| VMsg (nelm : nat)
| VStop.
Definition code (o : vop) : list micro :=
  match o with
  | VDoSim => do_sim_code
  | VSet i p a x => set_code i p a x
  | VGet i p a => get_code i p a
  | VMeas d a => meas_code d a
  | VOrbit d b => orbit_code d b
  | VIndex d b => index_code d b
  | VMsg n => msg_code n
  | VStop => stop_code
  end.
Definition is_stop (o : vop) : bool := match o with VStop => true | _ => false end.

(** ** Threads *)

(** Where the worker is in Sim::run (flame.cpp:39-67).  WEnter: it has to take the lock;
    WTop: at the while, lock held; WWait: in event.wait(), lock released; WAlloc: doSim
    was cleared; WProp n st: in propagate(), n elements have been passed; WScan: before
    scanIoRequest(); WDone: returned. *)
Inductive wpc := WEnter | WTop | WWait | WAlloc | WProp (n : N) (st : pstate B) | WScan | WDone.
(** Where another thread is: between two records, processing one (the steps left, its
    variables), about to signal after stop was set, in exitWait(). *)
Inductive cpc :=
| CReady (todo : list vop)
| CIn (o : vop) (rest : list micro) (l : loc) (todo : list vop)
| CSig (todo : list vop)
| CJoin (todo : list vop).
Inductive holder := HW | HC (i : nat).
(** What has been completed, in order: a simulation, or thread [i] has processed a record
    with this outcome.  Nothing looks at it. *)
Inductive hop := HRun | HDo (i : nat) (o : vop) (r : vout).
Record sys := mkSys {
  y_sim : vsim; y_lock : option holder; y_event : bool; y_worker : wpc; y_clients : list cpc; y_hist : list hop
}.
(** Blocked: nothing can be done by this thread now.  Gone: undefined behaviour or
    abort(). *)
Inductive sres := Blocked | Gone | Went (y : sys).

Definition start (s : vsim) (scripts : list (list vop)) : sys :=
  mkSys s None false WEnter (map CReady scripts) [].

(** One step of the worker. *)
Definition wstep (y : sys) : sres :=
  let s := y_sim y in
  let go s lk ev w h := Went (mkSys s lk ev w (y_clients y) h) in
  match y_worker y with
  | WDone => Blocked
  | WEnter => match y_lock y with None => go s (Some HW) (y_event y) WTop (y_hist y) | Some _ => Blocked end
  | WTop =>
      if v_stop s then go s None (y_event y) WDone (y_hist y)
      else if v_dosim s then go (set_dosim s false) (Some HW) (y_event y) WAlloc (y_hist y)
      else go s None (y_event y) WWait (y_hist y)
  | WWait => if y_event y then go s (y_lock y) false WEnter (y_hist y) else Blocked
  | WAlloc =>
      match alloc_state (v_machine s) (TCfg [] []) with
      | Ok st => go s (Some HW) (y_event y) (WProp 0 (mkSt 0 false (st_body st))) (y_hist y)
      | Throw e => if caught e then go (set_bad s e) (Some HW) (y_event y) WScan (y_hist y) else Gone
      end
  | WProp n st =>
      (* base.cpp:167-191 with start 0 and max INT_MAX *)
      if N.ltb n 2147483647 then
        match slot (m_elems (v_machine s)) (st_next st) with
        | None => go (set_good s) (Some HW) (y_event y) WScan (y_hist y)
        | Some e =>
            let i := N.to_nat (st_next st) in
            let st1 := mkSt (if st_retreat st then size_decr (st_next st) else size_incr (st_next st))
                            (st_retreat st) (st_body st) in
            match cl_advance (el_class e) (el_base e) (el_data e) st1 with
            | (d, Throw x) =>
                if caught x
                then go (set_bad (set_elems s (update (m_elems (v_machine s)) i (with_data e d))) x)
                        (Some HW) (y_event y) WScan (y_hist y)
                else Gone
            | (d, Ok st2) =>
                let s1 := set_elems s (update (m_elems (v_machine s)) i (with_data e d)) in
                match el_obs e with
                | None => go s1 (Some HW) (y_event y) (WProp (N.succ n) st2) (y_hist y)
                | Some o =>
                    match viewed (v_last s) o st2 with
                    | Some l => go (set_last s1 l) (Some HW) (y_event y) (WProp (N.succ n) st2) (y_hist y)
                    | None => Gone
                    end
                end
            end
        end
      else go (set_good s) (Some HW) (y_event y) WScan (y_hist y)
  | WScan => go (scan s) (Some HW) (y_event y) WTop (y_hist y ++ [HRun])
  end.

(** One step of thread [i]: Guard takes the lock, the steps are made, the lock is
    released.  event.signal() sets the semaphore. *)
Definition cstep (i : nat) (y : sys) : sres :=
  let go s lk ev c h := Went (mkSys s lk ev (y_worker y) (update (y_clients y) i c) h) in
  match nth_error (y_clients y) i with
  | None => Blocked
  | Some (CReady []) => Blocked
  | Some (CReady (o :: todo)) =>
      match y_lock y with
      | None => go (y_sim y) (Some (HC i)) (y_event y) (CIn o (code o) loc0 todo) (y_hist y)
      | Some _ => Blocked
      end
  | Some (CIn o (f :: rest) l todo) =>
      match f (y_sim y) l with
      | None => Gone
      | Some (s, l', sig) => go s (y_lock y) (y_event y || sig)%bool (CIn o rest l' todo) (y_hist y)
      end
  | Some (CIn o [] l todo) =>
      go (y_sim y) None (y_event y) (if is_stop o then CSig todo else CReady todo) (y_hist y ++ [HDo i o (l_res l)])
  | Some (CSig todo) => go (y_sim y) (y_lock y) true (CJoin todo) (y_hist y)
  | Some (CJoin todo) =>
      match y_worker y with
      | WDone => go (y_sim y) (y_lock y) (y_event y) (CReady todo) (y_hist y)
      | _ => Blocked
      end
  end.

(** Any thread may be next. *)
Inductive ystep (y y' : sys) : Prop :=
| by_worker : wstep y = Went y' -> ystep y y'
| by_client : forall i, cstep i y = Went y' -> ystep y y'.
Inductive reach (y : sys) : sys -> Prop :=
| reach_refl : reach y y
| reach_step : forall y1 y2, reach y y1 -> ystep y1 y2 -> reach y y2.

End Ioc.
Arguments vsim : clear implicits.
Arguments sys : clear implicits.
Arguments sres : clear implicits.
Arguments simmap : clear implicits.
Arguments ires : clear implicits.
Arguments IOk {A}. Arguments IErr {A}. Arguments IUndef {A}.
