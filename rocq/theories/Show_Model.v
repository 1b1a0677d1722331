(** Model of printing: operator<< of states and machines, StateBase::show(),
    ElementVoid::show() and what they write for the three simulation types, the
    trace stream of Machine::propagate, the txt output of run_flame and what its
    -v prints, and str() and show() of the Python State.

    A stream is the text written so far and the format of numbers, which stays
    set: std::scientific and std::setprecision change it for everything written
    later (std::setw does not).  Numbers are written exactly as glibc does, in the
    C locale.

    Simplified: streams start in the default format or in a scientific one, and
    have no other flag set (showpos, fill ...); the sign of a NaN is not
    represented; writing never fails; what --timeit and the loading of files print
    is left out.  The format of vectors and matrices is that of boost (ublas/io.hpp),
    which is not part of the repository. *)
From Coq Require Import List String Ascii Bool NArith ZArith DecimalString.
From Verif Require Import SMap Dbl Config_Spec Lexer_Model Machine_Model Print_Model Log_Model.
Import ListNotations.
Open Scope string_scope.
Open Scope list_scope.

(** ** Numbers *)

(** The format of a stream: as it is made, or after std::scientific and
    std::setprecision(p) (src/moment.cpp:53, 273-289). *)
Inductive fmt := Default | Sci (p : nat).

(** [p]+1 digits q and the exponent X of %.pe: n/d is about q * 10^(X - p). *)
Definition sci_digits (p : nat) (n d : Z) : option (Z * Z) :=
  match log10 (n * 10 ^ 400 / d) with
  | None => None
  | Some k =>
      let x := (k - 400)%Z in let p := Z.of_nat p in
      let q := if (p <=? x)%Z then div_even n (d * 10 ^ (x - p)) else div_even (n * 10 ^ (p - x)) d in
      Some (if (q =? 10 ^ (p + 1))%Z then (10 ^ p, x + 1)%Z else (q, x))
  end.
(** One digit, a point, [p] digits, the exponent; the point only if [p] > 0. *)
Definition sci_text (p : nat) (q x : Z) : list ascii :=
  let ds := digit_list (S p) q in
  firstn 1 ds ++ (match p with O => [] | S _ => ["."%char] end) ++ skipn 1 ds ++ exp_digits x.
(** [strm<<std::scientific<<std::setprecision(p)<<v] *)
Definition show_sci (p : nat) (v : double) : list ascii :=
  match v with
  | S754_zero s => sign_text s ++ sci_text p 0 0
  | S754_infinity s => sign_text s ++ list_ascii_of_string "inf"
  | S754_nan => list_ascii_of_string "nan"
  | S754_finite s m e =>
      let (n, d) := frac_of m e in
      match sci_digits p n d with
      | Some (q, x) => sign_text s ++ sci_text p q x
      | None => [] (* unreachable: Show2_Proofs *)
      end
  end.
Definition num_text (f : fmt) (v : double) : list ascii :=
  match f with Default => show_num v | Sci p => show_sci p v end.
(** A size_t. *)
Definition size_text (n : N) : list ascii := list_ascii_of_string (NilEmpty.string_of_uint (N.to_uint n)).
(** std::setw(w): blanks on the left. *)
Definition pad (w : nat) (t : list ascii) : list ascii := repeat " "%char (w - List.length t) ++ t.

(** ** Writing to a stream *)
Definition writer : Type := fmt -> list ascii * fmt.
Definition skip : writer := fun f => ([], f).
Definition andthen (a b : writer) : writer :=
  fun f => let (t, f1) := a f in let (u, f2) := b f1 in (t ++ u, f2).
Notation "a ;; b" := (andthen a b) (at level 61, right associativity).
Definition put (t : list ascii) : writer := fun f => (t, f).
Definition puts (s : string) : writer := put (txt s).
Definition putnl : writer := put [nl].
Definition sci (p : nat) : writer := fun _ => ([], Sci p).
Definition putd (x : double) : writer := fun f => (num_text f x, f).
Definition putw (w : nat) (x : double) : writer := fun f => (pad w (num_text f x), f).
Definition all {A} (g : A -> writer) (l : list A) : writer := fold_right (fun a w => g a ;; w) skip l.

(** ublas/io.hpp: separated by commas without blanks, in the format of the stream *)
Fixpoint commas (l : list (list ascii)) : list ascii :=
  match l with
  | [] => []
  | [x] => x
  | x :: r => x ++ txt "," ++ commas r
  end.
Definition vec_text (f : fmt) (v : list double) : list ascii := txt "(" ++ commas (map (num_text f) v) ++ txt ")".
Definition putvec (v : list double) : writer :=
  fun f => (txt "[" ++ size_text (N.of_nat (List.length v)) ++ txt "]" ++ vec_text f v, f).
Definition putmat (m : list (list double)) : writer :=
  fun f => (txt "[" ++ size_text (N.of_nat (List.length m)) ++ txt "," ++
            size_text (N.of_nat (match m with r :: _ => List.length r | [] => 0 end)) ++ txt "](" ++
            commas (map (vec_text f) m) ++ txt ")", f).

(** ** States *)

(** Particle (moment.h:21-57) *)
Record pview := mkPV {
  pv_IonZ : double; pv_IonQ : double; pv_IonEs : double; pv_IonEk : double; pv_SampleIonK : double;
  pv_phis : double; pv_IonW : double; pv_gamma : double; pv_beta : double; pv_bg : double }.
(** A charge state: real[k], moment0[k], moment1[k] (moment.h:117-126).
    Simplified: the three arrays are of one length (C30). *)
Record cview := mkCV { cv_real : pview; cv_moment0 : list double; cv_moment1 : list (list double) }.
(** MomentState, as far as it is printed *)
Record mview := mkMV {
  mv_ref : pview; mv_states : list cview;
  mv_env0 : list double; mv_rms0 : list double; mv_env1 : list (list double) }.

(** operator<<(ostream, Particle) (moment.cpp:50-65) *)
Definition putpart (p : pview) : writer :=
  puts "IonZ=" ;; sci 10 ;; putd (pv_IonZ p) ;;
  puts " IonQ=" ;; putd (pv_IonQ p) ;;
  puts " IonEs=" ;; putd (pv_IonEs p) ;;
  puts " IonEk=" ;; putd (pv_IonEk p) ;;
  puts " SampleIonK=" ;; putd (pv_SampleIonK p) ;;
  puts " phis=" ;; putd (pv_phis p) ;;
  puts " IonW=" ;; putd (pv_IonW p) ;;
  puts " gamma=" ;; putd (pv_gamma p) ;;
  puts " beta=" ;; putd (pv_beta p) ;;
  puts " bg=" ;; putd (pv_bg p).

(** The loops of moment.cpp:275-276, 279-280 and 284-286: a number in 18 columns and a comma *)
Definition putcol (x : double) : writer := sci 10 ;; putw 18 x ;; puts ",".
(** moment.cpp:282-289: the rows, with line ends between them *)
Fixpoint putrows (m : list (list double)) : writer :=
  match m with
  | [] => skip
  | [r] => puts "    " ;; all putcol r
  | r :: m' => puts "    " ;; all putcol r ;; putnl ;; putrows m'
  end.
(** moment.cpp:271-290 *)
Definition put_level1 (first : cview) (s : mview) : writer :=
  sci 8 ;; putnl ;; puts "State:" ;; putnl ;; puts "  energy [eV] =" ;; putnl ;;
  putw 20 (pv_IonEk (cv_real first)) ;; putnl ;; puts "  moment0 mean =" ;; putnl ;; puts "    " ;;
  all putcol (mv_env0 s) ;;
  sci 10 ;; putnl ;; puts "  moment0 rms =" ;; putnl ;; puts "    " ;;
  all putcol (mv_rms0 s) ;;
  putnl ;; puts "  moment1 mean =" ;; putnl ;; putrows (mv_env1 s).
(** moment.cpp:293-300 *)
Fixpoint put_states (level : Z) (k : N) (l : list cview) : writer :=
  match l with
  | [] => skip
  | c :: l' =>
      puts "  Charge state " ;; put (size_text k) ;; putnl ;;
      puts "    " ;; putpart (cv_real c) ;; putnl ;;
      puts "    moment0 " ;; putvec (cv_moment0 c) ;; putnl ;;
      (if (3 <=? level)%Z then puts "    moment1 " ;; putmat (cv_moment1 c) ;; putnl else skip) ;;
      put_states level (N.succ k) l'
  end.
(** MomentState::show (moment.cpp:265-302) *)
Definition show_moment (s : mview) (level : Z) : writer :=
  match mv_states s with
  | [] => puts "State: empty"
  | first :: _ =>
      (if (level <=? 0)%Z then puts "State: moment0 mean=" ;; putvec (mv_env0 s) else skip) ;;
      (if (1 <=? level)%Z then put_level1 first s else skip) ;;
      (if (2 <=? level)%Z
       then putnl ;; puts "  Reference state:" ;; putnl ;; puts "    " ;; putpart (mv_ref s) ;; putnl ;;
            put_states level 0 (mv_states s)
       else skip)
  end.

(** The three sorts of states.  [StateBase::show(ostream, int)] (base.h:48) writes
    nothing.  MatrixState overrides it (state/matrix.h:30, linear.cpp:54-57).
    VectorState does not: its show() has no second parameter (state/vector.h:29,
    linear.cpp:104-107), so every call through StateBase (base.h:143-147,
    modstate.cpp:265, 312, cli.cpp:260) finds the empty one. *)
Inductive body := BVec (v : list double) | BMat (m : list (list double)) | BMom (s : mview).
Definition show_body (b : body) (level : Z) : writer :=
  match b with
  | BVec _ => skip
  | BMat m => puts "State: " ;; putmat m ;; putnl
  | BMom s => show_moment s level
  end.

(** ** Python (modstate.cpp:260-268, 302-316): a new stream; the level is an
    unsigned long, of which "k" takes the last 64 bits, converted to int (as gcc
    does: the last 32 bits); PyString_FromString reads up to a NUL. *)
Definition to_int (z : Z) : Z := let u := (z mod 2 ^ 32)%Z in if (u <? 2 ^ 31)%Z then u else (u - 2 ^ 32)%Z.
Definition py_str (b : body) : list ascii := c_str (fst (show_body b 0 Default)).
Definition py_show (b : body) (level : Z) : list ascii := c_str (fst (show_body b (to_int (level mod 2 ^ 64)) Default)).

(** ** Elements and machines *)

(** What a class's show() adds: nothing (MomentElementBase, moment.cpp:582-591),
    the matrix (LinearElementBase, linear.h:35-39) or the state of a source
    (linear.cpp:184-188, moment.cpp:787-791). *)
Inductive extra := Nothing | Transfer (m : list (list double)) | InitVec (v : list double) | InitMat (m : list (list double)).
Definition put_extra (x : extra) : writer :=
  match x with
  | Nothing => skip
  | Transfer m => puts "Transfer: " ;; putmat m ;; putnl
  | InitVec v => puts "Initial: " ;; putvec v ;; putnl
  | InitMat m => puts "Initial: " ;; putmat m ;; putnl
  end.

Section Show.
Context {D B : Type}.
(** The printed part of an element's own data, and of a state. *)
Variable own : elem D B -> extra.
Variable view : B -> body.

(** ElementVoid::show (base.cpp:69-72), then the class's part *)
Definition show_element (e : elem D B) : writer :=
  puts "Element " ;; put (size_text (el_index e)) ;; puts ": " ;; puts (el_name e) ;;
  puts " (" ;; puts (el_tname e) ;; puts ")" ;; putnl ;; put_extra (own e).
(** operator<<(ostream, Machine) (base.cpp:267-276) *)
Definition show_machine (m : machine D B) : writer :=
  puts "sim_type: " ;; puts (m_simtype m) ;; putnl ;;
  puts "#Elements: " ;; put (size_text (N.of_nat (List.length (m_elems m)))) ;; putnl ;;
  all show_element (m_elems m).
(** PyMachine_str (modmachine.cpp:50-57) *)
Definition py_machine_str (m : machine D B) : list ascii := c_str (fst (show_machine m Default)).

(** ** propagate with a trace and txt observers on one stream *)

(** [level o]: observer [o] is a StreamObserver (cli.cpp:251-263) on the stream of
    the trace, of that detail; [None]: it writes elsewhere or is of another sort. *)
Variable level : nat -> option Z.
(** StreamObserver::view (cli.cpp:257-262) *)
Definition put_view (o : option nat) (e : elem D B) (b : B) : writer :=
  match o with
  | None => skip
  | Some o =>
      match level o with
      | None => skip
      | Some d =>
          puts "After Element [" ;; put (size_text (el_index e)) ;; puts "] " ;; puts (el_name e) ;; puts " " ;;
          show_body (view b) d ;; putnl
      end
  end.
(** base.cpp:189-190 *)
Definition put_trace (trace : bool) (n : N) (e : elem D B) (b : B) : writer :=
  if trace then
    puts "After [" ;; put (size_text n) ;; puts "] " ;; puts (el_name e) ;; puts " " ;;
    show_body (view b) 0 ;; putnl
  else skip.

(** The loop of propagate (base.cpp:174-191) with its output. *)
Fixpoint out_loop (trace : bool) (k : nat) (els : list (elem D B)) (st : pstate B) (evs : list (event B)) (f : fmt)
    : prun D B * (list ascii * fmt) :=
  match k with
  | O => (mkRun els evs (Ok st), ([], f))
  | S k' =>
      match slot els (st_next st) with
      | None => (mkRun els evs (Ok st), ([], f))
      | Some e =>
          let n := N.to_nat (st_next st) in
          let st1 := mkSt (if st_retreat st then size_decr (st_next st) else size_incr (st_next st))
                          (st_retreat st) (st_body st) in
          match cl_advance (el_class e) (el_base e) (el_data e) st1 with
          | (d, Throw x) => (mkRun (update els n (with_data e d)) evs (Throw x), ([], f))
          | (d, Ok st2) =>
              let (t, f1) := (put_view (el_obs e) e (st_body st2) ;; put_trace trace (st_next st) e (st_body st2)) f in
              let '(p, (u, f2)) :=
                out_loop trace k' (update els n (with_data e d)) st2
                  (match el_obs e with Some o => evs ++ [mkEv o n st2] | None => evs end) f1 in
              (p, (t ++ u, f2))
          end
      end
  end.
(** Machine::propagate (base.cpp:167-192); [None] as in Machine_Model. *)
Definition out_propagate (trace : bool) (m : machine D B) (st : pstate B) (start : N) (max : Z) (f : fmt)
    : option (prun D B * (list ascii * fmt)) :=
  if Z.eqb max INT_MIN then
    if N.ltb start (N.of_nat (List.length (m_elems m))) then None
    else Some (mkRun (m_elems m) [] (Ok (mkSt start true (st_body st))), ([], f))
  else
    Some (out_loop trace (Z.abs_nat max) (m_elems m) (mkSt start (Z.ltb max 0) (st_body st)) [] f).

(** What run_flame writes to std::cout from the set-up of the trace on
    (cli.cpp:556-577), observers already attached and writing there; an exception
    of propagate() ends the program.  [verb]: -v. *)
Definition tool_out (verb : bool) (m : machine D B) (st : pstate B) (maxelem : Z) : option (list ascii) :=
  let (h, f) := (if verb then puts "# Machine configuration" ;; putnl ;; show_machine m ;; putnl ;; putnl else skip) Default in
  match out_propagate verb m st 0 maxelem f with
  | None => None
  | Some (p, (t, f1)) =>
      match pr_end p with
      | Throw _ => Some (h ++ t)
      | Ok st' => Some (h ++ t ++ fst ((if verb then putnl ;; puts "# Final " ;; show_body (view (st_body st')) 0 ;; putnl
                                        else skip) f1))
      end
  end.
End Show.
