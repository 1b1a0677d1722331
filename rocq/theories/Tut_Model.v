(** Model of the tutorial's simulation (examples/customsim.cpp, described in
    documentation/mainpage.h:596-680): sim_type Simple1D with the element types source
    and generic, as classes for the engine of Machine_Model.

    Arithmetic is that of doubles, operation by operation, without contraction to
    fused multiply-add. *)
From Coq Require Import List String Ascii Bool NArith ZArith.
From Verif Require Import SMap Dbl Config_Spec Machine_Model.
Import ListNotations.
Local Open Scope string_scope.
Local Open Scope list_scope.

(** C0 (customsim.cpp:6) *)
Definition c0 : double := d_of_Z 299792458.

(** State1D (customsim.cpp:13-68): pos of StateBase, and its own members. *)
Record s1d := mkS1 { s_pos : double; s_x : double; s_xv : double }.
(** StateBase::StateBase (base.cpp:18-23), State1D::State1D (customsim.cpp:57-61) *)
Definition state1d (c : tcfg) : res s1d := Ok (mkS1 dzero (get_num_def c "x" dzero) (get_num_def c "xv" dzero)).
(** StateBase::assign (base.cpp:32-35), State1D::assign (customsim.cpp:19-25) *)
Definition assign1d (this other : s1d) : s1d := mkS1 (s_pos other) (s_x other) (s_xv other).
(** The virtual StateBase::show(std::ostream&, int) (base.h:48), which prints nothing.
    State1D::show (customsim.cpp:27-30) has no level and overrides nothing. *)
Definition show1d (s : s1d) (level : Z) : list ascii := [].

(** [time] is the member tt.  Own members of Element1DSource (customsim.cpp:71-74) and Element1DGeneric
    (customsim.cpp:102-106). *)
Inductive e1d := DSource (initial : s1d) | DGeneric (xa time : double).

(** Element1DSource (customsim.cpp:71-98): constructor, assign, advance. *)
Definition source1d : class e1d s1d :=
  mkCls 0 "source" (fun c => rbind (state1d c) (fun s => Ok (DSource s)))
    (fun this other => match this, other with DSource a, DSource b => DSource (assign1d a b) | _, _ => this end)
    (fun b d st =>
       match d with
       | DSource i => let s := assign1d (st_body st) i in
                      (d, Ok (mkSt (st_next st) (st_retreat st) (mkS1 (dadd (s_pos s) (eb_len b)) (s_x s) (s_xv s))))
       | DGeneric _ _ => (d, Throw Abort)
       end).
(** Element1DGeneric (customsim.cpp:102-138) *)
Definition generic1d : class e1d s1d :=
  mkCls 1 "generic" (fun c => Ok (DGeneric (get_num_def c "A" dzero) (ddiv (get_num_def c "L" dzero) c0)))
    (fun this other => match other with DGeneric xa time => DGeneric xa time | _ => this end)
    (fun b d st =>
       match d with
       | DGeneric xa time =>
           let s := st_body st in
           (d, Ok (mkSt (st_next st) (st_retreat st)
                        (mkS1 (dadd (s_pos s) (eb_len b)) (dadd (s_x s) (dmul (dmul xa time) time)) (dadd (s_xv s) (dmul xa time)))))
       | DSource _ => (d, Throw Abort)
       end).

(** register1D (customsim.cpp:143-149) *)
Definition register1d (r : registry e1d s1d) : registry e1d s1d :=
  let r := fst (reg_state r "Simple1D" state1d) in
  let r := fst (reg_elem r "Simple1D" "source" source1d) in
  fst (reg_elem r "Simple1D" "generic" generic1d).
Definition reg1d : registry e1d s1d := register1d [].

(** main's calls (customsim.cpp:194-203): a new state, the first element, then the rest.
    [None]: an exception. *)
Definition main1d (m : machine e1d s1d) : option (s1d * s1d) :=
  match alloc_state m (TCfg [] []) with
  | Throw _ => None
  | Ok st =>
      match propagate m st 0 1 with
      | Some q1 =>
          match pr_end q1 with
          | Throw _ => None
          | Ok st1 =>
              match propagate (with_elems m (pr_elems q1)) st1 1 INT_MAX with
              | Some q2 => match pr_end q2 with Ok st2 => Some (st_body st1, st_body st2) | Throw _ => None end
              | None => None
              end
          end
      | None => None
      end
  end.
(** The lattice (customsim.cpp:153-159) *)
Definition lattice1d : string :=
  "sim_type = ""Simple1D"";
src   : source, x = 1e-5, xv = 1e-6;
elem1 : generic, A = 1,  L = 10;
elem2 : generic, A = -2, L = 10;
example : LINE = (src, elem1, elem2);
".
