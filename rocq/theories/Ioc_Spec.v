(** What the records of a virtual accelerator should do, stated on its own: links as
    text, the processing of a record and a simulation as single indivisible actions,
    and histories of them. *)
From Coq Require Import List String Ascii Bool NArith ZArith Arith.
From Verif Require Import SMap Dbl Lexer_Model Config_Spec Machine_Model Machine_Spec Util_Model Util_Spec Array_Model
  Array_Spec Ioc_Model.
Import ListNotations.
Open Scope string_scope.
Open Scope list_scope.

(** ** Links *)
Definition word (p : ascii -> bool) (s : string) : Prop :=
  s <> "" /\ forallb p (list_ascii_of_string s) = true.
(** No white space; also no opening bracket; digits. *)
Definition plain (c : ascii) : bool := negb (is_space c).
Definition unbracketed (c : ascii) : bool := (negb (is_space c) && negb (Ascii.eqb c "["))%bool.
Definition ws := word plain.
Definition wn := word unbracketed.
Definition wd := word is_digit.
(** A number in digits; "[i]", "[i,j]" or nothing. *)
Definition number (s : string) : N := Z.to_N (digits_val (list_ascii_of_string s)).
Definition bracket (i : option string) : string :=
  match i with None => "" | Some d => "[" ++ d ++ "]" end%string.
Inductive dimtext := D0 | D1 (i : string) | D2 (i j : string).
Definition dim_text (d : dimtext) : string :=
  match d with D0 => "" | D1 i => "[" ++ i ++ "]" | D2 i j => "[" ++ i ++ "," ++ j ++ "]" end%string.
Definition dim_numbers (d : dimtext) : list N :=
  match d with D0 => [] | D1 i => [number i] | D2 i j => [number i; number j] end.
Definition dim_ok (d : dimtext) : Prop :=
  match d with D0 => True | D1 i => wd i | D2 i j => wd i /\ wd j end.
Definition inst_ok (i : option string) : Prop := match i with None => True | Some d => wd d end.
(** What size_t can hold. *)
Definition dim_small (d : dimtext) : Prop := Forall (fun n => (n <= SIZE_MAX)%N) (dim_numbers d).
Definition inst_number (i : option string) : N := match i with None => 0%N | Some d => number d end.

(** Attribute number [k] of such a state has this name and as many dimensions; it is not
    the one that is not a double. *)
Definition showable (kd : kind) (par : string) (n : nat) (k : nat) : Prop :=
  exists sh den, nth_error (attributes kd) k = Some (par, sh, den) /\ par <> "next_elem" /\ List.length sh = n.

Section Spec.
Context {D B : Type}.
Variables (ab : abi) (kindof : B -> kind) (memof : B -> mem) (what : exn -> string).
Notation vsim := (vsim D B).
Implicit Types (s : vsim).

(** A value kept from a state. *)
Definition kept s (o : nat) (k : nat) (dims : list N) : option (option double) :=
  match nth_error (v_last s) o with None => None | Some last => fetch ab kindof memof last k dims end.
Definition kept_at s (d : orbdev) (j : nat) : option (option double) :=
  match nth_error (m_elems (v_machine s)) j with
  | None => None
  | Some e =>
      match mfind (el_index e) (v_measures s) with
      | None => None
      | Some o => kept s o (od_attr d) (od_dims d)
      end
  end.
Fixpoint collect {A C} (f : A -> option C) (l : list A) : option (list C) :=
  match l with
  | [] => Some []
  | a :: l' => match f a, collect f l' with Some c, Some r => Some (c :: r) | _, _ => None end
  end.
(** Numbers that are there replace what the buffer had. *)
Fixpoint overlay (buf : list double) (vals : list (option double)) : list double :=
  match buf, vals with
  | _ :: buf', Some x :: vals' => x :: overlay buf' vals'
  | b :: buf', None :: vals' => b :: overlay buf' vals'
  | _, _ => buf
  end.
Definition missing (vals : list (option double)) : bool :=
  existsb (fun v => match v with None => true | Some _ => false end) vals.

(** ** The processing of a record as one action *)
Definition atomic (o : vop) s : option (vsim * vout) :=
  match o with
  | VDoSim => Some (set_dosim s true, ODone)
  | VSet i param a x =>
      match nth_error (m_elems (v_machine s)) (N.to_nat i) with
      | None => Some (s, OAlarm)
      | Some e =>
          match reconfigure (v_machine s) i (tset param (TNum (of_val a x)) (eb_conf (el_base e))) with
          | (m, Ok _) => Some (set_machine s m, ODone)
          | (_, Throw x) => if caught x then Some (s, OAlarm) else None
          end
      end
  | VGet i param a =>
      Some (s, match nth_error (m_elems (v_machine s)) (N.to_nat i) with
               | None => OAlarm
               | Some e => match tfind param (eb_conf (el_base e)) with
                           | Some (TNum x) => OVal (to_val a x) false
                           | _ => OAlarm
                           end
               end)
  | VMeas d a =>
      match kept s (md_obs d) (md_attr d) (md_dims d) with
      | None => None
      | Some (Some x) => Some (s, OVal (to_val a x) (negb (v_valid s)))
      | Some None => Some (s, OVal (to_val a dzero) true)
      end
  | VOrbit d buf =>
      let n := List.length buf in
      match collect (kept_at s d) (firstn n (od_slots d)) with
      | None => None
      | Some vals =>
          Some (s, OWave (overlay buf vals) (List.length vals)
                         (negb (v_valid s) || missing vals || Nat.ltb n (List.length (od_slots d)))%bool)
      end
  | VIndex d buf =>
      let n := List.length buf in
      match collect (nth_error (m_elems (v_machine s))) (firstn n (od_slots d)) with
      | None => None
      | Some es =>
          Some (s, OWave (overlay buf (map (fun e => Some (d_of_Z (Z.of_N (el_index e)))) es)) (List.length es)
                         (Nat.ltb n (List.length (od_slots d))))
      end
  | VMsg n => Some (s, OText (firstn n (list_ascii_of_string (v_msg s))))
  | VStop => Some (set_stop s, ODone)
  end.

(** ** A simulation as one action *)
Fixpoint views (last : list (option (pstate B))) (evs : list (event B)) : option (list (option (pstate B))) :=
  match evs with
  | [] => Some last
  | ev :: evs' => match viewed last (ev_obs ev) (ev_state ev) with Some l => views l evs' | None => None end
  end.
Definition run_once s : option vsim :=
  match alloc_state (v_machine s) (TCfg [] []) with
  | Throw e => if caught e then Some (scan (set_bad what (set_dosim s false) e)) else None
  | Ok st =>
      match propagate (v_machine s) st 0 INT_MAX with
      | None => None
      | Some p =>
          match views (v_last s) (pr_events p) with
          | None => None
          | Some l =>
              let s' := set_last (set_elems (set_dosim s false) (pr_elems p)) l in
              match pr_end p with
              | Ok _ => Some (scan (set_good s'))
              | Throw e => if caught e then Some (scan (set_bad what s' e)) else None
              end
          end
      end
  end.

(** ** Histories: simulations happen when asked for and not after the end *)
Inductive replays s : list hop -> vsim -> Prop :=
| rp_nil : replays s [] s
| rp_run : forall h s1 s2, replays s h s1 -> v_dosim s1 = true -> v_stop s1 = false ->
    run_once s1 = Some s2 -> replays s (h ++ [HRun]) s2
| rp_do : forall h s1 s2 i o r, replays s h s1 -> atomic o s1 = Some (s2, r) ->
    replays s (h ++ [HDo i o r]) s2.

(** A simulation as it can be: made from a lattice of a number of elements that size_t
    can hold, then asked to keep what leaves some elements, and used. *)
Inductive serves (r : registry D B) : vsim -> Prop :=
| sv_new : forall c m, new_machine r c = Ok m -> (N.of_nat (List.length (m_elems m)) <= SIZE_MAX)%N -> serves r (new_sim m)
| sv_measure : forall s i s' o, serves r s -> get_measure s i = Ok (s', o) -> serves r s'
| sv_do : forall s o s' x, serves r s -> atomic o s = Some (s', x) -> serves r s'
| sv_run : forall s s', serves r s -> run_once s = Some s' -> serves r s'.

(** The states that allocState() makes, if it does, have charge states; otherwise it
    throws an exception. *)
Definition fresh_ok s : Prop := forall st, alloc_state (v_machine s) (TCfg [] []) = Ok st -> populated (kindof (st_body st)).
Definition fresh_defined s : Prop := forall e, alloc_state (v_machine s) (TCfg [] []) = Throw e -> caught e = true.

(** Some elements are watched that were not; all else is as it was. *)
Definition only_watches s s' : Prop :=
  v_stop s' = v_stop s /\ v_dosim s' = v_dosim s /\ v_valid s' = v_valid s /\ v_msg s' = v_msg s /\ v_scans s' = v_scans s /\
  map (fun e => mkEl (el_class e) (el_base e) None (el_data e)) (m_elems (v_machine s')) =
  map (fun e => mkEl (el_class e) (el_base e) None (el_data e)) (m_elems (v_machine s)) /\
  m_info (v_machine s') = m_info (v_machine s) /\
  (forall i o, mfind i (v_measures s) = Some o -> mfind i (v_measures s') = Some o) /\
  (forall o x, nth_error (v_last s) o = Some x -> nth_error (v_last s') o = Some x).

(** The parameter of an element as it is now; what a record shows of it. *)
Definition reading s (i : N) (p : string) : option double :=
  match nth_error (m_elems (v_machine s)) (N.to_nat i) with
  | None => None
  | Some e => match tfind p (eb_conf (el_base e)) with Some (TNum x) => Some x | _ => None end
  end.
Definition shown (a : ana) (x : option double) : vout :=
  match x with Some x => OVal (to_val a x) false | None => OAlarm end.
(** The lattice as it is now. *)
Definition lattice s : list tcfg := map (fun e => eb_conf (el_base e)) (m_elems (v_machine s)).
(** What was last written to the parameter, [x] if nothing was. *)
Definition last_written (i : N) (p : string) (h : list hop) (x : option double) : option double :=
  fold_left (fun x ev => match ev with
                         | HDo _ (VSet j q a v) ODone => if (N.eqb i j && String.eqb p q)%bool then Some (of_val a v) else x
                         | _ => x
                         end) h x.
Definition tidy_all (r : registry D B) : Prop := forall n i, sfind n r = Some i -> tidy i.

(** The successful settings of a history, put into a lattice. *)
Definition edit (l : list tcfg) (ev : hop) : list tcfg :=
  match ev with
  | HDo _ (VSet j q a v) ODone =>
      match nth_error l (N.to_nat j) with
      | Some c => update l (N.to_nat j) (tset q (TNum (of_val a v)) c)
      | None => l
      end
  | _ => l
  end.
Definition edits (h : list hop) (l : list tcfg) : list tcfg := fold_left edit h l.

(** A simulation of a machine: what leaves the elements one after the other, and the end. *)
Definition simulation (m : machine D B) : list B * res unit :=
  match alloc_state m (TCfg [] []) with
  | Throw e => ([], Throw e)
  | Ok st =>
      let '(t, _, r) := journey (m_elems m) true (seq 0 (List.length (m_elems m))) (mkSt 0 false (st_body st)) in
      (map (fun x => st_body (snd x)) t, match r with Ok _ => Ok tt | Throw e => Throw e end)
  end.
(** What is kept of what left element [i], if it is watched. *)
Definition left_by s (i : N) : option B :=
  match mfind i (v_measures s) with
  | None => None
  | Some o => match nth_error (v_last s) o with Some (Some st) => Some (st_body st) | _ => None end
  end.
(** The number at this index of attribute [k]. *)
Definition attr_value (b : B) (k : nat) (dims : list N) (x : double) : Prop :=
  exists nm sh den, nth_error (attributes (kindof b)) k = Some (nm, sh, den) /\ nm <> "next_elem" /\
    within sh (map N.to_nat dims) /\ load (memof b) (place ab (den (map N.to_nat dims))) = Some (CD x).
(** The memory of states is as C36 has it. *)
Definition well_stored : Prop :=
  forall b, populated (kindof b) /\ exists c, holds ab (kindof b) (memof b) c /\ typed c.
(** Element types that leave next_elem alone; whose behaviour depends on their Config
    only; which throw nothing but exceptions. *)
Definition all_classes (r : registry D B) (P : class D B -> Prop) : Prop :=
  forall n i, sfind n r = Some i -> forall t k, sfind t (si_elems i) = Some k -> P k.
Definition steady (k : class D B) : Prop := forall b d st d' st', cl_advance k b d st = (d', Ok st') ->
  st_next st' = st_next st /\ st_retreat st' = st_retreat st.
Definition polite (k : class D B) : Prop :=
  (forall c e, cl_ctor k c = Throw e -> caught e = true) /\
  (forall b d st d' e, cl_advance k b d st = (d', Throw e) -> caught e = true).

(** States of one simulation are of one class. *)
Definition alike (a b : kind) : Prop :=
  match a, b with KVector, KVector | KMatrix, KMatrix | KMoment _, KMoment _ => True | _, _ => False end.
(** Devices whose elements are watched. *)
Definition watching s (d : measdev) : Prop := mfind (md_index d) (v_measures s) = Some (md_obs d).
Definition watching_all s (d : orbdev) : Prop :=
  forall j, In j (od_slots d) -> exists o, mfind (N.of_nat j) (v_measures s) = Some o.

(** Devices as C77 has them. *)
Definition usable s (o : vop) : Prop :=
  match o with
  | VMeas d _ => watching s d /\ exists b par n, showable (kindof b) par n (md_attr d)
  | VOrbit d _ | VIndex d _ => watching_all s d /\ exists b par n, showable (kindof b) par n (od_attr d)
  | _ => True
  end.
(** The lattice that has these elements. *)
Definition lattice_of (t : string) (es : list tcfg) : tcfg := TCfg [("elements", TCfgs es); ("sim_type", TStr t)] [].

(** What is left to be done by a thread, and what of a history it did. *)
Definition left (c : cpc (D := D) (B := B)) : list vop :=
  match c with CReady t => t | CIn o _ _ t => o :: t | CSig t => t | CJoin t => t end.
Definition made_by (i : nat) (h : list hop) : list vop :=
  flat_map (fun x => match x with HDo j o _ => if Nat.eqb i j then [o] else [] | HRun => [] end) h.
Definition is_run (x : hop) : bool := match x with HRun => true | _ => false end.
Definition is_request (x : hop) : bool := match x with HDo _ VDoSim _ => true | _ => false end.
Definition is_end (x : hop) : bool := match x with HDo _ VStop _ => true | _ => false end.
Definition count (p : hop -> bool) (h : list hop) : nat := List.length (filter p h).
(** A request that no simulation has followed. *)
Definition unserved (h : list hop) : Prop :=
  exists h1 x h2, h = h1 ++ x :: h2 /\ is_request x = true /\ count is_run h2 = 0.

(** Nothing can be done by anyone. *)
Definition stuck (y : sys D B) : Prop :=
  wstep what y = Blocked /\ forall i, cstep ab kindof memof i y = Blocked.
End Spec.
