(** What a user of Machine may assume, stated on its own: which elements a
    propagation visits, what visiting a list of elements does, which slots carry
    a name or type, what a lattice entry must provide. *)
From Coq Require Import List String Bool NArith ZArith Arith.
From Verif Require Import SMap Dbl Config_Spec Machine_Model.
Import ListNotations.

(** The slots visited when starting at [start] in a machine of [n] elements with
    the bound [max]. *)
Definition visits (n : nat) (start : N) (max : Z) : list nat :=
  if N.ltb start (N.of_nat n) then
    let s := N.to_nat start in
    if Z.leb 0 max
    then seq s (Nat.min (n - s) (Z.to_nat max))
    else map (fun k => s - k) (seq 0 (Nat.min (S s) (Z.to_nat (- max))))
  else [].

(** Two bounds in the same direction whose sum is still an int. *)
Definition same_direction (a b : Z) : Prop :=
  (0 <= a /\ 0 <= b /\ a + b <= INT_MAX)%Z \/ (a < 0 /\ b < 0 /\ INT_MIN < a + b)%Z.

(** Slot [i] is among the requested numbers. *)
Definition watched (l : list Z) (i : nat) : bool := existsb (Z.eqb (Z.of_nat i)) l.

Section Spec.
Context {D B : Type}.
Implicit Types (els : list (elem D B)) (st : pstate B).

(** next_elem as an element at slot [i] finds it: the slot to be visited next, or
    one past the end, or (going backward from slot 0) the largest size_t. *)
Definition next_of (fwd : bool) (i : nat) : N :=
  if fwd then N.of_nat (S i) else match i with O => SIZE_MAX | S j => N.of_nat j end.

(** Passing a state through a list of slots one after the other: the trail of
    (slot, state leaving it), the elements afterwards, and the end. *)
Fixpoint journey els (fwd : bool) (vs : list nat) st
  : list (nat * pstate B) * list (elem D B) * res (pstate B) :=
  match vs with
  | [] => ([], els, Ok st)
  | i :: vs' =>
      match nth_error els i with
      | None => ([], els, Ok st)
      | Some e =>
          match cl_advance (el_class e) (el_base e) (el_data e)
                           (mkSt (next_of fwd i) (negb fwd) (st_body st)) with
          | (d, Throw x) => ([], update els i (with_data e d), Throw x)
          | (d, Ok st') =>
              let '(t, els', r) := journey (update els i (with_data e d)) fwd vs' st' in
              ((i, st') :: t, els', r)
          end
      end
  end.

(** What the observers attached to [els] see of a trail. *)
Definition seen els (trail : list (nat * pstate B)) : list (event B) :=
  flat_map (fun '(i, s) =>
    match nth_error els i with
    | Some e => match el_obs e with Some o => [mkEv o i s] | None => [] end
    | None => []
    end) trail.

(** What the Python caller gets: for a trail, the watched slots with the state
    that left them. *)
Definition report (l : list Z) (trail : list (nat * pstate B)) : list (N * pstate B) :=
  map (fun '(i, s) => (N.of_nat i, mkSt 0 false (st_body s)))
      (filter (fun '(i, _) => watched l i) trail).

(** Elements that leave next_elem and retreat alone. *)
Definition undirected els : Prop :=
  forall e, In e els -> forall b d st d' st',
    cl_advance (el_class e) b d st = (d', Ok st') ->
    st_next st' = st_next st /\ st_retreat st' = st_retreat st.
(** Elements that leave retreat alone. *)
Definition keeps_direction els : Prop :=
  forall e, In e els -> forall b d st d' st',
    cl_advance (el_class e) b d st = (d', Ok st') -> st_retreat st' = st_retreat st.

(** ** Slots by name or type, in beamline order *)
Definition slots_where (p : elem D B -> bool) els : list nat :=
  filter (fun i => match nth_error els i with Some e => p e | None => false end)
         (seq 0 (List.length els)).
Definition slots_named (n : string) els := slots_where (fun e => String.eqb (el_name e) n) els.
Definition slots_typed (n : string) els := slots_where (fun e => String.eqb (el_tname e) n) els.

(** ** Lattice entries *)
(** Entry [ec] at position [j] describes element [e]. *)
Definition describes (i : sinfo D B) (j : nat) (ec : tcfg) (e : elem D B) : Prop :=
  exists k nm d,
    tfind "type" ec = Some (TStr (cl_tname k)) /\
    sfind (cl_tname k) (si_elems i) = Some k /\
    tfind "name" ec = Some (TStr nm) /\
    cl_ctor k ec = Ok d /\
    e = mkEl k (mkEB nm (N.of_nat j)
                     (match tfind "L" ec with Some (TNum x) => x | _ => dzero end) ec) None d.

(** An entry from which an element can be made. *)
Definition buildable (i : sinfo D B) (ec : tcfg) : Prop :=
  exists t k nm d,
    tfind "type" ec = Some (TStr t) /\ sfind t (si_elems i) = Some k /\ cl_tname k = t /\
    tfind "name" ec = Some (TStr nm) /\ cl_ctor k ec = Ok d.

(** ** Uses of a machine between construction and the present *)
Inductive use :=
| UReconf (idx : N) (c : tcfg)                      (* reconfigure(), if it succeeds *)
| UProp (st : pstate B) (start : N) (max : Z)       (* propagate(), however it ends *)
| UObs (i : nat) (o : option nat).                  (* set_observer() *)

Definition use1 (m : machine D B) (u : use) : machine D B :=
  match u with
  | UReconf idx c => fst (reconfigure m idx c)
  | UProp st start max =>
      match propagate m st start max with Some p => with_elems m (pr_elems p) | None => m end
  | UObs i o => with_elems m (set_observer (m_elems m) i o)
  end.
Definition uses (m : machine D B) (us : list use) : machine D B := fold_left use1 us m.

(** The use keeps the name of the element it reconfigures. *)
Definition keeps_name (m : machine D B) (u : use) : Prop :=
  match u with
  | UReconf idx c =>
      forall e, nth_error (m_elems m) (N.to_nat idx) = Some e ->
                tfind "name" c = Some (TStr (el_name e))
  | _ => True
  end.
Fixpoint keep_names (m : machine D B) (us : list use) : Prop :=
  match us with [] => True | u :: us' => keeps_name m u /\ keep_names (use1 m u) us' end.

(** The lattice entries after the reconfigurations that succeeded. *)
Fixpoint entries (m : machine D B) (es : list tcfg) (us : list use) : list tcfg :=
  match us with
  | [] => es
  | u :: us' =>
      entries (use1 m u)
        (match u with
         | UReconf idx c =>
             match snd (reconfigure m idx c) with Ok _ => update es (N.to_nat idx) c | _ => es end
         | _ => es
         end) us'
  end.

(** Registered element types are registered once, under their own name. *)
Definition tidy (i : sinfo D B) : Prop :=
  forall n k, sfind n (si_elems i) = Some k ->
    cl_tname k = n /\
    forall n' k', sfind n' (si_elems i) = Some k' -> cl_id k = cl_id k' -> k = k'.

(** A class whose behaviour depends on the Config in force only, not on what went
    through it before nor on earlier Configs: some invariant [good] of the
    private data is established by construction and assignment, kept by
    advance(), and determines how advance() ends. *)
Definition transparent (k : class D B) : Prop :=
  exists good : tcfg -> D -> Prop,
    (forall c d, cl_ctor k c = Ok d -> good c d) /\
    (forall c c' d s, good c' d -> good c s -> good c (cl_assign k d s)) /\
    (forall b d st, good (eb_conf b) d -> good (eb_conf b) (fst (cl_advance k b d st))) /\
    (forall b d1 d2 st, good (eb_conf b) d1 -> good (eb_conf b) d2 ->
                        snd (cl_advance k b d1 st) = snd (cl_advance k b d2 st)).

(** A history in which every propagation runs to its end, from states and in
    directions (true: backward) that [J] allows, and every Config handed to
    reconfigure() satisfies [Q]. *)
Definition runs_well (J : bool -> B -> Prop) (Q : tcfg -> Prop) (m : machine D B) (u : use) : Prop :=
  match u with
  | UReconf _ c => Q c
  | UProp st start max =>
      J (Z.ltb max 0) (st_body st) /\
      exists p st', propagate m st start max = Some p /\ pr_end p = Ok st'
  | UObs _ _ => True
  end.
Fixpoint smooth (J : bool -> B -> Prop) (Q : tcfg -> Prop) (m : machine D B) (us : list use) : Prop :=
  match us with
  | [] => True
  | u :: us' => runs_well J Q m u /\ smooth J Q (use1 m u) us'
  end.

(** ** Registrations *)
Inductive regop :=
| RegState (n : string) (b : tcfg -> res B)
| RegElem (s n : string) (k : class D B).
Definition reg1 (r : registry D B) (o : regop) : registry D B * res unit :=
  match o with RegState n b => reg_state r n b | RegElem s n k => reg_elem r s n k end.
(** All of them succeed, giving the registry. *)
Fixpoint reg_all (r : registry D B) (os : list regop) : option (registry D B) :=
  match os with
  | [] => Some r
  | o :: os' => match reg1 r o with (r', Ok _) => reg_all r' os' | _ => None end
  end.

End Spec.
Arguments use : clear implicits.
Arguments regop : clear implicits.
