(** What a generated database should be, stated on its own. *)
From Coq Require Import List String Ascii Bool NArith ZArith Arith.
From Verif Require Import SMap Lexer_Model Config_Spec Machine_Model Machine_Spec Array_Model Array_Spec Ioc_Model Ioc_Spec Gen_Model.
Import ListNotations.
Open Scope string_scope.
Open Scope list_scope.

(** Names of elements as they are in lattice files (glps.l:20). *)
Definition inner (c : ascii) : bool :=
  let n := nat_of_ascii c in
  ((65 <=? n) && (n <=? 90) || (97 <=? n) && (n <=? 122) || (48 <=? n) && (n <=? 57) || (n =? 95) || (n =? 58))%nat%bool.
Definition element_name (s : string) : Prop :=
  s <> "" /\ forallb inner (list_ascii_of_string s) = true /\ last (list_ascii_of_string s) " "%char <> ":"%char.

(** How many elements of the name come before slot [j]. *)
Definition before (es : list gelem) (j : nat) (n : string) : nat :=
  List.length (filter (fun e => String.eqb (g_name e) n) (firstn j es)).
(** The slots whose elements have a template. *)
Definition covered (is_file : string -> bool) (es : list gelem) : list nat :=
  filter (fun j => match nth_error es j with Some e => is_file (g_type e) | None => false end) (seq 0 (List.length es)).
(** The machine has these elements. *)
Definition same_elements {D B} (s : vsim D B) (es : list gelem) : Prop :=
  map (fun e => (el_name e, el_tname e)) (m_elems (v_machine s)) = map (fun e => (g_name e, g_type e)) es.

(** What the settings in the database are about, by type. *)
Definition wanted (t : string) : list string :=
  if String.eqb t "edipole" then ["phi"] else if String.eqb t "equad" then ["V"] else
  if String.eqb t "quadrupole" then ["B2"] else if String.eqb t "rfcavity" then ["phi"; "scl_fac"] else
  if String.eqb t "sbend" then ["phi"] else if String.eqb t "sextupole" then ["B3"] else
  if String.eqb t "solenoid" then ["B"] else [].
Definition equipped {D B} (s : vsim D B) : Prop :=
  forall e p, In e (m_elems (v_machine s)) -> In p (wanted (el_tname e)) -> exists x, tfind p (eb_conf (el_base e)) = Some (TNum x).

(** The record is initialised without error, the simulations being [g] before and [g']
    after it.  Those with another DTYP have the name of the simulation only. *)
Definition starts {D B} ab kindof (g : simmap D B) (r : rec) (g' : simmap D B) : Prop :=
  if String.eqb (r_dtyp r) "FLAME Index" then g' = g /\ exists i, init_elem g (r_link r) = IOk i
  else if String.eqb (r_dtyp r) "FLAME State" then exists d, init_state ab kindof g (r_link r) = (g', IOk d)
  else if String.eqb (r_dtyp r) "FLAME Setting" then g' = g /\ forall a, exists d v, init_setting g (r_link r) a = IOk (d, v)
  else if (String.eqb (r_dtyp r) "FLAME State Orbit" || String.eqb (r_dtyp r) "FLAME Index Orbit")%bool then
    exists d, init_orbit ab kindof g (r_link r) = (g', IOk d)
  else if String.eqb (r_dtyp r) "" then g' = g
  else g' = g /\ exists s, sfind (r_link r) g = Some s.
(** All of them, one after the other. *)
Inductive boots {D B} ab kindof : simmap D B -> list rec -> simmap D B -> Prop :=
| bt_nil : forall g, boots ab kindof g [] g
| bt_cons : forall g r g1 rs g2, starts ab kindof g r g1 -> boots ab kindof g1 rs g2 -> boots ab kindof g (r :: rs) g2.
