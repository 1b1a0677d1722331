(** C90: the registry of types and registeryCleanup(). *)
From Coq Require Import List String Bool NArith ZArith Arith Lia.
From Verif Require Import SMap Dbl Config_Spec Machine_Model Reg_Model Reg_Spec Reg3_Proofs.
Import ListNotations.
Open Scope string_scope.
Open Scope list_scope.

(** As long as nothing freed is touched, programs behave as if there were no
    pointers: a machine keeps working with the types it was made with, whatever is
    registered, refused or forgotten after it was made. *)
Theorem C90_agree {D B} (l : list (op D B)) p rs : run prog0 l = Fine (p, rs) -> rs = expected l.
Proof. exact (agree l p rs). Qed.
Print Assumptions C90_agree.
Definition life90 : list (op double double) :=
  types90 ++ [OElem "Toy" "keep" keep_cls; ONew conf90; OReconf 0 0 (el90 "a" half); OElem "No" "keep" keep_cls; OAlloc 0 conf90; OClean;
              ONew conf90; OAlloc 0 conf90] ++ types90 ++ [ONew conf90; OReconf 2 0 (el90 "a" half); ODel 0; OReconf 2 0 (el90 "a" dzero); OClean].
Definition okay {D B} (a : reply D B) : bool :=
  match a with RUnit (Ok _) | RNew (Ok _) | RState (Ok _) | RRun _ => true | _ => false end.
Example C90_agree_ex : match run prog0 life90 with
  | Fine (_, rs) => map okay rs = [true; true; false; true; true; false; true; true; false; true; true; true; true; true; true; true; true]
  | Wild => False
  end.
Proof. vm_compute. reflexivity. Qed.

(** Programs that reconfigure no machine from before the last clean-up touch nothing
    freed: registering, constructing, allocating states, propagating and deleting
    machines are safe in any order, before and after any number of clean-ups. *)
Theorem C90_safe {D B} (l : list (op D B)) : keeps 0 0 l -> exists p, run prog0 l = Fine (p, expected l).
Proof. exact (safe l). Qed.
Print Assumptions C90_safe.
Example C90_safe_ex : keeps 0 0 life90.
Proof. cbn. lia. Qed.

(** The only other programs: to reconfigure an element of a machine that was made
    before a clean-up, with a type that the machine knows, reads freed memory,
    whatever was done between, even if all types were registered again. *)
Theorem C90_stale {D B} (l1 l2 : list (op D B)) x idx c m e t k :
  x < constructions l1 -> machine_after (l1 ++ OClean :: l2) x = Some m ->
  slot (m_elems m) idx = Some e -> get_str c "type" = Ok t -> sfind t (si_elems (m_info m)) = Some k ->
  run prog0 (l1 ++ OClean :: l2 ++ [OReconf x idx c]) = Wild.
Proof. exact (stale_wild l1 l2 x idx c m e t k). Qed.
Print Assumptions C90_stale.
Example C90_stale_ex : 0 < constructions (types90 ++ [ONew conf90]) /\
  match machine_after ((types90 ++ [ONew conf90]) ++ OClean :: types90) 0 with
  | Some m => slot (m_elems m) 0 <> None /\ get_str (el90 "a" half) "type" = Ok "keep" /\ sfind "keep" (si_elems (m_info m)) <> None
  | None => False
  end.
Proof. vm_compute. repeat split; try discriminate. lia. Qed.

(** A clean-up never frees twice, leaves no type, and frees every builder except one
    for each element type whose registration threw. *)
Theorem C90_freed {D B} (l : list (op D B)) p rs : run prog0 l = Fine (p, rs) ->
  exists p', run prog0 (l ++ [OClean]) = Fine (p', rs ++ [RUnit (Ok tt)]) /\
    List.length (b_live (g_heap p')) = refused l rs /\ g_reg p' = [].
Proof. exact (freed l p rs). Qed.
Print Assumptions C90_freed.
Example C90_freed_ex : match run prog0 (life90 ++ types90) with
  | Fine (p, rs) => refused (life90 ++ types90) rs = 2 /\ List.length (b_live (g_heap p)) = 3 /\
      match run prog0 (life90 ++ types90 ++ [OClean]) with Fine (p', _) => List.length (b_live (g_heap p')) = 2 | Wild => False end
  | Wild => False
  end.
Proof. vm_compute. auto. Qed.

(** After a clean-up registering and constructing answer as in a new process. *)
Theorem C90_again {D B} (l1 l2 : list (op D B)) p rs : run prog0 (l1 ++ OClean :: l2) = Fine (p, rs) -> forallb setup l2 = true ->
  exists p2 rs2, run prog0 l2 = Fine (p2, rs2) /\ skipn (S (List.length l1)) rs = rs2.
Proof. exact (again l1 l2 p rs). Qed.
Print Assumptions C90_again.
Example C90_again_ex : match run prog0 (types90 ++ [ONew conf90] ++ OClean :: ONew conf90 :: types90 ++ [ONew conf90]) with
  | Fine (_, rs) => map okay rs = [true; true; true; true; false; true; true; true]
  | Wild => False
  end /\ forallb setup (ONew conf90 :: types90 ++ [ONew conf90]) = true.
Proof. vm_compute. auto. Qed.

(** registeryCleanup "may be called from any thread at any time" (base.h:491): not
    while a machine lives that will be reconfigured, even on one thread. *)
Theorem C90_anytime_refuted : exists (D B : Type) (l : list (op D B)), run prog0 l = Wild /\ List.last (expected l) RNone = RUnit (Ok tt).
Proof. exact C90_anytime_refuted_w. Qed.
Print Assumptions C90_anytime_refuted.

(** It does not free all that registerElement() allocated. *)
Theorem C90_refused_refuted : exists (D B : Type) (l : list (op D B)) p rs, run prog0 (l ++ [OClean]) = Fine (p, rs) /\ b_live (g_heap p) <> [].
Proof. exact C90_refused_refuted_w. Qed.
Print Assumptions C90_refused_refuted.
