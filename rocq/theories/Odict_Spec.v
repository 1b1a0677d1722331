(** What Machine.conf() of the Python package is supposed to give. *)
From Coq Require Import List String NArith Bool.
From Verif Require Import SMap Config_Spec Py_Model Py_Spec.
Import ListNotations.
Local Open Scope list_scope.

(** A dict with every name that [find] finds once, in byte order, with its value as [R] says. *)
Definition dict_shows (R : tval -> pyobj -> Prop) (find : string -> option tval) (d : list (pyobj * pyobj)) : Prop :=
  NoDup (map fst d) /\
  exists es, ssorted es /\ (forall n, sfind n es = find n) /\
    Forall2 (fun e kp => exists u, fst kp = PyStr u /\ text u (bytes (fst e)) /\ R (snd e) (snd kp)) es d.
(** A value in it: lists of Configs are lists of dicts. *)
Inductive held : tval -> pyobj -> Prop :=
| he_leaf v p : scalar v -> shown v p -> held v p
| he_list cs ds : Forall2 (fun c d => dict_shows shown (fun n => sfind n (town c)) d) cs ds ->
    held (TCfgs cs) (PyList (map PyDict ds)).
(** Names visible in [c], and those in lists of Configs, are without null characters; lists
    are of Configs (maps in order). *)
Definition names_ok (c : tcfg) : Prop :=
  ssorted (town c) /\
  forall n v, tfind n c = Some v -> ~ has_nul (bytes n) /\
    forall cs g, v = TCfgs cs -> In g cs ->
      ssorted (town g) /\ forall k x, In (k, x) (town g) -> ~ has_nul (bytes k).
