(** Model of Machine.conf() of the Python package: python/flame/__init__.py:10-17, 37-39,
    on top of the method of the extension module (Py_Model). *)
From Coq Require Import List String NArith ZArith Bool.
From Verif Require Import SMap Config_Spec Machine_Model Py_Model.
Import ListNotations.
Local Open Scope list_scope.

(** Equality of str: the same code points. *)
Fixpoint same_str (u v : list N) : bool :=
  match u, v with
  | [], [] => true
  | a :: u', b :: v' => N.eqb a b && same_str u' v'
  | _, _ => false
  end.
(** d[k] = v of an OrderedDict: a key it has keeps its place. *)
Fixpoint put (k : list N) (v : pyobj) (d : list (list N * pyobj)) : list (list N * pyobj) :=
  match d with
  | [] => [(k, v)]
  | (k', v') :: d' => if same_str k k' then (k', v) :: d' else (k', v') :: put k v d'
  end.
(** OrderedDict(L) for a list of pairs, __init__.py:15, 16.  Keys are str; other lists do
    not come here. *)
Fixpoint put_all (d : list (list N * pyobj)) (l : list pyobj) : py (list (list N * pyobj)) :=
  match l with
  | [] => Ret d
  | PyTuple [PyStr k; v] :: l' => put_all (put k v d) l'
  | _ => Raise
  end.
Definition odict (l : list pyobj) : py (list (pyobj * pyobj)) :=
  pbind (put_all [] l) (fun d => Ret (map (fun kv => (PyStr (fst kv), snd kv)) d)).

(** map(OrderedDict, V), __init__.py:15. *)
Fixpoint odicts (l : list pyobj) : py (list pyobj) :=
  match l with
  | [] => Ret []
  | PyList its :: l' => pbind (odict its) (fun d => pbind (odicts l') (fun ds => Ret (PyDict d :: ds)))
  | _ => Raise
  end.
(** The loop, __init__.py:12-15. *)
Fixpoint dict_values (l : list pyobj) : py (list pyobj) :=
  match l with
  | [] => Ret []
  | PyTuple [k; PyList v] :: l' =>
      pbind (odicts v) (fun ds => pbind (dict_values l') (fun r => Ret (PyTuple [k; PyList ds] :: r)))
  | PyTuple [k; v] :: l' => pbind (dict_values l') (fun r => Ret (PyTuple [k; v] :: r))
  | _ => Raise
  end.
(** _list2odict, __init__.py:10-16 *)
Definition list2odict (l : list pyobj) : py (list (pyobj * pyobj)) := pbind (dict_values l) odict.

(** Machine.conf(), __init__.py:37-39 *)
Definition machine_conf {D B} (m : @machine D B) (index : option Z) : py (list (pyobj * pyobj)) :=
  pbind (py_conf m index) list2odict.
