(** Finite maps keyed by strings, in the iteration order of
    [std::map<std::string,V>] (src/flame/config.h:79): a list of pairs kept
    sorted by [std::less<std::string>], i.e. byte-wise lexicographic order. *)
From Coq Require Import List String Ascii NArith Bool.
Import ListNotations.

Definition smap (V : Type) : Type := list (string * V).

Section SMap.
Context {V : Type}.

Definition sempty : smap V := [].

(** [std::map::find], src/config.cpp:42,60. *)
Fixpoint sfind (k : string) (m : smap V) : option V :=
  match m with
  | [] => None
  | (k', v) :: m' => if String.eqb k k' then Some v else sfind k m'
  end.

(** [m[k] = v], src/config.cpp:72; src/flame/config.h:179. *)
Fixpoint sset (k : string) (v : V) (m : smap V) : smap V :=
  match m with
  | [] => [(k, v)]
  | (k', v') :: m' =>
      match String.compare k k' with
      | Lt => (k, v) :: (k', v') :: m'
      | Eq => (k, v) :: m'
      | Gt => (k', v') :: sset k v m'
      end
  end.

(** [std::map::insert] of one pair: an existing key is not overwritten
    (src/config.cpp:101-103, 119-122). *)
Definition sinsert (k : string) (v : V) (m : smap V) : smap V :=
  match sfind k m with
  | Some _ => m
  | None => sset k v m
  end.

(** [m.insert(o.begin(), o.end())], src/config.cpp:101-102, 119-120. *)
Definition smerge (m o : smap V) : smap V :=
  fold_left (fun acc kv => sinsert (fst kv) (snd kv) acc) o m.

Definition skeys (m : smap V) : list string := map fst m.

Definition sis_empty (m : smap V) : bool :=
  match m with [] => true | _ => false end.

End SMap.

(** Strict order used by [std::map]. *)
Definition str_lt (a b : string) : Prop := String.compare a b = Lt.

Fixpoint ssorted {V} (m : smap V) : Prop :=
  match m with
  | [] => True
  | (k, _) :: m' => (forall k' v', In (k', v') m' -> str_lt k k') /\ ssorted m'
  end.
