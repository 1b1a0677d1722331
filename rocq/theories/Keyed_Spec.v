(** Files as they are now. *)
From Coq Require Import List String Bool ZArith.
From Verif Require Import SMap Dbl Config_Spec Machine_Model Util_Model Util_Spec Keyed_Model.
Import ListNotations.
Open Scope list_scope.

Section Spec.
Context {C : Type}.
Variable parse : string -> option C.
(** What happened to files, in this order. *)
Definition changes (h : list kop) : list fsop :=
  flat_map (fun o => match o with KFile o => [o] | KCurve _ d | KCavity _ d => d end) h.
(** The file [p] now. *)
Definition now (h : list kop) (p : string) : option (Z * string) := fold_left (touched p) (changes h) None.
(** No file changes while it is looked at. *)
Definition calm (h : list kop) : Prop := forall p d, In (KCurve p d) h \/ In (KCavity p d) h -> d = [].
(** A good text of a file is not followed by a text that says something else and has the
    same time.  Times need not grow. *)
Definition told_apart (h : list kop) (p : string) : Prop := forall a m s b s',
  changes h = a ++ FWrite p m s :: b -> In (FWrite p m s') b -> parse s <> None -> parse s' = parse s.
(** The same for good and bad texts. *)
Definition all_told_apart (h : list kop) (p : string) : Prop := forall a m s b s',
  changes h = a ++ FWrite p m s :: b -> In (FWrite p m s') b -> parse s' = parse s.
(** What a file says. *)
Definition says (f : option (Z * string)) : res C :=
  match f with
  | Some (_, s) => match parse s with Some c => Ok c | None => Throw RuntimeError end
  | None => Throw RuntimeError
  end.
End Spec.
