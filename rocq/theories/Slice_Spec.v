(** When two elements with fields along their length are the parts of a third. *)
From Coq Require Import Reals List String Bool NArith ZArith.
From Verif Require Import SMap Dbl Config_Spec Mat Machine_Model Machine_Spec Linear_Spec Moment_Model Moment_Spec Motion_Spec Area_Spec.
Import ListNotations.
Local Open Scope R_scope.
Local Open Scope string_scope.
Local Open Scope list_scope.

(** The samples [x] up to but not including [y] of each curve. *)
Definition range_of (c : tcfg) (x y : nat) : Prop :=
  exists a b, vec_at c "use_range" = Some [a; b] /\ truncates a (Z.of_nat x) /\ truncates b (Z.of_nat y).
(** The parts have everything of the whole but the name, the samples, those of the first before some
    sample and those of the second from it on, and the lengths, in proportion to the numbers of
    samples.  The whole may be displaced and rolled, but is neither pitched nor yawed.  It uses part
    of its curves or all of them, and there are some. *)
Definition parts (w : world) (ec ea eb : tcfg) : Prop :=
  let at_ c n := real_at (w_num w) c n 0 in
  Exists (fun t => is_a t ec) ["quadrupole"; "equad"; "solenoid"] /\
  (forall n, ~ In n ["name"; "L"; "use_range"] -> tfind n ea = tfind n ec /\ tfind n eb = tfind n ec) /\
  facing (w_num w) ec /\
  (exists n, n <> 0%N /\ forall k, flagged w ec "ncurve" 0 k -> k = n) /\
  exists x k y, (x < k < y)%nat /\ range_of ea x k /\ range_of eb k y /\
    (range_of ec x y \/
     vec_at ec "use_range" = None /\ x = 0%nat /\
     forall cv all, curve_source w ec cv -> vec_at cv (numbered "curve" 0) = Some all -> List.length all = y) /\
    at_ ea "L" * INR (y - x) = at_ ec "L" * INR (k - x) /\ at_ eb "L" * INR (y - x) = at_ ec "L" * INR (y - k).
