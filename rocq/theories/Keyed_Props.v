(** C93: the caches of curve files and of generic cavity data files. *)
From Coq Require Import List String Bool ZArith Arith Lia.
From Verif Require Import SMap Dbl Config_Spec Machine_Model Util_Model Util_Spec Keyed_Model Keyed_Spec Keyed_Proofs Keyed2_Proofs.
Import ListNotations.
Open Scope string_scope.
Open Scope list_scope.

(** If no file changes while it is looked at, and no good text of the file is followed by
    one that says something else under the same time, the curves an element gets are
    those of the file as it is now: also if a file was replaced by an older one, was bad
    or missing for a while, or was mended within the second. *)
Theorem C93_curves_current {C} (parse : string -> option C) h p : calm h -> told_apart parse h p ->
  snd (curve_get parse (k_files (krun parse h)) (k_files (krun parse h)) (k_curves (krun parse h)) p) = says parse (now h p).
Proof. exact (curve_current parse h p). Qed.
Print Assumptions C93_curves_current.
Example C93_curves_current_ex : calm hist93 /\ told_apart parse93 hist93 "f" /\ says parse93 (now hist93 "f") = Ok "one" /\
  sfind (fkey "f" 4) (k_curves (krun parse93 hist93)) = Some "old".
Proof. split; [apply calm_ok; reflexivity|]. split; [apply told_ok; reflexivity|]. split; vm_compute; reflexivity. Qed.

(** The same for cavities, if bad texts are told apart as well; a bad text makes a null
    pointer be used. *)
Theorem C93_cavity_current {C} (parse : string -> option C) h p : calm h -> all_told_apart parse h p ->
  snd (cavity_get parse (k_files (krun parse h)) (k_files (krun parse h)) (k_cavs (krun parse h)) p) =
  match now h p with
  | None => Some (Throw RuntimeError)
  | Some (_, s) => match parse s with Some c => Some (Ok c) | None => None end
  end.
Proof. exact (cavity_current parse h p). Qed.
Print Assumptions C93_cavity_current.
Example C93_cavity_current_ex : calm hist93c /\ all_told_apart parse93 hist93c "f" /\ now hist93c "f" = Some (4%Z, "old") /\
  sfind (fkey "f" 5) (k_cavs (krun parse93 hist93c)) = Some (Some "one").
Proof. split; [apply calm_ok; reflexivity|]. split; [apply all_told_ok; reflexivity|]. split; vm_compute; reflexivity. Qed.

(** Times are in seconds: a file that is rewritten within the second in which it was
    read is not read again. *)
Theorem C93_same_second_refuted {C} (parse : string -> option C) s1 s2 c1 c2 : parse s1 = Some c1 -> parse s2 = Some c2 ->
  exists h p, calm h /\ says parse (now h p) = Ok c2 /\
  snd (curve_get parse (k_files (krun parse h)) (k_files (krun parse h)) (k_curves (krun parse h)) p) = Ok c1 /\
  snd (cavity_get parse (k_files (krun parse h)) (k_files (krun parse h)) (k_cavs (krun parse h)) p) = Some (Ok c1).
Proof. exact (same_second_w parse s1 s2 c1 c2). Qed.
Print Assumptions C93_same_second_refuted.
Example C93_same_second_refuted_ex : parse93 "one" = Some "one" /\ parse93 "two" = Some "two" /\ "one" <> "two".
Proof. repeat split. discriminate. Qed.

(** The time is read before the text: if the file changes between, the new text is kept
    under the old time, and is what one gets after the old file was put back, though
    texts of different times only were ever different. *)
Theorem C93_put_back_refuted {C} (parse : string -> option C) s1 s2 c1 c2 : parse s1 = Some c1 -> parse s2 = Some c2 ->
  exists h p, all_told_apart parse h p /\ says parse (now h p) = Ok c1 /\
  snd (curve_get parse (k_files (krun parse h)) (k_files (krun parse h)) (k_curves (krun parse h)) p) = Ok c2 /\
  snd (cavity_get parse (k_files (krun parse h)) (k_files (krun parse h)) (k_cavs (krun parse h)) p) = Some (Ok c2).
Proof. exact (put_back_w parse s1 s2 c1 c2). Qed.
Print Assumptions C93_put_back_refuted.
Example C93_put_back_refuted_ex : parse93 "one" = Some "one" /\ parse93 "two" = Some "two" /\ "one" <> "two".
Proof. repeat split. discriminate. Qed.

(** A bad file of curves raises an error, a bad data file of a cavity a crash. *)
Theorem C93_bad_file_refuted {C} (parse : string -> option C) s : parse s = None -> exists h p,
  calm h /\ all_told_apart parse h p /\ now h p = Some (5%Z, s) /\
  snd (curve_get parse (k_files (krun parse h)) (k_files (krun parse h)) (k_curves (krun parse h)) p) = Throw RuntimeError /\
  snd (cavity_get parse (k_files (krun parse h)) (k_files (krun parse h)) (k_cavs (krun parse h)) p) = None.
Proof. exact (bad_file_w parse s). Qed.
Print Assumptions C93_bad_file_refuted.
Example C93_bad_file_refuted_ex : parse93 "bad" = None.
Proof. reflexivity. Qed.

(** Threads that need files which were read before never race, whatever turns they take. *)
Theorem C93_warm {C} (ch : smap C) ps s : (forall p k v, In p ps -> In (k, v) p -> sfind k ch <> None) ->
  exists r, rsteps (race0 ch ps) s = Some r /\ r_map r = ch.
Proof. exact (warm_runs ch ps s). Qed.
Print Assumptions C93_warm.
Example C93_warm_ex : forall p k v, In p [[("f|5", "one")]; [("f|5", "one"); ("f|5", "one")]] -> In (k, v) p -> sfind k [("f|5", "one")] <> None.
Proof. intros p k v [<-|[<-|[]]] H; repeat (destruct H as [H|H]; [injection H as <- <-; discriminate|]); destruct H. Qed.

(** Nor does a single thread. *)
Theorem C93_single {C} (ch : smap C) p n : rsteps (race0 ch [p]) (repeat 0 n) <> None.
Proof. exact (lone_runs ch p n). Qed.
Print Assumptions C93_single.
Example C93_single_ex : match rsteps (race0 [] [[("f|5", "one"); ("g|5", "two"); ("f|5", "one")]]) (repeat 0 10) with
  | Some r => r_map r = [("f|5", "one"); ("g|5", "two")] /\ r_code r = [[]]
  | None => False
  end.
Proof. vm_compute. auto. Qed.

(** But two threads, each with a machine and a state of its own, race as soon as one of
    them needs a file that was not read before, whatever the other one needs. *)
Theorem C93_threads_refuted {C} (ch : smap C) k1 v1 p1 k2 v2 p2 : sfind k1 ch = None ->
  exists s, rsteps (race0 ch [(k1, v1) :: p1; (k2, v2) :: p2]) s = None.
Proof. exact (race_w ch k1 v1 p1 k2 v2 p2). Qed.
Print Assumptions C93_threads_refuted.
Example C93_threads_refuted_ex : sfind "f|5" [("g|5", "two")] = None.
Proof. reflexivity. Qed.
