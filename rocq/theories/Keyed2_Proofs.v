(** Witnesses and examples for the caches of data files. *)
From Coq Require Import List String Ascii Bool ZArith Arith Lia.
From Verif Require Import SMap SMap_Proofs Dbl Config_Spec Machine_Model Util_Model Util_Spec Keyed_Model Keyed_Spec Keyed_Proofs.
Import ListNotations.
Open Scope string_scope.
Open Scope list_scope.

Lemma calm_ok h : forallb (fun o => match o with KCurve _ [] | KCavity _ [] | KFile _ => true | _ => false end) h = true -> calm h.
Proof.
  intros H p d Hd. rewrite forallb_forall in H.
  destruct Hd as [Hd|Hd]; specialize (H _ Hd); destruct d; auto; discriminate.
Qed.

(** Whether texts are told apart, by comparing texts. *)
Fixpoint apartb {C} (parse : string -> option C) (all : bool) (p : string) (l : list fsop) : bool :=
  match l with
  | [] => true
  | FWrite q m s :: b =>
      (negb (String.eqb q p) || (negb all && match parse s with None => true | Some _ => false end) ||
       forallb (fun o => match o with FWrite q' m' s' => negb (String.eqb q' p && Z.eqb m' m) || String.eqb s' s | _ => true end) b) &&
      apartb parse all p b
  | _ :: b => apartb parse all p b
  end.
Lemma apartb_ok {C} (parse : string -> option C) all p l : apartb parse all p l = true -> forall a m s b s',
  l = a ++ FWrite p m s :: b -> In (FWrite p m s') b -> (all = true \/ parse s <> None) -> parse s' = parse s.
Proof.
  induction l as [|o l IH]; intros H a m s b s' E Hin Hp; [destruct a; discriminate|].
  destruct a as [|x a].
  - injection E as -> ->. simpl in H. rewrite String.eqb_refl in H. apply andb_true_iff in H. destruct H as [H _]. simpl in H.
    apply orb_true_iff in H. destruct H as [H|H].
    + exfalso. apply andb_true_iff in H. destruct H as [Ha Hb]. destruct (parse s); [discriminate|].
      destruct Hp as [->|Hp]; [discriminate|congruence].
    + rewrite forallb_forall in H. specialize (H _ Hin). simpl in H. rewrite String.eqb_refl, Z.eqb_refl in H. simpl in H.
      apply String.eqb_eq in H. congruence.
  - injection E as -> E. apply (IH) with (a := a) (m := m) (b := b); auto.
    destruct x; simpl in H; auto. apply andb_true_iff in H. tauto.
Qed.
Lemma told_ok {C} (parse : string -> option C) h p : apartb parse false p (changes h) = true -> told_apart parse h p.
Proof. intros H a m s b s' E Hin Hp. eapply apartb_ok; eauto. Qed.
Lemma all_told_ok {C} (parse : string -> option C) h p : apartb parse true p (changes h) = true -> all_told_apart parse h p.
Proof. intros H a m s b s' E Hin. eapply apartb_ok; eauto. Qed.

Section W.
Context {C : Type}.
Variable parse : string -> option C.
Variables (s1 s2 : string) (c1 c2 : C).
Hypothesis H1 : parse s1 = Some c1.
Hypothesis H2 : parse s2 = Some c2.

Lemma same_second_w : exists h p,
  calm h /\ says parse (now h p) = Ok c2 /\
  snd (curve_get parse (k_files (krun parse h)) (k_files (krun parse h)) (k_curves (krun parse h)) p) = Ok c1 /\
  snd (cavity_get parse (k_files (krun parse h)) (k_files (krun parse h)) (k_cavs (krun parse h)) p) = Some (Ok c1).
Proof.
  exists [KFile (FWrite "f" 5 s1); KCurve "f" []; KCavity "f" []; KFile (FWrite "f" 5 s2)], "f".
  split; [apply calm_ok; reflexivity|]. split; [unfold says, now; simpl; rewrite H2; reflexivity|].
  split; vm_compute; rewrite H1; reflexivity.
Qed.
Lemma put_back_w : exists h p,
  all_told_apart parse h p /\ says parse (now h p) = Ok c1 /\
  snd (curve_get parse (k_files (krun parse h)) (k_files (krun parse h)) (k_curves (krun parse h)) p) = Ok c2 /\
  snd (cavity_get parse (k_files (krun parse h)) (k_files (krun parse h)) (k_cavs (krun parse h)) p) = Some (Ok c2).
Proof.
  exists [KFile (FWrite "f" 5 s1); KCurve "f" [FWrite "f" 6 s2]; KFile (FWrite "f" 5 s1);
          KCavity "f" [FWrite "f" 6 s2]; KFile (FWrite "f" 5 s1)], "f".
  split; [|split; [unfold says, now; simpl; rewrite H1; reflexivity|]].
  - apply all_told_ok. simpl. rewrite !String.eqb_refl. reflexivity.
  - split; vm_compute; rewrite ?H2, ?H1; reflexivity.
Qed.
End W.
Lemma bad_file_w {C} (parse : string -> option C) s : parse s = None -> exists h p,
  calm h /\ all_told_apart parse h p /\ now h p = Some (5%Z, s) /\
  snd (curve_get parse (k_files (krun parse h)) (k_files (krun parse h)) (k_curves (krun parse h)) p) = Throw RuntimeError /\
  snd (cavity_get parse (k_files (krun parse h)) (k_files (krun parse h)) (k_cavs (krun parse h)) p) = None.
Proof.
  intros H. exists [KFile (FWrite "f" 5 s)], "f". split; [apply calm_ok; reflexivity|].
  split.
  - intros a m s0 b s' E Hin. destruct a as [|x a]; [injection E as _ _ <-; destruct Hin|]. injection E as _ E. destruct a; discriminate.
  - split; [reflexivity|]. unfold krun, kstep, curve_get, cavity_get; simpl. rewrite H. auto.
Qed.
Lemma race_w {C} (ch : smap C) k1 v1 p1 k2 v2 p2 : sfind k1 ch = None ->
  exists s, rsteps (race0 ch [(k1, v1) :: p1; (k2, v2) :: p2]) s = None.
Proof. intros H. exists [0; 0; 0; 1]. unfold race0. simpl. unfold rstep at 1. simpl. rewrite H. reflexivity. Qed.

(** A parser for the examples. *)
Definition parse93 (s : string) : option string := if String.eqb s "bad" then None else Some s.
(** A file is written, read, corrected within the second after being bad, replaced by an
    older one. *)
Definition hist93 : list kop :=
  [KFile (FWrite "f" 5 "bad"); KCurve "f" []; KFile (FWrite "f" 5 "one"); KCurve "f" []; KFile (FWrite "g" 5 "two"); KCurve "g" [];
   KFile (FWrite "f" 4 "old"); KCurve "f" []; KFile (FRemove "f"); KCurve "f" []; KFile (FWrite "f" 5 "one")].
Definition hist93c : list kop :=
  [KFile (FWrite "f" 5 "one"); KCavity "f" []; KFile (FWrite "g" 5 "two"); KCavity "g" []; KFile (FWrite "f" 4 "old")].
