(** What readings and orbits show, and that nothing is undefined. *)
From Coq Require Import List String Ascii Bool NArith ZArith Arith Lia.
From Verif Require Import SMap SMap_Proofs Dbl Lexer_Model Config_Spec Machine_Model Machine_Spec Machine_Proofs Machine2_Proofs Util_Model Util_Spec
  Array_Model Array_Spec Array_Proofs Array3_Proofs Ioc_Model Ioc_Spec Ioc_Proofs Ioc2_Proofs Ioc3_Proofs Ioc5_Proofs Ioc7_Proofs Ioc8_Proofs.
Import ListNotations.
Open Scope string_scope.
Open Scope list_scope.

Lemma within_of sh : forall idx, List.length idx = List.length sh -> inbounds sh idx = true -> within sh idx.
Proof.
  induction sh as [|m sh IH]; intros [|i idx] L H; simpl in L; try discriminate; [constructor|].
  cbn [inbounds] in H. apply andb_prop in H as [H1 H2]. apply Nat.ltb_lt in H1. injection L as L. constructor; [auto|apply IH; auto].
Qed.

Lemma next_only kd k nm sh den idx : nth_error (attributes kd) k = Some (nm, sh, den) ->
  if String.eqb nm "next_elem" then den idx = FNext else den idx <> FNext.
Proof.
  intros E. apply nth_error_In in E.
  assert (A : Forall (fun '(nm, _, den) => if String.eqb nm "next_elem" then den idx = FNext else den idx <> FNext) (attributes kd)).
  { assert (A1 : forall f, (forall i, f i <> FNext) -> at1 f idx <> FNext) by (intros f Hf; destruct idx; simpl; auto).
    assert (A2 : forall f, (forall i j, f i j <> FNext) -> at2 f idx <> FNext) by (intros f Hf; destruct idx as [|? [|? ?]]; simpl; auto).
    assert (A3 : forall f, (forall i j k, f i j k <> FNext) -> at3 f idx <> FNext) by (intros f Hf; destruct idx as [|? [|? [|? ?]]]; simpl; auto).
    destruct kd as [| |n]; cbn [attributes base_attrs app];
      repeat (constructor; [cbn [String.eqb Ascii.eqb Bool.eqb]; first [reflexivity|discriminate|apply A1; discriminate|apply A2; discriminate|apply A3; discriminate]|]); constructor. }
  rewrite Forall_forall in A. exact (A _ E).
Qed.

Section Show.
Context {D B : Type}.
Variables (ab : abi) (kindof : B -> kind) (memof : B -> mem) (what : exn -> string).
Notation atomic := (atomic (D:=D) (B:=B) ab kindof memof).
Notation run_once := (run_once (D:=D) (B:=B) what).
Notation serves := (serves (D:=D) (B:=B) ab kindof memof what).
Notation replays := (replays (D:=D) (B:=B) ab kindof memof what).
Notation serves_sound := (serves_sound ab kindof memof what).
Notation attr_value := (attr_value ab kindof memof).
Notation fetch := (fetch ab kindof memof).
Notation well_stored := (well_stored ab kindof memof).
Implicit Types (s : vsim D B).

Lemma fetch_cases (last : option (pstate B)) k dims : well_stored ->
  match last with
  | None => fetch last k dims = Some None
  | Some st =>
      (exists x, fetch last k dims = Some (Some x) /\ attr_value (st_body st) k dims x) \/
      (fetch last k dims = Some None /\ forall x, ~ attr_value (st_body st) k dims x) \/
      (fetch last k dims = None /\ exists sh den, nth_error (attributes (kindof (st_body st))) k = Some ("next_elem", sh, den))
  end.
Proof.
  intros W. destruct last as [st|]; [|reflexivity]. destruct (W (st_body st)) as (P & c & Hh & Ht).
  unfold Ioc_Model.fetch. pose proof (get_array_spec ab (kindof (st_body st)) k P) as G.
  destruct (nth_error (attributes (kindof (st_body st))) k) as [[[nm sh] den]|] eqn:En.
  - destruct (names_known ab _ _ _ _ _ P En) as (a & Ga & Na & Da & Ra). rewrite Ga. rewrite Da.
    destruct (Nat.eqb_spec (List.length (map N.to_nat dims)) (List.length sh)) as [L|L]; cbn [andb].
    2:{ right. left. split; auto. intros x (nm' & sh' & den' & E & _ & Wi & _). rewrite En in E. injection E as <- <- <-.
        apply within_len in Wi. congruence. }
    destruct (inbounds sh (map N.to_nat dims)) eqn:I.
    2:{ right. left. split; auto. intros x (nm' & sh' & den' & E & _ & Wi & _). rewrite En in E. injection E as <- <- <-.
        apply inbounds_within in Wi. congruence. }
    pose proof (within_of _ _ L I) as Wi. destruct (Ra _ Wi) as [Ra1 Ra2]. rewrite Ra1, (Hh _ Ra2).
    specialize (Ht (den (map N.to_nat dims))). destruct (String.eqb_spec nm "next_elem") as [->|Nn].
    + right. right. pose proof (next_only _ _ _ _ _ (map N.to_nat dims) En) as Ed. cbn [String.eqb Ascii.eqb Bool.eqb] in Ed.
      rewrite Ed in Ht |- *. destruct Ht as [n ->]. split; eauto.
    + pose proof (next_only _ _ _ _ _ (map N.to_nat dims) En) as Ed. rewrite (proj2 (String.eqb_neq _ _) Nn) in Ed.
      assert (X : exists x, c (den (map N.to_nat dims)) = CD x) by (destruct (den (map N.to_nat dims)); first [congruence|exact Ht]).
      destruct X as [x Ex]. left. exists x. rewrite Ex. split; auto. exists nm, sh, den.
      repeat (split; [auto; fail|]). rewrite (Hh _ Ra2). congruence.
  - destruct (get_array ab _ k) as [a| |]; try destruct G. right. left. split; auto.
    intros x (nm' & sh' & den' & E & _). congruence.
Qed.
Lemma attr_value_one b k dims x y : attr_value b k dims x -> attr_value b k dims y -> x = y.
Proof. intros (n1 & s1 & d1 & E1 & _ & _ & L1) (n2 & s2 & d2 & E2 & _ & _ & L2). rewrite E1 in E2. injection E2 as <- <- <-. congruence. Qed.

(** ** Readings *)
(** The value of an attribute that is kept of what left element [i]. *)
Lemma kept_cases s d r : serves r s -> well_stored -> watching s d ->
  (exists b x, kept ab kindof memof s (md_obs d) (md_attr d) (md_dims d) = Some (Some x) /\ left_by s (md_index d) = Some b /\
     attr_value b (md_attr d) (md_dims d) x) \/
  (kept ab kindof memof s (md_obs d) (md_attr d) (md_dims d) = Some None /\
     forall b x, left_by s (md_index d) = Some b -> ~ attr_value b (md_attr d) (md_dims d) x) \/
  (kept ab kindof memof s (md_obs d) (md_attr d) (md_dims d) = None /\ exists b sh den,
     nth_error (attributes (kindof b)) (md_attr d) = Some ("next_elem", sh, den)).
Proof.
  intros Hs W Wa. pose proof (serves_sound _ _ Hs) as S0. unfold watching in Wa.
  destruct (sd_last _ _ S0 _ _ Wa) as [Lo _]. unfold kept, left_by. rewrite Wa.
  destruct (nth_error (v_last s) (md_obs d)) as [last|] eqn:E; [|apply nth_error_None in E; lia].
  pose proof (fetch_cases last (md_attr d) (md_dims d) W) as F. destruct last as [st|].
  - destruct F as [(x & F1 & F2)|[(F1 & F2)|(F1 & sh & den & F2)]].
    + left. eauto 6.
    + right. left. split; auto. intros b x [= <-]. apply F2.
    + right. right. eauto 6.
  - right. left. split; auto. discriminate.
Qed.
Lemma meas_ok s s' d a v al r : serves r s -> well_stored -> watching s d ->
  atomic (VMeas d a) s = Some (s', OVal v al) ->
  s' = s /\
  ((exists b x, left_by s (md_index d) = Some b /\ attr_value b (md_attr d) (md_dims d) x /\ v = to_val a x /\ al = negb (v_valid s)) \/
   ((forall b x, left_by s (md_index d) = Some b -> ~ attr_value b (md_attr d) (md_dims d) x) /\ v = to_val a dzero /\ al = true)).
Proof.
  intros Hs W Wa H. cbn [Ioc_Spec.atomic] in H.
  destruct (kept_cases s d r Hs W Wa) as [(b & x & K & L & V)|[(K & N)|(K & _)]]; rewrite K in H; [| |discriminate]; injection H as <- <- <-; split; eauto 8.
Qed.
(** The machine of the lattice with the settings. *)
Lemma edited_machine r s h s1 : serves r s -> tidy_all r -> all_classes r transparent -> replays s h s1 ->
  exists m2, new_machine r (lattice_of (m_simtype (v_machine s)) (edits h (lattice s))) = Ok m2 /\ simulation m2 = simulation (v_machine s1).
Proof.
  intros Hs T Tr R. destruct (replays_keep ab kindof memof what r _ _ _ R Hs) as (I1 & I2 & I3 & I4).
  assert (St : m_simtype (v_machine s1) = m_simtype (v_machine s)).
  { clear - R. induction R as [|h s1 s2 H IH Hd Hst Hr|h s1 s2 j o x H IH Ha]; auto.
    - rewrite <- IH. apply (run_once_parts what) in Hr as [(e & Ha & Hc & ->)|(st & p & l & Ha & Hp & Hv & X)]; auto.
      destruct X as [(st' & He & ->)|(e & He & Hc & ->)]; auto.
    - rewrite <- IH. clear H IH. destruct o as [|j' q a v|j' q a|d a|d buf|d buf|n|]; cbn [Ioc_Spec.atomic] in Ha;
        repeat match type of Ha with
               | context [match ?y with _ => _ end] => destruct y eqn:?; try discriminate Ha
               | Some _ = Some _ => injection Ha as <- <-
               end; auto.
      match goal with H : reconfigure _ _ _ = _ |- _ => destruct a0; apply reconfigure_ok in H as (ob & t & k & nm & d & A1 & A2 & A3 & A4 & A5 & A6 & ->) end.
      reflexivity. }
  apply (like_new ab kindof memof what r s1); auto.
  - rewrite St. reflexivity.
  - rewrite I4. reflexivity.
Qed.
Lemma count_app p h1 h2 : count p (h1 ++ h2) = count p h1 + count p h2.
Proof. unfold count. rewrite filter_app, app_length. reflexivity. Qed.
Lemma last_run_unique h1 h2 h1' h2' : h1 ++ HRun :: h2 = h1' ++ HRun :: h2' -> count is_run h2 = 0 -> count is_run h2' = 0 -> h1 = h1' /\ h2 = h2'.
Proof.
  revert h1'. induction h1 as [|x h1 IH]; intros [|y h1'] E C C'.
  - injection E as ->. auto.
  - injection E as <- ->. rewrite count_app in C. change (count is_run (HRun :: h2')) with (S (count is_run h2')) in C. lia.
  - injection E as -> <-. rewrite count_app in C'. change (count is_run (HRun :: h2)) with (S (count is_run h2)) in C'. lia.
  - injection E as -> E. destruct (IH _ E C C') as [-> ->]. auto.
Qed.

(** Valid: the latest simulation succeeded; what is kept is from it. *)
Lemma valid_iff r s h s' : serves r s -> all_classes r steady -> tidy_all r -> all_classes r transparent ->
  (Z.of_nat (List.length (m_elems (v_machine s))) <= INT_MAX)%Z -> v_valid s = false -> replays s h s' ->
  (v_valid s' = true <->
   exists h1 h2 m2, h = h1 ++ HRun :: h2 /\ count is_run h2 = 0 /\
     new_machine r (lattice_of (m_simtype (v_machine s)) (edits h1 (lattice s))) = Ok m2 /\ snd (simulation m2) = Ok tt).
Proof.
  intros Hs A T Tr L V R. destruct (history_run ab kindof memof what r s h s' Hs A L R) as [(C & V' & _)|(h1 & h2 & s1 & E & C & R1 & M)].
  - split; [congruence|]. intros (h1 & h2 & m2 & -> & _). rewrite count_app in C. change (count is_run (HRun :: h2)) with (S (count is_run h2)) in C. lia.
  - destruct (edited_machine r s h1 s1 Hs T Tr R1) as (m2 & N2 & Sm). rewrite <- Sm in M.
    destruct (simulation m2) as [bs e] eqn:Em. destruct M as (M1 & M2 & M3). split.
    + intros Vt. exists h1, h2, m2. repeat (split; [auto; fail|]). rewrite Em. cbn [snd]. rewrite Vt in M1. destruct e as [[]|]; [auto|discriminate].
    + intros (h1' & h2' & m2' & E' & C' & N' & S'). rewrite E in E'. destruct (last_run_unique _ _ _ _ E' C C') as [<- <-].
      rewrite N2 in N'. injection N' as <-. rewrite Em in S'. cbn [snd] in S'. subst e. auto.
Qed.
Lemma reading_is r s h s' s'' d a v : serves r s -> all_classes r steady -> tidy_all r -> all_classes r transparent ->
  (Z.of_nat (List.length (m_elems (v_machine s))) <= INT_MAX)%Z -> well_stored -> v_valid s = false ->
  replays s h s' -> watching s d -> atomic (VMeas d a) s' = Some (s'', OVal v false) ->
  exists h1 h2 m2 b x, h = h1 ++ HRun :: h2 /\ count is_run h2 = 0 /\
    new_machine r (lattice_of (m_simtype (v_machine s)) (edits h1 (lattice s))) = Ok m2 /\ snd (simulation m2) = Ok tt /\
    nth_error (fst (simulation m2)) (N.to_nat (md_index d)) = Some b /\ attr_value b (md_attr d) (md_dims d) x /\ v = to_val a x.
Proof.
  intros Hs A T Tr L W V R Wa H. destruct (replays_keep ab kindof memof what r _ _ _ R Hs) as (I1 & I2 & I3 & I4).
  assert (Wa' : watching s' d) by (unfold watching; rewrite I2; exact Wa).
  destruct (meas_ok _ _ _ _ _ _ _ I1 W Wa' H) as (_ & [(b & x & Lb & Av & -> & Al)|(_ & _ & X)]); [|discriminate].
  symmetry in Al. apply negb_false_iff in Al.
  destruct (history_run ab kindof memof what r s h s' Hs A L R) as [(C & V' & _)|(h1 & h2 & s1 & E & C & R1 & M)]; [congruence|].
  destruct (edited_machine r s h1 s1 Hs T Tr R1) as (m2 & N2 & Sm). rewrite <- Sm in M.
  destruct (simulation m2) as [bs e] eqn:Em. destruct M as (M1 & M2 & M3).
  exists h1, h2, m2, b, x. rewrite Em. cbn [fst snd]. repeat (split; [auto; fail|]). split.
  - rewrite Al in M1. destruct e as [[]|]; [auto|discriminate].
  - split; [|auto]. rewrite <- M3; auto. unfold watching in Wa. congruence.
Qed.
End Show.
