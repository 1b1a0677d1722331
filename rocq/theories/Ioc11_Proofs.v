(** A virtual accelerator whose magnets note their gains, and fail without any: for the
    examples and the witnesses of refutations. *)
From Coq Require Import List String Ascii Bool NArith ZArith Arith Lia SpecFloat.
From Verif Require Import SMap SMap_Proofs Dbl Lexer_Model Config_Spec Machine_Model Machine_Spec Machine3_Proofs Util_Model Util_Spec Array_Model
  Array_Spec Array3_Proofs Ioc_Model Ioc_Spec Ioc_Proofs Ioc2_Proofs Ioc3_Proofs Ioc5_Proofs Ioc6_Proofs Ioc7_Proofs Ioc8_Proofs Ioc9_Proofs Ioc10_Proofs.
Import ListNotations.
Open Scope string_scope.
Open Scope list_scope.

Definition gain_of (c : tcfg) : res double :=
  match tfind "gain" c with Some (TNum x) => Ok x | _ => Throw KeyError end.
Definition magnet : class double (list double) :=
  mkCls 0 "magnet" gain_of (fun _ n => n)
    (fun _ d st => (d, match d with S754_zero _ => Throw RuntimeError | _ => Ok (mkSt (st_next st) (st_retreat st) (st_body st ++ [d])) end)).
Definition gm_reg : registry double (list double) :=
  match reg_all [] [RegState "lin" (fun _ => Ok []); RegElem "lin" "magnet" magnet] with Some r => r | None => [] end.
Definition gm_conf : tcfg :=
  TCfg [("elements", TCfgs [gained "a" "magnet" 2; gained "b" "magnet" 3]); ("sim_type", TStr "lin")] [].
Definition gm_m : machine double (list double) :=
  match new_machine gm_reg gm_conf with Ok m => m | Throw _ => mkM [] [] [] "" gm_conf (mkSI (fun _ => Ok []) []) end.
Lemma gm_built : new_machine gm_reg gm_conf = Ok gm_m.
Proof. vm_compute. reflexivity. Qed.
Definition gm_kind (b : list double) : kind := KVector.
Definition gm_mem (b : list double) : mem := fun k _ => match k with BNext => Some (CN 0) | _ => Some (CD (hd dzero b)) end.
Notation gm_serves := (serves ab0 gm_kind gm_mem toy_what gm_reg).
Notation gm_replays := (replays ab0 gm_kind gm_mem toy_what).

Lemma gm_only n i : sfind n gm_reg = Some i -> n = "lin" /\ forall t k, sfind t (si_elems i) = Some k -> t = "magnet" /\ k = magnet.
Proof.
  intros H. destruct (String.eqb_spec n "lin") as [->|N].
  - vm_compute in H. injection H as <-. split; auto. intros t k. cbn [si_elems]. unfold sfind.
    destruct (String.eqb_spec t "magnet") as [->|Nt].
    + vm_compute. intros [= <-]. auto.
    + apply String.eqb_neq in Nt. rewrite String.eqb_sym in Nt. rewrite ?Nt. try (rewrite String.eqb_sym in Nt; rewrite Nt). discriminate.
  - exfalso. assert (E : gm_reg = [("lin", match sfind "lin" gm_reg with Some i => i | None => i end)]) by (vm_compute; reflexivity).
    rewrite E in H. cbn [sfind] in H. apply String.eqb_neq in N. rewrite N in H. discriminate.
Qed.
Lemma gm_tidy : tidy_all gm_reg.
Proof.
  intros n i H. apply gm_only in H as [_ H]. intros t k Hk. apply H in Hk as [-> ->]. split; auto.
  intros n' k' Hk' _. apply H in Hk' as [_ ->]. auto.
Qed.
Lemma gm_classes (P : class double (list double) -> Prop) : P magnet -> all_classes gm_reg P.
Proof. intros Hp n i H t k Hk. apply gm_only in H as [_ H]. apply H in Hk as [_ ->]. auto. Qed.
Lemma gm_steady : all_classes gm_reg steady.
Proof. apply gm_classes. intros b d st d' st'. cbn. destruct d; intros [= _ <-]; auto. Qed.
Lemma gm_transparent : all_classes gm_reg transparent.
Proof.
  apply gm_classes. exists (fun c d => gain_of c = Ok d). split; auto. split; auto. split; auto.
  intros b d1 d2 st H1 H2. rewrite H1 in H2. injection H2 as ->. reflexivity.
Qed.
Lemma gm_polite : all_classes gm_reg polite.
Proof.
  apply gm_classes. split.
  - intros c e. cbn. unfold gain_of. destruct (tfind "gain" c) as [[]|]; intros [= <-]; reflexivity.
  - intros b d st d' e. cbn. destruct d; intros [= _ <-]. reflexivity.
Qed.
Lemma gm_stored : well_stored ab0 gm_kind gm_mem.
Proof.
  intros b. split; [exact I|]. exists (fun f => match f with FNext => CN 0 | _ => CD (hd dzero b) end). split.
  - intros f Hf. destruct f; try reflexivity; destruct Hf.
  - intros []; eauto.
Qed.
Lemma gm_alike : forall b b', alike (gm_kind b) (gm_kind b').
Proof. intros; exact I. Qed.

(** Readings of what leaves each element. *)
Definition gm_g : simmap double (list double) := sset "S" (new_sim gm_m) [].
Definition gm_g1 := fst (init_state ab0 gm_kind gm_g "S a pos").
Definition gm_g2 := fst (init_state ab0 gm_kind gm_g1 "S b pos").
Definition gm_sim : vsim double (list double) := match sfind "S" gm_g2 with Some s => s | None => new_sim gm_m end.
Definition gm_b : measdev := mkMD "S" 1 1 2 [].
Definition gm_orb : orbdev := mkOD "S" [0; 1] 2 [].
Lemma gm_served : gm_serves gm_sim.
Proof.
  refine (sv_measure ab0 gm_kind gm_mem toy_what gm_reg (match sfind "S" gm_g1 with Some s => s | None => new_sim gm_m end) 1%N gm_sim 1 _ _).
  - refine (sv_measure ab0 gm_kind gm_mem toy_what gm_reg (new_sim gm_m) 0%N _ 0 _ _).
    + econstructor; [exact gm_built|vm_compute; discriminate].
    + vm_compute. reflexivity.
  - vm_compute. reflexivity.
Qed.
Lemma gm_link : snd (init_state ab0 gm_kind gm_g1 "S b pos") = IOk gm_b /\ snd (init_orbit ab0 gm_kind gm_g2 "S magnet pos") = IOk gm_orb /\
  fst (init_orbit ab0 gm_kind gm_g2 "S magnet pos") = gm_g2.
Proof. split; [|split]; vm_compute; reflexivity. Qed.
Lemma gm_watching : watching gm_sim gm_b /\ watching_all gm_sim gm_orb.
Proof. split; [reflexivity|]. intros j [<-|[<-|[]]]; eexists; reflexivity. Qed.
Lemma gm_size : (Z.of_nat (List.length (m_elems (v_machine gm_sim))) <= INT_MAX)%Z.
Proof. vm_compute. discriminate. Qed.
Lemma gm_fresh : fresh_defined gm_sim.
Proof. intros e H. vm_compute in H. discriminate. Qed.

(** One thread: scripts played through, with the worker doing all it can after each
    request. *)
Definition gm_drive := drive ab0 gm_kind gm_mem toy_what (D:=double).
Definition gm_plays (script : list vop) (sched : list nat) : sys double (list double) :=
  match gm_drive sched (start gm_sim [script]) with Some y => y | None => start gm_sim [] end.
Lemma gm_history script sched y : gm_drive sched (start gm_sim [script]) = Some y -> y_lock y = None ->
  gm_replays gm_sim (y_hist y) (y_sim y).
Proof. intros H L. eapply serial; [eapply drive_reach; exact H|exact L]. Qed.
(** A request, a simulation of two elements. *)
Definition ask : list nat := [0; 0; 1; 1; 1; 1; 1; 0; 0; 0; 0; 0; 0; 0; 0; 0].
Definition put (z : Z) : vop := VSet 0 "gain" plain_ana (d_of_Z z).
(** A run; a setting. *)
Definition gm_y1 := gm_plays [VDoSim; put 10] ask.
Definition gm_y2 := gm_plays [VDoSim; put 10] (ask ++ [1; 1; 1; 1]).
Lemma gm_y1_is : gm_replays gm_sim [HDo 0 VDoSim ODone; HRun] (y_sim gm_y1).
Proof. refine (gm_history [VDoSim; put 10] ask gm_y1 _ _); vm_compute; reflexivity. Qed.
Lemma gm_y2_is : gm_replays gm_sim [HDo 0 VDoSim ODone; HRun; HDo 0 (put 10) ODone] (y_sim gm_y2).
Proof. refine (gm_history [VDoSim; put 10] (ask ++ [1; 1; 1; 1]) gm_y2 _ _); vm_compute; reflexivity. Qed.
(** The gain is taken away: failure.  It is given back: success. *)
Definition gm_bad_script := [put 0; VDoSim; put 4; VDoSim].
Definition gm_bad_sched := [0; 0; 1; 1; 1; 1; 1; 1; 1; 1; 1; 0; 0; 0; 0; 0; 0; 0].
Definition gm_good_sched := gm_bad_sched ++ [1; 1; 1; 1; 1; 1; 1; 1; 1; 0; 0; 0; 0; 0; 0; 0; 0; 0].
Definition gm_bad := gm_plays gm_bad_script gm_bad_sched.
Definition gm_good := gm_plays gm_bad_script gm_good_sched.
Lemma gm_bad_is : gm_replays gm_sim [HDo 0 (put 0) ODone; HDo 0 VDoSim ODone; HRun] (y_sim gm_bad).
Proof. refine (gm_history gm_bad_script gm_bad_sched gm_bad _ _); vm_compute; reflexivity. Qed.
Lemma gm_good_is : gm_replays gm_sim [HDo 0 (put 0) ODone; HDo 0 VDoSim ODone; HRun; HDo 0 (put 4) ODone; HDo 0 VDoSim ODone; HRun] (y_sim gm_good).
Proof. refine (gm_history gm_bad_script gm_good_sched gm_good _ _); vm_compute; reflexivity. Qed.

(** Records without scales and offsets. *)
Lemma plain_trip a x : deq (a_aslo a) dzero = true -> a_aoff a = dzero -> (a_linr a = false \/ deq (a_eslo a) dzero = true) ->
  to_val a (of_val a x) = x \/ (x = S754_zero true /\ to_val a (of_val a x) = dzero).
Proof.
  intros H1 H2 H3. unfold to_val, of_val, nonzero. rewrite H1, H2. cbn [negb].
  assert (E : (a_linr a && negb (deq (a_eslo a) dzero))%bool = false) by (destruct H3 as [->| ->]; auto; apply andb_false_r).
  rewrite E.
  replace (if a_linr a then if negb (deq (a_eslo a) dzero) then ddiv (dsub x (a_eoff a)) (a_eslo a) else x else x) with x
    by (destruct (a_linr a); auto; destruct H3 as [X|X]; [discriminate|rewrite X; reflexivity]).
  destruct x as [[]|[]| |]; (left; reflexivity) || (right; split; reflexivity).
Qed.
Lemma write_read {D B : Type} ab kindof memof i p a x (s s' : vsim D B) :
  atomic ab kindof memof (VSet i p a x) s = Some (s', ODone) ->
  forall i' p' a', atomic ab kindof memof (VGet i' p' a') s' =
    if (N.eqb i' i && String.eqb p' p)%bool then Some (s', OVal (to_val a' (of_val a x)) false)
    else Some (s', match atomic ab kindof memof (VGet i' p' a') s with Some (_, o) => o | None => OAlarm end).
Proof.
  intros H i' p' a'. rewrite !get_is. rewrite (set_reads ab kindof memof _ _ _ _ _ _ H).
  destruct (_ && _)%bool; reflexivity.
Qed.
Lemma history_shown {D B : Type} ab kindof memof what (s s' : vsim D B) h i p a : replays ab kindof memof what s h s' ->
  atomic ab kindof memof (VGet i p a) s' = Some (s', shown a (last_written i p h (reading s i p))).
Proof. intros H. rewrite get_is. rewrite (history_reads ab kindof memof what _ _ _ _ _ H). reflexivity. Qed.
Lemma set_rest_all {D B : Type} ab kindof memof what r i p a x (s s' : vsim D B) :
  serves ab kindof memof what r s -> atomic ab kindof memof (VSet i p a x) s = Some (s', ODone) ->
  v_stop s' = v_stop s /\ v_dosim s' = v_dosim s /\ v_valid s' = v_valid s /\ v_msg s' = v_msg s /\
  v_measures s' = v_measures s /\ v_last s' = v_last s /\ v_scans s' = v_scans s /\
  (forall n, slots_named n (m_elems (v_machine s')) = slots_named n (m_elems (v_machine s))) /\
  (forall n, slots_typed n (m_elems (v_machine s')) = slots_typed n (m_elems (v_machine s))).
Proof.
  intros S H. destruct (set_rest ab kindof memof _ _ _ _ _ _ H) as (A & C & E & F & G & I & J).
  destruct (set_names ab kindof memof what r _ _ _ _ _ _ S H) as [K L]. auto 10.
Qed.
Lemma set_answers {D B : Type} ab kindof memof what r i p a x (s : vsim D B) : serves ab kindof memof what r s -> tidy_all r ->
  atomic ab kindof memof (VSet i p a x) s <> None ->
  ((exists s', atomic ab kindof memof (VSet i p a x) s = Some (s', ODone)) <->
   exists e d, nth_error (m_elems (v_machine s)) (N.to_nat i) = Some e /\ p <> "name" /\ p <> "type" /\
     cl_ctor (el_class e) (tset p (TNum (of_val a x)) (eb_conf (el_base e))) = Ok d) /\
  (~ (exists s', atomic ab kindof memof (VSet i p a x) s = Some (s', ODone)) -> atomic ab kindof memof (VSet i p a x) s = Some (s, OAlarm)).
Proof.
  intros S T H. split; [apply (set_iff ab kindof memof what r); auto|]. intros N.
  destruct (atomic ab kindof memof (VSet i p a x) s) as [[s' o]|] eqn:E; [|congruence].
  destruct (set_outcomes ab kindof memof _ _ _ _ _ _ _ E) as [-> | ->].
  - exfalso. apply N. eauto.
  - rewrite (set_refused ab kindof memof _ _ _ _ _ _ E). reflexivity.
Qed.

Definition by49 : ana := mkAna (d_of_Z 49) dzero false dzero dzero.
Definition off_tenth : ana := mkAna dzero (ddiv (d_of_Z 1) (d_of_Z 10)) false dzero dzero.
Lemma C78_scaled_refuted_w : to_val by49 (of_val by49 (d_of_Z 1)) <> d_of_Z 1 /\
  exists x, to_val off_tenth (of_val off_tenth x) <> x.
Proof.
  split; [intros H; vm_compute in H; discriminate|].
  exists (ddiv (d_of_Z 1) (d_of_Z 30)). intros H; vm_compute in H; discriminate.
Qed.

Lemma C79_current_refuted_w : exists h s', replays ab0 gm_kind gm_mem toy_what gm_sim h s' /\
  atomic ab0 gm_kind gm_mem (VMeas gm_b plain_ana) s' = Some (s', OVal (d_of_Z 2) false) /\
  exists m b, new_machine gm_reg (lattice_of (m_simtype (v_machine s')) (lattice s')) = Ok m /\ snd (simulation m) = Ok tt /\
    nth_error (fst (simulation m)) 1 = Some b /\ attr_value ab0 gm_kind gm_mem b (md_attr gm_b) (md_dims gm_b) (d_of_Z 10).
Proof.
  eexists _, _. split; [exact gm_y2_is|]. split; [vm_compute; reflexivity|].
  eexists _, _. split; [vm_compute; reflexivity|]. split; [vm_compute; reflexivity|]. split; [vm_compute; reflexivity|].
  eexists _, _, _. split; [vm_compute; reflexivity|]. split; [discriminate|]. split; [constructor|vm_compute; reflexivity].
Qed.
Lemma C79_message_refuted_w : exists h s', replays ab0 gm_kind gm_mem toy_what gm_sim h s' /\
  v_msg gm_sim = "" /\ v_valid s' = true /\ atomic ab0 gm_kind gm_mem (VMsg 9) s' = Some (s', OText (firstn 9 (list_ascii_of_string (toy_what RuntimeError)))) /\
  firstn 9 (list_ascii_of_string (toy_what RuntimeError)) <> [].
Proof.
  eexists _, _. split; [exact gm_good_is|]. split; [vm_compute; reflexivity|]. split; [vm_compute; reflexivity|]. split; [vm_compute; reflexivity|discriminate].
Qed.
(** A machine without simulations, before the first of them. *)
Lemma gm_never : v_valid gm_sim = false.
Proof. vm_compute. reflexivity. Qed.
Lemma gm_orbit_is : exists out n, atomic ab0 gm_kind gm_mem (VOrbit gm_orb [d_of_Z 7; d_of_Z 8; d_of_Z 9]) (y_sim gm_y1) = Some (y_sim gm_y1, OWave out n false) /\
  out = [d_of_Z 2; d_of_Z 2; d_of_Z 9] /\ n = 2.
Proof. eexists _, _. split; [vm_compute; reflexivity|]. split; reflexivity. Qed.
Lemma gm_serves_y1 : gm_serves (y_sim gm_y1) /\ watching_all (y_sim gm_y1) gm_orb /\ watching (y_sim gm_y1) gm_b.
Proof.
  destruct (replays_keep ab0 gm_kind gm_mem toy_what gm_reg _ _ _ gm_y1_is gm_served) as (A & M & _). split; auto.
  unfold watching_all, watching. rewrite M. apply and_comm. exact gm_watching.
Qed.
Lemma gm_usable : usable gm_kind gm_sim (VMeas gm_b plain_ana) /\ usable gm_kind gm_sim (VOrbit gm_orb [dzero; dzero]) /\ usable gm_kind gm_sim VDoSim.
Proof.
  assert (X : exists b par n, showable (gm_kind b) par n 2).
  { exists [], "pos", 0. eexists _, _. split; [reflexivity|]. split; [discriminate|reflexivity]. }
  split; [|split; [|exact I]]; (split; [apply gm_watching|exact X]).
Qed.
Lemma gm_runs : exists s', run_once toy_what gm_sim = Some s'.
Proof.
  destruct (run_once toy_what gm_sim) as [s'|] eqn:E; [eauto|]. exfalso. revert E.
  apply (run_defined ab0 gm_kind gm_mem toy_what gm_reg); [exact gm_served|exact gm_steady|exact gm_polite|exact gm_fresh|exact gm_size].
Qed.
