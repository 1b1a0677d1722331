(** The attributes of states, in Python and in files. *)
From Coq Require Import List String Bool ZArith NArith Arith Lia.
From Verif Require Import SMap Dbl Util_Model Util_Spec Array_Model Array_Spec Array_Proofs Array2_Proofs Array3_Proofs.
Import ListNotations.
Open Scope string_scope.
Open Scope nat_scope.
Open Scope list_scope.

(** Indices below the number of attributes exist, no others do, and names are distinct. *)
Theorem C45_dense : forall ab kd, populated kd ->
  (forall i, (exists a, get_array ab kd i = AInfo a) <-> i < List.length (attributes kd)) /\
  (forall i, get_array ab kd i <> AUndef) /\
  (forall i j a b, get_array ab kd i = AInfo a -> get_array ab kd j = AInfo b -> a_name a = a_name b -> i = j).
Proof. exact enumeration. Qed.
Print Assumptions C45_dense.
Example C45_dense_ex : populated (KMoment 5) /\ List.length (attributes (KMoment 5)) = 31 /\
  exists a, get_array ab0 (KMoment 5) 30 = AInfo a /\ a_name a = "pos" /\ get_array ab0 (KMoment 5) 31 = ANone.
Proof.
  split; [split; [lia|vm_compute; reflexivity]|]. split; [reflexivity|]. eexists. split; [reflexivity|]. split; reflexivity.
Qed.

(** The attribute of an index is the one it should be, and every item it describes is a
    variable of the state. *)
Theorem C45_what_they_are : forall ab kd i nm sh den, populated kd -> nth_error (attributes kd) i = Some (nm, sh, den) ->
  exists a, get_array ab kd i = AInfo a /\ a_name a = nm /\ a_dim a = sh /\
    forall idx, within sh idx -> raw a idx = place ab (den idx) /\ has_field kd (den idx).
Proof. exact names_known. Qed.
Print Assumptions C45_what_they_are.
Example C45_what_they_are_ex : nth_error (attributes (KMoment 5)) 1 = Some ("moment1", [7; 7; 5], at3 (fun i j k => FM1 k i j)) /\
  within [7; 7; 5] [6; 2; 4] /\ place ab0 (FM1 4 6 2) = (BM1, 4 * 400 + 8 * (7 * 6 + 2))%Z.
Proof. split; [reflexivity|]. split; [repeat constructor|reflexivity]. Qed.

(** A name keeps its index, type and number of dimensions when the number of charge
    states changes. *)
Theorem C45_stays : forall n n' i, 0 < n -> 0 < n' -> forall ab,
  match get_array ab (KMoment n) i, get_array ab (KMoment n') i with
  | AInfo a, AInfo b => a_name a = a_name b /\ a_type a = a_type b /\ List.length (a_dim a) = List.length (a_dim b)
  | ANone, ANone => True
  | _, _ => False
  end.
Proof. exact stays. Qed.
Print Assumptions C45_stays.
Example C45_stays_ex : exists a b, get_array ab0 (KMoment 5) 17 = AInfo a /\ get_array ab0 (KMoment 2) 17 = AInfo b /\
  a_name a = "IonZ" /\ a_name b = "IonZ" /\ a_dim a = [5] /\ a_dim b = [2].
Proof. eexists _, _. repeat split. Qed.

(** The dictionary behind a Python state has exactly these names, each with its index. *)
Theorem C45_python_names : forall ab kd, populated kd -> exists d, wrapstate ab kd = Some (Some d) /\
  forall nm i, sfind nm d = Some i <-> exists sh den, nth_error (attributes kd) i = Some (nm, sh, den).
Proof. exact wraps. Qed.
Print Assumptions C45_python_names.
Example C45_python_names_ex : wrapstate ab0 KVector = Some (Some [("next_elem", 1); ("pos", 2); ("state", 0)]).
Proof. reflexivity. Qed.

(** Reading an attribute gives the variables it stands for. *)
Theorem C41_read : forall ab kd d m c i nm sh den, populated kd -> wrapstate ab kd = Some (Some d) -> holds ab kd m c ->
  nth_error (attributes kd) i = Some (nm, sh, den) -> shows (py_get ab kd d m nm) sh (fun idx => c (den idx)).
Proof. exact get_shows. Qed.
Print Assumptions C41_read.
Example C41_read_ex : exists d a, wrapstate ab0 (KMoment 2) = Some (Some d) /\ holds ab0 (KMoment 2) m0 c0 /\
  py_get ab0 (KMoment 2) d m0 "IonZ" = PArr a /\ nd_at a [0] = Some (CD dzero) /\ nd_at a [1] = Some (CD done).
Proof.
  eexists _, _. split; [vm_compute; reflexivity|]. split; [apply m0_holds; intros n E; injection E as <-; lia|].
  split; [vm_compute; reflexivity|]. split; reflexivity.
Qed.

(** Assigning an array of the right shape, whatever its strides, succeeds; afterwards the
    variables the attribute stands for have its values and no other has changed; the
    attribute reads as what was assigned and every other one as before. *)
Theorem C41_write_then_read : forall ab kd d m c i nm sh den arr,
  abi_ok ab -> populated kd -> wrapstate ab kd = Some (Some d) -> holds ab kd m c ->
  nth_error (attributes kd) i = Some (nm, sh, den) -> sh <> [] -> n_shape arr = sh -> nd_ok arr ->
  exists m' c', py_set ab kd d m nm (VArray arr) = (m', POk) /\ holds ab kd m' c' /\
    (forall idx, within sh idx -> nd_at arr idx = Some (c' (den idx))) /\
    (forall f, (forall idx, within sh idx -> f <> den idx) -> c' f = c f) /\
    shows (py_get ab kd d m' nm) sh (fun idx => c' (den idx)) /\
    (forall j nm' sh' den', nth_error (attributes kd) j = Some (nm', sh', den') -> nm' <> nm ->
       shows (py_get ab kd d m' nm') sh' (fun idx => c (den' idx))).
Proof. exact write_read. Qed.
Print Assumptions C41_write_then_read.
(** An array with a negative stride (a reversed view). *)
Example C41_write_then_read_ex :
  let arr := mkND [2] [-8]%Z 1000%Z (fun o => if Z.eqb o 1000 then Some (CD (d_of_Z 7)) else if Z.eqb o 992 then Some (CD (d_of_Z 9)) else None) in
  nd_ok arr /\ exists d m' a, wrapstate ab0 (KMoment 2) = Some (Some d) /\
    py_set ab0 (KMoment 2) d m0 "IonZ" (VArray arr) = (m', POk) /\
    py_get ab0 (KMoment 2) d m' "IonZ" = PArr a /\ nd_at a [0] = Some (CD (d_of_Z 7)) /\ nd_at a [1] = Some (CD (d_of_Z 9)) /\
    m' BReal 96%Z = Some (CD (d_of_Z 9)) /\ m' BReal 104%Z = Some (CD dzero).
Proof.
  cbv zeta. split.
  - split; [reflexivity|]. intros idx W. cbn [n_shape] in W. win W.
    destruct i as [|[|i]]; [| |lia]; cbn; split; try discriminate; lia.
  - eexists _, _, _. split; [vm_compute; reflexivity|]. split; [vm_compute; reflexivity|]. split; [vm_compute; reflexivity|].
    repeat split.
Qed.

(** So with numbers. *)
Theorem C41_number_write_then_read : forall ab kd d m c i nm den v x,
  abi_ok ab -> populated kd -> wrapstate ab kd = Some (Some d) -> holds ab kd m c ->
  nth_error (attributes kd) i = Some (nm, [], den) -> scalar_value (den []) v = Some x ->
  exists m', py_set ab kd d m nm v = (m', POk) /\ shows (py_get ab kd d m' nm) [] (fun _ => x) /\
    (forall j nm' sh' den', nth_error (attributes kd) j = Some (nm', sh', den') -> nm' <> nm ->
       shows (py_get ab kd d m' nm') sh' (fun idx => c (den' idx))).
Proof. exact write_read_number. Qed.
Print Assumptions C41_number_write_then_read.
Example C41_number_write_then_read_ex : scalar_value FNext (VInt 5) = Some (CN 5) /\
  scalar_value (FRef PW) (VFloat (d_of_Z 5)) = Some (CD (d_of_Z 5)) /\ scalar_value FPos (VInt 3) = Some (CD (d_of_Z 3)) /\
  exists m', py_set ab0 KVector d_lin m0 "next_elem" (VInt 5) = (m', POk) /\ py_get ab0 KVector d_lin m' "next_elem" = PInt 5.
Proof. repeat split. eexists. split; reflexivity. Qed.

(** Another shape, or no number, is refused, and nothing changes. *)
Theorem C41_mismatch_refused : forall ab kd d m i nm sh den v, populated kd -> wrapstate ab kd = Some (Some d) ->
  nth_error (attributes kd) i = Some (nm, sh, den) -> ill sh v -> py_set ab kd d m nm v = (m, PErr PyValueError).
Proof. exact set_refused. Qed.
Print Assumptions C41_mismatch_refused.
Example C41_mismatch_refused_ex : ill [6] (VArray (mkND [7] [8]%Z 0 (fun _ => Some (CD dzero)))) /\
  ill [6; 6] (VArray (mkND [36] [8]%Z 0 (fun _ => Some (CD dzero)))) /\ ill [] VOther /\ ill [6] (VFloat dzero).
Proof. repeat split; try discriminate; left; discriminate. Qed.

(** Other names are left to the Python object. *)
Theorem C41_other_names : forall ab kd d m nm v, populated kd -> wrapstate ab kd = Some (Some d) ->
  ~ In nm (map (fun t => fst (fst t)) (attributes kd)) -> py_get ab kd d m nm = PGeneric /\ py_set ab kd d m nm v = (m, PGeneric).
Proof. exact unknown_generic. Qed.
Print Assumptions C41_other_names.
Example C41_other_names_ex : ~ In "moment0" (map (fun t => fst (fst t)) (attributes KVector)).
Proof. cbn. intuition discriminate. Qed.

(** next_elem = -1 raises an error, and next_elem is 2^64-1 afterwards. *)
Theorem C41_failed_assignment_refuted : exists ab kd d m c v e m', abi_ok ab /\ populated kd /\ holds ab kd m c /\
  wrapstate ab kd = Some (Some d) /\ py_set ab kd d m "next_elem" v = (m', PErr e) /\
  shows (py_get ab kd d m "next_elem") [] (fun _ => CN 0) /\
  shows (py_get ab kd d m' "next_elem") [] (fun _ => CN 18446744073709551615).
Proof. exact C41_failed_assignment_refuted_w. Qed.
Print Assumptions C41_failed_assignment_refuted.
(** pos = 10**400 raises an error, and pos is -1 afterwards. *)
Theorem C41_large_integer_refuted : exists ab kd d m c v e m', abi_ok ab /\ populated kd /\ holds ab kd m c /\
  wrapstate ab kd = Some (Some d) /\ py_set ab kd d m "pos" v = (m', PErr e) /\
  shows (py_get ab kd d m "pos") [] (fun _ => CD dzero) /\
  shows (py_get ab kd d m' "pos") [] (fun _ => CD (d_of_Z (-1))).
Proof. exact C41_large_integer_refuted_w. Qed.
Print Assumptions C41_large_integer_refuted.
(** Two different floats assigned to next_elem give the same state: what is read is not
    what was assigned. *)
Theorem C41_float_to_integer_refuted : exists ab kd d m c x y m', abi_ok ab /\ populated kd /\ holds ab kd m c /\
  wrapstate ab kd = Some (Some d) /\ x <> y /\ py_set ab kd d m "next_elem" (VFloat x) = (m', POk) /\
  py_set ab kd d m "next_elem" (VFloat y) = (m', POk).
Proof. exact C41_float_to_integer_refuted_w. Qed.
Print Assumptions C41_float_to_integer_refuted.
(** Deleting any attribute is undefined behaviour. *)
Theorem C41_deletion_refuted : exists ab kd d m c, abi_ok ab /\ populated kd /\ holds ab kd m c /\
  wrapstate ab kd = Some (Some d) /\ forall nm, In nm (map (fun t => fst (fst t)) (attributes kd)) ->
  snd (py_set ab kd d m nm VNull) = PUndef.
Proof. exact C41_deletion_refuted_w. Qed.
Print Assumptions C41_deletion_refuted.

(** A vector, a matrix or a state of moments with one charge state is recorded: every
    attribute, one row for each appended state, in order. *)
Theorem C42_each_recorded : forall ab kd hist, abi_ok ab -> simple kd -> hist <> [] ->
  Forall (fun h => holds ab kd (fst h) (snd h)) hist ->
  exists l, h5_run ab (map (fun h => (kd, fst h)) hist) [] = Some l /\
    forall i nm sh den, nth_error (attributes kd) i = Some (nm, sh, den) ->
      exists h, nth_error l i = Some h /\ records (map snd hist) nm sh den h.
Proof. exact each_recorded. Qed.
Print Assumptions C42_each_recorded.
Example C42_each_recorded_ex : Forall (fun h => holds ab0 (KMoment 1) (fst h) (snd h)) [(m0, c0); (m0, c0)] /\
  exists l h, h5_run ab0 [(KMoment 1, m0); (KMoment 1, m0)] [] = Some l /\ nth_error l 17 = Some h /\ d_ext (h_dset h) = [2; 1].
Proof.
  split; [repeat constructor; apply m0_holds; intros n E; injection E as <-; lia|].
  eexists _, _. split; [vm_compute; reflexivity|]. split; reflexivity.
Qed.

(** With any numbers of charge states, changing or not, attributes that lie side by side
    in memory and keep their shape are recorded. *)
Theorem C42_packed_recorded : forall ab hist i nm sh den l, hist <> [] -> Forall (hist_ok ab) hist ->
  (forall h, In h hist -> nth_error (attributes (fst (fst h))) i = Some (nm, sh, den)) -> packed ab sh den ->
  h5_run ab (map fst hist) [] = Some l -> exists h, nth_error l i = Some h /\ records (map snd hist) nm sh den h.
Proof. exact run_records. Qed.
Print Assumptions C42_packed_recorded.
(** The envelope matrix, with two charge states and then one. *)
Example C42_packed_recorded_ex :
  let hist := [(KMoment 2, m0, c0); (KMoment 1, m0, c0)] in
  Forall (hist_ok ab0) hist /\ (forall h, In h hist -> nth_error (attributes (fst (fst h))) 0 = Some ("moment1_env", [7; 7], at2 FEnv1)) /\
  packed ab0 [7; 7] (at2 FEnv1) /\ exists l, h5_run ab0 (map fst hist) [] = Some l.
Proof.
  cbv zeta. split; [|split; [|split]].
  - repeat constructor; cbn; try lia; intros f Hf; apply (m0_holds (KMoment 2)) in Hf || apply (m0_holds (KMoment 1)) in Hf; auto;
      intros n E; injection E as <-; lia.
  - intros h [<-|[<-|[]]]; reflexivity.
  - apply (simple_packed ab0 (KMoment 1) 0 "moment1_env"); reflexivity.
  - eexists. vm_compute. reflexivity.
Qed.

(** With two charge states IonZ is recorded wrongly: the second number is not the second
    charge state's. *)
Theorem C42_charge_states_refuted : exists ab m c l i nm sh den h, abi_ok ab /\ holds ab (KMoment 2) m c /\
  h5_run ab [(KMoment 2, m)] [] = Some l /\ nth_error (attributes (KMoment 2)) i = Some (nm, sh, den) /\
  nth_error l i = Some h /\ nm = "IonZ" /\ ~ records [c] nm sh den h.
Proof. exact C42_charge_states_refuted_w. Qed.
Print Assumptions C42_charge_states_refuted.
(** Appending a state with fewer charge states removes values recorded before. *)
Theorem C42_fewer_charge_states_refuted : exists ab m1 m2 c1 c2 l1 l2 h1 h2 i idx, abi_ok ab /\
  holds ab (KMoment 2) m1 c1 /\ holds ab (KMoment 1) m2 c2 /\
  h5_run ab [(KMoment 2, m1)] [] = Some l1 /\ h5_run ab [(KMoment 2, m1); (KMoment 1, m2)] [] = Some l2 /\
  nth_error l1 i = Some h1 /\ nth_error l2 i = Some h2 /\
  d_val (h_dset h1) idx <> None /\ d_val (h_dset h2) idx = None.
Proof. exact C42_fewer_charge_states_refuted_w. Qed.
Print Assumptions C42_fewer_charge_states_refuted.
