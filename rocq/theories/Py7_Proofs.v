(** glps_parse, glps_print, Machine.conf and Machine.allocState without arguments. *)
From Coq Require Import List String Ascii NArith ZArith Bool Lia.
From Verif Require Import SMap Dbl Config_Model Config_Spec Glps_Model Machine_Model Print_Model Linear_Model Moment_Model
  SMap_Proofs Config2_Proofs Py_Model Py_Spec Py_Proofs Py2_Proofs Py3_Proofs Py5_Proofs.
Import ListNotations.
Open Scope string_scope.
Open Scope list_scope.

Lemma cstr_bytes l : map N_of_ascii (cstr l) = before_nul (map N_of_ascii l).
Proof. induction l as [|a l IH]; cbn; [reflexivity|]. destruct (N_of_ascii a =? 0)%N; cbn; congruence. Qed.
Lemma str_shown s p : to_str s = Ret p -> shown (TStr s) p.
Proof. intros H. apply to_str_inv in H as (u & -> & H). constructor. unfold bytes. rewrite <- cstr_bytes. apply utf8_text, H. Qed.
Lemma items_shown m : (forall k x, In (k, x) m -> forall p, to_python x = Ret p -> shown x p) ->
  forall l, conf_items m = Ret l -> Forall2 shown_entry m l.
Proof.
  induction m as [|[k x] m IH]; intros HX l H; cbn [conf_items] in H.
  - injection H as <-. constructor.
  - apply pbind_ret in H as (p & Hp & H). apply pbind_ret in H as (q & Hq & H). apply pbind_ret in H as (ps & Hps & H). injection H as <-.
    constructor; [constructor; [apply str_shown, Hq|apply (HX k x); [left; reflexivity|exact Hp]]|].
    apply IH; [|exact Hps]. intros k' x' I. apply (HX k' x'). right. exact I.
Qed.
Fixpoint depth (v : tval) : nat :=
  match v with
  | TCfgs l => Datatypes.S ((fix each (l : list tcfg) : nat :=
      match l with
      | [] => O
      | TCfg own _ :: l' => Nat.max ((fix ents (m : smap tval) : nat := match m with [] => O | (_, x) :: m' => Nat.max (depth x) (ents m') end) own) (each l')
      end) l)
  | _ => O
  end.
Lemma python_shown_aux n : forall v p, depth v <= n -> to_python v = Ret p -> shown v p.
Proof.
  induction n as [|n IH]; intros v p D H; destruct v as [x|l|s|l]; try (cbn [depth] in D; lia);
    try (injection H as <-; constructor); try (apply str_shown; exact H).
  rewrite to_python_cfgs in H. apply pbind_ret in H as (ps & Hps & H). injection H as <-. constructor.
  cbn [depth] in D. apply le_S_n in D. revert ps Hps D. induction l as [|[own outer] l IHl]; intros ps Hps D; cbn [conf_list] in Hps.
  - injection Hps as <-. constructor.
  - apply pbind_ret in Hps as (its & Hi & Hps). apply pbind_ret in Hps as (qs & Hq & Hps). injection Hps as <-.
    apply Nat.max_lub_iff in D as [E D]. constructor; [|apply IHl; [exact Hq|exact D]]. constructor. apply items_shown; [|exact Hi].
    intros k x I q Hx. apply IH; [|exact Hx].
    clear -E I.
    induction own as [|[k' x'] own IHo]; [destruct I|]. apply Nat.max_lub_iff in E as [E1 E2]. destruct I as [I|I]; [injection I as <- <-; exact E1|]. apply IHo; [exact E2|exact I].
Qed.
Lemma python_shown v p : to_python v = Ret p -> shown v p.
Proof. apply (python_shown_aux (depth v)). lia. Qed.
Lemma flat_shown c l : ssorted (town c) -> conf2dict (tflatten c) = Ret l -> shows_all c l.
Proof.
  intros S H. exists (smerge (town c) (touter c)). split; [apply smerge_sorted, S|]. split; [intros n; rewrite sfind_smerge; reflexivity|].
  apply items_shown; [|exact H]. intros k x _ p. apply python_shown.
Qed.

Section Mach.
Context {D B : Type}.
Theorem conf_shown (m : @machine D B) idx l : py_conf m idx = Ret l ->
  exists c, match idx with None => c = m_conf m | Some i => (0 <= i)%Z /\ kept_conf m (Z.to_nat i) = Some c end /\ (ssorted (town c) -> shows_all c l).
Proof.
  intros H. unfold py_conf in H. destruct idx as [i|].
  - destruct (Z.ltb i 0) eqn:Z0; [discriminate|]. apply Z.ltb_ge in Z0. unfold slot in H. 
    destruct (N.ltb (Z.to_N i) (N.of_nat (List.length (m_elems m)))); [|discriminate].
    destruct (nth_error (m_elems m) (N.to_nat (Z.to_N i))) as [e|] eqn:E; [|discriminate].
    exists (eb_conf (el_base e)). split; [split; [exact Z0|]|intros S; apply flat_shown; auto].
    unfold kept_conf. replace (Z.to_nat i) with (N.to_nat (Z.to_N i)) by lia. rewrite E. reflexivity.
  - exists (m_conf m). split; [reflexivity|]. intros S. apply flat_shown; auto.
Qed.
Theorem conf_refused (m : @machine D B) i : (i < 0)%Z \/ kept_conf m (Z.to_nat i) = None -> py_conf m (Some i) = Raise.
Proof.
  intros H. unfold py_conf. destruct (Z.ltb i 0) eqn:Z0; [reflexivity|]. apply Z.ltb_ge in Z0. destruct H as [H|H]; [lia|].
  unfold kept_conf in H. replace (Z.to_nat i) with (N.to_nat (Z.to_N i)) in H by lia. unfold slot.
  destruct (N.ltb _ _); [|reflexivity]. destruct (nth_error (m_elems m) _); [discriminate|reflexivity].
Qed.
Theorem alloc_default (m : @machine D B) inh : state_by_values m -> py_alloc m None inh = py_alloc m (Some []) true.
Proof.
  intros V. cbn. unfold alloc_state. rewrite (V (m_conf m) (tpush (m_conf m))); [reflexivity|].
  intros n. unfold tpush, tfind, tflatten. cbn [town touter sfind]. rewrite sfind_smerge. reflexivity.
Qed.
Lemma built_info (reg : @registry D B) c m : new_machine reg c = Ok m -> exists t, sfind t reg = Some (m_info m).
Proof.
  unfold new_machine. destruct (get_str c "sim_type") as [t|]; [|discriminate]. cbn [rbind]. destruct (sfind t reg) as [i|] eqn:S; [|discriminate].
  destruct (get_cfgs c "elements"); [|discriminate]. cbn [rbind]. destruct (build_loop _ _ _ _ _ _) as [[[? ?] ?]|]; [|discriminate]. cbn [rbind].
  intros H. injection H as <-. exists t. exact S.
Qed.
End Mach.
Lemma get_vec_ext c c' n : tfind n c = tfind n c' -> get_vec c n = get_vec c' n.
Proof. intros E. unfold get_vec. rewrite E. reflexivity. Qed.
Lemma vector_by_values num c m : new_machine (vector_reg num) c = Ok m -> state_by_values m.
Proof.
  intros H. apply built_info in H as (t & H). cbn in H. destruct (String.eqb t "Vector"); [|discriminate]. injection H as H. unfold state_by_values. rewrite <- H. cbn [lin_info si_build].
  intros a b E. unfold new_vector. rewrite (get_vec_ext a b _ (E _)). reflexivity.
Qed.

Theorem parse_raises w mem conf e :
  conf = None \/ (e <> PyNone /\ (forall d, e <> PyDict d)) \/ (conf = Some (PyFile None) /\ e = PyNone) -> py_parse w mem conf e = Raise.
Proof.
  intros [->|[[H1 H2]|[-> ->]]]; unfold py_parse, parse2config; cbn [pbind]; try reflexivity.
  destruct conf; [|reflexivity]. destruct e; try reflexivity; [contradiction|edestruct H2; reflexivity].
Qed.
Theorem printed inp : match py_print inp with
  | Ret p => exists l c s, holds inp l /\ list2conf l = Ret c /\ glps_print c = Ok s /\ shown (TStr s) p
  | Raise => (forall l, ~ holds inp l) \/ exists l, holds inp l /\
      (~ convertible_items 3 l \/ exists c, list2conf l = Ret c /\
         ((exists e, glps_print c = Throw e) \/ exists s, glps_print c = Ok s /\ forall u, ~ text u (before_nul (bytes s))))
  | Crash => False
  end.
Proof.
  unfold py_print. destruct (entries inp) as [l|] eqn:E.
  - apply entries_holds in E. destruct (list2conf l) as [c| |] eqn:L; cbn [pbind].
    + destruct (glps_print c) as [s|x] eqn:P.
      * destruct (to_str s) as [p| |] eqn:T.
        -- exists l, c, s. auto using str_shown.
        -- right. exists l. split; [exact E|]. right. exists c. split; [exact L|]. right. exists s. split; [exact P|].
           intros u H. unfold bytes in H. rewrite <- cstr_bytes in H. apply text_utf8 in H. rewrite map_byte_val in H. apply un_utf8 in H.
           unfold to_str in T. rewrite H in T. discriminate.
        -- unfold to_str in T. destruct (unutf8 _); discriminate.
      * right. exists l. split; [exact E|]. right. exists c. split; [exact L|]. left. eauto.
    + right. exists l. split; [exact E|]. left. intros C. apply accepted in C as (c & C). congruence.
    + exact (never_crash _ _ _ L).
  - left. intros l H. apply entries_holds in H. congruence.
Qed.
Lemma matrix_by_values num c m : new_machine (matrix_reg num) c = Ok m -> state_by_values m.
Proof.
  intros H. apply built_info in H as (t & H). cbn in H. destruct (String.eqb t "TransferMatrix"); [|discriminate]. injection H as H. unfold state_by_values. rewrite <- H. cbn [lin_info si_build].
  intros a b E. unfold new_matrix. rewrite (get_vec_ext a b _ (E _)). reflexivity.
Qed.
Lemma moment_by_values w c m : new_machine (moment_reg w) c = Ok m -> state_by_values m.
Proof.
  intros H. apply built_info in H as (t & H). cbn [moment_reg sfind] in H. destruct (String.eqb t "MomentMatrix"); [|discriminate].
  injection H as H. unfold state_by_values. rewrite <- H. cbn [mom_info si_build].
  intros a b E.
  assert (N : forall n d, num_def w a n d = num_def w b n d) by (intros n d; unfold num_def; rewrite (E n); reflexivity).
  assert (T : forall n d, get_str_def a n d = get_str_def b n d) by (intros n d; unfold get_str_def; rewrite (E n); reflexivity).
  assert (V : forall n, get_vec a n = get_vec b n) by (intros n; apply get_vec_ext, E).
  assert (L : forall k n, load_storage k a n = load_storage k b n) by (intros k n; unfold load_storage; rewrite V; reflexivity).
  assert (C : forall vn mn zqs ref k, new_cells w a vn mn ref k zqs = new_cells w b vn mn ref k zqs).
  { intros vn mn. induction zqs as [|[z q] zqs IH]; intros ref k; [reflexivity|]. cbn [new_cells]. unfold new_cell. rewrite !L.
    destruct (load_storage _ _ _); [|reflexivity]. cbn [rbind]. destruct (load_storage _ _ _); [|reflexivity]. cbn [rbind]. rewrite IH. reflexivity. }
  unfold new_state. rewrite !E, !N, !T. cbv zeta. destruct (match tfind "cstate" b with Some (TNum x) => Some x | _ => None end) as [x|].
  - destruct (cast_size x) as [ic|]; [|reflexivity]. cbn [rbind]. destruct (match tfind "IonChargeStates" b with Some (TVec l) => Some l | _ => None end) as [[|z0 ics]|]; try reflexivity.
    destruct (N.leb _ _); [reflexivity|]. rewrite ?V. destruct (get_vec b "NCharge") as [q|]; [|reflexivity]. cbn [rbind]. destruct (negb _); [reflexivity|]. rewrite ?N, ?C. reflexivity.
  - cbn [rbind]. destruct (match tfind "IonChargeStates" b with Some (TVec l) => Some l | _ => None end) as [[|z0 ics]|]; try reflexivity.
    + destruct (N.leb _ _); [reflexivity|]. rewrite ?V. destruct (get_vec b "NCharge") as [q|]; [|reflexivity]. cbn [rbind]. destruct (negb _); [reflexivity|]. rewrite ?N, ?C. reflexivity.
    + rewrite ?N, ?L. reflexivity.
Qed.
