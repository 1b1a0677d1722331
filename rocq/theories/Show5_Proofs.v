(** The text of machines made from Configs, of reconfigured ones, traces; what is
    not shown. *)
From Coq Require Import List String Ascii Bool NArith ZArith Lia.
From Coq Require Import Floats.SpecFloat.
From Verif Require Import SMap Dbl Config_Spec Lexer_Model Machine_Model Machine_Spec Machine_Proofs Print_Model Log_Model
  Show_Model Show_Spec Show_Proofs Show2_Proofs Show3_Proofs.
Import ListNotations.
Open Scope string_scope.
Open Scope list_scope.

Section S.
Context {D B : Type}.
Variable own : elem D B -> extra.
Variable view : B -> body.
Variable level : nat -> option Z.

Lemma F2_combine i ls (els : list (elem D B)) es : forall k, List.length els = List.length es ->
  Forall2 (fun l e => element_line l (el_index e) (el_name e) (el_tname e)) ls els ->
  (forall j ec e, nth_error es j = Some ec -> nth_error els j = Some e -> describes i (k + j) ec e) ->
  Forall2 (fun l p => exists n t, get_str (snd p) "name" = Ok n /\ get_str (snd p) "type" = Ok t /\
                                  element_line l (N.of_nat (fst p)) n t) ls (combine (seq k (List.length es)) es).
Proof.
  revert ls els. induction es as [|ec es IH]; intros ls els k L F H.
  - destruct els; [|discriminate]. inversion F. constructor.
  - destruct els as [|e els]; [discriminate|]. inversion F as [|l ? ls' ? Hl F']; subst. cbn [List.length seq combine]. constructor.
    + destruct (H 0 ec e eq_refl eq_refl) as (c & nm & d & Ht & _ & Hn & _ & ->). exists nm, (cl_tname c). cbn [fst snd].
      unfold get_str. rewrite Hn, Ht. split; [reflexivity|]. split; [reflexivity|]. rewrite Nat.add_0_r in Hl. exact Hl.
    + apply IH with els; [injection L; auto|exact F'|]. intros j ec' e' E1 E2. replace (S k + j) with (k + S j) by lia. apply H; assumption.
Qed.
Lemma new_plain r c (m : machine D B) es : new_machine r c = Ok m -> get_cfgs c "elements" = Ok es ->
  (forall t, get_str c "sim_type" = Ok t -> one_line t) ->
  (forall ec n, In ec es -> get_str ec "name" = Ok n \/ get_str ec "type" = Ok n -> one_line n) ->
  one_line (m_simtype m) /\ Forall plain (m_elems m).
Proof.
  intros H He Hs Hn. destruct (new_machine_ok r c m H) as (t & i & es' & H1 & H2 & H3 & H4 & H5 & H6 & H7 & H8 & H9 & H10).
  unfold get_cfgs in He. rewrite H3 in He. injection He as ->. split.
  - rewrite H4. apply Hs. unfold get_str. rewrite H1. reflexivity.
  - apply Forall_forall. intros e I. apply In_nth_error in I as (j & Ej).
    destruct (nth_error es j) as [ec|] eqn:Ec.
    2: { apply nth_error_None in Ec. assert (j < List.length (m_elems m))%nat by (apply nth_error_Some; rewrite Ej; discriminate). lia. }
    destruct (H10 j ec e Ec Ej) as (k & nm & d & Ht & _ & Hm & _ & ->). apply nth_error_In in Ec.
    split; apply (Hn ec _ Ec); unfold get_str; cbn; rewrite ?Hm, ?Ht; auto.
Qed.
Lemma new_text r c (m : machine D B) es f : new_machine r c = Ok m -> get_cfgs c "elements" = Ok es ->
  (forall t, get_str c "sim_type" = Ok t -> one_line t) ->
  (forall ec n, In ec es -> get_str ec "name" = Ok n \/ get_str ec "type" = Ok n -> one_line n) ->
  (exists t d ls, get_str c "sim_type" = Ok t /\ reads d (N.of_nat (List.length es)) /\
     lines (fst (show_machine own m f)) = (chars "sim_type: " ++ chars t) :: (chars "#Elements: " ++ d) :: ls) /\
  Forall2 (fun l p => exists n t, get_str (snd p) "name" = Ok n /\ get_str (snd p) "type" = Ok t /\
                                  element_line l (N.of_nat (fst p)) n t)
    (lines_with "Element " (fst (show_machine own m f))) (combine (seq 0 (List.length es)) es).
Proof.
  intros H He Hs Hn. destruct (new_plain r c m es H He Hs Hn) as [P1 P2].
  destruct (new_machine_ok r c m H) as (t & i & es' & H1 & H2 & H3 & H4 & H5 & H6 & H7 & H8 & H9 & H10).
  unfold get_cfgs in He. rewrite H3 in He. injection He as ->. split.
  - destruct (machine_lines own m f P1) as (d & ls & E & R). rewrite H4 in E. rewrite H7 in R. exists t, d, ls.
    unfold get_str. rewrite H1. auto.
  - apply F2_combine with i (m_elems m); [exact H7|apply machine_elements; assumption|exact H10].
Qed.

Lemma machine_lines_with (m : machine D B) f : one_line (m_simtype m) -> Forall plain (m_elems m) ->
  lines_with "Element " (fst (show_machine own m f)) = map elem_head (m_elems m).
Proof.
  intros S F. unfold lines_with. rewrite <- (app_nil_r (fst (show_machine own m f))). change (filter ?p (lines ?t)) with (lw (chars "Element ") t).
  rewrite machine_lw, heads_el by (assumption || reflexivity). cbn. apply app_nil_r.
Qed.
Lemma map_update_any {X Y} (g : X -> Y) l n a : map g (update l n a) = update (map g l) n (g a).
Proof. revert n. induction l as [|x l IH]; intros [|n]; simpl; try reflexivity. rewrite IH. reflexivity. Qed.
Lemma Forall_update {X} (P : X -> Prop) l n a : Forall P l -> P a -> Forall P (update l n a).
Proof. intros F Pa. revert n. induction F as [|x l Px F IH]; intros [|n]; simpl; constructor; auto. Qed.
Lemma reconf_text (m m' : machine D B) idx c n o f : one_line (m_simtype m) -> (forall e, In e (m_elems m) -> one_line (el_name e) /\ one_line (el_tname e)) ->
  reconfigure m idx c = (m', Ok tt) -> get_str c "name" = Ok n -> one_line n -> nth_error (m_elems m) (N.to_nat idx) = Some o ->
  exists l, lines_with "Element " (fst (show_machine own m' f)) = update (lines_with "Element " (fst (show_machine own m f))) (N.to_nat idx) l /\
    element_line l idx n (el_tname o).
Proof.
  intros S F H Hn N O. assert (F' : Forall plain (m_elems m)) by (apply Forall_forall; exact F). clear F. rename F' into F.
  unfold reconfigure in H. destruct (slot (m_elems m) idx) as [o'|] eqn:Sl; [|discriminate].
  apply slot_nth in Sl. rewrite O in Sl. injection Sl as <-.
  destruct (get_str c "type") as [ty|]; [|discriminate]. destruct (sfind ty _) as [k|]; [|discriminate].
  destruct (rebuild k o c idx) as [e|] eqn:R; [|discriminate]. injection H as <-.
  unfold rebuild, build, base_ctor in R. rewrite Hn in R. cbn [rbind] in R. destruct (cl_ctor k c) as [d|]; [|discriminate]. cbn [rbind] in R.
  destruct (Nat.eqb _ _); [|discriminate]. injection R as <-.
  set (e := with_index _ idx).
  assert (P : plain e). { split; [exact N|]. rewrite Forall_forall in F. apply (F o). apply nth_error_In with (N.to_nat idx). exact O. }
  exists (elem_head e). rewrite !machine_lines_with; try assumption.
  - cbn [m_elems with_elems]. split; [apply map_update_any|]. exists (size_text idx). split; [apply size_reads|reflexivity].
  - cbn [m_elems with_elems]. apply Forall_update; assumption.
Qed.

(** Traces *)
Lemma tags_inv (els : list (elem D B)) k i name : nth_error (tags els) k = Some (i, name) ->
  exists e, nth_error els k = Some e /\ el_index e = i /\ el_name e = name.
Proof.
  unfold tags. rewrite nth_error_map. destruct (nth_error els k) as [e|]; [|discriminate]. cbn. intros E. injection E as <- <-. eauto.
Qed.
Lemma traced_to (P : fmt -> Prop) (m : machine D B) l ev : traced view P (m_elems m) l ev ->
  traced_as (fun b r => exists f, P f /\ r = first_line (fst (show_body (view b) 0 f))) m l ev.
Proof.
  intros (i & name & f & Pf & T & L). apply tags_inv in T as (e & E & _ & <-). exists e. eexists. split; [exact E|]. split; [|exact L].
  exists f. split; [exact Pf|reflexivity].
Qed.
Lemma viewed_to (m : machine D B) l ev : viewed view level (m_elems m) l ev ->
  viewed_as (fun o b r => exists d f, level o = Some d /\ r = first_line (fst (show_body (view b) d f))) m l ev.
Proof.
  intros (i & name & f & d & T & L & V). apply tags_inv in T as (e & E & <- & <-). exists e. eexists. split; [exact E|]. split; [|exact V].
  exists d, f. split; [exact L|reflexivity].
Qed.
Lemma trace_all (P : fmt -> Prop) (m : machine D B) st start max f p t f' :
  (forall o d b f, level o = Some d -> P f -> P (snd (show_body (view b) d f))) -> P f ->
  (forall e, In e (m_elems m) -> one_line (el_name e)) ->
  out_propagate view level true m st start max f = Some (p, (t, f')) ->
  exists q, propagate (watched m) st start max = Some q /\
    Forall2 (traced_as (fun b r => exists f, P f /\ r = first_line (fst (show_body (view b) 0 f))) m) (lines_with "After [" t) (pr_events q).
Proof.
  intros HP Pf N H. unfold out_propagate in H. unfold propagate, watched. cbn [m_elems with_elems]. rewrite map_length.
  destruct (Z.eqb max INT_MIN).
  - destruct (N.ltb _ _); [discriminate|]. injection H as <- <- <-. eexists. split; [reflexivity|]. constructor.
  - injection H as H. eexists. split; [reflexivity|].
    assert (N' : Forall (fun t => one_line (snd t)) (tags (m_elems m))).
    { unfold tags. rewrite Forall_map. apply Forall_forall. exact N. }
    pose proof (loop_lines view level P HP true (Z.abs_nat max) (m_elems m) (mkSt start (Z.ltb max 0) (st_body st)) [] [] f [] Pf N') as X.
    rewrite H in X. destruct X as (news & neww & _ & E2 & (tl1 & L1 & F1) & _). cbn [List.app] in E2. rewrite E2.
    change (lw (chars "After [") []) with (@nil (list ascii)) in L1. rewrite !app_nil_r in L1.
    unfold lines_with. change (filter ?q (lines t)) with (lw (chars "After [") t). rewrite L1.
    eapply F2_impl; [|exact F1]. apply traced_to.
Qed.
Lemma trace_plain (m : machine D B) st start max f p t f' : (forall o, level o = None) ->
  (forall e, In e (m_elems m) -> one_line (el_name e)) ->
  out_propagate view level true m st start max f = Some (p, (t, f')) ->
  exists q, propagate (watched m) st start max = Some q /\
    Forall2 (traced_as (fun b r => r = first_line (fst (show_body (view b) 0 f))) m) (lines_with "After [" t) (pr_events q).
Proof.
  intros L N H. destruct (trace_all (fun g => g = f) m st start max f p t f') as (q & Q & F); auto.
  - intros o d b g E. rewrite L in E. discriminate.
  - exists q. split; [exact Q|]. eapply F2_impl; [|exact F]. intros l ev (e & r & E & (g & -> & R) & X). exists e, r. auto.
Qed.
Lemma txt_all (m : machine D B) st start max f p t f' d : (1 <= d)%Z -> (forall o, level o = Some d) -> (forall b, exists s, view b = BMom s) ->
  out_propagate view level false m st start max f = Some (p, (t, f')) ->
  exists entries, t = List.concat entries /\
    Forall2 (fun text ev => exists e i, nth_error (m_elems m) (ev_slot ev) = Some e /\ reads i (el_index e) /\
       text = chars "After Element [" ++ i ++ chars "] " ++ chars (el_name e) ++ chars " " ++
              fst (show_body (view (st_body (ev_state ev))) d Default) ++ [newline]) entries (pr_events p).
Proof.
  intros Hd Hl Hv H. unfold out_propagate in H. destruct (Z.eqb max INT_MIN).
  - destruct (N.ltb _ _); [discriminate|]. injection H as <- <- <-. exists []. split; [reflexivity|constructor].
  - injection H as H. pose proof (loop_txt view level d (Z.abs_nat max) Hd Hl Hv (m_elems m) (mkSt start (Z.ltb max 0) (st_body st)) [] f) as X.
    pose proof (out_silent view level false (Z.abs_nat max) (m_elems m) (mkSt start (Z.ltb max 0) (st_body st)) [] f) as Y.
    rewrite H in X, Y. destruct X as (news & E & ->). cbn [List.app] in E. cbn [fst] in Y. subst news.
    exists (map (view_entry view d (m_elems m)) (pr_events p)). rewrite flat_map_concat_map. split; [reflexivity|].
    assert (A : Forall (fun ev => exists e, nth_error (m_elems m) (ev_slot ev) = Some e) (pr_events p)).
    { rewrite Y. assert (G : forall k (els : list (elem D B)) st evs, List.length els = List.length (m_elems m) ->
        Forall (fun ev : event B => exists e, nth_error (m_elems m) (ev_slot ev) = Some e) evs ->
        Forall (fun ev => exists e, nth_error (m_elems m) (ev_slot ev) = Some e) (pr_events (prop_loop k els st evs))).
      { clear. induction k as [|k IH]; intros els st evs L F; [exact F|]. cbn [prop_loop].
        destruct (slot els (st_next st)) as [e|] eqn:Sl; [|exact F]. apply slot_nth in Sl.
        destruct (cl_advance _ _ _ _) as [d [st2|x]]; [|exact F]. apply IH; [rewrite update_length; exact L|].
        destruct (el_obs e); [|exact F]. apply Forall_app. split; [exact F|]. constructor; [|constructor]. cbn [ev_slot].
        destruct (nth_error (m_elems m) (N.to_nat (st_next st))) as [e'|] eqn:E; [eauto|]. apply nth_error_None in E.
        assert (N.to_nat (st_next st) < List.length els)%nat by (apply nth_error_Some; rewrite Sl; discriminate). lia. }
      apply G; [reflexivity|constructor]. }
    clear Y H Hl. induction A as [|ev evs (e & E) A IH]; cbn [map]; constructor; [|exact IH].
    exists e, (size_text (el_index e)). split; [exact E|]. split; [apply size_reads|].
    unfold view_entry. rewrite (tags_nth (m_elems m) (ev_slot ev) e E). unfold view_head. rewrite <- !app_assoc. reflexivity.
Qed.
Lemma tool_all verb (m : machine D B) st max out :
  one_line (m_simtype m) -> (forall e, In e (m_elems m) -> one_line (el_name e) /\ one_line (el_tname e)) ->
  tool_out own view level verb m st max = Some out ->
  exists p q, propagate m st 0 max = Some p /\ propagate (watched m) st 0 max = Some q /\
    (if verb then Forall2 (fun l e => element_line l (el_index e) (el_name e) (el_tname e)) (lines_with "Element " out) (m_elems m)
     else lines_with "Element " out = []) /\
    (if verb then Forall2 (traced_as (fun b r => exists f, r = first_line (fst (show_body (view b) 0 f))) m) (lines_with "After [" out) (pr_events q)
     else lines_with "After [" out = []) /\
    Forall2 (viewed_as (fun o b r => exists d f, level o = Some d /\ r = first_line (fst (show_body (view b) d f))) m)
      (lines_with "After Element [" out) (filter (fun ev => match level (ev_obs ev) with Some _ => true | None => false end) (pr_events p)).
Proof.
  intros S F H. assert (F' : Forall plain (m_elems m)) by (apply Forall_forall; exact F).
  destruct (tool_lines own view level verb m st max out S F' H) as (p & q & P & Q & A & T & V). exists p, q.
  split; [exact P|]. split; [exact Q|]. split; [exact A|]. split.
  - destruct verb; [|exact T]. eapply F2_impl; [|exact T]. intros l ev X. apply traced_to in X as (e & r & E & (f & _ & X) & L). exists e, r. eauto.
  - eapply F2_impl; [|exact V]. apply viewed_to.
Qed.
End S.

(** ** A small simulation: elements that set the state to what their Config says *)
Definition num1 (x : double) : list double := [x].
Definition one_part (x : double) : pview := mkPV x x x x x x x x x x.
Definition one_state (x : double) : mview :=
  mkMV (one_part x) [mkCV (one_part x) [x] [[x]]] [x] [x] [[x]].
Definition push_cls : class double mview :=
  mkCls 0 "push" (fun c => Ok (get_num_def c "x" dzero)) (fun _ d => d)
        (fun _ d st => (d, Ok (mkSt (st_next st) (st_retreat st) (one_state d)))).
Definition stop_cls : class double mview :=
  mkCls 1 "stop" (fun c => Ok dzero) (fun _ d => d) (fun _ d st => (d, Throw RuntimeError)).
Definition reg89 : registry double mview :=
  [("Toy", mkSI (fun _ => Ok (one_state dzero)) [("push", push_cls); ("stop", stop_cls)])].
(** A number whose text is quickly found. *)
Definition minus0 : double := S754_zero true.
Definition el89 (n ty : string) (x : double) : tcfg := TCfg [("name", TStr n); ("type", TStr ty); ("x", TNum x)] [].
Definition conf89 (es : list tcfg) : tcfg := TCfg [("elements", TCfgs es); ("sim_type", TStr "Toy")] [].
Definition none89 : elem double mview -> extra := fun _ => Nothing.

Lemma C89_forged_refuted_w : exists (D B : Type) (r : registry D B) c m own,
  new_machine r c = Ok m /\ List.length (m_elems m) = 1 /\
  List.length (lines_with "Element " (fst (show_machine own m Default))) = 2.
Proof.
  exists double, mview, reg89, (conf89 [el89 ("a (push)" ++ String newline "Element 1: b")%string "push" minus0]).
  eexists. exists none89. split; [vm_compute; reflexivity|]. split; vm_compute; reflexivity.
Qed.
Lemma C89_vector_refuted_w : exists v w : list double, v <> w /\ py_str (BVec v) = [] /\
  (forall l, py_show (BVec v) l = py_show (BVec w) l) /\
  (forall l f, show_body (BVec v) l f = show_body (BVec w) l f) /\ py_str (BMat [v]) <> py_str (BMat [w]).
Proof.
  exists [minus0], [dzero]. split; [discriminate|]. split; [reflexivity|]. split; [reflexivity|]. split; [reflexivity|]. vm_compute. discriminate.
Qed.
Lemma C89_format_refuted_w : exists (D B : Type) (view : B -> body) (m : machine D B) st max p t1 t2 f1 f2,
  out_propagate view (fun _ => None) true m st 0 max Default = Some (p, (t1, f1)) /\
  out_propagate view (fun _ => Some 1%Z) true m st 0 max Default = Some (p, (t2, f2)) /\
  List.length (pr_events p) = 1 /\ lines_with "After [" t1 <> lines_with "After [" t2.
Proof.
  destruct (new_machine reg89 (conf89 [el89 "a" "push" minus0; el89 "b" "push" minus0])) as [m|] eqn:E; [|vm_compute in E; discriminate].
  exists double, mview, BMom, (with_elems m (set_observer (m_elems m) 0 (Some 7))), (mkSt 0 false (one_state dzero)), 2%Z.
  vm_compute in E. injection E as <-. do 5 eexists. split; [vm_compute; reflexivity|]. split; [vm_compute; reflexivity|]. split; [reflexivity|]. vm_compute. discriminate.
Qed.
Lemma C89_python_level_refuted_w : exists b l l', (1 <= l < l')%Z /\ (l' < 2 ^ 64)%Z /\
  (List.length (py_show b l') < List.length (py_show b l))%nat.
Proof.
  exists (BMom (one_state minus0)), 1%Z, (2 ^ 31)%Z. split; [lia|]. split; [lia|]. apply Nat.ltb_lt. vm_compute. reflexivity.
Qed.
