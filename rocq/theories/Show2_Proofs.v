(** The text of machines, of traces and of the txt output. *)
From Coq Require Import List String Ascii Bool NArith ZArith Lia.
From Verif Require Import SMap Dbl Config_Spec Lexer_Model Machine_Model Machine_Spec Machine_Proofs Print_Model Log_Model
  Show_Model Show_Spec Show_Proofs.
Import ListNotations.
Open Scope string_scope.
Open Scope list_scope.

Lemma then_eq (a b : writer) f : (a ;; b) f = (fst (a f) ++ fst (b (snd (a f))), snd (b (snd (a f)))).
Proof. unfold andthen. destruct (a f) as [t f1]. simpl. destruct (b f1). reflexivity. Qed.
Lemma put_then t (b : writer) f : (put t ;; b) f = (t ++ fst (b f), snd (b f)).
Proof. rewrite then_eq. reflexivity. Qed.

(** ** Lines with a heading *)
Definition lw (p t : list ascii) := filter (starts p) (lines t).
Lemma lines_line h r : ~ In newline h -> lines (h ++ newline :: r) = h :: lines r.
Proof.
  intros H. rewrite lines_nl. destruct (lines_pre h [] H) as (l & ls & E & E2). rewrite app_nil_r in E2. simpl in E.
  injection E as <- <-. rewrite app_nil_r in E2. rewrite E2. reflexivity.
Qed.
Definition heading (p : list ascii) : Prop := loud (match p with c :: _ => c | [] => zero end) = true.
Lemma lw_quiet p y r : heading p -> quiet y -> lw p (y ++ newline :: r) = lw p r.
Proof. intros H Q. unfold lw. rewrite lines_nl, filter_app. destruct (quiet_lines p true y Q H) as [_ ->]; reflexivity. Qed.
Lemma lw_last p y : heading p -> quiet y -> lw p y = [].
Proof. intros H Q. unfold lw. destruct (quiet_lines p true y Q H) as [_ ->]; reflexivity. Qed.
(** A heading, quiet text and a line end *)
Lemma lw_record p h y r : heading p -> ~ In newline h -> quiet y ->
  lw p (h ++ y ++ newline :: r) = (if starts p (h ++ hd [] (lines y)) then [h ++ hd [] (lines y)] else []) ++ lw p r.
Proof.
  intros H N Q. unfold lw. replace (h ++ y ++ newline :: r) with ((h ++ y) ++ newline :: r) by (rewrite <- app_assoc; reflexivity). rewrite lines_nl, filter_app. f_equal.
  destruct (lines_pre h y N) as (l & ls & E & ->). rewrite E. cbn [hd filter].
  destruct (quiet_lines p true y Q H) as [T _]. rewrite E in T. cbn [tl] in T. rewrite T. destruct (starts p (h ++ l)); reflexivity.
Qed.
Lemma starts_app p t : starts p (p ++ t) = true.
Proof. induction p as [|c p IH]; simpl; [reflexivity|]. rewrite Ascii.eqb_refl. exact IH. Qed.
Lemma not_in_app (x : ascii) a b : ~ In x a -> ~ In x b -> ~ In x (a ++ b).
Proof. intros A B I. apply in_app_or in I as [I|I]; auto. Qed.
Lemma literal t : forallb (fun c => negb (Ascii.eqb c newline)) t = true -> ~ In newline t.
Proof. intros H I. rewrite forallb_forall in H. apply H in I. rewrite Ascii.eqb_refl in I. discriminate. Qed.
Ltac noline := repeat apply not_in_app; try (apply literal; reflexivity); try (apply calm_line; apply calm_size); try assumption.

Lemma F2_impl {X Y} (P Q : X -> Y -> Prop) l m : (forall a b, P a b -> Q a b) -> Forall2 P l m -> Forall2 Q l m.
Proof. intros H. induction 1; constructor; auto. Qed.

Lemma moment_keeps s lv f : (lv <= 0)%Z -> snd (show_moment s lv f) = f.
Proof.
  intros H. unfold show_moment. destruct (mv_states s) as [|c l]; [reflexivity|].
  replace (lv <=? 0)%Z with true by (symmetry; apply Z.leb_le; lia). replace (1 <=? lv)%Z with false by (symmetry; apply Z.leb_gt; lia).
  replace (2 <=? lv)%Z with false by (symmetry; apply Z.leb_gt; lia). reflexivity.
Qed.
Lemma body_keeps b f : snd (show_body b 0 f) = f.
Proof. destruct b; cbn [show_body]; try reflexivity. apply moment_keeps. lia. Qed.


(** ** Machines *)
Section S.
Context {D B : Type}.
Variable own : elem D B -> extra.
Variable view : B -> body.
Variable level : nat -> option Z.

Definition elem_head (e : elem D B) : list ascii :=
  chars "Element " ++ size_text (el_index e) ++ chars ": " ++ chars (el_name e) ++ chars " (" ++ chars (el_tname e) ++ chars ")".
Lemma elem_text e f : fst (show_element own e f) = elem_head e ++ newline :: fst (put_extra (own e) f) /\ snd (show_element own e f) = f.
Proof.
  unfold show_element, elem_head, puts, putnl. rewrite !put_then. cbn [fst snd]. split.
  - rewrite <- !app_assoc. reflexivity.
  - destruct (own e); reflexivity.
Qed.
Lemma extra_text x f : fst (put_extra x f) = [] \/ exists y, fst (put_extra x f) = y ++ [newline] /\ quiet y.
Proof.
  destruct x; cbn [put_extra]; [left; reflexivity|right..]; unfold puts, putnl; rewrite put_then, then_eq; cbn [fst snd].
  - exists (txt "Transfer: " ++ fst (putmat m f)). split; [rewrite <- app_assoc; reflexivity|]. apply quiet_app; [reflexivity|apply silent_mat].
  - exists (txt "Initial: " ++ fst (putvec v f)). split; [rewrite <- app_assoc; reflexivity|]. apply quiet_app; [reflexivity|apply silent_vec].
  - exists (txt "Initial: " ++ fst (putmat m f)). split; [rewrite <- app_assoc; reflexivity|]. apply quiet_app; [reflexivity|apply silent_mat].
Qed.
Definition plain (e : elem D B) : Prop := one_line (el_name e) /\ one_line (el_tname e).
Lemma elem_head_line e : plain e -> ~ In newline (elem_head e).
Proof. intros [N T]. unfold elem_head. noline. Qed.
Lemma elems_lines p els f r : heading p -> Forall plain els ->
  lw p (fst (all (show_element own) els f) ++ r) = filter (starts p) (map elem_head els) ++ lw p r.
Proof.
  intros H. revert f. induction els as [|e els IH]; intros f F; [reflexivity|]. inversion F as [|? ? P F']; subst.
  change (all (show_element own) (e :: els)) with (show_element own e ;; all (show_element own) els). rewrite then_eq. cbn [fst snd].
  destruct (elem_text e f) as [-> ->].
  replace (lw p (((elem_head e ++ newline :: fst (put_extra (own e) f)) ++ fst (all (show_element own) els f)) ++ r))
    with (filter (starts p) [elem_head e] ++ lw p (fst (put_extra (own e) f) ++ fst (all (show_element own) els f) ++ r)).
  2: { unfold lw at 2. rewrite <- !app_assoc. cbn [List.app]. rewrite lines_line by (apply elem_head_line; exact P).
       cbn [filter]. unfold lw. destruct (starts p (elem_head e)); reflexivity. }
  replace (lw p (fst (put_extra (own e) f) ++ fst (all (show_element own) els f) ++ r)) with (lw p (fst (all (show_element own) els f) ++ r)).
  2: { destruct (extra_text (own e) f) as [->|(y & -> & Q)]; [reflexivity|].
       rewrite <- !app_assoc. symmetry. exact (lw_quiet p y (fst (all (show_element own) els f) ++ r) H Q). }
  rewrite IH by exact F'. cbn [map filter]. destruct (starts p (elem_head e)); reflexivity.
Qed.

Lemma heads_el els : filter (starts (chars "Element ")) (map elem_head els) = map elem_head els.
Proof. induction els as [|e els IH]; [reflexivity|]. cbn [map filter]. replace (starts _ (elem_head e)) with true; [rewrite IH; reflexivity|]. symmetry. apply starts_app. Qed.
Lemma heads_after q els : filter (starts ("A"%char :: q)) (map elem_head els) = [].
Proof. induction els as [|e els IH]; [reflexivity|]. cbn [map filter]. exact IH. Qed.
Lemma heads_lines els : Forall2 (fun l e => element_line l (el_index e) (el_name e) (el_tname e)) (map elem_head els) els.
Proof.
  induction els as [|e els IH]; constructor; [|exact IH]. exists (size_text (el_index e)). split; [apply size_reads|]. reflexivity.
Qed.
Definition head1 (m : machine D B) := chars "sim_type: " ++ chars (m_simtype m).
Definition head2 (m : machine D B) := chars "#Elements: " ++ size_text (N.of_nat (List.length (m_elems m))).
Lemma machine_text m f : fst (show_machine own m f) = head1 m ++ newline :: head2 m ++ newline :: fst (all (show_element own) (m_elems m) f).
Proof. unfold show_machine, puts, putnl. rewrite !put_then. cbn [fst snd]. unfold head1, head2. rewrite <- !app_assoc. reflexivity. Qed.
Lemma machine_lw p m f r : heading p -> one_line (m_simtype m) -> Forall plain (m_elems m) ->
  lw p (fst (show_machine own m f) ++ r) = filter (starts p) (map elem_head (m_elems m)) ++ lw p r.
Proof.
  intros H S F. rewrite machine_text, <- (elems_lines p (m_elems m) f r H F).
  rewrite <- app_assoc. cbn [List.app]. rewrite <- app_assoc. cbn [List.app].
  unfold lw. rewrite !lines_line by (unfold head1, head2; noline). cbn [filter].
  destruct p as [|c p]; [discriminate|]. unfold head1, head2. cbn [chars list_ascii_of_string List.app starts].
  unfold heading, loud in H. destruct (Ascii.eqb_spec c "A") as [->|]; [reflexivity|]. destruct (Ascii.eqb_spec c "E") as [->|]; [reflexivity|discriminate].
Qed.
Lemma machine_lines m f : one_line (m_simtype m) ->
  exists d ls, lines (fst (show_machine own m f)) = (chars "sim_type: " ++ chars (m_simtype m)) :: (chars "#Elements: " ++ d) :: ls /\
    reads d (N.of_nat (List.length (m_elems m))).
Proof.
  intros S. rewrite machine_text. do 2 eexists. rewrite !lines_line by (unfold head1, head2; noline). split; [reflexivity|]. apply size_reads.
Qed.
Lemma machine_elements m f : one_line (m_simtype m) -> Forall plain (m_elems m) ->
  Forall2 (fun l e => element_line l (el_index e) (el_name e) (el_tname e)) (lines_with "Element " (fst (show_machine own m f))) (m_elems m).
Proof.
  intros S F. unfold lines_with. rewrite <- (app_nil_r (fst (show_machine own m f))). change (filter ?p (lines ?t)) with (lw (chars "Element ") t).
  rewrite machine_lw, heads_el by (assumption || reflexivity). cbn. rewrite app_nil_r. apply heads_lines.
Qed.

(** ** propagate *)
Notation loop := (out_loop view level).
Lemma out_silent tr k : forall (els : list (elem D B)) st evs f, fst (loop tr k els st evs f) = prop_loop k els st evs.
Proof.
  induction k as [|k IH]; intros els st evs f; [reflexivity|]. cbn [out_loop prop_loop].
  destruct (slot els (st_next st)) as [e|]; [|reflexivity].
  destruct (cl_advance _ _ _ _) as [d [st2|x]]; [|reflexivity].
  destruct ((_ ;; _) f) as [t f1]. match goal with |- context [out_loop _ _ ?a ?b ?c ?d' ?e' ?f'] => specialize (IH c d' e' f'); destruct (out_loop view level a b c d' e' f') as [p [u f2]] end.
  exact IH.
Qed.
Lemma out_propagate_silent tr (m : machine D B) st start max f :
  option_map fst (out_propagate view level tr m st start max f) = propagate m st start max.
Proof.
  unfold out_propagate, propagate. destruct (Z.eqb max INT_MIN); [destruct (N.ltb _ _); reflexivity|]. cbn [option_map]. rewrite out_silent. reflexivity.
Qed.

(** What the elements are called does not change. *)
Definition tags (els : list (elem D B)) : list (N * string) := map (fun e => (el_index e, el_name e)) els.
Lemma update_map {X Y} (g : X -> Y) l n a x : nth_error l n = Some x -> g a = g x -> map g (update l n a) = map g l.
Proof.
  revert n. induction l as [|y l IH]; intros [|n] H E; try discriminate; simpl in *.
  - injection H as ->. rewrite E. reflexivity.
  - f_equal. apply IH; assumption.
Qed.
Lemma slot_nth (els : list (elem D B)) n e : slot els n = Some e -> nth_error els (N.to_nat n) = Some e.
Proof. unfold slot. destruct (N.ltb _ _); [auto|discriminate]. Qed.
Lemma tags_nth els n e : nth_error els n = Some e -> nth_error (tags els) n = Some (el_index e, el_name e).
Proof. intros H. unfold tags. rewrite nth_error_map, H. reflexivity. Qed.

Definition trace_head (n : N) (name : string) := chars "After [" ++ size_text n ++ chars "] " ++ chars name ++ chars " ".
Definition view_head (n : N) (name : string) := chars "After Element [" ++ size_text n ++ chars "] " ++ chars name ++ chars " ".
Lemma trace_text n (e : elem D B) b f : exists f1,
  put_trace view true n e b f = (trace_head n (el_name e) ++ fst (show_body (view b) 0 f) ++ [newline], f1).
Proof.
  unfold put_trace, puts, putnl. rewrite !put_then, then_eq. cbn [fst snd]. eexists. f_equal. unfold trace_head. rewrite <- !app_assoc. reflexivity.
Qed.
Lemma view_text o (e : elem D B) b f : (match o with Some o => level o | None => None end = None /\ put_view view level o e b f = ([], f)) \/
  exists o' d f1, o = Some o' /\ level o' = Some d /\
    put_view view level o e b f = (view_head (el_index e) (el_name e) ++ fst (show_body (view b) d f) ++ [newline], f1).
Proof.
  unfold put_view. destruct o as [o|]; [|left; split; reflexivity]. destruct (level o) as [d|] eqn:L; [right|left; split; reflexivity].
  unfold puts, putnl. rewrite !put_then, then_eq. cbn [fst snd]. do 3 eexists. split; [reflexivity|]. split; [exact L|]. f_equal. unfold view_head. rewrite <- !app_assoc. reflexivity.
Qed.
Lemma trace_head_line n s : one_line s -> ~ In newline (trace_head n s).
Proof. intros H. unfold trace_head. noline. Qed.
Lemma view_head_line n s : one_line s -> ~ In newline (view_head n s).
Proof. intros H. unfold view_head. noline. Qed.

Section Formats.
Variable P : fmt -> Prop.
Hypothesis P_keeps : forall o d b f, level o = Some d -> P f -> P (snd (show_body (view b) d f)).
Definition traced (els : list (elem D B)) (l : list ascii) (ev : event B) : Prop :=
  exists i name f, P f /\ nth_error (tags els) (ev_slot ev) = Some (i, name) /\
    trace_line l (N.of_nat (ev_slot ev)) name (hd [] (lines (fst (show_body (view (st_body (ev_state ev))) 0 f)))).
Definition viewed (els : list (elem D B)) (l : list ascii) (ev : event B) : Prop :=
  exists i name f d, nth_error (tags els) (ev_slot ev) = Some (i, name) /\ level (ev_obs ev) = Some d /\
    view_line l i name (hd [] (lines (fst (show_body (view (st_body (ev_state ev))) d f)))).
Definition shown_ev (ev : event B) : bool := match level (ev_obs ev) with Some _ => true | None => false end.
Notation wt := (fun e : elem D B => with_obs e (Some 0)).

Lemma slot_wt els n : slot (map wt els) n = option_map wt (slot els n).
Proof. unfold slot. rewrite map_length. destruct (N.ltb _ _); [|reflexivity]. apply nth_error_map. Qed.
Lemma update_wt els n e : map wt (update els n e) = update (map wt els) n (with_obs e (Some 0)).
Proof. revert n. induction els as [|x els IH]; intros [|n]; simpl; try reflexivity. rewrite IH. reflexivity. Qed.

Lemma loop_lines tr k : forall els st evs evs' f r, P f -> Forall (fun t => one_line (snd t)) (tags els) ->
  let '(p, (t, _)) := loop tr k els st evs f in
  exists news neww, pr_events p = evs ++ news /\ pr_events (prop_loop k (map wt els) st evs') = evs' ++ neww /\
    (exists tl1, lw (chars "After [") (t ++ r) = tl1 ++ lw (chars "After [") r /\
       if tr then Forall2 (traced els) tl1 neww else tl1 = []) /\
    (exists tl2, lw (chars "After Element [") (t ++ r) = tl2 ++ lw (chars "After Element [") r /\
       Forall2 (viewed els) tl2 (filter shown_ev news)) /\
    lw (chars "Element ") (t ++ r) = lw (chars "Element ") r.
Proof.
  assert (Z0 : forall els evs evs' r, exists news neww : list (event B), evs = evs ++ news /\ evs' = evs' ++ neww /\
    (exists tl1, lw (chars "After [") ([] ++ r) = tl1 ++ lw (chars "After [") r /\ if tr then Forall2 (traced els) tl1 neww else tl1 = []) /\
    (exists tl2, lw (chars "After Element [") ([] ++ r) = tl2 ++ lw (chars "After Element [") r /\ Forall2 (viewed els) tl2 (filter shown_ev news)) /\
    lw (chars "Element ") ([] ++ r) = lw (chars "Element ") r).
  { intros. exists [], []. rewrite !app_nil_r. split; [reflexivity|]. split; [reflexivity|].
    split; [exists []; split; [reflexivity|]; destruct tr; [constructor|reflexivity]|].
    split; [exists []; split; [reflexivity|constructor]|reflexivity]. }
  induction k as [|k IH]; intros els st evs evs' f r Pf N; [exact (Z0 els evs evs' r)|]. cbn [out_loop prop_loop]. rewrite slot_wt.
  destruct (slot els (st_next st)) as [e|] eqn:Sl; [|exact (Z0 els evs evs' r)]. cbn [option_map].
  apply slot_nth in Sl. change (el_class (with_obs e (Some 0))) with (el_class e). change (el_base (with_obs e (Some 0))) with (el_base e).
  change (el_data (with_obs e (Some 0))) with (el_data e).
  destruct (cl_advance _ _ _ _) as [d [st2|x]]; [|exact (Z0 els evs evs' r)].
  rewrite then_eq. set (n := N.to_nat (st_next st)) in *. set (els1 := update els n (with_data e d)).
  set (evs1 := match el_obs e with Some o => evs ++ [mkEv o n st2] | None => evs end).
  set (f1 := snd (put_trace view tr (st_next st) e (st_body st2) (snd (put_view view level (el_obs e) e (st_body st2) f)))).
  assert (T : tags els1 = tags els) by (unfold tags, els1; apply (update_map _ els n _ e Sl); reflexivity).
  assert (Nm : one_line (el_name e)).
  { rewrite Forall_forall in N. apply (N (el_index e, el_name e)). apply nth_error_In with n. apply tags_nth. exact Sl. }
  specialize (IH els1 st2 evs1 (evs' ++ [mkEv 0 n st2]) f1 r). rewrite T in IH.
  assert (Pv : P (snd (put_view view level (el_obs e) e (st_body st2) f))).
  { unfold put_view. destruct (el_obs e) as [o|]; [|exact Pf]. destruct (level o) as [dd|] eqn:L; [|exact Pf].
    unfold puts, putnl. rewrite !put_then, then_eq. cbn [fst snd put]. apply (P_keeps o dd _ f L Pf). }
  assert (P1 : P f1).
  { unfold f1, put_trace. destruct tr; [|exact Pv]. unfold puts, putnl. rewrite !put_then, then_eq. cbn [fst snd put]. rewrite body_keeps. exact Pv. }
  specialize (IH P1 N).
  destruct (out_loop view level tr k els1 st2 evs1 f1) as [p [u f2]].
  destruct IH as (news & neww & E1 & E2 & (tl1 & L1 & F1) & (tl2 & L2 & F2) & L3).
  replace (update (map wt els) n (with_data (with_obs e (Some 0)) d)) with (map wt els1) by (unfold els1; rewrite update_wt; reflexivity).
  cbn [el_obs with_obs]. rewrite E2.
  assert (Tn : N.of_nat n = st_next st) by (unfold n; lia).
  (* the two entries of this element *)
  set (V := fst (put_view view level (el_obs e) e (st_body st2) f)). set (fv := snd (put_view view level (el_obs e) e (st_body st2) f)) in *.
  set (W := fst (put_trace view tr (st_next st) e (st_body st2) fv)).
  exists ((match el_obs e with Some o => [mkEv o n st2] | None => [] end) ++ news), (mkEv 0 n st2 :: neww).
  split; [rewrite E1; unfold evs1; destruct (el_obs e); [rewrite <- app_assoc|]; reflexivity|].
  split; [rewrite <- app_assoc; reflexivity|].
  rewrite <- !app_assoc.
  assert (TR : forall q, (exists t1, lw (chars "After [") (W ++ q) = t1 ++ lw (chars "After [") q /\
                 if tr then exists l, t1 = [l] /\ traced els l (mkEv 0 n st2) else t1 = []) /\
               lw (chars "After Element [") (W ++ q) = lw (chars "After Element [") q /\ lw (chars "Element ") (W ++ q) = lw (chars "Element ") q).
  { intros q. unfold W. destruct tr; [|split; [exists []; split; reflexivity|split; reflexivity]].
    destruct (trace_text (st_next st) e (st_body st2) fv) as (f' & ->). cbn [fst].
    pose proof (silent_body (view (st_body st2)) 0 fv) as Q. set (y := fst (show_body _ 0 fv)) in *.
    replace ((trace_head (st_next st) (el_name e) ++ y ++ [newline]) ++ q) with (trace_head (st_next st) (el_name e) ++ y ++ newline :: q) by (rewrite <- !app_assoc; reflexivity).
    rewrite !lw_record by (try reflexivity; try exact Q; apply trace_head_line; exact Nm).
    split; [|split; reflexivity]. exists [trace_head (st_next st) (el_name e) ++ hd [] (lines y)]. split.
    - replace (starts (chars "After [") _) with true; [reflexivity|]. symmetry. unfold trace_head. rewrite <- app_assoc. apply starts_app.
    - eexists. split; [reflexivity|]. exists (el_index e), (el_name e), fv. cbn [ev_slot ev_state]. split; [exact Pv|]. split; [apply tags_nth; exact Sl|].
      exists (size_text (st_next st)). split; [rewrite Tn; apply size_reads|]. unfold trace_head. rewrite <- !app_assoc. reflexivity. }
  assert (VW : forall q, (exists t2, lw (chars "After Element [") (V ++ q) = t2 ++ lw (chars "After Element [") q /\
                 Forall2 (viewed els) t2 (filter shown_ev (match el_obs e with Some o => [mkEv o n st2] | None => [] end))) /\
               lw (chars "After [") (V ++ q) = lw (chars "After [") q /\ lw (chars "Element ") (V ++ q) = lw (chars "Element ") q).
  { intros q. unfold V. destruct (view_text (el_obs e) e (st_body st2) f) as [[L ->]|(o & dd & f' & Ho & L & ->)]; cbn [fst].
    - split; [|split; reflexivity]. exists []. split; [reflexivity|]. destruct (el_obs e) as [o|]; [|constructor]. cbn [filter]. unfold shown_ev. cbn [ev_obs]. rewrite L. constructor.
    - pose proof (silent_body (view (st_body st2)) dd f) as Q. set (y := fst (show_body _ dd f)) in *.
      replace ((view_head (el_index e) (el_name e) ++ y ++ [newline]) ++ q) with (view_head (el_index e) (el_name e) ++ y ++ newline :: q) by (rewrite <- !app_assoc; reflexivity).
      rewrite !lw_record by (try reflexivity; try exact Q; apply view_head_line; exact Nm).
      split; [|split; reflexivity]. exists [view_head (el_index e) (el_name e) ++ hd [] (lines y)]. split.
      + replace (starts (chars "After Element [") _) with true; [reflexivity|]. symmetry. unfold view_head. rewrite <- app_assoc. apply starts_app.
      + rewrite Ho. cbn [filter]. unfold shown_ev. cbn [ev_obs]. rewrite L. constructor; [|constructor].
        exists (el_index e), (el_name e), f, dd. cbn [ev_slot ev_state ev_obs]. split; [apply tags_nth; exact Sl|]. split; [exact L|].
        exists (size_text (el_index e)). split; [apply size_reads|]. unfold view_head. rewrite <- !app_assoc. reflexivity. }
  destruct (VW (W ++ u ++ r)) as ((t2 & V1 & V2) & V3 & V4). destruct (TR (u ++ r)) as ((t1 & W1 & W2) & W3 & W4).
  assert (C1 : forall l ev, traced els1 l ev -> traced els l ev) by (intros l ev; unfold traced; rewrite T; auto).
  assert (C2 : forall l ev, viewed els1 l ev -> viewed els l ev) by (intros l ev; unfold viewed; rewrite T; auto).
  split; [|split].
  - exists (t1 ++ tl1). rewrite V3, W1, L1, <- app_assoc. split; [reflexivity|]. destruct tr.
    + destruct W2 as (l & -> & X). cbn [List.app]. constructor; [exact X|]. eapply F2_impl; [|exact F1]. exact C1.
    + rewrite W2, F1. reflexivity.
  - exists (t2 ++ tl2). rewrite V1, W3, L2, <- app_assoc. split; [reflexivity|]. rewrite filter_app. apply Forall2_app; [exact V2|].
    eapply F2_impl; [|exact F2]. exact C2.
  - rewrite V4, W4. exact L3.
Qed.
End Formats.
End S.
