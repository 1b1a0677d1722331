(** States at the levels, formats, Python, and the whole output of the tool. *)
From Coq Require Import List String Ascii Bool NArith ZArith Lia.
From Verif Require Import SMap Dbl Config_Spec Lexer_Model Machine_Model Machine_Spec Machine_Proofs Print_Model Log_Model
  Show_Model Show_Spec Show_Proofs Show2_Proofs.
Import ListNotations.
Open Scope string_scope.
Open Scope list_scope.

(** ** Levels and formats *)
Lemma moment_indep s lv f g : (1 <= lv)%Z -> fst (show_moment s lv f) = fst (show_moment s lv g).
Proof.
  intros H. unfold show_moment. destruct (mv_states s) as [|c l]; [reflexivity|].
  replace (lv <=? 0)%Z with false by (symmetry; apply Z.leb_gt; lia). replace (1 <=? lv)%Z with true by (symmetry; apply Z.leb_le; lia).
  reflexivity.
Qed.
Lemma states_fmt_more l : forall k f lv lv', (lv <= lv')%Z ->
  (List.length (fst (put_states lv k l f)) <= List.length (fst (put_states lv' k l f)))%nat /\ snd (put_states lv k l f) = snd (put_states lv' k l f).
Proof.
  induction l as [|c l IH]; intros k f lv lv' H; [split; reflexivity|].
  cbn [put_states]. unfold puts, putnl.
  assert (P : forall g, snd (putpart (cv_real c) g) = Sci 10) by reflexivity.
  rewrite !put_then, !(then_eq (putpart (cv_real c))), !put_then, !(then_eq (putvec (cv_moment0 c))), !put_then. cbn [fst snd]. rewrite P.
  change (snd (putvec (cv_moment0 c) (Sci 10))) with (Sci 10).
  set (X := if (3 <=? lv)%Z then _ else skip). set (X' := if (3 <=? lv')%Z then _ else skip).
  assert (E : (List.length (fst (X (Sci 10))) <= List.length (fst (X' (Sci 10))))%nat /\ snd (X (Sci 10)) = Sci 10 /\ snd (X' (Sci 10)) = Sci 10).
  { unfold X, X'. destruct (Z.leb_spec 3 lv), (Z.leb_spec 3 lv'); try lia; (split; [|split]); try reflexivity; simpl; lia. }
  destruct E as (E & E1 & E2). rewrite !(then_eq X), !(then_eq X'), E1, E2. cbn [fst snd].
  destruct (IH (N.succ k) (Sci 10) lv lv' H) as [I1 I2]. rewrite !app_length. split; [lia|exact I2].
Qed.
Lemma moment_more s lv lv' f : (1 <= lv <= lv')%Z -> (List.length (fst (show_moment s lv f)) <= List.length (fst (show_moment s lv' f)))%nat.
Proof.
  intros H. unfold show_moment. destruct (mv_states s) as [|c l]; [reflexivity|].
  replace (lv <=? 0)%Z with false by (symmetry; apply Z.leb_gt; lia). replace (1 <=? lv)%Z with true by (symmetry; apply Z.leb_le; lia).
  replace (lv' <=? 0)%Z with false by (symmetry; apply Z.leb_gt; lia). replace (1 <=? lv')%Z with true by (symmetry; apply Z.leb_le; lia).
  rewrite !(then_eq skip), !(then_eq (put_level1 c s)). cbn [fst snd skip]. rewrite !app_length. set (g := snd (put_level1 c s f)).
  pose proof (states_fmt_more (c :: l) 0 (snd (putpart (mv_ref s) g)) lv lv' ltac:(lia)) as [M _].
  set (w := put_states lv 0 (c :: l)) in *. set (w' := put_states lv' 0 (c :: l)) in *. clearbody w w'.
  destruct (Z.leb_spec 2 lv), (Z.leb_spec 2 lv'); try lia; try (simpl; lia).
  unfold puts, putnl. rewrite !put_then, !(then_eq (putpart _)), !put_then. cbn [fst snd]. rewrite !app_length. lia.
Qed.
Lemma moment_prefix s lv f : (1 <= lv)%Z -> exists r, fst (show_moment s lv f) = fst (show_moment s 1 f) ++ r.
Proof.
  intros H. unfold show_moment. destruct (mv_states s) as [|c l]; [exists []; rewrite app_nil_r; reflexivity|].
  replace (lv <=? 0)%Z with false by (symmetry; apply Z.leb_gt; lia). replace (1 <=? lv)%Z with true by (symmetry; apply Z.leb_le; lia).
  change (1 <=? 0)%Z with false. change (1 <=? 1)%Z with true. change (2 <=? 1)%Z with false. cbv iota.
  rewrite !(then_eq skip), !(then_eq (put_level1 c s)). cbn [fst snd skip List.app].
  match goal with |- exists r, ?a ++ ?b = _ => exists b end. rewrite app_nil_r. reflexivity.
Qed.
Lemma body_more b lv lv' f : (1 <= lv <= lv')%Z -> (List.length (fst (show_body b lv f)) <= List.length (fst (show_body b lv' f)))%nat.
Proof. intros H. destruct b; cbn [show_body]; [reflexivity..|]. apply moment_more. exact H. Qed.
Lemma body_prefix b lv f : (1 <= lv)%Z -> exists r, fst (show_body b lv f) = fst (show_body b 1 f) ++ r.
Proof. intros H. destruct b; cbn [show_body]; [exists []; rewrite app_nil_r; reflexivity..|]. apply moment_prefix. exact H. Qed.

Lemma body_levels b l l' f : (1 <= l <= l')%Z ->
  (List.length (fst (show_body b l f)) <= List.length (fst (show_body b l' f)))%nat /\
  exists r, fst (show_body b l' f) = fst (show_body b 1 f) ++ r.
Proof. intros H. split; [apply body_more; exact H|apply body_prefix; lia]. Qed.

(** ** Python *)
Lemma quietb_nul p t : quietb p t = true -> c_str t = t.
Proof.
  revert p. induction t as [|c t IH]; intros p H; [reflexivity|]. cbn [quietb] in H. apply andb_prop in H as [H1 H2].
  apply andb_prop in H1 as [_ H1]. cbn [c_str]. unfold nul in H1. destruct (Ascii.eqb c "000"); [discriminate|]. f_equal. apply IH with (Ascii.eqb c newline). exact H2.
Qed.
Lemma to_int_small z : (0 <= z < 2 ^ 31)%Z -> to_int (z mod 2 ^ 64) = z.
Proof.
  intros H. unfold to_int. rewrite (Z.mod_small z (2 ^ 64)) by lia. rewrite Z.mod_small by lia.
  replace (z <? 2 ^ 31)%Z with true by (symmetry; apply Z.ltb_lt; lia). reflexivity.
Qed.
Lemma py_show_eq b z : (0 <= z < 2 ^ 31)%Z -> py_show b z = fst (show_body b z Default).
Proof. intros H. unfold py_show. rewrite to_int_small by exact H. apply quietb_nul with true. apply silent_body. Qed.
Lemma py_str_eq b : py_str b = fst (show_body b 0 Default).
Proof. unfold py_str. apply quietb_nul with true. apply silent_body. Qed.

Lemma py_both b l : (0 <= l < 2 ^ 31)%Z -> py_show b l = fst (show_body b l Default) /\ py_str b = fst (show_body b 0 Default).
Proof. intros H. split; [apply py_show_eq; exact H|apply py_str_eq]. Qed.

Section S.
Context {D B : Type}.
Variable own : elem D B -> extra.
Variable view : B -> body.
Variable level : nat -> option Z.

(** ** The txt output of a moment simulation, to the letter *)
Definition view_entry (d : Z) (els : list (elem D B)) (ev : event B) : list ascii :=
  match nth_error (tags els) (ev_slot ev) with
  | Some (i, name) => view_head i name ++ fst (show_body (view (st_body (ev_state ev))) d Default) ++ [newline]
  | None => []
  end.
Lemma loop_txt d k : (1 <= d)%Z -> (forall o, level o = Some d) -> (forall b, exists s, view b = BMom s) ->
  forall (els : list (elem D B)) st evs f,
  let '(p, (t, _)) := out_loop view level false k els st evs f in
  exists news, pr_events p = evs ++ news /\ t = flat_map (view_entry d els) news.
Proof.
  intros Hd Hl Hv. induction k as [|k IH]; intros els st evs f; [exists []; rewrite app_nil_r; split; reflexivity|]. cbn [out_loop].
  destruct (slot els (st_next st)) as [e|] eqn:Sl; [|exists []; rewrite app_nil_r; split; reflexivity]. apply slot_nth in Sl.
  destruct (cl_advance _ _ _ _) as [dd [st2|x]]; [|exists []; rewrite app_nil_r; split; reflexivity].
  rewrite then_eq. set (n := N.to_nat (st_next st)) in *. set (els1 := update els n (with_data e dd)).
  assert (T : tags els1 = tags els) by (unfold tags, els1; apply (update_map _ els n _ e Sl); reflexivity).
  cbn [put_trace fst snd skip]. set (f1 := snd (put_view view level (el_obs e) e (st_body st2) f)).
  set (evs1 := match el_obs e with Some o => evs ++ [mkEv o n st2] | None => evs end).
  specialize (IH els1 st2 evs1 f1). destruct (out_loop view level false k els1 st2 evs1 f1) as [p [u f2]]. destruct IH as (news & E & ->).
  exists ((match el_obs e with Some o => [mkEv o n st2] | None => [] end) ++ news).
  split; [rewrite E; unfold evs1; destruct (el_obs e); [rewrite <- app_assoc|]; reflexivity|].
  rewrite flat_map_app. rewrite app_nil_r. f_equal.
  - destruct (view_text view level (el_obs e) e (st_body st2) f) as [[L ->]|(o & d' & f' & Ho & L & ->)]; cbn [fst].
    + destruct (el_obs e) as [o|]; [|reflexivity]. rewrite Hl in L. discriminate.
    + rewrite Ho. cbn [flat_map]. rewrite app_nil_r. unfold view_entry. cbn [ev_slot ev_state]. rewrite (tags_nth els n e Sl).
      rewrite Hl in L. injection L as <-. f_equal. f_equal. destruct (Hv (st_body st2)) as [s ->]. apply moment_indep. exact Hd.
  - apply flat_map_ext. intros ev. unfold view_entry. rewrite T. reflexivity.
Qed.

(** ** The tool *)
Lemma tool_lines verb (m : machine D B) st max out :
  one_line (m_simtype m) -> Forall plain (m_elems m) -> tool_out own view level verb m st max = Some out ->
  exists p q, propagate m st 0 max = Some p /\ propagate (watched m) st 0 max = Some q /\
    (if verb then Forall2 (fun l e => element_line l (el_index e) (el_name e) (el_tname e)) (lines_with "Element " out) (m_elems m)
     else lines_with "Element " out = []) /\
    (if verb then Forall2 (traced view (fun _ => True) (m_elems m)) (lines_with "After [" out) (pr_events q) else lines_with "After [" out = []) /\
    Forall2 (viewed view level (m_elems m)) (lines_with "After Element [" out) (filter (shown_ev level) (pr_events p)).
Proof.
  intros Hs Hp. unfold tool_out.
  set (hd_ := if verb then _ else skip).
  assert (H : forall pf r, heading pf ->
    lw pf (fst (hd_ Default) ++ r) = (if verb then filter (starts pf) (map elem_head (m_elems m)) else []) ++ lw pf r).
  { intros pf r Hh. unfold hd_. destruct verb; [|reflexivity]. unfold puts, putnl. rewrite !put_then, then_eq, !put_then. cbn [fst snd put].
    rewrite <- !app_assoc. cbn [List.app]. change (txt "# Machine configuration" ++ nl :: ?x) with (txt "# Machine configuration" ++ newline :: x).
    rewrite lw_quiet by (assumption || reflexivity). rewrite machine_lw by assumption. f_equal.
    change (nl :: nl :: r) with ([newline] ++ newline :: r). apply lw_quiet; [assumption|reflexivity]. }
  destruct (hd_ Default) as [h f]. cbn [fst] in H. clear hd_.
  pose proof (out_propagate_silent view level verb m st 0 max f) as O.
  destruct (out_propagate view level verb m st 0 max f) as [[p [t f1]]|] eqn:EO; [|discriminate]. cbn [option_map fst] in O.
  intros Ho. exists p.
  assert (R : exists r, out = h ++ t ++ r /\ forall pf, heading pf -> lw pf r = []).
  { destruct (pr_end p) as [st'|x]; injection Ho as <-; [|exists []; rewrite app_nil_r; split; [reflexivity|]; intros [|c pf] Hh; [discriminate|reflexivity]].
    eexists. split; [reflexivity|]. intros pf Hh. apply lw_last; [exact Hh|]. destruct verb; [|reflexivity].
    pose proof (silent_body (view (st_body st')) 0) as SB. set (w := show_body (view (st_body st')) 0) in *. clearbody w.
    apply silent_then; [apply silent_nl|]. apply silent_then; [apply silent_put; reflexivity|]. apply silent_then; [exact SB|apply silent_nl]. }
  destruct R as (r & -> & R).
  assert (N : Forall (fun t => one_line (snd t)) (tags (m_elems m))).
  { unfold tags. rewrite Forall_map. eapply Forall_impl; [|exact Hp]. intros e [X _]. exact X. }
  assert (L : exists q, propagate (watched m) st 0 max = Some q /\
    (exists tl1, lw (chars "After [") (t ++ r) = tl1 /\ if verb then Forall2 (traced view (fun _ => True) (m_elems m)) tl1 (pr_events q) else tl1 = []) /\
    (exists tl2, lw (chars "After Element [") (t ++ r) = tl2 /\ Forall2 (viewed view level (m_elems m)) tl2 (filter (shown_ev level) (pr_events p))) /\
    lw (chars "Element ") (t ++ r) = []).
  { unfold out_propagate in EO. unfold propagate, watched. cbn [m_elems with_elems]. rewrite map_length. destruct (Z.eqb max INT_MIN).
    - destruct (N.ltb _ _); [discriminate|]. injection EO as <- <- <-. eexists. split; [reflexivity|]. cbn [List.app pr_events].
      rewrite !R by reflexivity. split; [exists []; split; [reflexivity|]; destruct verb; [constructor|reflexivity]|].
      split; [exists []; split; [reflexivity|constructor]|reflexivity].
    - injection EO as EO. eexists. split; [reflexivity|].
      pose proof (loop_lines view level (fun _ => True) (fun _ _ _ _ _ _ => I) verb (Z.abs_nat max) (m_elems m) (mkSt 0 (Z.ltb max 0) (st_body st)) [] [] f r I N) as X.
      rewrite EO in X. destruct X as (news & neww & E1 & E2 & (tl1 & L1 & F1) & (tl2 & L2 & F2) & L3). cbn [List.app] in E1, E2. rewrite E1, E2.
      rewrite R in L1, L2, L3 by reflexivity. rewrite app_nil_r in L1, L2.
      split; [exists tl1; auto|]. split; [exists tl2; auto|]. exact L3. }
  destruct L as (q & Q & (tl1 & L1 & F1) & (tl2 & L2 & F2) & L3). exists q. split; [symmetry; exact O|]. split; [exact Q|].
  unfold lines_with. repeat match goal with |- context [filter (starts ?p) (lines ?x)] => change (filter (starts p) (lines x)) with (lw p x) end.
  rewrite !H by reflexivity. rewrite L1, L2, L3, app_nil_r.
  split; [destruct verb; [rewrite heads_el; apply heads_lines|reflexivity]|].
  split; [destruct verb; [rewrite (heads_after (chars "fter [")); exact F1|exact F1]|].
  destruct verb; [rewrite (heads_after (chars "fter Element ["))|]; exact F2.
Qed.
End S.
