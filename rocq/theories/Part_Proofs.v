(** Particles and signs in the text of a state. *)
From Coq Require Import List String Ascii Bool NArith ZArith Lia.
From Coq Require Import Floats.SpecFloat.
From Verif Require Import SMap Dbl Config_Spec Lexer_Model Lexer_Spec Number_Spec Machine_Model Machine_Spec Machine_Proofs Print_Model Print_Spec Print2_Proofs Log_Model
  Show_Model Show_Spec Show_Proofs Show2_Proofs Show3_Proofs Show4_Proofs Show5_Proofs Part_Spec.
Import ListNotations.
Open Scope string_scope.
Open Scope list_scope.

Lemma part_text p f : putpart p f = (equations true (quantities p), Sci 10).
Proof.
  cbv beta iota zeta delta [putpart andthen puts put sci putd num_text equations quantities chars txt].
  cbn [list_ascii_of_string app]. rewrite <- ?app_assoc, ?app_nil_r. cbn [app]. reflexivity.
Qed.
Lemma states_text lv l : forall k f i c, nth_error l i = Some c ->
  exists a d b, fst (put_states lv k l f) = a ++ chars "  Charge state " ++ d ++ [newline] ++ chars "    " ++ equations true (quantities (cv_real c)) ++ [newline] ++ b /\
    d = size_text (k + N.of_nat i).
Proof.
  induction l as [|c0 l IH]; intros k f [|i] c H; try discriminate H; cbn [put_states].
  - injection H as ->. unfold puts, putnl. rewrite !put_then, then_eq, part_text. cbn [fst snd]. rewrite put_then. cbn [fst snd].
    generalize (equations true (quantities (cv_real c))). intros q.
    match goal with |- context [q ++ [nl] ++ ?r] => generalize r; intros r0 end.
    exists [], (size_text k), r0. split; [rewrite app_nil_l; reflexivity|]. rewrite N.add_0_r. reflexivity.
  - cbn [nth_error] in H.
    assert (G : forall (w v : writer) f, exists t g, fst ((w ;; v) f) = t ++ fst (v g)).
    { intros w0 v0 f0. rewrite then_eq. eexists _, _. reflexivity. }
    assert (T : exists t g, fst (put_states lv k (c0 :: l) f) = t ++ fst (put_states lv (N.succ k) l g)).
    { cbn [put_states]. repeat match goal with |- exists t g, fst ((?w ;; ?v) ?f) = t ++ fst (put_states lv _ l g) =>
        destruct (G w v f) as (? & ? & ->); match v with put_states _ _ _ => eexists _, _; reflexivity | _ => idtac end;
        match goal with |- exists t g, ?u ++ fst (?v ?f1) = _ => enough (X : exists t g, fst (v f1) = t ++ fst (put_states lv (N.succ k) l g)) by (destruct X as (t1 & g1 & ->); exists (u ++ t1), g1; apply app_assoc) end end. }
    destruct T as (t & g & T). cbn [put_states] in T. rewrite T. destruct (IH (N.succ k) g i c H) as (a & d & b & E & D).
    rewrite E. exists (t ++ a), d, b. split; [rewrite <- app_assoc; reflexivity|]. rewrite D. f_equal. lia.
Qed.
Lemma shown_particles s lv f : (2 <= lv)%Z -> mv_states s <> [] ->
  (exists a b, has_particle (fst (show_moment s lv f)) (mv_ref s) (a ++ chars "  Reference state:") b) /\
  forall i c, nth_error (mv_states s) i = Some c ->
    exists a d b, reads d (N.of_nat i) /\ has_particle (fst (show_moment s lv f)) (cv_real c) (a ++ chars "  Charge state " ++ d) b.
Proof.
  intros L N. unfold show_moment, has_particle. destruct (mv_states s) as [|c0 l0]; [congruence|]. clear N.
  destruct (Z.leb_spec lv 0); [lia|]. destruct (Z.leb_spec 1 lv); [|lia]. destruct (Z.leb_spec 2 lv); [|lia].
  set (l := c0 :: l0). rewrite then_eq. cbn [skip fst snd]. rewrite then_eq. cbn [fst snd]. rewrite app_nil_l.
  set (t1 := fst (put_level1 c0 s f)). set (g := snd (put_level1 c0 s f)). clearbody t1 g.
  unfold puts, putnl. rewrite !put_then, then_eq, part_text. cbn [fst snd]. rewrite put_then. cbn [fst snd].
  split.
  - generalize (equations true (quantities (mv_ref s))). intros q. match goal with |- context [q ++ [nl] ++ ?r] => generalize r; intros r0 end.
    exists (t1 ++ [nl]), r0. rewrite <- !app_assoc. reflexivity.
  - intros i c HN. destruct (states_text lv l 0%N (Sci 10) i c HN) as (a & d & b & E & D). rewrite E. rewrite N.add_0_l in D.
    generalize (equations true (quantities (mv_ref s))). intros q. generalize (equations true (quantities (cv_real c))). intros q2.
    exists (t1 ++ [nl] ++ txt "  Reference state:" ++ [nl] ++ txt "    " ++ q ++ [nl] ++ a), d, b. split.
    + rewrite D. apply size_reads.
    + rewrite <- !app_assoc. reflexivity.
Qed.
Lemma digit_not_minus t k d : decimal t k d -> forall u, t <> "-"%char :: u.
Proof. intros [x f fd y ye N C _ _] u E. destruct x as [|a x]; [congruence|]. cbn in E. injection E as -> _. cbn in C. discriminate C. Qed.
Lemma sign_shown p v : well_formed v -> (exists t, show_sci p v = "-"%char :: t) <-> negative v = true.
Proof.
  intros W. assert (K : forall s t, (forall u, t <> "-"%char :: u) -> (exists u, sign_text s ++ t = "-"%char :: u) <-> s = true).
  { intros [] t H; cbn; split; eauto; try discriminate. intros [u E]. destruct (H u E). }
  destruct v as [s|s| |s m e]; cbn [negative].
  - cbn [show_sci]. apply K. intros u. destruct (digit_list_ok (S p) 0) as (D & L & _); [pose proof (Z.pow_pos_nonneg 10 (Z.of_nat (S p))); lia|].
    unfold sci_text. cbv zeta. destruct (digit_list (S p) 0) as [|a x]; [discriminate L|]. cbn [firstn app]. intros E. injection E as -> _. cbn in D. discriminate D.
  - cbn [show_sci]. apply K. discriminate.
  - split; [intros [u E]; discriminate E|discriminate].
  - destruct (show_sci_finite p s m e W) as (t & k & d & -> & D & _). apply K. exact (digit_not_minus t k d D).
Qed.
