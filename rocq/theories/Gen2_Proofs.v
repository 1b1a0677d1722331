(** Names with the default mangler; the elements that they find. *)
From Coq Require Import List String Ascii Bool NArith ZArith Arith Lia.
From Verif Require Import SMap SMap_Proofs Lexer_Model Config_Spec Machine_Model Machine_Spec Array_Model Array_Spec Ioc_Model Ioc_Spec
  Ioc4_Proofs Ioc5_Proofs Gen_Model Gen_Spec Gen_Proofs.
Import ListNotations.
Open Scope string_scope.
Open Scope list_scope.
Local Notation la := list_ascii_of_string.

Definition inst (k : nat) : option string := match k with O => None | _ => Some (dec k) end.
Definition sfx (k : nat) : string := match k with O => "" | _ => dec k end.
Definition ename (n : string) (k : nat) : string := (n ++ bracket (inst k))%string.
Definition rname (n : string) (k : nat) : string := ("$(PREF)" ++ n ++ ":" ++ sfx k)%string.
Definition cnt (n : string) (es : list gelem) : nat := List.length (filter (fun e => String.eqb (g_name e) n) es).

Lemma app_assoc_s a b c : ((a ++ b) ++ c = a ++ b ++ c)%string.
Proof. induction a; simpl; f_equal; auto. Qed.
Lemma last_split {A} (c : A) : forall a a' b b', ~ In c b -> ~ In c b' -> a ++ c :: b = a' ++ c :: b' -> a = a' /\ b = b'.
Proof.
  induction a as [|x a IH]; intros [|x' a'] b b' N N' E; cbn in E.
  - injection E as ->. auto.
  - injection E as <- ->. exfalso. apply N. apply in_app_iff. right. left. auto.
  - injection E as -> <-. exfalso. apply N'. apply in_app_iff. right. left. auto.
  - injection E as -> E. apply IH in E as [-> ->]; auto.
Qed.
Lemma sfx_colon k : ~ In ":"%char (la (sfx k)).
Proof. destruct k; [intros []|apply dec_no; reflexivity]. Qed.
Lemma sfx_inj k k' : sfx k = sfx k' -> k = k'.
Proof.
  destruct k, k'; auto; intros E.
  - exfalso. destruct (dec_word (S k')) as [[N _] _]. apply N. symmetry. exact E.
  - exfalso. destruct (dec_word (S k)) as [[N _] _]. apply N. exact E.
  - apply dec_inj. exact E.
Qed.
Lemma la_append a b : la (a ++ b)%string = la a ++ la b.
Proof. apply la_app. Qed.
Lemma colon_inj n n' t t' : ~ In ":"%char (la t) -> ~ In ":"%char (la t') -> (n ++ ":" ++ t = n' ++ ":" ++ t')%string -> n = n' /\ t = t'.
Proof.
  intros N N' E. apply (f_equal la) in E. rewrite !la_append in E. change (la ":") with [":"%char] in E.
  apply last_split in E as [E1 E2]; auto. split; apply la_inj; auto.
Qed.
Lemma rname_inj n n' k k' : rname n k = rname n' k' -> n = n' /\ k = k'.
Proof.
  unfold rname. intros E. apply append_inj in E. apply colon_inj in E as [-> E]; [|apply sfx_colon|apply sfx_colon].
  split; auto. apply sfx_inj; auto.
Qed.
Lemma append_nil s : (s ++ "")%string = s.
Proof. induction s; simpl; f_equal; auto. Qed.
Lemma cnt_snoc n pre e : cnt n (pre ++ [e]) = cnt n pre + (if String.eqb (g_name e) n then 1 else 0).
Proof. unfold cnt. rewrite filter_app, app_length. cbn. destruct (String.eqb (g_name e) n); reflexivity. Qed.

Section Default.
Variable is_file : string -> bool.
Fixpoint named (pre es : list gelem) : list row :=
  match es with
  | [] => []
  | e :: es' =>
      let k := cnt (g_name e) pre in
      (if is_file (g_type e) then [mkRow e (ename (g_name e) k) (rname (g_name e) k)] else []) ++ named (pre ++ [e]) es'
  end.
Lemma name_it_default out pre e : (forall x, In x out <-> exists n k, x = rname n k /\ k < cnt n pre) -> List.length out = List.length pre ->
  name_it default_mangler out e = Some (ename (g_name e) (cnt (g_name e) pre), rname (g_name e) (cnt (g_name e) pre)).
Proof.
  intros H L. unfold name_it.
  assert (M : forall k, (default_mangler e ++ sfx k)%string = rname (g_name e) k).
  { intros k. unfold default_mangler, rname. rewrite !app_assoc_s. reflexivity. }
  assert (In0 : forall k, In (rname (g_name e) k) out <-> k < cnt (g_name e) pre).
  { intros k. rewrite H. split; [|eauto]. intros (n & k' & E & Lk). apply rname_inj in E as [-> ->]. auto. }
  pose proof (M 0) as M0. cbn [sfx] in M0. rewrite append_nil in M0. rewrite M0.
  destruct (is_in (rname (g_name e) 0) out) eqn:E.
  - apply is_in_iff, In0 in E. rewrite <- M0. destruct (free_some out (default_mangler e) 1) as [m Em].
    pose proof (free_spec out (default_mangler e) (S (List.length out)) 1) as F. rewrite Em in F. rewrite Em.
    destruct F as (A & Bn & C). assert (K : m = cnt (g_name e) pre).
    { assert (m >= cnt (g_name e) pre).
      { destruct (le_lt_dec (cnt (g_name e) pre) m); auto. exfalso. apply Bn. destruct m; [lia|]. change (dec (S m)) with (sfx (S m)). rewrite M. apply In0. auto. }
      destruct (le_lt_dec m (cnt (g_name e) pre)); [lia|]. exfalso.
      assert (I : In (default_mangler e ++ dec (cnt (g_name e) pre))%string out) by (apply C; lia).
      destruct (cnt (g_name e) pre) as [|c] eqn:Ec; [lia|]. change (dec (S c)) with (sfx (S c)) in I. rewrite M in I. apply In0 in I. lia. }
    subst m. destruct (cnt (g_name e) pre) as [|c] eqn:Ec; [lia|]. rewrite <- M. unfold ename. cbn [inst bracket sfx]. reflexivity.
  - apply is_in_false in E. assert (K : cnt (g_name e) pre = 0) by (destruct (cnt (g_name e) pre); auto; exfalso; apply E, In0; lia).
    rewrite K. unfold ename. cbn [inst bracket]. rewrite append_nil. reflexivity.
Qed.
Lemma rows_default es : forall pre out, (forall x, In x out <-> exists n k, x = rname n k /\ k < cnt n pre) -> List.length out = List.length pre ->
  rows default_mangler is_file out es = Some (named pre es).
Proof.
  induction es as [|e es IH]; intros pre out H L; [reflexivity|]. cbn [rows named].
  rewrite (name_it_default out pre e H L). rewrite (IH (pre ++ [e])).
  - destruct (is_file (g_type e)); reflexivity.
  - intros x. cbn [In]. rewrite H. split.
    + intros [<-|(n & k & -> & Lk)].
      * exists (g_name e), (cnt (g_name e) pre). split; auto. rewrite cnt_snoc, String.eqb_refl. lia.
      * exists n, k. split; auto. rewrite cnt_snoc. lia.
    + intros (n & k & -> & Lk). rewrite cnt_snoc in Lk. destruct (String.eqb_spec (g_name e) n) as [<-|]; [|right; exists n, k; split; auto; lia].
      destruct (Nat.eq_dec k (cnt (g_name e) pre)) as [->|]; [auto|right; exists (g_name e), k; split; auto; lia].
  - rewrite app_length. cbn. lia.
Qed.
Lemma rows_named es : rows default_mangler is_file [] es = Some (named [] es).
Proof. apply rows_default; auto. intros x. split; [intros []|]. intros (n & k & _ & H). cbn in H. lia. Qed.

Definition row_of (es : list gelem) (j : nat) (w : row) : Prop :=
  exists e, nth_error es j = Some e /\ w = mkRow e (ename (g_name e) (before es j (g_name e))) (rname (g_name e) (before es j (g_name e))).
Lemma named_slots es : forall pre all, all = pre ++ es ->
  Forall2 (row_of all) (filter (fun j => match nth_error all j with Some e => is_file (g_type e) | None => false end) (seq (List.length pre) (List.length es)))
    (named pre es).
Proof.
  induction es as [|e es IH]; intros pre all ->; cbn [List.length seq filter named]; [constructor|].
  assert (E : nth_error (pre ++ e :: es) (List.length pre) = Some e) by (rewrite nth_error_app2, Nat.sub_diag; auto).
  rewrite E. assert (T : Forall2 (row_of (pre ++ e :: es)) (filter (fun j => match nth_error (pre ++ e :: es) j with Some e => is_file (g_type e) | None => false end)
      (seq (S (List.length pre)) (List.length es))) (named (pre ++ [e]) es)).
  { replace (S (List.length pre)) with (List.length (pre ++ [e])) by (rewrite app_length; cbn; lia). apply IH. rewrite <- app_assoc. reflexivity. }
  destruct (is_file (g_type e)); [|exact T]. constructor; auto. exists e. split; auto.
  unfold before. rewrite firstn_app, Nat.sub_diag. cbn [firstn]. rewrite app_nil_r, firstn_all. reflexivity.
Qed.
Lemma rows_slots es : exists all, rows default_mangler is_file [] es = Some all /\ Forall2 (row_of es) (covered is_file es) all.
Proof. exists (named [] es). split; [apply rows_named|]. apply (named_slots es [] es eq_refl). Qed.
End Default.

(** ** The slots of a machine *)
Lemma filter_seq_nth (p : nat -> bool) len j : j < len -> p j = true ->
  nth_error (filter p (seq 0 len)) (List.length (filter p (seq 0 j))) = Some j.
Proof.
  intros L P. replace len with (j + (len - j)) by lia. rewrite seq_app, filter_app. rewrite nth_error_app2, Nat.sub_diag by lia.
  destruct (len - j) as [|x] eqn:E; [lia|]. cbn [seq filter]. replace (0 + j) with j by lia. rewrite P. reflexivity.
Qed.
Lemma filter_seq_count {A} (q : A -> bool) (l : list A) j : j <= List.length l ->
  List.length (filter (fun i => match nth_error l i with Some e => q e | None => false end) (seq 0 j)) = List.length (filter q (firstn j l)).
Proof.
  induction j as [|j IH]; intros L; [reflexivity|]. rewrite seq_S, filter_app, app_length, IH by lia. cbn [Nat.add filter].
  destruct (nth_error l j) as [e|] eqn:E; [|apply nth_error_None in E; lia].
  assert (F : firstn (S j) l = firstn j l ++ [e]).
  { clear -E. revert l E. induction j; intros [|a l] E; try discriminate; cbn in *; [injection E as ->; reflexivity|]. f_equal. apply IHj; auto. }
  rewrite F, filter_app, app_length. cbn [filter]. destruct (q e); reflexivity.
Qed.
Section Slots.
Context {D B : Type}.
Lemma same_nth (s : vsim D B) es j e : same_elements s es -> nth_error es j = Some e ->
  exists el, nth_error (m_elems (v_machine s)) j = Some el /\ el_name el = g_name e /\ el_tname el = g_type e.
Proof.
  intros H E. assert (X : nth_error (map (fun e => (el_name e, el_tname e)) (m_elems (v_machine s))) j = Some (g_name e, g_type e)).
  { rewrite H. rewrite nth_error_map, E. reflexivity. }
  rewrite nth_error_map in X. destruct (nth_error (m_elems (v_machine s)) j) as [el|]; [|discriminate]. injection X as A C. eauto.
Qed.
Lemma same_length (s : vsim D B) es : same_elements s es -> List.length (m_elems (v_machine s)) = List.length es.
Proof. intros H. apply (f_equal (@List.length _)) in H. rewrite !map_length in H. auto. Qed.
Lemma same_names (s : vsim D B) es n j : same_elements s es ->
  List.length (filter (fun el => String.eqb (el_name el) n) (firstn j (m_elems (v_machine s)))) = before es j n.
Proof.
  intros H. unfold before.
  assert (X : forall (l : list (elem D B)) es, map (fun e => (el_name e, el_tname e)) l = map (fun e => (g_name e, g_type e)) es ->
    List.length (filter (fun el => String.eqb (el_name el) n) l) = List.length (filter (fun e => String.eqb (g_name e) n) es)).
  { clear. induction l as [|a l IH]; intros [|e es] E; try discriminate; auto. cbn in E. injection E as En _ E. cbn [filter]. rewrite En.
    destruct (String.eqb (g_name e) n); cbn [List.length]; rewrite (IH es E); auto. }
  apply X. rewrite <- !firstn_map. f_equal. exact H.
Qed.
Lemma slot_of (s : vsim D B) es j e : same_elements s es -> nth_error es j = Some e ->
  nth_error (slots_named (g_name e) (m_elems (v_machine s))) (before es j (g_name e)) = Some j.
Proof.
  intros H E. destruct (same_nth s es j e H E) as (el & El & En & _).
  assert (L : j < List.length (m_elems (v_machine s))) by (apply nth_error_Some; congruence).
  rewrite <- (same_names s es (g_name e) j H). rewrite <- filter_seq_count by lia.
  apply filter_seq_nth; auto. rewrite El, En. apply String.eqb_refl.
Qed.
Lemma types_of (s : vsim D B) es t : same_elements s es ->
  List.length (slots_typed t (m_elems (v_machine s))) = List.length (filter (fun e => String.eqb (g_type e) t) es).
Proof.
  intros H. unfold slots_typed, slots_where. rewrite filter_seq_count by lia. rewrite firstn_all. revert H. unfold same_elements.
  generalize (m_elems (v_machine s)). clear. intros l. revert es. induction l as [|a l IH]; intros [|e es] E; try discriminate; auto.
  cbn in E. injection E as _ Et E. cbn [filter]. rewrite Et. destruct (String.eqb (g_type e) t); cbn [List.length]; rewrite (IH es E); auto.
Qed.
End Slots.
