(** Proofs about text: UTF-8 and null characters. *)
From Coq Require Import List String Ascii NArith ZArith Bool Lia ZifyN.
From Verif Require Import SMap SMap_Proofs Dbl Config_Model Config_Spec Machine_Model Py_Model Py_Spec.
Import ListNotations.
Local Open Scope list_scope.
Ltac Zify.zify_post_hook ::= Z.to_euclidean_division_equations.

Lemma byte_val n : (n < 256)%N -> N_of_ascii (byte n) = n.
Proof. intros H. unfold byte. apply N_ascii_embedding; exact H. Qed.
Lemma val_byte a : byte (N_of_ascii a) = a.
Proof. apply ascii_N_embedding. Qed.
Lemma val_lt a : (N_of_ascii a < 256)%N.
Proof. apply N_ascii_bounded. Qed.

Lemma some_inj {A} (x y : A) : Some x = Some y -> y = x.
Proof. intros H; injection H as ->; reflexivity. Qed.

Lemma cont_of n : (128 <= n < 192)%N -> cont (byte n) = Some (n - 128)%N.
Proof.
  intros H. unfold cont. rewrite byte_val by lia.
  destruct (N.leb_spec 128 n); destruct (N.ltb_spec n 192); simpl; try lia; reflexivity.
Qed.
Lemma cont_inv b x : cont b = Some x -> (x < 64)%N /\ b = byte (128 + x).
Proof.
  unfold cont. intros H.
  destruct (N.leb_spec 128 (N_of_ascii b)); destruct (N.ltb_spec (N_of_ascii b) 192); simpl in H; try discriminate.
  injection H as <-. split; [lia|]. rewrite <- (val_byte b) at 1. f_equal. lia.
Qed.

Ltac ncase := repeat match goal with
  | |- context [N.ltb ?a ?b] => destruct (N.ltb_spec a b)
  | |- context [N.leb ?a ?b] => destruct (N.leb_spec a b)
  | H : context [N.ltb ?a ?b] |- _ => destruct (N.ltb_spec a b)
  | H : context [N.leb ?a ?b] |- _ => destruct (N.leb_spec a b)
  end.

Lemma utf8_char_of c b : utf8_char c = Some b -> utf8_of c (map N_of_ascii b).
Proof.
  unfold utf8_char. intros H.
  destruct (N.ltb_spec c 128).
  { apply some_inj in H; subst b. cbn [map]. rewrite byte_val by lia. constructor; assumption. }
  destruct (N.ltb_spec c 2048).
  { apply some_inj in H; subst b. cbn [map]. rewrite !byte_val by lia.
    assert (E : c = (c / 64 * 64 + c mod 64)%N) by lia. rewrite E at 1. constructor; lia. }
  destruct (N.leb_spec 55296 c); destruct (N.ltb_spec c 57344); cbn [andb] in H; try discriminate;
  (destruct (N.ltb_spec c 65536);
   [apply some_inj in H; subst b; cbn [map]; rewrite !byte_val by lia;
    assert (E : c = (c / 4096 * 4096 + c / 64 mod 64 * 64 + c mod 64)%N) by lia;
    rewrite E at 1; constructor; lia|]);
  (destruct (N.ltb_spec c 1114112); [|discriminate];
   apply some_inj in H; subst b; cbn [map]; rewrite !byte_val by lia;
   assert (E : c = (c / 262144 * 262144 + c / 4096 mod 64 * 4096 + c / 64 mod 64 * 64 + c mod 64)%N) by lia;
   rewrite E at 1; constructor; lia).
Qed.

Lemma utf8_of_char c ns : utf8_of c ns -> utf8_char c = Some (map byte ns).
Proof.
  intros H. unfold utf8_char. destruct H.
  - destruct (N.ltb_spec a 128); [reflexivity|lia].
  - destruct (N.ltb_spec (a * 64 + b) 128); [lia|].
    destruct (N.ltb_spec (a * 64 + b) 2048); [|lia].
    cbn [map]. do 2 f_equal; [f_equal; lia|]. do 2 f_equal. lia.
  - remember (a * 4096 + b * 64 + c)%N as x.
    destruct (N.ltb_spec x 128); [lia|].
    destruct (N.ltb_spec x 2048); [lia|].
    destruct (N.leb_spec 55296 x); destruct (N.ltb_spec x 57344); cbn [andb]; try lia;
    (destruct (N.ltb_spec x 65536); [|lia]);
    cbn [map]; (do 2 f_equal; [f_equal; lia|]); (do 2 f_equal; [lia|]); do 2 f_equal; lia.
  - remember (a * 262144 + b * 4096 + c * 64 + d)%N as x.
    assert (E1 : (x / 262144 = a)%N) by lia. assert (E2 : (x / 4096 mod 64 = b)%N) by lia.
    assert (E3 : (x / 64 mod 64 = c)%N) by lia. assert (E4 : (x mod 64 = d)%N) by lia.
    destruct (N.ltb_spec x 128); [lia|].
    destruct (N.ltb_spec x 2048); [lia|].
    destruct (N.leb_spec 55296 x); destruct (N.ltb_spec x 57344); cbn [andb]; try lia;
    (destruct (N.ltb_spec x 65536); [lia|]); (destruct (N.ltb_spec x 1114112); [|lia]);
    rewrite E1, E2, E3, E4; reflexivity.
Qed.

Lemma un_step c b l : utf8_char c = Some b -> unutf8 (b ++ l) = option_map (cons c) (unutf8 l).
Proof.
  unfold utf8_char. intros H.
  destruct (N.ltb_spec c 128) as [L1|L1].
  { apply some_inj in H; subst b. cbn [app unutf8]. rewrite byte_val by lia.
    destruct (N.ltb_spec c 128); [reflexivity|lia]. }
  destruct (N.ltb_spec c 2048) as [L2|L2].
  { apply some_inj in H; subst b. cbn [app unutf8]. rewrite byte_val by lia.
    destruct (N.ltb_spec (192 + c / 64) 128); [lia|].
    destruct (N.ltb_spec (192 + c / 64) 192); [lia|].
    destruct (N.ltb_spec (192 + c / 64) 224); [|lia].
    rewrite cont_of by lia.
    replace ((192 + c / 64 - 192) * 64 + (128 + c mod 64 - 128))%N with c by lia.
    destruct (N.ltb_spec c 128); [lia|reflexivity]. }
  assert (Hs : (c < 65536)%N -> ~ (55296 <= c < 57344)%N ->
      unutf8 ([byte (224 + c / 4096); byte (128 + c / 64 mod 64); byte (128 + c mod 64)] ++ l)
      = option_map (cons c) (unutf8 l)).
  { intros L3 Hn. cbn [app unutf8]. rewrite byte_val by lia.
    destruct (N.ltb_spec (224 + c / 4096) 128); [lia|].
    destruct (N.ltb_spec (224 + c / 4096) 192); [lia|].
    destruct (N.ltb_spec (224 + c / 4096) 224); [lia|].
    destruct (N.ltb_spec (224 + c / 4096) 240); [|lia].
    rewrite !cont_of by lia.
    replace ((224 + c / 4096 - 224) * 4096 + (128 + c / 64 mod 64 - 128) * 64 + (128 + c mod 64 - 128))%N with c by lia.
    destruct (N.ltb_spec c 2048); [lia|].
    destruct (N.leb_spec 55296 c); destruct (N.ltb_spec c 57344); cbn [andb orb]; try lia; reflexivity. }
  assert (Hl : (65536 <= c < 1114112)%N ->
      unutf8 ([byte (240 + c / 262144); byte (128 + c / 4096 mod 64); byte (128 + c / 64 mod 64); byte (128 + c mod 64)] ++ l)
      = option_map (cons c) (unutf8 l)).
  { intros L3. cbn [app unutf8]. rewrite byte_val by lia.
    destruct (N.ltb_spec (240 + c / 262144) 128); [lia|].
    destruct (N.ltb_spec (240 + c / 262144) 192); [lia|].
    destruct (N.ltb_spec (240 + c / 262144) 224); [lia|].
    destruct (N.ltb_spec (240 + c / 262144) 240); [lia|].
    rewrite !cont_of by lia.
    replace ((240 + c / 262144 - 240) * 262144 + (128 + c / 4096 mod 64 - 128) * 4096
             + (128 + c / 64 mod 64 - 128) * 64 + (128 + c mod 64 - 128))%N with c by lia.
    destruct (N.ltb_spec c 65536); [lia|].
    destruct (N.leb_spec 1114112 c); [lia|reflexivity]. }
  destruct (N.leb_spec 55296 c); destruct (N.ltb_spec c 57344); cbn [andb] in H; try discriminate;
  (destruct (N.ltb_spec c 65536); [apply some_inj in H; subst b; apply Hs; lia|]);
  (destruct (N.ltb_spec c 1114112); [|discriminate]; apply some_inj in H; subst b; apply Hl; lia).
Qed.

Lemma un_utf8 u b : utf8 u = Some b -> unutf8 b = Some u.
Proof.
  revert b. induction u as [|c u IH]; intros b H; cbn [utf8] in H.
  - injection H as <-. reflexivity.
  - destruct (utf8_char c) as [x|] eqn:E; [|discriminate].
    destruct (utf8 u) as [y|] eqn:E2; [|discriminate]. injection H as <-.
    rewrite (un_step _ _ _ E), (IH _ eq_refl). reflexivity.
Qed.

Lemma un_inv l u : unutf8 l = Some u -> l <> [] ->
  exists c u' b l', u = c :: u' /\ l = b ++ l' /\ b <> [] /\ utf8_char c = Some b /\ unutf8 l' = Some u'.
Proof.
  destruct l as [|a l1]; [intros _ []; reflexivity|]. intros H _. cbn [unutf8] in H.
  pose proof (val_lt a) as La. pose proof (val_byte a) as Va. remember (N_of_ascii a) as n.
  assert (Fin : forall c b l', utf8_of c (map N_of_ascii b) -> a :: l1 = b ++ l' -> b <> [] ->
    option_map (cons c) (unutf8 l') = Some u ->
    exists c u' b l', u = c :: u' /\ a :: l1 = b ++ l' /\ b <> [] /\ utf8_char c = Some b /\ unutf8 l' = Some u').
  { intros c b l' Hc Hl Hb Ho. destruct (unutf8 l') as [u'|] eqn:E; [|discriminate].
    injection Ho as <-. exists c, u', b, l'. repeat split; try assumption.
    rewrite (utf8_of_char _ _ Hc), map_map. f_equal. rewrite (map_ext _ (fun x => x) val_byte). apply map_id. }
  destruct (N.ltb_spec n 128).
  { refine (Fin n [a] l1 _ eq_refl _ H); [cbn [map]; rewrite <- Heqn; constructor; assumption|discriminate]. }
  destruct (N.ltb_spec n 192); [discriminate|].
  destruct (N.ltb_spec n 224).
  { destruct l1 as [|b l2]; [discriminate|]. destruct (cont b) as [x|] eqn:E; [|discriminate].
    apply cont_inv in E as [Lx ->].
    destruct (N.ltb_spec ((n - 192) * 64 + x) 128); [discriminate|].
    refine (Fin _ [a; byte (128 + x)] l2 _ eq_refl _ H); [|discriminate].
    cbn [map]. rewrite <- Heqn, byte_val by lia. replace n with (192 + (n - 192))%N at 2 by lia.
    constructor; lia. }
  destruct (N.ltb_spec n 240).
  { destruct l1 as [|b [|b' l2]]; try discriminate.
    destruct (cont b) as [x|] eqn:E; [|discriminate]. destruct (cont b') as [y|] eqn:E'; [|discriminate].
    apply cont_inv in E as [Lx ->]. apply cont_inv in E' as [Ly ->].
    remember ((n - 224) * 4096 + x * 64 + y)%N as z.
    destruct (N.ltb_spec z 2048); [discriminate|].
    destruct (N.leb_spec 55296 z); destruct (N.ltb_spec z 57344); cbn [orb andb] in H; try discriminate;
    (refine (Fin _ [a; byte (128 + x); byte (128 + y)] l2 _ eq_refl _ H); [|discriminate]);
    cbn [map]; rewrite <- Heqn, !byte_val by lia; subst z;
    replace n with (224 + (n - 224))%N at 2 by lia; constructor; lia. }
  { destruct l1 as [|b [|b' [|b'' l2]]]; try discriminate.
    destruct (cont b) as [x|] eqn:E; [|discriminate]. destruct (cont b') as [y|] eqn:E'; [|discriminate].
    destruct (cont b'') as [y'|] eqn:E''; [|discriminate].
    apply cont_inv in E as [Lx ->]. apply cont_inv in E' as [Ly ->]. apply cont_inv in E'' as [Ly' ->].
    remember ((n - 240) * 262144 + x * 4096 + y * 64 + y')%N as z.
    destruct (N.ltb_spec z 65536); [discriminate|].
    destruct (N.leb_spec 1114112 z); cbn [orb andb] in H; try discriminate.
    refine (Fin _ [a; byte (128 + x); byte (128 + y); byte (128 + y')] l2 _ eq_refl _ H); [|discriminate].
    cbn [map]; rewrite <- Heqn, !byte_val by lia; subst z.
    replace n with (240 + (n - 240))%N at 2 by lia. constructor; lia. }
Qed.

Lemma utf8_un u b : unutf8 b = Some u -> utf8 u = Some b.
Proof.
  revert u. induction b as [b IH] using (induction_ltof1 _ (@List.length ascii)). intros u H.
  destruct b as [|a b0].
  - cbn in H. injection H as <-. reflexivity.
  - destruct (un_inv _ _ H ltac:(discriminate)) as (c & u' & x & l' & -> & E & Hx & Hc & Hu).
    cbn [utf8]. rewrite Hc. rewrite (IH l') with (u := u'); [rewrite E; reflexivity| |exact Hu].
    unfold ltof. rewrite E, app_length. destruct x; [congruence|cbn; lia].
Qed.

(** ** [text] is the relation computed by [utf8] *)
Lemma map_byte_val l : map byte (map N_of_ascii l) = l.
Proof. rewrite map_map, (map_ext _ (fun x => x) val_byte). apply map_id. Qed.
Lemma utf8_text u b : utf8 u = Some b -> text u (map N_of_ascii b).
Proof.
  revert b. induction u as [|c u IH]; intros b H; cbn [utf8] in H.
  - injection H as <-. constructor.
  - destruct (utf8_char c) as [x|] eqn:E; [|discriminate].
    destruct (utf8 u) as [y|] eqn:E2; [|discriminate]. injection H as <-.
    rewrite map_app. constructor; [exact (utf8_char_of _ _ E)|exact (IH _ eq_refl)].
Qed.
Lemma text_utf8 u ns : text u ns -> utf8 u = Some (map byte ns).
Proof.
  induction 1 as [|c b u s Hc Ht IH]; [reflexivity|].
  cbn [utf8]. rewrite (utf8_of_char _ _ Hc), IH, map_app. reflexivity.
Qed.
Lemma bytes_chars s : map byte (bytes s) = list_ascii_of_string s.
Proof. apply map_byte_val. Qed.
Lemma text_string u s : text u (bytes s) <-> utf8 u = Some (list_ascii_of_string s).
Proof.
  split; intros H.
  - rewrite <- bytes_chars. exact (text_utf8 _ _ H).
  - exact (utf8_text _ _ H).
Qed.

(** ** Null characters *)
Lemma cstr_app a b : ~ In 0%N (map N_of_ascii a) -> cstr (a ++ b) = a ++ cstr b.
Proof.
  induction a as [|x a IH]; intros H; [reflexivity|]. cbn [app cstr].
  destruct (N.eqb_spec (N_of_ascii x) 0) as [E|E]; [elim H; left; exact E|].
  rewrite IH; [reflexivity|]. intros G. apply H. right. exact G.
Qed.
Lemma cstr_id l : ~ In 0%N (map N_of_ascii l) -> cstr l = l.
Proof. intros H. rewrite <- (app_nil_r l) at 1. rewrite cstr_app by exact H. apply app_nil_r. Qed.
Lemma cstr_free l : ~ In 0%N (map N_of_ascii (cstr l)).
Proof.
  induction l as [|x l IH]; [intros []|]. cbn [cstr].
  destruct (N.eqb_spec (N_of_ascii x) 0) as [E|E]; [intros []|]. intros [H|H]; contradiction.
Qed.
Lemma cstr_length l : List.length (cstr l) = List.length l -> ~ In 0%N (map N_of_ascii l).
Proof.
  induction l as [|x l IH]; intros H; [intros []|]. cbn [cstr] in H.
  destruct (N.eqb_spec (N_of_ascii x) 0) as [E|E]; [discriminate|].
  intros [G|G]; [contradiction|]. cbn in H. apply IH in G; [exact G|lia].
Qed.
Lemma char_nul c b : utf8_char c = Some b -> (In 0%N (map N_of_ascii b) <-> c = 0%N).
Proof.
  intros H. apply utf8_char_of in H. remember (map N_of_ascii b) as ns. clear Heqns b.
  destruct H; cbn [In]; lia.
Qed.
Lemma utf8_nul u b : utf8 u = Some b -> (In 0%N (map N_of_ascii b) <-> has_nul u).
Proof.
  revert b. induction u as [|c u IH]; intros b H; cbn [utf8] in H.
  - injection H as <-. reflexivity.
  - destruct (utf8_char c) as [x|] eqn:E; [|discriminate].
    destruct (utf8 u) as [y|] eqn:E2; [|discriminate]. injection H as <-.
    rewrite map_app, in_app_iff, (char_nul _ _ E), (IH _ eq_refl). unfold has_nul. cbn [In]. intuition.
Qed.
Lemma utf8_before u b : utf8 u = Some b -> utf8 (before_nul u) = Some (cstr b).
Proof.
  revert b. induction u as [|c u IH]; intros b H; cbn [utf8] in H.
  - injection H as <-. reflexivity.
  - destruct (utf8_char c) as [x|] eqn:E; [|discriminate].
    destruct (utf8 u) as [y|] eqn:E2; [|discriminate]. injection H as <-. cbn [before_nul].
    destruct (N.eqb_spec c 0) as [->|Hc].
    + injection E as <-. reflexivity.
    + rewrite cstr_app by (rewrite (char_nul _ _ E); exact Hc).
      cbn [utf8]. rewrite E, (IH _ eq_refl). reflexivity.
Qed.
Lemma before_id u : ~ has_nul u -> before_nul u = u.
Proof.
  induction u as [|c u IH]; intros H; [reflexivity|]. cbn [before_nul].
  destruct (N.eqb_spec c 0) as [->|Hc]; [elim H; left; reflexivity|].
  rewrite IH; [reflexivity|]. intros G. apply H. right. exact G.
Qed.

Lemma chars_string l : list_ascii_of_string (string_of_list_ascii l) = l.
Proof. apply list_ascii_of_string_of_list_ascii. Qed.
Lemma string_chars s : string_of_list_ascii (list_ascii_of_string s) = s.
Proof. apply string_of_list_ascii_of_string. Qed.

(** ** Items *)
Lemma parse_entry it k v : parse_item it = Some (k, v) <-> entry it k v.
Proof.
  split.
  - destruct it as [| |?|?|? ?|?|l|?|?|]; try discriminate.
    destruct l as [|[| |u|?|? ?|?|?|?|?|] [|y [|? ?]]]; try discriminate.
    cbn [parse_item]. destruct (utf8 u) as [b|] eqn:E; [|discriminate].
    destruct (Nat.eqb_spec (List.length (cstr b)) (List.length b)) as [L|L]; [|discriminate].
    intros H. injection H as <- <-. constructor.
    + apply text_string. rewrite chars_string. exact E.
    + rewrite <- (utf8_nul _ _ E). exact (cstr_length _ L).
  - intros [u k' v' Ht Hn]. cbn [parse_item]. apply text_string in Ht. rewrite Ht.
    rewrite cstr_id; [|rewrite (utf8_nul _ _ Ht); exact Hn].
    rewrite Nat.eqb_refl, string_chars. reflexivity.
Qed.
Lemma entry_fun it k v k' v' : entry it k v -> entry it k' v' -> k = k' /\ v = v'.
Proof.
  intros A B. apply parse_entry in A, B. rewrite A in B. injection B as -> ->. split; reflexivity.
Qed.
Lemma entries_holds e l : entries e = Some l <-> holds e l.
Proof.
  split.
  - destruct e; try discriminate; intros H; injection H as <-; constructor.
  - intros []; reflexivity.
Qed.

(** What comes back from a string. *)
Lemma to_str_ok s u : to_str s = Ret (PyStr u) <-> utf8 u = Some (cstr (list_ascii_of_string s)).
Proof.
  unfold to_str. destruct (unutf8 _) as [x|] eqn:E.
  - split; intros H.
    + injection H as ->. exact (utf8_un _ _ E).
    + apply un_utf8 in H. rewrite H in E. injection E as ->. reflexivity.
  - split; intros H; [discriminate|]. apply un_utf8 in H. rewrite H in E. discriminate.
Qed.
Lemma to_str_inv s p : to_str s = Ret p -> exists u, p = PyStr u /\ utf8 u = Some (cstr (list_ascii_of_string s)).
Proof.
  intros H. unfold to_str in H. destruct (unutf8 _) as [x|] eqn:E; [|discriminate]. injection H as <-.
  exists x. split; [reflexivity|exact (utf8_un _ _ E)].
Qed.
