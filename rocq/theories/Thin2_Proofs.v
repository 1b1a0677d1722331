(** From the data files to the cavity. *)
From Coq Require Import Reals List String Ascii Bool NArith ZArith Arith Lia.
From Verif Require Import SMap SMap_Proofs Dbl Config_Spec Lexer_Spec Number_Spec Lexer_Model Machine_Model Machine_Proofs Util_Model Util_Spec
  Lexer_Proofs Number_Proofs Util_Proofs Util2_Proofs Util3_Proofs Moment_Model Cavity_Model Cavity4_Spec Thin_Model Thin_Spec Thin_Proofs Moment_Proofs Cavity13_Proofs Cavity14_Proofs.
Import ListNotations.
Open Scope string_scope.
Open Scope list_scope.

Lemma Forall2_map_r {A B C} (P : A -> C -> Prop) (f : B -> C) a b : Forall2 (fun x y => P x (f y)) a b -> Forall2 P a (map f b).
Proof. induction 1; constructor; auto. Qed.
Lemma Forall2_imp {A B} (P Q : A -> B -> Prop) a b : (forall x y, P x y -> Q x y) -> Forall2 P a b -> Forall2 Q a b.
Proof. intros H. induction 1; constructor; auto. Qed.
Lemma table_read num rows T : Forall2 (Forall2 reads_as) rows T -> table_as num rows (map (map num) T).
Proof.
  intros H. apply Forall2_map_r. eapply Forall2_imp; [|exact H]. intros ws xs Hx. cbn beta in *. apply Forall2_map_r.
  eapply Forall2_imp; [|exact Hx]. cbn. eauto.
Qed.
Lemma table_wide num n rows T : table_as num rows T -> rows <> [] -> Forall (fun r => (n <= List.length r)%nat) rows ->
  (Nat.eqb (List.length T) 0 || negb (forallb (fun r => Nat.leb n (List.length r)) T))%bool = false.
Proof.
  intros H N W. apply orb_false_iff. split.
  - destruct H; [contradiction|reflexivity].
  - apply negb_false_iff, forallb_forall. intros r Hr. apply Nat.leb_le. induction H as [|a b rows T Hab H IH]; [destruct Hr|].
    inversion W as [|? ? Wa Ws]; subst. destruct Hr as [<-|Hr]; [rewrite <- (Forall2_len _ _ _ Hab); exact Wa|].
    apply IH; auto. intros ->. inversion H; subst. destruct Hr.
Qed.
Lemma raws_used num Ps ts : Forall2 read_as Ps ts -> exists lat, thin_raws num ts = Ok lat /\ Forall2 (used_as num) Ps lat.
Proof.
  induction 1 as [|P t Ps ts (R1 & R2 & (x & X1 & X2) & R4 & R5 & R6) H (lat & E & F)]; [exists []; split; [reflexivity|constructor]|].
  cbn [thin_raws]. unfold thin_raw. rewrite X1. assert (D : (String.eqb (th_type t) "drift" || String.eqb (th_type t) "AccGap")%bool = true <-> fieldless (pi_type P)).
  { rewrite <- R1. rewrite <- fieldless_dec. unfold txt. rewrite string_of_list_ascii_of_string. reflexivity. }
  destruct (String.eqb (th_type t) "drift" || String.eqb (th_type t) "AccGap")%bool.
  - assert (FL := proj1 D eq_refl). rewrite (R6 FL). cbn [rbind]. rewrite E. cbn [rbind]. eexists. split; [reflexivity|]. constructor; [|exact F].
    unfold used_as. cbn [r_type r_len r_E0]. repeat split; eauto. intros C. contradiction.
  - assert (NF : ~ fieldless (pi_type P)) by (intros C; apply D in C; discriminate). destruct (R5 NF) as (y & Y1 & Y2). rewrite Y1. cbn [rbind]. rewrite E. cbn [rbind].
    eexists. split; [reflexivity|]. constructor; [|exact F].
    unfold used_as. cbn [r_type r_len r_E0]. repeat split; eauto. intros C. contradiction.
Qed.
Lemma columns_of axis : Forall (fun r => (2 <= List.length r)%nat) axis -> columns axis (map (fun r => (nth 0 r 0%R, nth 1 r 0%R)) axis).
Proof.
  intros H. apply Forall2_map_r. induction H as [|r l Hr H IH]; constructor; [|exact IH].
  destruct r as [|a [|b r]]; cbn in Hr; try lia. split; reflexivity.
Qed.
Lemma from_text w texts gen c t n k f phi mp eg s1 ls1 h1 rows1 s2 ls2 h2 rows2 s3 ls3 Ps :
  tfind "f" c = Some (TNum f) -> tfind "phi" c = Some (TNum phi) -> tfind "cavtype" c = Some (TStr t) -> nth_error named_types k = Some (t, n) ->
  get_flag w c "MpoleLevel" 2 = Ok mp -> (mp <= 2)%N -> get_flag w c "EmitGrowth" 0 = Ok eg -> (eg <= 1)%N ->
  let dir := get_str_def c "Eng_Data_Dir" (w_defpath w) in
  is_absolute dir = true ->
  texts (dir ++ "/axisData_" ++ n ++ ".txt")%string = Some s1 -> made_of (txt s1) ls1 -> describes ls1 h1 rows1 ->
  rows1 <> [] -> Forall (fun r => (2 <= List.length r)%nat) rows1 -> (forall a b, In a rows1 -> In b rows1 -> List.length a = List.length b) ->
  texts (dir ++ "/Multipole" ++ n ++ "/CaviMlp_" ++ n ++ ".txt")%string = Some s2 -> made_of (txt s2) ls2 -> describes ls2 h2 rows2 ->
  rows2 <> [] -> Forall (fun r => (7 <= List.length r)%nat) rows2 -> (forall a b, In a rows2 -> In b rows2 -> List.length a = List.length b) ->
  texts (dir ++ "/Multipole" ++ n ++ "/thinlenlon_" ++ n ++ ".txt")%string = Some s3 -> made_of (txt s3) ls3 -> lists_pieces ls3 Ps ->
  exists cv, load_cavity w (text_files (w_num w) texts gen) c = Ok cv /\
    cv_f cv = w_num w f /\ cv_phi cv = (w_num w phi * PI / 180)%R /\ cv_mp cv = mp /\ cv_eg cv = eg /\ cv_cavi cv = Datatypes.S k /\
    table_as (w_num w) rows1 (cv_axis cv) /\ columns (cv_axis cv) (cv_data cv) /\ table_as (w_num w) rows2 (cv_mlp cv) /\
    Forall2 (used_as (w_num w)) Ps (cv_lat cv).
Proof.
  intros Hf Hp Ht Hk M1 M2 G1 G2 dir AB T1 A1 D1 N1 W1 L1 T2 A2 D2 N2 W2 L2 T3 A3 D3.
  destruct (read_described _ _ _ _ A1 D1 L1) as (t1 & R1 & F1 & _). destruct (read_described _ _ _ _ A2 D2 L2) as (t2 & R2 & F2 & _).
  destruct (thin_described _ _ _ A3 D3) as (ts & R3 & F3). destruct (raws_used (w_num w) _ _ F3) as (lat & R4 & F4).
  assert (X1 := table_read (w_num w) _ _ F1). assert (X2 := table_read (w_num w) _ _ F2).
  assert (AB' : forall x, is_absolute (dir ++ x)%string = true). { intros x. clear -AB. destruct dir; [discriminate|exact AB]. }
  assert (CF : cav_files t = Some (Datatypes.S k, ("/axisData_" ++ n ++ ".txt", ("/Multipole" ++ n ++ "/thinlenlon_" ++ n ++ ".txt", "/Multipole" ++ n ++ "/CaviMlp_" ++ n ++ ".txt")))%string).
  { destruct k as [|[|[|[|k]]]]; cbn in Hk; try (injection Hk as <- <-; reflexivity). destruct k; discriminate. }
  unfold load_cavity. unfold num_of, get_num. rewrite Hf, Hp. cbn [rbind]. rewrite M1. cbn [rbind]. rewrite G1. cbn [rbind].
  replace (N.ltb 2 mp) with false by (symmetry; apply N.ltb_ge; exact M2). replace (N.ltb 1 eg) with false by (symmetry; apply N.ltb_ge; exact G2). unfold rwhen at 1 2.
  unfold get_str at 1. rewrite Ht. cbn [rbind]. rewrite CF. fold dir. unfold text_files. cbn [cf_table cf_thin]. rewrite !AB'. cbn [negb].
  rewrite T1, T2, T3, R1, R2, R3. cbn [rbind]. rewrite R4. 
  rewrite (table_wide (w_num w) 2 rows1) by assumption. unfold rwhen at 1. cbn [rbind].
  rewrite (table_wide (w_num w) 7 rows2) by assumption. unfold rwhen at 1. cbn [rbind].
  eexists. split; [reflexivity|]. cbn [cv_f cv_phi cv_mp cv_eg cv_cavi cv_axis cv_data cv_mlp cv_lat].
  repeat split; auto. apply columns_of.
  assert (W := table_wide (w_num w) 2 rows1 _ X1 N1 W1). apply wide_rows in W. apply W.
Qed.

(** ** Generic cavities *)
Lemma str_ok c n s : get_str c n = Ok s -> tfind n c = Some (TStr s).
Proof. unfold get_str. destruct (tfind n c) as [[]|]; try discriminate. intros [= ->]. reflexivity. Qed.
Lemma num_ok w c n r : num_of w c n = Ok r -> exists x, tfind n c = Some (TNum x) /\ r = w_num w x.
Proof. unfold num_of, get_num. destruct (tfind n c) as [[]|]; try discriminate. intros [= <-]. eauto. Qed.
Lemma nth_error_firstn {A} (l : list A) n i : (i < n)%nat -> nth_error (firstn n l) i = nth_error l i.
Proof. revert n i. induction l as [|x l IH]; intros [|n] [|i] H; cbn; try lia; auto; apply IH; lia. Qed.
Lemma nth_error_skipn {A} (l : list A) n i : nth_error (skipn n l) i = nth_error l (n + i).
Proof. revert l. induction n as [|n IH]; intros l; [reflexivity|]. destruct l as [|x l]; [destruct i; reflexivity|]. cbn. apply IH. Qed.
Lemma nth_some {A} (l : list A) i : (i < List.length l)%nat -> exists x, nth_error l i = Some x.
Proof. intros H. destruct (nth_error l i) eqn:E; [eauto|]. apply nth_error_None in E. lia. Qed.
Section Generic.
Variable w : world.
Definition gap (EC : tcfg) : Prop := tfind "type" EC = Some (TStr "AccGap").
Lemma piece_made EC syn P syn' : gen_piece w EC syn = Ok (P, syn') ->
  element_piece (w_num w) EC P /\
  (~ gap EC -> syn' = syn) /\ (syn <> [] -> syn' = syn) /\
  (gap EC -> syn = [] -> exists attr, tfind "attr" EC = Some (TVec attr) /\ List.length syn' = 3%nat /\
     forall i, (i < 3)%nat -> exists x, nth_error attr (20 + i) = Some x /\ nth_error syn' i = Some (w_num w x)).
Proof.
  unfold gen_piece. intros H. apply rbind_ok in H as (t & Ht & H). apply rbind_ok in H as (L & HL & H).
  apply str_ok in Ht. apply num_ok in HL as (l & HL & ->). unfold gap. rewrite Ht. destruct (String.eqb_spec t "drift") as [->|ND].
  - injection H as <- <-. split; [|repeat split; auto; intros [=]]. exists l. cbn [r_type r_len]. rewrite Ht. repeat split; auto. intros C. congruence.
  - apply rbind_ok in H as (V & HV & H). apply num_ok in HV as (v & HV & ->).
    set (attrs := match try_vec w EC "attr" with Some l => l | None => [] end) in *.
    apply rwhen_ok in H as [Hlen H]. apply Nat.ltb_ge in Hlen.
    assert (HA : exists attr, tfind "attr" EC = Some (TVec attr) /\ attrs = map (w_num w) attr).
    { unfold attrs, try_vec in *. destruct (tfind "attr" EC) as [[]|]; cbn in Hlen; try lia. eauto. }
    destruct HA as (attr & HA & EA).
    assert (EP : element_piece (w_num w) EC (mkRaw t (w_num w l) (w_num w v) (firstn 10 attrs) (firstn 10 (skipn 10 attrs)))).
    { exists l. cbn [r_type r_len r_E0 r_T r_S]. rewrite Ht. split; [reflexivity|]. split; [exact HL|]. split; [reflexivity|]. intros _. exists v, attr.
      split; [exact HV|]. split; [reflexivity|]. split; [exact HA|]. split; [rewrite firstn_length; lia|].
      split; [rewrite firstn_length, skipn_length; lia|].
      intros i Hi. rewrite EA, map_length in Hlen. destruct (nth_some attr i ltac:(lia)) as [a Ha]. destruct (nth_some attr (10 + i) ltac:(lia)) as [b Hb].
      exists a, b. rewrite !nth_error_firstn by lia. rewrite nth_error_skipn, EA, !nth_error_map, Ha, Hb. repeat split. }
    destruct (String.eqb_spec t "AccGap") as [->|NG]; cbn [andb] in H.
    + destruct (Nat.eqb_spec (List.length syn) 0) as [Z|Z].
      * apply rwhen_ok in H as [H23 H]. apply Nat.ltb_ge in H23. apply ok_in in H. assert (E1 := f_equal fst H). assert (E2 := f_equal snd H). cbn [fst snd] in E1, E2. subst P syn'. split; [exact EP|].
        split; [intros C; congruence|]. split; [intros C; destruct syn; [congruence|discriminate]|].
        intros _ _. exists attr. split; [exact HA|]. split; [rewrite firstn_length, skipn_length; lia|].
        intros i Hi. rewrite EA, map_length in H23. destruct (nth_some attr (20 + i) ltac:(lia)) as [a Ha]. exists a.
        rewrite nth_error_firstn by lia. rewrite nth_error_skipn, EA, nth_error_map, Ha. repeat split.
      * injection H as <- <-. split; [exact EP|]. split; [auto|]. split; [auto|]. intros _ ->. cbn in Z. congruence.
    + injection H as <- <-. split; [exact EP|]. split; [auto|]. split; [auto|]. intros [= C]. congruence.
Qed.
Lemma pieces_kept Es : forall syn lat syn', gen_pieces w Es syn = Ok (lat, syn') -> syn <> [] -> syn' = syn.
Proof.
  induction Es as [|EC Es IH]; intros syn lat syn' H N; cbn [gen_pieces] in H; [injection H as _ <-; reflexivity|].
  apply rbind_ok in H as ([P s1] & H1 & H). apply rbind_ok in H as ([r s2] & H2 & H). injection H as _ <-.
  destruct (piece_made _ _ _ _ H1) as (_ & _ & K & _). specialize (K N). subst s1. eapply IH; eauto.
Qed.
Lemma pieces_made Es : forall syn lat syn', gen_pieces w Es syn = Ok (lat, syn') ->
  Forall2 (element_piece (w_num w)) Es lat /\ (syn = [] -> first_gap (w_num w) Es syn').
Proof.
  induction Es as [|EC Es IH]; intros syn lat syn' H; cbn [gen_pieces] in H.
  - injection H as <- <-. split; [constructor|]. intros ->. split; [reflexivity|]. intros a EC b attr E. destruct a; discriminate.
  - apply rbind_ok in H as ([P s1] & H1 & H). apply rbind_ok in H as ([r s2] & H2 & H). injection H as <- <-.
    destruct (piece_made _ _ _ _ H1) as (EP & K1 & K2 & K3). destruct (IH _ _ _ H2) as [F G]. split; [constructor; assumption|]. intros ->.
    assert (DG : gap EC \/ ~ gap EC). { unfold gap. destruct EP as (? & -> & _). destruct (string_dec (r_type P) "AccGap") as [->|N]; [left; reflexivity|right; intros [= C]; congruence]. }
    destruct DG as [D|D].
    + destruct (K3 D eq_refl) as (attr & A1 & A2 & A3). assert (S1 : s1 <> []) by (intros ->; discriminate).
      rewrite (pieces_kept _ _ _ _ H2 S1). split; [intros C; exfalso; apply (C EC); [left; reflexivity|exact D]|].
      intros a E' b at' E Hn _ HA. destruct a as [|x a].
      * injection E as <- _. rewrite A1 in HA. injection HA as <-. auto.
      * injection E as <- _. exfalso. apply (Hn EC); [left; reflexivity|exact D].
    + rewrite (K1 D) in *. destruct (G eq_refl) as [G1 G2]. split.
      * intros C. apply G1. intros E HE. apply C. right. exact HE.
      * intros a E' b at' E Hn HG HA. destruct a as [|x a]; [injection E as <- _; contradiction|].
        injection E as <- ->. apply (G2 a E' b at' eq_refl); auto. intros y Hy. apply Hn. right. exact Hy.
Qed.
Lemma generic_loaded files c cv : load_cavity w files c = Ok cv -> tfind "cavtype" c = Some (TStr "Generic") ->
  exists df conf Es Ez,
    tfind "datafile" c = Some (TStr df) /\ cf_gen files (get_str_def c "Eng_Data_Dir" (w_defpath w) ++ "/" ++ df)%string = Ok (Some conf) /\
    tfind "elements" conf = Some (TCfgs Es) /\ Forall2 (element_piece (w_num w)) Es (cv_lat cv) /\ first_gap (w_num w) Es (cv_syn cv) /\
    tfind "Ez" conf = Some (TVec Ez) /\ List.concat (cv_axis cv) = map (w_num w) Ez /\ Forall (fun r => List.length r = 2%nat) (cv_axis cv) /\
    columns (cv_axis cv) (cv_data cv) /\
    (forall x, tfind "Rm" conf = Some (TNum x) -> cv_Rm cv = w_num w x) /\
    (forall x, tfind "RefNorm" conf = Some (TNum x) -> cv_nrm cv = Some (w_num w x)) /\
    (forall x, tfind "SyncFit" conf = Some (TVec x) -> cv_cx cv = Some (map (w_num w) x)) /\
    (forall x, tfind "EnergyLimit" conf = Some (TVec x) -> cv_eklim cv = Some (map (w_num w) x)) /\
    (forall x, tfind "NormLimit" conf = Some (TVec x) -> cv_nrlim cv = Some (map (w_num w) x)).
Proof.
  intros L Ht. unfold load_cavity in L.
  apply rbind_ok in L. destruct L as (f & _ & L). apply rbind_ok in L. destruct L as (ph & _ & L). cbv zeta in L.
  apply rbind_ok in L. destruct L as (mp & _ & L). apply rbind_ok in L. destruct L as (eg & _ & L).
  apply rwhen_ok in L. destruct L as [_ L]. apply rwhen_ok in L. destruct L as [_ L].
  unfold get_str at 1 in L. rewrite Ht in L. cbn [rbind] in L. change (cav_files "Generic") with (@None (nat * (string * (string * string)))) in L.
  change (String.eqb "Generic" "Generic") with true in L. cbv iota in L.
  apply rbind_ok in L as (df & Hdf & L). apply str_ok in Hdf. apply rbind_ok in L as (o & Ho & L). destruct o as [conf|]; [|discriminate].
  apply rbind_ok in L as (Es & HE & L). apply rbind_ok in L as ([lat syn] & HP & L). apply rbind_ok in L as (Ez & HZ & L). apply rbind_ok in L as (t & HR & L).
  apply ok_in in L. subst cv. cbn [cv_lat cv_syn cv_axis cv_data cv_Rm cv_nrm cv_cx cv_eklim cv_nrlim].
  destruct (pieces_made _ _ _ _ HP) as [F G]. exists df, conf, Es, Ez.
  split; [exact Hdf|]. split; [exact Ho|].
  split. { unfold get_cfgs in HE. destruct (tfind "elements" conf) as [[]|]; try discriminate. injection HE as ->. reflexivity. }
  split; [exact F|]. split; [apply G; reflexivity|].
  split. { unfold get_vec in HZ. destruct (tfind "Ez" conf) as [[]|]; try discriminate. injection HZ as ->. reflexivity. }
  assert (RV : List.concat (nt_rows t) = Ez /\ Forall (fun r => List.length r = 2%nat) (nt_rows t)).
  { destruct (Z.eq_dec (Z.of_nat (List.length Ez) mod 2) 0) as [E|E].
    - destruct (readvec_full nt_empty Ez 2 eq_refl E) as (t' & R1 & _ & R2 & R3). rewrite R1 in HR. injection HR as <-. split; [exact R2|].
      eapply Forall_impl; [|exact R3]. cbn. intros. lia.
    - rewrite readvec_part in HR by (assumption || reflexivity). discriminate. }
  destruct RV as [RV1 RV2].
  assert (W2 : Forall (fun r => List.length r = 2%nat) (map (map (w_num w)) (nt_rows t))).
  { apply Forall_map. eapply Forall_impl; [|exact RV2]. cbn. intros. rewrite map_length. assumption. }
  split; [rewrite <- concat_map, RV1; reflexivity|]. split; [exact W2|].
  split; [apply columns_of; eapply Forall_impl; [|exact W2]; cbn; intros; lia|].
  unfold try_num, try_vec. repeat split; intros x ->; reflexivity.
Qed.
End Generic.

(** ** Examples *)
Lemma whites_b l : forallb (fun c => existsb (Ascii.eqb c) [" "; c_tab; "011"; "012"; c_cr]%char) l = true -> Forall white l.
Proof.
  intros H. apply Forall_forall. intros c Hc. rewrite forallb_forall in H. specialize (H c Hc). apply existsb_exists in H as (x & Hx & E).
  apply Ascii.eqb_eq in E. subst x. exact Hx.
Qed.
Definition not_white (c : ascii) : bool := negb (is_space c).
Lemma word_b p : forallb not_white p = true -> Forall (fun c => ~ white c) p.
Proof.
  intros H. apply Forall_forall. intros c Hc W. rewrite forallb_forall in H. specialize (H c Hc). unfold not_white in H. rewrite (white_space _ W) in H. discriminate.
Qed.
Lemma ends_sp r : ends (txt (String " " r)).
Proof. right. exists " "%char, (txt r). split; [reflexivity|left; reflexivity]. Qed.
Lemma ends_nil : ends [].
Proof. left. reflexivity. Qed.
Ltac en := first [apply ends_nil|apply ends_sp].
Ltac bg sp p rest := apply (b_word (txt sp) (txt p) (txt rest)); [apply whites_b; reflexivity|discriminate|apply word_b; reflexivity|en|].
Lemma fit_b p x : extract p = (Some x, []) -> fits p.
Proof. intros H. apply fits_read. eauto. Qed.
Ltac fit := eapply fit_b; vm_compute; reflexivity.
Definition text6 : string := ("%comment" ++ cnl ++ "drift d1 1 17" ++ cnl ++ " " ++ cnl ++ " EFocus1 e1 0 17 1.0" ++ ccr ++ cnl ++ "AccGap g 0 17 x" ++ cnl)%string.
Definition lines6 : list (list ascii) := [txt "%comment"; txt "drift d1 1 17"; txt " "; txt (" EFocus1 e1 0 17 1.0" ++ ccr); txt "AccGap g 0 17 x"].
Definition pieces6 : list piece :=
  [mkPiece (txt "drift") (txt "d1") (txt "1") (txt "17") []; mkPiece (txt "EFocus1") (txt "e1") (txt "0") (txt "17") (txt "1.0");
   mkPiece (txt "AccGap") (txt "g") (txt "0") (txt "17") []].
Lemma made6 : made_of (txt text6) lines6.
Proof. exact (made_lines (txt text6)). Qed.
Lemma pieces6_listed : lists_pieces lines6 pieces6.
Proof.
  apply lp_skip; [right; exists [], (txt "comment"); split; [constructor|reflexivity]|].
  apply lp_piece. { split; [discriminate|]. split; [fit|]. split; [fit|]. left. split; [left; reflexivity|]. cbn [pi_type pi_name pi_len pi_aper].
    bg "" "drift" " d1 1 17". bg " " "d1" " 1 17". bg " " "1" " 17". bg " " "17" "". constructor. en. }
  apply lp_skip; [left; repeat constructor|].
  apply lp_piece. { split; [discriminate|]. split; [fit|]. split; [fit|]. right. split; [intros [H|H]; discriminate|]. split; [fit|]. cbn [pi_type pi_name pi_len pi_aper pi_E0].
    bg " " "EFocus1" (" e1 0 17 1.0" ++ ccr)%string. bg " " "e1" (" 0 17 1.0" ++ ccr)%string. bg " " "0" (" 17 1.0" ++ ccr)%string. bg " " "17" (" 1.0" ++ ccr)%string.
    apply (b_word (txt " ") (txt "1.0") (txt ccr)); [apply whites_b; reflexivity|discriminate|apply word_b; reflexivity| |constructor].
    all: right; exists c_cr, []; (split; [reflexivity|do 4 right; left; reflexivity]). }
  apply lp_piece. { split; [discriminate|]. split; [fit|]. split; [fit|]. left. split; [right; reflexivity|]. cbn [pi_type pi_name pi_len pi_aper].
    bg "" "AccGap" " g 0 17 x". bg " " "g" " 0 17 x". bg " " "0" " 17 x". bg " " "17" " x". constructor. en. }
  constructor.
Qed.
Definition table6 : string := ("1 1 1 1 1 1 1" ++ cnl ++ "0 0 1 1 1 1 1" ++ cnl)%string.
Definition rows6 : list (list (list ascii)) := [repeat (txt "1") 7; [txt "0"; txt "0"; txt "1"; txt "1"; txt "1"; txt "1"; txt "1"]].
Ltac rw sp p rest := apply (row_word (txt sp) (txt p) (txt rest)); [apply whites_b; reflexivity|fit|en|].
Lemma described6 : made_of (txt table6) [txt "1 1 1 1 1 1 1"; txt "0 0 1 1 1 1 1"] /\ describes [txt "1 1 1 1 1 1 1"; txt "0 0 1 1 1 1 1"] None rows6.
Proof.
  split; [exact (made_lines (txt table6))|]. apply d_row; [|discriminate|apply d_row; [|discriminate|constructor]].
  - rw "" "1" " 1 1 1 1 1 1". rw " " "1" " 1 1 1 1 1". rw " " "1" " 1 1 1 1". rw " " "1" " 1 1 1". rw " " "1" " 1 1". rw " " "1" " 1". rw " " "1" "". constructor. constructor.
  - rw "" "0" " 0 1 1 1 1 1". rw " " "0" " 1 1 1 1 1". rw " " "1" " 1 1 1 1". rw " " "1" " 1 1 1". rw " " "1" " 1 1". rw " " "1" " 1". rw " " "1" "". constructor. constructor.
Qed.
Definition texts6 (n : string) : option string :=
  if String.eqb n "/d/Multipole41/thinlenlon_41.txt" then Some text6
  else if (String.eqb n "/d/axisData_41.txt" || String.eqb n "/d/Multipole41/CaviMlp_41.txt")%bool then Some table6 else None.
Definition cavity6 : tcfg :=
  TCfg [("Eng_Data_Dir", TStr "/d"); ("L", TNum done); ("cavtype", TStr "0.041QWR"); ("f", TNum done); ("name", TStr "c");
        ("phi", TNum done); ("scl_fac", TNum done); ("type", TStr "rfcavity")] [].

(** ** What is not refused *)
Lemma C66_missing_number_refuted_w : exists s ls l,
  made_of (txt s) ls /\ In l ls /\ begins l [txt "EFocus1"; txt "e1"; txt "1"; txt "17"] /\ (forall w, ~ begins l [txt "EFocus1"; txt "e1"; txt "1"; txt "17"; w]) /\
  exists ts t, thin_read (Some s) = Ok ts /\ In t ts /\ th_E0 t = Unset.
Proof.
  exists ("EFocus1 e1 1 17" ++ cnl)%string, [txt "EFocus1 e1 1 17"], (txt "EFocus1 e1 1 17").
  split; [exact (made_lines (txt ("EFocus1 e1 1 17" ++ cnl)))|]. split; [left; reflexivity|].
  split. { bg "" "EFocus1" " e1 1 17". bg " " "e1" " 1 17". bg " " "1" " 17". bg " " "17" "". constructor. en. }
  split.
  - intros w B. assert (N : ~ In c_nl (txt "EFocus1 e1 1 17")) by (cbn; intuition discriminate).
    destruct (word_step _ _ _ N B) as (r1 & E1 & B1 & N1). change (get_word (mkIS (txt "EFocus1 e1 1 17") false false)) with ("EFocus1", at_rest (txt " e1 1 17")) in E1. injection E1 as <-.
    destruct (word_step _ _ _ N1 B1) as (r2 & E2 & B2 & N2). change (get_word (mkIS (txt " e1 1 17") false false)) with ("e1", at_rest (txt " 1 17")) in E2. injection E2 as <-.
    destruct (word_step _ _ _ N2 B2) as (r3 & E3 & B3 & N3). change (get_word (mkIS (txt " 1 17") false false)) with ("1", at_rest (txt " 17")) in E3. injection E3 as <-.
    destruct (word_step _ _ _ N3 B3) as (r4 & E4 & B4 & N4). change (get_word (mkIS (txt " 17") false false)) with ("17", at_rest (txt "")) in E4. injection E4 as <-.
    apply begins_inv in B4 as (sp & rest & E & _ & Np & _). destruct sp; [|discriminate]. destruct w; [contradiction|discriminate].
  - eexists. eexists. split; [vm_compute; reflexivity|]. split; [left; reflexivity|reflexivity].
Qed.
Lemma C66_half_a_number_refuted_w : exists s ls l x,
  made_of (txt s) ls /\ In l ls /\ begins l [txt "EFocus1"; txt "e1"; txt "1"; txt "17"; x] /\ ~ fits x /\
  exists ts t, thin_read (Some s) = Ok ts /\ In t ts /\ th_E0 t = Failed.
Proof.
  exists ("EFocus1 e1 1 17 2e" ++ cnl)%string, [txt "EFocus1 e1 1 17 2e"], (txt "EFocus1 e1 1 17 2e"), (txt "2e").
  split; [exact (made_lines (txt ("EFocus1 e1 1 17 2e" ++ cnl)))|]. split; [left; reflexivity|].
  split. { bg "" "EFocus1" " e1 1 17 2e". bg " " "e1" " 1 17 2e". bg " " "1" " 17 2e". bg " " "17" " 2e". bg " " "2e" "". constructor. en. }
  split. { intros F. apply fits_read in F as (x & E). vm_compute in E. discriminate. }
  eexists. eexists. split; [vm_compute; reflexivity|]. split; [left; reflexivity|reflexivity].
Qed.
Lemma C66_carriage_return_refuted_w : exists s1 s2 ls,
  made_of (txt s1) ls /\ made_of (txt s2) (map (fun l => l ++ [c_cr]) ls) /\
  exists ts1 ts2, thin_read (Some s1) = Ok ts1 /\ thin_read (Some s2) = Ok ts2 /\ List.length ts1 = 1%nat /\ List.length ts2 = 2%nat /\
    exists t, In t ts2 /\ th_type t = "" /\ th_len t = Unset.
Proof.
  exists ("drift d 1 17" ++ cnl ++ cnl)%string, ("drift d 1 17" ++ ccr ++ cnl ++ ccr ++ cnl)%string, [txt "drift d 1 17"; []].
  split; [exact (made_lines (txt ("drift d 1 17" ++ cnl ++ cnl)))|]. split; [exact (made_lines (txt ("drift d 1 17" ++ ccr ++ cnl ++ ccr ++ cnl)))|].
  eexists. eexists. split; [vm_compute; reflexivity|]. split; [vm_compute; reflexivity|]. split; [reflexivity|]. split; [reflexivity|].
  eexists. split; [right; left; reflexivity|]. split; reflexivity.
Qed.
