(** Cavity files that are refused, and numbers that are not there. *)
From Coq Require Import Reals List String Ascii Bool NArith ZArith Arith Lia.
From Verif Require Import SMap Dbl Config_Spec Lexer_Spec Number_Spec Lexer_Model Machine_Model Machine_Proofs Util_Model Util_Spec
  Lexer_Proofs Number_Proofs Util_Proofs Util2_Proofs Util3_Proofs Moment_Model Cavity_Model Cavity4_Spec Thin_Model Thin_Spec Thin_Proofs Thin2_Proofs.
Import ListNotations.
Open Scope char_scope.
Open Scope list_scope.

Lemma blank_after rest : ~ In c_nl rest -> ends rest -> (forall x, ~ begins rest [x]) -> Forall white rest.
Proof.
  intros N E H. destruct (drop_split is_space rest) as (b & D & Hb & Hd).
  assert (W : Forall white b).
  { apply Forall_forall. intros c Hc. rewrite forallb_forall in Hb. apply space_white; [|apply Hb, Hc].
    destruct (is_nl c) eqn:X; [|reflexivity]. apply is_nl_spec in X. subst c. exfalso. apply N. rewrite D. apply in_or_app. auto. }
  destruct (drop is_space rest) as [|c r] eqn:ED; [rewrite app_nil_r in D; rewrite D; exact W|]. exfalso.
  destruct (span (fun c => negb (is_space c)) (c :: r)) as [p q] eqn:SP.
  assert (HS : c :: r = p ++ q /\ p <> [] /\ Forall (fun c => ~ white c) p /\ ends q).
  { assert (NS : is_space c = false) by (destruct Hd as [Hd|(c0 & r0 & Hd & X)]; [discriminate|injection Hd as -> _; exact X]). clear -SP NS N D.
    assert (G : forall l p q, ~ In c_nl l -> span (fun c => negb (is_space c)) l = (p, q) -> l = p ++ q /\ Forall (fun c => ~ white c) p /\ ends q).
    { clear. induction l as [|c l IH]; intros p q N SP; cbn [span] in SP.
      - injection SP as <- <-. split; [reflexivity|]. split; [constructor|left; reflexivity].
      - destruct (is_space c) eqn:S; cbn [negb] in SP.
        + injection SP as <- <-. split; [reflexivity|]. split; [constructor|]. right. exists c, l. split; [reflexivity|]. apply space_white; [|exact S].
          destruct (is_nl c) eqn:X; [|reflexivity]. apply is_nl_spec in X. subst c. exfalso. apply N. left. reflexivity.
        + destruct (span _ l) as [p' q'] eqn:S'. injection SP as <- <-. destruct (IH p' q' ltac:(intros I; apply N; right; exact I) eq_refl) as (A & B & C).
          split; [cbn; f_equal; exact A|]. split; [|exact C]. constructor; [|exact B]. intros W. apply white_space in W. congruence. }
    assert (N' : ~ In c_nl (c :: r)) by (intros I; apply N; rewrite D; apply in_or_app; auto).
    destruct (G _ _ _ N' SP) as (A & B & C). split; [exact A|]. split; [|auto].
    intros ->. cbn [span] in SP. rewrite NS in SP. cbn [negb] in SP. destruct (span _ r). discriminate. }
  destruct HS as (A & B & C & Q). apply (H p). rewrite D, A. constructor; auto. constructor. exact Q.
Qed.
Lemma no_more rest : Forall white rest -> fst (get_number (at_rest rest)) = Unset.
Proof.
  intros W. unfold get_number, at_rest, sentry. cbn [is_eof is_fail is_rest]. rewrite orb_false_r. destruct rest as [|c r]; [reflexivity|]. cbn [null].
  assert (E : drop is_space (c :: r) = []).
  { assert (X := drop_app is_space (c :: r) [] ltac:(apply whites, W)). rewrite app_nil_r in X. exact X. }
  rewrite E. reflexivity.
Qed.
Lemma line_unset l t : ~ In c_nl l -> thin_line l = Ok t -> unset_field l t.
Proof.
  intros N H w' n' a' b' B Fa Fb Nf NX. unfold thin_line, is_open in H.
  destruct (get_word _) as [w s1] eqn:E1. destruct (get_word s1) as [n s2] eqn:E2. destruct (get_number s2) as [a s3] eqn:E3. destruct (get_number s3) as [b s4] eqn:E4.
  assert (B0 := B). apply begins_inv in B0 as (p1 & r1 & L1 & W1 & N1 & V1 & Q1 & B1).
  apply begins_inv in B1 as (p2 & r2 & L2 & W2 & N2 & V2 & Q2 & B2). apply begins_inv in B2 as (p3 & r3 & L3 & W3 & N3 & V3 & Q3 & B3).
  apply begins_inv in B3 as (p4 & r4 & L4 & W4 & N4 & V4 & Q4 & B4).
  assert (HN : ~ In c_nl r4) by (intros I; apply N; rewrite L1, L2, L3, L4, !in_app_iff; tauto).
  assert (NR : forall x, ~ begins r4 [x]).
  { intros x Hx. apply (NX x). rewrite L1. constructor; auto. rewrite L2. constructor; auto. rewrite L3. constructor; auto. rewrite L4. constructor; auto. }
  assert (WR := blank_after r4 HN Q4 NR).
  assert (P1 : Forall (fun c => is_space c = false) w') by (apply word_plain; [intros I; apply N; rewrite L1, !in_app_iff; tauto|exact V1]).
  assert (P2 : Forall (fun c => is_space c = false) n') by (apply word_plain; [intros I; apply N; rewrite L1, L2, !in_app_iff; tauto|exact V2]).
  rewrite L1, (get_word_ok p1 w' r1 W1 N1 P1 Q1) in E1. injection E1 as <- <-.
  assert (M1 : at_rest r1 = mkIS r1 false false) by (unfold at_rest; rewrite L2; destruct p2; [destruct n'; [contradiction|]|]; reflexivity).
  rewrite M1, L2, (get_word_ok p2 n' r2 W2 N2 P2 Q2) in E2. injection E2 as <- <-.
  assert (M2 : at_rest r2 = mkIS r2 false false) by (unfold at_rest; rewrite L3; destruct p3; [destruct a'; [contradiction|]|]; reflexivity).
  destruct (get_number_ok p3 a' r3 W3 Fa Q3) as (x & X & _). rewrite M2, L3, X in E3. injection E3 as <- <-.
  assert (M3 : at_rest r3 = mkIS r3 false false) by (unfold at_rest; rewrite L4; destruct p4; [destruct b'; [contradiction|]|]; reflexivity).
  destruct (get_number_ok p4 b' r4 W4 Fb Q4) as (y & Y & _). rewrite M3, L4, Y in E4. injection E4 as <- <-.
  destruct (String.eqb (string_of_list_ascii w') "drift" || String.eqb (string_of_list_ascii w') "AccGap")%bool eqn:D; [apply fieldless_dec in D; contradiction|].
  assert (U := no_more r4 WR). destruct (get_number (at_rest r4)) as [z s5]. cbn [fst] in U. subst z.
  match type of H with (if ?b then _ else _) = _ => destruct b; [discriminate|] end. injection H as <-. reflexivity.
Qed.
Lemma begins_untrim l' cs ws : begins l' ws -> Forall (eq c_cr) cs -> begins (l' ++ cs) ws.
Proof.
  intros B C. assert (WC : Forall white cs) by (eapply Forall_impl; [|exact C]; intros c <-; cbn; tauto).
  assert (EN : forall r, ends r -> ends (r ++ cs)).
  { intros r [->|(c & q & -> & Hc)].
    - cbn [app]. destruct WC as [|c q Hc]; [left; reflexivity|right; eauto].
    - right. exists c, (q ++ cs). auto. }
  induction B as [rest E|sp p rest ws W Np Nw E B IH]; [constructor; auto|].
  rewrite <- !app_assoc. constructor; auto.
Qed.
Lemma thin_unset s ls ts ds : made_of (txt s) ls -> thin_read (Some s) = Ok ts -> told ls ds -> Forall2 unset_field ds ts.
Proof.
  intros M H T. unfold thin_read in H. fold (txt s) in H. rewrite (lines_made _ _ M) in H. destruct M as [M _].
  revert ts H. induction T as [|l ls ds P T IH|l ls ds P T IH]; intros ts H.
  - injection H as <-. constructor.
  - inversion M; subst. rewrite passed_line in H by exact P. auto.
  - inversion M as [|? ? Ml Ms]; subst. rewrite read_data_line in H by exact P.
    destruct (thin_line (trim l)) as [t|] eqn:TL; [|discriminate]. cbn [rbind] in H. destruct (thin_lines ls) as [r|] eqn:R; [|discriminate]. injection H as <-.
    constructor; [|apply IH; auto]. assert (Nil : l <> []) by (intros ->; apply P; left; constructor).
    destruct (trim_spec l Ml Nil) as (cs & Et & C & _).
    assert (Mt : ~ In c_nl (trim l)) by (intros I; apply Ml; rewrite Et; apply in_or_app; auto).
    intros w n a b B Fa Fb Nf NX. apply (line_unset _ _ Mt TL w n a b); auto; [eapply begins_trim; eauto|].
    intros x Bx. apply (NX x). rewrite Et. apply begins_untrim; auto.
Qed.

(** ** Refused *)
Lemma Forall2_lens {A B} (P : A -> B -> Prop) l l' : Forall2 P l l' -> List.length l' = List.length l.
Proof. induction 1; cbn [List.length]; congruence. Qed.
Lemma files_refused w texts gen c t n k f phi mp eg :
  tfind "f" c = Some (TNum f) -> tfind "phi" c = Some (TNum phi) -> tfind "cavtype" c = Some (TStr t) -> nth_error named_types k = Some (t, n) ->
  get_flag w c "MpoleLevel" 2 = Ok mp -> (mp <= 2)%N -> get_flag w c "EmitGrowth" 0 = Ok eg -> (eg <= 1)%N ->
  let dir := get_str_def c "Eng_Data_Dir" (w_defpath w) in
  bad_table 2 (texts (dir ++ "/axisData_" ++ n ++ ".txt")%string) \/
  bad_table 7 (texts (dir ++ "/Multipole" ++ n ++ "/CaviMlp_" ++ n ++ ".txt")%string) \/
  bad_pieces (texts (dir ++ "/Multipole" ++ n ++ "/thinlenlon_" ++ n ++ ".txt")%string) ->
  load_cavity w (text_files (w_num w) texts gen) c = Throw RuntimeError.
Proof.
  intros Hf Hp Ht Hk M1 M2 G1 G2 dir BAD.
  assert (CF : cav_files t = Some (Datatypes.S k, ("/axisData_" ++ n ++ ".txt", ("/Multipole" ++ n ++ "/thinlenlon_" ++ n ++ ".txt", "/Multipole" ++ n ++ "/CaviMlp_" ++ n ++ ".txt")))%string).
  { destruct k as [|[|[|[|k]]]]; cbn in Hk; try (injection Hk as <- <-; reflexivity). destruct k; discriminate. }
  unfold load_cavity. unfold num_of, get_num. rewrite Hf, Hp. cbn [rbind]. rewrite M1. cbn [rbind]. rewrite G1. cbn [rbind].
  replace (N.ltb 2 mp) with false by (symmetry; apply N.ltb_ge; exact M2). replace (N.ltb 1 eg) with false by (symmetry; apply N.ltb_ge; exact G2). unfold rwhen at 1 2.
  unfold get_str at 1. rewrite Ht. cbn [rbind]. rewrite CF. fold dir.
  set (fetch := fun (nm : string) (cols : nat) => match cf_table (text_files (w_num w) texts gen) (dir ++ nm)%string with
        | Ok rows => rwhen (Nat.eqb (List.length rows) 0 || negb (forallb (fun r => Nat.leb cols (List.length r)) rows)) RuntimeError (Ok rows)
        | Throw _ => Throw RuntimeError end).
  assert (RT : forall nm cols, (exists rows, fetch nm cols = Ok rows) \/ fetch nm cols = Throw RuntimeError).
  { intros nm cols. unfold fetch. destruct (cf_table _ _) as [rows|]; [|auto]. unfold rwhen. destruct (_ || _)%bool; eauto. }
  assert (BT : forall nm cols, bad_table cols (texts (dir ++ nm)%string) -> fetch nm cols = Throw RuntimeError).
  { intros nm cols B. unfold fetch, text_files. cbn [cf_table]. destruct (is_absolute _); [|reflexivity]. cbn [negb].
    destruct (texts (dir ++ nm)%string) as [s|]; [|reflexivity]. destruct B as (ls & h & rows & A & D & B).
    destruct B as [B|B].
    - destruct B as (a & b & Ia & Ib & L). assert (X := read_ragged s ls h rows a b nt_empty A D Ia Ib L).
      destruct (nt_read nt_empty (Some s)) as [t0 o]. cbn [snd] in X. subst o. reflexivity.
    - destruct (List.in_dec Bool.bool_dec false (map (fun a => forallb (fun b => Nat.eqb (List.length a) (List.length b)) rows) rows)) as [I|I].
      + apply in_map_iff in I as (a & Fa & Ia). assert (exists b, In b rows /\ List.length a <> List.length b) as (b & Ib & L).
        { clear -Fa. induction rows as [|b rows IH]; [discriminate|]. cbn [forallb] in Fa. apply andb_false_iff in Fa as [Fa|Fa].
          - exists b. split; [left; reflexivity|]. apply Nat.eqb_neq, Fa.
          - destruct (IH Fa) as (b' & I & L). exists b'. split; [right; exact I|exact L]. }
        assert (X := read_ragged s ls h rows a b nt_empty A D Ia Ib L).
        destruct (nt_read nt_empty (Some s)) as [t0 o]. cbn [snd] in X. subst o. reflexivity.
      + assert (EQ : forall a b, In a rows -> In b rows -> List.length a = List.length b).
        { intros a b Ia Ib. destruct (forallb (fun b => Nat.eqb (List.length a) (List.length b)) rows) eqn:Fa.
          - rewrite forallb_forall in Fa. apply Nat.eqb_eq, Fa, Ib.
          - exfalso. apply I. apply in_map_iff. eauto. }
        destruct (read_described s ls h rows A D EQ) as (t0 & R & F & _). rewrite R.
        assert (TA := table_read (w_num w) _ _ F). 
        assert (Z : (Nat.eqb (List.length (map (map (w_num w)) (nt_rows t0))) 0 || negb (forallb (fun r => Nat.leb cols (List.length r)) (map (map (w_num w)) (nt_rows t0))))%bool = true).
        { unfold table_as in TA. destruct B as [->|(r & Ir & L)].
          - inversion TA. reflexivity.
          - apply orb_true_iff. right. apply negb_true_iff. clear -TA Ir L. revert Ir. induction TA as [|x y rows T X TA IH]; intros Ir; [destruct Ir|].
            cbn [forallb]. apply andb_false_iff. destruct Ir as [->|Ir]; [left|right; auto]. apply Nat.leb_gt. assert (Q := Forall2_lens _ _ _ X). lia. }
        unfold rwhen. rewrite Z. reflexivity. }
  cbv zeta. change (rbind (fetch ("/axisData_" ++ n ++ ".txt")%string 2%nat) (fun axis => rbind (fetch ("/Multipole" ++ n ++ "/CaviMlp_" ++ n ++ ".txt")%string 7%nat) (fun mlp =>
    rbind (cf_thin (text_files (w_num w) texts gen) (dir ++ "/Multipole" ++ n ++ "/thinlenlon_" ++ n ++ ".txt")%string) (fun lat =>
      Ok (mkCav (Datatypes.S k) (w_num w f) (w_num w phi * PI / 180) (num_def w c "Rm" 0) (negb (Reqb (num_def w c "forcettfcalc" 0) 0)) mp eg lat (map (fun r => (nth 0 r 0, nth 1 r 0)%R) axis) axis mlp
                [] None None None None)))) = Throw RuntimeError).
  destruct (RT ("/axisData_" ++ n ++ ".txt")%string 2%nat) as [[axis E1]|E1]; rewrite E1; [|reflexivity]. cbn [rbind].
  destruct (RT ("/Multipole" ++ n ++ "/CaviMlp_" ++ n ++ ".txt")%string 7%nat) as [[mlp E2]|E2]; rewrite E2; [|reflexivity]. cbn [rbind].
  destruct BAD as [B|[B|B]]; [rewrite (BT _ _ B) in E1; discriminate|rewrite (BT _ _ B) in E2; discriminate|].
  unfold text_files. cbn [cf_thin]. destruct (texts _) as [s|]; [|reflexivity].
  destruct B as (ls & l & ws & A & I & P & BG & WW). rewrite (thin_refused s ls l ws A I P BG WW). reflexivity.
Qed.

Open Scope string_scope.
Open Scope list_scope.
(** A table of two columns. *)
Definition narrow : string := ("1 1" ++ cnl)%string.
Lemma narrow_bad : bad_table 7 (Some narrow).
Proof.
  exists [txt "1 1"], None, [[txt "1"; txt "1"]]. split; [exact (made_lines (txt narrow))|]. split; [apply d_row; [|discriminate|constructor]|].
  - rw "" "1" " 1". rw " " "1" "". constructor. constructor.
  - right. right. eexists. split; [left; reflexivity|]. cbn. lia.
Qed.
Definition texts7 (n : string) : option string := if String.eqb n "/d/Multipole41/CaviMlp_41.txt" then Some narrow else texts6 n.
