(** Reading thin lens files. *)
From Coq Require Import Reals List String Ascii Bool ZArith Arith Lia.
From Verif Require Import SMap Dbl Config_Spec Lexer_Spec Number_Spec Lexer_Model Machine_Model Machine_Proofs Util_Model Util_Spec
  Lexer_Proofs Number_Proofs Util_Proofs Util2_Proofs Util3_Proofs Moment_Model Cavity_Model Thin_Model Thin_Spec.
Import ListNotations.
Open Scope char_scope.
Open Scope list_scope.

Lemma ends_stops r : ends r -> stops r. Proof. exact (fun H => H). Qed.
Definition null {A} (l : list A) : bool := match l with [] => true | _ => false end.
Definition at_rest (r : list ascii) : istr := mkIS r (null r) false.

Lemma span_word p rest : Forall (fun c => is_space c = false) p -> ends rest -> span (fun c => negb (is_space c)) (p ++ rest) = (p, rest).
Proof.
  intros H E. induction H as [|c p Hc H IH].
  - cbn [app]. destruct E as [->|(c & r & -> & W)]; [reflexivity|]. cbn [span]. rewrite (white_space _ W). reflexivity.
  - cbn [app span]. rewrite Hc. cbn [negb]. rewrite IH. reflexivity.
Qed.
Lemma word_plain p : ~ In c_nl p -> Forall (fun c => ~ white c) p -> Forall (fun c => is_space c = false) p.
Proof.
  intros N H. apply Forall_forall. intros c Hc. rewrite Forall_forall in H. specialize (H c Hc).
  destruct (is_space c) eqn:E; [|reflexivity]. exfalso. apply H. apply space_white; [|exact E].
  destruct (is_nl c) eqn:X; [|reflexivity]. apply is_nl_spec in X. subst. contradiction.
Qed.
Lemma fits_plain p : fits p -> Forall (fun c => is_space c = false) p /\ p <> [] /\ Forall (fun c => ~ white c) p.
Proof.
  intros (neg & m & e & H & _). split; [|split; [eapply numeral_some; eauto|]].
  all: assert (J : Forall junk p) by (destruct H as [s neg d f fd x xe Hs Hd Hf Hn Hx]; rewrite !Forall_app;
    split; [apply (signed_junk _ _ Hs)|]; split; [apply digits_junk; rewrite <- (forallb_ext _ _ _ digit_digit); exact Hd|];
    split; [apply (frac_junk _ _ Hf)|apply (exponent_junk _ _ Hx)]).
  all: eapply Forall_impl; [|exact J]; intros c [D|D].
  - unfold c_digit in D. revert D. all_chars c; vm_compute; intros D; try reflexivity; try discriminate D.
  - cbn in D. repeat (destruct D as [<-|D]; [reflexivity|]). destruct D.
  - intros W. apply white_other in W as (W & _). rewrite digit_digit in D. congruence.
  - intros W. cbn in D. repeat (destruct D as [<-|D]; [repeat (destruct W as [W|W]; [discriminate|]); destruct W|]). destruct D.
Qed.
Lemma sentry_ok sp p rest : Forall white sp -> p <> [] -> Forall (fun c => is_space c = false) p ->
  sentry (mkIS (sp ++ p ++ rest) false false) = mkIS (p ++ rest) false false.
Proof.
  intros W N H. unfold sentry. cbn [is_eof is_fail is_rest orb]. rewrite drop_app by (apply whites, W).
  destruct p as [|c p]; [contradiction|]. inversion H as [|? ? Hc _]; subst. cbn [app drop]. rewrite Hc. reflexivity.
Qed.
Lemma get_word_ok sp p rest : Forall white sp -> p <> [] -> Forall (fun c => is_space c = false) p -> ends rest ->
  get_word (mkIS (sp ++ p ++ rest) false false) = (string_of_list_ascii p, at_rest rest).
Proof. intros W N H E. unfold get_word. rewrite sentry_ok by assumption. cbn [is_fail is_rest]. rewrite span_word by assumption. reflexivity. Qed.
Lemma get_number_ok sp p rest : Forall white sp -> fits p -> ends rest ->
  exists x, get_number (mkIS (sp ++ p ++ rest) false false) = (Given x, at_rest rest) /\ reads_as p x.
Proof.
  intros W F E. destruct (fits_plain p F) as (P & N & _). destruct (extract_fits p rest F E) as (x & X & Rx).
  exists x. split; [|exact Rx]. unfold get_number. rewrite sentry_ok by assumption. cbn [is_fail is_rest]. rewrite X. reflexivity.
Qed.
Lemma begins_more rest p ws : begins rest (p :: ws) -> at_rest rest = mkIS rest false false.
Proof.
  intros H. inversion H as [|sp q r ? W N _ _ _ E]; subst. unfold at_rest. destruct sp; [|reflexivity]. destruct p; [contradiction|reflexivity].
Qed.
Lemma begins_inv l p ws : begins l (p :: ws) -> exists sp rest, l = sp ++ p ++ rest /\ Forall white sp /\ p <> [] /\ Forall (fun c => ~ white c) p /\ ends rest /\ begins rest ws.
Proof. intros H. inversion H; subst. eauto 10. Qed.
Lemma word_step l p ws : ~ In c_nl l -> begins l (p :: ws) -> exists rest, get_word (mkIS l false false) = (string_of_list_ascii p, at_rest rest) /\ begins rest ws /\ ~ In c_nl rest.
Proof.
  intros N H. apply begins_inv in H as (sp & rest & -> & W & Np & Nw & E & B). exists rest. split; [|split; [exact B|]].
  - apply get_word_ok; auto. apply word_plain; [|exact Nw]. intros I. apply N. rewrite !in_app_iff. auto.
  - intros I. apply N. rewrite !in_app_iff. auto.
Qed.
Lemma number_step l p ws : ~ In c_nl l -> begins l (p :: ws) -> fits p ->
  exists rest x, get_number (mkIS l false false) = (Given x, at_rest rest) /\ reads_as p x /\ begins rest ws /\ ~ In c_nl rest.
Proof.
  intros N H F. apply begins_inv in H as (sp & rest & -> & W & Np & Nw & E & B). destruct (get_number_ok sp p rest W F E) as (x & X & Rx).
  exists rest, x. repeat split; auto. intros I. apply N. rewrite !in_app_iff. auto.
Qed.
Lemma txt_back p : txt (string_of_list_ascii p) = p.
Proof. apply list_ascii_of_string_of_list_ascii. Qed.
Lemma fieldless_dec p : (String.eqb (string_of_list_ascii p) "drift" || String.eqb (string_of_list_ascii p) "AccGap")%bool = true <-> fieldless p.
Proof.
  unfold fieldless. rewrite orb_true_iff, !String.eqb_eq. split; intros [H|H].
  - left. rewrite <- H. symmetry. apply txt_back.
  - right. rewrite <- H. symmetry. apply txt_back.
  - left. rewrite H. reflexivity.
  - right. rewrite H. reflexivity.
Qed.
Lemma line_read l P : ~ In c_nl l -> piece_line l P -> exists t, thin_line l = Ok t /\ read_as P t.
Proof.
  intros N (_ & F1 & F2 & H). unfold thin_line, is_open.
  assert (B4 : exists ws, begins l (pi_type P :: pi_name P :: pi_len P :: pi_aper P :: ws) /\
     ((fieldless (pi_type P) /\ ws = []) \/ (~ fieldless (pi_type P) /\ fits (pi_E0 P) /\ ws = [pi_E0 P]))).
  { destruct H as [[H1 H2]|(H1 & H2 & H3)]; eexists; split; eauto. }
  destruct B4 as (ws & B & HW).
  destruct (word_step _ _ _ N B) as (r1 & E1 & B1 & N1). rewrite E1. rewrite (begins_more _ _ _ B1).
  destruct (word_step _ _ _ N1 B1) as (r2 & E2 & B2 & N2). rewrite E2. rewrite (begins_more _ _ _ B2).
  destruct (number_step _ _ _ N2 B2 F1) as (r3 & x & E3 & X3 & B3 & N3). rewrite E3. rewrite (begins_more _ _ _ B3).
  destruct (number_step _ _ _ N3 B3 F2) as (r4 & y & E4 & X4 & B4 & N4). rewrite E4.
  destruct (String.eqb (string_of_list_ascii (pi_type P)) "drift" || String.eqb (string_of_list_ascii (pi_type P)) "AccGap")%bool eqn:D.
  - cbn [at_rest is_fail is_eof andb]. apply fieldless_dec in D. eexists. split; [reflexivity|].
    unfold read_as. cbn [th_type th_name th_len th_aper th_E0]. rewrite !txt_back. unfold given_as. repeat split; eauto. intros C. contradiction.
  - assert (D' : ~ fieldless (pi_type P)). { intros C. apply fieldless_dec in C. rewrite C in D. discriminate. }
    destruct HW as [[C _]|(_ & F & ->)]; [contradiction|]. rewrite (begins_more _ _ _ B4).
    destruct (number_step _ _ _ N4 B4 F) as (r5 & z & E5 & X5 & _ & _). rewrite E5. cbn [at_rest is_fail is_eof andb].
    eexists. split; [reflexivity|].
    unfold read_as. cbn [th_type th_name th_len th_aper th_E0]. rewrite !txt_back. unfold given_as. repeat split; eauto. intros C. contradiction.
Qed.
(** Carriage returns at the end do not matter. *)
Lemma begins_trim l ws : begins l ws -> forall l' cs, l = l' ++ cs -> Forall (eq c_cr) cs -> begins l' ws.
Proof.
  induction 1 as [rest E|sp p rest ws W Np Nw St R IH]; intros l' cs E' C.
  - constructor. destruct l' as [|c l']; [left; reflexivity|right]. destruct E as [->|(c' & r & -> & Wc)]; [discriminate|]. injection E' as <- _. eauto.
  - rewrite app_assoc in E'. apply app_eq_app in E' as [t [[E1 E2]|[E1 E2]]].
    + destruct t as [|c t].
      * rewrite app_nil_r in E1. cbn in E2. subst l' cs.
        rewrite <- (app_nil_r p) at 1. constructor; auto; [left; reflexivity|]. apply (IH [] rest); auto.
      * exfalso. destruct (exists_last Np) as (p' & x & ->). assert (Nt : c :: t <> []) by discriminate.
        destruct (exists_last Nt) as (t' & y & Et). rewrite Et, !app_assoc in E1. apply app_inj_tail in E1 as [_ ->].
        apply Forall_app in Nw as [_ Nw]. inversion Nw as [|? ? Hy _]; subst. apply Hy.
        assert (Cy : c_cr = y). { rewrite Forall_forall in C. apply C. rewrite Et. rewrite !in_app_iff. left. right. left. reflexivity. }
        rewrite <- Cy. do 4 right. left. reflexivity.
    + subst l'. rewrite <- app_assoc. constructor; auto; [|apply (IH t cs); auto].
      destruct t as [|c t]; [left; reflexivity|right]. destruct St as [->|(c' & r & -> & Wc)]; [discriminate|].
      injection E2 as <- _. eauto.
Qed.
Lemma piece_trim l P l' cs : piece_line l P -> l = l' ++ cs -> Forall (eq c_cr) cs -> piece_line l' P.
Proof.
  intros (H0 & H1 & H2 & H) E C. split; [exact H0|]. split; [exact H1|]. split; [exact H2|].
  destruct H as [[F B]|(F & G & B)]; [left|right]; repeat split; auto; eapply begins_trim; eauto.
Qed.
Lemma piece_starts l P : piece_line l P -> exists c r, drop is_blank l = c :: r /\ c <> "%".
Proof.
  intros (H0 & _ & _ & H). assert (B : exists ws, begins l (pi_type P :: ws)) by (destruct H as [[_ B]|(_ & _ & B)]; eauto).
  destruct B as (ws & B). apply begins_inv in B as (sp & rest & -> & W & Np & Nw & _ & _).
  destruct (pi_type P) as [|c p] eqn:EP; [contradiction|]. clear H. revert W. induction sp as [|x sp IH]; intros W.
  - cbn [app drop]. inversion Nw as [|? ? Hc _]; subst. destruct (is_blank c) eqn:Bc.
    + exfalso. apply Hc. apply blank_spec in Bc. destruct Bc as [<-|[<-|[]]]; [left|right; left]; reflexivity.
    + exists c, (p ++ rest). split; [reflexivity|]. intros ->. eapply H0. reflexivity.
  - inversion W as [|? ? Wx Ws]; subst. cbn [app drop]. destruct (is_blank x) eqn:Bx; [apply IH, Ws|].
    exists x. eexists. split; [reflexivity|]. intros ->. repeat (destruct Wx as [Wx|Wx]; [discriminate|]). destruct Wx.
Qed.
Lemma passed_line l : passed_over l -> forall ls, thin_lines (l :: ls) = thin_lines ls.
Proof.
  intros [B|(b & r & B & ->)] ls; cbn [thin_lines].
  - apply drop_blanks in B. rewrite B. reflexivity.
  - rewrite drop_app. 2:{ apply forallb_forall. intros c Hc. unfold blanks in B. rewrite Forall_forall in B. apply blank_spec, B, Hc. }
    reflexivity.
Qed.
Lemma pieces_read ls Ps : lists_pieces ls Ps -> Forall (fun l => ~ In c_nl l) ls -> exists ts, thin_lines ls = Ok ts /\ Forall2 read_as Ps ts.
Proof.
  induction 1 as [|l ls Ps S H IH|l P ls Ps S H IH]; intros N.
  - exists []. split; [reflexivity|constructor].
  - inversion N; subst. rewrite passed_line by exact S. auto.
  - inversion N as [|? ? Nl Nls]; subst. destruct (IH Nls) as (ts & E & F).
    destruct (piece_starts _ _ S) as (c & r & Ed & Nc). assert (Nil : l <> []) by (intros ->; discriminate).
    destruct (trim_spec l Nl Nil) as (cs & Et & C & _).
    destruct (line_read (trim l) P) as (t & Lt & Rt).
    { intros I. apply Nl. rewrite Et. apply in_or_app. auto. }
    { eapply piece_trim; eauto. }
    exists (t :: ts). split; [|constructor; assumption]. cbn [thin_lines]. rewrite Ed. apply Ascii.eqb_neq in Nc. rewrite Nc, Lt. cbn [rbind]. rewrite E. reflexivity.
Qed.
Lemma thin_described s ls Ps : made_of (txt s) ls -> lists_pieces ls Ps -> exists ts, thin_read (Some s) = Ok ts /\ Forall2 read_as Ps ts.
Proof. intros M L. unfold thin_read. fold (txt s). rewrite (lines_made _ _ M). apply pieces_read; [exact L|apply M]. Qed.

(** ** Lines without numbers *)
Lemma extract_none c r : c_digit c = false -> ~ In c ["+"; "-"; "."] -> extract (c :: r) = (None, c :: r).
Proof.
  intros D N. unfold extract, take_sign. assert (S : is_sign c = false).
  { destruct (is_sign c) eqn:S; [|reflexivity]. apply sign_in in S. exfalso. apply N. cbn. destruct S as [->| ->]; auto. }
  rewrite S. cbn [span]. rewrite <- digit_digit, D. unfold scan_frac. assert (P : Ascii.eqb c "." = false). { apply Ascii.eqb_neq. intros ->. apply N. cbn. auto. }
  rewrite P. reflexivity.
Qed.
Lemma number_fails l p ws : ~ In c_nl l -> begins l (p :: ws) -> no_number p -> exists c r, get_number (mkIS l false false) = (Failed, mkIS (c :: r) false true).
Proof.
  intros N H (c & r & -> & D & G). apply begins_inv in H as (sp & rest & -> & W & Np & Nw & E & B). unfold get_number. rewrite sentry_ok; auto.
  2:{ apply word_plain; [|exact Nw]. intros I. apply N. rewrite !in_app_iff. auto. }
  cbn [is_fail is_rest app]. rewrite extract_none by assumption. eauto.
Qed.
Lemma failed_number c r : get_number (mkIS (c :: r) false true) = (Unset, mkIS (c :: r) false true).
Proof. reflexivity. Qed.
Lemma wrong_line l ws : ~ In c_nl l -> begins l ws -> wrong_words ws -> thin_line l = Throw RuntimeError.
Proof.
  intros N B H. unfold thin_line, is_open.
  destruct H as [(t & n & p & r & -> & X)|[(t & n & a & p & r & -> & Fa & X)|(t & n & a & b & p & r & -> & T & Fa & Fb & X)]];
    destruct (word_step _ _ _ N B) as (r1 & E1 & B1 & N1); rewrite E1; rewrite (begins_more _ _ _ B1);
    destruct (word_step _ _ _ N1 B1) as (r2 & E2 & B2 & N2); rewrite E2; rewrite (begins_more _ _ _ B2).
  - destruct (number_fails _ _ _ N2 B2 X) as (c & q & E3). rewrite E3, failed_number.
    destruct (_ || _)%bool; [reflexivity|]. rewrite failed_number. reflexivity.
  - destruct (number_step _ _ _ N2 B2 Fa) as (r3 & x & E3 & _ & B3 & N3). rewrite E3. rewrite (begins_more _ _ _ B3).
    destruct (number_fails _ _ _ N3 B3 X) as (c & q & E4). rewrite E4.
    destruct (_ || _)%bool; [reflexivity|]. rewrite failed_number. reflexivity.
  - destruct (number_step _ _ _ N2 B2 Fa) as (r3 & x & E3 & _ & B3 & N3). rewrite E3. rewrite (begins_more _ _ _ B3).
    destruct (number_step _ _ _ N3 B3 Fb) as (r4 & y & E4 & _ & B4 & N4). rewrite E4. rewrite (begins_more _ _ _ B4).
    destruct (number_fails _ _ _ N4 B4 X) as (c & q & E5).
    destruct (String.eqb (string_of_list_ascii t) "drift" || String.eqb (string_of_list_ascii t) "AccGap")%bool eqn:D; [apply fieldless_dec in D; contradiction|].
    rewrite E5. reflexivity.
Qed.
Lemma thin_line_throws l e : thin_line l = Throw e -> e = RuntimeError.
Proof.
  unfold thin_line. destruct (get_word _) as [t s1]. destruct (get_word _) as [n s2]. destruct (get_number _) as [a s3]. destruct (get_number _) as [b s4].
  destruct (String.eqb t "drift" || String.eqb t "AccGap")%bool; [|destruct (get_number _) as [x s5]].
  all: match goal with |- (if ?b then _ else _) = _ -> _ => destruct b; [intros [= <-]; reflexivity|discriminate] end.
Qed.
Lemma thin_lines_throws ls e : thin_lines ls = Throw e -> e = RuntimeError.
Proof.
  induction ls as [|l ls IH]; [discriminate|]. cbn [thin_lines]. destruct (drop is_blank l) as [|c r]; [exact IH|]. destruct (Ascii.eqb c "%"); [exact IH|].
  destruct (thin_line (trim l)) as [t|e'] eqn:T; cbn [rbind]; [|intros [= <-]; apply (thin_line_throws _ _ T)].
  destruct (thin_lines ls); cbn [rbind]; [discriminate|]. intros [= <-]. apply IH. reflexivity.
Qed.
Lemma read_data_line l : ~ passed_over l -> forall ls, thin_lines (l :: ls) = rbind (thin_line (trim l)) (fun t => rbind (thin_lines ls) (fun r => Ok (t :: r))).
Proof.
  intros P ls. cbn [thin_lines]. destruct (drop is_blank l) as [|c r] eqn:D; [exfalso; apply P; left; apply drop_blanks, D|].
  destruct (Ascii.eqb_spec c "%") as [->|_]; [|reflexivity]. exfalso. apply P. right. destruct (drop_split is_blank l) as (b & E & Hb & _).
  exists b, r. split; [|rewrite <- D; exact E]. apply Forall_forall. intros x Hx. rewrite forallb_forall in Hb. apply blank_spec, Hb, Hx.
Qed.
Lemma passed_dec l : passed_over l \/ ~ passed_over l.
Proof.
  destruct (drop is_blank l) as [|c r] eqn:D; [left; left; apply drop_blanks, D|]. destruct (Ascii.eqb_spec c "%") as [->|N].
  - left. right. destruct (drop_split is_blank l) as (b & E & Hb & _). exists b, r. split; [|rewrite <- D; exact E].
    apply Forall_forall. intros x Hx. rewrite forallb_forall in Hb. apply blank_spec, Hb, Hx.
  - right. intros [B|(b & q & B & ->)]; [apply drop_blanks in B; congruence|].
    rewrite drop_app in D. 2:{ apply forallb_forall. intros x Hx. unfold blanks in B. rewrite Forall_forall in B. apply blank_spec, B, Hx. }
    cbn in D. congruence.
Qed.
Lemma thin_refused s ls l ws : made_of (txt s) ls -> In l ls -> ~ passed_over l -> begins l ws -> wrong_words ws -> thin_read (Some s) = Throw RuntimeError.
Proof.
  intros M Hl P B W. unfold thin_read. fold (txt s). rewrite (lines_made _ _ M). destruct M as [M _]. revert M. induction ls as [|k ls IH]; intros M; [destruct Hl|].
  inversion M as [|? ? Mk Ms]; subst. destruct Hl as [<-|Hl].
  - rewrite read_data_line by exact P. assert (Nil : k <> []) by (intros ->; apply P; left; constructor).
    destruct (trim_spec k Mk Nil) as (cs & Et & C & _). rewrite (wrong_line (trim k) ws); auto; [|eapply begins_trim; eauto].
    intros I. apply Mk. rewrite Et. apply in_or_app. auto.
  - specialize (IH Hl Ms). destruct (passed_dec k) as [Pk|Pk].
    + rewrite passed_line by exact Pk. exact IH.
    + rewrite read_data_line by exact Pk. rewrite IH. destruct (thin_line (trim k)) as [t|e] eqn:T; [reflexivity|]. cbn [rbind]. f_equal. apply (thin_line_throws _ _ T).
Qed.
(** Any text. *)
Lemma thin_line_labels l t : ~ In c_nl l -> thin_line l = Ok t -> labelled l t.
Proof.
  intros N H. unfold thin_line, is_open in H.
  destruct (get_word _) as [w s1] eqn:E1. destruct (get_word s1) as [n s2] eqn:E2. destruct (get_number s2) as [a s3] eqn:E3. destruct (get_number s3) as [b s4] eqn:E4.
  assert (X : exists x s5, (if (String.eqb w "drift" || String.eqb w "AccGap")%bool then (Given dzero, s4) else get_number s4) = (x, s5) /\ t = mkThin w n a b x).
  { destruct (if (String.eqb w "drift" || String.eqb w "AccGap")%bool then (Given dzero, s4) else get_number s4) as [x s5]. exists x, s5. split; [reflexivity|].
    match type of H with (if ?b then _ else _) = _ => destruct b; [discriminate|] end. injection H as <-. reflexivity. }
  clear H. destruct X as (x & s5 & E5 & ->). unfold labelled. cbn [th_type th_name th_len th_aper th_E0].
  split; [intros w' B|split; [intros w' n' B|split; [intros w' n' a' B Fa|split; [intros w' n' a' b' B Fa Fb|intros w' n' a' b' x' B Nf Fa Fb Fx]]]].
  all: destruct (word_step _ _ _ N B) as (r1 & X1 & B1 & N1); rewrite X1 in E1; injection E1 as <- <-; rewrite ?txt_back; try reflexivity.
  all: rewrite (begins_more _ _ _ B1) in E2; destruct (word_step _ _ _ N1 B1) as (r2 & X2 & B2 & N2); rewrite X2 in E2; injection E2 as <- <-; rewrite ?txt_back; try reflexivity.
  all: rewrite (begins_more _ _ _ B2) in E3; destruct (number_step _ _ _ N2 B2 Fa) as (r3 & y & X3 & Y & B3 & N3); rewrite X3 in E3; injection E3 as <- <-.
  - exists y. auto.
  - rewrite (begins_more _ _ _ B3) in E4. destruct (number_step _ _ _ N3 B3 Fb) as (r4 & z & X4 & Z & B4 & N4). rewrite X4 in E4. injection E4 as <- <-. exists z. auto.
  - rewrite (begins_more _ _ _ B3) in E4. destruct (number_step _ _ _ N3 B3 Fb) as (r4 & z & X4 & Z & B4 & N4). rewrite X4 in E4. injection E4 as <- <-.
    destruct (String.eqb (string_of_list_ascii w') "drift" || String.eqb (string_of_list_ascii w') "AccGap")%bool eqn:D; [apply fieldless_dec in D; contradiction|].
    rewrite (begins_more _ _ _ B4) in E5. destruct (number_step _ _ _ N4 B4 Fx) as (r5 & u & X5 & U & _). rewrite X5 in E5. injection E5 as <- <-. exists u. auto.
Qed.
Lemma thin_any s ls : made_of (txt s) ls -> thin_read (Some s) = Throw RuntimeError \/
  exists ts ds, thin_read (Some s) = Ok ts /\ told ls ds /\ Forall2 labelled ds ts.
Proof.
  intros M. unfold thin_read. fold (txt s). rewrite (lines_made _ _ M). destruct M as [M _]. revert M. induction ls as [|l ls IH]; intros M.
  - right. exists [], []. repeat split; constructor.
  - inversion M as [|? ? Ml Ms]; subst. specialize (IH Ms). destruct (passed_dec l) as [P|P].
    + rewrite passed_line by exact P. destruct IH as [IH|(ts & ds & E & T & F)]; [left; exact IH|right]. exists ts, ds. repeat split; auto. apply td_skip; auto.
    + rewrite read_data_line by exact P. assert (Nil : l <> []) by (intros ->; apply P; left; constructor).
      destruct (trim_spec l Ml Nil) as (cs & Et & C & _).
      assert (Mt : ~ In c_nl (trim l)) by (intros I; apply Ml; rewrite Et; apply in_or_app; auto).
      destruct (thin_line (trim l)) as [t|e] eqn:T; [|left; cbn [rbind]; f_equal; apply (thin_line_throws _ _ T)].
      destruct IH as [->|(ts & ds & -> & T' & F)]; [left; reflexivity|right]. exists (t :: ts), (l :: ds).
      split; [reflexivity|]. split; [apply td_keep; auto|]. constructor; [|exact F].
      destruct (thin_line_labels _ _ Mt T) as (L1 & L2 & L3 & L4 & L5).
      assert (BT : forall ws, begins l ws -> begins (trim l) ws) by (intros ws B; eapply begins_trim; eauto).
      repeat split; intros; eauto.
Qed.
