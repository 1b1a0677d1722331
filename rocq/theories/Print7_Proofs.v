(** Lattices that show what GLPSPrint keeps and what it loses. *)
From Coq Require Import List String Ascii Bool ZArith Lia Reals Lra.
From Verif Require Import SMap SMap_Proofs Dbl Config_Model Config_Spec Lexer_Model Lexer_Spec Lexer_Proofs Number_Spec Glps_Model Glps_Spec.
From Verif Require Import Glps6_Proofs Machine_Model Print_Model Print_Spec Print3_Proofs.
Import ListNotations.
Open Scope string_scope.
Open Scope list_scope.

(** ** Deciding the hypotheses for a given lattice *)
Definition wordb (s : string) : bool :=
  match list_ascii_of_string s with
  | [] => false
  | c :: b => is_letter c && forallb is_kwchar b && match rev b with [] => true | d :: _ => negb (is_colon d) end
  end.
Lemma wordb_ok s : wordb s = true -> word s.
Proof.
  unfold wordb, word. intros H. apply kw_matches. destruct (list_ascii_of_string s) as [|c b]; [discriminate|].
  apply andb_prop in H as [H1 H2]. apply andb_prop in H1 as [H0 H1]. exists c, b. repeat split; auto.
  destruct (rev b) as [|d r] eqn:E.
  - left. destruct b; [reflexivity|]. apply (f_equal (@rev _)) in E. rewrite rev_involutive in E. discriminate.
  - right. exists (rev r), d. split; [|apply negb_true_iff; exact H2]. apply (f_equal (@rev _)) in E. rewrite rev_involutive in E. exact E.
Qed.
Definition quotableb (s : string) : bool :=
  forallb (fun c => negb (Ascii.eqb c c_quote || Ascii.eqb c c_nl || Ascii.eqb c c_cr)) (list_ascii_of_string s).
Lemma quotableb_ok s : quotableb s = true -> quotable s.
Proof.
  unfold quotableb. intros H c Hc. rewrite forallb_forall in H. apply H in Hc. rewrite negb_true_iff, !orb_false_iff in Hc.
  destruct Hc as [[A B] C]. repeat split; apply Ascii.eqb_neq; assumption.
Qed.
Definition numb (x : double) : bool := is_finite x && SpecFloat.valid_binary dprec demax x.
Lemma numb_ok x : numb x = true -> writable_num x.
Proof. intros H. apply andb_prop in H as [A B]. split; assumption. Qed.
Definition writableb (v : tval) : bool :=
  match v with TNum x => numb x | TVec l => forallb numb l | TStr s => quotableb s | TCfgs _ => false end.
Lemma writableb_ok v : writableb v = true -> writable v.
Proof.
  destruct v as [x|l|s|l]; simpl; intros H; [apply numb_ok; exact H| |apply quotableb_ok; exact H|discriminate].
  apply Forall_forall. intros x Hx. rewrite forallb_forall in H. apply numb_ok. auto.
Qed.
Definition valsb (c : tcfg) : bool :=
  forallb (fun nv => (String.eqb (fst nv) "elements" || writableb (snd nv))%bool) (town c) &&
  forallb (fun g => forallb (fun nv => writableb (snd nv)) (town g)) (elements_of c).
Lemma valsb_ok c : valsb c = true -> all_writable c.
Proof.
  intros H. apply andb_prop in H as [H1 H2]. rewrite forallb_forall in H1, H2. split.
  - intros n v E N. apply sfind_In in E. apply H1 in E. simpl in E. destruct (String.eqb_spec n "elements"); [contradiction|]. apply writableb_ok. exact E.
  - intros g Hg n v E. apply sfind_In in E. apply H2 in Hg. rewrite forallb_forall in Hg. apply Hg in E. apply writableb_ok. exact E.
Qed.
Definition apartb (c : tcfg) : bool :=
  forallb (fun g => match own "name" g with
                    | Some (TStr n) => negb (String.eqb n "USE") && (String.eqb n "elements" || match own n c with None => true | _ => false end)
                    | _ => true
                    end) (elements_of c).
Lemma apartb_ok c : apartb c = true -> names_apart c.
Proof.
  intros H g n Hg E. unfold apartb in H. rewrite forallb_forall in H. apply H in Hg. rewrite E in Hg. apply andb_prop in Hg as [A B].
  rewrite negb_true_iff in A. apply String.eqb_neq in A. split; [exact A|]. apply orb_prop in B as [B|B]; [left; apply String.eqb_eq; exact B|].
  right. destruct (own n c); [discriminate|reflexivity].
Qed.

Lemma short_ok m e x : (0 < m < 1000000)%Z -> dabs x = strtod_val m e ->
  match x with S754_finite _ p q => (4503599627370496 <=? Zpos p)%Z && (-1074 <=? q)%Z = true | _ => False end -> short x.
Proof.
  intros M E H. destruct x as [s|s| |s p q]; try contradiction. right. exists m, e. split; [exact M|]. split; [exact E|].
  split; [reflexivity|]. apply andb_prop in H as [H1 H2]. apply Z.leb_le in H1, H2. cbn [dabs dval]. rewrite Rmult_1_l.
  apply Rle_trans with (IZR 4503599627370496 * powerRZ 2 (-1074))%R.
  - right. change (-1022)%Z with (52 + -1074)%Z. rewrite powerRZ_add by lra. f_equal. simpl. lra.
  - apply Rmult_le_compat; try lra; [left; apply powerRZ_lt; lra|apply IZR_le; exact H1|].
    replace q with ((q + 1074) + -1074)%Z by lia. rewrite powerRZ_add by lra.
    rewrite <- (Rmult_1_l (powerRZ 2 (-1074))) at 1. apply Rmult_le_compat_r; [left; apply powerRZ_lt; lra|].
    rewrite <- (Z2Nat.id (q + 1074)) by lia. rewrite <- pow_powerRZ. apply pow_R1_Rle. lra.
Qed.

(** ** Texts *)
Definition cell_text : string :=
  "a: drift, L = 0.5; b: quad, K = [1, -2.25], m = ""t""; v = 0.1234567; cell: LINE = (a, b, a); USE: cell;".
Definition short_text : string :=
  "a: drift, L = 0.5; b: quad, K = [1, -2.25], m = ""t""; v = 299792; cell: LINE = (a, b, a); USE: cell;".
Definition digits_text7 : string := "x = 0.1234567; a: drift; l: LINE = (a);".
Definition inf_text : string := "x = 1e300*1e300; a: drift; l: LINE = (a);".
Definition clash_text : string := "a: drift; l: LINE = (a); a = 3;".
Definition parsed_or (o : outcome) : tcfg := match o with Parsed c => c | _ => TCfg [] [] end.
Definition cell : tcfg := Eval vm_compute in parsed_or (parse_text demo [] true cell_text).
Definition cell_short : tcfg := Eval vm_compute in parsed_or (parse_text demo [] true short_text).
Lemma cell_parsed : parse_text demo [] true cell_text = Parsed cell.
Proof. vm_compute. reflexivity. Qed.
Lemma short_parsed : parse_text demo [] true short_text = Parsed cell_short.
Proof. vm_compute. reflexivity. Qed.
Definition d299 : double := Eval vm_compute in d_of_Z 299792.
Lemma cell_short_short : all_short cell_short.
Proof.
  assert (A : short (S754_finite false 4503599627370496 (-53))) by (apply (short_ok 5 (-1)); [lia|vm_compute; reflexivity|reflexivity]).
  assert (B : short (S754_finite false 4503599627370496 (-52))) by (apply (short_ok 1 0); [lia|vm_compute; reflexivity|reflexivity]).
  assert (C : short (S754_finite true 5066549580791808 (-51))) by (apply (short_ok 225 (-2)); [lia|vm_compute; reflexivity|reflexivity]).
  assert (D : short d299) by (apply (short_ok 299792 0); [lia|vm_compute; reflexivity|vm_compute; reflexivity]).
  unfold d299 in D.
  split.
  - intros n v E N. apply sfind_In in E. cbn [town cell_short] in E.
    repeat match goal with H : In _ (_ :: _) |- _ => destruct H as [H|H] | H : In _ [] |- _ => destruct H end;
      injection E as <- <-; simpl; auto; contradiction.
  - intros g Hg n v E. apply sfind_In in E.
    change (elements_of cell_short) with (match sfind "elements" (town cell_short) with Some (TCfgs l) => l | _ => [] end) in Hg.
    cbn [town cell_short sfind String.eqb Ascii.eqb Bool.eqb] in Hg.
    repeat match goal with H : In _ (_ :: _) |- _ => destruct H as [H|H] | H : In _ [] |- _ => destruct H end; subst g; cbn [town] in E;
    repeat match goal with H : In _ (_ :: _) |- _ => destruct H as [H|H] | H : In _ [] |- _ => destruct H end;
      injection E as <- <-; simpl; auto.
Qed.

(** ** Configs that do not come from a text *)
Definition d1 : double := Eval vm_compute in d_of_Z 1.
Definition d2 : double := Eval vm_compute in d_of_Z 2.
Definition elem7 (n t : string) (ps : smap tval) (o : smap tval) : tcfg := TCfg (sset "name" (TStr n) (sset "type" (TStr t) ps)) o.
Definition lat7 (es : list tcfg) (vs : smap tval) : tcfg := TCfg (sset "elements" (TCfgs es) vs) [].
(** two elements a, of different length *)
Definition twins : tcfg := lat7 [elem7 "a" "drift" [("L", TNum d1)] []; elem7 "a" "drift" [("L", TNum d2)] []] [].
(** a quote inside a string *)
Definition quote7 : tcfg := lat7 [elem7 "a" "drift" [("f", TStr "x""y")] []] [].
(** a list of Configs as a property *)
Definition nested : tcfg := lat7 [elem7 "a" "drift" [("sub", TCfgs [])] []] [].
Definition reprint (c : tcfg) : option (string * outcome) :=
  match glps_print c with Ok t => Some (t, parse_text demo [] true t) | _ => None end.

(** ** The refutations *)
Lemma C18_digits_refuted_w : exists c t c', parse_text demo [] true digits_text7 = Parsed c /\ glps_print c = Ok t /\
  parse_text demo [] true t = Parsed c' /\ tlookup "x" c' <> tlookup "x" c.
Proof. eexists. eexists. eexists. split; [vm_compute; reflexivity|]. split; [vm_compute; reflexivity|]. split; [vm_compute; reflexivity|vm_compute; discriminate]. Qed.
Lemma C18_infinity_refuted_w : exists c t, parse_text demo [] true inf_text = Parsed c /\ glps_print c = Ok t /\ parse_text demo [] true t = Failed.
Proof. eexists. eexists. split; [vm_compute; reflexivity|]. split; [vm_compute; reflexivity|vm_compute; reflexivity]. Qed.
Lemma C18_clash_refuted_w : exists c t, parse_text demo [] true clash_text = Parsed c /\ all_writable c /\ glps_print c = Ok t /\ parse_text demo [] true t = Failed.
Proof.
  eexists. eexists. split; [vm_compute; reflexivity|]. split; [apply valsb_ok; vm_compute; reflexivity|].
  split; [vm_compute; reflexivity|vm_compute; reflexivity].
Qed.
Lemma C18_twins_refuted_w : exists t c', glps_print twins = Ok t /\ parse_text demo [] true t = Parsed c' /\
  length_at twins 1 = Some (TNum d2) /\ length_at c' 1 = Some (TNum d1).
Proof. eexists. eexists. split; [vm_compute; reflexivity|]. split; [vm_compute; reflexivity|]. split; vm_compute; reflexivity. Qed.
Lemma C18_quote_refuted_w : exists t, glps_print quote7 = Ok t /\ parse_text demo [] true t = Failed.
Proof. eexists. split; [vm_compute; reflexivity|vm_compute; reflexivity]. Qed.
Lemma C18_nested_refuted_w : exists t c', glps_print nested = Ok t /\ parse_text demo [] true t = Parsed c' /\
  prop_at "sub" nested <> None /\ prop_at "sub" c' = None.
Proof. eexists. eexists. split; [vm_compute; reflexivity|]. split; [vm_compute; reflexivity|]. split; [vm_compute; discriminate|vm_compute; reflexivity]. Qed.
