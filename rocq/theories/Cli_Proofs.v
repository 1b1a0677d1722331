(** The command line tool: definitions and formats. *)
From Coq Require Import List String Ascii Bool NArith ZArith Arith Lia.
From Verif Require Import SMap SMap_Proofs Dbl Config_Spec Lexer_Spec Lexer_Model Glps_Model Glps_Spec Machine_Model Machine_Spec Util_Model Util_Spec Cli_Model Cli_Spec.
From Verif Require Import Lexer_Proofs Number_Proofs Util_Proofs Glps3_Proofs Glps6_Proofs.
Import ListNotations.
Open Scope string_scope.
Open Scope list_scope.

Lemma find_here c a b : ~ In c a -> find_from c (a ++ c :: b) 0 = Some (List.length a).
Proof.
  induction a as [|x a IH]; intros N; cbn [app find_from List.length]; [rewrite Ascii.eqb_refl; reflexivity|].
  destruct (Ascii.eqb_spec x c) as [->|_]; [exfalso; apply N; left; reflexivity|]. rewrite IH by (intros H; apply N; right; exact H). reflexivity.
Qed.
Lemma find_none c l : ~ In c l <-> find_from c l 0 = None.
Proof.
  induction l as [|x l IH]; cbn [find_from]; [split; auto|]. destruct (Ascii.eqb_spec x c) as [->|N].
  - split; [intros H; exfalso; apply H; left; reflexivity|discriminate].
  - split.
    + intros H. rewrite (proj1 IH); [reflexivity|]. intros I. apply H. right. exact I.
    + intros H [E|I]; [contradiction|]. revert I. apply IH. destruct (find_from c l 0); [discriminate|reflexivity].
Qed.
Lemma find_some c l k : find_from c l 0 = Some k -> exists b, l = firstn k l ++ c :: b /\ ~ In c (firstn k l) /\ List.length (firstn k l) = k.
Proof.
  revert k. induction l as [|x l IH]; cbn [find_from]; [discriminate|]. intros k. destruct (Ascii.eqb_spec x c) as [->|N].
  - intros [= <-]. exists l. cbn. auto.
  - destruct (find_from c l 0) as [j|] eqn:E; [|discriminate]. intros [= <-]. destruct (IH j eq_refl) as (b & E1 & E2 & E3).
    exists b. cbn [firstn app List.length]. split; [f_equal; exact E1|]. split; [intros [C|C]; contradiction|]. f_equal. exact E3.
Qed.
Lemma find_past c a l : find_from c (a ++ l) (List.length a) = option_map (Nat.add (List.length a)) (find_from c l 0).
Proof. induction a as [|x a IH]; cbn [app find_from List.length]; [destruct (find_from c l 0); reflexivity|]. rewrite IH. destruct (find_from c l 0); reflexivity. Qed.
Lemma skip_skip {A} a b (l : list A) : skipn b (skipn a l) = skipn (a + b) l.
Proof. revert l. induction a as [|a IH]; intros l; [reflexivity|]. destruct l as [|x l]; [destruct b; reflexivity|]. apply IH. Qed.
Lemma txt_app a b : txt (a ++ b)%string = txt a ++ txt b.
Proof. induction a as [|c a IH]; [reflexivity|]. cbn. f_equal. exact IH. Qed.
Lemma txt_inj a b : txt a = txt b -> a = b.
Proof. intros H. rewrite <- (string_of_list_ascii_of_string a), <- (string_of_list_ascii_of_string b). unfold txt in H. rewrite H. reflexivity. Qed.
Lemma txt_of l : txt (string_of_list_ascii l) = l.
Proof. apply list_ascii_of_string_of_list_ascii. Qed.
Lemma of_txt s : string_of_list_ascii (txt s) = s.
Proof. apply string_of_list_ascii_of_string. Qed.
Lemma in_two a b (x : string) : (String.eqb x a || String.eqb x b)%bool = true <-> In x [a; b].
Proof.
  rewrite orb_true_iff, !String.eqb_eq. cbn. split; [intros [->| ->]; auto|intros [->|[->|[]]]; auto].
Qed.

(** ** Definitions *)
Lemma define_parts lexd n ty v : without "=" n -> n <> "" -> without ":" ty ->
  define lexd (n ++ "=" ++ ty ++ ":" ++ v)%string =
    (if (String.eqb ty "double" || String.eqb ty "D")%bool then option_map (fun x => (n, TNum x)) (lexd v)
     else if (String.eqb ty "str" || String.eqb ty "S")%bool then Some (n, TStr v) else None).
Proof.
  intros Wn Nn Wt. unfold define. fold (txt (n ++ "=" ++ ty ++ ":" ++ v)%string). rewrite !txt_app. change (txt "=") with ["="%char]. change (txt ":") with [":"%char]. cbn [app].
  rewrite find_here by exact Wn. rewrite find_past. cbn [find_from]. change (Ascii.eqb "=" ":") with false. cbv iota. rewrite find_here by exact Wt. cbn [option_map].
  destruct (txt n) as [|c r] eqn:E; [exfalso; apply Nn; apply txt_inj; exact E|]. rewrite <- E. replace (Nat.eqb (List.length (txt n)) 0) with false by (rewrite E; reflexivity).
  set (k := List.length (txt n)). set (j := List.length (txt ty)). unfold substr.
  assert (E1 : string_of_list_ascii (firstn k (skipn 0 (txt n ++ "="%char :: txt ty ++ ":"%char :: txt v))) = n).
  { cbn [skipn]. unfold k. rewrite firstn_app, Nat.sub_diag, firstn_all. cbn [firstn]. rewrite app_nil_r. apply of_txt. }
  assert (E0 : skipn (k + 1) (txt n ++ "="%char :: txt ty ++ ":"%char :: txt v) = txt ty ++ ":"%char :: txt v).
  { unfold k. rewrite skipn_app, skipn_all2 by lia. replace (List.length (txt n) + 1 - List.length (txt n)) with 1 by lia. reflexivity. }
  assert (E2 : string_of_list_ascii (firstn (k + S j - k - 1) (skipn (k + 1) (txt n ++ "="%char :: txt ty ++ ":"%char :: txt v))) = ty).
  { rewrite E0. replace (k + S j - k - 1) with j by lia. unfold j. rewrite firstn_app, Nat.sub_diag, firstn_all. cbn [firstn]. rewrite app_nil_r. apply of_txt. }
  assert (E3 : string_of_list_ascii (skipn (k + S j + 1) (txt n ++ "="%char :: txt ty ++ ":"%char :: txt v)) = v).
  { replace (k + S j + 1) with ((k + 1) + S j) by lia. rewrite <- skip_skip, E0. unfold j. rewrite skipn_app, skipn_all2 by lia.
    replace (S (List.length (txt ty)) - List.length (txt ty)) with 1 by lia. apply of_txt. }
  rewrite E1, E2, E3. reflexivity.
Qed.
Lemma define_split lexd d nv : define lexd d = Some nv -> exists n ty v, d = (n ++ "=" ++ ty ++ ":" ++ v)%string /\ without "=" n /\ n <> "" /\ without ":" ty.
Proof.
  unfold define. fold (txt d). destruct (find_from "=" (txt d) 0) as [k|] eqn:E; [|discriminate]. destruct (find_some _ _ _ E) as (r & L1 & N1 & K).
  destruct (find_from ":" (txt d) k) as [j|] eqn:F; [|discriminate]. destruct (Nat.eqb_spec k 0) as [|NZ]; [discriminate|]. intros _.
  rewrite L1 in F. rewrite <- K in F at 2. rewrite find_past in F. cbn [find_from] in F. change (Ascii.eqb "=" ":") with false in F. cbv iota in F.
  destruct (find_from ":" r 0) as [i|] eqn:G; [|discriminate]. destruct (find_some _ _ _ G) as (v & L2 & N2 & _).
  exists (string_of_list_ascii (firstn k (txt d))), (string_of_list_ascii (firstn i r)), (string_of_list_ascii v). unfold without. rewrite !txt_of.
  split; [|split; [exact N1|split; [|exact N2]]].
  - apply txt_inj. rewrite !txt_app, !txt_of. change (txt "=") with ["="%char]. change (txt ":") with [":"%char]. cbn [app]. rewrite <- L2. exact L1.
  - intros C. apply (f_equal txt) in C. rewrite txt_of in C. rewrite C in K. cbn in K. congruence.
Qed.
Lemma define_correct lexd d nv : define lexd d = Some nv <-> defines_as lexd d nv.
Proof.
  split.
  - intros H. destruct (define_split _ _ _ H) as (n & ty & v & -> & W1 & W2 & W3). rewrite define_parts in H by assumption.
    destruct (String.eqb ty "double" || String.eqb ty "D")%bool eqn:T1.
    + destruct (lexd v) as [x|] eqn:L; [|discriminate]. injection H as <-. exists ty, v. cbn [fst snd]. repeat split; auto. left. split; [apply in_two, T1|eauto].
    + destruct (String.eqb ty "str" || String.eqb ty "S")%bool eqn:T2; [|discriminate]. injection H as <-. exists ty, v. cbn [fst snd]. repeat split; auto.
      right. split; [apply in_two, T2|reflexivity].
  - destruct nv as [n x]. cbn [fst snd]. intros (ty & v & -> & W1 & W2 & W3 & H). cbn [fst snd] in *. rewrite define_parts by assumption.
    destruct H as [[T (y & L & ->)]|[T ->]].
    + apply in_two in T. rewrite T, L. reflexivity.
    + destruct (String.eqb ty "double" || String.eqb ty "D")%bool eqn:T1; [apply in_two in T1; destruct T as [<-|[<-|[]]], T1 as [E|[E|[]]]; discriminate|].
      apply in_two in T. rewrite T. reflexivity.
Qed.
Lemma defines_fold lexd defs : forall vars0 vars, defines lexd vars0 defs = Some vars ->
  exists nvs, Forall2 (defines_as lexd) defs nvs /\ vars = fold_left (fun m nv => sset (fst nv) (snd nv) m) nvs vars0.
Proof.
  induction defs as [|d defs IH]; intros vars0 vars H; cbn [defines] in H; [injection H as <-; exists []; split; [constructor|reflexivity]|].
  destruct (define lexd d) as [[n v]|] eqn:E; [|discriminate]. destruct (IH _ _ H) as (nvs & F & ->). exists ((n, v) :: nvs). split; [constructor; [apply define_correct, E|exact F]|reflexivity].
Qed.
Lemma fold_defines lexd defs nvs : Forall2 (defines_as lexd) defs nvs -> forall vars0,
  defines lexd vars0 defs = Some (fold_left (fun m nv => sset (fst nv) (snd nv) m) nvs vars0).
Proof.
  induction 1 as [|d [n v] defs nvs Hd H IH]; intros vars0; [reflexivity|]. cbn [defines]. apply define_correct in Hd. rewrite Hd. apply IH.
Qed.
Lemma fold_latest nvs : latest nvs (fold_left (fun m nv => sset (fst nv) (snd nv) m) nvs []).
Proof.
  induction nvs as [|[n v] nvs IH] using rev_ind.
  - split; [exact I|]. intros n. left. split; [intros []|reflexivity].
  - rewrite fold_left_app. cbn [fold_left fst snd]. destruct IH as [I1 I2]. split; [apply sset_sorted, I1|].
    intros k. rewrite sfind_sset. destruct (String.eqb_spec k n) as [->|N].
    + right. exists nvs, v, []. repeat split. intros [].
    + destruct (I2 k) as [[A C]|(a & x & b & -> & A & C)].
      * left. split; [|exact C]. rewrite map_app. intros H. apply in_app_or in H as [H|[H|[]]]; [contradiction|cbn in H; congruence].
      * right. exists a, x, (b ++ [(n, v)]). rewrite <- app_assoc. repeat split; auto. rewrite map_app. intros H. apply in_app_or in H as [H|[H|[]]]; [contradiction|cbn in H; congruence].
Qed.
Lemma latest_only nvs v1 v2 : latest nvs v1 -> latest nvs v2 -> forall n, sfind n v1 = sfind n v2.
Proof.
  intros [_ H1] [_ H2] n. destruct (H1 n) as [[A1 C1]|(a1 & x1 & b1 & E1 & A1 & C1)], (H2 n) as [[A2 C2]|(a2 & x2 & b2 & E2 & A2 & C2)].
  - congruence.
  - exfalso. apply A1. rewrite E2, map_app. apply in_or_app. right. left. reflexivity.
  - exfalso. apply A2. rewrite E1, map_app. apply in_or_app. right. left. reflexivity.
  - rewrite C1, C2. f_equal. assert (E : a1 ++ (n, x1) :: b1 = a2 ++ (n, x2) :: b2) by congruence. clear -E A1 A2.
    revert a2 E. induction a1 as [|y a1 IH]; intros [|z a2] E; cbn in E.
    + congruence.
    + injection E as <- ->. exfalso. apply A1. rewrite map_app. apply in_or_app. right. left. reflexivity.
    + injection E as -> <-. exfalso. apply A2. rewrite map_app. apply in_or_app. right. left. reflexivity.
    + injection E as _ E. eapply IH, E.
Qed.
(** Definitions are numbers and strings. *)
Definition plain (v : tval) : Prop := match v with TNum _ | TStr _ => True | _ => False end.
Lemma defined_plain lexd defs nvs : Forall2 (defines_as lexd) defs nvs -> Forall (fun nv => plain (snd nv)) nvs.
Proof.
  induction 1 as [|d [n v] defs nvs (ty & x & _ & _ & _ & _ & H) _ IH]; constructor; auto. cbn [snd] in *. destruct H as [[_ (y & _ & ->)]|[_ ->]]; exact I.
Qed.
Lemma fold_plain nvs : Forall (fun nv => plain (snd nv)) nvs -> forall m : smap tval, (forall nv, In nv m -> plain (snd nv)) ->
  forall nv, In nv (fold_left (fun m nv => sset (fst nv) (snd nv) m) nvs m) -> plain (snd nv).
Proof.
  induction 1 as [|[n v] nvs H _ IH]; intros m Hm; cbn [fold_left fst snd]; [exact Hm|]. apply IH. intros nv Hn. apply In_sset in Hn as [->|Hn]; auto.
Qed.
Lemma sorted_head (n : string) (v : tval) vars : ssorted ((n, v) :: vars) -> ssorted vars /\ ~ In n (map fst vars).
Proof.
  intros H. assert (S' : ssorted vars) by (destruct H; assumption). split; [exact S'|]. intros I. apply in_map_iff in I as ([k x] & E & I). cbn in E. subst k.
  destruct H as [H _]. specialize (H n x I). unfold str_lt in H. rewrite str_compare_refl in H. discriminate.
Qed.
Lemma written_run w vars : ssorted vars -> (forall nv, In nv vars -> plain (snd nv)) -> forall env, (forall n, In n (map fst vars) -> assoc n (e_vars env) = None) ->
  sexecs w env (written vars) = Some (mkEnv (e_vars env ++ presets vars) (e_elems env) (e_lines env)).
Proof.
  induction vars as [|[n v] vars IH]; intros S' P env N.
  - cbn. rewrite app_nil_r. destruct env; reflexivity.
  - apply sorted_head in S' as [S1 S2]. assert (Pn : plain v) by (apply (P (n, v)); left; reflexivity).
    assert (Hn : defined n (e_vars env) = false). { unfold defined. rewrite (N n) by (left; reflexivity). reflexivity. }
    cbn [written map fst snd sexecs]. fold (written vars).
    assert (X : exists x, preset_val v = Some x /\ sexec w env (SAssign n (match v with TNum x => ANum x | TStr s => AStr s | _ => AStr "" end)) =
                Some (mkEnv (e_vars env ++ [(n, x)]) (e_elems env) (e_lines env))).
    { destruct v as [x|l|s|cs]; try destruct Pn; eexists; (split; [reflexivity|]); cbn [sexec seval obind]; rewrite Hn; reflexivity. }
    destruct X as (x & V & ->). cbn [obind]. rewrite IH; auto.
    + cbn [e_vars e_elems e_lines presets]. rewrite V, <- app_assoc. reflexivity.
    + intros nv H. apply P. right. exact H.
    + intros k Hk. cbn [e_vars]. rewrite assoc_app. rewrite (N k) by (right; exact Hk). cbn. destruct (String.eqb_spec k n) as [->|]; [contradiction|reflexivity].
Qed.
Lemma as_written w vars lat p : ssorted vars -> (forall nv, In nv vars -> plain (snd nv)) -> srun w vars lat p = srun w [] lat (written vars ++ p).
Proof.
  intros S' P. unfold srun. assert (E : sexecs w (env0 []) (written vars ++ p) = sexecs w (env0 vars) p); [|rewrite E; reflexivity].
  assert (A : forall l env, sexecs w env (l ++ p) = obind (sexecs w env l) (fun env' => sexecs w env' p)).
  { induction l as [|x l IH]; intros env; [reflexivity|]. cbn [app sexecs]. destruct (sexec w env x); cbn [obind]; [apply IH|reflexivity]. }
  rewrite A, written_run; auto.
Qed.
