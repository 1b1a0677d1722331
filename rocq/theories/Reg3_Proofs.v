(** Whole programs. *)
From Coq Require Import List String Bool NArith ZArith Arith Lia Permutation.
From Coq Require Import Floats.SpecFloat.
From Verif Require Import SMap SMap_Proofs Dbl Config_Spec Machine_Model Reg_Model Reg_Spec Reg_Proofs Reg2_Proofs.
Import ListNotations.
Open Scope string_scope.
Open Scope list_scope.

Section R.
Context {D B : Type}.
Implicit Types (l : list (op D B)) (p : rprog D B) (q : aprog D B).

Lemma step_len p o p' a : step p o = Fine (p', a) -> List.length (g_ms p') = (if is_new o then 1 else 0) + List.length (g_ms p).
Proof.
  destruct p as [h r ms], o; cbn [step is_new g_ms].
  - destruct (state_reg r n b). intros H. injection H as <- _. reflexivity.
  - destruct (elem_reg h r s n k) as [[h' r'] e]. intros H. injection H as <- _. reflexivity.
  - destruct (cleanup h r); [|discriminate]. cbn [mbind]. intros H. injection H as <- _. reflexivity.
  - destruct (mach_reg h r c) as [[m|e]|]; [| |discriminate]; cbn [mbind]; intros H; injection H as <- _; cbn [g_ms]; rewrite app_length; simpl; lia.
  - destruct (get_mach ms x) as [m|]; [|intros H; injection H as <- _; reflexivity]. destruct (reconf_reg h m idx c) as [[m' e]|]; [|discriminate].
    cbn [mbind]. intros H. injection H as <- _. cbn [g_ms]. apply update_len.
  - destruct (get_mach ms x); intros H; injection H as <- _; reflexivity.
  - destruct (get_mach ms x) as [m|]; [|intros H; injection H as <- _; reflexivity]. destruct (prop_reg m st start max); intros H; injection H as <- _; cbn [g_ms]; [apply update_len|reflexivity].
  - intros H. injection H as <- _. cbn [g_ms]. apply update_len.
Qed.
Lemma aruns_app q l1 l2 : aruns q (l1 ++ l2) = aruns q l1 ++ aruns (afinal q l1) l2.
Proof.
  revert q. induction l1 as [|o l1 IH]; intros q; [reflexivity|]. cbn [List.app aruns afinal]. destruct (astep q o) as [q' a]. cbn [fst List.app].
  rewrite IH. reflexivity.
Qed.
Lemma afinal_app q l1 l2 : afinal q (l1 ++ l2) = afinal (afinal q l1) l2.
Proof. revert q. induction l1 as [|o l1 IH]; intros q; [reflexivity|]. cbn [List.app afinal]. apply IH. Qed.
Lemma run_app p l1 l2 : run p (l1 ++ l2) =
  mbind (run p l1) (fun '(p1, r1) => mbind (run p1 l2) (fun '(p2, r2) => Fine (p2, r1 ++ r2))).
Proof.
  revert p. induction l1 as [|o l1 IH]; intros p.
  - cbn [List.app run mbind]. destruct (run p l2) as [[p2 r2]|]; reflexivity.
  - cbn [List.app run]. destruct (step p o) as [[p1 a]|]; [|reflexivity]. cbn [mbind]. rewrite IH. destruct (run p1 l1) as [[p2 r1]|]; [|reflexivity]. cbn [mbind].
    destruct (run p2 l2) as [[p3 r2]|]; reflexivity.
Qed.

Lemma run_inv l : forall old lk p q p' rs, inv old lk p q -> run p l = Fine (p', rs) ->
  exists old' lk', inv old' lk' p' (afinal q l) /\ rs = aruns q l /\ List.length lk' = refused l rs + List.length lk /\
    old <= old' /\ List.length (g_ms p') = constructions l + List.length (g_ms p).
Proof.
  induction l as [|o l IH]; intros old lk p q p' rs V H.
  - injection H as <- <-. exists old, lk. split; [exact V|]. repeat split; auto.
  - cbn [run] in H. pose proof (do_step old lk p q o V) as T. destruct (stale old q o); [rewrite T in H; discriminate|].
    destruct T as (p1 & lk1 & E & V1 & L1). rewrite E in H. cbn [mbind] in H. destruct (run p1 l) as [[p2 rs2]|] eqn:R; [|discriminate].
    cbn [mbind] in H. injection H as <- <-. destruct (IH _ _ _ _ _ _ V1 R) as (old' & lk' & V' & -> & L' & O' & N'). exists old', lk'.
    cbn [afinal aruns]. pose proof (step_len _ _ _ _ E) as Len. destruct (astep q o) as [q1 a] eqn:Ea. cbn [fst snd] in *.
    split; [exact V'|]. split; [reflexivity|]. split; [|split].
    + rewrite L', L1. destruct o, a; cbn [cost refused]; try lia; destruct r; lia.
    + assert (old <= old_after o old p) by (destruct o; cbn [old_after]; try lia; destruct V; assumption). lia.
    + rewrite N', Len. unfold constructions. cbn [filter]. destruct (is_new o); cbn [List.length]; lia.
Qed.
Lemma run_keeps l : forall old lk p q, inv old lk p q -> keeps (List.length (g_ms p)) old l -> exists p' rs, run p l = Fine (p', rs).
Proof.
  induction l as [|o l IH]; intros old lk p q V K; [exists p, []; reflexivity|]. cbn [run]. pose proof (do_step old lk p q o V) as T.
  assert (St : stale old q o = false).
  { destruct o; try reflexivity. cbn [stale keeps] in *. destruct (get_mach (a_ms q) x); [|reflexivity]. destruct K as [K _]. apply Nat.ltb_ge in K. rewrite K. reflexivity. }
  rewrite St in T. destruct T as (p1 & lk1 & E & V1 & _). rewrite E. cbn [mbind]. pose proof (step_len _ _ _ _ E) as Len.
  destruct (IH _ _ _ _ V1) as (p2 & rs & ->).
  - rewrite Len. destruct o; cbn [keeps is_new old_after] in *; try exact K. destruct K as [_ K]. exact K.
  - cbn [mbind]. eauto.
Qed.

Lemma agree l p rs : run prog0 l = Fine (p, rs) -> rs = expected l.
Proof. intros H. destruct (run_inv l _ _ _ _ _ _ inv0 H) as (o & k & _ & E & _). exact E. Qed.
Lemma safe l : keeps 0 0 l -> exists p, run prog0 l = Fine (p, expected l).
Proof.
  intros K. destruct (run_keeps l 0 [] prog0 (mkAP [] []) inv0 K) as (p & rs & H). exists p. rewrite H. rewrite (agree l p rs H). reflexivity.
Qed.
Lemma stale_wild l1 l2 x idx c m e t k : x < constructions l1 ->
  get_mach (a_ms (afinal (mkAP [] []) (l1 ++ OClean :: l2))) x = Some m ->
  slot (m_elems m) idx = Some e -> get_str c "type" = Ok t -> sfind t (si_elems (m_info m)) = Some k ->
  run (@prog0 D B) (l1 ++ OClean :: l2 ++ [OReconf x idx c]) = Wild.
Proof.
  intros X G S T K. replace (l1 ++ OClean :: l2 ++ [OReconf x idx c]) with ((l1 ++ OClean :: l2) ++ [OReconf x idx c]) by (rewrite <- app_assoc; reflexivity).
  rewrite run_app. destruct (run prog0 (l1 ++ OClean :: l2)) as [[p rs]|] eqn:R; [|reflexivity]. cbn [mbind].
  rewrite run_app in R. destruct (run prog0 l1) as [[p1 rs1]|] eqn:R1; [|discriminate]. cbn [mbind] in R.
  destruct (run_inv l1 _ _ _ _ _ _ inv0 R1) as (o1 & k1 & V1 & _ & _ & _ & N1). cbn [prog0 g_ms List.length] in N1.
  cbn [run] in R. pose proof (do_step o1 k1 p1 _ OClean V1) as T1. cbn [stale] in T1. destruct T1 as (p2 & k2 & E2 & V2 & _). rewrite E2 in R. cbn [mbind] in R.
  destruct (run p2 l2) as [[p3 rs3]|] eqn:R3; [|discriminate]. cbn [mbind] in R. injection R as <- _.
  destruct (run_inv l2 _ _ _ _ _ _ V2 R3) as (o3 & k3 & V3 & _ & _ & O3 & _). cbn [old_after] in O3.
  cbn [run]. pose proof (do_step o3 k3 p3 _ (OReconf x idx c) V3) as T3. rewrite afinal_app in G. cbn [afinal] in G. cbn [stale] in T3. rewrite G, S, T, K in T3.
  assert (Q : Nat.ltb x o3 = true) by (apply Nat.ltb_lt; lia). rewrite Q in T3. cbn [andb] in T3. rewrite T3. reflexivity.
Qed.
Lemma freed l p rs : run prog0 l = Fine (p, rs) ->
  exists p', run prog0 (l ++ [OClean]) = Fine (p', rs ++ [RUnit (Ok tt)]) /\ List.length (b_live (g_heap p')) = refused l rs /\ g_reg p' = [].
Proof.
  intros H. destruct (run_inv l _ _ _ _ _ _ inv0 H) as (o & k & V & _ & L & _). pose proof (do_step o k p _ OClean V) as T. cbn [stale] in T.
  destruct T as (p' & k' & E & V' & L'). exists p'. rewrite run_app, H. cbn [mbind run]. rewrite E. cbn [mbind].
  assert (A : snd (astep (afinal (mkAP [] []) l) OClean) = RUnit (Ok tt)) by (destruct (afinal (mkAP [] []) l); reflexivity). rewrite A in *. split; [reflexivity|].
  assert (G : g_reg p' = []).
  { destruct p as [h r ms]. cbn [step] in E. destruct (cleanup h r); [|discriminate]. cbn [mbind] in E. injection E as <-. reflexivity. }
  split; [|exact G]. destruct V' as [_ _ _ _ P _ _ _]. rewrite G in P. apply Permutation_length in P. unfold keys in P. rewrite map_length in P. cbn [addrs flat_map List.app] in P.
  rewrite P, L'. cbn [cost]. cbn [List.length] in L. lia.
Qed.
Lemma setup_reg l : forall q q', forallb setup l = true -> a_reg q = a_reg q' -> aruns q l = aruns q' l.
Proof.
  induction l as [|o l IH]; intros [r ms] [r' ms'] S E; [reflexivity|]. cbn [a_reg] in E. subst r'. cbn [forallb] in S. apply andb_prop in S as [S1 S2]. cbn [aruns].
  destruct o; try discriminate; cbn [astep].
  - destruct (reg_state r n b) as [r1 e]. f_equal. apply IH; auto.
  - destruct (reg_elem r s n k) as [r1 e]. f_equal. apply IH; auto.
  - f_equal. apply IH; auto.
  - destruct (new_machine r c); f_equal; apply IH; auto.
Qed.
Lemma setup_keeps l : forall made old, forallb setup l = true -> keeps made old l.
Proof.
  induction l as [|o l IH]; intros made old S; [exact I|]. cbn [forallb] in S. apply andb_prop in S as [S1 S2]. destruct o; try discriminate; cbn [keeps]; apply IH; exact S2.
Qed.
Lemma again l1 l2 p rs : run prog0 (l1 ++ OClean :: l2) = Fine (p, rs) -> forallb setup l2 = true ->
  exists p2 rs2, run prog0 l2 = Fine (p2, rs2) /\ skipn (S (List.length l1)) rs = rs2.
Proof.
  intros H S. destruct (safe l2 (setup_keeps l2 0 0 S)) as (p2 & H2). exists p2, (expected l2). split; [exact H2|].
  rewrite (agree _ _ _ H). unfold expected. rewrite aruns_app. assert (L : forall q l, List.length (aruns q l) = List.length l).
  { intros q l. revert q. induction l as [|o l IH]; intros q; [reflexivity|]. cbn [aruns]. destruct (astep q o). cbn [List.length]. rewrite IH. reflexivity. }
  replace (Datatypes.S (List.length l1)) with (List.length l1 + 1) by lia.
  rewrite skipn_app, L. rewrite skipn_all2 by (rewrite L; lia). cbn [List.app]. replace (List.length l1 + 1 - List.length l1) with 1 by lia.
  cbn [aruns]. destruct (afinal (mkAP [] []) l1) as [ar ams]. cbn [astep skipn]. apply setup_reg; [exact S|reflexivity].
Qed.
End R.

(** ** Witnesses *)
Definition keep_cls : class double double :=
  mkCls 0 "keep" (fun c => Ok (get_num_def c "x" dzero)) (fun _ d => d)
        (fun _ d st => (d, Ok (mkSt (st_next st) (st_retreat st) d))).
Definition el90 (n : string) (x : double) : tcfg := TCfg [("name", TStr n); ("type", TStr "keep"); ("x", TNum x)] [].
Definition conf90 : tcfg := TCfg [("elements", TCfgs [el90 "a" dzero]); ("sim_type", TStr "Toy")] [].
Definition types90 : list (op double double) := [OState "Toy" (fun _ => Ok dzero); OElem "Toy" "keep" keep_cls].
Definition half : double := S754_finite false 4503599627370496 (-53).
Lemma C90_anytime_refuted_w : exists (D B : Type) (l : list (op D B)), run prog0 l = Wild /\ List.last (expected l) RNone = RUnit (Ok tt).
Proof. exists double, double, (types90 ++ [ONew conf90; OClean; OReconf 0 0 (el90 "a" half)]). split; reflexivity. Qed.
Lemma C90_refused_refuted_w : exists (D B : Type) (l : list (op D B)) p rs, run prog0 (l ++ [OClean]) = Fine (p, rs) /\ b_live (g_heap p) <> [].
Proof. exists double, double, (types90 ++ [OElem "Toy" "keep" keep_cls]). do 2 eexists. split; [reflexivity|discriminate]. Qed.
