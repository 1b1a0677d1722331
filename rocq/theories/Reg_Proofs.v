(** The registry with pointers against the registry with names. *)
From Coq Require Import List String Bool NArith ZArith Arith Lia Permutation.
From Verif Require Import SMap SMap_Proofs Dbl Config_Spec Machine_Model Reg_Model Reg_Spec.
Import ListNotations.
Open Scope string_scope.
Open Scope list_scope.

(** ** Maps with the same keys *)
Definition alike {V W} (P : V -> W -> Prop) (m : smap V) (m' : smap W) : Prop :=
  Forall2 (fun x y => fst x = fst y /\ P (snd x) (snd y)) m m'.
Lemma alike_find {V W} (P : V -> W -> Prop) m m' k : alike P m m' ->
  match sfind k m, sfind k m' with Some v, Some w => P v w | None, None => True | _, _ => False end.
Proof.
  induction 1 as [|[a v] [b w] m m' [E H] F IH]; [exact I|]. cbn [fst snd] in *. subst b. cbn [sfind].
  destruct (String.eqb k a); [exact H|exact IH].
Qed.
Lemma alike_set {V W} (P : V -> W -> Prop) m m' k v w : alike P m m' -> P v w -> alike P (sset k v m) (sset k w m').
Proof.
  intros F H. induction F as [|[a v'] [b w'] m m' [E Q] F IH]; [constructor; [split; [reflexivity|exact H]|constructor]|].
  cbn [fst snd] in *. subst b. cbn [sset]. destruct (String.compare k a); repeat constructor; auto.
Qed.
Lemma alike_mono {V W} (P Q : V -> W -> Prop) m m' : (forall v w, In v (map snd m) -> P v w -> Q v w) -> alike P m m' -> alike Q m m'.
Proof.
  intros H F. induction F as [|x y m m' [E A] F IH]; [constructor|]. constructor.
  - split; [exact E|]. apply H; [left; reflexivity|exact A].
  - apply IH. intros v w I. apply H. right. exact I.
Qed.
(** A new key in a map *)
Lemma sset_new {V} k v (m : smap V) : sfind k m = None -> Permutation (sset k v m) ((k, v) :: m).
Proof.
  induction m as [|[a w] m IH]; intros H; [apply Permutation_refl|]. cbn [sfind] in H. cbn [sset].
  destruct (String.compare k a) eqn:C.
  - apply String.compare_eq_iff in C. subst a. rewrite String.eqb_refl in H. discriminate.
  - apply Permutation_refl.
  - destruct (String.eqb k a); [discriminate|]. eapply perm_trans; [apply perm_skip; apply IH; exact H|]. apply perm_swap.
Qed.
(** An old one in a sorted map *)
Lemma sset_old {V} k v w (m : smap V) : ssorted m -> sfind k m = Some w ->
  exists m1 m2, m = m1 ++ (k, w) :: m2 /\ sset k v m = m1 ++ (k, v) :: m2.
Proof.
  induction m as [|[a u] m IH]; intros S H; [discriminate|]. cbn [sfind] in H. destruct S as [S1 S2]. cbn [sset].
  destruct (String.eqb_spec k a) as [->|N].
  - injection H as ->. exists [], m. split; [reflexivity|]. rewrite str_compare_refl. reflexivity.
  - assert (L : str_lt a k). { clear -S1 H. induction m as [|[b x] m IH]; [discriminate|]. cbn [sfind] in H.
      destruct (String.eqb_spec k b) as [->|]; [apply (S1 b x); left; reflexivity|]. apply IH; [|exact H]. intros k' v' I. apply (S1 k' v'). right. exact I. }
    destruct (IH S2 H) as (m1 & m2 & -> & E). exists ((a, u) :: m1), m2. split; [reflexivity|].
    unfold str_lt in L. rewrite String.compare_antisym, L. cbn [CompOpp]. rewrite E. reflexivity.
Qed.

Section R.
Context {D B : Type}.
Implicit Types (h : bheap D B) (r : rreg B) (ar : registry D B).

Definition keys h : list nat := map fst (b_live h).
Lemma b_find_in (l : list (nat * class D B)) a : In a (map fst l) -> exists k, b_find l a = Some k.
Proof.
  induction l as [|[x k] l IH]; intros I; [destruct I|]. cbn [b_find]. destruct (Nat.eqb_spec x a) as [->|N]; [eauto|].
  apply IH. destruct I as [I|I]; [contradiction|exact I].
Qed.
Lemma b_find_out (l : list (nat * class D B)) a : ~ In a (map fst l) -> b_find l a = None.
Proof.
  induction l as [|[x k] l IH]; intros N; [reflexivity|]. cbn [b_find]. destruct (Nat.eqb_spec x a) as [->|].
  - exfalso. apply N. left. reflexivity.
  - apply IH. intros I. apply N. right. exact I.
Qed.
Lemma b_find_some (l : list (nat * class D B)) a k : b_find l a = Some k -> In a (map fst l).
Proof.
  intros H. destruct (in_dec Nat.eq_dec a (map fst l)) as [I|N]; [exact I|]. rewrite (b_find_out l a N) in H. discriminate.
Qed.
Lemma filter_keys (l : list (nat * class D B)) a x : In x (map fst (filter (fun p => negb (Nat.eqb (fst p) a)) l)) <-> In x (map fst l) /\ x <> a.
Proof.
  induction l as [|[y k] l IH]; [simpl; tauto|]. cbn [filter map fst]. destruct (Nat.eqb_spec y a) as [->|N]; cbn [negb map fst In].
  - rewrite IH. split; [tauto|]. intros [[->|I] M]; [congruence|tauto].
  - rewrite IH. split; [intros [->|[I M]]; tauto|]. tauto.
Qed.
Lemma filter_nodup (l : list (nat * class D B)) f : NoDup (map fst l) -> NoDup (map fst (filter f l)).
Proof.
  induction l as [|[y k] l IH]; intros N; [constructor|]. cbn [map fst] in N. inversion N as [|? ? N1 N2]; subst. cbn [filter].
  destruct (f (y, k)); [|apply IH; exact N2]. cbn [map fst]. constructor; [|apply IH; exact N2].
  intros I. apply N1. clear -I. induction l as [|[z j] l IH]; [exact I|]. cbn [filter] in I. destruct (f (z, j)); [|right; apply IH; exact I].
  destruct I as [I|I]; [left; exact I|right; apply IH; exact I].
Qed.
Lemma frees_ok l : forall lk h, NoDup (keys h) -> Permutation (keys h) (l ++ lk) ->
  exists h', b_frees h l = Fine h' /\ b_next h' = b_next h /\ NoDup (keys h') /\ Permutation (keys h') lk.
Proof.
  induction l as [|a l IH]; intros lk h N P; [exists h; auto|]. cbn [b_frees List.app] in *.
  assert (I : In a (keys h)) by (eapply Permutation_in; [apply Permutation_sym; exact P|left; reflexivity]).
  destruct (b_find_in (b_live h) a I) as [k K]. unfold b_free. rewrite K. cbn [mbind].
  set (h1 := mkBH (b_next h) (filter (fun p => negb (Nat.eqb (fst p) a)) (b_live h))).
  destruct (IH lk h1) as (h' & E & X & N' & P').
  - apply filter_nodup. exact N.
  - apply NoDup_Permutation; [apply filter_nodup; exact N| |].
    + assert (Q : NoDup (a :: l ++ lk)) by (eapply Permutation_NoDup; [exact P|exact N]). inversion Q; assumption.
    + intros x. unfold keys, h1. cbn [b_live]. rewrite filter_keys. assert (Q : NoDup (a :: l ++ lk)) by (eapply Permutation_NoDup; [exact P|exact N]).
      inversion Q as [|? ? Q1 Q2]; subst. split.
      * intros [I1 M]. assert (I2 : In x (a :: l ++ lk)) by (eapply Permutation_in; [exact P|exact I1]). destruct I2 as [->|I2]; [congruence|exact I2].
      * intros I1. split; [|intros ->; contradiction]. eapply Permutation_in; [apply Permutation_sym; exact P|right; exact I1].
  - exists h'. auto.
Qed.

(** ** Relations *)
Definition elems_rel h : smap nat -> smap (class D B) -> Prop := alike (fun a k => b_find (b_live h) a = Some k).
Definition elems_keys : smap nat -> smap (class D B) -> Prop := alike (fun _ _ => True).
Definition info_rel h (i : rinfo B) (j : sinfo D B) : Prop := ri_build i = si_build j /\ elems_rel h (ri_elems i) (si_elems j).
Definition fields (m : rmach D B) (am : machine D B) : Prop :=
  am = mkM (rm_elems m) (rm_lookup m) (rm_types m) (rm_simtype m) (rm_conf m) (m_info am) /\
  ri_build (rm_info m) = si_build (m_info am) /\ elems_keys (ri_elems (rm_info m)) (si_elems (m_info am)).
Definition mine (m : rmach D B) : list nat := map snd (ri_elems (rm_info m)).
Definition mrel h r (old x : nat) (o : option (rmach D B)) (a : option (machine D B)) : Prop :=
  match o, a with
  | None, None => True
  | Some m, Some am =>
      fields m am /\
      (if Nat.ltb x old then forall b, In b (mine m) -> ~ In b (keys h) /\ b < b_next h
       else elems_rel h (ri_elems (rm_info m)) (si_elems (m_info am)) /\ incl (mine m) (addrs r))
  | _, _ => False
  end.
Record inv (old : nat) (lk : list nat) (p : rprog D B) (q : aprog D B) : Prop := {
  i_sorted : ssorted (g_reg p);
  i_reg : alike (info_rel (g_heap p)) (g_reg p) (a_reg q);
  i_nodup : NoDup (keys (g_heap p));
  i_next : forall a, In a (keys (g_heap p)) -> a < b_next (g_heap p);
  i_live : Permutation (keys (g_heap p)) (addrs (g_reg p) ++ lk);
  i_len : List.length (g_ms p) = List.length (a_ms q);
  i_old : old <= List.length (g_ms p);
  i_ms : forall x, mrel (g_heap p) (g_reg p) old x (get_mach (g_ms p) x) (get_mach (a_ms q) x) }.

(** ** Machines *)
Lemma loop_rel h i j : elems_rel h (ri_elems i) (si_elems j) -> forall es idx result ll lt,
  loop_reg h i es idx result ll lt = Fine (build_loop j es idx result ll lt).
Proof.
  intros R. induction es as [|ec es IH]; intros idx result ll lt; [reflexivity|]. cbn [loop_reg build_loop].
  destruct (get_str ec "type") as [etype|e]; [|reflexivity]. cbn [rbind].
  pose proof (alike_find _ _ _ etype R) as F. destruct (sfind etype (ri_elems i)) as [a|], (sfind etype (si_elems j)) as [k|]; try contradiction; [|reflexivity].
  unfold deref. rewrite F. cbn [mbind]. destruct (build k ec) as [e|e]; [|destruct e; reflexivity].
  destruct (String.eqb (el_tname e) etype); [|reflexivity]. cbv zeta. apply IH.
Qed.
Lemma addrs_in r n i : sfind n r = Some i -> incl (map snd (ri_elems i)) (addrs r).
Proof.
  induction r as [|[k j] r IH]; intros H; [discriminate|]. cbn [sfind] in H. unfold addrs. cbn [flat_map snd].
  destruct (String.eqb n k); [injection H as ->; apply incl_appl, incl_refl|]. apply incl_appr. apply IH. exact H.
Qed.
Lemma new_rel h r ar c : alike (info_rel h) r ar ->
  match new_machine ar c with
  | Throw e => mach_reg h r c = Fine (Throw e)
  | Ok am => exists m, mach_reg h r c = Fine (Ok m) /\ fields m am /\ elems_rel h (ri_elems (rm_info m)) (si_elems (m_info am)) /\ incl (mine m) (addrs r)
  end.
Proof.
  intros R. unfold new_machine, mach_reg. destruct (get_str c "sim_type") as [t|e]; [|reflexivity]. cbn [rbind].
  pose proof (alike_find _ _ _ t R) as F. destruct (sfind t r) as [i|] eqn:Ei, (sfind t ar) as [j|]; try contradiction; [|reflexivity].
  destruct F as [F1 F2]. destruct (get_cfgs c "elements") as [es|e]; [|reflexivity]. cbn [rbind]. rewrite (loop_rel h i j F2). cbn [mbind].
  destruct (build_loop j es 0 [] [] []) as [[[els ll] lt]|e]; [|reflexivity]. cbn [rbind]. eexists. split; [reflexivity|].
  split; [|split; [exact F2|apply (addrs_in r t); exact Ei]]. split; [reflexivity|]. split; [exact F1|]. cbn. eapply alike_mono; [|exact F2]. trivial.
Qed.
Lemma reconf_rel h m am idx c : fields m am -> elems_rel h (ri_elems (rm_info m)) (si_elems (m_info am)) ->
  exists m', reconf_reg h m idx c = Fine (m', snd (reconfigure am idx c)) /\ rm_info m' = rm_info m /\ fields m' (fst (reconfigure am idx c)) /\
    m_info (fst (reconfigure am idx c)) = m_info am.
Proof.
  intros (E & F1 & F2) R. unfold reconf_reg, reconfigure. assert (Hs : m_elems am = rm_elems m) by (rewrite E; reflexivity). rewrite Hs.
  assert (S : forall e, exists m', Fine (m, @Throw unit e) = Fine (m', snd (am, @Throw unit e)) /\ rm_info m' = rm_info m /\ fields m' (fst (am, @Throw unit e)) /\ m_info (fst (am, @Throw unit e)) = m_info am).
  { intros e. exists m. repeat split; auto. }
  destruct (slot (rm_elems m) idx) as [o|]; [|apply S]. destruct (get_str c "type") as [etype|e]; [|apply S].
  pose proof (alike_find _ _ _ etype R) as F. destruct (sfind etype (ri_elems (rm_info m))) as [a|], (sfind etype (si_elems (m_info am))) as [k|]; try contradiction; [|apply S].
  unfold deref. rewrite F. cbn [mbind]. destruct (rebuild k o c idx) as [e|e]; [|apply S]. cbn [fst snd].
  eexists. split; [reflexivity|]. split; [reflexivity|]. split; [|reflexivity]. split; [|split; [exact F1|exact F2]].
  unfold with_elems. cbn [rm_put rm_elems rm_lookup rm_types rm_simtype rm_conf m_info]. rewrite E. reflexivity.
Qed.
(** A machine whose builders are gone *)
Lemma reconf_stale h m am idx c : fields m am -> (forall b, In b (mine m) -> ~ In b (keys h)) ->
  match slot (m_elems am) idx, get_str c "type" with
  | Some _, Ok t => match sfind t (si_elems (m_info am)) with
                    | Some _ => reconf_reg h m idx c = Wild
                    | None => reconf_reg h m idx c = Fine (m, snd (reconfigure am idx c)) /\ fst (reconfigure am idx c) = am
                    end
  | _, _ => reconf_reg h m idx c = Fine (m, snd (reconfigure am idx c)) /\ fst (reconfigure am idx c) = am
  end.
Proof.
  intros (E & F1 & F2) N. unfold reconf_reg, reconfigure. assert (Hs : m_elems am = rm_elems m) by (rewrite E; reflexivity). rewrite Hs.
  destruct (slot (rm_elems m) idx) as [o|]; [|split; reflexivity]. destruct (get_str c "type") as [etype|e]; [|split; reflexivity].
  pose proof (alike_find _ _ _ etype F2) as F. destruct (sfind etype (ri_elems (rm_info m))) as [a|] eqn:Ea, (sfind etype (si_elems (m_info am))) as [k|]; try contradiction; [|split; reflexivity].
  unfold deref. rewrite b_find_out; [reflexivity|]. apply N. unfold mine. clear -Ea. induction (ri_elems (rm_info m)) as [|[x v] l IH]; [discriminate|].
  cbn [sfind] in Ea. destruct (String.eqb etype x); [injection Ea as ->; left; reflexivity|right; apply IH; exact Ea].
Qed.
End R.
