From Coq Require Import List String Bool NArith ZArith Arith Lia.
From Verif Require Import SMap SMap_Proofs Dbl Config_Spec Machine_Model Machine_Spec Machine_Proofs
  Cli_Model Own_Model Own_Spec.
Import ListNotations.
Open Scope list_scope.

(** ** Lists and memory *)
Lemma put_at_update {A} (l : list A) n a : put_at l n a = update l n a.
Proof. revert n; induction l as [|x l IH]; destruct n; simpl; try rewrite IH; reflexivity. Qed.
Lemma mem_nat_In a l : mem_nat a l = true <-> In a l.
Proof.
  unfold mem_nat. rewrite existsb_exists. split.
  - intros (x & H & E). apply Nat.eqb_eq in E. now subst.
  - intros H. exists a. split; auto. apply Nat.eqb_refl.
Qed.
Lemma h_ok_live h a : In a (h_live h) -> h_ok h a = true.
Proof. intros H. unfold h_ok. apply mem_nat_In in H. now rewrite H. Qed.
Lemma h_oks_live h l : (forall a, In a l -> In a (h_live h)) -> forallb (h_ok h) l = true.
Proof. intros H. apply forallb_forall. intros x Hx. apply h_ok_live; auto. Qed.
Lemma in_remove_iff a b l : In a (List.remove Nat.eq_dec b l) <-> In a l /\ a <> b.
Proof.
  split.
  - intros H. apply in_remove in H. tauto.
  - intros [H1 H2]. apply in_in_remove; auto.
Qed.
Lemma frees_ok l : forall h, NoDup l -> (forall a, In a l -> In a (h_live h)) ->
  exists h', h_frees h l = Fine h' /\ h_next h' = h_next h /\ h_auto h' = h_auto h /\
    forall a, In a (h_live h') <-> In a (h_live h) /\ ~ In a l.
Proof.
  induction l as [|x l IH]; intros h Hn Hl; simpl.
  - exists h. repeat split; auto; tauto.
  - inversion Hn as [|? ? Hx Hn']; subst.
    unfold h_free. destruct (mem_nat x (h_live h)) eqn:E.
    2:{ assert (X : In x (h_live h)) by (apply Hl; simpl; auto). apply mem_nat_In in X. congruence. }
    simpl. destruct (IH (mkH (h_next h) (List.remove Nat.eq_dec x (h_live h)) (h_auto h)) Hn') as (h' & H1 & H2 & H3 & H4).
    { intros a Ha. simpl. apply in_remove_iff. split; [apply Hl; simpl; auto|]. intros ->. contradiction. }
    exists h'. split; [exact H1|]. split; [exact H2|]. split; [exact H3|].
    intros a. rewrite H4. simpl. rewrite in_remove_iff. split.
    + intros [[X Y] Z]. split; auto. intros [->|W]; auto.
    + intros [X Y]. split; [split|]; auto.
Qed.

Section P.
Context {D B : Type}.
Variable reg : registry D B.
Implicit Types (els : list (elem D B)) (st : pstate B) (m : machine D B).

(** ** What the engine does with observers *)
Definition obsv els : list (option nat) := map el_obs els.

Lemma obsv_nth els s e : nth_error els s = Some e -> nth_error (obsv els) s = Some (el_obs e).
Proof. intros H. unfold obsv. rewrite nth_error_map, H. reflexivity. Qed.
Lemma obsv_length els : List.length (obsv els) = List.length els.
Proof. apply map_length. Qed.
Lemma obsv_same els els' : obsv els = obsv els' -> List.length els = List.length els'.
Proof. intros H. rewrite <- (obsv_length els), H. apply obsv_length. Qed.

Lemma obsv_data els n e d : nth_error els n = Some e -> obsv (update els n (with_data e d)) = obsv els.
Proof.
  revert n; induction els as [|x els IH]; destruct n; simpl; intros H; try discriminate.
  - injection H as ->. reflexivity.
  - f_equal. now apply IH.
Qed.
Lemma prop_loop_obs k : forall els st evs,
  obsv (pr_elems (prop_loop k els st evs)) = obsv els /\
  forall ev, In ev (pr_events (prop_loop k els st evs)) -> In ev evs \/ In (Some (ev_obs ev)) (obsv els).
Proof.
  induction k as [|k IH]; intros els st evs; simpl; auto.
  destruct (slot els (st_next st)) as [e|] eqn:Hs; simpl; auto.
  rewrite slot_nth in Hs.
  destruct (cl_advance _ _ _ _) as [d [st2|x]]; simpl.
  - specialize (IH (update els (N.to_nat (st_next st)) (with_data e d)) st2
      (match el_obs e with Some o => evs ++ [mkEv o (N.to_nat (st_next st)) st2] | None => evs end)).
    rewrite (obsv_data _ _ _ d Hs) in IH. destruct IH as [IH1 IH2]. split; auto.
    intros ev Hev. destruct (IH2 ev Hev) as [X|X]; auto.
    destruct (el_obs e) as [o|] eqn:Eo; auto. apply in_app_or in X as [X|[<-|[]]]; auto.
    right. simpl. rewrite <- Eo. apply (nth_error_In _ (N.to_nat (st_next st))). now apply obsv_nth.
  - split; auto. now apply obsv_data.
Qed.
Lemma propagate_obs m st start max p : propagate m st start max = Some p ->
  obsv (pr_elems p) = obsv (m_elems m) /\
  forall ev, In ev (pr_events p) -> In (Some (ev_obs ev)) (obsv (m_elems m)).
Proof.
  unfold propagate. destruct (Z.eqb max INT_MIN).
  - destruct (N.ltb _ _); intros H; [discriminate|]. injection H as <-. simpl. split; auto. intros ev [].
  - intros H. injection H as <-.
    destruct (prop_loop_obs (Z.abs_nat max) (m_elems m) (mkSt start (Z.ltb max 0) (st_body st)) []) as [H1 H2].
    split; auto. intros ev Hev. destruct (H2 ev Hev) as [[]|X]; auto.
Qed.
Lemma propagate_some m st start max : max <> INT_MIN -> exists p, propagate m st start max = Some p.
Proof.
  intros H. unfold propagate. destruct (Z.eqb_spec max INT_MIN); [contradiction|]. eauto.
Qed.
Lemma reconfigure_obs m idx c : obsv (m_elems (fst (reconfigure m idx c))) = obsv (m_elems m).
Proof.
  unfold reconfigure. destruct (slot (m_elems m) idx) as [o|] eqn:Hs; auto.
  rewrite slot_nth in Hs.
  destruct (get_str c "type") as [t|]; auto.
  destruct (sfind t (si_elems (m_info m))) as [k|]; auto.
  destruct (rebuild k o c idx) as [e|] eqn:Hr; auto. simpl.
  assert (He : el_obs e = el_obs o).
  { unfold rebuild, rbind in Hr. destruct (build k c) as [n|]; [|discriminate].
    destruct (Nat.eqb _ _); [|discriminate]. injection Hr as <-. reflexivity. }
  revert Hs He. generalize (m_elems m) (N.to_nat idx). clear.
  intros l; induction l as [|x l IH]; destruct n; simpl; intros Hs He; try discriminate.
  - injection Hs as ->. now rewrite He.
  - f_equal. now apply IH.
Qed.
Lemma set_observer_obs els s o : obsv (set_observer els s o) = update (obsv els) s o.
Proof.
  unfold set_observer. revert s; induction els as [|x els IH]; destruct s; simpl; auto.
  specialize (IH s). destruct (nth_error els s) eqn:E; simpl.
  - f_equal. auto.
  - f_equal. auto.
Qed.

(** ** Construction *)
Lemma build_none k c (e : elem D B) : build k c = Ok e -> el_obs e = None.
Proof.
  unfold build, rbind. destruct (base_ctor c); [|discriminate]. destruct (cl_ctor k c); [|discriminate].
  intros H. injection H as <-. reflexivity.
Qed.
Lemma build_loop_none (i : sinfo D B) es : forall n acc l1 l2 out,
  Forall (fun e => el_obs e = None) acc -> build_loop i es n acc l1 l2 = Ok out ->
  Forall (fun e => el_obs e = None) (fst (fst out)) /\
  List.length (fst (fst out)) = List.length acc + List.length es.
Proof.
  induction es as [|ec es IH]; simpl; intros n acc l1 l2 out Ha H.
  - injection H as <-. simpl. split; auto.
  - unfold rbind in H. destruct (get_str ec "type") as [t|]; [|discriminate].
    destruct (sfind t (si_elems i)) as [k|]; [|discriminate].
    destruct (build k ec) as [e|x] eqn:Hb; [|destruct x; discriminate].
    destruct (String.eqb _ _); [|discriminate].
    destruct (IH _ _ _ _ _ (proj2 (Forall_app _ _ _) (conj Ha (Forall_cons _ (build_none _ _ _ Hb : el_obs (with_index e (N.of_nat n)) = None) (Forall_nil _)))) H) as [H1 H2].
    split; auto. rewrite H2, app_length. simpl. lia.
Qed.

(** The new addresses are consecutive. *)
Definition grown (h h' : heap) (k : nat) : Prop :=
  h_next h' = h_next h + k /\ h_auto h' = h_auto h /\
  forall a, In a (h_live h') <-> In a (h_live h) \/ h_next h <= a < h_next h'.
Lemma grown_0 h : grown h h 0.
Proof. repeat split; auto; try lia. intros [H|H]; auto; lia. Qed.
Lemma grown_new h : grown h (snd (h_new h)) 1.
Proof.
  unfold h_new. repeat split; simpl; try lia.
  - intros [<-|H]; [right; lia|now left].
  - intros [H|H]; [now right|left; lia].
Qed.
Lemma grown_trans h h1 h2 k1 k2 : grown h h1 k1 -> grown h1 h2 k2 -> grown h h2 (k1 + k2).
Proof.
  intros (A1 & A2 & A3) (B1 & B2 & B3). split; [lia|]. split; [congruence|].
  intros a. rewrite B3, A3. split; [intros [[H|H]|H]|intros [H|H]]; auto; try (right; lia).
  destruct (Nat.lt_ge_cases a (h_next h1)); [left; right|right]; lia.
Qed.
Lemma h_new_eq h : h_new h = (h_next h, snd (h_new h)).
Proof. reflexivity. Qed.

(** How many elements of the list are made, and how many of them are put into [result]. *)
Fixpoint n_made (i : sinfo D B) (es : list tcfg) : nat * nat :=
  match es with
  | [] => (0, 0)
  | ec :: es' =>
      match get_str ec "type" with
      | Throw _ => (0, 0)
      | Ok t =>
          match sfind t (si_elems i) with
          | None => (0, 0)
          | Some k =>
              match build k ec with
              | Throw _ => (0, 0)
              | Ok e => if String.eqb (el_tname e) t
                        then (S (fst (n_made i es')), S (snd (n_made i es'))) else (1, 0)
              end
          end
      end
  end.
Lemma build_mem_made i es : forall h acc,
  grown h (fst (build_mem i es h acc)) (fst (n_made i es)) /\
  snd (build_mem i es h acc) = acc ++ seq (h_next h) (snd (n_made i es)).
Proof.
  induction es as [|ec es IH]; intros h acc; cbn [build_mem n_made].
  { cbn [fst snd]. rewrite app_nil_r. split; auto using grown_0. }
  destruct (get_str ec "type") as [t|]; cbn [fst snd]; [|rewrite app_nil_r; split; auto using grown_0].
  destruct (sfind t (si_elems i)) as [k|]; cbn [fst snd]; [|rewrite app_nil_r; split; auto using grown_0].
  destruct (build k ec) as [e|]; cbn [fst snd]; [|rewrite app_nil_r; split; auto using grown_0].
  rewrite h_new_eq. cbn [fst snd].
  destruct (String.eqb (el_tname e) t); cbn [fst snd].
  - destruct (IH (snd (h_new h)) (acc ++ [h_next h])) as [H1 H2]. split.
    + apply (grown_trans h _ _ 1 _ (grown_new h) H1).
    + rewrite H2, <- app_assoc. simpl. reflexivity.
  - rewrite app_nil_r. split; auto. apply grown_new.
Qed.
Lemma made_all i es : forall n acc l1 l2 out, build_loop i es n acc l1 l2 = Ok out ->
  n_made i es = (List.length es, List.length es).
Proof.
  induction es as [|ec es IH]; simpl; intros n acc l1 l2 out H; auto.
  unfold rbind in H. destruct (get_str ec "type") as [t|]; [|discriminate].
  destruct (sfind t (si_elems i)) as [k|]; [|discriminate].
  destruct (build k ec) as [e|x]; [|destruct x; discriminate].
  destruct (String.eqb _ _); [|discriminate]. now rewrite (IH _ _ _ _ _ H).
Qed.

Definition cells (m : omach D B) : list nat := om_addr m :: om_els m.
Lemma new_mem_ok h c h' om : new_mem reg h c = (h', Ok om) ->
  new_machine reg c = Ok (om_m om) /\
  om_els om = seq (h_next h) (List.length (om_elems om)) /\
  om_addr om = h_next h + List.length (om_elems om) /\
  grown h h' (List.length (om_elems om) + 1) /\
  Forall (fun e => el_obs e = None) (om_elems om).
Proof.
  unfold new_mem, om_elems. destruct (new_machine reg c) as [m|] eqn:Hm.
  2:{ intros H.
      destruct (match get_str c "sim_type" with Throw _ => _ | Ok t => _ end) as [h1 els].
      discriminate. }
  intros H.
  unfold new_machine, rbind in Hm. destruct (get_str c "sim_type") as [t|]; [|discriminate].
  destruct (sfind t reg) as [i|]; [|discriminate].
  destruct (get_cfgs c "elements") as [es|]; [|discriminate].
  destruct (build_loop i es 0 [] [] []) as [[[els ll] lt]|] eqn:Hb; [|discriminate].
  injection Hm as <-.
  destruct (build_mem i es h []) as [h1 res] eqn:Hr.
  destruct (build_mem_made i es h []) as [G S]. rewrite Hr in G, S. cbn [fst snd] in G, S.
  rewrite (made_all _ _ _ _ _ _ _ Hb) in G, S. cbn [fst snd] in G, S.
  destruct (build_loop_none i es 0 [] [] [] _ (Forall_nil _) Hb) as [F L]. cbn [fst snd] in F, L. simpl in L.
  injection H as <- <-. cbn [om_m om_els om_addr m_elems].
  destruct G as (G1 & G2 & G3).
  split; [reflexivity|]. split; [rewrite L, S; reflexivity|]. split; [rewrite L; lia|]. split; auto.
  rewrite L. apply (grown_trans h h1). { split; [|split]; auto. } apply (grown_new h1).
Qed.
Lemma new_mem_throw h c h' e : new_mem reg h c = (h', Throw e) ->
  new_machine reg c = Throw e /\ exists k, grown h h' k.
Proof.
  unfold new_mem.
  destruct (match get_str c "sim_type" with Throw _ => (h, []) | Ok t => _ end) as [h1 els] eqn:E.
  destruct (new_machine reg c) as [m|x] eqn:Hm; intros H.
  { unfold h_new in H. discriminate. }
  injection H as <- <-. split; auto.
  assert (X : h1 = h \/ exists (i : sinfo D B) es, h1 = fst (build_mem i es h [])).
  { destruct (get_str c "sim_type"); [|injection E as <- _; auto].
    destruct (sfind a reg) as [i|]; [|injection E as <- _; auto].
    destruct (get_cfgs c "elements") as [es|]; [|injection E as <- _; auto].
    right. exists i, es. now rewrite E. }
  destruct X as [->|(i & es & ->)].
  - exists 0. apply grown_0.
  - eexists. apply build_mem_made.
Qed.
End P.
