(** The threads of a virtual accelerator: small steps under the lock amount to single
    actions; no request and no wakeup is lost; everything ends. *)
From Coq Require Import List String Ascii Bool NArith ZArith Arith Lia.
From Verif Require Import SMap Dbl Lexer_Model Config_Spec Machine_Model Machine_Spec Machine_Proofs Machine2_Proofs
  Util_Model Array_Model Array_Spec Ioc_Model Ioc_Spec.
Import ListNotations.
Open Scope string_scope.
Open Scope list_scope.

Section Threads.
Context {D B : Type}.
Variables (ab : abi) (kindof : B -> kind) (memof : B -> mem) (what : exn -> string).
Notation vsim := (vsim D B).
Notation sys := (sys D B).
Notation code := (code (D:=D) (B:=B) ab kindof memof).
Notation atomic := (atomic (D:=D) (B:=B) ab kindof memof).
Notation cstep := (cstep (D:=D) (B:=B) ab kindof memof).
Notation wstep := (wstep (D:=D) (B:=B) what).
Notation micro := (micro (D:=D) (B:=B)).
Notation replays := (replays (D:=D) (B:=B) ab kindof memof what).
Notation run_once := (run_once (D:=D) (B:=B) what).
Implicit Types (s : vsim) (y : sys).

(** ** The steps of a record are its action *)
Fixpoint runm (fs : list micro) s (l : loc) : option (vsim * vout) :=
  match fs with
  | [] => Some (s, l_res l)
  | f :: r => match f s l with None => None | Some (s', l', _) => runm r s' l' end
  end.

Lemma update_at {A} (pre suf : list A) b x : update (pre ++ b :: suf) (List.length pre) x = pre ++ x :: suf.
Proof. induction pre; simpl; congruence. Qed.

Lemma set_machine_same s : set_machine s (v_machine s) = s.
Proof. destruct s; reflexivity. Qed.

Lemma skips {A} (F : A -> micro) g ls s l :
  (forall j s l, l_out l = true -> F j s l = Some (s, l, false)) -> l_out l = true ->
  runm (map F ls ++ g) s l = runm g s l.
Proof. intros HF Hl. induction ls as [|j ls IH]; simpl; auto. rewrite HF; auto. Qed.

Definition orbit_body d (n : nat) (j : nat) : micro := fun s l =>
         if l_out l then Some (s, l, false)
         else if Nat.eqb (l_i l) n then Some (s, leave (with_flag l false) ODone, false)
         else
           match nth_error (m_elems (v_machine s)) j with
           | None => None
           | Some e =>
               match mfind (el_index e) (v_measures s) with
               | None => None
               | Some o =>
                   match nth_error (v_last s) o with
                   | None => None
                   | Some last =>
                       match fetch ab kindof memof last (od_attr d) (od_dims d) with
                       | None => None
                       | Some (Some x) => Some (s, with_buf l (update (l_buf l) (l_i l) x) (S (l_i l)), false)
                       | Some None => Some (s, with_buf (with_flag l false) (l_buf l) (S (l_i l)), false)
                       end
                   end
               end
           end.
Definition wave_end : micro := fun s l => Some (s, leave l (OWave (l_buf l) (l_i l) (negb (l_flag l))), false).

Lemma ltb_short n m : Nat.ltb (S n) (S m) = Nat.ltb n m.
Proof. reflexivity. Qed.

Lemma orbit_loop d s : forall ls pre suf fl cf rs,
  runm (map (orbit_body d (List.length pre + List.length suf)) ls ++ [wave_end]) s
       (mkLoc fl cf (pre ++ suf) (List.length pre) false rs) =
  match collect (kept_at ab kindof memof s d) (firstn (List.length suf) ls) with
  | None => None
  | Some vals => Some (s, OWave (pre ++ overlay suf vals) (List.length pre + List.length vals)
                                (negb fl || missing vals || Nat.ltb (List.length suf) (List.length ls)))
  end.
Proof.
  induction ls as [|j ls IH]; intros pre suf fl cf rs.
  - rewrite firstn_nil. simpl. rewrite orb_false_r. destruct suf; simpl; rewrite ?app_nil_r, Nat.add_0_r, orb_false_r; reflexivity.
  - destruct suf as [|b suf].
    + simpl List.length at 1 2 3. rewrite Nat.add_0_r. simpl firstn. cbn [collect map app runm].
      unfold orbit_body at 1. cbn [l_out l_i]. rewrite Nat.eqb_refl.
      rewrite skips; [|intros j' s' l' H; unfold orbit_body; rewrite H; reflexivity|reflexivity].
      simpl. rewrite Nat.add_0_r, app_nil_r, orb_true_r. reflexivity.
    + cbn [map app runm]. unfold orbit_body at 1. cbn [l_out l_i].
      replace (Nat.eqb (List.length pre) (List.length pre + List.length (b :: suf))) with false
        by (symmetry; apply Nat.eqb_neq; simpl; lia).
      cbn [List.length firstn collect].
      change (kept_at ab kindof memof s d j) with
        (match nth_error (m_elems (v_machine s)) j with
         | None => None
         | Some e => match mfind (el_index e) (v_measures s) with
                     | None => None
                     | Some o => match nth_error (v_last s) o with None => None
                                 | Some last => fetch ab kindof memof last (od_attr d) (od_dims d) end
                     end
         end).
      destruct (nth_error (m_elems (v_machine s)) j) as [e|]; [|reflexivity].
      destruct (mfind _ _) as [o|]; [|reflexivity].
      destruct (nth_error (v_last s) o) as [last|]; [|reflexivity].
      destruct (fetch _ _ _ _ _ _) as [[x|]|]; [| |reflexivity].
      * cbn [l_buf]. rewrite update_at. unfold with_buf; cbn [l_flag l_conf l_out l_res].
        specialize (IH (pre ++ [x]) suf fl cf rs). rewrite app_length in IH. simpl in IH.
        rewrite <- app_assoc in IH. simpl in IH. 
        replace (List.length pre + S (List.length suf)) with (List.length pre + 1 + List.length suf) by lia.
        replace (S (List.length pre)) with (List.length pre + 1) by lia.
        rewrite IH. destruct (collect _ _) as [vals|]; [|reflexivity].
        rewrite <- app_assoc. simpl. rewrite <- Nat.add_assoc. reflexivity.
      * unfold with_buf, with_flag; cbn [l_flag l_conf l_out l_res l_buf].
        specialize (IH (pre ++ [b]) suf false cf rs). rewrite app_length in IH. simpl in IH.
        rewrite <- app_assoc in IH. simpl in IH.
        replace (List.length pre + S (List.length suf)) with (List.length pre + 1 + List.length suf) by lia.
        replace (S (List.length pre)) with (List.length pre + 1) by lia.
        rewrite IH. destruct (collect _ _) as [vals|]; [|reflexivity].
        rewrite <- app_assoc. simpl. rewrite orb_true_r. rewrite <- Nat.add_assoc. reflexivity.
Qed.

Definition index_body (n : nat) (j : nat) : micro := fun s l =>
         if l_out l then Some (s, l, false)
         else if Nat.eqb (l_i l) n then Some (s, leave (with_flag l false) ODone, false)
         else
           match nth_error (m_elems (v_machine s)) j with
           | None => None
           | Some e => Some (s, with_buf l (update (l_buf l) (l_i l) (d_of_Z (Z.of_N (el_index e)))) (S (l_i l)), false)
           end.
Lemma index_loop s : forall ls pre suf cf rs,
  runm (map (index_body (List.length pre + List.length suf)) ls ++ [wave_end]) s
       (mkLoc true cf (pre ++ suf) (List.length pre) false rs) =
  match collect (nth_error (m_elems (v_machine s))) (firstn (List.length suf) ls) with
  | None => None
  | Some es => Some (s, OWave (pre ++ overlay suf (map (fun e => Some (d_of_Z (Z.of_N (el_index e)))) es))
                              (List.length pre + List.length es) (Nat.ltb (List.length suf) (List.length ls)))
  end.
Proof.
  induction ls as [|j ls IH]; intros pre suf cf rs.
  - rewrite firstn_nil. simpl. destruct suf; simpl; rewrite ?app_nil_r, Nat.add_0_r; reflexivity.
  - destruct suf as [|b suf].
    + simpl List.length at 1 2 3. rewrite Nat.add_0_r. simpl firstn. cbn [collect map app runm].
      unfold index_body at 1. cbn [l_out l_i]. rewrite Nat.eqb_refl.
      rewrite skips; [|intros j' s' l' H; unfold index_body; rewrite H; reflexivity|reflexivity].
      simpl. rewrite Nat.add_0_r, app_nil_r. reflexivity.
    + cbn [map app runm]. unfold index_body at 1. cbn [l_out l_i].
      replace (Nat.eqb (List.length pre) (List.length pre + List.length (b :: suf))) with false
        by (symmetry; apply Nat.eqb_neq; simpl; lia).
      cbn [List.length firstn collect].
      destruct (nth_error (m_elems (v_machine s)) j) as [e|]; [|reflexivity].
      cbn [l_buf]. rewrite update_at. unfold with_buf; cbn [l_flag l_conf l_out l_res].
      specialize (IH (pre ++ [d_of_Z (Z.of_N (el_index e))]) suf cf rs). rewrite app_length in IH. simpl in IH.
      rewrite <- app_assoc in IH. simpl in IH.
      replace (List.length pre + S (List.length suf)) with (List.length pre + 1 + List.length suf) by lia.
      replace (S (List.length pre)) with (List.length pre + 1) by lia.
      rewrite IH. destruct (collect _ _) as [vals|]; [|reflexivity].
      rewrite <- app_assoc. simpl. rewrite <- Nat.add_assoc. reflexivity.
Qed.

Lemma code_atomic o s : runm (code o) s loc0 = atomic o s.
Proof.
  destruct o as [|i p a x|i p a|d a|d buf|d buf|n|].
  - unfold code, Ioc_Model.code, do_sim_code. simpl. destruct (v_dosim s) eqn:E; simpl; [|reflexivity].
    f_equal. f_equal. destruct s; simpl in *; subst; reflexivity.
  - cbn [Ioc_Model.code set_code runm Ioc_Spec.atomic]. rewrite slot_nth.
    destruct (nth_error _ _) as [e|]; [|reflexivity].
    cbn [with_conf l_out loc0 l_conf].
    destruct (reconfigure _ _ _) as [m [u|x']] eqn:R; [reflexivity|].
    apply reconfigure_throw in R. subst m. rewrite set_machine_same.
    destruct (caught x'); reflexivity.
  - cbn [Ioc_Model.code get_code runm Ioc_Spec.atomic]. rewrite slot_nth.
    destruct (nth_error _ _) as [e|]; [|reflexivity]. unfold get_num.
    destruct (tfind _ _) as [[?|?|?|?]|]; reflexivity.
  - cbn [Ioc_Model.code meas_code runm Ioc_Spec.atomic]. unfold kept.
    destruct (nth_error _ _) as [last|]; [|reflexivity].
    destruct (fetch _ _ _ _ _ _) as [[v|]|]; reflexivity.
  - cbn [Ioc_Model.code Ioc_Spec.atomic]. unfold orbit_code. cbn [runm].
    apply (orbit_loop d s (od_slots d) [] buf (v_valid s)).
  - cbn [Ioc_Model.code Ioc_Spec.atomic]. unfold index_code. cbn [runm].
    apply (index_loop s (od_slots d) [] buf).
  - reflexivity.
  - reflexivity.
Qed.

(** ** A simulation in passing is the rest of run_once *)
Definition finish (k : nat) s (st : pstate B) : option vsim :=
  let p := prop_loop k (m_elems (v_machine s)) st [] in
  match views (v_last s) (pr_events p) with
  | None => None
  | Some l =>
      let s' := set_last (set_elems s (pr_elems p)) l in
      match pr_end p with
      | Ok _ => Some (scan (set_good s'))
      | Throw e => if caught e then Some (scan (set_bad what s' e)) else None
      end
  end.

Lemma views_app l1 : forall last l2,
  views last (l1 ++ l2) = match views (B:=B) last l1 with Some l => views l l2 | None => None end.
Proof.
  induction l1 as [|ev l1 IH]; intros last l2; simpl; auto.
  destruct (viewed _ _ _); auto.
Qed.

(** The events gathered before do not matter. *)
Lemma loop_events k : forall (els : list (elem D B)) st evs,
  pr_elems (prop_loop k els st evs) = pr_elems (prop_loop k els st []) /\
  pr_end (prop_loop k els st evs) = pr_end (prop_loop k els st []) /\
  pr_events (prop_loop k els st evs) = evs ++ pr_events (prop_loop k els st []).
Proof.
  induction k as [|k IH]; intros els st evs; simpl.
  - rewrite app_nil_r. auto.
  - destruct (slot els (st_next st)) as [e|]; [|simpl; rewrite app_nil_r; auto].
    destruct (cl_advance _ _ _ _) as [d [st2|x]]; [|simpl; rewrite app_nil_r; auto].
    destruct (el_obs e) as [o|]; [|apply IH].
    destruct (IH (update els (N.to_nat (st_next st)) (with_data e d)) st2
                 (evs ++ [mkEv o (N.to_nat (st_next st)) st2])) as (A & C & E).
    destruct (IH (update els (N.to_nat (st_next st)) (with_data e d)) st2
                 [mkEv o (N.to_nat (st_next st)) st2]) as (A' & C' & E').
    simpl. rewrite A, C, E, A', C', E'. rewrite <- app_assoc. auto.
Qed.

Lemma finish_0 s st : finish 0 s st = Some (scan (set_good s)).
Proof. unfold finish. simpl. destruct s as [m a b c d e f g]; destruct m; reflexivity. Qed.
Lemma finish_end k s st : slot (m_elems (v_machine s)) (st_next st) = None ->
  finish (S k) s st = Some (scan (set_good s)).
Proof. intros H. unfold finish. simpl. rewrite H. simpl. destruct s as [m a b c d e f g]; destruct m; reflexivity. Qed.

Definition stepped (st : pstate B) : pstate B :=
  mkSt (if st_retreat st then size_decr (st_next st) else size_incr (st_next st)) (st_retreat st) (st_body st).
Lemma finish_step k s st e d st2 :
  slot (m_elems (v_machine s)) (st_next st) = Some e ->
  cl_advance (el_class e) (el_base e) (el_data e) (stepped st) = (d, Ok st2) ->
  let s1 := set_elems s (update (m_elems (v_machine s)) (N.to_nat (st_next st)) (with_data e d)) in
  finish (S k) s st =
  match el_obs e with
  | None => finish k s1 st2
  | Some o => match viewed (v_last s) o st2 with None => None | Some l => finish k (set_last s1 l) st2 end
  end.
Proof.
  intros H A. cbv zeta. unfold finish at 1. cbn [prop_loop]. rewrite H. unfold stepped in A. rewrite A.
  set (u := update _ _ _). unfold finish.
  destruct (el_obs e) as [o|].
  - destruct (loop_events k u st2 ([] ++ [mkEv o (N.to_nat (st_next st)) st2])) as (-> & -> & ->).
    rewrite views_app. cbn [app views ev_obs ev_state].
    destruct (viewed (v_last s) o st2) as [l|]; [|reflexivity].
    destruct s as [m a b c dd ee f g]; destruct m. reflexivity.
  - destruct s as [m a b c dd ee f g]; destruct m. reflexivity.
Qed.
Lemma finish_throw k s st e d x :
  slot (m_elems (v_machine s)) (st_next st) = Some e ->
  cl_advance (el_class e) (el_base e) (el_data e) (stepped st) = (d, Throw x) ->
  finish (S k) s st =
  if caught x
  then Some (scan (set_bad what (set_elems s (update (m_elems (v_machine s)) (N.to_nat (st_next st)) (with_data e d))) x))
  else None.
Proof.
  intros H A. unfold finish. cbn [prop_loop]. rewrite H. unfold stepped in A. rewrite A.
  destruct s as [m a b c dd ee f g]; destruct m. reflexivity.
Qed.

Definition MAXI : nat := Z.abs_nat INT_MAX.
Lemma MAXI_N : N.of_nat MAXI = 2147483647%N.
Proof. unfold MAXI. rewrite Zabs2Nat.abs_nat_spec. rewrite Z_nat_N. reflexivity. Qed.
Lemma MAXI_eq : Z.abs_nat INT_MAX = MAXI. Proof. exact eq_refl. Qed.
Lemma propagate_fwd (m : machine D B) st max : (0 <= max)%Z ->
  propagate m st 0 max = Some (prop_loop (Z.abs_nat max) (m_elems m) (mkSt 0 false (st_body st)) []).
Proof.
  intros H. unfold propagate. replace (max =? INT_MIN)%Z with false by (symmetry; apply Z.eqb_neq; unfold INT_MIN; lia).
  replace (max <? 0)%Z with false by (symmetry; apply Z.ltb_ge; lia). reflexivity.
Qed.
Lemma run_once_finish s :
  run_once s =
  match alloc_state (v_machine s) (TCfg [] []) with
  | Throw e => if caught e then Some (scan (set_bad what (set_dosim s false) e)) else None
  | Ok st => finish MAXI (set_dosim s false) (mkSt 0 false (st_body st))
  end.
Proof.
  unfold Ioc_Spec.run_once. destruct (alloc_state _ _) as [st|e]; [|reflexivity].
  rewrite propagate_fwd by (unfold INT_MAX; lia). rewrite MAXI_eq. unfold finish.
  generalize MAXI. intros k. destruct s as [m a b c dd ee f g]. reflexivity.
Qed.

Lemma run_once_some s : exists k, N.of_nat k = 2147483647%N /\
  run_once s =
  match alloc_state (v_machine s) (TCfg [] []) with
  | Throw e => if caught e then Some (scan (set_bad what (set_dosim s false) e)) else None
  | Ok st => finish k (set_dosim s false) (mkSt 0 false (st_body st))
  end.
Proof. exists MAXI. split; [exact MAXI_N|apply run_once_finish]. Qed.

End Threads.
