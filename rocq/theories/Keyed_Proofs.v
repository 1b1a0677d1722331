From Coq Require Decimal DecimalFacts DecimalPos DecimalZ.
From Coq Require Import DecimalString List String Ascii Bool ZArith Arith Lia.
From Verif Require Import SMap SMap_Proofs Dbl Config_Spec Machine_Model Machine_Proofs Util_Model Util_Spec Keyed_Model Keyed_Spec.
Import ListNotations.
Open Scope string_scope.
Open Scope list_scope.

(** ** Keys *)
Fixpoint has_bar (s : string) : bool :=
  match s with EmptyString => false | String c s' => Ascii.eqb c "|" || has_bar s' end.
Lemma has_bar_app a b : has_bar (a ++ b)%string = has_bar a || has_bar b.
Proof. induction a as [|c a IH]; simpl; auto. rewrite IH, orb_assoc. reflexivity. Qed.
Lemma uint_bar d : has_bar (NilEmpty.string_of_uint d) = false.
Proof. induction d; simpl; auto. Qed.
Lemma time_bar m : has_bar (time_text m) = false.
Proof.
  unfold time_text, NilZero.string_of_int. destruct (Z.to_int m) as [d|d]; simpl;
    unfold NilZero.string_of_uint; destruct d; auto; apply (uint_bar (Decimal.D0 _)) || apply uint_bar.
Qed.
Lemma time_inj m m' : time_text m = time_text m' -> m = m'.
Proof.
  unfold time_text. intros H. apply (f_equal NilZero.int_of_string) in H.
  rewrite !NilZero.isi in H.
  - injection H as H. rewrite <- (DecimalZ.of_to m), <- (DecimalZ.of_to m'). congruence.
  - intros E. destruct m'; simpl in E; try discriminate. injection E as E. exact (DecimalPos.Unsigned.to_uint_nonnil _ E).
  - intros E. destruct m'; simpl in E; try discriminate. injection E as E. exact (DecimalPos.Unsigned.to_uint_nonnil _ E).
  - intros E. destruct m; simpl in E; try discriminate. injection E as E. exact (DecimalPos.Unsigned.to_uint_nonnil _ E).
  - intros E. destruct m; simpl in E; try discriminate. injection E as E. exact (DecimalPos.Unsigned.to_uint_nonnil _ E).
Qed.
Lemma bar_split a a' b b' : has_bar b = false -> has_bar b' = false ->
  (a ++ String "|" b = a' ++ String "|" b')%string -> a = a' /\ b = b'.
Proof.
  revert a'; induction a as [|c a IH]; intros [|c' a'] Hb Hb' H; simpl in H.
  - injection H as ->. auto.
  - injection H as <- ->. rewrite has_bar_app in Hb. simpl in Hb. rewrite orb_true_r in Hb. discriminate.
  - injection H as -> <-. rewrite has_bar_app in Hb'. simpl in Hb'. rewrite orb_true_r in Hb'. discriminate.
  - injection H as <- H. destruct (IH a' Hb Hb' H). subst. auto.
Qed.
Lemma key_inj p m p' m' : fkey p m = fkey p' m' -> p = p' /\ m = m'.
Proof.
  intros H. destruct (bar_split p p' (time_text m) (time_text m')) as [E1 E2]; auto using time_bar, time_inj.
Qed.

Section P.
Context {C : Type}.
Variable parse : string -> option C.
Notation kstep := (kstep parse).
Notation krun := (krun parse).

Lemma krun_snoc h o : krun (h ++ [o]) = kstep (krun h) o.
Proof. unfold Keyed_Model.krun. rewrite fold_left_app. reflexivity. Qed.
Lemma changes_app h h' : changes (h ++ h') = changes h ++ changes h'.
Proof. unfold changes. apply flat_map_app. Qed.
Lemma fs_fold d : forall f p, fold_left fs_step d f p = fold_left (touched p) d (f p).
Proof.
  induction d as [|o d IH]; intros f p; simpl; auto. rewrite IH. f_equal.
  destruct o as [q m s|q]; simpl; destruct (String.eqb p q); auto.
Qed.
Lemma files_now h p : k_files (krun h) p = now h p.
Proof.
  induction h as [|o h IH] using rev_ind; [reflexivity|].
  rewrite krun_snoc. unfold now in *. rewrite changes_app, fold_left_app, <- IH.
  destruct o as [o|q d|q d]; [|unfold changes; simpl; rewrite app_nil_r; apply fs_fold|unfold changes; simpl; rewrite app_nil_r; apply fs_fold].
  destruct o as [q m s|q]; simpl; destruct (String.eqb p q); auto.
Qed.

(** What is in a file now was written at some time and not overwritten. *)
Lemma now_written l p m s : fold_left (touched p) l None = Some (m, s) ->
  exists a b, l = a ++ FWrite p m s :: b.
Proof.
  induction l as [|o l IH] using rev_ind; [discriminate|]. rewrite fold_left_app. simpl.
  destruct o as [q m' s'|q]; simpl; destruct (String.eqb_spec p q) as [<-|N]; intros H; try discriminate.
  - injection H as -> ->. exists l, []. reflexivity.
  - destruct (IH H) as (a & b & ->). exists a, (b ++ [FWrite q m' s']). rewrite <- app_assoc. reflexivity.
  - destruct (IH H) as (a & b & ->). exists a, (b ++ [FRemove q]). rewrite <- app_assoc. reflexivity.
Qed.
Lemma later_or_same l p a m s b m' s' : fold_left (touched p) l None = Some (m', s') -> l = a ++ FWrite p m s :: b ->
  (m' = m /\ s' = s) \/ In (FWrite p m' s') b.
Proof.
  revert a m s b. induction l as [|o l IH] using rev_ind; intros a m s b H E; [destruct a; discriminate|].
  rewrite fold_left_app in H. simpl in H.
  destruct b as [|x b] using rev_ind.
  - apply app_inj_tail in E. destruct E as [_ ->]. simpl in H. rewrite String.eqb_refl in H. left. injection H as -> ->. auto.
  - clear IHb. rewrite app_comm_cons, app_assoc in E. apply app_inj_tail in E. destruct E as [E ->].
    destruct x as [q m1 s1|q]; simpl in H; destruct (String.eqb_spec p q) as [<-|N]; try discriminate.
    + injection H as -> ->. right. apply in_or_app. right. left. reflexivity.
    + destruct (IH _ _ _ _ H E); auto. right. apply in_or_app. auto.
    + destruct (IH _ _ _ _ H E); auto. right. apply in_or_app. auto.
Qed.

(** Everything in the caches was read from a file. *)
Definition from (h : list kop) (k : string) (s : string) : Prop :=
  exists p m a b, k = fkey p m /\ changes h = a ++ FWrite p m s :: b.
Lemma from_more h h' k s : from h k s -> from (h ++ h') k s.
Proof.
  intros (p & m & a & b & E1 & E2). exists p, m, a, (b ++ changes h'). split; auto.
  rewrite changes_app, E2, <- app_assoc. reflexivity.
Qed.
Lemma calm_app h h' : calm (h ++ h') -> calm h /\ calm h'.
Proof. intros H. split; intros p d Hd; apply (H p d); destruct Hd; [left|right|left|right]; apply in_or_app; auto. Qed.
Lemma curves_from h : calm h -> forall k c, In (k, c) (k_curves (krun h)) -> exists s, from h k s /\ parse s = Some c.
Proof.
  induction h as [|o h IH] using rev_ind; intros Hc k c Hin; [destruct Hin|].
  rewrite krun_snoc in Hin. destruct (calm_app _ _ Hc) as [Hch Hco].
  assert (Old : In (k, c) (k_curves (krun h)) -> exists s, from (h ++ [o]) k s /\ parse s = Some c).
  { intros H. destruct (IH Hch k c H) as (s & Hf & Hp). exists s. split; auto. apply from_more; auto. }
  destruct o as [o|p d|p d]; simpl in Hin; auto.
  assert (d = []) by (apply (Hco p d); left; left; reflexivity). subst d. simpl in Hin.
  unfold curve_get in Hin. rewrite files_now in Hin. destruct (now h p) as [[m s]|] eqn:En; [|auto].
  destruct (sfind (fkey p m) (k_curves (krun h))); auto. destruct (parse s) as [c'|] eqn:Ep; auto.
  simpl in Hin. apply In_sset in Hin. destruct Hin as [E|]; auto. injection E as -> ->.
  exists s. split; auto. destruct (now_written _ _ _ _ En) as (a & b & E). apply from_more. exists p, m, a, b. auto.
Qed.
Lemma cavs_from h : calm h -> forall k c, In (k, c) (k_cavs (krun h)) -> exists s, from h k s /\ parse s = c.
Proof.
  induction h as [|o h IH] using rev_ind; intros Hc k c Hin; [destruct Hin|].
  rewrite krun_snoc in Hin. destruct (calm_app _ _ Hc) as [Hch Hco].
  assert (Old : In (k, c) (k_cavs (krun h)) -> exists s, from (h ++ [o]) k s /\ parse s = c).
  { intros H. destruct (IH Hch k c H) as (s & Hf & Hp). exists s. split; auto. apply from_more; auto. }
  destruct o as [o|p d|p d]; simpl in Hin; auto.
  assert (d = []) by (apply (Hco p d); right; left; reflexivity). subst d. simpl in Hin.
  unfold cavity_get in Hin. rewrite files_now in Hin. destruct (now h p) as [[m s]|] eqn:En; [|auto].
  destruct (sfind (fkey p m) (k_cavs (krun h))); auto.
  simpl in Hin. apply In_sset in Hin. destruct Hin as [E|]; auto. injection E as -> ->.
  exists s. split; auto. destruct (now_written _ _ _ _ En) as (a & b & E). apply from_more. exists p, m, a, b. auto.
Qed.

Lemma curve_current h p : calm h -> told_apart parse h p ->
  snd (curve_get parse (k_files (krun h)) (k_files (krun h)) (k_curves (krun h)) p) = says parse (now h p).
Proof.
  intros Hc Ht. unfold curve_get, says. rewrite files_now. destruct (now h p) as [[m s]|] eqn:En; auto.
  destruct (sfind (fkey p m) (k_curves (krun h))) as [c|] eqn:Ef; [|destruct (parse s); auto].
  apply sfind_In in Ef. destruct (curves_from h Hc _ _ Ef) as (s0 & (p0 & m0 & a & b & Ek & Ech) & Ep).
  apply key_inj in Ek. destruct Ek as [<- <-]. simpl.
  destruct (later_or_same _ _ _ _ _ _ _ _ En Ech) as [[_ ->]|Hin].
  - rewrite Ep. reflexivity.
  - rewrite (Ht a m s0 b s Ech Hin), Ep; auto. congruence.
Qed.
Lemma cavity_current h p : calm h -> all_told_apart parse h p ->
  snd (cavity_get parse (k_files (krun h)) (k_files (krun h)) (k_cavs (krun h)) p) =
  match now h p with
  | None => Some (Throw RuntimeError)
  | Some (_, s) => match parse s with Some c => Some (Ok c) | None => None end
  end.
Proof.
  intros Hc Ht. unfold cavity_get. rewrite files_now. destruct (now h p) as [[m s]|] eqn:En; auto.
  destruct (sfind (fkey p m) (k_cavs (krun h))) as [c|] eqn:Ef; [|simpl; destruct (parse s); auto].
  apply sfind_In in Ef. destruct (cavs_from h Hc _ _ Ef) as (s0 & (p0 & m0 & a & b & Ek & Ech) & Ep).
  apply key_inj in Ek. destruct Ek as [<- <-]. simpl.
  destruct (later_or_same _ _ _ _ _ _ _ _ En Ech) as [[_ ->]|Hin].
  - rewrite Ep. reflexivity.
  - rewrite (Ht a m s0 b s Ech Hin), Ep. reflexivity.
Qed.
End P.

(** ** Threads *)
Section T.
Context {C : Type}.
Implicit Types (ch : smap C) (r : race C).

(** Where everything is in the map already. *)
Definition warm_acc ch (a : acc C) : Prop :=
  match a with FindB k _ | FindE k _ => sfind k ch <> None | _ => False end.
Definition warm r : Prop := Forall (Forall (warm_acc (r_map r))) (r_code r) /\ Forall (fun p => snd p = false) (r_in r).
Lemma update_Forall {A} (P : A -> Prop) l i a : Forall P l -> P a -> Forall P (update l i a).
Proof. intros H Ha. apply Forall_forall. intros x Hx. destruct (in_update _ _ _ _ Hx) as [->|]; auto. rewrite Forall_forall in H. auto. Qed.
Lemma warm_step r i : warm r -> exists r', rstep r i = Some r' /\ warm r' /\ r_map r' = r_map r.
Proof.
  intros [Hc Hi]. unfold rstep. destruct (nth_error (r_code r) i) as [c|] eqn:E; [|exists r; repeat split; auto].
  pose proof (proj1 (Forall_forall _ _) Hc c (nth_error_In _ _ E)) as Hw.
  destruct c as [|[k v|k v|k v|k v] c]; [exists r; repeat split; auto| | | |]; inversion Hw as [|? ? H1 H2]; subst; simpl in H1; try contradiction.
  - assert (Hx : existsb snd (r_in r) = false).
    { destruct (existsb snd (r_in r)) eqn:Ex; auto. apply existsb_exists in Ex. destruct Ex as (x & Hx & Hs).
      rewrite Forall_forall in Hi. rewrite (Hi x Hx) in Hs. discriminate. }
    rewrite Hx. eexists. split; [reflexivity|]. split; [|reflexivity]. split; simpl.
    + apply update_Forall; auto.
    + constructor; auto.
  - destruct (sfind k (r_map r)) eqn:Ef; [|congruence]. eexists. split; [reflexivity|]. split; [|reflexivity]. split; simpl.
    + apply update_Forall; auto.
    + apply Forall_forall. intros x Hx. apply filter_In in Hx. rewrite Forall_forall in Hi. apply Hi. tauto.
Qed.
Lemma warm_runs ch ps s : (forall p k v, In p ps -> In (k, v) p -> sfind k ch <> None) ->
  exists r, rsteps (race0 ch ps) s = Some r /\ r_map r = ch.
Proof.
  intros H. assert (W : warm (race0 ch ps)).
  { split; [|constructor]. simpl. apply Forall_forall. intros c Hc. apply in_map_iff in Hc. destruct Hc as (p & <- & Hp).
    apply Forall_forall. intros a Ha. apply in_map_iff in Ha. destruct Ha as ((k, v) & <- & Hk). simpl. eauto. }
  assert (G : forall s r, warm r -> exists r', rsteps r s = Some r' /\ r_map r' = r_map r).
  { clear. induction s as [|i s IH]; intros r W; simpl; [eauto|].
    destruct (warm_step r i W) as (r' & -> & W' & <-). apply IH; auto. }
  apply (G s _ W).
Qed.

(** One thread. *)
Definition lone r : Prop := match r_code r with
  | [FindE _ _ :: c] => r_in r = [(0, false)]
  | [InsE _ _ :: c] => r_in r = [(0, true)]
  | [_] => r_in r = []
  | _ => False end /\ exists c, r_code r = [c] /\ Forall (fun a => exists k v, a = FindB k v) (tl c).
Lemma lone_step r : lone r -> exists r', rstep r 0 = Some r' /\ lone r'.
Proof.
  intros [H (c & Ec & Hc)]. unfold rstep. rewrite Ec in *. simpl.
  destruct c as [|[k v|k v|k v|k v] c]; simpl in Hc; try rewrite H; simpl.
  - exists r. split; auto. split; [rewrite Ec; auto|]. exists []. auto.
  - eexists. split; [reflexivity|]. unfold rput. rewrite Ec. simpl. split; simpl; auto. eexists. split; [reflexivity|]. auto.
  - eexists. split; [reflexivity|]. unfold rput. rewrite Ec. simpl. destruct (sfind k (r_map r)); split; simpl.
    + inversion Hc as [|? ? (k1 & v1 & ->) ?]; subst; reflexivity.
    + eexists. split; [reflexivity|]. destruct c; auto. inversion Hc; auto.
    + reflexivity.
    + eexists. split; [reflexivity|]. auto.
  - eexists. split; [reflexivity|]. unfold rput. rewrite Ec. simpl. split; simpl; auto. eexists. split; [reflexivity|]. auto.
  - eexists. split; [reflexivity|]. unfold rput. rewrite Ec. simpl. split; simpl.
    + inversion Hc as [|? ? (k1 & v1 & ->) ?]; subst; reflexivity.
    + eexists. split; [reflexivity|]. destruct c; auto. inversion Hc; auto.
Qed.
Lemma lone_runs ch p n : rsteps (race0 ch [p]) (repeat 0 n) <> None.
Proof.
  assert (L : lone (race0 ch [p])).
  { split; simpl.
    - destruct p as [|[k v] p]; reflexivity.
    - eexists. split; [reflexivity|]. destruct p as [|[k v] p]; simpl; auto.
      apply Forall_forall. intros a Ha. apply in_map_iff in Ha. destruct Ha as ((k1, v1) & <- & _). eauto. }
  revert L. generalize (race0 ch [p]). induction n as [|n IH]; intros r L; simpl; [discriminate|].
  destruct (lone_step r L) as (r' & -> & L'). auto.
Qed.
End T.
