(** Mirrored gaps and cavities without field: proofs. *)
From Coq Require Import Reals List String Bool NArith ZArith Arith Lia Lra.
From Verif Require Import SMap Dbl Config_Spec Mat Mat_Proofs Machine_Model Machine_Spec Machine_Proofs.
From Verif Require Import Moment_Model Moment_Spec Motion_Spec Moment_Proofs Moment2_Proofs Moment3_Proofs Motion_Proofs Motion3_Proofs Frame_Spec Frame_Proofs.
From Verif Require Import Cavity_Model Cavity_Spec Cavity2_Spec Cavity_Proofs Cavity2_Proofs Cavity3_Proofs Cavity4_Proofs Cavity5_Proofs Cavity6_Proofs.
Import ListNotations.
Open Scope R_scope.
Open Scope string_scope.
Open Scope list_scope.

(** ** Mirrored gaps *)
Lemma scale_mirrored L s t t' : mirrored L t t' -> mirrored L (scale_V0 s t) (scale_V0 s t').
Proof. intros (H1 & H2 & H3 & H4 & H5 & H6). unfold mirrored, scale_V0. cbn. rewrite H6. auto 10. Qed.
Lemma fitted_mirrored label lo hi L beta : In (label, (lo, hi, L)) built_in ->
  exists t t', fitted label 1 beta = Some t /\ fitted label 2 beta = Some t' /\ mirrored L t t'.
Proof.
  intros H. unfold built_in in H. simpl in H.
  destruct H as [H|[H|[H|[H|[]]]]]; injection H as <- <- <- <-; do 2 eexists; (split; [reflexivity|]); (split; [reflexivity|]);
    unfold mirrored; cbn [t_Ecen t_T t_Tp t_S t_Sp t_V0]; unfold pwr_series; cbn [series_from];
    repeat split; try ring; lra.
Qed.
Lemma range_built label lo hi : fit_range label = Some (lo, hi) -> exists L lo' hi', In (label, (lo', hi', L)) built_in /\ lo' = lo /\ hi' = hi.
Proof.
  intros H. unfold fit_range in H.
  do 86 (destruct label as [|label]; [try discriminate H; injection H as <- <-; do 3 eexists; (split; [cbn; eauto 10|split; lra])|]). discriminate.
Qed.
Lemma last_nth {A} (l : list A) d : l <> [] -> nth (List.length l - 1) l d = last l d.
Proof.
  induction l as [|a l IH]; intros H; [congruence|]. destruct l as [|b l]; [reflexivity|].
  simpl List.length in *. replace (S (S (List.length l)) - 1)%nat with (S (S (List.length l) - 1)) by lia. cbn [nth last]. apply IH. discriminate.
Qed.
Lemma last_map {A B} (f : A -> B) l d d' : l <> [] -> last (map f l) d' = f (last l d).
Proof.
  induction l as [|a l IH]; intros H; [congruence|]. destruct l as [|b l]; [reflexivity|]. cbn [map last] in *. apply IH. discriminate.
Qed.
Lemma table_mirrored rows col K half :
  (exists t t', cal_transfac rows col 1 K half = Ok t /\ cal_transfac rows col 2 K half = Ok t' /\ mirrored (nth 0 (last rows []) 0) t t') \/
  (exists e, cal_transfac rows col 1 K half = Throw e /\ cal_transfac rows col 2 K half = Throw e).
Proof.
  unfold cal_transfac. cbv zeta. destruct (Nat.eqb (List.length rows) 0) eqn:E0; [right; cbn [orb]; eauto|].
  destruct (negb _); cbn [orb]; [right; eauto|]. set (n := if half then _ else _).
  destruct (Nat.eqb n 0); [right; eauto|]. destruct (Nat.eqb n 1); [right; eauto|]. destruct (Req_EM_T _ 0); [right; eauto|].
  left. do 2 eexists. split; [reflexivity|]. split; [reflexivity|]. change (Nat.eqb 1 2) with false. change (Nat.eqb 2 2) with true. cbv iota.
  unfold mirrored. cbn [t_Ecen t_T t_Tp t_S t_Sp t_V0].
  match goal with |- context [fst (nth (List.length rows - 1) ?l (0, 0))] => assert (EL : fst (nth (List.length rows - 1) l (0, 0)) = nth 0 (last rows []) 0) end.
  { apply Nat.eqb_neq in E0. rewrite <- (map_length (fun r => (nth 0 r 0, nth (col - 1) r 0)) rows).
    rewrite last_nth by (destruct rows; [simpl in E0; lia|discriminate]).
    rewrite (last_map _ rows [] (0, 0)) by (destruct rows; [simpl in E0; lia|discriminate]). reflexivity. }
  rewrite EL. repeat split; ring.
Qed.
Lemma built_one label lo hi L lo' hi' L' : In (label, (lo, hi, L)) built_in -> In (label, (lo', hi', L')) built_in -> lo' = lo /\ hi' = hi.
Proof.
  unfold built_in. simpl. intros H H'. destruct H as [H|[H|[H|[H|[]]]]]; injection H as <- <- <- <-;
    (destruct H' as [H'|[H'|[H'|[H'|[]]]]]; try discriminate H'; injection H' as <- <- <-; auto).
Qed.
Lemma gaps_mirrored cv label beta K scl :
  (exists L t t', trans_facts cv label beta K 1 scl = Ok t /\ trans_facts cv label beta K 2 scl = Ok t' /\ mirrored L t t' /\ mirror_length cv label beta L) \/
  (exists e, trans_facts cv label beta K 1 scl = Throw e /\ trans_facts cv label beta K 2 scl = Throw e).
Proof.
  assert (X : (cv_force cv = true \/ forall lo hi L', In (label, (lo, hi, L')) built_in -> ~ lo <= beta <= hi) ->
    (exists L t t', rbind (cal_transfac (cv_axis cv) 2 1 K true) (fun t => Ok (scale_V0 scl t)) = Ok t /\
     rbind (cal_transfac (cv_axis cv) 2 2 K true) (fun t => Ok (scale_V0 scl t)) = Ok t' /\ mirrored L t t' /\ mirror_length cv label beta L) \/
     (exists e, rbind (cal_transfac (cv_axis cv) 2 1 K true) (fun t => Ok (scale_V0 scl t)) = Throw e /\
        rbind (cal_transfac (cv_axis cv) 2 2 K true) (fun t => Ok (scale_V0 scl t)) = Throw e)).
  { intros HO. destruct (table_mirrored (cv_axis cv) 2 K true) as [(t & t' & -> & -> & M)|(e & -> & ->)]; [left|right; exists e; split; reflexivity].
    exists (nth 0 (last (cv_axis cv) []) 0). cbn [rbind]. do 2 eexists. split; [reflexivity|]. split; [reflexivity|]. split; [apply scale_mirrored; exact M|].
    right. split; [exact HO|reflexivity]. }
  unfold trans_facts. cbv zeta. destruct (cv_force cv) eqn:EF; [apply X; left; reflexivity|].
  destruct (fit_range label) as [[lo hi]|] eqn:ER; [|right; exists RuntimeError; split; reflexivity].
  destruct (range_built _ _ _ ER) as (L & lo' & hi' & HI & -> & ->).
  assert (NO : ~ lo <= beta <= hi -> forall lo' hi' L', In (label, (lo', hi', L')) built_in -> ~ lo' <= beta <= hi').
  { intros N lo' hi' L' H. destruct (built_one _ _ _ _ _ _ _ HI H) as [-> ->]. exact N. }
  destruct (Rlt_dec beta lo); [apply X; right; apply NO; lra|]. destruct (Rlt_dec hi beta); [apply X; right; apply NO; lra|].
  destruct (fitted_mirrored _ _ _ _ beta HI) as (t & t' & -> & -> & M). left. exists L. do 2 eexists.
  split; [reflexivity|]. split; [reflexivity|]. split; [apply scale_mirrored; exact M|].
  left. split; [exact EF|]. exists lo, hi. split; [exact HI|lra].
Qed.
