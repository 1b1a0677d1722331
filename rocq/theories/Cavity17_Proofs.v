(** The fits of transit time factors stay within bounds. *)
From Coq Require Import Reals List String Bool NArith ZArith QArith Qreals Qabs Qminmax Lia Lra Psatz.
From Verif Require Import SMap Dbl Config_Spec Machine_Model Moment_Model Moment_Proofs Cavity_Model Cavity_Spec Cavity13_Proofs Cavity5_Spec Cavity16_Proofs.
Import ListNotations.
Open Scope R_scope.
Open Scope string_scope.
Open Scope list_scope.

(** ** Bounds of polynomials *)
Fixpoint horner (x : R) (l : list R) : R := match l with [] => 0 | a :: l' => a + x * horner x l' end.
Lemma series_from_is x : forall l k f, series_from x k l f = f + x ^ k * horner x l.
Proof.
  induction l as [|a l IH]; intros k f; cbn [series_from horner]; [ring|]. rewrite IH. cbn [pow]. ring.
Qed.
Lemma pwr_series_is x l : pwr_series x l = horner x l.
Proof. destruct l as [|a l]; [reflexivity|]. unfold pwr_series. rewrite series_from_is. cbn [horner]. ring. Qed.

(** Polynomials with rational coefficients. *)
Fixpoint padd (l m : list Q) : list Q :=
  match l, m with
  | [], _ => m
  | _, [] => l
  | a :: l', b :: m' => Qred (a + b) :: padd l' m'
  end.
Definition pscale (c : Q) (l : list Q) : list Q := map (fun a => Qred (c * a)) l.
Fixpoint shift (c : Q) (l : list Q) : list Q :=
  match l with
  | [] => []
  | a :: l' => let s := shift c l' in padd [a] (padd (pscale c s) (0%Q :: s))
  end.
Fixpoint spread (r : Q) (l : list Q) : Q :=
  match l with [] => 0%Q | a :: l' => Qred (Qabs a + r * spread r l') end.
Fixpoint check (d : nat) (lo hi A B : Q) (l : list Q) : bool :=
  let c := Qred ((lo + hi) / 2) in
  let r := Qred ((hi - lo) / 2) in
  if (match shift c l with
      | [] => Qle_bool A 0 && Qle_bool 0 B
      | m :: t => let s := (r * spread r t)%Q in Qle_bool A (m - s) && Qle_bool (m + s) B
      end)%bool
  then true
  else match d with O => false | S d' => if check d' lo c A B l then check d' c hi A B l else false end.

Definition peval (x : R) (l : list Q) : R := horner x (map Q2R l).
Lemma q2r_red a : Q2R (Qred a) = Q2R a.
Proof. apply Qeq_eqR, Qred_correct. Qed.
Lemma padd_is x : forall l m, peval x (padd l m) = peval x l + peval x m.
Proof.
  unfold peval. induction l as [|a l IH]; intros [|b m]; cbn [padd map horner]; try ring.
  rewrite IH, q2r_red, Q2R_plus. ring.
Qed.
Lemma pscale_is x c l : peval x (pscale c l) = Q2R c * peval x l.
Proof.
  unfold peval, pscale. induction l as [|a l IH]; cbn [map horner]; [ring|]. rewrite IH, q2r_red, Q2R_mult. ring.
Qed.
Lemma q2r_0 : Q2R 0 = 0. Proof. unfold Q2R. cbn. lra. Qed.
Lemma q2r_2 : Q2R 2 = 2. Proof. unfold Q2R. cbn. lra. Qed.
Lemma shift_is c t : forall l, peval t (shift c l) = peval (Q2R c + t) l.
Proof.
  induction l as [|a l IH]; [reflexivity|]. cbn [shift]. rewrite !padd_is, pscale_is.
  change (peval t (0%Q :: shift c l)) with (Q2R 0 + t * peval t (shift c l)).
  change (peval t [a]) with (Q2R a + t * 0). change (peval (Q2R c + t) (a :: l)) with (Q2R a + (Q2R c + t) * peval (Q2R c + t) l).
  rewrite IH, q2r_0. ring.
Qed.
Lemma q2r_abs a : Q2R (Qabs a) = Rabs (Q2R a).
Proof.
  unfold Rabs. destruct (Rcase_abs (Q2R a)) as [H|H].
  - rewrite <- Q2R_opp. apply Qeq_eqR. apply Qabs_neg. apply Rle_Qle. rewrite q2r_0. lra.
  - apply Qeq_eqR. apply Qabs_pos. apply Rle_Qle. rewrite q2r_0. lra.
Qed.
Lemma spread_is r t : Rabs t <= Q2R r -> forall l, Rabs (peval t l) <= Q2R (spread r l).
Proof.
  intros T. induction l as [|a l IH]; cbn [spread]; [unfold peval; cbn; rewrite Rabs_R0, q2r_0; lra|].
  rewrite q2r_red, Q2R_plus, Q2R_mult, q2r_abs. change (peval t (a :: l)) with (Q2R a + t * peval t l).
  eapply Rle_trans; [apply Rabs_triang|]. apply Rplus_le_compat_l. rewrite Rabs_mult. apply Rmult_le_compat; auto using Rabs_pos.
Qed.
Lemma q_le a b : Qle_bool a b = true -> Q2R a <= Q2R b.
Proof. intros H. apply Qle_Rle, Qle_bool_iff, H. Qed.
Lemma check_ok : forall d lo hi A B l, check d lo hi A B l = true ->
  forall x, Q2R lo <= x <= Q2R hi -> Q2R A <= peval x l <= Q2R B.
Proof.
  assert (Mid : forall lo hi, Q2R (Qred ((lo + hi) / 2)) = (Q2R lo + Q2R hi) / 2).
  { intros. rewrite q2r_red. unfold Qdiv. rewrite Q2R_mult, Q2R_plus, Q2R_inv, q2r_2 by discriminate. lra. }
  assert (Rad : forall lo hi, Q2R (Qred ((hi - lo) / 2)) = (Q2R hi - Q2R lo) / 2).
  { intros. rewrite q2r_red. unfold Qdiv. rewrite Q2R_mult, Q2R_minus, Q2R_inv, q2r_2 by discriminate. lra. }
  assert (One : forall lo hi A B l x, Q2R lo <= x <= Q2R hi ->
    match shift (Qred ((lo + hi) / 2)) l with
    | [] => Qle_bool A 0 && Qle_bool 0 B
    | m :: t => let s := (Qred ((hi - lo) / 2) * spread (Qred ((hi - lo) / 2)) t)%Q in Qle_bool A (m - s) && Qle_bool (m + s) B
    end = true -> Q2R A <= peval x l <= Q2R B).
  { intros lo hi A B l x Hx H. set (c := Qred ((lo + hi) / 2)) in *. set (r := Qred ((hi - lo) / 2)) in *.
    assert (E : peval x l = peval (x - Q2R c) (shift c l)) by (rewrite shift_is; f_equal; ring).
    assert (T : Rabs (x - Q2R c) <= Q2R r). { unfold c, r. rewrite Mid, Rad. apply Rabs_le. lra. }
    rewrite E. destruct (shift c l) as [|m t].
    - apply andb_prop in H as [H1 H2]. apply q_le in H1, H2. unfold peval. cbn. rewrite q2r_0 in *. lra.
    - cbv zeta in H. apply andb_prop in H as [H1 H2]. apply q_le in H1, H2.
      rewrite Q2R_minus, Q2R_mult in H1. rewrite Q2R_plus, Q2R_mult in H2.
      change (peval (x - Q2R c) (m :: t)) with (Q2R m + (x - Q2R c) * peval (x - Q2R c) t).
      pose proof (spread_is r _ T t) as Sp.
      assert (P : Rabs ((x - Q2R c) * peval (x - Q2R c) t) <= Q2R r * Q2R (spread r t))
        by (rewrite Rabs_mult; apply Rmult_le_compat; auto using Rabs_pos).
      revert P. unfold Rabs. destruct (Rcase_abs _); lra. }
  induction d as [|d IH]; intros lo hi A B l H x Hx; cbn [check] in H; cbv zeta in H;
    (destruct (match shift _ l with [] => _ | m :: t => _ end) eqn:F in H; [exact (One lo hi A B l x Hx F)|]); [discriminate|].
  destruct (check d lo _ A B l) eqn:H1 in H; [|discriminate]. destruct (Rle_dec x (Q2R (Qred ((lo + hi) / 2)))) as [L|L].
  - apply (IH _ _ _ _ _ H1). lra.
  - apply (IH _ _ _ _ _ H). lra.
Qed.
Lemma checked l q lo hi A B d : l = map Q2R q -> check d lo hi A B q = true ->
  forall x, Q2R lo <= x <= Q2R hi -> Q2R A <= pwr_series x l <= Q2R B.
Proof. intros -> H x Hx. rewrite pwr_series_is. exact (check_ok d lo hi A B q H x Hx). Qed.

(** Real numbers written out are the rational ones. *)
Ltac powers := repeat match goal with |- context [Z.pow_pos ?a ?b] => let v := eval vm_compute in (Z.pow_pos a b) in change (Z.pow_pos a b) with v end.
Ltac lits := match goal with |- _ = map Q2R ?q => let v := eval cbv in q in change q with v end;
  cbv [map]; unfold Q2R; cbn [Qnum Qden]; powers; repeat (apply f_equal2; [lra|]); reflexivity.

Definition boundsP (T X : R) : Prop := 1 / 2 <= T <= 0.9985 /\ - (1 / 20) <= X <= 1 / 20.
Definition boundsN (T X : R) : Prop := - 0.9985 <= T <= - (1 / 2) /\ - (1 / 20) <= X <= 1 / 20.
Lemma withinP p q lo hi a b x : a = map Q2R p -> b = map Q2R q ->
  check 12 lo hi (1 # 2) (9985 # 10000) p = true -> check 12 lo hi ((-1) # 20) (1 # 20) q = true ->
  Q2R lo <= x <= Q2R hi -> boundsP (pwr_series x a) (pwr_series x b).
Proof.
  intros Ea Eb Ha Hb Hx. pose proof (checked _ _ _ _ _ _ _ Ea Ha x Hx) as P. pose proof (checked _ _ _ _ _ _ _ Eb Hb x Hx) as Q.
  unfold boundsP. unfold Q2R in P, Q. cbn in P, Q. lra.
Qed.
Lemma withinN p q lo hi a b x : a = map Q2R p -> b = map Q2R q ->
  check 12 lo hi ((-9985) # 10000) ((-1) # 2) p = true -> check 12 lo hi ((-1) # 20) (1 # 20) q = true ->
  Q2R lo <= x <= Q2R hi -> boundsN (pwr_series x a) (pwr_series x b).
Proof.
  intros Ea Eb Ha Hb Hx. pose proof (checked _ _ _ _ _ _ _ Ea Ha x Hx) as P. pose proof (checked _ _ _ _ _ _ _ Eb Hb x Hx) as Q.
  unfold boundsN. unfold Q2R in P, Q. cbn in P, Q. lra.
Qed.

(** ** The fits of multipoles *)
(** The coefficients as rational numbers. *)

Definition q_EDipole1_T : list Q := [(-201177) # 200000; 1526489 # 1000000; (-1047651) # 10000; 1125013 # 100; (-4669147) # 10; 12558410 # 1; (-223728700) # 1; 2535541000 # 1; (-16569060000) # 1; 47583980000 # 1]%Q.
Definition q_EDipole1_S : list Q := [(-12931) # 500000; 5884367 # 1000000; (-3203769) # 5000; 972241 # 25; (-1488484) # 1; 37825920 # 1; (-636103300) # 1; 6817810000 # 1; (-42271140000) # 1; 115559700000 # 1]%Q.

Lemma b_EDipole1 x : 0.025 <= x <= 0.055 -> exists a b, mlp_EDipole 1 = Some (a, b) /\
  boundsN (pwr_series x a) (pwr_series x b).
Proof.
  intros H. eexists _, _. split; [reflexivity|]. apply (withinN q_EDipole1_T q_EDipole1_S (1 # 40) (11 # 200)); [lits|lits|vm_compute; reflexivity|vm_compute; reflexivity|unfold Q2R; cbn; lra].
Qed.

Definition q_EDipole2_T : list Q := [(-2499757) # 2500000; (-6783669) # 100000000; 353939 # 2500; (-295099) # 100; 264098 # 1; (-15707420) # 1; 577045000 # 1; (-13036860000) # 1; 165495800000 # 1; (-903001700000) # 1]%Q.
Definition q_EDipole2_S : list Q := [2108581 # 10000000000; (-28911) # 78125; 2851611 # 100000; (-1751497) # 500; 2983061 # 10; (-15226790) # 1; 495802900 # 1; (-10020400000) # 1; 114283500000 # 1; (-561706100000) # 1]%Q.

Lemma b_EDipole2 x : 0.006 <= x <= 0.035 -> exists a b, mlp_EDipole 2 = Some (a, b) /\
  boundsN (pwr_series x a) (pwr_series x b).
Proof.
  intros H. eexists _, _. split; [reflexivity|]. apply (withinN q_EDipole2_T q_EDipole2_S (3 # 500) (7 # 200)); [lits|lits|vm_compute; reflexivity|vm_compute; reflexivity|unfold Q2R; cbn; lra].
Qed.

Definition q_EFocus11_T : list Q := [628193 # 5000; (-1554161) # 50; 3354464 # 1; (-208945200) # 1; 8280687000 # 1; (-216586700000) # 1; 3739846000000 # 1; (-41121540000000) # 1; 261346200000000 # 1; (-731697200000000) # 1]%Q.
Definition q_EFocus11_S : list Q := [1394183 # 10000; (-3299673) # 100; 3438044 # 1; (-207036900) # 1; 7942886000 # 1; (-201375000000) # 1; 3374738000000 # 1; (-36057800000000) # 1; 222944600000000 # 1; (-607917700000000) # 1]%Q.

Lemma b_EFocus11 x : 0.025 <= x <= 0.055 -> exists a b, mlp_EFocus1 1 = Some (a, b) /\
  boundsN (pwr_series x a) (pwr_series x b).
Proof.
  intros H. eexists _, _. split; [reflexivity|]. apply (withinN q_EFocus11_T q_EFocus11_S (1 # 40) (11 # 200)); [lits|lits|vm_compute; reflexivity|vm_compute; reflexivity|unfold Q2R; cbn; lra].
Qed.

Definition q_EFocus12_T : list Q := [(-9450041) # 10000000; (-364139) # 10000; 4963093 # 500; (-1449193) # 1; 128175200 # 1; (-7150297000) # 1; 253416400000 # 1; (-5535252000000) # 1; 67947780000000 # 1; (-358619700000000) # 1]%Q.
Definition q_EFocus12_S : list Q := [1985611 # 20000000; (-5545119) # 100000; 320042 # 25; (-1636888) # 1; 127980100 # 1; (-6379800000) # 1; 203657500000 # 1; (-4029152000000) # 1; 44963230000000 # 1; (-216171200000000) # 1]%Q.

Lemma b_EFocus12 x : 0.006 <= x <= 0.035 -> exists a b, mlp_EFocus1 2 = Some (a, b) /\
  boundsN (pwr_series x a) (pwr_series x b).
Proof.
  intros H. eexists _, _. split; [reflexivity|]. apply (withinN q_EFocus12_T q_EFocus12_S (3 # 500) (7 # 200)); [lits|lits|vm_compute; reflexivity|vm_compute; reflexivity|unfold Q2R; cbn; lra].
Qed.

Definition q_EFocus13_T : list Q := [(-1) # 1; 2778823 # 10000000000000; 6820327 # 100000; 2117553 # 500000000; (-385387) # 200; 270879 # 25000; 2996807 # 100; 3054321 # 500; (-1932277) # 5; 609439 # 1]%Q.
Definition q_EFocus13_S : list Q := [(-4530303) # 10000000000000000; 1625011 # 10000000000000; (-322903) # 12500000000; 619671 # 25000; (-1431967) # 10000000; (-386353) # 250; (-78491) # 500; 3856713 # 100; (-789957) # 25; (-1350038) # 5]%Q.

Lemma b_EFocus13 x : 0.01687155 <= x <= 0.0449908 -> exists a b, mlp_EFocus1 3 = Some (a, b) /\
  boundsN (pwr_series x a) (pwr_series x b).
Proof.
  intros H. eexists _, _. split; [reflexivity|]. apply (withinN q_EFocus13_T q_EFocus13_S (337431 # 20000000) (112477 # 2500000)); [lits|lits|vm_compute; reflexivity|vm_compute; reflexivity|unfold Q2R; cbn; lra].
Qed.

Definition q_EFocus14_T : list Q := [(-1) # 1; (-2406447) # 10000000000000; 237001 # 2500; (-7659927) # 1000000000; (-1231749) # 250; (-3504383) # 100000; 171259 # 1; (-1964643) # 100; (-4142976) # 1; 6085390 # 1]%Q.
Definition q_EFocus14_S : list Q := [123689 # 3125000000000000; (-2496811) # 100000000000000; 3513897 # 500000000000; (-8662787) # 100000; 623049 # 5000000; 9462491 # 1000; 560223 # 1250; (-2276206) # 5; 3026543 # 10; 8798256 # 1]%Q.

Lemma b_EFocus14 x : 0.0112477 <= x <= 0.0224954 -> exists a b, mlp_EFocus1 4 = Some (a, b) /\
  boundsN (pwr_series x a) (pwr_series x b).
Proof.
  intros H. eexists _, _. split; [reflexivity|]. apply (withinN q_EFocus14_T q_EFocus14_S (112477 # 10000000) (112477 # 5000000)); [lits|lits|vm_compute; reflexivity|vm_compute; reflexivity|unfold Q2R; cbn; lra].
Qed.

Definition q_EFocus21_T : list Q := [1038803 # 1000000; (-228033) # 25000; 8943931 # 10000; (-5619149) # 100; 2132552 # 1; (-53307250) # 1; 879940400 # 1; (-9246033000) # 1; 56120730000 # 1; (-149954400000) # 1]%Q.
Definition q_EFocus21_S : list Q := [652577 # 50000000; (-2585211) # 1000000; 2696971 # 10000; (-1488249) # 100; 1019153 # 2; (-11541480) # 1; 171458000 # 1; (-1604935000) # 1; 8570757000 # 1; (-19833020000) # 1]%Q.

Lemma b_EFocus21 x : 0.025 <= x <= 0.055 -> exists a b, mlp_EFocus2 1 = Some (a, b) /\
  boundsP (pwr_series x a) (pwr_series x b).
Proof.
  intros H. eexists _, _. split; [reflexivity|]. apply (withinP q_EFocus21_T q_EFocus21_S (1 # 40) (11 # 200)); [lits|lits|vm_compute; reflexivity|vm_compute; reflexivity|unfold Q2R; cbn; lra].
Qed.

Definition q_EFocus22_T : list Q := [9989307 # 10000000; 7299233 # 10000000; (-146629) # 500; 1526083 # 50; (-2753614) # 1; 157033100 # 1; (-5677804000) # 1; 126501200000 # 1; (-1584238000000) # 1; 8533351000000 # 1]%Q.
Definition q_EFocus22_S : list Q := [(-3040839) # 1000000000; 2016667 # 1000000; (-431359) # 1000; 5855139 # 100; (-4873584) # 1; 260544400 # 1; (-8968899000) # 1; 192369700000 # 1; (-2339920000000) # 1; 12330140000000 # 1]%Q.

Lemma b_EFocus22 x : 0.006 <= x <= 0.035 -> exists a b, mlp_EFocus2 2 = Some (a, b) /\
  boundsP (pwr_series x a) (pwr_series x b).
Proof.
  intros H. eexists _, _. split; [reflexivity|]. apply (withinP q_EFocus22_T q_EFocus22_S (3 # 500) (7 # 200)); [lits|lits|vm_compute; reflexivity|vm_compute; reflexivity|unfold Q2R; cbn; lra].
Qed.

Definition q_EFocus23_T : list Q := [1 # 1; (-176423) # 40000000000; (-555297) # 6250; (-3963797) # 50000000; 4663277 # 1000; (-503081) # 2000; (-898567) # 5; (-380861) # 2; 8999378 # 1; (-29513620) # 1]%Q.
Definition q_EFocus23_S : list Q := [6387813 # 100000000000000; (-2300899) # 100000000000; 3676251 # 1000000000; (-851641) # 5000; 2066461 # 100000; 1704569 # 100; 2316653 # 100; (-1328926) # 1; 4853676 # 1; 1132796 # 1]%Q.

Lemma b_EFocus23 x : 0.01687155 <= x <= 0.0449908 -> exists a b, mlp_EFocus2 3 = Some (a, b) /\
  boundsP (pwr_series x a) (pwr_series x b).
Proof.
  intros H. eexists _, _. split; [reflexivity|]. apply (withinP q_EFocus23_T q_EFocus23_S (337431 # 20000000) (112477 # 2500000)); [lits|lits|vm_compute; reflexivity|vm_compute; reflexivity|unfold Q2R; cbn; lra].
Qed.

Definition q_EFocus24_T : list Q := [1 # 1; (-2512593) # 500000000000; (-91811) # 625; (-315047) # 1250000; 2048799 # 100; (-2224267) # 1000; (-2532091) # 1; (-4613480) # 1; 361191100 # 1; (-1891951000) # 1]%Q.
Definition q_EFocus24_S : list Q := [(-1801149) # 100000000000000; 14041 # 1250000000; (-1563451) # 500000000; 931049 # 2000; (-2715939) # 50000; (-147773) # 1; (-192211) # 1; 27957610 # 1; (-129004600) # 1; (-465695100) # 1]%Q.

Lemma b_EFocus24 x : 0.0112477 <= x <= 0.0224954 -> exists a b, mlp_EFocus2 4 = Some (a, b) /\
  boundsP (pwr_series x a) (pwr_series x b).
Proof.
  intros H. eexists _, _. split; [reflexivity|]. apply (withinP q_EFocus24_T q_EFocus24_S (112477 # 10000000) (112477 # 5000000)); [lits|lits|vm_compute; reflexivity|vm_compute; reflexivity|unfold Q2R; cbn; lra].
Qed.

Definition q_EQuad1_T : list Q := [1038941 # 1000000; (-9238897) # 1000000; 1825589 # 2000; (-577911) # 10; 2206120 # 1; (-55447640) # 1; 919234700 # 1; (-9691159000) # 1; 58969150000 # 1; (-157831200000) # 1]%Q.
Definition q_EQuad1_S : list Q := [39003 # 312500; (-2923507) # 100000; 3069331 # 1000; (-184838) # 1; 7094882 # 1; (-180111300) # 1; 3024208000 # 1; (-32392410000) # 1; 200876700000 # 1; (-549621700000) # 1]%Q.

Lemma b_EQuad1 x : 0.025 <= x <= 0.055 -> exists a b, mlp_EQuad 1 = Some (a, b) /\
  boundsP (pwr_series x a) (pwr_series x b).
Proof.
  intros H. eexists _, _. split; [reflexivity|]. apply (withinP q_EQuad1_T q_EQuad1_S (1 # 40) (11 # 200)); [lits|lits|vm_compute; reflexivity|vm_compute; reflexivity|unfold Q2R; cbn; lra].
Qed.

Definition q_EQuad2_T : list Q := [1000003 # 1000000; (-1015639) # 1000000000; (-607817) # 5000; 430191 # 25000; 3921401 # 1000; 2674841 # 10; (-12362630) # 1; 312812800 # 1; (-4385795000) # 1; 25946310000 # 1]%Q.
Definition q_EQuad2_S : list Q := [(-281) # 16000000; 2603597 # 10000000; (-1275561) # 500000; (-2420319) # 50000; (-2870201) # 100; 1552398 # 1; (-51352000) # 1; 1075958000 # 1; (-12774250000) # 1; 65407480000 # 1]%Q.

Lemma b_EQuad2 x : 0.006 <= x <= 0.035 -> exists a b, mlp_EQuad 2 = Some (a, b) /\
  boundsP (pwr_series x a) (pwr_series x b).
Proof.
  intros H. eexists _, _. split; [reflexivity|]. apply (withinP q_EQuad2_T q_EQuad2_S (3 # 500) (7 # 200)); [lits|lits|vm_compute; reflexivity|vm_compute; reflexivity|unfold Q2R; cbn; lra].
Qed.

Definition q_EQuad3_T : list Q := [1 # 1; 6239107 # 1000000000000; (-1697479) # 10000; 3444883 # 100000000; 1225241 # 100; (-1663533) # 10000; (-1105329) # 2; (-3593353) # 10; 27495800 # 1; (-96898700) # 1]%Q.
Definition q_EQuad3_S : list Q := [532177 # 2500000000000; (-3992809) # 50000000000; 1240259 # 100000000; (-3211339) # 10000; 7098731 # 100000; 868663 # 25; 1637429 # 20; (-3731688) # 1; 18020530 # 1; (-18199580) # 1]%Q.

Lemma b_EQuad3 x : 0.01687155 <= x <= 0.0449908 -> exists a b, mlp_EQuad 3 = Some (a, b) /\
  boundsP (pwr_series x a) (pwr_series x b).
Proof.
  intros H. eexists _, _. split; [reflexivity|]. apply (withinP q_EQuad3_T q_EQuad3_S (337431 # 20000000) (112477 # 2500000)); [lits|lits|vm_compute; reflexivity|vm_compute; reflexivity|unfold Q2R; cbn; lra].
Qed.

Definition q_EQuad4_T : list Q := [4999373 # 5000000; (-607823) # 25000000000; (-2509569) # 5000; (-588169) # 500000; 503027 # 5; (-1981761) # 200; (-11480280) # 1; (-19227070) # 1; 1432258000 # 1; (-7054482000) # 1]%Q.
Definition q_EQuad4_S : list Q := [300167 # 5000000000000; (-1482633) # 100000000; 103759 # 10000000; (-55886) # 25; 895003 # 5000; 3228441 # 5; 626102 # 1; (-105547700) # 1; 411050200 # 1; 2241301000 # 1]%Q.

Lemma b_EQuad4 x : 0.0112477 <= x <= 0.0224954 -> exists a b, mlp_EQuad 4 = Some (a, b) /\
  boundsP (pwr_series x a) (pwr_series x b).
Proof.
  intros H. eexists _, _. split; [reflexivity|]. apply (withinP q_EQuad4_T q_EQuad4_S (112477 # 10000000) (112477 # 5000000)); [lits|lits|vm_compute; reflexivity|vm_compute; reflexivity|unfold Q2R; cbn; lra].
Qed.

Definition q_HDipole1_T : list Q := [6853803 # 10000000; 3537707 # 50000; (-7117391) # 1000; 1992837 # 5; (-14428880) # 1; 344636900 # 1; (-5420826000) # 1; 54146890000 # 1; (-311621600000) # 1; 786971700000 # 1]%Q.
Definition q_HDipole1_S : list Q := [510551 # 500000; (-2441117) # 10000; 1287637 # 50; (-1569273) # 1; 60901180 # 1; (-1562284000) # 1; 26492890000 # 1; (-286413900000) # 1; 1791634000000 # 1; (-4941947000000) # 1]%Q.

Lemma b_HDipole1 x : 0.025 <= x <= 0.055 -> exists a b, mlp_HDipole 1 = Some (a, b) /\
  boundsP (pwr_series x a) (pwr_series x b).
Proof.
  intros H. eexists _, _. split; [reflexivity|]. apply (withinP q_HDipole1_T q_HDipole1_S (1 # 40) (11 # 200)); [lits|lits|vm_compute; reflexivity|vm_compute; reflexivity|unfold Q2R; cbn; lra].
Qed.

Definition q_HDipole2_T : list Q := [1014129 # 1000000; (-501019) # 62500; 1631339 # 1000; (-1280913) # 5; 21153550 # 1; (-1118723000) # 1; 38210290000 # 1; (-814024800000) # 1; 9839613000000 # 1; (-51541370000000) # 1]%Q.
Definition q_HDipole2_S : list Q := [(-2344357) # 500000000; 3299051 # 1000000; (-506371) # 625; 581907 # 5; (-10173310) # 1; 560733000 # 1; (-19673000000) # 1; 426138800000 # 1; (-5194592000000) # 1; 27253700000000 # 1]%Q.

Lemma b_HDipole2 x : 0.006 <= x <= 0.035 -> exists a b, mlp_HDipole 2 = Some (a, b) /\
  boundsP (pwr_series x a) (pwr_series x b).
Proof.
  intros H. eexists _, _. split; [reflexivity|]. apply (withinP q_HDipole2_T q_HDipole2_S (3 # 500) (7 # 200)); [lits|lits|vm_compute; reflexivity|vm_compute; reflexivity|unfold Q2R; cbn; lra].
Qed.

Definition q_HMono1_T : list Q := [212917 # 125000; (-1671357) # 10000; 1697657 # 100; (-9843253) # 10; 35181780 # 1; (-804308400) # 1; 11657600000 # 1; (-101472100000) # 1; 463285100000 # 1; (-760479600000) # 1]%Q.
Definition q_HMono1_S : list Q := [1452657 # 100000; (-68191) # 20; 3524921 # 10; (-21066630) # 1; 802285600 # 1; (-20194810000) # 1; 336059700000 # 1; (-3565836000000) # 1; 21896680000000 # 1; (-59302410000000) # 1]%Q.

Lemma b_HMono1 x : 0.025 <= x <= 0.055 -> exists a b, mlp_HMono 1 = Some (a, b) /\
  boundsP (pwr_series x a) (pwr_series x b).
Proof.
  intros H. eexists _, _. split; [reflexivity|]. apply (withinP q_HMono1_T q_HMono1_S (1 # 40) (11 # 200)); [lits|lits|vm_compute; reflexivity|vm_compute; reflexivity|unfold Q2R; cbn; lra].
Qed.

Definition q_HMono2_T : list Q := [250807 # 250000; (-891703) # 500000; 176533 # 1000; (-5326467) # 100; 4242623 # 1; (-213967200) # 1; 6970488000 # 1; (-141195800000) # 1; 1617248000000 # 1; (-8000662000000) # 1]%Q.
Definition q_HMono2_S : list Q := [(-1581533) # 1000000000; 319361 # 250000; (-685627) # 2500; 3966879 # 100; (-3513478) # 1; 196293900 # 1; (-6991916000) # 1; 153970800000 # 1; (-1910236000000) # 1; 10210160000000 # 1]%Q.

Lemma b_HMono2 x : 0.006 <= x <= 0.035 -> exists a b, mlp_HMono 2 = Some (a, b) /\
  boundsP (pwr_series x a) (pwr_series x b).
Proof.
  intros H. eexists _, _. split; [reflexivity|]. apply (withinP q_HMono2_T q_HMono2_S (3 # 500) (7 # 200)); [lits|lits|vm_compute; reflexivity|vm_compute; reflexivity|unfold Q2R; cbn; lra].
Qed.

Definition q_HMono3_T : list Q := [999999 # 1000000; 3477993 # 10000000000; (-1358997) # 5000; 569297 # 125000; 3083481 # 100; 1688263 # 200; (-2439843) # 1; 1322379 # 1; 150175000 # 1; (-682213500) # 1]%Q.
Definition q_HMono3_S : list Q := [427271 # 250000000000; (-3120253) # 5000000000; 506639 # 5000000; (-1324669) # 5000; 5944163 # 10000; 45889 # 1; 3555259 # 5; (-22265740) # 1; 165852400 # 1; (-397645900) # 1]%Q.

Lemma b_HMono3 x : 0.01687155 <= x <= 0.0449908 -> exists a b, mlp_HMono 3 = Some (a, b) /\
  boundsP (pwr_series x a) (pwr_series x b).
Proof.
  intros H. eexists _, _. split; [reflexivity|]. apply (withinP q_HMono3_T q_HMono3_S (337431 # 20000000) (112477 # 2500000)); [lits|lits|vm_compute; reflexivity|vm_compute; reflexivity|unfold Q2R; cbn; lra].
Qed.

Definition q_HMono4_T : list Q := [1 # 1; (-1089739) # 25000000000; (-792387) # 1000; (-2472669) # 1000000; 1120689 # 5; (-1269643) # 50; (-33854800) # 1; (-63751340) # 1; 5652166000 # 1; (-33558770000) # 1]%Q.
Definition q_HMono4_S : list Q := [581573 # 5000000000000; (-3651009) # 50000000000; 2048587 # 100000000; (-1844847) # 5000; 3632907 # 10000; 878919 # 5; 1327057 # 1; (-95206450) # 1; 940670900 # 1; (-2139562000) # 1]%Q.

Lemma b_HMono4 x : 0.0112477 <= x <= 0.0224954 -> exists a b, mlp_HMono 4 = Some (a, b) /\
  boundsP (pwr_series x a) (pwr_series x b).
Proof.
  intros H. eexists _, _. split; [reflexivity|]. apply (withinP q_HMono4_T q_HMono4_S (112477 # 10000000) (112477 # 5000000)); [lits|lits|vm_compute; reflexivity|vm_compute; reflexivity|unfold Q2R; cbn; lra].
Qed.

Definition q_HQuad1_T : list Q := [(-249679) # 125000; 2439177 # 10000; (-653431) # 25; 1627837 # 1; (-64296250) # 1; 1676173000 # 1; (-28854550000) # 1; 316367500000 # 1; (-2005326000000) # 1; 5600545000000 # 1]%Q.
Definition q_HQuad1_S : list Q := [(-154419) # 62500; 2931451 # 5000; (-6135071) # 100; 3711527 # 1; (-143126700) # 1; 3649414000 # 1; (-61535700000) # 1; 661785900000 # 1; (-4119861000000) # 1; 11313900000000 # 1]%Q.

Lemma b_HQuad1 x : 0.025 <= x <= 0.055 -> exists a b, mlp_HQuad 1 = Some (a, b) /\
  boundsN (pwr_series x a) (pwr_series x b).
Proof.
  intros H. eexists _, _. split; [reflexivity|]. apply (withinN q_HQuad1_T q_HQuad1_S (1 # 40) (11 # 200)); [lits|lits|vm_compute; reflexivity|vm_compute; reflexivity|unfold Q2R; cbn; lra].
Qed.

Definition q_HQuad2_T : list Q := [(-40037) # 40000; 2585151 # 5000000; 9311761 # 100000; 1591517 # 100; (-1302247) # 1; 66478080 # 1; (-2215417000) # 1; 46033900000 # 1; (-542087300000) # 1; 2764042000000 # 1]%Q.
Definition q_HQuad2_S : list Q := [3119419 # 10000000000; (-1135217) # 2500000; 1358257 # 25000; (-3785973) # 500; 1358513 # 2; (-37283900) # 1; 1299263000 # 1; (-27937050000) # 1; 337709700000 # 1; (-1755126000000) # 1]%Q.

Lemma b_HQuad2 x : 0.006 <= x <= 0.035 -> exists a b, mlp_HQuad 2 = Some (a, b) /\
  boundsN (pwr_series x a) (pwr_series x b).
Proof.
  intros H. eexists _, _. split; [reflexivity|]. apply (withinN q_HQuad2_T q_HQuad2_S (3 # 500) (7 # 200)); [lits|lits|vm_compute; reflexivity|vm_compute; reflexivity|unfold Q2R; cbn; lra].
Qed.

Definition q_HQuad3_T : list Q := [(-9999997) # 10000000; (-131203) # 1250000000; 122271 # 500; (-1288731) # 1000000; (-96063) # 4; (-986447) # 500; 1494708 # 1; 579629 # 2; (-87825060) # 1; 356690700 # 1]%Q.
Definition q_HQuad3_S : list Q := [(-1585139) # 2000000000000; 2884963 # 10000000000; (-2333633) # 50000000; 368867 # 1250; (-2712131) # 10000; (-4260259) # 100; (-1599841) # 5; 11033760 # 1; (-73044740) # 1; 147903600 # 1]%Q.

Lemma b_HQuad3 x : 0.01687155 <= x <= 0.0449908 -> exists a b, mlp_HQuad 3 = Some (a, b) /\
  boundsN (pwr_series x a) (pwr_series x b).
Proof.
  intros H. eexists _, _. split; [reflexivity|]. apply (withinN q_HQuad3_T q_HQuad3_S (337431 # 20000000) (112477 # 2500000)); [lits|lits|vm_compute; reflexivity|vm_compute; reflexivity|unfold Q2R; cbn; lra].
Qed.

Definition q_HQuad4_T : list Q := [(-1) # 1; 4357777 # 100000000000; 7605879 # 10000; 2285787 # 1000000; (-401883) # 2; 2149581 # 100; 27738560 # 1; 48867820 # 1; (-4127019000) # 1; 22992780000 # 1]%Q.
Definition q_HQuad4_S : list Q := [(-185413) # 1250000000000; 9278457 # 100000000000; (-2592071) # 100000000; 211284 # 125; (-4545599) # 10000; (-6192487) # 10; (-1632321) # 1; 166485600 # 1; (-1124066000) # 1; (-312129900) # 1]%Q.

Lemma b_HQuad4 x : 0.0112477 <= x <= 0.0224954 -> exists a b, mlp_HQuad 4 = Some (a, b) /\
  boundsN (pwr_series x a) (pwr_series x b).
Proof.
  intros H. eexists _, _. split; [reflexivity|]. apply (withinN q_HQuad4_T q_HQuad4_S (112477 # 10000000) (112477 # 5000000)); [lits|lits|vm_compute; reflexivity|vm_compute; reflexivity|unfold Q2R; cbn; lra].
Qed.


(** ** Multipoles *)
Lemma named_table name cavi : In name ["EDipole"; "EFocus1"; "EFocus2"; "EQuad"; "HDipole"; "HMono"; "HQuad"] ->
  mlp_table ("CaviMlp_" ++ name) cavi =
    (if String.eqb name "EFocus1" then mlp_EFocus1 cavi else if String.eqb name "EFocus2" then mlp_EFocus2 cavi
     else if String.eqb name "EDipole" then mlp_EDipole cavi else if String.eqb name "EQuad" then mlp_EQuad cavi
     else if String.eqb name "HMono" then mlp_HMono cavi else if String.eqb name "HDipole" then mlp_HDipole cavi
     else mlp_HQuad cavi).
Proof. intros [<-|[<-|[<-|[<-|[<-|[<-|[<-|[]]]]]]]]; reflexivity. Qed.
Lemma range_of cavi lo hi : In (cavi, (lo, hi)) multipole_fits -> mlp_range cavi = Some (lo, hi).
Proof. intros [[= <- <- <-]|[[= <- <- <-]|[[= <- <- <-]|[[= <- <- <-]|[]]]]]; reflexivity. Qed.
Lemma column_of name col sgn : In (name, (col, sgn)) multipoles -> get_column ("CaviMlp_" ++ name) = Ok (S col).
Proof.
  unfold multipoles. intros [[= <- <- <-]|[[= <- <- <-]|[[= <- <- <-]|[[= <- <- <-]|[[= <- <- <-]|[[= <- <- <-]|[[= <- <- <-]|[]]]]]]]]; reflexivity.
Qed.
Lemma names_in name col sgn : In (name, (col, sgn)) multipoles -> In name ["EDipole"; "EFocus1"; "EFocus2"; "EQuad"; "HDipole"; "HMono"; "HQuad"].
Proof. intros H. apply (in_map fst) in H. exact H. Qed.

Lemma in_fit cavi lo hi name col sgn K : In (cavi, (lo, hi)) multipole_fits -> In (name, (col, sgn)) multipoles ->
  ~ no_dipole_fit cavi name -> lo <= K <= hi ->
  exists a b, mlp_table ("CaviMlp_" ++ name) cavi = Some (a, b) /\
    1 / 2 <= sgn * pwr_series K a <= 0.9985 /\ - (1 / 20) <= pwr_series K b <= 1 / 20.
Proof.
  intros F M D HK. rewrite (named_table name cavi (names_in _ _ _ M)).
  assert (P : forall tab, (exists a b, tab = Some (a, b) /\ boundsP (pwr_series K a) (pwr_series K b)) ->
    exists a b, tab = Some (a, b) /\ 1 / 2 <= 1 * pwr_series K a <= 0.9985 /\ - (1 / 20) <= pwr_series K b <= 1 / 20).
  { intros tab (a & b & E & B). exists a, b. split; [exact E|]. rewrite Rmult_1_l. exact B. }
  assert (N : forall tab, (exists a b, tab = Some (a, b) /\ boundsN (pwr_series K a) (pwr_series K b)) ->
    exists a b, tab = Some (a, b) /\ 1 / 2 <= -1 * pwr_series K a <= 0.9985 /\ - (1 / 20) <= pwr_series K b <= 1 / 20).
  { intros tab (a & b & E & B). exists a, b. split; [exact E|]. unfold boundsN in B. clear - B. lra. }
  unfold no_dipole_fit in D.
  assert (DD : forall c, cavi = c -> (c = 3 \/ c = 4)%nat -> name = "EDipole" \/ name = "HDipole" -> False).
  { intros c -> C X. apply D. auto. }
  clear D.
  destruct F as [F|[F|[F|[F|[]]]]]; injection F as <- <- <-;
  (destruct M as [M|[M|[M|[M|[M|[M|[M|[]]]]]]]]; injection M as <- <- <-); cbv [String.eqb Ascii.eqb Bool.eqb];
  try (exfalso; apply (DD _ eq_refl); auto; fail); clear DD;
  first [apply P|apply N].
  - apply b_EDipole1, HK.
  - apply b_EFocus11, HK.
  - apply b_EFocus21, HK.
  - apply b_EQuad1, HK.
  - apply b_HDipole1, HK.
  - apply b_HMono1, HK.
  - apply b_HQuad1, HK.
  - apply b_EDipole2, HK.
  - apply b_EFocus12, HK.
  - apply b_EFocus22, HK.
  - apply b_EQuad2, HK.
  - apply b_HDipole2, HK.
  - apply b_HMono2, HK.
  - apply b_HQuad2, HK.
  - apply b_EFocus13, HK.
  - apply b_EFocus23, HK.
  - apply b_EQuad3, HK.
  - apply b_HMono3, HK.
  - apply b_HQuad3, HK.
  - apply b_EFocus14, HK.
  - apply b_EFocus24, HK.
  - apply b_EQuad4, HK.
  - apply b_HMono4, HK.
  - apply b_HQuad4, HK.
Qed.
Lemma multipole_fit cavi lo hi name col sgn K : In (cavi, (lo, hi)) multipole_fits -> In (name, (col, sgn)) multipoles ->
  ~ no_dipole_fit cavi name -> lo <= K <= hi ->
  exists T X, (forall cv, cv_cavi cv = cavi -> cv_force cv = false -> transit_multipole cv ("CaviMlp_" ++ name) K = Ok (T, X)) /\
    1 / 2 <= sgn * T <= 0.9985 /\ - (1 / 20) <= X <= 1 / 20 /\ T * T + X * X < 1.
Proof.
  intros F M D HK. destruct (in_fit _ _ _ _ _ _ _ F M D HK) as (a & b & E & B1 & B2).
  exists (pwr_series K a), (pwr_series K b). split; [|split; [exact B1|split; [exact B2|]]].
  - intros cv C FO. unfold transit_multipole. cbv zeta. rewrite FO, C, (range_of _ _ _ F), E.
    destruct (Rlt_dec K lo) as [L|L]; [lra|]. destruct (Rlt_dec hi K) as [G|G]; [lra|]. reflexivity.
  - assert (SG : sgn * sgn = 1).
    { clear - M. destruct M as [M|[M|[M|[M|[M|[M|[M|[]]]]]]]]; injection M as _ _ <-; ring. }
    set (T := pwr_series K a) in *. set (X := pwr_series K b) in *. clearbody T X. clear - SG B1 B2.
    replace (T * T) with ((sgn * T) * (sgn * T)) by (replace ((sgn * T) * (sgn * T)) with ((sgn * sgn) * (T * T)) by ring; rewrite SG; ring).
    set (Y := sgn * T) in *. clearbody Y. nra.
Qed.
Lemma multipole_none cavi lo hi name cv K : In (cavi, (lo, hi)) multipole_fits -> no_dipole_fit cavi name -> lo <= K <= hi ->
  cv_cavi cv = cavi -> cv_force cv = false -> transit_multipole cv ("CaviMlp_" ++ name) K = Throw RuntimeError.
Proof.
  intros F [C N] HK E FO. unfold transit_multipole. cbv zeta. rewrite FO, E, (range_of _ _ _ F).
  destruct (Rlt_dec K lo) as [L|L]; [lra|]. destruct (Rlt_dec hi K) as [G|G]; [lra|].
  destruct C as [-> | ->], N as [-> | ->]; reflexivity.
Qed.
Lemma multipole_table cv name col sgn K T X : In (name, (col, sgn)) multipoles ->
  (cv_force cv = true \/ exists lo hi, In (cv_cavi cv, (lo, hi)) multipole_fits /\ (K < lo \/ hi < K)) ->
  (transit_multipole cv ("CaviMlp_" ++ name) K = Ok (T, X) <->
   has_column col (cv_mlp cv) /\ (2 <= List.length (cv_mlp cv))%nat /\ voltage (cv_mlp cv) col (List.length (cv_mlp cv)) <> 0 /\
   T = even_part (cv_mlp cv) col (List.length (cv_mlp cv)) K /\ X = odd_part (cv_mlp cv) col (List.length (cv_mlp cv)) K).
Proof.
  intros M F.
  assert (E : transit_multipole cv ("CaviMlp_" ++ name) K = rbind (cal_transfac (cv_mlp cv) (S col) 0 K false) (fun t => Ok (t_T t, t_S t))).
  { unfold transit_multipole. cbv zeta. rewrite (column_of _ _ _ M). cbn [rbind]. destruct (cv_force cv); [reflexivity|].
    destruct F as [F|(lo & hi & F & O)]; [discriminate|]. rewrite (range_of _ _ _ F).
    destruct (Rlt_dec K lo) as [L|L]; [reflexivity|]. destruct (Rlt_dec hi K) as [G|G]; [reflexivity|]. exfalso. clear - O L G. lra. }
  rewrite E. pose proof (table_iff (cv_mlp cv) col false 0 K) as I. pose proof (table_value (cv_mlp cv) col false 0 K) as V.
  change (rows_used (cv_mlp cv) false) with (List.length (cv_mlp cv)) in *.
  destruct (cal_transfac (cv_mlp cv) (S col) 0 K false) as [t|e]; cbn [rbind].
  - destruct (proj1 I (ex_intro _ t eq_refl)) as (HC & HN & HV). destruct (V t eq_refl) as (_ & VT & _ & VS & _). cbn in VT. split.
    + intros Q. injection Q as <- <-. repeat split; auto. rewrite VT. ring.
    + intros (_ & _ & _ & -> & ->). rewrite VT, VS. do 2 f_equal. ring.
  - split; [discriminate|]. intros (HC & HN & HV & _). destruct (proj2 I (conj HC (conj HN HV))) as [t Q]. discriminate.
Qed.

(** ** Gaps *)
Lemma power_le b p m : 0 < b < 1 -> p <= INR m -> Rpower b (- p) <= / b ^ m.
Proof.
  intros B P. rewrite <- (Rpower_pow m b) by lra. rewrite <- Rpower_Ropp. unfold Rpower.
  assert (ln b < 0) by (rewrite <- ln_1; apply ln_increasing; lra).
  destruct (Req_dec p (INR m)) as [->|NE]; [lra|]. left. apply exp_increasing. nra.
Qed.
Lemma power_ge b p m : 0 < b < 1 -> INR m <= p -> / b ^ m <= Rpower b (- p).
Proof.
  intros B P. rewrite <- (Rpower_pow m b) by lra. rewrite <- Rpower_Ropp. unfold Rpower.
  assert (ln b < 0) by (rewrite <- ln_1; apply ln_increasing; lra).
  destruct (Req_dec p (INR m)) as [->|NE]; [lra|]. left. apply exp_increasing. nra.
Qed.
Lemma power_between lo hi b p m : 0 < lo -> hi < 1 -> lo <= b <= hi -> 1 <= p <= INR m -> / hi <= Rpower b (- p) <= / lo ^ m.
Proof.
  intros L H B P. assert (B' : 0 < b < 1) by lra. split.
  - pose proof (power_ge b p 1 B' ltac:(cbn; lra)) as Q. rewrite pow_1 in Q. eapply Rle_trans; [|exact Q]. apply Rinv_le_contravar; lra.
  - eapply Rle_trans; [apply (power_le b p m B'); lra|]. apply Rinv_le_contravar; [apply pow_lt; lra|]. apply pow_incr. lra.
Qed.
Lemma poly_between q lo hi A B l b : l = map Q2R q -> check 12 lo hi A B q = true -> Q2R lo <= b <= Q2R hi ->
  Q2R A <= pwr_series b l <= Q2R B.
Proof. intros. eapply checked; eauto. Qed.

Lemma power_in lo hi b e p m u v : e = - p -> 0 < lo -> hi < 1 -> lo <= b <= hi -> 1 <= p <= INR m -> v * hi <= 1 -> 1 <= u * lo ^ m -> v <= Rpower b e <= u.
Proof.
  intros -> L H B P V U. pose proof (power_between lo hi b p m L H B P) as [Q1 Q2]. assert (H0 : 0 < hi) by lra. assert (L0 : 0 < lo ^ m) by (apply pow_lt; lra). split.
  - eapply Rle_trans; [|exact Q1]. apply (Rmult_le_reg_r hi); [lra|]. rewrite Rinv_l by lra. exact V.
  - eapply Rle_trans; [exact Q2|]. apply (Rmult_le_reg_r (lo ^ m)); [lra|]. rewrite Rinv_l by lra. exact U.
Qed.
Ltac gap_lits := repeat match goal with H : context [pwr_series ?b ?l] |- _ => let p := fresh "p" in set (p := pwr_series b l) in *; clearbody p end;
  repeat match goal with H : context [Rpower ?b ?l] |- _ => let p := fresh "p" in set (p := Rpower b l) in *; clearbody p end.
Lemma fair_41_1 b : 0.025 <= b <= 0.08 -> exists t, fitted 41 1 b = Some t /\ fair_gap 1 120 0.492385 t.
Proof.
  intros H. assert (HQ : Q2R (1 # 40) <= b <= Q2R (2 # 25)) by (unfold Q2R; cbn; lra).
  pose proof (poly_between [577 # 625; (-616) # 5; 3570 # 1; (-54760) # 1; 431600 # 1; (-1377000) # 1; 0 # 1; 0 # 1; 0 # 1; 0 # 1]%Q (1 # 40) (2 # 25) ((-659) # 676) ((-327) # 533) [0.9232; - 123.2; 3570; - 5.476e4; 4.316e5; - 1.377e6; 0; 0; 0; 0] b ltac:(lits) ltac:(vm_compute; reflexivity) HQ) as P0.
  pose proof (poly_between [1699 # 1000; 9247 # 10; (-40620) # 1; 752800 # 1; (-6631000) # 1; 22770000 # 1; 0 # 1; 0 # 1; 0 # 1; 0 # 1]%Q (1 # 40) (2 # 25) (1195 # 294) (9 # 1) [1.699; 924.7; - 4.062e4; 7.528e5; - 6.631e6; 2.277e7; 0; 0; 0; 0] b ltac:(lits) ltac:(vm_compute; reflexivity) HQ) as P1.
  pose proof (poly_between [(-1571) # 1000; 2559 # 100; 4033 # 5; (-29800) # 1; 338500 # 1; (-1335000) # 1; 0 # 1; 0 # 1; 0 # 1; 0 # 1]%Q (1 # 40) (2 # 25) ((-187) # 237) ((-41) # 325) [- 1.571; 25.59; 806.6; - 2.98e4; 3.385e5; - 1.335e6; 0; 0; 0; 0] b ltac:(lits) ltac:(vm_compute; reflexivity) HQ) as P2.
  pose proof (power_in 0.025 0.08 b (- 1.884) 1.884 2 1600.0 12.5 ltac:(lra) ltac:(lra) ltac:(lra) H ltac:(cbn; lra) ltac:(lra) ltac:(cbn [pow]; lra)) as W0.
  eexists. split; [reflexivity|]. unfold fair_gap. cbn [Nat.eqb t_T t_Tp t_S t_Sp t_V0 t_Ecen].
  unfold Q2R in *. cbn [Qnum Qden pow] in *. gap_lits. repeat split; try reflexivity; lra.
Qed.
Lemma fair_41_2 b : 0.025 <= b <= 0.08 -> exists t, fitted 41 2 b = Some t /\ fair_gap 2 120 0.492385 t.
Proof.
  intros H. assert (HQ : Q2R (1 # 40) <= b <= Q2R (2 # 25)) by (unfold Q2R; cbn; lra).
  pose proof (poly_between [(-577) # 625; 616 # 5; (-3570) # 1; 54760 # 1; (-431600) # 1; 1377000 # 1; 0 # 1; 0 # 1; 0 # 1; 0 # 1]%Q (1 # 40) (2 # 25) (327 # 533) (659 # 676) [- 0.9232; 123.2; - 3570; 5.476e4; - 4.316e5; 1.377e6; 0; 0; 0; 0] b ltac:(lits) ltac:(vm_compute; reflexivity) HQ) as P0.
  pose proof (poly_between [(-1699) # 1000; (-9247) # 10; 40620 # 1; (-752800) # 1; 6631000 # 1; (-22770000) # 1; 0 # 1; 0 # 1; 0 # 1; 0 # 1]%Q (1 # 40) (2 # 25) ((-9) # 1) ((-1195) # 294) [- 1.699; - 924.7; 4.062e4; - 7.528e5; 6.631e6; - 2.277e7; 0; 0; 0; 0] b ltac:(lits) ltac:(vm_compute; reflexivity) HQ) as P1.
  pose proof (poly_between [(-1571) # 1000; 2559 # 100; 4033 # 5; (-29800) # 1; 338500 # 1; (-1335000) # 1; 0 # 1; 0 # 1; 0 # 1; 0 # 1]%Q (1 # 40) (2 # 25) ((-187) # 237) ((-41) # 325) [- 1.571; 25.59; 806.6; - 2.98e4; 3.385e5; - 1.335e6; 0; 0; 0; 0] b ltac:(lits) ltac:(vm_compute; reflexivity) HQ) as P2.
  pose proof (power_in 0.025 0.08 b (- 1.884) 1.884 2 1600.0 12.5 ltac:(lra) ltac:(lra) ltac:(lra) H ltac:(cbn; lra) ltac:(lra) ltac:(cbn [pow]; lra)) as W0.
  eexists. split; [reflexivity|]. unfold fair_gap. cbn [Nat.eqb t_T t_Tp t_S t_Sp t_V0 t_Ecen].
  unfold Q2R in *. cbn [Qnum Qden pow] in *. gap_lits. repeat split; try reflexivity; lra.
Qed.
Lemma fair_85_1 b : 0.05 <= b <= 0.25 -> exists t, fitted 85 1 b = Some t /\ fair_gap 1 150 0.9838574 t.
Proof.
  intros H. assert (HQ : Q2R (1 # 20) <= b <= Q2R (1 # 4)) by (unfold Q2R; cbn; lra).
  pose proof (poly_between [611 # 25; (-334) # 1; 2468 # 1; (-10170) # 1; 21950 # 1; (-19280) # 1; 0 # 1; 0 # 1; 0 # 1; 0 # 1]%Q (1 # 20) (1 # 4) (398 # 127) (1029 # 79) [24.44; - 334; 2468; - 1.017e4; 2.195e4; - 1.928e4; 0; 0; 0; 0] b ltac:(lits) ltac:(vm_compute; reflexivity) HQ) as P0.
  pose proof (power_in 0.05 0.25 b (- 1.855) 1.855 2 400.0 4.0 ltac:(lra) ltac:(lra) ltac:(lra) H ltac:(cbn; lra) ltac:(lra) ltac:(cbn [pow]; lra)) as W0.
  pose proof (power_in 0.05 0.25 b (- 1.898) 1.898 2 400.0 4.0 ltac:(lra) ltac:(lra) ltac:(lra) H ltac:(cbn; lra) ltac:(lra) ltac:(cbn [pow]; lra)) as W1.
  pose proof (power_in 0.05 0.25 b (- 2.13) 2.13 3 8000.0 4.0 ltac:(lra) ltac:(lra) ltac:(lra) H ltac:(cbn; lra) ltac:(lra) ltac:(cbn [pow]; lra)) as W2.
  eexists. split; [reflexivity|]. unfold fair_gap. cbn [Nat.eqb t_T t_Tp t_S t_Sp t_V0 t_Ecen].
  unfold Q2R in *. cbn [Qnum Qden pow] in *. gap_lits. repeat split; try reflexivity; lra.
Qed.
Lemma fair_85_2 b : 0.05 <= b <= 0.25 -> exists t, fitted 85 2 b = Some t /\ fair_gap 2 150 0.9838574 t.
Proof.
  intros H. assert (HQ : Q2R (1 # 20) <= b <= Q2R (1 # 4)) by (unfold Q2R; cbn; lra).
  pose proof (poly_between [(-611) # 25; 334 # 1; (-2468) # 1; 10170 # 1; (-21950) # 1; 19280 # 1; 0 # 1; 0 # 1; 0 # 1; 0 # 1]%Q (1 # 20) (1 # 4) ((-1029) # 79) ((-398) # 127) [- 24.44; 334; - 2468; 1.017e4; - 2.195e4; 1.928e4; 0; 0; 0; 0] b ltac:(lits) ltac:(vm_compute; reflexivity) HQ) as P0.
  pose proof (power_in 0.05 0.25 b (- 1.855) 1.855 2 400.0 4.0 ltac:(lra) ltac:(lra) ltac:(lra) H ltac:(cbn; lra) ltac:(lra) ltac:(cbn [pow]; lra)) as W0.
  pose proof (power_in 0.05 0.25 b (- 1.898) 1.898 2 400.0 4.0 ltac:(lra) ltac:(lra) ltac:(lra) H ltac:(cbn; lra) ltac:(lra) ltac:(cbn [pow]; lra)) as W1.
  pose proof (power_in 0.05 0.25 b (- 2.13) 2.13 3 8000.0 4.0 ltac:(lra) ltac:(lra) ltac:(lra) H ltac:(cbn; lra) ltac:(lra) ltac:(cbn [pow]; lra)) as W2.
  eexists. split; [reflexivity|]. unfold fair_gap. cbn [Nat.eqb t_T t_Tp t_S t_Sp t_V0 t_Ecen].
  unfold Q2R in *. cbn [Qnum Qden pow] in *. gap_lits. repeat split; try reflexivity; lra.
Qed.
Lemma fair_29_1 b : 0.15 <= b <= 0.4 -> exists t, fitted 29 1 b = Some t /\ fair_gap 1 150 1.242518 t.
Proof.
  intros H. assert (HQ : Q2R (3 # 20) <= b <= Q2R (2 # 5)) by (unfold Q2R; cbn; lra).
  pose proof (poly_between [(-45) # 4; 5347 # 10; (-3917) # 1; 13130 # 1; (-21470) # 1; 13890 # 1; 0 # 1; 0 # 1; 0 # 1; 0 # 1]%Q (3 # 20) (2 # 5) (1480 # 171) (2985 # 191) [- 11.25; 534.7; - 3917; 1.313e4; - 2.147e4; 1.389e4; 0; 0; 0; 0] b ltac:(lits) ltac:(vm_compute; reflexivity) HQ) as P0.
  pose proof (poly_between [(-8283) # 10000; (-4409) # 1000; 7877 # 100; (-3439) # 10; 6451 # 10; (-2272) # 5; 0 # 1; 0 # 1; 0 # 1; 0 # 1]%Q (3 # 20) (2 # 5) ((-554) # 927) ((-37) # 276) [- 0.8283; - 4.409; 78.77; - 343.9; 645.1; - 454.4; 0; 0; 0; 0] b ltac:(lits) ltac:(vm_compute; reflexivity) HQ) as P1.
  pose proof (power_in 0.15 0.4 b (- 1.618) 1.618 2 44.5 2.5 ltac:(lra) ltac:(lra) ltac:(lra) H ltac:(cbn; lra) ltac:(lra) ltac:(cbn [pow]; lra)) as W0.
  pose proof (power_in 0.15 0.4 b (- 2.001) 2.001 3 296.3 2.5 ltac:(lra) ltac:(lra) ltac:(lra) H ltac:(cbn; lra) ltac:(lra) ltac:(cbn [pow]; lra)) as W1.
  eexists. split; [reflexivity|]. unfold fair_gap. cbn [Nat.eqb t_T t_Tp t_S t_Sp t_V0 t_Ecen].
  unfold Q2R in *. cbn [Qnum Qden pow] in *. gap_lits. repeat split; try reflexivity; lra.
Qed.
Lemma fair_29_2 b : 0.15 <= b <= 0.4 -> exists t, fitted 29 2 b = Some t /\ fair_gap 2 150 1.242518 t.
Proof.
  intros H. assert (HQ : Q2R (3 # 20) <= b <= Q2R (2 # 5)) by (unfold Q2R; cbn; lra).
  pose proof (poly_between [45 # 4; (-5347) # 10; 3917 # 1; (-13130) # 1; 21470 # 1; (-13890) # 1; 0 # 1; 0 # 1; 0 # 1; 0 # 1]%Q (3 # 20) (2 # 5) ((-2985) # 191) ((-1480) # 171) [11.25; - 534.7; 3917; - 1.313e4; 2.147e4; - 1.389e4; 0; 0; 0; 0] b ltac:(lits) ltac:(vm_compute; reflexivity) HQ) as P0.
  pose proof (poly_between [(-8283) # 10000; (-4409) # 1000; 7877 # 100; (-3439) # 10; 6451 # 10; (-2272) # 5; 0 # 1; 0 # 1; 0 # 1; 0 # 1]%Q (3 # 20) (2 # 5) ((-554) # 927) ((-37) # 276) [- 0.8283; - 4.409; 78.77; - 343.9; 645.1; - 454.4; 0; 0; 0; 0] b ltac:(lits) ltac:(vm_compute; reflexivity) HQ) as P1.
  pose proof (power_in 0.15 0.4 b (- 1.618) 1.618 2 44.5 2.5 ltac:(lra) ltac:(lra) ltac:(lra) H ltac:(cbn; lra) ltac:(lra) ltac:(cbn [pow]; lra)) as W0.
  pose proof (power_in 0.15 0.4 b (- 2.001) 2.001 3 296.3 2.5 ltac:(lra) ltac:(lra) ltac:(lra) H ltac:(cbn; lra) ltac:(lra) ltac:(cbn [pow]; lra)) as W1.
  eexists. split; [reflexivity|]. unfold fair_gap. cbn [Nat.eqb t_T t_Tp t_S t_Sp t_V0 t_Ecen].
  unfold Q2R in *. cbn [Qnum Qden pow] in *. gap_lits. repeat split; try reflexivity; lra.
Qed.
Lemma fair_53_1 b : 0.3 <= b <= 0.6 -> exists t, fitted 53 1 b = Some t /\ fair_gap 1 250 2.12878493 t.
Proof.
  intros H. assert (HQ : Q2R (3 # 10) <= b <= Q2R (3 # 5)) by (unfold Q2R; cbn; lra).
  pose proof (poly_between [(-903) # 250; 2114 # 5; (-1973) # 1; 4081 # 1; (-4109) # 1; 1641 # 1; 0 # 1; 0 # 1; 0 # 1; 0 # 1]%Q (3 # 10) (3 # 5) (13004 # 811) (16438 # 607) [- 3.612; 422.8; - 1973; 4081; - 4109; 1641; 0; 0; 0; 0] b ltac:(lits) ltac:(vm_compute; reflexivity) HQ) as P0.
  pose proof (power_in 0.3 0.6 b (- 1.68) 1.68 2 11.2 1.6 ltac:(lra) ltac:(lra) ltac:(lra) H ltac:(cbn; lra) ltac:(lra) ltac:(cbn [pow]; lra)) as W0.
  pose proof (power_in 0.3 0.6 b (- 1.775) 1.775 2 11.2 1.6 ltac:(lra) ltac:(lra) ltac:(lra) H ltac:(cbn; lra) ltac:(lra) ltac:(cbn [pow]; lra)) as W1.
  pose proof (power_in 0.3 0.6 b (- 2.348) 2.348 3 37.1 1.6 ltac:(lra) ltac:(lra) ltac:(lra) H ltac:(cbn; lra) ltac:(lra) ltac:(cbn [pow]; lra)) as W2.
  eexists. split; [reflexivity|]. unfold fair_gap. cbn [Nat.eqb t_T t_Tp t_S t_Sp t_V0 t_Ecen].
  unfold Q2R in *. cbn [Qnum Qden pow] in *. gap_lits. repeat split; try reflexivity; lra.
Qed.
Lemma fair_53_2 b : 0.3 <= b <= 0.6 -> exists t, fitted 53 2 b = Some t /\ fair_gap 2 250 2.12878493 t.
Proof.
  intros H. assert (HQ : Q2R (3 # 10) <= b <= Q2R (3 # 5)) by (unfold Q2R; cbn; lra).
  pose proof (poly_between [903 # 250; (-2114) # 5; 1973 # 1; (-4081) # 1; 4109 # 1; (-1641) # 1; 0 # 1; 0 # 1; 0 # 1; 0 # 1]%Q (3 # 10) (3 # 5) ((-16438) # 607) ((-13004) # 811) [3.612; - 422.8; 1973; - 4081; 4109; - 1641; 0; 0; 0; 0] b ltac:(lits) ltac:(vm_compute; reflexivity) HQ) as P0.
  pose proof (power_in 0.3 0.6 b (- 1.68) 1.68 2 11.2 1.6 ltac:(lra) ltac:(lra) ltac:(lra) H ltac:(cbn; lra) ltac:(lra) ltac:(cbn [pow]; lra)) as W0.
  pose proof (power_in 0.3 0.6 b (- 1.775) 1.775 2 11.2 1.6 ltac:(lra) ltac:(lra) ltac:(lra) H ltac:(cbn; lra) ltac:(lra) ltac:(cbn [pow]; lra)) as W1.
  pose proof (power_in 0.3 0.6 b (- 2.348) 2.348 3 37.1 1.6 ltac:(lra) ltac:(lra) ltac:(lra) H ltac:(cbn; lra) ltac:(lra) ltac:(cbn [pow]; lra)) as W2.
  eexists. split; [reflexivity|]. unfold fair_gap. cbn [Nat.eqb t_T t_Tp t_S t_Sp t_V0 t_Ecen].
  unfold Q2R in *. cbn [Qnum Qden pow] in *. gap_lits. repeat split; try reflexivity; lra.
Qed.

Lemma fits_range label lo hi L V : In (label, (lo, hi, L, V)) gap_fits -> fit_range label = Some (lo, hi).
Proof. intros [[= <- <- <- <- <-]|[[= <- <- <- <- <-]|[[= <- <- <- <- <-]|[[= <- <- <- <- <-]|[]]]]]; reflexivity. Qed.
Lemma gap_fit label lo hi L V gap b : In (label, (lo, hi, L, V)) gap_fits -> (gap = 1 \/ gap = 2)%nat -> lo <= b <= hi ->
  exists t, (forall cv K scl, cv_force cv = false -> trans_facts cv label b K gap scl = Ok (scaled_voltage scl t)) /\ fair_gap gap L V t.
Proof.
  intros F G HB.
  assert (X : exists t, fitted label gap b = Some t /\ fair_gap gap L V t).
  { destruct F as [F|[F|[F|[F|[]]]]]; injection F as <- <- <- <- <-; destruct G as [-> | ->];
    [apply fair_41_1|apply fair_41_2|apply fair_85_1|apply fair_85_2|apply fair_29_1|apply fair_29_2|apply fair_53_1|apply fair_53_2]; exact HB. }
  destruct X as (t & E & X). exists t. split; [|exact X]. intros cv K scl FO. unfold trans_facts. cbv zeta.
  rewrite FO, (fits_range _ _ _ _ _ F), E. destruct (Rlt_dec b lo) as [P|P]; [lra|]. destruct (Rlt_dec hi b) as [Q|Q]; [lra|]. reflexivity.
Qed.
Lemma gap_table cv label b K gap scl t :
  (cv_force cv = true \/ exists lo hi L V, In (label, (lo, hi, L, V)) gap_fits /\ (b < lo \/ hi < b)) ->
  (trans_facts cv label b K gap scl = Ok t <->
   has_column 1 (cv_axis cv) /\ (2 <= rows_used (cv_axis cv) true)%nat /\ voltage (cv_axis cv) 1 (rows_used (cv_axis cv) true) <> 0 /\
   exists t0, of_table (cv_axis cv) 1 (rows_used (cv_axis cv) true) (Nat.eqb gap 2) K t0 /\ t = scaled_voltage scl t0).
Proof.
  intros F.
  assert (E : trans_facts cv label b K gap scl = rbind (cal_transfac (cv_axis cv) 2 gap K true) (fun t => Ok (scaled_voltage scl t))).
  { unfold trans_facts. cbv zeta. destruct (cv_force cv); [reflexivity|].
    destruct F as [F|(lo & hi & L & V & F & O)]; [discriminate|]. rewrite (fits_range _ _ _ _ _ F).
    destruct (Rlt_dec b lo) as [P|P]; [reflexivity|]. destruct (Rlt_dec hi b) as [G|G]; [reflexivity|]. exfalso. clear - O P G. lra. }
  rewrite E. pose proof (table_iff (cv_axis cv) 1 true gap K) as I. pose proof (table_value (cv_axis cv) 1 true gap K) as V.
  destruct (cal_transfac (cv_axis cv) 2 gap K true) as [t0|e]; cbn [rbind].
  - destruct (proj1 I (ex_intro _ t0 eq_refl)) as (HC & HN & HV). specialize (V t0 eq_refl). split.
    + intros Q. injection Q as <-. repeat split; auto. exists t0. split; [exact V|reflexivity].
    + intros (_ & _ & _ & t1 & V1 & ->). f_equal. f_equal. destruct V as (A1 & A2 & A3 & A4 & A5 & A6), V1 as (B1 & B2 & B3 & B4 & B5 & B6).
      destruct t0, t1; cbn in *; subst. reflexivity.
  - split; [discriminate|]. intros (HC & HN & HV & _). destruct (proj2 I (conj HC (conj HN HV))) as [t1 Q]. discriminate.
Qed.
(** Steps that are not all of the same length. *)
Definition uneven : list (list R) := [[0; 2]; [9; 0]; [10; 1]].
