(** Model of the field computations of the RF cavity, src/rf_cavity.cpp, and of
    their place in the simulation type MomentMatrix.

    Exact arithmetic as in Moment_Model: a double is a real number.  Where the code
    divides by zero or takes the root, power or logarithm of a number that has none,
    the model ends with [NotFinite] and says nothing about what follows.  In
    GetCavBoost, where this happens to every particle that is stopped, NaN is
    followed: see [boost].  [NotFinite] also stands for a rest energy that is not
    positive and for a cavity or sampling frequency of zero.

    Left open, members of [cavfiles]: the numeric tables (read by the parser
    modelled in Util_Model), the lines of the thin lens files, and what parsing a
    cavity data file gives.  Files do not change while the program runs, so neither
    CavConfMap nor the cache of tables is seen, and the data of a cavity are those
    its Config leads to; assign() (rf_cavity.h:139-155) and the second reading in
    advance() (rf_cavity.h:175-190) come to the same.

    Left out: log messages (a Generic cavity with an EFocus piece reads beyond
    linetab if messages of level FINE are on, rf_cavity.cpp:1345-1349). *)
From Coq Require Import Reals List String Bool NArith ZArith Lia.
From Verif Require Import SMap Dbl Config_Spec Mat Minv Machine_Model Util_Model Moment_Model.
Import ListNotations.
Open Scope R_scope.
Open Scope string_scope.
Open Scope list_scope.

(** constants.h:27-29. *)
Definition AU : R := 931.49432e6 / MeVtoeV.
Definition MU0 : R := 4 * PI * 1e-7.

(** ** Powers and polynomials *)
(** The loop of ipow, rf_cavity.cpp:27-39, for a number of rounds; None: not
    finished.  [>>] of a negative int is the arithmetic shift. *)
Fixpoint ipow_loop (fuel : nat) (result base : R) (exp : Z) : option R :=
  match fuel with
  | O => None
  | S fuel' =>
      if Z.eqb exp 0 then Some result
      else ipow_loop fuel' (if Z.odd exp then result * base else result) (base * base) (Z.shiftr exp 1)
  end.
(** ipow, rf_cavity.cpp:27-39: an int is through after 32 rounds or never. *)
Definition ipow (base : R) (exp : Z) : option R := ipow_loop 32 1 base exp.

(** calFitPow, rf_cavity.cpp:1456-1465, from index [ii] on. *)
Fixpoint fit_from (kfac : R) (order ii : Z) (l : list R) (acc : R) : option R :=
  match l with
  | [] => Some acc
  | a :: l' =>
      match ipow kfac (order - ii - 1) with
      | Some p => fit_from kfac order (ii + 1)%Z l' (acc + a * p)
      | None => None
      end
  end.
Definition cal_fit_pow (kfac : R) (l : list R) : option R :=
  fit_from kfac (Z.of_nat (List.length l)) 0 l 0.
(** The same where it cannot fail to end. *)
Definition fit_pow (kfac : R) (l : list R) : res R :=
  match cal_fit_pow kfac l with Some x => Ok x | None => Throw Abort end.

(** PwrSeries, rf_cavity.cpp:213-229: f = a[0]; f += a[k]*pow(beta, k).  The list has
    the ten coefficients. *)
Fixpoint series_from (beta : R) (k : nat) (l : list R) (f : R) : R :=
  match l with [] => f | a :: l' => series_from beta (S k) l' (f + a * beta ^ k) end.
Definition pwr_series (beta : R) (l : list R) : R :=
  match l with [] => 0 | a :: l' => series_from beta 1 l' a end.

(** pow(x, y) of the C library. *)
Definition fpow (x y : R) : res R := if Rlt_dec 0 x then Ok (Rpower x y) else Throw NotFinite.
(** x / y. *)
Definition fdiv (x y : R) : res R := if Req_EM_T y 0 then Throw NotFinite else Ok (x / y).

(** ** The data of a cavity, rf_cavity.h:57-98 *)
(** RawParams, rf_cavity.h:57-62; name and aperature are not used. *)
Record rawp := mkRaw { r_type : string; r_len : R; r_E0 : R; r_T : list R; r_S : list R }.
Record cavity := mkCav {
  cv_cavi : nat;
  cv_f : R; cv_phi : R; cv_Rm : R; cv_force : bool; cv_mp : N; cv_eg : N;
  cv_lat : list rawp;
  cv_data : list (R * R);               (* the first two columns of CavData *)
  cv_axis : list (list R);              (* CavData *)
  cv_mlp : list (list R);               (* mlptable *)
  cv_syn : list R;                      (* SynAccTab *)
  cv_nrm : option R;                    (* RefNrm, if have_RefNrm *)
  cv_cx : option (list R);              (* SynComplex *)
  cv_eklim : option (list R); cv_nrlim : option (list R)
}.

(** ** Transit time factors *)
(** [for (k = 0; k < n-1; k++) sum += f(l[k], l[k+1])]. *)
Definition pairwise {A} (f : A -> A -> R) (l : list A) : R :=
  fold_left (fun s '(a, b) => s + f a b) (combine l (tl l)) 0.

Record ttf := mkTTF { t_Ecen : R; t_T : R; t_Tp : R; t_S : R; t_Sp : R; t_V0 : R }.

(** calTransfac, rf_cavity.cpp:132-210, of the table with the given rows;
    [round((n-1)/2e0)] is [n/2]. *)
Definition cal_transfac (rows : list (list R)) (column : nat) (gap : nat) (K : R) (half : bool) : res ttf :=
  let col := (column - 1)%nat in
  let n := List.length rows in
  if (Nat.eqb n 0 || negb (forallb (fun r => Nat.ltb col (List.length r)) rows))%bool then Throw RuntimeError
  else
    let zE := map (fun r => (nth 0 r 0, nth col r 0)) rows in
    let len := fst (nth (n - 1) zE (0, 0)) in
    let n := if half then (n / 2)%nat else n in
    if Nat.eqb n 0 then Throw BadIndex
    else if Nat.eqb n 1 then Throw NotFinite
    else
      let zE := firstn n zE in
      let z0 := fst (nth 0 zE (0, 0)) in
      let dz := (fst (nth (n - 1) zE (0, 0)) - z0) / INR (n - 1) in
      let zE := map (fun '(z, E) => (z - z0, E)) zE in
      let eml := pairwise (fun '(_, E) '(_, E') => (Rabs E + Rabs E') / 2 * dz) zE in
      let mom := pairwise (fun '(z, E) '(z', E') => (z + z') / 2 * (Rabs E + Rabs E') / 2 * dz) zE in
      if Req_EM_T eml 0 then Throw NotFinite
      else
        let Ecen := mom / eml in
        let zE := map (fun '(z, E) => (z - Ecen, E)) zE in
        let T := pairwise (fun '(z, E) '(z', E') => (E + E') / 2 * cos (K * (z + z') / 2) * dz) zE / eml in
        let Tp := pairwise (fun '(z, E) '(z', E') => - ((z + z') / 2 * (E + E') / 2 * sin (K * (z + z') / 2) * dz)) zE / eml in
        let S := pairwise (fun '(z, E) '(z', E') => (E + E') / 2 * sin (K * (z + z') / 2) * (z' - z)) zE / eml in
        let Sp := pairwise (fun '(z, E) '(z', E') => (z + z') / 2 * (E + E') / 2 * cos (K * (z + z') / 2) * dz) zE / eml in
        let V0 := eml / MeVtoeV / MtoMM in
        Ok (if Nat.eqb gap 2 then mkTTF (len - Ecen) (- T) (- Tp) S Sp V0 else mkTTF Ecen T Tp S Sp V0).

(** The field of a cavity type for one gap as fitted, rf_cavity.cpp:249-397; beta is
    in range, hence positive.  (Ecen, T, T', S, S', V0 for a field scale of 1.) *)
Definition fitted (label gap : nat) (beta : R) : option ttf :=
  match label, gap with
  | 41%nat, 0%nat => Some (mkTTF 120 0 0
      (pwr_series beta [- 4.109; 399.9; - 1.269e4; 1.991e5; - 1.569e6; 4.957e6; 0; 0; 0; 0])
      (pwr_series beta [61.98; - 1.073e4; 4.841e5; 9.284e6; 8.379e7; - 2.926e8; 0; 0; 0; 0])
      0.98477)
  | 41%nat, 1%nat => Some (mkTTF (0.0006384 * Rpower beta (- 1.884) + 86.69)
      (pwr_series beta [0.9232; - 123.2; 3570; - 5.476e4; 4.316e5; - 1.377e6; 0; 0; 0; 0])
      (pwr_series beta [1.699; 924.7; - 4.062e4; 7.528e5; - 6.631e6; 2.277e7; 0; 0; 0; 0])
      0
      (pwr_series beta [- 1.571; 25.59; 806.6; - 2.98e4; 3.385e5; - 1.335e6; 0; 0; 0; 0])
      0.492385)
  | 41%nat, 2%nat => Some (mkTTF (- 0.0006384 * Rpower beta (- 1.884) + 33.31)
      (pwr_series beta [- 0.9232; 123.2; - 3570; 5.476e4; - 4.316e5; 1.377e6; 0; 0; 0; 0])
      (pwr_series beta [- 1.699; - 924.7; 4.062e4; - 7.528e5; 6.631e6; - 2.277e7; 0; 0; 0; 0])
      0
      (pwr_series beta [- 1.571; 25.59; 806.6; - 2.98e4; 3.385e5; - 1.335e6; 0; 0; 0; 0])
      0.492385)
  | 85%nat, 0%nat => Some (mkTTF 150 0 0
      (pwr_series beta [- 6.811; 343.9; - 6385; 6.477e4; - 3.914e5; 1.407e6; - 2.781e6; 2.326e6; 0; 0])
      (pwr_series beta [162.7; - 1.631e4; 4.315e5; - 5.344e6; 3.691e7; - 1.462e8; 3.109e8; - 2.755e8; 0; 0])
      1.967715)
  | 85%nat, 1%nat => Some (mkTTF (0.0002838 * Rpower beta (- 2.13) + 76.5)
      (0.0009467 * Rpower beta (- 1.855) - 1.002)
      (pwr_series beta [24.44; - 334; 2468; - 1.017e4; 2.195e4; - 1.928e4; 0; 0; 0; 0])
      0
      (- 0.0009751 * Rpower beta (- 1.898) + 0.001568)
      0.9838574)
  | 85%nat, 2%nat => Some (mkTTF (- 0.0002838 * Rpower beta (- 2.13) + 73.5)
      (- 0.0009467 * Rpower beta (- 1.855) + 1.002)
      (pwr_series beta [- 24.44; 334; - 2468; 1.017e4; - 2.195e4; 1.928e4; 0; 0; 0; 0])
      0
      (- 0.0009751 * Rpower beta (- 1.898) + 0.001568)
      0.9838574)
  | 29%nat, 0%nat => Some (mkTTF 150 0 0
      (pwr_series beta [- 4.285; 58.08; - 248; 486; - 405.6; 76.54; 0; 0; 0; 0])
      (pwr_series beta [888; - 2.043e4; 1.854e5; - 9.127e5; 2.695e6; - 4.791e6; 4.751e6; - 2.025e6; 0; 0])
      2.485036)
  | 29%nat, 1%nat => Some (mkTTF (0.01163 * Rpower beta (- 2.001) + 91.77)
      (0.02166 * Rpower beta (- 1.618) - 1.022)
      (pwr_series beta [- 11.25; 534.7; - 3917; 1.313e4; - 2.147e4; 1.389e4; 0; 0; 0; 0])
      0
      (pwr_series beta [- 0.8283; - 4.409; 78.77; - 343.9; 645.1; - 454.4; 0; 0; 0; 0])
      1.242518)
  | 29%nat, 2%nat => Some (mkTTF (- 0.01163 * Rpower beta (- 2.001) + 58.23)
      (- 0.02166 * Rpower beta (- 1.618) + 1.022)
      (pwr_series beta [11.25; - 534.7; 3917; - 1.313e4; 2.147e4; - 1.389e4; 0; 0; 0; 0])
      0
      (pwr_series beta [- 0.8283; - 4.409; 78.77; - 343.9; 645.1; - 454.4; 0; 0; 0; 0])
      1.242518)
  | 53%nat, 0%nat => Some (mkTTF 250 0 0
      (pwr_series beta [- 4.222; 26.64; - 38.49; - 17.73; 84.12; - 52.93; 0; 0; 0; 0])
      (pwr_series beta [- 1261; - 1.413e4; 5.702e4; - 1.111e5; 1.075e5; - 4.167e4; 0; 0; 0; 0])
      4.25756986)
  | 53%nat, 1%nat => Some (mkTTF (0.01219 * Rpower beta (- 2.348) + 137.8)
      (0.04856 * Rpower beta (- 1.68) - 1.018)
      (pwr_series beta [- 3.612; 422.8; - 1973; 4081; - 4109; 1641; 0; 0; 0; 0])
      0
      (- 0.03969 * Rpower beta (- 1.775) + 0.009034)
      2.12878493)
  | 53%nat, 2%nat => Some (mkTTF (- 0.01219 * Rpower beta (- 2.348) + 112.2)
      (- 0.04856 * Rpower beta (- 1.68) + 1.018)
      (pwr_series beta [3.612; - 422.8; 1973; - 4081; 4109; - 1641; 0; 0; 0; 0])
      0
      (- 0.03969 * Rpower beta (- 1.775) + 0.009034)
      2.12878493)
  | _, _ => None
  end.
(** The range of beta the fit is for, rf_cavity.cpp:250, 288, 326, 364. *)
Definition fit_range (label : nat) : option (R * R) :=
  match label with
  | 41%nat => Some (0.025, 0.08)
  | 85%nat => Some (0.05, 0.25)
  | 29%nat => Some (0.15, 0.4)
  | 53%nat => Some (0.3, 0.6)
  | _ => None
  end.
Definition scale_V0 (s : R) (t : ttf) : ttf :=
  mkTTF (t_Ecen t) (t_T t) (t_Tp t) (t_S t) (t_Sp t) (t_V0 t * s).
(** TransFacts, rf_cavity.cpp:232-404. *)
Definition trans_facts (cv : cavity) (label : nat) (beta K : R) (gap : nat) (scl : R) : res ttf :=
  let computed := rbind (cal_transfac (cv_axis cv) 2 gap K true) (fun t => Ok (scale_V0 scl t)) in
  if cv_force cv then computed
  else
    match fit_range label with
    | None => Throw RuntimeError
    | Some (lo, hi) =>
        if Rlt_dec beta lo then computed
        else if Rlt_dec hi beta then computed
        else match fitted label gap beta with
             | Some t => Ok (scale_V0 scl t)
             | None => Throw RuntimeError
             end
    end.

(** CaviMlp_EFocus1: coefficients of T and S for the cavity types that have them,
    rf_cavity.cpp:427-454. *)
Definition mlp_EFocus1 (cavi : nat) : option (list R * list R) :=
  match cavi with
  | 1%nat => Some
      ([1.256386e+02; - 3.108322e+04; 3.354464e+06; - 2.089452e+08; 8.280687e+09;
        - 2.165867e+11; 3.739846e+12; - 4.112154e+13; 2.613462e14; - 7.316972e14],
       [1.394183e+02; - 3.299673e+04; 3.438044e+06; - 2.070369e+08; 7.942886e+09;
        - 2.013750e+11; 3.374738e+12; - 3.605780e+13; 2.229446e+14; - 6.079177e+14])
  | 2%nat => Some
      ([- 9.450041e-01; - 3.641390e+01; 9.926186e+03; - 1.449193e+06; 1.281752e+08;
        - 7.150297e+09; 2.534164e+11; - 5.535252e+12; 6.794778e+13; - 3.586197e+14],
       [9.928055e-02; - 5.545119e+01; 1.280168e+04; - 1.636888e+06; 1.279801e+08;
        - 6.379800e+09; 2.036575e+11; - 4.029152e+12; 4.496323e+13; - 2.161712e+14])
  | 3%nat => Some
      ([- 1.000000e+00; 2.778823e-07; 6.820327e+01; 4.235106e-03; - 1.926935e+03;
        1.083516e+01; 2.996807e+04; 6.108642e+03; - 3.864554e+05; 6.094390e+05],
       [- 4.530303e-10; 1.625011e-07; - 2.583224e-05; 2.478684e+01; - 1.431967e-01;
        - 1.545412e+03; - 1.569820e+02; 3.856713e+04; - 3.159828e+04; - 2.700076e+05])
  | 4%nat => Some
      ([- 1.000000e+00; - 2.406447e-07; 9.480040e+01; - 7.659927e-03; - 4.926996e+03;
        - 3.504383e+01; 1.712590e+05; - 1.964643e+04; - 4.142976e+06; 6.085390e+06],
       [3.958048e-11; - 2.496811e-08; 7.027794e-06; - 8.662787e+01; 1.246098e-01;
        9.462491e+03; 4.481784e+02; - 4.552412e+05; 3.026543e+05; 8.798256e+06])
  | _ => None
  end.
(** CaviMlp_EFocus2: coefficients of T and S for the cavity types that have them,
    rf_cavity.cpp:455-482. *)
Definition mlp_EFocus2 (cavi : nat) : option (list R * list R) :=
  match cavi with
  | 1%nat => Some
      ([1.038803e+00; - 9.121320e+00; 8.943931e+02; - 5.619149e+04; 2.132552e+06;
        - 5.330725e+07; 8.799404e+08; - 9.246033e+09; 5.612073e+10; - 1.499544e+11],
       [1.305154e-02; - 2.585211e+00; 2.696971e+02; - 1.488249e+04; 5.095765e+05;
        - 1.154148e+07; 1.714580e+08; - 1.604935e+09; 8.570757e+09; - 1.983302e+10])
  | 2%nat => Some
      ([9.989307e-01; 7.299233e-01; - 2.932580e+02; 3.052166e+04; - 2.753614e+06;
        1.570331e+08; - 5.677804e+09; 1.265012e+11; - 1.584238e+12; 8.533351e+12],
       [- 3.040839e-03; 2.016667e+00; - 4.313590e+02; 5.855139e+04; - 4.873584e+06;
        2.605444e+08; - 8.968899e+09; 1.923697e+11; - 2.339920e+12; 1.233014e+13])
  | 3%nat => Some
      ([1.000000e+00; - 4.410575e-06; - 8.884752e+01; - 7.927594e-02; 4.663277e+03;
        - 2.515405e+02; - 1.797134e+05; - 1.904305e+05; 8.999378e+06; - 2.951362e+07],
       [6.387813e-08; - 2.300899e-05; 3.676251e-03; - 1.703282e+02; 2.066461e+01;
        1.704569e+04; 2.316653e+04; - 1.328926e+06; 4.853676e+06; 1.132796e+06])
  | 4%nat => Some
      ([1.000000e+00; - 5.025186e-06; - 1.468976e+02; - 2.520376e-01; 2.048799e+04;
        - 2.224267e+03; - 2.532091e+06; - 4.613480e+06; 3.611911e+08; - 1.891951e+09],
       [- 1.801149e-08; 1.123280e-05; - 3.126902e-03; 4.655245e+02; - 5.431878e+01;
        - 1.477730e+05; - 1.922110e+05; 2.795761e+07; - 1.290046e+08; - 4.656951e+08])
  | _ => None
  end.
(** CaviMlp_EDipole: coefficients of T and S for the cavity types that have them,
    rf_cavity.cpp:483-502. *)
Definition mlp_EDipole (cavi : nat) : option (list R * list R) :=
  match cavi with
  | 1%nat => Some
      ([- 1.005885e+00; 1.526489e+00; - 1.047651e+02; 1.125013e+04; - 4.669147e+05;
        1.255841e+07; - 2.237287e+08; 2.535541e+09; - 1.656906e+10; 4.758398e+10],
       [- 2.586200e-02; 5.884367e+00; - 6.407538e+02; 3.888964e+04; - 1.488484e+06;
        3.782592e+07; - 6.361033e+08; 6.817810e+09; - 4.227114e+10; 1.155597e+11])
  | 2%nat => Some
      ([- 9.999028e-01; - 6.783669e-02; 1.415756e+02; - 2.950990e+03; 2.640980e+05;
        - 1.570742e+07; 5.770450e+08; - 1.303686e+10; 1.654958e+11; - 9.030017e+11],
       [2.108581e-04; - 3.700608e-01; 2.851611e+01; - 3.502994e+03; 2.983061e+05;
        - 1.522679e+07; 4.958029e+08; - 1.002040e+10; 1.142835e+11; - 5.617061e+11])
  | _ => None
  end.
(** CaviMlp_EQuad: coefficients of T and S for the cavity types that have them,
    rf_cavity.cpp:503-529. *)
Definition mlp_EQuad (cavi : nat) : option (list R * list R) :=
  match cavi with
  | 1%nat => Some
      ([1.038941e+00; - 9.238897e+00; 9.127945e+02; - 5.779110e+04; 2.206120e+06;
        - 5.544764e+07; 9.192347e+08; - 9.691159e+09; 5.896915e+10; - 1.578312e+11],
       [1.248096e-01; - 2.923507e+01; 3.069331e+03; - 1.848380e+05; 7.094882e+06;
        - 1.801113e+08; 3.024208e+09; - 3.239241e+10; 2.008767e+11; - 5.496217e+11])
  | 2%nat => Some
      ([1.000003e+00; - 1.015639e-03; - 1.215634e+02; 1.720764e+01; 3.921401e+03;
        2.674841e+05; - 1.236263e+07; 3.128128e+08; - 4.385795e+09; 2.594631e+10],
       [- 1.756250e-05; 2.603597e-01; - 2.551122e+00; - 4.840638e+01; - 2.870201e+04;
        1.552398e+06; - 5.135200e+07; 1.075958e+09; - 1.277425e+10; 6.540748e+10])
  | 3%nat => Some
      ([1.000000e+00; 6.239107e-06; - 1.697479e+02; 3.444883e-02; 1.225241e+04;
        - 1.663533e+02; - 5.526645e+05; - 3.593353e+05; 2.749580e+07; - 9.689870e+07],
       [2.128708e-07; - 7.985618e-05; 1.240259e-02; - 3.211339e+02; 7.098731e+01;
        3.474652e+04; 8.187145e+04; - 3.731688e+06; 1.802053e+07; - 1.819958e+07])
  | 4%nat => Some
      ([9.998746e-01; - 2.431292e-05; - 5.019138e+02; - 1.176338e+00; 1.006054e+05;
        - 9.908805e+03; - 1.148028e+07; - 1.922707e+07; 1.432258e+09; - 7.054482e+09],
       [6.003340e-08; - 1.482633e-02; 1.037590e-02; - 2.235440e+03; 1.790006e+02;
        6.456882e+05; 6.261020e+05; - 1.055477e+08; 4.110502e+08; 2.241301e+09])
  | _ => None
  end.
(** CaviMlp_HMono: coefficients of T and S for the cavity types that have them,
    rf_cavity.cpp:530-556. *)
Definition mlp_HMono (cavi : nat) : option (list R * list R) :=
  match cavi with
  | 1%nat => Some
      ([1.703336e+00; - 1.671357e+02; 1.697657e+04; - 9.843253e+05; 3.518178e+07;
        - 8.043084e+08; 1.165760e+10; - 1.014721e+11; 4.632851e+11; - 7.604796e+11],
       [1.452657e+01; - 3.409550e+03; 3.524921e+05; - 2.106663e+07; 8.022856e+08;
        - 2.019481e+10; 3.360597e+11; - 3.565836e+12; 2.189668e+13; - 5.930241e+13])
  | 2%nat => Some
      ([1.003228e+00; - 1.783406e+00; 1.765330e+02; - 5.326467e+04; 4.242623e+06;
        - 2.139672e+08; 6.970488e+09; - 1.411958e+11; 1.617248e+12; - 8.000662e+12],
       [- 1.581533e-03; 1.277444e+00; - 2.742508e+02; 3.966879e+04; - 3.513478e+06;
        1.962939e+08; - 6.991916e+09; 1.539708e+11; - 1.910236e+12; 1.021016e+13])
  | 3%nat => Some
      ([9.999990e-01; 3.477993e-04; - 2.717994e+02; 4.554376e+00; 3.083481e+04;
        8.441315e+03; - 2.439843e+06; 1.322379e+06; 1.501750e+08; - 6.822135e+08],
       [1.709084e-06; - 6.240506e-04; 1.013278e-01; - 2.649338e+02; 5.944163e+02;
        4.588900e+04; 7.110518e+05; - 2.226574e+07; 1.658524e+08; - 3.976459e+08])
  | 4%nat => Some
      ([1.000000e+00; - 4.358956e-05; - 7.923870e+02; - 2.472669e+00; 2.241378e+05;
        - 2.539286e+04; - 3.385480e+07; - 6.375134e+07; 5.652166e+09; - 3.355877e+10],
       [1.163146e-07; - 7.302018e-05; 2.048587e-02; - 3.689694e+02; 3.632907e+02;
        1.757838e+05; 1.327057e+06; - 9.520645e+07; 9.406709e+08; - 2.139562e+09])
  | _ => None
  end.
(** CaviMlp_HDipole: coefficients of T and S for the cavity types that have them,
    rf_cavity.cpp:557-576. *)
Definition mlp_HDipole (cavi : nat) : option (list R * list R) :=
  match cavi with
  | 1%nat => Some
      ([6.853803e-01; 7.075414e+01; - 7.117391e+03; 3.985674e+05; - 1.442888e+07;
        3.446369e+08; - 5.420826e+09; 5.414689e+10; - 3.116216e+11; 7.869717e+11],
       [1.021102e+00; - 2.441117e+02; 2.575274e+04; - 1.569273e+06; 6.090118e+07;
        - 1.562284e+09; 2.649289e+10; - 2.864139e+11; 1.791634e+12; - 4.941947e+12])
  | 2%nat => Some
      ([1.014129e+00; - 8.016304e+00; 1.631339e+03; - 2.561826e+05; 2.115355e+07;
        - 1.118723e+09; 3.821029e+10; - 8.140248e+11; 9.839613e+12; - 5.154137e+13],
       [- 4.688714e-03; 3.299051e+00; - 8.101936e+02; 1.163814e+05; - 1.017331e+07;
        5.607330e+08; - 1.967300e+10; 4.261388e+11; - 5.194592e+12; 2.725370e+13])
  | _ => None
  end.
(** CaviMlp_HQuad: coefficients of T and S for the cavity types that have them,
    rf_cavity.cpp:577-603. *)
Definition mlp_HQuad (cavi : nat) : option (list R * list R) :=
  match cavi with
  | 1%nat => Some
      ([- 1.997432e+00; 2.439177e+02; - 2.613724e+04; 1.627837e+06; - 6.429625e+07;
        1.676173e+09; - 2.885455e+10; 3.163675e+11; - 2.005326e+12; 5.600545e+12],
       [- 2.470704e+00; 5.862902e+02; - 6.135071e+04; 3.711527e+06; - 1.431267e+08;
        3.649414e+09; - 6.153570e+10; 6.617859e+11; - 4.119861e+12; 1.131390e+13])
  | 2%nat => Some
      ([- 1.000925e+00; 5.170302e-01; 9.311761e+01; 1.591517e+04; - 1.302247e+06;
        6.647808e+07; - 2.215417e+09; 4.603390e+10; - 5.420873e+11; 2.764042e+12],
       [3.119419e-04; - 4.540868e-01; 5.433028e+01; - 7.571946e+03; 6.792565e+05;
        - 3.728390e+07; 1.299263e+09; - 2.793705e+10; 3.377097e+11; - 1.755126e+12])
  | 3%nat => Some
      ([- 9.999997e-01; - 1.049624e-04; 2.445420e+02; - 1.288731e+00; - 2.401575e+04;
        - 1.972894e+03; 1.494708e+06; 2.898145e+05; - 8.782506e+07; 3.566907e+08],
       [- 7.925695e-07; 2.884963e-04; - 4.667266e-02; 2.950936e+02; - 2.712131e+02;
        - 4.260259e+04; - 3.199682e+05; 1.103376e+07; - 7.304474e+07; 1.479036e+08])
  | 4%nat => Some
      ([- 1.000000e+00; 4.357777e-05; 7.605879e+02; 2.285787e+00; - 2.009415e+05;
        2.149581e+04; 2.773856e+07; 4.886782e+07; - 4.127019e+09; 2.299278e+10],
       [- 1.483304e-07; 9.278457e-05; - 2.592071e-02; 1.690272e+03; - 4.545599e+02;
        - 6.192487e+05; - 1.632321e+06; 1.664856e+08; - 1.124066e+09; - 3.121299e+08])
  | _ => None
  end.
(** The coefficients by name. *)
Definition mlp_table (name : string) (cavi : nat) : option (list R * list R) :=
  if String.eqb name "CaviMlp_EFocus1" then mlp_EFocus1 cavi
  else if String.eqb name "CaviMlp_EFocus2" then mlp_EFocus2 cavi
  else if String.eqb name "CaviMlp_EDipole" then mlp_EDipole cavi
  else if String.eqb name "CaviMlp_EQuad" then mlp_EQuad cavi
  else if String.eqb name "CaviMlp_HMono" then mlp_HMono cavi
  else if String.eqb name "CaviMlp_HDipole" then mlp_HDipole cavi
  else if String.eqb name "CaviMlp_HQuad" then mlp_HQuad cavi
  else None.
(** get_column, rf_cavity.cpp:106-129. *)
Definition get_column (name : string) : res nat :=
  if String.eqb name "CaviMlp_EFocus1" then Ok 3%nat
  else if String.eqb name "CaviMlp_EFocus2" then Ok 4%nat
  else if String.eqb name "CaviMlp_EDipole" then Ok 2%nat
  else if String.eqb name "CaviMlp_EQuad" then Ok 5%nat
  else if String.eqb name "CaviMlp_HMono" then Ok 7%nat
  else if String.eqb name "CaviMlp_HDipole" then Ok 6%nat
  else if String.eqb name "CaviMlp_HQuad" then Ok 8%nat
  else Throw RuntimeError.
(** rf_cavity.cpp:418-421. *)
Definition mlp_range (cavi : nat) : option (R * R) :=
  match cavi with
  | 1%nat => Some (0.025, 0.055)
  | 2%nat => Some (0.006, 0.035)
  | 3%nat => Some (0.01687155, 0.0449908)
  | 4%nat => Some (0.0112477, 0.0224954)
  | _ => None
  end.
(** TransitFacMultipole, rf_cavity.cpp:407-609: T and S.  A type without a case for
    the label leaves them at zero, except that dipoles throw. *)
Definition transit_multipole (cv : cavity) (name : string) (K : R) : res (R * R) :=
  let computed := rbind (get_column name) (fun col =>
                  rbind (cal_transfac (cv_mlp cv) col 0 K false) (fun t => Ok (t_T t, t_S t))) in
  let table :=
    match mlp_table name (cv_cavi cv) with
    | Some (a, b) => Ok (pwr_series K a, pwr_series K b)
    | None =>
        if (String.eqb name "CaviMlp_EDipole" || String.eqb name "CaviMlp_HDipole")%bool then Throw RuntimeError
        else match get_column name with Ok _ => Ok (0, 0) | Throw e => Throw e end
    end in
  if cv_force cv then computed
  else
    match mlp_range (cv_cavi cv) with
    | Some (lo, hi) => if Rlt_dec K lo then computed else if Rlt_dec hi K then computed else table
    | None => table
    end.

(** ** Longitudinal motion *)
(** lambda = C0/fRF*MtoMM. *)
Definition cav_lambda (cv : cavity) : R := C0 / cv_f cv * MtoMM.

(** One step of the loop of GetCavBoost, rf_cavity.cpp:1485-1501: phase, energy and
    CaviIonK.  CaviIonK is None after a division by IonBeta = 0: the next phase is
    infinite or NaN, its cosine NaN, and so are energy, gamma and beta from then on
    (the comparison is false); the step then gives None. *)
Definition boost_step (Z Es scl lambda dz : R) (EE : R * R) (x : option (R * R * option R))
  : option (R * R * option R) :=
  match x with
  | Some (Fy, W, Some k) =>
      let Fy' := Fy + k * dz in
      let W' := W + Z * scl * (fst EE + snd EE) / 2 * cos ((Fy + Fy') / 2) * dz / MtoMM in
      let gamma := W' / Es in
      let beta := sqrt (1 - 1 / sqr gamma) in
      let '(W', beta) := if Rlt_dec (W' - Es) 0 then (Es, 0) else (W', beta) in
      Some (Fy', W', if Req_EM_T beta 0 then None else Some (2 * PI / (beta * lambda)))
  | _ => None
  end.
(** GetCavBoost, rf_cavity.cpp:1467-1507: IonW and IonFy afterwards; None: they are
    NaN (the phase may also be infinite).  [rows] are position and field. *)
Definition boost_loop (Z Es scl lambda dz : R) (fields : list R) (x : option (R * R * option R))
  : option (R * R * option R) :=
  fold_left (fun x EE => boost_step Z Es scl lambda dz EE x) (combine fields (tl fields)) x.
Definition boost (asserts : bool) (cv : cavity) (p : particle) (W Fy0 scl : R) : res (option (R * R)) :=
  let rows := cv_data cv in
  let n := List.length rows in
  if (asserts && Nat.leb n 1)%bool then Throw Abort
  else if Nat.eqb n 0 then Throw BadIndex
  else if Rle_dec (p_Es p) 0 then Throw NotFinite
  else if Req_EM_T (cv_f cv) 0 then Throw NotFinite
  else
    let dis := fst (nth (n - 1) rows (0, 0)) - fst (nth 0 rows (0, 0)) in
    let dz := dis / INR (n - 1) in
    let k := if Req_EM_T (p_beta p) 0 then None else Some (2 * PI * cv_f cv / (p_beta p * C0 * MtoMM)) in
    Ok (match boost_loop (p_Z p) (p_Es p) scl (cav_lambda cv) dz (map snd rows) (Some (Fy0, W, k)) with
        | Some (Fy, W', _) => Some (W', Fy)
        | None => None
        end).

(** GetCavPhase, rf_cavity.cpp:613-648. *)
Definition cav_phase (cv : cavity) (ref : particle) (multip : R) : res R :=
  let Ek := (p_W ref - p_Es ref) / MeVtoeV in
  let fit a b c := rbind (fpow Ek b) (fun x => Ok (a * x + c)) in
  rbind
    match cv_cavi cv with
    | 1%nat => fit 4.394 (- 0.4965) (- 4.731)
    | 2%nat => fit 5.428 (- 0.5008) 1.6
    | 3%nat => fit 22.35 (- 0.5348) 2.026
    | 4%nat => fit 41.43 (- 0.5775) 2.59839
    | 5%nat => fit 5.428 (- 0.5008) 1.6
    | 0%nat => match cv_syn cv with
               | a :: b :: c :: _ => fit a b (- c)
               | _ => Throw BadIndex
               end
    | _ => Throw RuntimeError
    end
    (fun Fyc => Ok (cv_phi cv - Fyc - p_phis ref * multip)).
(** The sum of GetCavPhaseComplex, rf_cavity.cpp:664-668. *)
Fixpoint complex_sum (Ek scale : R) (i : Z) (P : list R) (acc : R) : res R :=
  match P with
  | a :: b :: c :: d :: e :: P' =>
      match ipow scale i with
      | None => Throw Abort
      | Some s =>
          rbind (fpow Ek b) (fun x =>
          complex_sum Ek scale (i + 1)%Z P' (acc + (a * x + c * ln Ek + d * exp (- Ek) + e) * s))
      end
  | _ => Ok acc
  end.
(** GetCavPhaseComplex, rf_cavity.cpp:652-671. *)
Definition cav_phase_complex (cv : cavity) (ref : particle) (scale multip : R) (P : list R) : res R :=
  if negb (Nat.eqb (List.length P mod 5) 0) then Throw RuntimeError
  else rbind (complex_sum ((p_W ref - p_Es ref) / MeVtoeV) scale 0 P 0)
             (fun Fyc => Ok (cv_phi cv - Fyc - p_phis ref * multip)).

(** A limit with less than two entries is read beyond its end; the comparison only
    decides on a warning (rf_cavity.cpp:1517-1521, 1527-1531). *)
Definition check_limit (l : option (list R)) : res unit :=
  match l with Some (_ :: _ :: _) | None => Ok tt | _ => Throw BadIndex end.

Section Cavity.
Variable w : world.
Notation num := (w_num w).
Notation asserts := (w_asserts w).

(** The driven phase, rf_cavity.cpp:1512-1538. *)
Definition driven_phase (cv : cavity) (c : tcfg) (ref : particle) (scl : R) : res R :=
  let fsync := num_def w c "syncflag" 1 in
  let multip := cv_f cv / p_freq ref in
  rbind (if Nat.eqb (cv_cavi cv) 0 then check_limit (cv_eklim cv) else Ok tt) (fun _ =>
  if Rle_dec 1 fsync then
    match Nat.eqb (cv_cavi cv) 0, cv_nrm cv, cv_cx cv, Reqb fsync 1 with
    | true, Some nrm, Some P, true =>
        rbind (fdiv (scl * p_Z ref) nrm) (fun scale =>
        rbind (check_limit (cv_nrlim cv)) (fun _ =>
        cav_phase_complex cv ref scale multip P))
    | _, _, _, _ => cav_phase cv ref multip
    end
  else rbind (num_of w c "phi") (fun x => Ok (x * PI / 180))).

(** The particle after GetCavBoost, rf_cavity.cpp:1555-1558, 1666-1668. *)
Definition boosted (p : particle) (W dFy multip : R) : particle :=
  add_phis (recalc (set_Ek p (W - p_Es p))) (dFy / multip).

(** PropagateLongRFCav, rf_cavity.cpp:1510-1559. *)
Definition propagate_long (cv : cavity) (c : tcfg) (ref : particle) : res (particle * R) :=
  let multip := cv_f cv / p_freq ref in
  rbind (num_of w c "scl_fac") (fun scl =>
  if Req_EM_T (p_freq ref) 0 then Throw NotFinite else
  rbind (driven_phase cv c ref scl) (fun Fy =>
  let Fyi := multip * p_phis ref + Fy in
  rbind (boost asserts cv ref (p_W ref) Fyi scl) (fun o =>
  match o with
  | Some (W, Fyo) => Ok (boosted ref W (Fyo - Fyi) multip, Fy)
  | None => Throw NotFinite
  end))).

(** ** Matrices *)
(** sqrt(1 - 1/gamma^2) where the code goes on to divide by it. *)
Definition beta_of (gamma : R) : res R :=
  if Rlt_dec 1 (sqr gamma) then Ok (sqrt (1 - 1 / sqr gamma)) else Throw NotFinite.

(** One entry of Idmat replaced, two entries replaced. *)
Definition one_at (i j : nat) (x : R) : mat := mset mid i j x.
Definition two_at (i j : nat) (x : R) (k l : nat) (y : R) : mat := mset (mset mid i j x) k l y.

(** M = Mtrans with the longitudinal block of Mlon, rf_cavity.cpp:1223-1228,
    1449-1453. *)
Definition join (Mtrans Mlon : mat) : mat :=
  let M := mset Mtrans 4 4 (Mlon 4%nat 4%nat) in
  let M := mset M 4 5 (Mlon 4%nat 5%nat) in
  let M := mset M 5 4 (Mlon 5%nat 4%nat) in
  mset M 5 5 (Mlon 5%nat 5%nat).

(** The kicks of a piece: E fields as in rf_cavity.cpp:1333, 1357, 1368, H fields as
    in 1381, 1394, 1405. *)
Definition e_kick (Z V0 beta gamma T S Fy : R) : R :=
  Z * V0 / sqr beta / gamma / 1 / AU * (T * cos Fy - S * sin Fy).
Definition h_kick (Z V0 beta gamma T S Fy : R) : R :=
  - MU0 * C0 * Z * V0 / beta / gamma / 1 / AU * (T * cos (Fy + PI / 2) - S * sin (Fy + PI / 2)).

(** What the loop of GetCavMatGeneric carries along. *)
Record gen := mkGen {
  g_W : R; g_gamma : R; g_beta : R; g_Fy : R; g_k : R; g_Mt : mat; g_Ml : mat }.
Definition on_trans (g : gen) (P : mat) : gen :=
  mkGen (g_W g) (g_gamma g) (g_beta g) (g_Fy g) (g_k g) (mmul msize P (g_Mt g)) (g_Ml g).

(** One piece of a Generic cavity, rf_cavity.cpp:1316-1446. *)
Definition gen_step (cv : cavity) (p : particle) (scl : R) (P : rawp) (g : gen) : res gen :=
  let lam := cav_lambda cv in
  let V0 := r_E0 P * scl in
  let fits := rbind (fit_pow (g_k g) (r_T P)) (fun T => rbind (fit_pow (g_k g) (r_S P)) (fun S => Ok (T, S))) in
  let focus (lvl : N) (kick : R -> R -> R) (sy : R) : res gen :=
    if N.ltb (cv_mp cv) lvl then Ok g
    else rbind fits (fun '(T, Sf) =>
         rbind (fdiv (kick T Sf) (cv_Rm cv)) (fun k => Ok (on_trans g (two_at 1 0 k 3 2 (sy * k))))) in
  let dipole (kick : R -> R -> R) : res gen :=
    if N.ltb (cv_mp cv) 1 then Ok g
    else rbind fits (fun '(T, Sf) => Ok (on_trans g (one_at 3 6 (kick T Sf)))) in
  let E T S := e_kick (p_Z p) V0 (g_beta g) (g_gamma g) T S (g_Fy g) in
  let H T S := h_kick (p_Z p) V0 (g_beta g) (g_gamma g) T S (g_Fy g) in
  if String.eqb (r_type P) "drift" then
    let Ml := one_at 4 5 (- 2 * PI / lam * (1 / cube (g_beta g * g_gamma g) * MeVtoeV / p_Es p * r_len P)) in
    Ok (mkGen (g_W g) (g_gamma g) (g_beta g) (g_Fy g + g_k g * r_len P) (g_k g)
              (mmul msize (two_at 0 1 (r_len P) 2 3 (r_len P)) (g_Mt g)) (mmul msize Ml (g_Ml g)))
  else if String.eqb (r_type P) "EFocus" then focus 0%N E 1
  else if String.eqb (r_type P) "EDipole" then dipole E
  else if String.eqb (r_type P) "EQuad" then focus 2%N E (-1)
  else if String.eqb (r_type P) "HMono" then focus 2%N H 1
  else if String.eqb (r_type P) "HDipole" then dipole H
  else if String.eqb (r_type P) "HQuad" then focus 2%N H (-1)
  else if String.eqb (r_type P) "AccGap" then
    rbind fits (fun '(T, Sf) =>
    let W := g_W g + p_Z p * V0 * MeVtoeV * T * cos (g_Fy g) - p_Z p * V0 * MeVtoeV * Sf * sin (g_Fy g) in
    let gamma := W / p_Es p in
    rbind (beta_of gamma) (fun beta =>
    let a := (g_beta g * g_gamma g) / (beta * gamma) in
    Ok (mkGen W gamma beta (g_Fy g) (2 * PI / (beta * lam))
              (mmul msize (two_at 1 1 a 3 3 a) (g_Mt g))
              (mmul msize (one_at 5 4 (- p_Z p * V0 * T * sin (g_Fy g) - p_Z p * V0 * Sf * cos (g_Fy g))) (g_Ml g)))))
  else Throw RuntimeError.
Fixpoint gen_loop (cv : cavity) (p : particle) (scl : R) (l : list rawp) (g : gen) : res gen :=
  match l with
  | [] => Ok g
  | P :: l' => rbind (gen_step cv p scl P g) (gen_loop cv p scl l')
  end.
(** GetCavMatGeneric, rf_cavity.cpp:1293-1454. *)
Definition gen_matrix (cv : cavity) (p : particle) (scl Fy0 Ek0 : R) : res mat :=
  let W := Ek0 + p_Es p in
  let gamma := W / p_Es p in
  rbind (beta_of gamma) (fun beta =>
  if (asserts && negb (if Rlt_dec 0 (cv_Rm cv) then true else false))%bool then Throw Abort
  else
    rbind (gen_loop cv p scl (cv_lat cv)
             (mkGen W gamma beta Fy0 (2 * PI / (beta * cav_lambda cv)) mid mid))
          (fun g => Ok (join (g_Mt g) (g_Ml g)))).

(** EvalGapModel, rf_cavity.cpp:675-689: energy and phase after the gap. *)
Definition eval_gap (dis W0 : R) (p : particle) (Fy0 k lam : R) (t : ttf) : res (R * R) :=
  let a := Fy0 + k * t_Ecen t in
  let W := W0 + p_Z p * t_V0 t * t_T t * cos a * MeVtoeV - p_Z p * t_V0 t * t_S t * sin a * MeVtoeV in
  rbind (beta_of (W / p_Es p)) (fun beta =>
  let k_f := 2 * PI / (beta * lam) in
  rbind (fdiv (p_Z p * t_V0 t * k * (t_Tp t * sin a + t_Sp t * cos a)) (2 * (W0 - p_Es p) / MeVtoeV)) (fun x =>
  Ok (W, Fy0 + k * t_Ecen t + k_f * (dis - t_Ecen t) + x))).

(** A line of CavTLMLineType as far as it is used. *)
Record tlm := mkTlm { l_E0 : R; l_T : R; l_S : R; l_Accel : R }.
(** One piece of GetCavMatParams, rf_cavity.cpp:893-990; [s] is the position after
    it. *)
Definition params_step (cv : cavity) (b g k : nat -> R) (s : R) (P : rawp) : res tlm :=
  let first := if Rlt_dec s 0 then true else false in
  let mp (lvl : N) (n1 n2 : string) (f : R * R -> R * R) : res tlm :=
    if N.ltb (cv_mp cv) lvl then Ok (mkTlm (r_E0 P) 0 0 0)
    else rbind (if first then rbind (transit_multipole cv n1 (k 0%nat)) (fun x => Ok (f x))
                else transit_multipole cv n2 (k 1%nat))
               (fun '(T, Sf) => Ok (mkTlm (r_E0 P) T Sf 0)) in
  let e '(T, Sf) := (T, - Sf) in
  let h '(T, Sf) := (- T, Sf) in
  if String.eqb (r_type P) "drift" then Ok (mkTlm 0 0 0 0)
  else if String.eqb (r_type P) "EFocus1" then mp 0%N "CaviMlp_EFocus2" "CaviMlp_EFocus1" e
  else if String.eqb (r_type P) "EFocus2" then mp 0%N "CaviMlp_EFocus1" "CaviMlp_EFocus2" e
  else if String.eqb (r_type P) "EDipole" then mp 1%N "CaviMlp_EDipole" "CaviMlp_EDipole" e
  else if String.eqb (r_type P) "EQuad" then mp 2%N "CaviMlp_EQuad" "CaviMlp_EQuad" e
  else if String.eqb (r_type P) "HMono" then mp 2%N "CaviMlp_HMono" "CaviMlp_HMono" h
  else if String.eqb (r_type P) "HDipole" then mp 1%N "CaviMlp_HDipole" "CaviMlp_HDipole" h
  else if String.eqb (r_type P) "HQuad" then mp 2%N "CaviMlp_HQuad" "CaviMlp_HQuad" h
  else if String.eqb (r_type P) "AccGap" then
    Ok (mkTlm 0 0 0 (if first then (b 0%nat * g 0%nat) / (b 1%nat * g 1%nat)
                     else (b 1%nat * g 1%nat) / (b 2%nat * g 2%nat)))
  else Throw RuntimeError.
Fixpoint params_loop (cv : cavity) (b g k : nat -> R) (s : R) (l : list rawp) : res (list tlm) :=
  match l with
  | [] => Ok []
  | P :: l' =>
      let s := s + r_len P in
      rbind (params_step cv b g k s P) (fun x => rbind (params_loop cv b g k s l') (fun r => Ok (x :: r)))
  end.
(** GetCavMatParams, rf_cavity.cpp:881-998. *)
Definition cav_params (cv : cavity) (b g k : nat -> R) : res (list tlm) :=
  match cv_lat cv, cv_data cv with
  | [], _ => Throw RuntimeError
  | _, [] => Throw BadIndex
  | l, (z0, _) :: _ => params_loop cv b g k z0 l
  end.

(** What the transverse loop of GenCavMat2 carries along. *)
Record two := mkTwo { h_seg : nat; h_beta : R; h_gamma : R; h_Fy : R; h_k : R; h_Mt : mat }.
Definition on_two (x : two) (P : mat) : two :=
  mkTwo (h_seg x) (h_beta x) (h_gamma x) (h_Fy x) (h_k x) (mmul msize P (h_Mt x)).
(** One piece, rf_cavity.cpp:1081-1217; [b] and [g] are beta_tab and gamma_tab, of
    three entries. *)
Definition two_step (cv : cavity) (p : particle) (scl Rm : R) (b g : nat -> R) (s : R) (P : rawp) (l : tlm)
  (x : two) : res two :=
  let V0 := l_E0 l * scl in
  let E := e_kick (p_Z p) V0 (h_beta x) (h_gamma x) (l_T l) (l_S l) (h_Fy x) in
  let H beta gamma := h_kick (p_Z p) V0 beta gamma (l_T l) (l_S l) (h_Fy x) in
  let focus (lvl : N) (kick sy : R) : res two :=
    if N.ltb (cv_mp cv) lvl then Ok x else Ok (on_two x (two_at 1 0 (kick / Rm) 3 2 (sy * (kick / Rm)))) in
  let dipole (kick : R) : res two :=
    if N.ltb (cv_mp cv) 1 then Ok x else Ok (on_two x (one_at 3 6 kick)) in
  if String.eqb (r_type P) "drift" then
    Ok (mkTwo (h_seg x) (h_beta x) (h_gamma x) (h_Fy x + h_k x * r_len P) (h_k x)
              (mmul msize (two_at 0 1 (r_len P) 2 3 (r_len P)) (h_Mt x)))
  else if String.eqb (r_type P) "EFocus1" then focus 0%N E 1
  else if String.eqb (r_type P) "EFocus2" then focus 0%N E 1
  else if String.eqb (r_type P) "EDipole" then dipole E
  else if String.eqb (r_type P) "EQuad" then focus 2%N E (-1)
  else if String.eqb (r_type P) "HMono" then focus 2%N (H (h_beta x) (h_gamma x)) 1
  else if String.eqb (r_type P) "HDipole" then dipole (H (h_beta x) (h_gamma x))
  else if String.eqb (r_type P) "HQuad" then
    if N.ltb (cv_mp cv) 2 then Ok x
    else
      let i := if Rlt_dec s 0 then 0%nat else 1%nat in
      let beta := (b i + b (S i)) / 2 in
      let gamma := (g i + g (S i)) / 2 in
      if (if Req_EM_T gamma 0 then true else false) then Throw NotFinite else
      let k := H beta gamma / Rm in
      Ok (mkTwo (h_seg x) beta gamma (h_Fy x) (h_k x) (mmul msize (two_at 1 0 k 3 2 (- k)) (h_Mt x)))
  else if String.eqb (r_type P) "AccGap" then
    let seg := S (h_seg x) in
    if Nat.ltb 2 seg then Throw BadIndex
    else
      Ok (mkTwo seg (b seg) (g seg) (h_Fy x) (2 * PI / (b seg * cav_lambda cv))
                (mmul msize (two_at 1 1 (l_Accel l) 3 3 (l_Accel l)) (h_Mt x)))
  else Throw RuntimeError.
Fixpoint two_loop (cv : cavity) (p : particle) (scl Rm : R) (b g : nat -> R) (s : R)
  (l : list (rawp * tlm)) (x : two) : res two :=
  match l with
  | [] => Ok x
  | (P, t) :: l' =>
      let s := s + r_len P in
      rbind (two_step cv p scl Rm b g s P t x) (two_loop cv p scl Rm b g s l')
  end.
(** A drift and a kick in the longitudinal plane, rf_cavity.cpp:1038-1041, 1054-1055,
    1060. *)
Definition lon_drift (cv : cavity) (p : particle) (beta gamma L : R) : mat :=
  one_at 4 5 (- 2 * PI / cav_lambda cv * (1 / cube (beta * gamma) * MeVtoeV / p_Es p * L)).
Definition lon_kick (p : particle) (t : ttf) (a : R) : mat :=
  one_at 5 4 (- p_Z p * t_V0 t * t_T t * sin a - p_Z p * t_V0 t * t_S t * cos a).
(** GenCavMat2, rf_cavity.cpp:1001-1228.  [t0] has Ecen relative to the middle. *)
Definition two_gap_matrix (cv : cavity) (dis scl Rm : R) (p : particle) (b g Fy : nat -> R) (t0 t1 : ttf)
  (lines : list tlm) : res mat :=
  let ks i := 2 * PI / (b i * cav_lambda cv) in
  let L1 := dis + t_Ecen t0 in
  let L2 := t_Ecen t1 - t_Ecen t0 in
  let L3 := dis - t_Ecen t1 in
  let Ml := mmul msize (lon_kick p t0 (Fy 0%nat + 0.5 * (ks 0%nat + ks 1%nat) * L1)) (lon_drift cv p (b 0%nat) (g 0%nat) L1) in
  let Ml := mmul msize (lon_drift cv p (b 1%nat) (g 1%nat) L2) Ml in
  let Ml := mmul msize (lon_kick p t1 (Fy 1%nat + 0.5 * (ks 1%nat + ks 2%nat) * t_Ecen t1)) Ml in
  let Ml := mmul msize (lon_drift cv p (b 2%nat) (g 2%nat) L3) Ml in
  match cv_data cv with
  | [] => Throw BadIndex
  | (z0, _) :: _ =>
      rbind (two_loop cv p scl Rm b g z0 (combine (cv_lat cv) lines)
               (mkTwo 0 (b 0%nat) (g 0%nat) (Fy 0%nat) (ks 0%nat) mid))
            (fun x => Ok (join (h_Mt x) Ml))
  end.

(** Three values indexed. *)
Definition tab3 (x y z : R) (i : nat) : R := match i with 0%nat => x | 1%nat => y | _ => z end.
(** GetCavMat, rf_cavity.cpp:1231-1290. *)
Definition cav_matrix (cv : cavity) (label : nat) (Rm : R) (p : particle) (scl Fy0 Ek0 : R) : res mat :=
  let lam := cav_lambda cv in
  let W0 := Ek0 + p_Es p in
  let g0 := W0 / p_Es p in
  let rows := cv_data cv in
  let n := List.length rows in
  if Nat.eqb n 0 then Throw (if asserts then Abort else BadIndex)
  else
    let dis := (fst (nth (n - 1) rows (0, 0)) - fst (nth 0 rows (0, 0))) / 2 in
    rbind (beta_of g0) (fun b0 =>
    let k0 := 2 * PI / (b0 * lam) in
    rbind (trans_facts cv label b0 k0 1 scl) (fun t0 =>
    rbind (eval_gap dis W0 p Fy0 k0 lam t0) (fun '(W1, Fy1) =>
    let g1 := W1 / p_Es p in
    rbind (beta_of g1) (fun b1 =>
    let k1 := 2 * PI / (b1 * lam) in
    rbind (trans_facts cv label b1 k1 2 scl) (fun t1 =>
    rbind (eval_gap dis W1 p Fy1 k1 lam t1) (fun '(W2, Fy2) =>
    let g2 := W2 / p_Es p in
    rbind (beta_of g2) (fun b2 =>
    let k2 := 2 * PI / (b2 * lam) in
    let t0' := mkTTF (t_Ecen t0 - dis) (t_T t0) (t_Tp t0) (t_S t0) (t_Sp t0) (t_V0 t0) in
    let b := tab3 b0 b1 b2 in
    let g := tab3 g0 g1 g2 in
    rbind (cav_params cv b g (tab3 ((k0 + k1) / 2) ((k1 + k2) / 2) 0)) (fun lines =>
    two_gap_matrix cv dis scl Rm p b g (tab3 Fy0 Fy1 Fy2) t0' t1 lines)))))))).

(** cavilabel and Rm, rf_cavity.cpp:1632-1657. *)
Definition label_of (cavi : nat) : res (nat * R) :=
  match cavi with
  | 1%nat => Ok (41%nat, 17)
  | 2%nat => Ok (85%nat, 17)
  | 3%nat => Ok (29%nat, 20)
  | 4%nat | 5%nat => Ok (53%nat, 20)
  | 0%nat => Ok (0%nat, 0)
  | _ => Throw LogicError
  end.
(** The frequency jump, rf_cavity.cpp:1688-1694. *)
Definition freq_jump (multip : R) (M : mat) : mat :=
  if Req_EM_T multip 1 then M
  else fold_left (fun M i => let M := mset M i 4 (M i 4%nat * multip) in
                             mset M 4 i (M 4%nat i / multip)) (seq 0 7) M.

(** InitRFCav, rf_cavity.cpp:1625-1700: the matrix (assigned at the end only) and the
    particle. *)
Definition init_cav (cv : cavity) (c : tcfg) (phi : R) (p : particle) (M0 : mat) : mat * res particle :=
  let multip := cv_f cv / p_freq p in
  let r :=
    rbind (label_of (cv_cavi cv)) (fun '(label, Rm) =>
    if Req_EM_T (p_freq p) 0 then Throw NotFinite else
    let Fyi := multip * p_phis p + phi in
    rbind (num_of w c "scl_fac") (fun scl =>
    rbind (boost asserts cv p (p_Ek p + p_Es p) Fyi scl) (fun o =>
    match o with
    | None => Throw NotFinite
    | Some (W, Fyo) =>
        let p' := boosted p W (Fyo - Fyi) multip in
        rbind (if Nat.ltb 0 (cv_cavi cv) then cav_matrix cv label Rm p' scl Fyi (p_Ek p)
               else gen_matrix cv p' scl Fyi (p_Ek p))
              (fun M => Ok (freq_jump multip M, p'))
    end))) in
  match r with Ok (M, p') => (M, Ok p') | Throw e => (M0, Throw e) end.

(** The growth factors of calRFcaviEmitGrowth, rf_cavity.cpp:1573-1612; [m] is matIn,
    [x] = (aveX2i, cenX, aveY2i, cenY). *)
Definition growth_factors (cv : cavity) (ref p_in p : particle) (m : mat) (x : R * R * R * R) : R * R * R :=
  let '(aveX2i, cenX, aveY2i, cenY) := x in
  let phi := cv_phi cv in
  let lam := cav_lambda cv in
  let accW := p_W p - p_W p_in in
  let ab := (p_beta p + p_beta p_in) / 2 in
  let ag := (p_gamma p + p_gamma p_in) / 2 in
  let E0TL := if Rlt_dec (- 0.0001) (cos phi)
              then if Rlt_dec (cos phi) 0.0001 then 0 else accW / cos phi / p_Z ref
              else accW / cos phi / p_Z ref in
  let D := sqrt (m 4%nat 4%nat) in
  let kpX := - PI * Rabs (p_Z ref) * E0TL / p_Es ref / sqr (ab * ag) / p_beta p / p_gamma p / lam in
  let f d := 15 / sqr d * (3 / sqr d * (sin d / d - cos d) - sin d / d) in
  let g := 0.5 * (1 + (sqr (sin phi) - sqr (cos phi)) * f (2 * D)) in
  let dX := kpX * kpX * (g - sqr (sin phi * f D)) * (aveX2i + cenX * cenX) in
  let fX := if Rlt_dec 0 (dX + m 1%nat 1%nat) then sqrt ((dX + m 1%nat 1%nat) / m 1%nat 1%nat) else 1 in
  let dY := sqr kpX * (g - sqr (sin phi * f D)) * (aveY2i + sqr cenY) in
  let fY := if Rlt_dec 0 (dY + m 3%nat 3%nat) then sqrt ((dY + m 3%nat 3%nat) / m 3%nat 3%nat) else 1 in
  let kpZ := - 2 * kpX * sqr ag in
  let ionK := 2 * PI / (ab * lam) in
  let aveZ2i := sqr D / sqr ionK in
  let dZ := sqr (kpZ * D) * aveZ2i * (sqr (cos phi) / 8 + D * sin phi / 576) in
  let lt := 1 / (ag - 1) / p_Es ref * MeVtoeV in
  let fZ := if Rlt_dec 0 (dZ + m 5%nat 5%nat * sqr lt)
            then sqrt ((dZ + m 5%nat 5%nat * sqr lt) / (m 5%nat 5%nat * sqr lt)) else 1 in
  (fX, fY, fZ).

(** ** Reading the data: LoadCavityFile, rf_cavity.cpp:699-878 *)
Record cavfiles := mkCF {
  cf_table : string -> res (list (list R));  (* numeric_table_cache::fetch *)
  cf_thin : string -> res (list rawp);       (* rf_cavity.cpp:767-800 *)
  cf_gen : string -> res (option tcfg)       (* rf_cavity.cpp:806-823; throws if there is no such
                                                file; None: it does not parse *)
}.
Variable files : cavfiles.

Definition rwhen {A} (b : bool) (e : exn) (r : res A) : res A := if b then Throw e else r.
(** conf->tryGet of a number and of a list. *)
Definition try_num (c : tcfg) (n : string) : option R :=
  match tfind n c with Some (TNum x) => Some (num x) | _ => None end.
Definition try_vec (c : tcfg) (n : string) : option (list R) :=
  match tfind n c with Some (TVec l) => Some (map num l) | _ => None end.

(** One element of a data file, rf_cavity.cpp:829-866: the piece, and SynAccTab
    after it.  attrs[i] beyond the end is undefined. *)
Definition gen_piece (EC : tcfg) (syn : list R) : res (rawp * list R) :=
  rbind (get_str EC "type") (fun t =>
  rbind (num_of w EC "L") (fun L =>
  if String.eqb t "drift" then Ok (mkRaw t L 0 [] [], syn)
  else
    rbind (num_of w EC "V0") (fun V0 =>
    let attrs := match try_vec EC "attr" with Some l => l | None => [] end in
    rwhen (Nat.ltb (List.length attrs) 20) BadIndex (
    let P := mkRaw t L V0 (firstn 10 attrs) (firstn 10 (skipn 10 attrs)) in
    if (String.eqb t "AccGap" && Nat.eqb (List.length syn) 0)%bool then
      rwhen (Nat.ltb (List.length attrs) 23) BadIndex (Ok (P, firstn 3 (skipn 20 attrs)))
    else Ok (P, syn))))).
Fixpoint gen_pieces (l : list tcfg) (syn : list R) : res (list rawp * list R) :=
  match l with
  | [] => Ok ([], syn)
  | EC :: l' =>
      rbind (gen_piece EC syn) (fun '(P, syn) =>
      rbind (gen_pieces l' syn) (fun '(r, syn) => Ok (P :: r, syn)))
  end.

(** rf_cavity.cpp:720-745: the three files of a cavity type. *)
Definition cav_files (t : string) : option (nat * (string * (string * string))) :=
  let f n := ("/axisData_" ++ n ++ ".txt", ("/Multipole" ++ n ++ "/thinlenlon_" ++ n ++ ".txt",
              "/Multipole" ++ n ++ "/CaviMlp_" ++ n ++ ".txt"))%string in
  if String.eqb t "0.041QWR" then Some (1%nat, f "41"%string)
  else if String.eqb t "0.085QWR" then Some (2%nat, f "85"%string)
  else if String.eqb t "0.29HWR" then Some (3%nat, f "29"%string)
  else if String.eqb t "0.53HWR" then Some (4%nat, f "53"%string)
  else None.

(** LoadCavityFile, rf_cavity.cpp:699-878. *)
Definition load_cavity (c : tcfg) : res cavity :=
  rbind (num_of w c "f") (fun f =>
  rbind (num_of w c "phi") (fun phi =>
  let phi := phi * PI / 180 in
  let Rm := num_def w c "Rm" 0 in
  let force := negb (Reqb (num_def w c "forcettfcalc" 0) 0) in
  rbind (get_flag w c "MpoleLevel" 2) (fun mp =>
  rbind (get_flag w c "EmitGrowth" 0) (fun eg =>
  rwhen (N.ltb 2 mp) RuntimeError (
  rwhen (N.ltb 1 eg) RuntimeError (
  rbind (get_str c "cavtype") (fun t =>
  let dir := get_str_def c "Eng_Data_Dir" (w_defpath w) in
  match cav_files t with
  | Some (cavi, (fld, (thin, mlp))) =>
      let fetch n (cols : nat) :=
        match cf_table files (dir ++ n)%string with
        | Ok rows =>
            rwhen (Nat.eqb (List.length rows) 0 ||
                   negb (forallb (fun r => Nat.leb cols (List.length r)) rows)) RuntimeError (Ok rows)
        | Throw _ => Throw RuntimeError
        end in
      rbind (fetch fld 2%nat) (fun axis =>
      rbind (fetch mlp 7%nat) (fun mlp =>
      rbind (cf_thin files (dir ++ thin)%string) (fun lat =>
      Ok (mkCav cavi f phi Rm force mp eg lat (map (fun r => (nth 0 r 0, nth 1 r 0)) axis) axis mlp
                [] None None None None))))
  | None =>
      if String.eqb t "Generic" then
        rbind (get_str c "datafile") (fun df =>
        rbind (cf_gen files (dir ++ "/" ++ df)%string) (fun o =>
        match o with
        | None => Throw Abort
        | Some conf =>
            rbind (get_cfgs conf "elements") (fun Es =>
            rbind (gen_pieces Es []) (fun '(lat, syn) =>
            rbind (get_vec conf "Ez") (fun Ez =>
            rbind (readvec nt_empty Ez 2) (fun t =>
            let axis := map (map num) (nt_rows t) in
            Ok (mkCav 0 f phi (match try_num conf "Rm" with Some x => x | None => Rm end) force mp eg lat
                      (map (fun r => (nth 0 r 0, nth 1 r 0)) axis) axis [] syn
                      (try_num conf "RefNorm") (try_vec conf "SyncFit")
                      (try_vec conf "EnergyLimit") (try_vec conf "NormLimit"))))))
        end))
      else Throw RuntimeError
  end))))))).

(** ** The world with these computations in it *)
Definition with_cavities : world :=
  mkW num (w_lexd w) (w_readcfg w) (w_defpath w) (w_junk0 w) (w_junk1 w) (w_spoilt w) asserts
      (fun c ref => rbind (load_cavity c) (fun cv => propagate_long cv c ref))
      (fun c phi p M0 => match load_cavity c with
                         | Ok cv => init_cav cv c phi p M0
                         | Throw e => (M0, Throw e)
                         end)
      (fun c => rbind (load_cavity c) (fun _ => Ok tt))
      (fun c ref p_in p m x => match load_cavity c with
                               | Ok cv => if N.eqb (cv_eg cv) 0 then (1, 1, 1)
                                          else growth_factors cv ref p_in p m x
                               | Throw _ => (1, 1, 1)
                               end).
End Cavity.
