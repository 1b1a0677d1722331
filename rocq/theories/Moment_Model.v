(** Model of the simulation type MomentMatrix: src/flame/moment.h, src/moment.cpp,
    src/moment_sup.cpp, src/chg_stripper.cpp, src/flame/chg_stripper.h, and the
    advance() of the RF cavity (src/flame/rf_cavity.h:157-314).

    Exact arithmetic: a double held by a state or an element is a real number;
    [num] says which real number a double found in a Config stands for.  NaN,
    infinities, rounding and overflow are outside the model; the theorems assume
    what keeps denominators away from zero where that matters.

    Left open, members of [world]: [lexd] is boost::lexical_cast<double> of a string (None: it
    throws); [readcfg] is the content of a curve file (moment_sup.cpp:395-417; the
    file is not changed while the program runs, so CurveMap is not seen);
    [cav_*] are the field computations of src/rf_cavity.cpp; [junk0], [junk1] is
    what ublas' resize() leaves in new storage; [spoilt] is the particle whose fields are
    NaN (moment.h:35-43); [asserts] says whether assert() is compiled in
    (CMakeLists.txt:15-16: the default build is RELEASE, which drops it).

    Left out: show(), getArray() (modelled with the array access), logging. *)
From Coq Require Import Reals List String Bool NArith ZArith.
From Coq Require Import DecimalString.
From Verif Require Import SMap Dbl Config_Spec Mat Minv Machine_Model.
Import ListNotations.
Open Scope R_scope.
Open Scope string_scope.
Open Scope list_scope.

(** MomentState::maxsize and param_t, moment.h:90-94. *)
Definition msize : nat := 7.
Definition PS_X := 0%nat. Definition PS_PX := 1%nat. Definition PS_Y := 2%nat.
Definition PS_PY := 3%nat. Definition PS_S := 4%nat. Definition PS_PS := 5%nat.
(** The constant component. *)
Definition PS_1 := 6%nat.

(** src/flame/constants.h. *)
Definition C0 : R := 299792458.
Definition MtoMM : R := 1000.
Definition MeVtoeV : R := 1000000.
(** moment.h:17. *)
Definition SampleFreqDefault : R := 80500000.
(** The macros sqr and cube. *)
Definition sqr (x : R) : R := x * x.
Definition cube (x : R) : R := x * x * x.

(** ** Particle, moment.h:21-57 *)
Record particle := mkP {
  p_Z : R; p_Q : R; p_Es : R; p_W : R; p_gamma : R; p_beta : R; p_bg : R;
  p_freq : R; p_lambda : R; p_K : R; p_phis : R; p_Ek : R
}.

(** Particle::recalc, moment.h:47-54. *)
Definition recalc (p : particle) : particle :=
  let W := p_Es p + p_Ek p in
  let gamma := if Req_EM_T (p_Es p) 0 then 1 else W / p_Es p in
  let beta := sqrt (1 - 1 / (gamma * gamma)) in
  let bg := if Req_EM_T beta 0 then 1 else beta * gamma in
  let lambda := C0 / p_freq p * MtoMM in
  let K := 2 * PI / (beta * lambda) in
  mkP (p_Z p) (p_Q p) (p_Es p) W gamma beta bg (p_freq p) lambda K (p_phis p) (p_Ek p).
(** Particle::Brho, moment.h:56. *)
Definition brho (p : particle) : R := p_beta p * p_W p / (C0 * p_Z p).
(** [p.phis += x]. *)
Definition add_phis (p : particle) (x : R) : particle :=
  mkP (p_Z p) (p_Q p) (p_Es p) (p_W p) (p_gamma p) (p_beta p) (p_bg p) (p_freq p)
      (p_lambda p) (p_K p) (p_phis p + x) (p_Ek p).
(** [p.IonEk = x]. *)
Definition set_Ek (p : particle) (x : R) : particle :=
  mkP (p_Z p) (p_Q p) (p_Es p) (p_W p) (p_gamma p) (p_beta p) (p_bg p) (p_freq p)
      (p_lambda p) (p_K p) (p_phis p) x.
(** [p.SampleIonK = x]. *)
Definition set_K (p : particle) (x : R) : particle :=
  mkP (p_Z p) (p_Q p) (p_Es p) (p_W p) (p_gamma p) (p_beta p) (p_bg p) (p_freq p)
      (p_lambda p) x (p_phis p) (p_Ek p).

Definition Reqb (x y : R) : bool := if Req_EM_T x y then true else false.
(** operator==, moment.h:61-67. *)
Definition peqb (l r : particle) : bool :=
  Reqb (p_Ek l) (p_Ek r) && Reqb (p_Es l) (p_Es r) && Reqb (p_Z l) (p_Z r) &&
  Reqb (p_Q l) (p_Q r) && Reqb (p_phis l) (p_phis r) && Reqb (p_freq l) (p_freq r).
(** operator<=, moment.h:74-80. *)
Definition pleb (l r : particle) : bool :=
  Reqb (p_Ek l) (p_Ek r) && Reqb (p_Es l) (p_Es r) && Reqb (p_Z l) (p_Z r) &&
  Reqb (p_Q l) (p_Q r) && Reqb (p_freq l) (p_freq r).

(** ** MomentState, moment.h:88-142 *)
Record mstate := mkMS {
  ms_pos : R;
  ms_ref : particle; ms_real : list particle;
  ms_m0 : list vec; ms_m1 : list mat; ms_tm : list mat;
  ms_env0 : vec; ms_rms : vec; ms_env1 : mat;
  ms_phi0 : R
}.

(** MomentState::recalc, moment.h:131-134. *)
Definition ms_recalc (s : mstate) : mstate :=
  mkMS (ms_pos s) (recalc (ms_ref s)) (map recalc (ms_real s)) (ms_m0 s) (ms_m1 s)
       (ms_tm s) (ms_env0 s) (ms_rms s) (ms_env1 s) (ms_phi0 s).

Definition rsum (l : list R) : R := fold_left Rplus l 0.
Definition outer (u v : vec) : mat := fun i j => u i * v j.
Definition vsub (u v : vec) : vec := fun i => u i - v i.

(** The charge states: particle, centroid and covariance matrix. *)
Definition cells (real : list particle) (m0 : list vec) (m1 : list mat) : list (particle * (vec * mat)) :=
  combine real (combine m0 m1).
Definition total_charge (real : list particle) : R := rsum (map p_Q real).
(** moment0_env, moment.cpp:209-217. *)
Definition env0_of (real : list particle) (m0 : list vec) : vec :=
  fun i => rsum (map (fun '(p, v) => v i * p_Q p) (combine real m0)) / total_charge real.
(** moment1_env, moment.cpp:219-228; the slice is 0..5. *)
Definition env1_of (real : list particle) (m0 : list vec) (m1 : list mat) (e : vec) : mat :=
  fun i j =>
    (if (Nat.ltb i 6 && Nat.ltb j 6)%bool
     then rsum (map (fun '(p, (v, m)) => p_Q p * (m i j + vsub v e i * vsub v e j)) (cells real m0 m1))
     else 0) / total_charge real.

Inductive mkind :=
  KSource | KMark | KBPM | KDrift | KOrbTrim | KSBend | KQuad | KSext | KSolenoid | KRFCavity
| KStripper | KEDipole | KEQuad | KTMatrix.

(** ** moment_sup.cpp *)

(** RotMat, moment_sup.cpp:38-73. *)
Definition rot_mat (dx dy tx ty tz : R) : mat :=
  let m11 := cos (- ty) * cos tz in
  let m12 := sin tx * sin (- ty) * cos tz + cos tx * sin tz in
  let m13 := - cos tx * sin (- ty) * cos tz + sin tx * sin tz in
  let m21 := - cos (- ty) * sin tz in
  let m22 := - sin tx * sin (- ty) * sin tz + cos tx * cos tz in
  let m23 := cos tx * sin (- ty) * sin tz + sin tx * cos tz in
  let m31 := sin (- ty) in
  let m32 := - sin tx * cos (- ty) in
  let m33 := cos tx * cos (- ty) in
  let T := mset (mset mid 0 6 (- dx)) 2 6 (- dy) in
  let R := mid in
  let R := mset R 0 0 m11 in let R := mset R 0 2 m12 in let R := mset R 0 4 m13 in
  let R := mset R 2 0 m21 in let R := mset R 2 2 m22 in let R := mset R 2 4 m23 in
  let R := mset R 4 0 m31 in let R := mset R 4 2 m32 in let R := mset R 4 4 m33 in
  let R := mset R 1 1 m11 in let R := mset R 1 3 m12 in let R := mset R 1 5 m13 in
  let R := mset R 3 1 m21 in let R := mset R 3 3 m22 in let R := mset R 3 5 m23 in
  let R := mset R 5 1 m31 in let R := mset R 5 3 m32 in let R := mset R 5 5 m33 in
  mmul msize R T.

(** GetQuadMatrix, moment_sup.cpp:76-117. *)
Definition quad_plane (L K : R) (ind : nat) (M : mat) : mat :=
  if Rlt_dec 0 K then
    let sqrtK := sqrt K in
    let psi := sqrtK * L in
    let M := mset (mset M (S ind) (S ind) (cos psi)) ind ind (cos psi) in
    let M := mset M ind (S ind) (if Req_EM_T sqrtK 0 then L else sin psi / sqrtK) in
    mset M (S ind) ind (if Req_EM_T sqrtK 0 then 0 else - sqrtK * sin psi)
  else
    let sqrtK := sqrt (- K) in
    let psi := sqrtK * L in
    let M := mset (mset M (S ind) (S ind) (cosh psi)) ind ind (cosh psi) in
    let M := mset M ind (S ind) (if Req_EM_T sqrtK 0 then L else sinh psi / sqrtK) in
    mset M (S ind) ind (if Req_EM_T sqrtK 0 then 0 else sqrtK * sinh psi).

(** GetSextMatrix, moment_sup.cpp:119-190; the matrix is updated in place. *)
Definition sext_matrix (L K3 Dx Dy D2x D2y D2xy : R) (thinlens dstkick : bool) (M : mat) : mat :=
  let dr := sqrt (sqr Dx + sqr Dx) in
  let M :=
    if thinlens then
      let T := mset (mset mid PS_X PS_PX (L / 2)) PS_Y PS_PY (L / 2) in
      let P := mset mid PS_PX PS_X (- K3 * L * Dx) in
      let P := mset P PS_PX PS_Y (K3 * L * Dy) in
      let P := mset P PS_PY PS_X (K3 * L * Dy) in
      let P := mset P PS_PY PS_Y (K3 * L * Dx) in
      mmul msize T (mmul msize P T)
    else
      let sqrtK := sqrt (Rabs K3 * dr) in
      let psi := sqrtK * L in
      let sg := if Rlt_dec K3 0 then -1 else 1 in
      let Dx := Dx * sg in
      let Dy := Dy * sg in
      let cs := cos psi in
      let sn := sin psi in
      let ch := cosh psi in
      let sh := sinh psi in
      if Req_EM_T sqrtK 0 then mset (mset M PS_X PS_PX L) PS_Y PS_PY L
      else
        let a := ((dr + Dx) * cs + (dr - Dx) * ch) / (2 * dr) in
        let M := mset (mset M PS_PX PS_PX a) PS_X PS_X a in
        let M := mset M PS_X PS_PX (((dr + Dx) * sn + (dr - Dx) * sh) / (2 * sqrtK * dr)) in
        let b := Dy * (- cs + ch) / (2 * dr) in
        let M := mset (mset (mset (mset M PS_PY PS_PX b) PS_Y PS_X b) PS_PX PS_PY b) PS_X PS_Y b in
        let M := mset M PS_X PS_PY (Dy * (- sn + sh) / (2 * sqrtK * dr)) in
        let M := mset M PS_PX PS_X (sqrtK * (- (dr + Dx) * sn + (dr - Dx) * sh) / (2 * dr)) in
        let d := Dy * sqrtK * (sn + sh) / (2 * dr) in
        let M := mset (mset M PS_PY PS_X d) PS_PX PS_Y d in
        let M := mset M PS_Y PS_PX (Dy * (- sn + sh) / (2 * sqrtK * dr)) in
        let f := ((dr - Dx) * cs + (dr + Dx) * ch) / (2 * dr) in
        let M := mset (mset M PS_PY PS_PY f) PS_Y PS_Y f in
        let M := mset M PS_Y PS_PY (((dr - Dx) * sn + (dr + Dx) * sh) / (2 * sqrtK * dr)) in
        mset M PS_PY PS_Y (sqrtK * (- (dr - Dx) * sn + (dr + Dx) * sh) / (2 * dr)) in
  if dstkick then mset (mset M PS_PX 6 (- K3 * L * (D2x - D2y))) PS_PY 6 (2 * K3 * L * D2xy)
  else M.

(** GetEdgeMatrix, moment_sup.cpp:192-200. *)
Definition edge_matrix (rho phi : R) : mat :=
  mset (mset mid PS_PX PS_X (tan phi / rho)) PS_PY PS_Y (- tan phi / rho).
(** GetEEdgeMatrix, moment_sup.cpp:203-214. *)
Definition eedge_matrix (fx fy kappa : R) : mat :=
  let M := mset mid PS_PX PS_X fx in
  let M := mset M PS_PX PS_PX (sqrt (1 + kappa)) in
  let M := mset M PS_PY PS_Y fy in
  mset M PS_PS PS_PS (1 + kappa).

(** GetSBendMatrix, moment_sup.cpp:217-273. *)
Definition sbend_matrix (L phi phi1 phi2 K Es ref_gamma qmrel dip_beta dip_gamma d dip_K : R) (M : mat) : mat :=
  let rho := L / phi in
  let Kx := K + 1 / sqr rho in
  let Ky := - K in
  let M := quad_plane L Kx PS_X M in
  let M := quad_plane L Ky PS_Y M in
  let dx := if Req_EM_T Kx 0 then sqr L / (2 * rho)
            else if Rlt_dec 0 Kx then (1 - cos (sqrt Kx * L)) / (rho * Kx)
            else (1 - cosh (sqrt (- Kx) * L)) / (rho * Kx) in
  let sx := if Req_EM_T Kx 0 then L / rho
            else if Rlt_dec 0 Kx then sin (sqrt Kx * L) / (rho * sqrt Kx)
            else sin (sqrt (- Kx) * L) / (rho * sqrt (- Kx)) in
  let p := sqr dip_beta * dip_gamma * Es / MeVtoeV in
  let M := mset M PS_X PS_PS (dx / p) in
  let M := mset M PS_PX PS_PS (sx / p) in
  let M := mset M PS_S PS_X (sx * dip_K) in
  let M := mset M PS_S PS_PX (dx * dip_K) in
  let M := mset M PS_S PS_PS (((L / rho - sx) / (Kx * rho) - L / sqr ref_gamma) * dip_K / p) in
  let M := mset M PS_S 6 (((L / rho - sx) / (Kx * rho) * d - L / sqr ref_gamma * (d + qmrel)) * dip_K) in
  let M := mset M PS_X 6 (dx * d) in
  let M := mset M PS_PX 6 (sx * d) in
  let M := mmul msize M (edge_matrix rho phi1) in
  mmul msize (edge_matrix rho phi2) M.

(** GetSolMatrix, moment_sup.cpp:276-320. *)
Definition sol_matrix (L K : R) (M : mat) : mat :=
  let C := cos (K * L) in
  let S := sin (K * L) in
  let z := Req_EM_T K 0 in
  let M := mset M PS_PY PS_PY (sqr C) in
  let M := mset M PS_Y PS_Y (sqr C) in
  let M := mset M PS_PX PS_PX (sqr C) in
  let M := mset M PS_X PS_X (sqr C) in
  let M := mset M PS_X PS_PX (if z then L else S * C / K) in
  let M := mset M PS_X PS_Y (S * C) in
  let M := mset M PS_X PS_PY (if z then 0 else sqr S / K) in
  let M := mset M PS_PX PS_X (- K * S * C) in
  let M := mset M PS_PX PS_Y (- K * sqr S) in
  let M := mset M PS_PX PS_PY (S * C) in
  let M := mset M PS_Y PS_X (- S * C) in
  let M := mset M PS_Y PS_PX (if z then 0 else - sqr S / K) in
  let M := mset M PS_Y PS_PY (if z then L else S * C / K) in
  let M := mset M PS_PY PS_X (K * sqr S) in
  let M := mset M PS_PY PS_PX (- S * C) in
  mset M PS_PY PS_Y (- K * S * C).

(** GetEBendMatrix, moment_sup.cpp:323-383. *)
Definition ebend_matrix (L phi fx fy kappa Kx Ky Es real_gamma eta0 h delta_K delta_KZ ionK : R) (M : mat) : mat :=
  let rho := L / phi in
  let scl := (real_gamma - 1) * Es / MeVtoeV in
  let M := quad_plane L Kx PS_X M in
  let M := quad_plane L Ky PS_Y M in
  let dx := if Req_EM_T Kx 0 then 0
            else if Rlt_dec 0 Kx then (1 - cos (sqrt Kx * L)) / (rho * Kx)
            else (1 - cosh (sqrt (- Kx) * L)) / (rho * Kx) in
  let sx := if Req_EM_T Kx 0 then 0 else sin (sqrt Kx * L) / sqrt Kx in
  let Nk := (sqr (1 + 2 * eta0) + h) / (2 * (1 + eta0) * (1 + 2 * eta0)) in
  let Nt := 1 + h / sqr (1 + 2 * eta0) in
  let CorT := - real_gamma / (1 + real_gamma) in
  let tx := sx / rho * Nt * CorT in
  let txp := dx * Nt * CorT in
  let tzp := (- L / (2 * (1 + eta0) * (1 + 2 * eta0)) + ((L - sx) / Kx / sqr rho) * Nk * Nt) * CorT in
  let M := mset M PS_X PS_PS (dx * Nk / scl) in
  let M := mset M PS_PX PS_PS (sx / rho * Nk / scl) in
  let M := mset M PS_S PS_X (- tx * ionK) in
  let M := mset M PS_S PS_PX (- txp * ionK) in
  let M := mset M PS_S PS_PS (- tzp * ionK / scl) in
  let Nkz := (1 + 2 * eta0 - h) / (2 * (1 + eta0) * (1 + 2 * eta0)) in
  let M := mset M PS_X 6 (dx * (Nk * delta_K + Nkz * delta_KZ)) in
  let M := mset M PS_PX 6 (sx / rho * (Nk * delta_K + Nkz * delta_KZ)) in
  let e := eedge_matrix fx fy kappa in
  mmul msize e (mmul msize M e).

(** transfer(PS_S, PS_PS) of a drift, e.g. moment.cpp:858-859. *)
Definition longi (p : particle) (L : R) : R :=
  - 2 * PI / (p_lambda p * p_Es p / MeVtoeV * cube (p_bg p)) * L.

(** inverse(), moment_sup.cpp:22-36. *)
Definition inverse (A : mat) : res mat :=
  match minv msize A with Some B => Ok B | None => Throw RuntimeError end.

(** ** Misalignment: dx, dy (in mm), pitch, yaw, roll of MomentElementBase *)
Record shifts := mkSh { sh_dx : R; sh_dy : R; sh_pitch : R; sh_yaw : R; sh_roll : R }.

(** The scaling of the longitudinal coordinates, moment.cpp:602-603. *)
Definition scl_mat (ref p : particle) : mat :=
  mset (mset mid PS_S PS_S (1 / (- p_K p)))
       PS_PS PS_PS (1 / (sqr (p_beta p) * p_gamma p * p_Es ref / MeVtoeV)).
(** Translation to the centre, moment.cpp:608-609, 622-623. *)
Definition shift_mat (x : R) : mat := mset (mset mid PS_S 6 x) PS_PS 6 1.

(** get_misalign, moment.cpp:593-630. *)
Definition get_misalign (sh : shifts) (len : R) (ref p : particle) : res (mat * mat) :=
  let scl := scl_mat ref p in
  rbind (inverse scl) (fun scl_inv =>
  let T := shift_mat (- len / 2 * MtoMM) in
  rbind (inverse T) (fun T_inv =>
  let R := rot_mat (sh_dx sh) (sh_dy sh) (sh_pitch sh) (sh_yaw sh) (sh_roll sh) in
  let M := mmul msize T scl in
  let M := mmul msize R M in
  let M := mmul msize T_inv M in
  let M := mmul msize scl_inv M in
  rbind (inverse R) (fun R_inv =>
  let T := shift_mat (len / 2 * MtoMM) in
  rbind (inverse T) (fun T_inv =>
  let IM := mmul msize T scl in
  let IM := mmul msize R_inv IM in
  let IM := mmul msize T_inv IM in
  let IM := mmul msize scl_inv IM in
  Ok (M, IM))))).

(** Conversion of a double to an integer type: truncation; None for NaN and
    infinities. *)
Definition dtrunc (x : double) : option Z :=
  match x with
  | S754_zero _ => Some 0%Z
  | S754_finite s m e =>
      let a := if (0 <=? e)%Z then (Zpos m * 2 ^ e)%Z else (Zpos m / 2 ^ (- e))%Z in
      Some (if s then (- a)%Z else a)
  | _ => None
  end.
(** Cast to an unsigned integer type with the given number of values; outside the
    range the behaviour is undefined. *)
Definition cast_unsigned (lim : Z) (x : double) : res N :=
  match dtrunc x with
  | Some z => if (Z.leb 0 z && Z.ltb z lim)%bool then Ok (Z.to_N z) else Throw Abort
  | None => Throw Abort
  end.
Definition cast_size (x : double) : res N := cast_unsigned (2 ^ 64)%Z x.
Definition cast_uint (x : double) : res N := cast_unsigned (2 ^ 32)%Z x.
(** Cast to int. *)
Definition cast_int (x : double) : res Z :=
  match dtrunc x with
  | Some z => if (Z.leb INT_MIN z && Z.leb z INT_MAX)%bool then Ok z else Throw Abort
  | None => Throw Abort
  end.
(** boost::lexical_cast<std::string> of an unsigned integer. *)
Definition dec (n : N) : string := NilEmpty.string_of_uint (N.to_uint n).

(** The unsigned integer a double is exactly, if there is one
    (moment.cpp:647-654). *)
Definition exact_uint (x : double) : option N :=
  match dtrunc x with
  | Some z => if (Z.leb 0 z && Z.ltb z (2 ^ 32) && deq (d_of_Z z) x)%bool then Some (Z.to_N z) else None
  | None => None
  end.

(** ** Elements' members, moment.h:178-188; length as the constructors leave it. *)
Record mdata := mkMD {
  md_len : R; md_sh : shifts; md_skip : bool;
  md_ref_in : option particle;           (* None: never assigned *)
  md_real_in : list particle;
  md_ref_out : option particle;
  md_real_out : list particle;
  md_tm : list mat;                      (* transfer *)
  md_mis : list (mat * mat);             (* misalign, misalign_inv *)
  md_fit : N;                            (* HdipoleFitMode of ElementSBend *)
  md_istate : option mstate;             (* istate of ElementSource *)
  md_phi : R                             (* phi_ref of ElementRFCavity *)
}.

Definition with_in (d : mdata) ref real tm mis : mdata :=
  mkMD (md_len d) (md_sh d) (md_skip d) (Some ref) real (md_ref_out d) (md_real_out d) tm mis
       (md_fit d) (md_istate d) (md_phi d).
Definition with_tm (d : mdata) tm : mdata :=
  mkMD (md_len d) (md_sh d) (md_skip d) (md_ref_in d) (md_real_in d) (md_ref_out d) (md_real_out d)
       tm (md_mis d) (md_fit d) (md_istate d) (md_phi d).
Definition with_mis (d : mdata) mis : mdata :=
  mkMD (md_len d) (md_sh d) (md_skip d) (md_ref_in d) (md_real_in d) (md_ref_out d) (md_real_out d)
       (md_tm d) mis (md_fit d) (md_istate d) (md_phi d).
Definition with_out (d : mdata) ref real : mdata :=
  mkMD (md_len d) (md_sh d) (md_skip d) (md_ref_in d) (md_real_in d) (Some ref) real
       (md_tm d) (md_mis d) (md_fit d) (md_istate d) (md_phi d).
Definition with_phi (d : mdata) phi : mdata :=
  mkMD (md_len d) (md_sh d) (md_skip d) (md_ref_in d) (md_real_in d) (md_ref_out d) (md_real_out d)
       (md_tm d) (md_mis d) (md_fit d) (md_istate d) phi.

(** std::vector::resize(n, x). *)
Definition resize {A} (n : nat) (x : A) (l : list A) : list A :=
  firstn n l ++ repeat x (n - List.length l).

(** check_cache, moment.cpp:728-736.  Comparison with NaN fields is false. *)
Definition check_cache (d : mdata) (s : mstate) : bool :=
  negb (md_skip d) &&
  Nat.eqb (List.length (md_real_in d)) (List.length (ms_real s)) &&
  match md_ref_in d with Some r => peqb r (ms_ref s) | None => false end &&
  forallb (fun '(a, b) => peqb a b) (combine (md_real_in d) (ms_real s)).
(** check_backward, moment.cpp:738-751. *)
Definition check_backward (d : mdata) (s : mstate) : bool :=
  Nat.eqb (List.length (md_real_out d)) (List.length (ms_real s)) &&
  match md_ref_out d with Some r => pleb r (ms_ref s) | None => false end &&
  forallb (fun '(a, b) => pleb a b) (combine (md_real_out d) (ms_real s)).

(** [for(k<n) l[k] = f(x[k], l[k])] for the [x]s; access beyond the end is
    undefined. *)
Fixpoint over {A B} (f : B -> A -> A) (xs : list B) (l : list A) : res (list A) :=
  match xs, l with
  | [], _ => Ok l
  | x :: xs', a :: l' => rbind (over f xs' l') (fun r => Ok (f x a :: r))
  | _ :: _, [] => Throw BadIndex
  end.
(** The same for a list computed along the way, stopping at the first exception:
    what was stored before it stays, including what was stored in that step. *)
Fixpoint run_cells {A} (f : particle -> A -> A * option exn) (ps : list particle) (l : list A)
  : list A * option exn :=
  match ps, l with
  | [], _ => (l, None)
  | p :: ps', a :: l' =>
      match f p a with
      | (b, None) => let '(r, e) := run_cells f ps' l' in (b :: r, e)
      | (b, Some e) => (b :: l', Some e)
      end
  | _ :: _, [] => (l, Some BadIndex)
  end.
Fixpoint rmap {A B} (f : A -> res B) (l : list A) : res (list B) :=
  match l with
  | [] => Ok []
  | a :: l' => rbind (f a) (fun b => rbind (rmap f l') (fun r => Ok (b :: r)))
  end.

(** T M T^t. *)
Definition sandwich (T M : mat) : mat := mmul msize (mmul msize T M) (mtr T).

(** What the code of this file depends on and the model leaves open; see the head
    of the file. *)
Record world := mkW {
  w_num : double -> R;
  w_lexd : string -> option double;
  w_readcfg : string -> res tcfg;
  w_defpath : string;
  w_junk0 : vec;
  w_junk1 : mat;
  w_spoilt : particle;
  w_asserts : bool;
  (* PropagateLongRFCav, rf_cavity.cpp:1510-1559: reference particle and driven
     phase afterwards *)
  w_cav_ref : tcfg -> particle -> res (particle * R);
  (* InitRFCav, rf_cavity.cpp:1625-1700, for one charge state and the driven phase:
     transfer matrix and particle afterwards *)
  w_cav_one : tcfg -> R -> particle -> mat -> mat * res particle;
  (* LoadCavityFile in the constructor, rf_cavity.cpp:692-880 *)
  w_cav_ctor : tcfg -> res unit;
  (* the growth factors of calRFcaviEmitGrowth, rf_cavity.cpp:1573-1612, from the
     reference particle, the charge state before and after, its covariance matrix
     and the four entrance values (1,1,1 if EmitGrowth is off) *)
  w_cav_growth : tcfg -> particle -> particle -> particle -> mat -> R * R * R * R -> R * R * R
}.

Section Moment.
Variable w : world.
Notation num := (w_num w).
Notation lexd := (w_lexd w).
Notation readcfg := (w_readcfg w).
Notation defpath := (w_defpath w).
Notation junk0 := (w_junk0 w).
Notation junk1 := (w_junk1 w).
Notation spoilt := (w_spoilt w).
Notation asserts := (w_asserts w).
Notation cav_ref := (w_cav_ref w).
Notation cav_one := (w_cav_one w).
Notation cav_ctor := (w_cav_ctor w).
Notation cav_growth := (w_cav_growth w).

(** calc_rms, moment.cpp:201-233. *)
Definition calc_rms (s : mstate) : res mstate :=
  let real := ms_real s in
  if (asserts && Nat.eqb (List.length real) 0)%bool then Throw Abort
  else if (Nat.ltb (List.length (ms_m0 s)) (List.length real) ||
           Nat.ltb (List.length (ms_m1 s)) (List.length real))%bool then Throw BadIndex
  else
    let e := env0_of real (ms_m0 s) in
    let m := env1_of real (ms_m0 s) (ms_m1 s) e in
    Ok (mkMS (ms_pos s) (ms_ref s) real (ms_m0 s) (ms_m1 s) (ms_tm s)
             e (fun j => sqrt (m j j)) m (ms_phi0 s)).

(** c.get<double>(n, r). *)
Definition num_def (c : tcfg) (n : string) (r : R) : R :=
  match tfind n c with Some (TNum x) => num x | _ => r end.
(** c.get<double>(n). *)
Definition num_of (c : tcfg) (n : string) : res R :=
  rbind (get_num c n) (fun x => Ok (num x)).
(** c.get<double>(n, d) == 1.0, for a default that is 1.0 or not. *)
Definition is_one (c : tcfg) (n : string) (d : bool) : bool :=
  match tfind n c with Some (TNum x) => deq x done | _ => d end.

(** get_flag, moment.cpp:632-656. *)
Definition get_flag (c : tcfg) (n : string) (d : N) : res N :=
  let from_num := match get_num c n with Ok x => x | Throw _ => d_of_Z (Z.of_N d) end in
  let x := match get_str c n with
           | Ok t => match lexd t with Some x => x | None => from_num end
           | Throw _ => from_num
           end in
  match exact_uint x with Some k => Ok k | None => Throw RuntimeError end.

(** load_storage, moment.cpp:28-46: the values, row by row. *)
Definition load_storage (size : nat) (c : tcfg) (n : string) : res (list double) :=
  match get_vec c n with
  | Ok l => if Nat.eqb (List.length l) size then Ok l else Throw InvalidArgument
  | Throw _ => Throw InvalidArgument
  end.
Definition vec_of (l : list double) : vec := fun i => match nth_error l i with Some x => num x | None => 0 end.
Definition mat_of (l : list double) : mat :=
  fun i j => match nth_error l (msize * i + j)%nat with Some x => num x | None => 0 end.

(** ** Construction of a state, moment.cpp:67-197 *)
(** One charge state, moment.cpp:157-178. *)
Definition new_cell (c : tcfg) (vn mn : string) (ref : particle) (k : N) (z q : R)
  : res (particle * (vec * mat)) :=
  rbind (load_storage msize c (vn ++ dec k)%string) (fun lv =>
  rbind (load_storage (msize * msize) c (mn ++ dec k)%string) (fun lm =>
  let v := vec_of lv in
  Ok (recalc (mkP z q (p_Es ref) (p_W ref) (p_gamma ref) (p_beta ref) (p_bg ref) (p_freq ref)
                  (p_lambda ref) (p_K ref) (v PS_S) (p_Ek ref + v PS_PS * MeVtoeV)),
      (v, mat_of lm)))).
Fixpoint new_cells (c : tcfg) (vn mn : string) (ref : particle) (k : N) (zqs : list (double * double))
  : res (list (particle * (vec * mat))) :=
  match zqs with
  | [] => Ok []
  | (z, q) :: zqs' =>
      rbind (new_cell c vn mn ref k (num z) (num q)) (fun x =>
      rbind (new_cells c vn mn ref (N.succ k) zqs') (fun l => Ok (x :: l)))
  end.

Definition new_state (c : tcfg) : res mstate :=
  let cstate := match tfind "cstate" c with Some (TNum x) => Some x | _ => None end in
  rbind (match cstate with Some x => cast_size x | None => Ok 0%N end) (fun ic =>
  let vn := get_str_def c "vector_variable" "moment0" in
  let mn := get_str_def c "matrix_variable" "initial" in
  let ics := match tfind "IonChargeStates" c with Some (TVec l) => Some l | _ => None end in
  let ref := recalc (mkP 0 0 (num_def c "IonEs" 0) 0 0 0 0 (num_def c "SampleFreq" SampleFreqDefault)
                         0 0 0 (num_def c "IonEk" 0)) in
  let with_ZQ z q := mkP z q (p_Es ref) (p_W ref) (p_gamma ref) (p_beta ref) (p_bg ref)
                         (p_freq ref) (p_lambda ref) (p_K ref) (p_phis ref) (p_Ek ref) in
  match ics with
  | None =>
      let ref := with_ZQ (num_def c "IonZ" 0) (num_def c "IonQ" 1) in
      match cstate with
      | Some _ => Throw InvalidArgument
      | None =>
          let v := match load_storage msize c vn with Ok l => vec_of l | Throw _ => junk0 end in
          let m := match load_storage (msize * msize) c mn with Ok l => mat_of l | Throw _ => junk1 end in
          calc_rms (mkMS 0 ref [ref] [v] [m] [mid] (fun _ => 0) (fun _ => 0) mid 0)
      end
  | Some ics =>
      match ics with
      | [] => Throw InvalidArgument
      | z0 :: _ =>
          if N.leb (N.of_nat (List.length ics)) ic then Throw InvalidArgument
          else
            rbind (get_vec c "NCharge") (fun nchg =>
            if negb (Nat.eqb (List.length nchg) (List.length ics)) then Throw InvalidArgument
            else
              let q0 := match nchg with q :: _ => num q | [] => 0 end in
              let ref := with_ZQ (num_def c "IonZ" (num z0)) (num_def c "IonQ" q0) in
              let zqs := combine ics nchg in
              let zqs := match cstate with
                         | None => zqs
                         | Some _ => match nth_error zqs (N.to_nat ic) with Some x => [x] | None => [] end
                         end in
              rbind (new_cells c vn mn ref (match cstate with Some _ => ic | None => 0%N end) zqs) (fun l =>
              calc_rms (mkMS 0 ref (map fst l) (map (fun x => fst (snd x)) l) (map (fun x => snd (snd x)) l)
                             (map (fun _ => mid) l) (fun _ => 0) (fun _ => 0) mid 0)))
      end
  end).

(** ** Transfer matrices: recompute_matrix() *)
(** What a recomputation does to transfer[i]: the matrix stored and an exception
    thrown after that. *)
Definition cell_fun := particle -> mat -> mat * option exn.

(** [transfer = misalign_inv . (transfer . misalign)], e.g. moment.cpp:1113-1115. *)
Definition misaligned (d : mdata) (ref p : particle) (T : mat) : mat * option exn :=
  match get_misalign (md_sh d) (md_len d) ref p with
  | Throw e => (T, Some e)
  | Ok (M, IM) => (mmul msize IM (mmul msize T M), None)
  end.

(** GetCurveData, moment_sup.cpp:385-454: scales and curves. *)
Fixpoint curve_loop (c cv : tcfg) (range : option (list double)) (k : nat) (n : N) (prev : option nat)
  : res (list (R * list R)) :=
  match k with
  | O => Ok []
  | S k' =>
      match get_vec cv ("curve" ++ dec n)%string with
      | Throw _ => Throw RuntimeError
      | Ok l =>
          rbind (match range with
                 | None => Ok l
                 | Some [a; b] =>
                     rbind (cast_uint a) (fun s => rbind (cast_uint b) (fun e =>
                     let len := N.of_nat (List.length l) in
                     if (N.ltb len s || N.ltb len e)%bool then Throw RuntimeError
                     else if N.ltb e s then Throw Abort
                     else Ok (firstn (N.to_nat e - N.to_nat s) (skipn (N.to_nat s) l))))
                 | Some _ => Throw RuntimeError
                 end) (fun part =>
          if match prev with Some p => negb (Nat.eqb p (List.length l)) | None => false end
          then Throw RuntimeError
          else
            rbind (curve_loop c cv range k' (N.succ n) (Some (List.length l))) (fun r =>
            Ok ((num_def c ("scl_fac" ++ dec n)%string 0, map num part) :: r)))
      end
  end.
(** The file is read once per name and modification time and kept in CurveMap. *)
Definition get_curves (c : tcfg) (ncurve : N) : res (list (R * list R)) :=
  let range := match tfind "use_range" c with Some (TVec l) => Some l | _ => None end in
  rbind (match get_str c "CurveFile" with
         | Ok f => readcfg (get_str_def c "Eng_Data_Dir" defpath ++ "/" ++ f)%string
         | Throw _ => Ok c
         end) (fun cv =>
  curve_loop c cv range (N.to_nat ncurve) 0 None).

(** The field integral of slice [j]: [K += f(Scales[n]*Curves[n][j])]. *)
Definition slice_K (cvs : list (R * list R)) (f : R -> R) (j : nat) : R :=
  rsum (map (fun '(scl, l) => f (scl * nth j l 0)) cvs).
(** The loop over the slices, e.g. moment.cpp:1073-1089: [plane] makes the
    transverse part from length and strength. *)
Definition slices (cvs : list (R * list R)) (L : R) (f : R -> R) (plane : R -> R -> mat -> mat) (p : particle) : mat :=
  let n := match cvs with (_, l) :: _ => List.length l | [] => 0%nat end in
  let dL := L / INR n in
  fold_left (fun T j =>
    mmul msize (mset (plane dL (slice_K cvs f j) mid) PS_S PS_PS (longi p dL)) T)
    (seq 0 n) mid.

Definition quad_planes (L K : R) (M : mat) : mat :=
  quad_plane L (- K) PS_Y (quad_plane L K PS_X M).

(** ElementOrbTrim::recompute_matrix, moment.cpp:877-911. *)
Definition setup_orbtrim (d : mdata) (c : tcfg) (ref : particle) : cell_fun :=
  let ecpi := p_Z ref * C0 / sqrt (sqr (p_W ref) - sqr (p_Es ref)) in
  let realpara := is_one c "realpara" false in
  let theta_x := if realpara then num_def c "tm_xkick" 0 * ecpi else num_def c "theta_x" 0 in
  let theta_y := if realpara then num_def c "tm_ykick" 0 * ecpi else num_def c "theta_y" 0 in
  let xyrotate := num_def c "xyrotate" 0 * PI / 180 in
  fun p _ =>
    let T := mset (mset mid PS_PX 6 (theta_x * p_Z p / p_Z ref)) PS_PY 6 (theta_y * p_Z p / p_Z ref) in
    match misaligned d ref p T with
    | (T, Some e) => (T, Some e)
    | (T, None) =>
        if Req_EM_T xyrotate 0 then (T, None)
        else (mmul msize T (rot_mat 0 0 0 0 xyrotate), None)
    end.

(** ElementSBend::recompute_matrix, moment.cpp:1010-1047. *)
Definition setup_sbend (d : mdata) (c : tcfg) (ref : particle) : res cell_fun :=
  rbind (num_of c "L") (fun l =>
  rbind (num_of c "phi") (fun phi =>
  rbind (num_of c "phi1") (fun phi1 =>
  rbind (num_of c "phi2") (fun phi2 =>
  let L := l * MtoMM in
  let phi := phi * PI / 180 in
  let phi1 := phi1 * PI / 180 in
  let phi2 := phi2 * PI / 180 in
  let K := num_def c "K" 0 / sqr MtoMM in
  Ok (fun p _ =>
    let qmrel := (p_Z p - p_Z ref) / p_Z ref in
    if Req_EM_T L 0 then (mid, None)
    else
      if N.eqb (md_fit d) 0 then
        match num_of c "bg" with
        | Throw e => (mid, Some e)
        | Ok dip_bg =>
            let dip_Ek := (sqrt (sqr dip_bg + 1) - 1) * p_Es ref in
            let dip_gamma := (dip_Ek + p_Es ref) / p_Es ref in
            let dip_beta := sqrt (1 - 1 / sqr dip_gamma) in
            let dd := (p_gamma ref - dip_gamma) / (sqr dip_beta * dip_gamma) - qmrel in
            let dip_K := 2 * PI / (dip_beta * p_lambda ref) in
            misaligned d ref p
              (sbend_matrix L phi phi1 phi2 K (p_Es ref) (p_gamma ref) qmrel dip_beta dip_gamma dd dip_K mid)
        end
      else
        misaligned d ref p
          (sbend_matrix L phi phi1 phi2 K (p_Es ref) (p_gamma ref) qmrel
                        (p_beta ref) (p_gamma ref) (- qmrel) (p_K ref) mid)))))).

(** ElementQuad::recompute_matrix, moment.cpp:1063-1118. *)
Definition setup_quad (d : mdata) (c : tcfg) (ref : particle) : res cell_fun :=
  rbind (num_of c "L") (fun l =>
  let L := l * MtoMM in
  rbind (get_flag c "ncurve" 0) (fun ncurve =>
  if negb (N.eqb ncurve 0) then
    rbind (get_curves c ncurve) (fun cvs =>
    Ok (fun p _ =>
      misaligned d ref p (slices cvs L (fun x => x / brho p / sqr MtoMM) quad_planes p)))
  else
    rbind (num_of c "B2") (fun B2 =>
    Ok (fun p _ =>
      let K := B2 / brho p / sqr MtoMM in
      misaligned d ref p (mset (quad_planes L K mid) PS_S PS_PS (longi p L)))))).

(** ElementSolenoid::recompute_matrix, moment.cpp:1227-1278. *)
Definition setup_solenoid (d : mdata) (c : tcfg) (ref : particle) : res cell_fun :=
  rbind (num_of c "L") (fun l =>
  let L := l * MtoMM in
  rbind (get_flag c "ncurve" 0) (fun ncurve =>
  if negb (N.eqb ncurve 0) then
    rbind (get_curves c ncurve) (fun cvs =>
    Ok (fun p _ =>
      misaligned d ref p (slices cvs L (fun x => x / (2 * brho p) / MtoMM) sol_matrix p)))
  else
    rbind (num_of c "B") (fun B =>
    Ok (fun p _ =>
      let K := B / (2 * brho p) / MtoMM in
      misaligned d ref p (mset (sol_matrix L K mid) PS_S PS_PS (longi p L)))))).

(** The rotation by 90 degrees of a vertical bend, moment.cpp:1338-1352. *)
Definition ver_rot : mat :=
  let R := mset mid PS_X PS_X 0 in let R := mset R PS_PX PS_PX 0 in
  let R := mset R PS_Y PS_Y 0 in let R := mset R PS_PY PS_PY 0 in
  let R := mset R PS_X PS_Y (-1) in let R := mset R PS_PX PS_PY (-1) in
  let R := mset R PS_Y PS_X 1 in mset R PS_PY PS_PX 1.

(** ElementEDipole::recompute_matrix, moment.cpp:1294-1362. *)
Definition setup_edipole (d : mdata) (c : tcfg) (ref : particle) : res cell_fun :=
  rbind (get_num c "ver") (fun verd =>
  rbind (num_of c "L") (fun l =>
  rbind (num_of c "phi") (fun phi =>
  rbind (num_of c "spher") (fun spher =>
  rbind (get_flag c "HdipoleFitMode" 1) (fun fit =>
  if negb (N.eqb fit 0 || N.eqb fit 1) then Throw RuntimeError
  else
    let ver := deq verd done in
    let L := l * MtoMM in
    let phi := phi * PI / 180 in
    let fx := num_def c "fringe_x" 0 / MtoMM in
    let fy := num_def c "fringe_y" 0 / MtoMM in
    let kappa := num_def c "asym_fac" 0 in
    let h := 1 in
    let dip_beta := if N.eqb fit 0 then num_def c "beta" (p_beta ref) else p_beta ref in
    Ok (fun p _ =>
      let eta0 := (1 / sqrt (1 - sqr dip_beta) - 1) / 2 in
      let Erho := sqr (p_beta p) / p_Z p in
      let Erho0 := sqr dip_beta / p_Z ref in
      let eL := Erho / Erho0 * L in
      let rho := eL / phi in
      let Kx := (1 - spher + sqr (1 + 2 * eta0)) / sqr rho in
      let Ky := spher / sqr rho in
      let delta_K := (Erho / Erho0 - 1) - (p_Ek p - p_Ek ref) / p_Ek p in
      let delta_KZ := p_Z ref / p_Z p - 1 in
      let ionK := 2 * PI / (p_beta p * p_lambda p) in
      if Req_EM_T L 0 then (mid, None)
      else
        let T := ebend_matrix eL phi fx fy kappa Kx Ky (p_Es ref) (p_gamma p) eta0 h
                              delta_K delta_KZ ionK mid in
        let T := if ver then mmul msize (mmul msize ver_rot T) (mtr ver_rot) else T in
        misaligned d ref p T)))))).

(** ElementEQuad::recompute_matrix, moment.cpp:1378-1438. *)
Definition setup_equad (d : mdata) (c : tcfg) (ref : particle) : res cell_fun :=
  rbind (num_of c "L") (fun l =>
  let L := l * MtoMM in
  rbind (get_flag c "ncurve" 0) (fun ncurve =>
  if negb (N.eqb ncurve 0) then
    rbind (get_curves c ncurve) (fun cvs =>
    Ok (fun p _ =>
      misaligned d ref p (slices cvs L (fun x => 2 * x / (C0 * p_beta p) / brho p / sqr MtoMM) quad_planes p)))
  else
    rbind (num_of c "V") (fun V0 =>
    rbind (num_of c "radius") (fun radius =>
    Ok (fun p _ =>
      let K := 2 * V0 / (C0 * p_beta p * sqr radius) / brho p / sqr MtoMM in
      misaligned d ref p (mset (quad_planes L K mid) PS_S PS_PS (longi p L))))))).

(** recompute_matrix() by kind: what it reads first (and may throw), then its
    loop over the charge states. *)
Definition setup (k : mkind) (d : mdata) (c : tcfg) (ref : particle) : res cell_fun :=
  match k with
  (* ElementDrift, moment.cpp:848-861 *)
  | KDrift => Ok (fun p _ =>
      let L := md_len d * MtoMM in
      (mset (mset (mset mid PS_X PS_PX L) PS_Y PS_PY L) PS_S PS_PS (longi p L), None))
  | KOrbTrim => Ok (setup_orbtrim d c ref)
  | KSBend => setup_sbend d c ref
  | KQuad => setup_quad d c ref
  | KSolenoid => setup_solenoid d c ref
  | KEDipole => setup_edipole d c ref
  | KEQuad => setup_equad d c ref
  (* ElementTMatrix, moment.cpp:1454-1459 *)
  | KTMatrix => Ok (fun _ T =>
      match load_storage (msize * msize) c "matrix" with
      | Ok l => (mat_of l, None)
      | Throw e => (T, Some e)
      end)
  (* MomentElementBase, moment.cpp:760-767 *)
  | _ => Ok (fun _ _ => (mid, None))
  end.
Definition recompute (k : mkind) (c : tcfg) (d : mdata) (s : mstate) : list mat * option exn :=
  match setup k d c (ms_ref s) with
  | Throw e => (md_tm d, Some e)
  | Ok f => run_cells f (ms_real s) (md_tm d)
  end.

(** ** advance() *)

(** last_ref_in, last_real_in and resize_cache, moment.cpp:668-670, 753-758. *)
Definition note_input (d : mdata) (s : mstate) : mdata :=
  let n := List.length (ms_real s) in
  with_in d (ms_ref s) (ms_real s) (resize n mid (md_tm d)) (resize n (mid, mid) (md_mis d)).

(** [ST.ref = last_ref_out; std::copy(last_real_out, ST.real)], moment.cpp:689-693. *)
Definition from_cache (d : mdata) (s : mstate) : res (particle * list particle) :=
  if (asserts && negb (Nat.eqb (List.length (md_real_out d)) (List.length (ms_real s))))%bool
  then Throw Abort
  else rbind (over (fun x _ => x) (md_real_out d) (ms_real s)) (fun real =>
       Ok (match md_ref_out d with Some r => r | None => spoilt end, real)).

(** The loops over the charge states, moment.cpp:696-723: moment0, moment1,
    transmat afterwards.  They run over last_real_in. *)
Definition transport (d : mdata) (s : mstate) (Ts : list mat)
  : res (list vec * list mat * list mat) :=
  let Ts := firstn (List.length (md_real_in d)) Ts in
  if Nat.ltb (List.length Ts) (List.length (md_real_in d)) then Throw BadIndex else
  rbind (over (mapp msize) Ts (ms_m0 s)) (fun m0 =>
  rbind (over sandwich Ts (ms_m1 s)) (fun m1 =>
  rbind (over (fun T _ => T) Ts (ms_tm s)) (fun tm =>
  Ok (m0, m1, tm)))).
(** The matrices applied: transfer, or its inverse when going backward. *)
Definition directed (retreat : bool) (Ts : list mat) : res (list mat) :=
  if retreat then rmap inverse Ts else Ok Ts.

(** Everything of MomentElementBase::advance, moment.cpp:658-726, once the cache
    has been dealt with. *)
Definition finish (d : mdata) (retreat : bool) (s : mstate) (ref : particle) (real : list particle)
  : res mstate :=
  rbind (directed retreat (md_tm d)) (fun Ts =>
  rbind (transport d s Ts) (fun '(m0, m1, tm) =>
  calc_rms (mkMS (if retreat then ms_pos s - md_len d else ms_pos s + md_len d)
                 ref real m0 m1 tm (ms_env0 s) (ms_rms s) (ms_env1 s) (ms_phi0 s)))).

Definition advance_base (k : mkind) (c : tcfg) (d : mdata) (retreat : bool) (s : mstate)
  : mdata * res mstate :=
  let s := ms_recalc s in
  if check_cache d s then
    (d, rbind (from_cache d s) (fun '(ref, real) => finish d retreat s ref real))
  else
    let d := note_input d s in
    match recompute k c d s with
    | (tm, Some e) => (with_tm d tm, Throw e)
    | (tm, None) =>
        let s := ms_recalc s in
        let step p := add_phis p (if retreat then - (p_K p * md_len d * MtoMM)
                                  else p_K p * md_len d * MtoMM) in
        let ref := step (ms_ref s) in
        let real := map step (ms_real s) in
        let d := with_out (with_tm d tm) ref real in
        (d, finish d retreat s ref real)
    end.

(** ElementSBend::advance, moment.cpp:940-1008: the phases are advanced after the
    cache, by the length and by what the transfer matrix does to the centroid. *)
Definition finish_sbend (d : mdata) (retreat : bool) (s : mstate) (ref : particle) (real : list particle)
  : res mstate :=
  rbind (directed retreat (md_tm d)) (fun Ts =>
  rbind (transport d s Ts) (fun '(m0, m1, tm) =>
  let len := md_len d in
  let ref := add_phis ref (if retreat then - (p_K ref * len * MtoMM) else p_K ref * len * MtoMM) in
  let dphis := map (fun '(v', v) => v' PS_S - v PS_S) (combine m0 (ms_m0 s)) in
  rbind (over (fun x p => add_phis p (if retreat then - (p_K p * len * MtoMM - x)
                                      else p_K p * len * MtoMM + x))
              (firstn (List.length (md_real_in d)) dphis) real) (fun real =>
  calc_rms (mkMS (if retreat then ms_pos s - len else ms_pos s + len)
                 ref real m0 m1 tm (ms_env0 s) (ms_rms s) (ms_env1 s) (ms_phi0 s))))).
Definition advance_sbend (c : tcfg) (d : mdata) (retreat : bool) (s : mstate) : mdata * res mstate :=
  let s := ms_recalc s in
  if check_cache d s then
    (d, rbind (from_cache d s) (fun '(ref, real) => finish_sbend d retreat s ref real))
  else
    let d := note_input d s in
    match recompute KSBend c d s with
    | (tm, Some e) => (with_tm d tm, Throw e)
    | (tm, None) =>
        let s := ms_recalc s in
        let d := with_out (with_tm d tm) (ms_ref s) (ms_real s) in
        (d, finish_sbend d retreat s (ms_ref s) (ms_real s))
    end.

(** ElementSource::advance, moment.cpp:779-785, with MomentState::assign,
    moment.cpp:248-263, and StateBase::assign (pos). *)
Definition advance_source (d : mdata) (retreat : bool) (s : mstate) : res mstate :=
  if retreat then Ok s else Ok (match md_istate d with Some i => i | None => s end).

(** ElementSext::advance, moment.cpp:1135-1211, for one charge state; [k] steps
    left.  The members last_* and transfer it also writes are never read by this
    class. *)
Fixpoint sext_steps (k : nat) (dL K : R) (thinlens dstkick : bool) (p : particle)
    (v : vec) (m T tm : mat) : vec * mat * mat :=
  match k with
  | O => (v, m, tm)
  | S k' =>
      let T := sext_matrix dL K (v PS_X) (v PS_Y) (m PS_X PS_X) (m PS_Y PS_Y) (m PS_X PS_Y)
                           thinlens dstkick T in
      let T := mset T PS_S PS_PS (longi p dL) in
      sext_steps k' dL K thinlens dstkick p (mapp msize T v) (sandwich T m) T (mmul msize T tm)
  end.
Definition sext_cell (c : tcfg) (d : mdata) (ref : particle) (B3 dL : R) (step : Z)
    (p : particle) (v : vec) (m : mat) : res (vec * mat * mat) :=
  let K := B3 / brho p / cube MtoMM in
  rbind (get_misalign (md_sh d) (md_len d) ref p) (fun '(M, IM) =>
  let v := mapp msize M v in
  let m := sandwich M m in
  let '(v, m, tm) := sext_steps (Z.to_nat step) dL K (is_one c "thinlens" false) (is_one c "dstkick" true)
                                p v m mid mid in
  Ok (mapp msize IM v, sandwich IM m, mmul msize IM (mmul msize tm M))).
Definition advance_sext (c : tcfg) (d : mdata) (retreat : bool) (s : mstate) : res mstate :=
  rbind (num_of c "B3") (fun B3 =>
  rbind (num_of c "L") (fun l =>
  rbind (match tfind "step" c with Some (TNum x) => cast_int x | _ => Ok 1%Z end) (fun step =>
  let s := ms_recalc s in
  if retreat then Throw RuntimeError
  else
    let dL := l * MtoMM / IZR step in
    let n := List.length (ms_real s) in
    if (Nat.ltb (List.length (ms_m0 s)) n || Nat.ltb (List.length (ms_m1 s)) n ||
        Nat.ltb (List.length (ms_tm s)) n)%bool then Throw BadIndex
    else
      rbind (rmap (fun '(p, (v, m)) => sext_cell c d (ms_ref s) B3 dL step p v m)
                  (cells (ms_real s) (ms_m0 s) (ms_m1 s))) (fun l =>
      let s := ms_recalc s in
      let step p := add_phis p (p_K p * md_len d * MtoMM) in
      rbind (over (fun x _ => fst (fst x)) l (ms_m0 s)) (fun m0 =>
      rbind (over (fun x _ => snd (fst x)) l (ms_m1 s)) (fun m1 =>
      rbind (over (fun x _ => snd x) l (ms_tm s)) (fun tm =>
      calc_rms (mkMS (ms_pos s + md_len d) (step (ms_ref s)) (map step (ms_real s)) m0 m1 tm
                     (ms_env0 s) (ms_rms s) (ms_env1 s) (ms_phi0 s))))))))).

(** ** The charge stripper, chg_stripper.cpp *)
(** chg_stripper.h:39-51. *)
Definition vec_def (c : tcfg) (n : string) (l : list R) : list R :=
  match tfind n c with Some (TVec x) => map num x | _ => l end.
(** [Stripper_Para[i]]; access beyond the end is undefined. *)
Definition at_ (l : list R) (i : nat) : res R :=
  match nth_error l i with Some x => Ok x | None => Throw Abort end.

(** Gaussian, chg_stripper.cpp:9-14. *)
Definition gaussian (x q_ave d : R) : R :=
  1 / sqrt (2 * PI) / d * exp (- (1 / 2) * sqr (x - q_ave) / sqr d).
(** StripperCharge, chg_stripper.cpp:17-26. *)
Definition stripper_charge (proton beta : R) : R * R :=
  let q1 := proton * (1 - exp (- (83275 / 1000) * (beta / Rpower proton (447 / 1000)))) in
  let q := q1 * (1 - exp (- (12905 / 1000) + 2124 / 10000 * proton - 122 / 100000 * sqr proton)) in
  let Y := q1 / proton in
  (q, sqrt (q1 * (7535 / 100000 + 19 / 100 * Y - 2654 / 10000 * sqr Y))).
(** ChargeStripper, chg_stripper.cpp:29-37. *)
Definition charge_stripper (proton mass beta : R) (chg : list R) : res (list R) :=
  if Rle_dec proton 0 then Throw NotFinite
  else
    let '(q, d) := stripper_charge proton beta in
    if Rle_dec d 0 then Throw NotFinite
    else Ok (map (fun z => gaussian (z * mass) q d) chg).

(** [for(k<6) { M(k,i) *= g; M(i,k) *= g; }], chg_stripper.cpp:129-133. *)
Definition grow1 (i : nat) (g : R) (M : mat) : mat :=
  fold_left (fun M k => let M := mset M k i (M k i * g) in mset M i k (M i k * g)) (seq 0 6) M.
(** The loop of chg_stripper.cpp:142-148. *)
Definition grow2 (gx gy : R) (M : mat) : mat :=
  fold_left (fun M k =>
    let M := mset M k 1 (M k 1%nat * gx) in
    let M := mset M 1 k (M 1%nat k * gx) in
    let M := mset M k 3 (M k 3%nat * gy) in
    mset M 3 k (M 3%nat k * gy)) (seq 0 6) M.

(** [sqrt(y/x)], chg_stripper.cpp:127, 139-140. *)
Definition growth_rate (x y : R) : res R :=
  if Req_EM_T x 0 then Throw NotFinite
  else if Rlt_dec (y / x) 0 then Throw NotFinite
  else Ok (sqrt (y / x)).
(** Stripper_GetMat, chg_stripper.cpp:54-184.  Where a denominator is zero (the
    total weight, or the spread of a momentum) the program computes NaN. *)
Definition stripper_getmat (c : tcfg) (s : mstate) : res mstate :=
  rbind (get_vec c "IonChargeStates") (fun chgd =>
  rbind (get_vec c "NCharge") (fun nchg =>
  let mdl := get_str_def c "charge_model" "baron" in
  let off := String.eqb mdl "off" in
  if (off && negb (Nat.eqb (List.length chgd) (List.length nchg)))%bool then Throw RuntimeError
  else if negb (off || String.eqb mdl "baron")%bool then Throw RuntimeError
  else
  let chg := map num chgd in
  let ionZ := num_def c "Stripper_IonZ" (78 / 238) in
  let mass := num_def c "Stripper_IonMass" 238 in
  let proton := num_def c "Stripper_IonProton" 92 in
  let E1 := num_def c "Stripper_E1Para" (28874 / 10000000) in
  let lambda := num_def c "Stripper_lambda" (5574 / 1000) in
  let upara := num_def c "Stripper_upara" (26903 / 10000) in
  let para := vec_def c "Stripper_Para" [3; 20; 16623000] in
  let e0 := vec_def c "Stripper_E0Para" [16348000; 100547 / 100000; - (10681 / 100000)] in
  rbind (if off then Ok (map num nchg)
         else match ms_real s with
              | p :: _ => charge_stripper proton mass (p_beta p) chg
              | [] => Throw BadIndex
              end) (fun amount =>
  let real := ms_real s in
  if (Nat.ltb (List.length (ms_m0 s)) (List.length real) ||
      Nat.ltb (List.length (ms_m1 s)) (List.length real))%bool then Throw BadIndex else
  let tot := total_charge real in
  let phis := rsum (map (fun p => p_Q p * p_phis p) real) / tot in
  let Ek := rsum (map (fun p => p_Q p * p_Ek p) real) / tot in
  rbind (at_ para 0) (fun para0 => rbind (at_ para 1) (fun para1 => rbind (at_ para 2) (fun para2 =>
  rbind (at_ e0 0) (fun e00 => rbind (at_ e0 1) (fun e01 => rbind (at_ e0 2) (fun e02 =>
  let Ek := (Ek - para2) * e01 + e00 in
  let env := ms_env0 s in
  let tmp : mat := fun i j =>
    rsum (map (fun '(p, (v, m)) => p_Q p * (m i j + vsub v env i * vsub v env j))
              (cells real (ms_m0 s) (ms_m1 s))) / tot in
  let stdEk := sqrt (1 / 3) * para1 / 100 * para0 * e02 in
  if Req_EM_T tot 0 then Throw NotFinite else
  if Req_EM_T lambda 0 then Throw NotFinite else
  if Rlt_dec upara 0 then Throw NotFinite else
  rbind (growth_rate (tmp 5%nat 5%nat) (tmp 5%nat 5%nat + sqr E1 + sqr stdEk)) (fun g =>
  let tmp := grow1 5 g tmp in
  let stdXYp := sqrt (upara / sqr lambda) * (1 / 1000) in
  rbind (growth_rate (tmp 1%nat 1%nat) (tmp 1%nat 1%nat + sqr stdXYp)) (fun gx =>
  rbind (growth_rate (tmp 3%nat 3%nat) (tmp 3%nat 3%nat + sqr stdXYp)) (fun gy =>
  let tmp := grow2 gx gy tmp in
  (* Stripper_Propagate_ref, chg_stripper.cpp:40-52 *)
  let r := ms_ref s in
  let ref := recalc (mkP ionZ (p_Q r) (p_Es r) (p_W r) (p_gamma r) (p_beta r) (p_bg r) (p_freq r)
                         (p_lambda r) (p_K r) (p_phis r) ((p_Ek r - para2) * e01 + e00)) in
  let real' := map (fun '(z, q) => recalc (mkP z q (p_Es ref) 0 0 0 0 (p_freq ref) 0 0 phis Ek))
                   (combine chg amount) in
  calc_rms (mkMS (ms_pos s) ref real' (map (fun _ => env) real') (map (fun _ => tmp) real')
                 (map (fun _ => mid) real') (ms_env0 s) (ms_rms s) (ms_env1 s) (ms_phi0 s)))))))))))))).

(** ElementStripper::advance, chg_stripper.cpp:186-198. *)
Definition advance_stripper (c : tcfg) (retreat : bool) (s : mstate) : res mstate :=
  rbind (calc_rms (ms_recalc s)) (fun s =>
  if retreat then Throw RuntimeError else stripper_getmat c s).

(** ** The RF cavity, rf_cavity.h:157-314 *)
(** fmod. *)
Definition fmod (x y : R) : R :=
  let q := x / y in
  x - y * IZR (if Rle_dec 0 q then Int_part q else (- Int_part (- q))%Z).
(** The scaling loop of calRFcaviEmitGrowth, rf_cavity.cpp:1614-1621. *)
Definition scale_rows (f : R * R * R) (M : mat) : mat :=
  let '(fx, fy, fz) := f in
  fold_left (fun M k =>
    let M := mset M 1 k (M 1%nat k * fx) in
    let M := mset M k 1 (M k 1%nat * fx) in
    let M := mset M 3 k (M 3%nat k * fy) in
    let M := mset M k 3 (M k 3%nat * fy) in
    let M := mset M 5 k (M 5%nat k * fz) in
    mset M k 5 (M k 5%nat * fz)) (seq 0 7) M.

(** recompute_matrix, rf_cavity.h:300-313, for one charge state. *)
Definition cav_cell (c : tcfg) (len phi : R) (p : particle) : mat * res particle :=
  let T := mset (mset mid PS_X PS_PX len) PS_Y PS_PY len in
  let '(T, r) := cav_one c phi p T in
  (T, rbind r (fun p' => Ok (set_K p' (p_K p)))).
Fixpoint cav_cells (c : tcfg) (len phi : R) (ps : list particle) (tm : list mat)
  : list mat * res (list particle) :=
  match ps, tm with
  | [], _ => (tm, Ok [])
  | p :: ps', _ :: tm' =>
      match cav_cell c len phi p with
      | (T, Throw e) => (T :: tm', Throw e)
      | (T, Ok p') =>
          let '(tm'', r) := cav_cells c len phi ps' tm' in
          (T :: tm'', rbind r (fun l => Ok (p' :: l)))
      end
  | _ :: _, [] => (tm, Throw BadIndex)
  end.

(** Forward propagation of one charge state, rf_cavity.h:224-268: moments,
    transmat, and transfer[i] as it is left. *)
Definition cav_forward (c : tcfg) (ref p_in p : particle) (M IM T : mat) (v : vec) (m : mat)
  : vec * mat * mat * mat :=
  let v := mapp msize M v in
  let x := (m 0%nat 0%nat, v PS_X, m 2%nat 2%nat, v PS_Y) in
  let T := mset (mset T PS_S 6 0) PS_PS 6 0 in
  let v := mapp msize T v in
  let s0 := p_phis p - p_phis ref in
  let s1 := (p_Ek p - p_Ek ref) / MeVtoeV in
  let T := mset (mset T PS_S 6 (- v PS_S + s0)) PS_PS 6 (- v PS_PS + s1) in
  let v := vset (vset v PS_S s0) PS_PS s1 in
  let v := mapp msize IM v in
  let m := sandwich M m in
  let m := sandwich T m in
  let m := scale_rows (cav_growth c ref p_in p m x) m in
  let m := sandwich IM m in
  (v, m, mmul msize IM (mmul msize T M), T).
(** Backward, rf_cavity.h:273-284. *)
Definition cav_backward (M IM T : mat) (v : vec) (m : mat) : res (vec * mat * mat) :=
  rbind (inverse (mmul msize IM (mmul msize T M))) (fun I =>
  Ok (mapp msize I v, sandwich I m, I)).

(** What both loops of rf_cavity.h:224-284 need of charge state [i]. *)
Definition cells_of (real : list particle) (mats : list (mat * mat * mat)) (m0 : list vec) (m1 : list mat)
  : list (particle * ((mat * mat * mat) * (vec * mat))) :=
  combine real (combine mats (combine m0 m1)).

(** The tail of advance, rf_cavity.h:221-289, on the members and the particles
    as they are then. *)
Definition cav_apply (c : tcfg) (d : mdata) (retreat : bool) (s : mstate) (ref : particle) (real : list particle)
  : mdata * res mstate :=
  let n := List.length (md_real_in d) in
  let fin pos m0 m1 tm :=
    calc_rms (mkMS pos ref real m0 m1 tm (ms_env0 s) (ms_rms s) (ms_env1 s)
                   (fmod (md_phi d * 180 / PI) 360)) in
  if (Nat.ltb (List.length (md_tm d)) n || Nat.ltb (List.length (md_mis d)) n ||
      Nat.ltb (List.length (ms_m0 s)) n || Nat.ltb (List.length (ms_m1 s)) n ||
      Nat.ltb (List.length (ms_tm s)) n || Nat.ltb (List.length real) n)%bool then (d, Throw BadIndex)
  else
  let mats := combine (md_mis d) (md_tm d) in
  if negb retreat then
    let outs := map (fun '(p_in, (p, ((M, IM, T), (v, m)))) => cav_forward c ref p_in p M IM T v m)
                    (combine (md_real_in d) (cells_of real mats (ms_m0 s) (ms_m1 s))) in
    (with_tm d (map snd outs ++ skipn n (md_tm d)),
     rbind (over (fun x _ => fst (fst (fst x))) outs (ms_m0 s)) (fun m0 =>
     rbind (over (fun x _ => snd (fst (fst x))) outs (ms_m1 s)) (fun m1 =>
     rbind (over (fun x _ => snd (fst x)) outs (ms_tm s)) (fun tm =>
     fin (ms_pos s + md_len d) m0 m1 tm))))
  else
    (d,
     rbind (rmap (fun '(_, (_, ((M, IM, T), (v, m)))) => cav_backward M IM T v m)
                 (combine (md_real_in d) (cells_of real mats (ms_m0 s) (ms_m1 s)))) (fun outs =>
     rbind (over (fun x _ => fst (fst x)) outs (ms_m0 s)) (fun m0 =>
     rbind (over (fun x _ => snd (fst x)) outs (ms_m1 s)) (fun m1 =>
     rbind (over (fun x _ => snd x) outs (ms_tm s)) (fun tm =>
     fin (ms_pos s - md_len d) m0 m1 tm))))).

(** get_misalign for every charge state, rf_cavity.h:190-191. *)
Definition cav_misalign (d : mdata) (ref : particle) (real : list particle)
  : list (mat * mat) * option exn :=
  run_cells (fun p MM => match get_misalign (md_sh d) (md_len d) ref p with
                         | Ok MM' => (MM', None)
                         | Throw e => (MM, Some e)
                         end) real (md_mis d).

(** ElementRFCavity::advance, rf_cavity.h:157-290. *)
Definition advance_cav (c : tcfg) (d : mdata) (retreat : bool) (s : mstate) : mdata * res mstate :=
  let s := ms_recalc s in
  if retreat then
    if negb (check_backward d s) then (d, Throw RuntimeError)
    else
      match md_ref_in d, md_ref_out d with
      | Some rin, Some rout =>
          let back i o p := set_Ek (add_phis p (- (p_phis o - p_phis i))) (p_Ek i) in
          let ref := back rin rout (ms_ref s) in
          if Nat.ltb (List.length (md_real_out d)) (List.length (md_real_in d)) then (d, Throw BadIndex)
          else
            match over (fun '(i, o) p => back i o p) (combine (md_real_in d) (md_real_out d)) (ms_real s) with
            | Throw e => (d, Throw e)
            | Ok real =>
                match cav_misalign d ref (firstn (List.length (md_real_in d)) real) with
                | (mis, Some e) => (with_mis d mis, Throw e)
                | (mis, None) => cav_apply c (with_mis d mis) true s (recalc ref) (map recalc real)
                end
            end
      | _, _ => (d, Throw Abort)      (* check_backward fails on the NaN fields *)
      end
  else if check_cache d s then
    match from_cache d s with
    | Throw e => (d, Throw e)
    | Ok (ref, real) => cav_apply c d false s ref real
    end
  else
    let d := note_input d s in
    match cav_ref c (ms_ref s) with
    | Throw e => (d, Throw e)
    | Ok (ref, phi) =>
        let d := with_phi d phi in
        match cav_cells c (md_len d) phi (ms_real s) (md_tm d) with
        | (tm, Throw e) => (with_tm d tm, Throw e)
        | (tm, Ok real) =>
            let d := with_tm d tm in
            match cav_misalign d ref real with
            | (mis, Some e) => (with_mis d mis, Throw e)
            | (mis, None) =>
                let ref := recalc ref in
                let real := map recalc real in
                cav_apply c (with_out (with_mis d mis) ref real) false s ref real
            end
        end
    end.

(** ** The classes *)
Definition mkind_name (k : mkind) : string :=
  match k with
  | KSource => "source" | KMark => "marker" | KBPM => "bpm" | KDrift => "drift"
  | KOrbTrim => "orbtrim" | KSBend => "sbend" | KQuad => "quadrupole" | KSext => "sextupole"
  | KSolenoid => "solenoid" | KRFCavity => "rfcavity" | KStripper => "stripper"
  | KEDipole => "edipole" | KEQuad => "equad" | KTMatrix => "tmatrix"
  end.
Definition mkind_id (k : mkind) : nat :=
  match k with
  | KSource => 200 | KMark => 201 | KBPM => 202 | KDrift => 203 | KOrbTrim => 204 | KSBend => 205
  | KQuad => 206 | KSext => 207 | KSolenoid => 208 | KRFCavity => 209 | KStripper => 210
  | KEDipole => 211 | KEQuad => 212 | KTMatrix => 213
  end.

(** The virtual advance(). *)
Definition advance_of (k : mkind) (c : tcfg) (d : mdata) (retreat : bool) (s : mstate)
  : mdata * res mstate :=
  match k with
  | KSource => (d, advance_source d retreat s)
  | KSBend => advance_sbend c d retreat s
  | KSext => (d, advance_sext c d retreat s)
  | KStripper => (d, advance_stripper c retreat s)
  | KRFCavity => advance_cav c d retreat s
  | _ => advance_base k c d retreat s
  end.
Definition mom_advance (k : mkind) (b : ebase) (d : mdata) (st : pstate mstate)
  : mdata * res (pstate mstate) :=
  let '(d', r) := advance_of k (eb_conf b) d (st_retreat st) (st_body st) in
  (d', rbind r (fun s' => Ok (mkSt (st_next st) (st_retreat st) s'))).

(** The constructors: moment.cpp:549-559 with base.cpp (length), then 777, 814,
    828, 842, 871, 925-930, 1057, 1128, 1221, 1288, 1372, 1448,
    chg_stripper.h:77-81, rf_cavity.cpp:692-696. *)
Definition mom_ctor (k : mkind) (c : tcfg) : res mdata :=
  let len := match k with
             | KMark | KBPM | KOrbTrim | KStripper => 0
             | _ => num_def c "L" 0
             end in
  let sh := mkSh (num_def c "dx" 0 * MtoMM) (num_def c "dy" 0 * MtoMM)
                 (num_def c "pitch" 0) (num_def c "yaw" 0) (num_def c "roll" 0) in
  let skip := match tfind "skipcache" c with Some (TNum x) => negb (deq x dzero) | _ => false end in
  let base fit ist := mkMD len sh skip None [] None [] [] [] fit ist 0 in
  match k with
  | KSource => rbind (new_state c) (fun s => Ok (base 0%N (Some s)))
  | KSBend =>
      rbind (get_flag c "HdipoleFitMode" 1) (fun fit =>
      if (N.eqb fit 0 || N.eqb fit 1)%bool then Ok (base fit None) else Throw RuntimeError)
  | KRFCavity => rbind (cav_ctor c) (fun _ => Ok (base 0%N None))
  | _ => Ok (base 0%N None)
  end.
(** assign, moment.cpp:563-580 with 800-804, 934-938 and rf_cavity.h:139-155: every
    modelled member comes from the other element. *)
Definition mom_assign (dst src : mdata) : mdata := src.

Definition mom_class (k : mkind) : class mdata mstate :=
  mkCls (mkind_id k) (mkind_name k) (mom_ctor k) mom_assign (mom_advance k).

(** registerMoment, moment.cpp:1464-1495. *)
Definition mom_kinds : list mkind :=
  [KSource; KMark; KBPM; KDrift; KOrbTrim; KSBend; KQuad; KSext; KSolenoid; KRFCavity;
   KStripper; KEDipole; KEQuad; KTMatrix].
Definition mom_elems : smap (class mdata mstate) :=
  fold_left (fun m k => sset (mkind_name k) (mom_class k) m) mom_kinds [].
Definition mom_info : sinfo mdata mstate := mkSI new_state mom_elems.
Definition moment_reg : registry mdata mstate := [("MomentMatrix", mom_info)].

End Moment.
