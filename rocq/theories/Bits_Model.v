(** The arithmetic of propagation in doubles: products of matrices, phases and
    envelopes as they are rounded.  Every operation is rounded by itself (no x87
    registers, no fused multiply-add).  Vectors and matrices are functions of the
    index, of which only those below 6 or 7 are used.  The cache of the elements is
    left out (C33), as are bends, cavities, sextupoles and strippers, whose
    advance() differs. *)
From Coq Require Import List ZArith Floats.SpecFloat.
From Verif Require Import Dbl.
Import ListNotations.

Definition fvec := nat -> double.
Definition fmat := nat -> nat -> double.

(** The inner loop of ublas prod(): [t = 0; t += a(k)*b(k)]; used in linear.h:58,
    moment.cpp:701-704. *)
Definition fdot (n : nat) (a b : fvec) : double :=
  fold_left (fun t k => dadd t (dmul (a k) (b k))) (seq 0 n) dzero.
Definition fapp (n : nat) (T : fmat) (v : fvec) : fvec := fun i => fdot n (T i) v.
Definition fmul (n : nat) (A B : fmat) : fmat := fun i j => fdot n (A i) (fun k => B k j).
(** trans(), moment.cpp:704. *)
Definition ftr (A : fmat) : fmat := fun i j => A j i.
(** identity_matrix<double>, linear.h:24, moment.cpp:765. *)
Definition fid : fmat := fun i j => if Nat.eqb i j then done else dzero.
Definition fset (A : fmat) (a b : nat) (x : double) : fmat :=
  fun i j => if (Nat.eqb i a && Nat.eqb j b)%bool then x else A i j.

(** sqrt(). *)
Definition dsqrt (x : double) : double := SFsqrt dprec demax x.
(** constants.h:14-28: MtoMM, MeVtoeV, M_PI, C0. *)
Definition d1000 : double := d_of_Z 1000.
Definition dmega : double := d_of_Z 1000000.
Definition dpi : double := S754_finite false 7074237752028440 (-51).
Definition dc0 : double := d_of_Z 299792458.
Definition dtwo : double := d_of_Z 2.

(** ** Vector and TransferMatrix *)
(** LinearElementBase::advanceT, linear.h:54-59, for VectorState. *)
Record flin := mkFL { fl_pos : double; fl_state : fvec }.
Definition lin_advance (e : double * fmat) (s : flin) : flin :=
  mkFL (dadd (fl_pos s) (fst e)) (fapp 6 (snd e) (fl_state s)).
(** The same for MatrixState. *)
Record fmst := mkFM { fm_pos : double; fm_state : fmat }.
Definition mat_advance (e : double * fmat) (s : fmst) : fmst :=
  mkFM (dadd (fm_pos s) (fst e)) (fmul 6 (snd e) (fm_state s)).

(** ** MomentMatrix *)
(** Particle, moment.h:21-32. *)
Record fpart := mkFP {
  fZ : double; fQ : double; fEs : double; fW : double; fgamma : double; fbeta : double; fbg : double;
  ffreq : double; flambda : double; fK : double; fphis : double; fEk : double }.
(** Particle::recalc, moment.h:46-53. *)
Definition frecalc (p : fpart) : fpart :=
  let W := dadd (fEs p) (fEk p) in
  let gamma := if deq (fEs p) dzero then done else ddiv W (fEs p) in
  let beta := dsqrt (dsub done (ddiv done (dmul gamma gamma))) in
  let bg := if deq beta dzero then done else dmul beta gamma in
  let lambda := dmul (ddiv dc0 (ffreq p)) d1000 in
  let K := ddiv (dmul dtwo dpi) (dmul beta lambda) in
  mkFP (fZ p) (fQ p) (fEs p) W gamma beta bg (ffreq p) lambda K (fphis p) (fEk p).
Definition set_phis (x : double) (p : fpart) : fpart :=
  mkFP (fZ p) (fQ p) (fEs p) (fW p) (fgamma p) (fbeta p) (fbg p) (ffreq p) (flambda p) (fK p) x (fEk p).
(** [phis += SampleIonK*length*MtoMM], moment.cpp:677-679. *)
Definition fstep (len : double) (p : fpart) : fpart :=
  set_phis (dadd (fphis p) (dmul (dmul (fK p) len) d1000)) p.

(** One charge state: real[k], moment0[k], moment1[k], transmat[k]. *)
Record fcell := mkFC { c_p : fpart; c_m0 : fvec; c_m1 : fmat; c_tm : fmat }.
Record fstate := mkFS {
  f_pos : double; f_ref : fpart; f_cells : list fcell; f_env0 : fvec; f_rms : fvec; f_env1 : fmat }.

(** MomentState::calc_rms, moment.cpp:201-233. *)
Definition ftotal (cs : list fcell) : double := fold_left (fun t c => dadd t (fQ (c_p c))) cs dzero.
Definition fsum0 (cs : list fcell) (old : fvec) : fvec :=
  match cs with
  | [] => old
  | c :: cs' => fold_left (fun v c i => dadd (v i) (dmul (c_m0 c i) (fQ (c_p c)))) cs'
                          (fun i => dmul (c_m0 c i) (fQ (c_p c)))
  end.
Definition fenv0 (cs : list fcell) (old : fvec) : fvec := fun i => ddiv (fsum0 cs old i) (ftotal cs).
(** Rows and columns 0 to 5 only. *)
Definition fsum1 (cs : list fcell) (e : fvec) : fmat :=
  fold_left (fun m c i j =>
      if (Nat.ltb i 6 && Nat.ltb j 6)%bool then
        dadd (m i j) (dmul (fQ (c_p c))
          (dadd (c_m1 c i j) (dmul (dsub (c_m0 c i) (e i)) (dsub (c_m0 c j) (e j)))))
      else m i j) cs (fun _ _ => dzero).
Definition fenv1 (cs : list fcell) (e : fvec) : fmat := fun i j => ddiv (fsum1 cs e i j) (ftotal cs).
Definition fcalc (s : fstate) : fstate :=
  let e0 := fenv0 (f_cells s) (f_env0 s) in
  let e1 := fenv1 (f_cells s) e0 in
  mkFS (f_pos s) (f_ref s) (f_cells s) e0 (fun j => dsqrt (e1 j j)) e1.

(** An element: its length and what recompute_matrix() makes of the reference
    particle and a charge state. *)
Record felem := mkFE { e_len : double; e_mat : fpart -> fpart -> fmat }.

(** MomentElementBase::advance forward, moment.cpp:658-708, 725, matrices
    recomputed. *)
Definition fcell_step (e : felem) (ref : fpart) (c : fcell) : fcell :=
  let T := e_mat e ref (c_p c) in
  mkFC (fstep (e_len e) (c_p c)) (fapp 7 T (c_m0 c)) (fmul 7 (fmul 7 T (c_m1 c)) (ftr T)) T.
Definition frecalc_cell (c : fcell) : fcell := mkFC (frecalc (c_p c)) (c_m0 c) (c_m1 c) (c_tm c).
Definition fadvance (e : felem) (s : fstate) : fstate :=
  let ref := frecalc (f_ref s) in
  let cs := map frecalc_cell (f_cells s) in
  fcalc (mkFS (dadd (f_pos s) (e_len e)) (fstep (e_len e) ref) (map (fcell_step e ref) cs)
              (f_env0 s) (f_rms s) (f_env1 s)).
(** Machine::propagate over a line of such elements, base.cpp:133-188. *)
Definition frun (es : list felem) (s : fstate) : fstate := fold_left (fun s e => fadvance e s) es s.

(** ElementMark and ElementBPM, moment.cpp:760-767, 806-833: length 0. *)
Definition fmarker : felem := mkFE dzero (fun _ _ => fid).
(** ElementDrift, moment.cpp:848-861. *)
Definition fdrift (len : double) : felem :=
  mkFE len (fun _ p =>
    let L := dmul len d1000 in
    let T := fset (fset fid 0 1 L) 2 3 L in
    fset T 4 5 (dmul (ddiv (dmul (dopp dtwo) dpi)
                           (dmul (ddiv (dmul (flambda p) (fEs p)) dmega)
                                 (dmul (dmul (fbg p) (fbg p)) (fbg p)))) L)).
