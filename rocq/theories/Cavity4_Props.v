(** C64: in exact arithmetic, the matrix of an RF cavity with two gaps is that of the
    motion through its pieces; and C52 and C56 again. *)
From Coq Require Import Reals List String Bool NArith ZArith Lia Lra.
From Verif Require Import SMap Dbl Config_Spec Mat Machine_Model Moment_Model Moment_Spec Cavity_Model Cavity_Spec Cavity3_Spec Cavity4_Spec Cavity2_Spec.
From Verif Require Import Moment2_Proofs Cavity5_Proofs Cavity12_Proofs Cavity13_Proofs Cavity14_Proofs.
Import ListNotations.
Open Scope R_scope.
Open Scope string_scope.
Open Scope list_scope.

(** ** C64 *)

(** [p] is the particle as it comes in, [T] the matrix before, [phi] the phase of the
    cavity, [cv] what has been read from the data files.  There is a way of the
    particle through both gaps (found from the energy and phase at the entrance)
    along which the rays are taken from piece to piece; deviations of phase and
    energy go through both gaps; and with one gap in each half the area of both
    transverse planes shrinks as the momentum grows. *)
Theorem C64_two_gaps : forall w files c phi p T p' cv scl Rm label,
  snd (w_cav_one (with_cavities w files) c phi p T) = Ok p' -> load_cavity w files c = Ok cv ->
  In (cv_cavi cv, (label, Rm)) two_gaps ->
  num_of w c "scl_fac" = Ok scl -> 0 < p_Es p -> cv_f cv <> 0 ->
  let n := cv_f cv / p_freq p in
  let M := fst (w_cav_one (with_cavities w files) c phi p T) in
  exists x, e0 x = p_Ek p + p_Es p /\ f0 x = n * p_phis p + phi /\ on_its_way cv p scl label (table_length cv / 2) x /\
    (forall r u1 u2, let r' := through2_all cv p scl Rm x (cv_lat cv) (fst (hd (0, 0) (cv_data cv))) (at_entry p x) r in
      mapp msize M (ray_vec r u1 u2) 0%nat = Cavity3_Spec.x r' /\ mapp msize M (ray_vec r u1 u2) 1%nat = x' r' /\
      mapp msize M (ray_vec r u1 u2) 2%nat = y r' /\ mapp msize M (ray_vec r u1 u2) 3%nat = y' r') /\
    (forall a b, (n * (M 4%nat 4%nat * a + M 4%nat 5%nat * b), M 5%nat 4%nat * a + M 5%nat 5%nat * b) =
                 deviations cv p x (table_length cv / 2) (n * a, b)) /\
    (gap_halves (cv_lat cv) (fst (hd (0, 0) (cv_data cv))) = [true; false] ->
     det_at M 0 = momentum_at p (e0 x) / momentum_at p (e2 x) /\ det_at M 2 = momentum_at p (e0 x) / momentum_at p (e2 x)).
Proof. exact element_two_gaps. Qed.
Print Assumptions C64_two_gaps.
(** A cavity with seven pieces that does something. *)
Example C64_two_gaps_ex : let w := world0 num01 true in exists p',
  snd (w_cav_one (with_cavities w files5) cavity5 0 slow mid) = Ok p' /\ load_cavity w files5 cavity5 = Ok loaded5 /\
  In (cv_cavi loaded5, (41%nat, 17)) two_gaps /\ num_of w cavity5 "scl_fac" = Ok 1 /\ 0 < p_Es slow /\ cv_f loaded5 <> 0 /\
  gap_halves (cv_lat loaded5) (fst (hd (0, 0) (cv_data loaded5))) = [true; false].
Proof.
  destruct (one5 true 0 mid) as [p' H]. exists p'. split; [exact H|]. split; [apply load5|]. split; [left; reflexivity|]. split; [reflexivity|].
  split; [cbn; lra|]. split; [cbn; lra|]. apply halves5.
Qed.

(** ** C52 *)

(** A particle whose kinetic energy exceeds what the field could take from it
    comes out at an energy above its rest energy. *)
Theorem C52_fast_enough : forall asserts cv p E F scl, enters cv p E -> Rabs (p_Z p * scl) * field_integral cv < E - p_Es p ->
  exists E' F', boost asserts cv p E F scl = Ok (Some (E', F')) /\ p_Es p < E'.
Proof. exact fast_enough. Qed.
Print Assumptions C52_fast_enough.
Example C52_fast_enough_ex : enters loaded5 slow 2 /\ Rabs (p_Z slow * 1) * field_integral loaded5 < 2 - p_Es slow.
Proof. exact enough5. Qed.

(** ** C56 *)

(** A cavity of one of the four types with data files of their own is only built if the
    tables have rows and these have the columns that will be read: two for the field
    on the axis, seven for the multipoles. *)
Theorem C56_narrow_tables_refused : forall w files c x t n,
  mom_ctor (with_cavities w files) KRFCavity c = Ok x -> tfind "cavtype" c = Some (TStr t) -> In (t, n) named_types ->
  let dir := get_str_def c "Eng_Data_Dir" (w_defpath w) in
  exists axis mlp, cf_table files (dir ++ "/axisData_" ++ n ++ ".txt")%string = Ok axis /\ wide 2 axis /\
    cf_table files (dir ++ "/Multipole" ++ n ++ "/CaviMlp_" ++ n ++ ".txt")%string = Ok mlp /\ wide 7 mlp.
Proof. exact wide_tables. Qed.
Print Assumptions C56_narrow_tables_refused.
Example C56_narrow_tables_refused_ex : exists x, mom_ctor (with_cavities (world0 num01 true) files5) KRFCavity cavity5 = Ok x /\
  tfind "cavtype" cavity5 = Some (TStr "0.041QWR") /\ In ("0.041QWR", "41") named_types.
Proof.
  eexists. split; [|split; [reflexivity|left; reflexivity]]. unfold mom_ctor. cbn [w_cav_ctor with_cavities]. rewrite load5. reflexivity.
Qed.
