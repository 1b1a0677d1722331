(** Analog records with whole scales and offsets: the conversion of EPICS's analog
    records, in whole numbers. *)
From Coq Require Import ZArith Bool.
From Verif Require Import Dbl Ioc_Model.
Local Open Scope Z_scope.

Record zana := mkZA { z_aslo : Z; z_aoff : Z; z_linr : bool; z_eslo : Z; z_eoff : Z }.
Definition fields (a : zana) : ana :=
  mkAna (d_of_Z (z_aslo a)) (d_of_Z (z_aoff a)) (z_linr a) (d_of_Z (z_eslo a)) (d_of_Z (z_eoff a)).
(** A double holds it exactly. *)
Definition whole (z : Z) : Prop := Z.abs z < 2 ^ 53.
(** The number of the device, scaled and moved: by ASLO unless it is zero and AOFF, then,
    if LINR asks for it and ESLO is not zero, by ESLO and EOFF. *)
Definition raw (a : zana) (n : Z) : Z := (if z_aslo a =? 0 then n else n * z_aslo a) + z_aoff a.
Definition eng (a : zana) (n : Z) : Z :=
  if (z_linr a && negb (z_eslo a =? 0))%bool then raw a n * z_eslo a + z_eoff a else raw a n.
(** All numbers on the way are held exactly. *)
Definition fits (a : zana) (n : Z) : Prop :=
  whole n /\ whole (z_aslo a) /\ whole (z_aoff a) /\ whole (z_eslo a) /\ whole (z_eoff a) /\
  whole (n * z_aslo a) /\ whole (raw a n) /\ whole (raw a n * z_eslo a) /\ whole (eng a n).
