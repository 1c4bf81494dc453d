(** Specification vocabulary for gaps (C30 to C33). *)
From Coq Require Import List Bool Arith ZArith Reals.
From Verif Require Import SurfaceModel GapModel.
Local Open Scope R_scope.

(** The smallest value of an array is [m]: it is taken at some point and no point is below. *)
Definition smallest (g : grid) (m : R) : Prop :=
  (exists i j, (i < rows g)%nat /\ (j < cols g)%nat /\ at_ g i j = m) /\
  (forall i j, (i < rows g)%nat -> (j < cols g)%nat -> m <= at_ g i j).

(** A surface whose extent is its shape times the spacing. *)
Definition regular (d : dsurf) : Prop :=
  0 < d_gs d /\ d_extent d = (INR (rows (d_prof d)) * d_gs d, INR (cols (d_prof d)) * d_gs d).

(** Two surfaces laid over each other with the second one moved by [k] points, in one
    direction: the first point of the first surface in the overlap and the number of points. *)
Definition overlap_first (k : Z) : nat := Z.to_nat (- k).
Definition overlap_size (n1 n2 : nat) (k : Z) : nat :=
  Z.to_nat (Z.min (Z.of_nat n1) (Z.of_nat n2 - k) - Z.max (- k) 0).
