(** Specification of autocorrelations. *)
From Coq Require Import Reals List Bool Arith ZArith.
From Verif Require Import SurfaceModel ConvModel ConvSpec.
Import ListNotations.
Local Open Scope R_scope.

(** The sum over all pairs of indices a distance [t] apart, both below [n]. *)
Definition pairs (n : nat) (t : Z) (f : nat -> nat -> R) : R :=
  total n (fun a => if Z.leb 0 (Z.of_nat a + t) && Z.ltb (Z.of_nat a + t) (Z.of_nat n) then f a (Z.to_nat (Z.of_nat a + t)) else 0).
(** The products of all pairs of heights a lag apart, over the number of heights. *)
Definition autocovariance (p : grid) (di dj : Z) : R :=
  pairs (rows p) di (fun a a' => pairs (cols p) dj (fun b b' => at_ p a b * at_ p a' b')) / (INR (rows p) * INR (cols p)).
Definition mean_square (p : grid) : R := total2 (rows p) (cols p) (fun i j => at_ p i j ^ 2) / (INR (rows p) * INR (cols p)).
(** The lag of an index: none in the middle. *)
Definition lag (n i : nat) : Z := Z.of_nat i - Z.of_nat (n / 2).
(** A spline through given values. *)
Definition through (spline : nat -> (nat -> R) -> nat -> (nat -> R) -> (nat -> nat -> R) -> R -> R -> R) : Prop :=
  forall n x m y v i j, (i < n)%nat -> (j < m)%nat -> spline n x m y v (x i) (y j) = v i j.
(** A surface with one height that isn't zero, at the first point. *)
Definition spike (n m : nat) (h : R) : grid := Grid n m (fun i j => if Nat.eqb i 0 && Nat.eqb j 0 then h else 0).
