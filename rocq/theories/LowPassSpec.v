(** What the low pass filter adds up (C129). *)
From Coq Require Import Reals List Bool Arith ZArith.
From Verif Require Import Flt RoughModel RoughSpec.
Local Open Scope R_scope.

(** The ideal filter in two dimensions with the cut off [k], in periods per point, answers at a distance [d] with
    k J1(2 pi k d) / d; [j1] is the Bessel function. *)
Definition answer (j1 : R -> R) (k d : R) : R := k * j1 (2 * PI * k * d) / d.
(** What is added at the point (i, j) for a unit height at (a, b); it should be the answer at their distance. On a profile with [r] rows and [c] columns both differences are moved by half of the size in the other direction and one point,
    and points outside of this quadrant do not answer. *)
Definition actual (j1 : R -> R) (k : R) (r c i j a b : nat) : R :=
  let x := (Z.of_nat i - Z.of_nat a + Z.of_nat ((c - 1) / 2))%Z in
  let y := (Z.of_nat j - Z.of_nat b + Z.of_nat ((r - 1) / 2))%Z in
  if (0 <=? x)%Z && (x <? Z.of_nat c)%Z && (0 <=? y)%Z && (y <? Z.of_nat r)%Z
  then answer j1 k (sqrt (IZR (y + 1) ^ 2 + IZR (x + 1) ^ 2)) else 0.
(** A surface that is zero but for one point. *)
Definition peak_at (a b : nat) (A : R) (i j : nat) : R := if Nat.eqb i a && Nat.eqb j b then A else 0.
