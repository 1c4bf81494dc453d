(** Specification vocabulary for fits of distributions (C67, C103). *)
From Coq Require Import Reals List Bool Arith.
Import ListNotations.
Local Open Scope R_scope.

(** Sums of exponentials of a standard normal number [Z]: the terms [(c, s)] stand for [c exp (s Z)]. *)
Definition expsum := list (R * R).
Definition value (f : expsum) (z : R) : R := fold_right (fun t a => fst t * exp (snd t * z) + a) 0 f.
(** The expected value: that of [exp (s Z)] is [exp (s^2 / 2)]. *)
Definition expect (f : expsum) : R := fold_right (fun t a => fst t * exp (snd t ^ 2 / 2) + a) 0 f.
Definition times (f g : expsum) : expsum := flat_map (fun a => map (fun b => (fst a * fst b, snd a + snd b)) g) f.
Fixpoint power (f : expsum) (k : nat) : expsum := match k with O => [(1, 0)] | S k' => times f (power f k') end.
(** Central moments. *)
Definition less_mean (f : expsum) : expsum := (- expect f, 0) :: f.
Definition central (f : expsum) (k : nat) : R := expect (power (less_mean f) k).
(** The square of the skewness. *)
Definition squared_skew (f : expsum) : R := central f 3 ^ 2 / central f 2 ^ 3.

(** Moments of a distribution with two values, [x] with probability [q] and otherwise [y]. *)
Definition two_mean (x y q : R) : R := q * x + (1 - q) * y.
Definition two_central (x y q : R) (k : nat) : R :=
  q * (x - two_mean x y q) ^ k + (1 - q) * (y - two_mean x y q) ^ k.
