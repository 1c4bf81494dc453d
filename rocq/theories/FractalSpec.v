(** Specification vocabulary for fractal surfaces (C66, C102). *)
From Coq Require Import Reals List Bool Arith ZArith.
From Verif Require Import SurfaceModel ConvSpec PerezSpec.
Import ListNotations.
Local Open Scope R_scope.

(** An array with the zero frequency in the middle: the value at minus a frequency is the one (or minus the one) at the
    frequency. *)
Definition even_centred (sign : R) (a : grid) : Prop :=
  forall i j, (i < rows a)%nat -> (j < cols a)%nat ->
    at_ a (minus_freq (rows a) i) (minus_freq (cols a) j) = sign * at_ a i j.

(** The wave number of the [k]th Fourier coefficient of [n] points: the second half stands for negative frequencies. *)
Definition wave (n : nat) (spacing : R) (k : nat) : R :=
  2 * PI * (if Nat.ltb k (n / 2) then INR k else INR k - INR n) / (INR n * spacing).
(** The density of a self affine surface: a power of the magnitude of the wave vector, constant below the roll off. *)
Definition self_affine (hurst qr qx qy : R) : R :=
  let q := sqrt (qx ^ 2 + qy ^ 2) in Rpower (Rmax q qr) (-2 * (hurst + 1)).
(** The density wanted for an array with [n] rows and [m] columns, without a constant part. *)
Definition density (hurst qr spacing : R) (n m k l : nat) : R :=
  if Nat.eqb k 0 && Nat.eqb l 0 then 0 else self_affine hurst qr (wave m spacing l) (wave n spacing k).
(** The frequencies which are their own opposite. *)
Definition own_opposite (n m k l : nat) : bool :=
  (Nat.eqb k 0 || Nat.eqb k (n / 2)) && (Nat.eqb l 0 || Nat.eqb l (m / 2)).
