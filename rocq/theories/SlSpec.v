(** Specification for the Johnson SL distributions (C123): numbers [loc + scale * exp ((z - a) / b)] for a standard normal
    [z]. *)
From Coq Require Import Reals.
From Coquelicot Require Import Coquelicot.
Local Open Scope R_scope.

(** A normal distribution function and its quantiles: the bell curve is its derivative. *)
Definition normal (Phi Quant : R -> R) : Prop :=
  (forall x, is_derive Phi x (exp (- x ^ 2 / 2) / sqrt (2 * PI))) /\ (forall z, Quant (Phi z) = z).
(** The number made from [z] *)
Definition number (a b loc scale z : R) : R := loc + scale * exp ((z - a) / b).
(** [F] is the distribution function of these numbers at [x]: numbers at most [x] are made from normal numbers at most
    [z], where [x] is made from [z]. *)
Definition distributed (Phi : R -> R) (a b loc scale x p : R) : Prop :=
  exists z, x = number a b loc scale z /\ (forall y, number a b loc scale y <= x <-> y <= z) /\ p = Phi z.
