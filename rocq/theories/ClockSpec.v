(** Specification for the clock in double precision (C124). *)
From Coq Require Import ZArith Reals List.
From Flocq Require Import Core.
From Verif Require Import RequestModel RequestSpec.
Import ListNotations.
Local Open Scope R_scope.

(** The times a step of [n] sub steps should have *)
Definition even_times (t0 period : R) (n : nat) : list R := map (fun i => t0 + INR (S i) * (period / INR n)) (seq 0 n).
(** A whole number of units of [2 ^ e], few enough for 53 digits *)
Definition whole (e : Z) (x : R) : Prop := exists z, x = IZR z * bpow radix2 e.
Definition small (e : Z) (x : R) : Prop := Rabs x < bpow radix2 (e + 53).
(** 1 / 10 and 1 / 5 as doubles are [tenth] and [tenth * 2]; the double below 1 *)
Definition below_one : R := 1 - bpow radix2 (-53).
