(** Specification vocabulary for influence coefficients (C36, C74 to C76). *)
From Coq Require Import String List Bool Arith ZArith Reals.
From Coquelicot Require Import Coquelicot.
Local Open Scope R_scope.

(** An index difference in the span of an influence matrix with n points on this axis. *)
Definition in_span (n : nat) (d : Z) : Prop :=
  (0 <= d + Z.of_nat ((n - 1) / 2) < Z.of_nat n)%Z.

(** The integral of 1 / distance over the rectangle [x0, x1] x [y0, y1]: the displacement by a
    uniform pressure on it is (1 - v) / (2 pi G) times this. *)
Definition integral (x0 x1 y0 y1 : R) : R :=
  RInt (fun y => RInt (fun x => / sqrt (x ^ 2 + y ^ 2)) x0 x1) y0 y1.
(** The same, integrated in the other order. *)
Definition integral' (x0 x1 y0 y1 : R) : R :=
  RInt (fun x => RInt (fun y => / sqrt (x ^ 2 + y ^ 2)) y0 y1) x0 x1.
