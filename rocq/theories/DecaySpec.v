(** Specification vocabulary for C126. *)
From Coq Require Import ZArith Reals.
Local Open Scope R_scope.

(** (x, y) is inside of the cell b columns and a rows away in a grid with square cells of size h. *)
Definition inside_cell (h : R) (a b : Z) (x y : R) : Prop :=
  h * (IZR b - 1 / 2) < x < h * (IZR b + 1 / 2) /\ h * (IZR a - 1 / 2) < y < h * (IZR a + 1 / 2).
