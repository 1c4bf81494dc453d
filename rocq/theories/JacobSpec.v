(** Specification vocabulary for Jacobians (C121). *)
From Coq Require Import List Bool Arith ZArith Reals.
From Verif Require Import SurfaceModel ConvSpec.
Import ListNotations.
Local Open Scope R_scope.

(** Points of an array of shape (m, n) are numbered row by row. *)
Definition number (n i j : nat) : nat := (i * n + j)%nat.
Definition entry (jac : list (list R)) (row column : nat) : R := nth column (nth row jac []) 0.
(** A Jacobian has a row and a column for each point. *)
Definition square (m n : nat) (jac : list (list R)) : Prop :=
  List.length jac = (m * n)%nat /\ forall row, In row jac -> List.length row = (m * n)%nat.
(** The displacement of the point (i, j) by these loads, as the Jacobian gives it. *)
Definition by_jacobian (jac : list (list R)) (loads : grid) (i j : nat) : R :=
  total2 (rows loads) (cols loads) (fun p q =>
    entry jac (number (cols loads) i j) (number (cols loads) p q) * at_ loads p q).
(** An influence matrix with a point in the middle, the same (or the opposite) on both sides of it. *)
Definition has_middle (im : grid) : Prop := Nat.odd (rows im) = true /\ Nat.odd (cols im) = true.
Definition even_im (im : grid) : Prop := forall di dj, coeff im (- di) (- dj) = coeff im di dj.
Definition odd_im (im : grid) : Prop := forall di dj, coeff im (- di) (- dj) = - coeff im di dj.
