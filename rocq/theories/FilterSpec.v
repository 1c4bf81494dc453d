(** Specification vocabulary for random surfaces made by a filter (C63 to C65, C101). *)
From Coq Require Import Reals List Bool Arith.
From Verif Require Import SurfaceModel ConvSpec.
Import ListNotations.
Local Open Scope R_scope.

(** The autocorrelation of an array at a lag: the sum of all products of two entries that far apart. *)
Definition autocorrelation (a : grid) (p q : nat) : R :=
  total2 (rows a - p) (cols a - q) (fun k l => at_ a k l * at_ a (k + p) (l + q)).
Definition same_shape (a b : grid) : Prop := rows a = rows b /\ cols a = cols b.

(** The array with one entry changed. *)
Definition set_entry (a : grid) (i j : nat) (x : R) : grid :=
  Grid (rows a) (cols a) (fun k l => if Nat.eqb k i && Nat.eqb l j then x else at_ a k l).

(** The squared distance of the autocorrelation of a filter from a target. *)
Definition misfit (t a : grid) : R :=
  total2 (rows t) (cols t) (fun p q => (at_ t p q - autocorrelation a p q) ^ 2).

(** The mean over all realisations of the noise: linear, and the noise is white. *)
Definition mean_value (E : ((nat -> nat -> R) -> R) -> R) : Prop :=
  (forall f g, (forall w, f w = g w) -> E f = E g) /\
  (forall f g, E (fun w => f w + g w) = E f + E g) /\ (forall c f, E (fun w => c * f w) = c * E f).
Definition white (E : ((nat -> nat -> R) -> R) -> R) (r c : nat) : Prop :=
  forall i j k l, (i < r)%nat -> (j < c)%nat -> (k < r)%nat -> (l < c)%nat ->
    E (fun w => w i j * w k l) = if Nat.eqb i k && Nat.eqb j l then 1 else 0.

(** Skew and kurtosis of a weighted sum of independent equally distributed numbers (Manesh et al. 2010, as cited). *)
Definition sum_skew (alpha : list R) (skew : R) : R :=
  skew * total (List.length alpha) (fun i => nth i alpha 0 ^ 3) /
  Rpower (total (List.length alpha) (fun i => nth i alpha 0 ^ 2)) (3 / 2).
Definition sum_kurtosis (alpha : list R) (kurtosis : R) : R :=
  let q := List.length alpha in
  (kurtosis * total q (fun i => nth i alpha 0 ^ 4) +
   6 * total q (fun j => total j (fun i => nth i alpha 0 ^ 2 * nth j alpha 0 ^ 2))) /
  total q (fun i => nth i alpha 0 ^ 2) ^ 2.

(** A minimiser which finds a zero of the objective if there is one. *)
Definition finds_zero (minimise : (list R -> R) -> (list R -> list R) -> list R -> list R) : Prop :=
  forall obj grad x0, (exists v, obj v = 0) -> obj (minimise obj grad x0) = 0.
(** An array with an odd number of rows which is symmetric about the middle one. *)
Definition symmetric_rows (n : nat) (a : grid) : Prop :=
  rows a = (2 * n - 1)%nat /\ forall i j, (i < 2 * n - 1)%nat -> at_ a (2 * n - 2 - i) j = at_ a i j.
