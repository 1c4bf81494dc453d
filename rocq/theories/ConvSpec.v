(** Specification vocabulary for convolutions (C34, C35). *)
From Coq Require Import String List Bool Arith ZArith Reals.
From Verif Require Import SurfaceModel.
Import ListNotations.
Local Open Scope R_scope.

(** The sum over all index pairs of an array of shape (m, n). *)
Fixpoint total (n : nat) (f : nat -> R) : R := match n with O => 0 | S m => total m f + f m end.
Definition total2 (m n : nat) (f : nat -> nat -> R) : R := total m (fun i => total n (f i)).

(** The coefficient of an index difference: the influence matrix has difference zero at its
    centre, index (size - 1) // 2, and is zero outside of its span. *)
Definition coeff (im : grid) (di dj : Z) : R :=
  let p := (di + Z.of_nat ((rows im - 1) / 2))%Z in
  let q := (dj + Z.of_nat ((cols im - 1) / 2))%Z in
  if (0 <=? p)%Z && (p <? Z.of_nat (rows im))%Z && (0 <=? q)%Z && (q <? Z.of_nat (cols im))%Z
  then at_ im (Z.to_nat p) (Z.to_nat q) else 0.

(** Of all index differences that agree modulo the grid size, the one in the span of an
    influence matrix with n points. *)
Definition wrap (n : nat) (d : Z) : Z :=
  ((d + Z.of_nat ((n - 1) / 2)) mod Z.of_nat n - Z.of_nat ((n - 1) / 2))%Z.

(** The index difference that counts on a periodic or a non periodic axis. *)
Definition difference (periodic : bool) (n i i' : nat) : Z :=
  if periodic then wrap n (Z.of_nat i - Z.of_nat i') else (Z.of_nat i - Z.of_nat i')%Z.

(** The superposition of point load responses. *)
Definition superposed (p0 p1 : bool) (im loads : grid) (i j : nat) : R :=
  total2 (rows loads) (cols loads) (fun i' j' =>
    at_ loads i' j' * coeff im (difference p0 (rows loads) i i') (difference p1 (cols loads) j j')).

(** All index pairs of an array row by row, and the values of an array at the points of a
    domain in this order. *)
Definition pairs (m n : nat) : list (nat * nat) :=
  flat_map (fun i => map (fun j => (i, j)) (seq 0 n)) (seq 0 m).
Definition inside (d : nat -> nat -> bool) (g : grid) : list R :=
  map (fun p => at_ g (fst p) (snd p)) (filter (fun p => d (fst p) (snd p)) (pairs (rows g) (cols g))).
Definition domain_size (m n : nat) (d : nat -> nat -> bool) : nat :=
  List.length (filter (fun p => d (fst p) (snd p)) (pairs m n)).

(** The cyclic shift of an array. *)
Definition shifted (g : grid) (a b : Z) : grid :=
  Grid (rows g) (cols g) (fun i j =>
    at_ g (Z.to_nat ((Z.of_nat i - a) mod Z.of_nat (rows g))) (Z.to_nat ((Z.of_nat j - b) mod Z.of_nat (cols g)))).
