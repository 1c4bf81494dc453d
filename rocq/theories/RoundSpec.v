(** Specification for double precision grids (C122): what double precision numbers are and which spacings are harmless. *)
From Coq Require Import ZArith Reals.
From Flocq Require Import Core.
From Verif Require Import Py SurfaceModel.
Local Open Scope R_scope.

(** Numbers with 53 binary digits *)
Definition double (x : R) : Prop := exists m e : Z, x = IZR m * bpow radix2 e /\ (Z.abs m < 2 ^ 53)%Z.
(** A positive spacing with so few digits that its multiples up to [n] have at most 53 *)
Definition fits (n : nat) (h : R) : Prop :=
  exists m e : Z, h = IZR m * bpow radix2 e /\ (0 < m)%Z /\ (m * Z.of_nat n < 2 ^ 53)%Z.
(** Heights of the second surface below those of the first, point by point, in double precision: [r] rounds. *)
Definition pointwise (r : R -> R) (h1 h2 : grid) (g : result grid) : Prop :=
  exists d, g = Ok d /\ rows d = rows h1 /\ cols d = cols h1 /\
  forall i j, (i < rows h1)%nat -> (j < cols h1)%nat -> at_ d i j = r (- at_ h2 i j - at_ h1 i j).
(** Each from the same row and column of the second surface or from the one before *)
Definition near_heights (r : R -> R) (h1 h2 d : grid) : Prop :=
  rows d = rows h1 /\ cols d = cols h1 /\
  forall i j, (i < rows h1)%nat -> (j < cols h1)%nat ->
    exists a b, (a = i \/ S a = i) /\ (b = j \/ S b = j) /\ at_ d i j = r (- at_ h2 a b - at_ h1 i j).
(** 0.1, 0.01 and 0.29 as doubles *)
Definition tenth : R := IZR 7205759403792794 * bpow radix2 (-56).
Definition hundredth : R := IZR 5764607523034235 * bpow radix2 (-59).
Definition d029 : R := IZR 5224175567749775 * bpow radix2 (-54).
(** 0.3 as a double *)
Definition three_tenth : R := IZR 5404319552844595 * bpow radix2 (-54).
(** The second surface is [k] rows and [l] columns further than the first: the points of the first surface from row [-k]
    and column [-l], or from the first, that are above points of the second. *)
Definition shifted (r : R -> R) (h1 h2 : grid) (k l : Z) (g : result grid) : Prop :=
  exists d, g = Ok d /\
  Z.of_nat (rows d) = (Z.min (Z.of_nat (rows h1)) (Z.of_nat (rows h2) - k) - Z.max (- k) 0)%Z /\
  Z.of_nat (cols d) = (Z.min (Z.of_nat (cols h1)) (Z.of_nat (cols h2) - l) - Z.max (- l) 0)%Z /\
  forall i j, (i < rows d)%nat -> (j < cols d)%nat ->
    at_ d i j = r (- at_ h2 (i + Z.to_nat k) (j + Z.to_nat l) - at_ h1 (i + Z.to_nat (- k)) (j + Z.to_nat (- l))).
(** The second surface is rolled by [k] rows and [l] columns. *)
Definition rolled (r : R -> R) (h1 h2 : grid) (k l : Z) (g : result grid) : Prop :=
  exists d, g = Ok d /\ rows d = rows h1 /\ cols d = cols h1 /\
  forall i j, (i < rows h1)%nat -> (j < cols h1)%nat ->
    at_ d i j = r (- at_ h2 (Z.to_nat ((Z.of_nat i - k) mod Z.of_nat (rows h2))) (Z.to_nat ((Z.of_nat j - l) mod Z.of_nat (cols h2))) - at_ h1 i j).
