(** Specification vocabulary for surfaces with given heights and spectrum (C65). *)
From Coq Require Import Reals List Bool Arith Permutation.
From Verif Require Import SurfaceModel ConvSpec.
Import ListNotations.
Local Open Scope R_scope.

(** A sorting function which returns the positions in increasing order of the values. *)
Definition sorts (argsort : list R -> list nat) : Prop :=
  forall v, Permutation (argsort v) (seq 0 (List.length v)) /\
    forall a b, (a <= b < List.length v)%nat -> nth (nth a (argsort v) O) v 0 <= nth (nth b (argsort v) O) v 0.

(** All heights of an array. *)
Definition entries (g : grid) : list R := map (fun p => at_ g (fst p) (snd p)) (pairs (rows g) (cols g)).

(** Mean height, root mean square deviation, and the magnitude of the Fourier coefficient of a frequency. *)
Definition mean_height (g : grid) : R := total2 (rows g) (cols g) (at_ g) / (INR (rows g) * INR (cols g)).
Definition variance (g : grid) : R :=
  total2 (rows g) (cols g) (fun i j => (at_ g i j - mean_height g) ^ 2) / (INR (rows g) * INR (cols g)).
Definition spectrum (g : grid) (k l : nat) : R :=
  let angle i j := 2 * PI * (INR (k * i) / INR (rows g) + INR (l * j) / INR (cols g)) in
  sqrt (total2 (rows g) (cols g) (fun i j => at_ g i j * cos (angle i j)) ^ 2 +
        total2 (rows g) (cols g) (fun i j => at_ g i j * sin (angle i j)) ^ 2).
(** Mean and root mean square deviation of a list. *)
Definition list_mean (v : list R) : R := fold_right Rplus 0 v / INR (List.length v).
Definition list_variance (v : list R) : R := list_mean (map (fun x => (x - list_mean v) ^ 2) v).

(** The frequency with the other sign. *)
Definition minus_freq (n k : nat) : nat := if Nat.eqb k 0 then O else (n - k)%nat.
Definition even_spectrum (p : grid) : Prop :=
  forall k l, (k < rows p)%nat -> (l < cols p)%nat -> at_ p (minus_freq (rows p) k) (minus_freq (cols p) l) = at_ p k l.
(** The sum of squares of a spectrum without the constant part. *)
Definition power_of (p : grid) : R :=
  total2 (rows p) (cols p) (fun k l => if Nat.eqb k 0 && Nat.eqb l 0 then 0 else at_ p k l ^ 2).
