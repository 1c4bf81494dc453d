(** Model of the Jacobian of the displacements with respect to the loads: the body of [_IMMaterial._jac_im_getter],
    slippy/contact/materials.py 342-390, from the influence matrix [im] on. Floats are real numbers. *)
From Coq Require Import List Bool Arith ZArith Reals.
From Verif Require Import Py SurfaceModel ConvModel.
Import ListNotations.
Local Open Scope R_scope.

(** [a[k:-k, :]] and [a[:, l:-l]], for [k] and [l] of zero the whole (lines 350-353 and 372-377) *)
Definition cut (k l : nat) (a : grid) : grid :=
  Grid (rows a - 2 * k) (cols a - 2 * l) (fun i j => at_ a (i + k) (j + l)).
(** [np.pad(a, ((k, k'), (l, l')), mode='constant')] *)
Definition pad_by (k k' l l' : nat) (a : grid) : grid :=
  Grid (k + rows a + k') (l + cols a + l') (fun i j =>
    if Nat.leb k i && Nat.ltb i (k + rows a) && Nat.leb l j && Nat.ltb j (l + cols a) then at_ a (i - k) (j - l) else 0).
(** [a[i0:i1, j0:j1]]: slices end with the array. *)
Definition window (i0 i1 j0 j1 : nat) (a : grid) : grid :=
  Grid (Nat.min i1 (rows a) - Nat.min i0 (rows a)) (Nat.min j1 (cols a) - Nat.min j0 (cols a)) (fun i j => at_ a (i0 + i) (j0 + j)).
(** [np.roll(v, k)] of a flat array *)
Definition roll_flat (k : nat) (v : list R) : list R :=
  map (fun i => nth (Z.to_nat ((Z.of_nat i - Z.of_nat k) mod Z.of_nat (List.length v))) v 0) (seq 0 (List.length v)).

(** Lines 344-367: periodic surfaces; [int] rounds towards zero, negative padding is refused. *)
Definition jac_periodic (s0 s1 : nat) (im : grid) : result (list (list R)) :=
  if negb (Nat.odd s0 && Nat.odd s1) then Err ValueError else
  let dif0 := Z.quot (Z.of_nat (rows im) - Z.of_nat s0) 2 in
  let dif1 := Z.quot (Z.of_nat (cols im) - Z.of_nat s1) 2 in
  let trimmed := cut (Z.to_nat dif0) (Z.to_nat dif1) im in
  if Nat.ltb s0 (rows trimmed) || Nat.ltb s1 (cols trimmed) then Err ValueError else
  let padded := pad_by 0 (s0 - rows trimmed) 0 (s1 - cols trimmed) trimmed in
  let rolled := flatten (Grid s0 s1 (roll s0 s1 (rows trimmed / 2) (cols trimmed / 2) (at_ padded))) in
  Ok (map (fun k => roll_flat k rolled) (seq 0 (s0 * s1))).

(** Lines 369-388: other surfaces *)
Definition jac_plain (s0 s1 : nat) (im : grid) : list (list R) :=
  let pad0 := (Z.of_nat s0 - Z.of_nat (rows im / 2))%Z in
  let pad1 := (Z.of_nat s1 - Z.of_nat (cols im / 2))%Z in
  let trimmed := cut (Z.to_nat (- pad0)) (Z.to_nat (- pad1)) im in
  let padded := pad_by (Z.to_nat pad0) (Z.to_nat pad0) (Z.to_nat pad1) (Z.to_nat pad1) trimmed in
  flat_map (fun n => map (fun m => flatten (window (s0 - n) (2 * s0 - n) (s1 - m) (2 * s1 - m) padded)) (seq 0 s1)) (seq 0 s0).

(** Lines 342-390 *)
Definition jac_im (periodic : bool) (s0 s1 : nat) (im : grid) : result (list (list R)) :=
  if periodic then jac_periodic s0 s1 im else Ok (jac_plain s0 s1 im).
