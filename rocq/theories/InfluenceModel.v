(** Model of the influence coefficients: slippy/contact/influence_matrix_utils.py, lines 213-337.
    Floats are real numbers; the cache around the function is not part of this file. *)
From Coq Require Import String List Bool Arith ZArith Reals.
From Verif Require Export Py SurfaceModel.
Import ListNotations.
Local Open Scope R_scope.

(** [np.arange(span) - span // 2 + (1 - span % 2)] (lines 260-261). *)
Definition offset (span i : nat) : Z :=
  (Z.of_nat i - Z.of_nat (span / 2) + (1 - Z.of_nat (Nat.modulo span 2)))%Z.

(** The geometric part of the components (lines 290-335). *)
Definition shape_zz (hx hy k el m n : R) : R :=
  hx * (k * ln ((m + sqrt (k ^ 2 + m ^ 2)) / (n + sqrt (k ^ 2 + n ^ 2))) +
        el * ln ((n + sqrt (el ^ 2 + n ^ 2)) / (m + sqrt (el ^ 2 + m ^ 2)))) +
  hy * (m * ln ((k + sqrt (k ^ 2 + m ^ 2)) / (el + sqrt (el ^ 2 + m ^ 2))) +
        n * ln ((el + sqrt (el ^ 2 + n ^ 2)) / (k + sqrt (k ^ 2 + n ^ 2)))).
Definition shape_xx (v hx hy k el m n : R) : R :=
  hx * (1 - v) * (k * ln ((m + sqrt (k ^ 2 + m ^ 2)) / (n + sqrt (k ^ 2 + n ^ 2))) +
        el * ln ((n + sqrt (el ^ 2 + n ^ 2)) / (m + sqrt (el ^ 2 + m ^ 2)))) +
  hy * (m * ln ((k + sqrt (k ^ 2 + m ^ 2)) / (el + sqrt (el ^ 2 + m ^ 2))) +
        n * ln ((el + sqrt (el ^ 2 + n ^ 2)) / (k + sqrt (k ^ 2 + n ^ 2)))).
Definition shape_yy (v hx hy k el m n : R) : R :=
  hx * (k * ln ((m + sqrt (k ^ 2 + m ^ 2)) / (n + sqrt (k ^ 2 + n ^ 2))) +
        el * ln ((n + sqrt (el ^ 2 + n ^ 2)) / (m + sqrt (el ^ 2 + m ^ 2)))) +
  hy * (1 - v) * (m * ln ((k + sqrt (k ^ 2 + m ^ 2)) / (el + sqrt (el ^ 2 + m ^ 2))) +
        n * ln ((el + sqrt (el ^ 2 + n ^ 2)) / (k + sqrt (k ^ 2 + n ^ 2)))).
Definition shape_xz (hx hy k el m n : R) : R :=
  hy / 2 * (m * ln ((k ^ 2 + m ^ 2) / (el ^ 2 + m ^ 2)) + n * ln ((el ^ 2 + n ^ 2) / (k ^ 2 + n ^ 2))) +
  hx * (k * (atan (m / k) - atan (n / k)) + el * (atan (n / el) - atan (m / el))).
Definition shape_xy (hx hy k el m n : R) : R :=
  sqrt (hy ^ 2 * n ^ 2 + hx ^ 2 * k ^ 2) - sqrt (hy ^ 2 * m ^ 2 + hx ^ 2 * k ^ 2) +
  sqrt (hy ^ 2 * m ^ 2 + hx ^ 2 * el ^ 2) - sqrt (hy ^ 2 * n ^ 2 + hx ^ 2 * el ^ 2).
Definition shape_zy (hx hy k el m n : R) : R :=
  hx / 2 * (k * ln ((k ^ 2 + m ^ 2) / (n ^ 2 + k ^ 2)) + el * ln ((el ^ 2 + n ^ 2) / (m ^ 2 + el ^ 2))) +
  hy * (m * (atan (k / m) - atan (el / m)) + n * (atan (el / n) - atan (k / n))).

(** One entry: [di], [dj] are the offsets along the columns and the rows. [second] has the
    shear modulus and the Poisson's ratio of the other surface. The name of the component
    is a string; another name returns None as the ValueError of line 337 is not raised. *)
Definition entry (comp : string) (hx hy g v : R) (second : option (R * R)) (di dj : Z) : option R :=
  let k := IZR di + 1 / 2 in
  let el := IZR di - 1 / 2 in
  let m := IZR dj + 1 / 2 in
  let n := IZR dj - 1 / 2 in
  let other f := match second with Some (g2, v2) => f g2 v2 | None => 0 end in
  if String.eqb comp "zz" then
    Some (((1 - v) / (2 * PI * g) + other (fun g2 v2 => (1 - v2) / (2 * PI * g2))) * shape_zz hx hy k el m n)
  else if String.eqb comp "xx" then
    Some ((1 / (2 * PI * g) + other (fun g2 _ => 1 / (2 * PI * g2))) * shape_xx v hx hy k el m n)
  else if String.eqb comp "yy" then
    Some ((1 / (2 * PI * g) + other (fun g2 _ => 1 / (2 * PI * g2))) * shape_yy v hx hy k el m n)
  else if smem comp ["xz"; "zx"]%string then
    Some (((2 * v - 1) / (4 * PI * g) + other (fun g2 v2 => (2 * v2 - 1) / (4 * PI * g2))) * shape_xz hx hy k el m n)
  else if smem comp ["yx"; "xy"]%string then
    Some ((v / (2 * PI * g) + other (fun g2 v2 => v2 / (2 * PI * g2))) * shape_xy hx hy k el m n)
  else if smem comp ["zy"; "yz"]%string then
    Some (((1 - 2 * v) / (4 * PI * g) + other (fun g2 v2 => (1 - 2 * v2) / (4 * PI * g2))) * shape_zy hx hy k el m n)
  else None.

(** The second surface counts when both of its parameters are given; the check of line 287
    comes after both have been replaced and never raises. *)
Definition second_surface (g2 v2 : option R) : option (R * R) :=
  match g2, v2 with Some g, Some v => Some (g, v) | _, _ => None end.

(** [elastic_influence_matrix(comp, span, grid_spacing, g, v, g2, v2)] *)
Definition influence (comp : string) (span : nat * nat) (hs : R * R) (g v : R) (g2 v2 : option R) : result (option grid) :=
  match entry comp (fst hs) (snd hs) g v (second_surface g2 v2) 0 0 with
  | None => Ok None
  | Some _ => Ok (Some (Grid (fst span) (snd span) (fun i j =>
      match entry comp (fst hs) (snd hs) g v (second_surface g2 v2) (offset (snd span) j) (offset (fst span) i) with
      | Some c => c | None => 0 end)))
  end.
