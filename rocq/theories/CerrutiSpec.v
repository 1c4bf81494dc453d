(** Specification vocabulary for C125: the displacements of the surface of an elastic half space
    by a concentrated unit force on it (Boussinesq and Cerruti), and integrals over a rectangle. *)
From Coq Require Import ZArith Reals.
From Coquelicot Require Import Coquelicot.
Local Open Scope R_scope.

Definition dist (x y : R) : R := sqrt (x ^ 2 + y ^ 2).

(** Displacement at (x, y) along the first axis named by a unit force at the origin along the
    second axis named; g is the shear modulus, v Poisson's ratio, z points into the body. *)
Definition u_xx (g v x y : R) : R := 1 / (2 * PI * g) * ((1 - v) / dist x y + v * x ^ 2 / dist x y ^ 3).
Definition u_yy (g v x y : R) : R := 1 / (2 * PI * g) * ((1 - v) / dist x y + v * y ^ 2 / dist x y ^ 3).
Definition u_xy (g v x y : R) : R := v / (2 * PI * g) * (x * y / dist x y ^ 3).
Definition u_xz (g v x y : R) : R := - ((1 - 2 * v) / (4 * PI * g)) * (x / dist x y ^ 2).
Definition u_zx (g v x y : R) : R := (1 - 2 * v) / (4 * PI * g) * (x / dist x y ^ 2).
Definition u_yz (g v x y : R) : R := - ((1 - 2 * v) / (4 * PI * g)) * (y / dist x y ^ 2).
Definition u_zy (g v x y : R) : R := (1 - 2 * v) / (4 * PI * g) * (y / dist x y ^ 2).

(** The integral over [x0, x1] x [y0, y1], first along x or first along y. *)
Definition over (f : R -> R -> R) (x0 x1 y0 y1 : R) : R := RInt (fun y => RInt (fun x => f x y) x0 x1) y0 y1.
Definition over' (f : R -> R -> R) (x0 x1 y0 y1 : R) : R := RInt (fun x => RInt (fun y => f x y) y0 y1) x0 x1.

(** c is the integral of f over the cell b columns and a rows away in a grid of spacing hx, hy: in
    either order of integration where it avoids the singular point first, and for the cell around
    that point as the limit when a thin strip |y| < e around it is left out. *)
Definition cell_value (f : R -> R -> R) (hx hy : R) (a b : Z) (c : R) : Prop :=
  let x0 := hx * (IZR b - 1 / 2) in let x1 := hx * (IZR b + 1 / 2) in
  let y0 := hy * (IZR a - 1 / 2) in let y1 := hy * (IZR a + 1 / 2) in
  (a <> 0%Z -> c = over f x0 x1 y0 y1) /\
  (b <> 0%Z -> c = over' f x0 x1 y0 y1) /\
  (a = 0%Z -> b = 0%Z -> filterlim (fun e => over f x0 x1 y0 (- e) + over f x0 x1 e y1) (at_right 0) (locally c)).
