(** Specification of shapes and of moving a surface. *)
From Coq Require Import Reals List.
From Verif Require Import Py SurfaceModel.
Local Open Scope R_scope.

(** A plane with a steepness. *)
Definition plane (h : R -> R -> R) (gx gy c : R) : Prop := forall x y, h x y = gx * x + gy * y + c.
(** The ellipsoid with three radii whose top is the origin; a radius that is infinite drops out. *)
Definition share (x : R) (r : option R) : R := match r with Some r => (x / r) ^ 2 | None => 0 end.
Definition on_ellipsoid (rx ry : option R) (rz x y z : R) : Prop := share x rx + share y ry + ((z + rz) / rz) ^ 2 = 1.
Definition under (rx ry : option R) (x y : R) : Prop := share x rx + share y ry <= 1.
(** The surface moved against the axes by (dx, dy). *)
Definition moved (h h' : R -> R -> R) (dx dy : R) : Prop := forall x y, h' x y = h (x + dx) (y + dy).
(** The surface turned by t about the point (px, py). *)
Definition turned (h h' : R -> R -> R) (t px py : R) : Prop :=
  forall x y, h' x y = h (px + ((x - px) * cos t - (y - py) * sin t)) (py + ((y - py) * cos t + (x - px) * sin t)).
