(** Specification for the full Hertz solution. *)
From Coq Require Import Reals List Bool.
From Coquelicot Require Import Coquelicot.
From Verif Require Import Py SurfaceModel Flt HertzFullModel.
Import ListNotations.
Local Open Scope R_scope.

(** The curvature of a body in a direction; a radius of zero is none. *)
Definition curv (r : radius) : R := match r with Flat => 0 | Rad x => / x end.
Definition valid (r : radius) : Prop := match r with Flat => True | Rad x => x <> 0 end.
(** A radius, infinite for a curvature of zero. *)
Definition has_curvature (r : flt) (k : R) : Prop := (k = 0 /\ r = PInf) \/ (k <> 0 /\ r = Fin (/ k)).
(** Half the difference of the principal curvatures of the gap between two bodies whose axes include an angle is the
    length of the sum of two vectors which include twice this angle (Johnson, section 4.1). *)
Definition curvature_difference (d1 d2 angle : R) : R := sqrt (d1 ^ 2 + d2 ^ 2 + 2 * d1 * d2 * cos (2 * angle)).

(** The load carried by a pressure over all rectangles which contain the contact. *)
Definition carries (p : R -> R -> R) (a b load : R) : Prop :=
  forall x y, a <= x -> b <= y -> is_RInt (fun u => RInt (fun w => p u w) (- y) y) (- x) x load.
Definition carries_line (p : R -> R) (a load : R) : Prop := forall x, a <= x -> is_RInt p (- x) x load.

(** The angle moved by multiples of pi to between -pi/2 and pi/2. *)
Definition between_axes (angle t : R) : Prop := - (PI / 2) <= t < PI / 2 /\ exists k : Z, angle = t + IZR k * PI.

(** The stresses in the order they are returned: for spheres radial, hoop and normal to the surface; for lines along x,
    normal to the surface (second, like the hoop stress) and shear. *)
Definition radial {A B C : Type} (t : A * B * C) : A := fst (fst t).
Definition hoop {A B C : Type} (t : A * B * C) : B := snd (fst t).
Definition normal {A B C : Type} (t : A * B * C) : C := snd t.
