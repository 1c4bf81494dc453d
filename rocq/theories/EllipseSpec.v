(** Specification for elliptical contacts: Hertz's solution as in Johnson, Contact Mechanics, sections 3.5 and 4.2. *)
From Coq Require Import Reals.
From Coquelicot Require Import Coquelicot.
Local Open Scope R_scope.

(** The complete elliptic integrals of the first and second kind for the parameter m, the square of the modulus. *)
Definition elliptic_k (m : R) : R := RInt (fun t => / sqrt (1 - m * sin t ^ 2)) 0 (PI / 2).
Definition elliptic_e (m : R) : R := RInt (fun t => sqrt (1 - m * sin t ^ 2)) 0 (PI / 2).

(** The displacement of an elastic half space inside of the ellipse with half axes b < a which a pressure
    p0 sqrt(1 - (x/a)^2 - (y/b)^2) acts on (Johnson, equations 3.57 and 3.58). [compliance] is (1 - v^2) / E and the
    parameter of the integrals is the square of the eccentricity of the ellipse. *)
Definition eccentricity2 (a b : R) : R := 1 - b ^ 2 / a ^ 2.
Definition hertz_uz (compliance a b p0 x y : R) : R :=
  let m := eccentricity2 a b in
  compliance * p0 * b *
    (elliptic_k m - (elliptic_k m - elliptic_e m) / (m * a ^ 2) * x ^ 2
                  - (a ^ 2 / b ^ 2 * elliptic_e m - elliptic_k m) / (m * a ^ 2) * y ^ 2).

Definition inside (a b x y : R) : Prop := (x / a) ^ 2 + (y / b) ^ 2 < 1.

(** Half the curvatures of the gap along the long and the short axis of the contact: the gap of two bodies with the
    relative curvatures k1 (larger) and k2 is k2 x^2 / 2 + k1 y^2 / 2, with x along the long axis. *)
Definition gap (k1 k2 x y : R) : R := k2 * x ^ 2 / 2 + k1 * y ^ 2 / 2.
(** The point seen from axes turned by [angle]. *)
Definition turned_x (angle x y : R) : R := x * cos angle - y * sin angle.
Definition turned_y (angle x y : R) : R := x * sin angle + y * cos angle.
