(** Specification vocabulary for surfaces (C22 to C29, C73). *)
From Coq Require Import String List Bool Arith Reals.
From Verif Require Import SurfaceModel.
Import ListNotations.
Local Open Scope R_scope.

(** All recorded wear of one grid point. *)
Definition recorded (w : worn) (i j : nat) : R := fold_right (fun ng acc => at_ (snd ng) i j + acc) 0 (wear_volumes w).

(** The sum of all values of an array. *)
Fixpoint sum_n (n : nat) (f : nat -> R) : R := match n with O => 0 | S m => sum_n m f + f m end.
Definition grid_sum (g : grid) : R := sum_n (rows g) (fun i => sum_n (cols g) (fun j => at_ g i j)).

(** The depths of one call. *)
Definition depths (pts : list (R * R * R)) : R := fold_right (fun p acc => snd p + acc) 0 pts.

(** A history without exceptions of one kind. *)
Fixpoint gruns (g : geom) (os : list gop) (g' : geom) : Prop :=
  match os with
  | [] => g' = g
  | o :: os' => snd (gstep g o) <> Err ZeroDivisionError /\ gruns (fst (gstep g o)) os' g'
  end.

(** The sum of the shifts and angles of a list of operations on a surface of extent [e]. *)
Fixpoint total_shift (e : option (R * R)) (os : list aop) : R * R :=
  match os with
  | [] => (0, 0)
  | Rotate _ :: l => total_shift e l
  | Shift v :: l =>
      let '(dx, dy) := match v, e with
                       | Some d, _ => d
                       | None, Some (ex, ey) => (- (ex / 2), - (ey / 2))
                       | None, None => (0, 0)
                       end in
      let '(sx, sy) := total_shift e l in (dx + sx, dy + sy)
  end.
Fixpoint total_angle (os : list aop) : R :=
  match os with [] => 0 | Rotate t :: l => t + total_angle l | Shift _ :: l => total_angle l end.
(** Rotation of the plane by an angle. *)
Definition turned (t : R) (p : R * R) : R * R :=
  (fst p * cos t - snd p * sin t, fst p * sin t + snd p * cos t).
