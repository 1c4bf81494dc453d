(** Words used in the statements about the Reynolds solver (C41 to C43, C81, C82). *)
From Coq Require Import String List Bool Arith ZArith Reals.
From Verif Require Import Py ReynoldsModel.
Import ListNotations.
Local Open Scope R_scope.

(** The value of a parameter after a history: the last one assigned. *)
Fixpoint last_assigned (p : param) (start : option R) (l : list op) : option R :=
  match l with
  | [] => start
  | Assign q v :: l' => last_assigned p (if param_eqb q p then v else start) l'
  | _ :: l' => last_assigned p start l'
  end.
(** The formulas of the documentation for given parameters. *)
Definition quotient (a b : R) : result R := if Req_EM_T b 0 then Err ZeroDivisionError else Ok (a / b).
Definition lambda_of (c : param -> option R) : result R :=
  match c Speed, c Viscosity, c Radius, c HalfWidth, c HertzPressure with
  | Some u, Some eta, Some r, Some a, Some p => quotient (12 * u * eta * r ^ 2) (a ^ 3 * p)
  | _, _, _, _, _ => Err TypeError
  end.
Definition nd_spacing_of (c : param -> option R) : result R :=
  match c GridSpacing, c HalfWidth with Some g, Some a => quotient g a | _, _ => Err TypeError end.
Definition nd_time_of (c : param -> option R) : result R :=
  match c TimeStep, c Speed, c HalfWidth with Some t, Some u, Some a => quotient (t * u) a | _, _, _ => Err TypeError end.

(** The points a sweep solves for: not on the border of the first axis, and not on the border of
    the second axis unless it is periodic. *)
Definition swept (per : bool) (w l i j : nat) : Prop :=
  (0 < i)%nat /\ (i + 1 < w)%nat /\ (j < l)%nat /\ (per = true \/ ((0 < j)%nat /\ (j + 1 < l)%nat)).
(** The neighbours of a column, around the end of the grid. *)
Definition next (l j : nat) : nat := if Nat.eqb (j + 1) l then 0%nat else (j + 1)%nat.
Definition prior (l j : nat) : nat := if Nat.eqb j 0 then (l - 1)%nat else (j - 1)%nat.
(** The discrete Reynolds equation at a point: net pressure flow against wedge and squeeze
    terms. [e] is the flow factor, [dx] the spacing, [rdt] one over the time step (zero for a
    steady state). *)
Definition mean (a b : R) : R := (a + b) / 2.
Definition flow (l : nat) (e p rho : nat -> nat -> R) (dx : R) (i j : nat) : R :=
  (mean (e i j) (e (i - 1)%nat j) * (p (i - 1)%nat j - p i j) + mean (e i j) (e (i + 1)%nat j) * (p (i + 1)%nat j - p i j) +
   mean (e i j) (e i (prior l j)) * (p i (prior l j) - p i j) + mean (e i j) (e i (next l j)) * (p i (next l j) - p i j))
  / (dx ^ 2 * rho i j).
Definition wedge (h rho : nat -> nat -> R) (dx : R) (i j : nat) : R :=
  (h i j - h (i - 1)%nat j) / dx + h i j * (1 - rho (i - 1)%nat j / rho i j) / dx.
Definition squeeze (h rho h0 rho0 : nat -> nat -> R) (rdt : R) (i j : nat) : R :=
  (h i j - rho0 i j / rho i j * h0 i j) * rdt.
Definition reynolds_equation (l : nat) (e p h rho h0 rho0 : nat -> nat -> R) (dx rdt : R) (i j : nat) : Prop :=
  flow l e p rho dx i j = wedge h rho dx i j + squeeze h rho h0 rho0 rdt i j.
(** The flow factor: density times gap cubed over viscosity and lambda, zero below 0.47e-9 m. *)
Definition flow_factor (st : state) (lam limit : R) (i j : nat) : R :=
  if Rlt_dec (nd_gap st i j) limit then 0 else nd_density st i j * nd_gap st i j ^ 3 / (nd_viscosity st i j * lam).

(** A history without change of the flag whose sweeps are all over grids with n columns. *)
Definition same_length (n : nat) (o : op) : Prop := match o with Solve st _ => len st = n | SetPeriodic _ => False | _ => True end.
