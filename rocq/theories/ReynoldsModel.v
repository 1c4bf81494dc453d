(** Model of slippy/contact/unified_reynolds_solver.py: the class [UnifiedReynoldsSolver] (lines
    11-316) and [_solve_row] (lines 319-359). [_solve_row_cyclic] is not used by the code.
    Numbers are reals; a parameter may be None. *)
From Coq Require Import String List Bool Arith ZArith Reals.
From Verif Require Export Py SurfaceModel TdmaModel.
Import ListNotations.
Local Open Scope R_scope.

Inductive param := TimeStep | GridSpacing | Radius | HertzPressure | HalfWidth | Viscosity | Density | Speed.
Definition param_eqb (a b : param) : bool :=
  match a, b with
  | TimeStep, TimeStep | GridSpacing, GridSpacing | Radius, Radius | HertzPressure, HertzPressure
  | HalfWidth, HalfWidth | Viscosity, Viscosity | Density, Density | Speed, Speed => true
  | _, _ => false
  end.
(** The object: the parameters, the cached lambda, the cached order of the rows, the direction
    of the sweep, and the flag. *)
Record solver := Solver { vals : param -> option R; cache : option R; row_order : option (Z * Z); step : Z; periodic : bool }.

(** Assignment to an attribute. The time step, the grid spacing and the density are plain
    attributes, the others are properties whose setter drops the cached value (lines 160-204). *)
Definition assign (s : solver) (p : param) (v : option R) : solver :=
  Solver (fun q => if param_eqb p q then v else vals s q)
         (match p with TimeStep | GridSpacing | Density => cache s | _ => None end)
         (row_order s) (step s) (periodic s).
(** Lines 92-141: the constructor; the direction is 'forward' or 'backward'. *)
Definition make (time_step grid_spacing hertz_pressure radius half_width viscosity density : R) (direction : string)
    (per : bool) : result solver :=
  let s0 := Solver (fun _ => None) None None 0 per in
  let s := assign (assign (assign (assign (assign (assign (assign (assign s0
    GridSpacing (Some grid_spacing)) TimeStep (Some time_step)) Radius (Some radius)) HertzPressure (Some hertz_pressure))
    HalfWidth (Some half_width)) Viscosity (Some viscosity)) Density (Some density)) Speed None in
  if String.eqb direction "forward" then Ok (Solver (vals s) (cache s) (row_order s) 1 per)
  else if String.eqb direction "backward" then Ok (Solver (vals s) (cache s) (row_order s) (-1) per)
  else Err ValueError.

(** Arithmetic with None is a TypeError, division of Python floats by zero an error. *)
Definition need (v : option R) : result R := match v with Some x => Ok x | None => Err TypeError end.
Definition pydiv (a b : R) : result R := if Reqb b 0 then Err ZeroDivisionError else Ok (a / b).
(** Lines 143-158 *)
Definition nd_grid_spacing (s : solver) : result R :=
  bind (need (vals s GridSpacing)) (fun g => bind (need (vals s HalfWidth)) (fun a => pydiv g a)).
Definition nd_time_step (s : solver) : result R :=
  bind (need (vals s TimeStep)) (fun t => bind (need (vals s Speed)) (fun u => bind (need (vals s HalfWidth)) (fun a => pydiv (t * u) a))).
Definition lambda_bar (s : solver) : solver * result R :=
  match cache s with
  | Some l => (s, Ok l)
  | None =>
      match bind (need (vals s Speed)) (fun u => bind (need (vals s Viscosity)) (fun eta => bind (need (vals s Radius)) (fun r =>
            bind (need (vals s HalfWidth)) (fun a => bind (need (vals s HertzPressure)) (fun p =>
            pydiv (12 * u * eta * r ^ 2) (a ^ 3 * p)))))) with
      | Ok l => (Solver (vals s) (Some l) (row_order s) (step s) (periodic s), Ok l)
      | Err e => (s, Err e)
      end
  end.

(** ** Units (lines 293-316) *)
Definition dimensionalise_pressure (s : solver) (x : R) (un : bool) : result R :=
  bind (need (vals s HertzPressure)) (fun p => if un then pydiv x p else Ok (x * p)).
Definition dimensionalise_viscosity (s : solver) (x : R) (un : bool) : result R :=
  bind (need (vals s Viscosity)) (fun p => if un then pydiv x p else Ok (x * p)).
Definition dimensionalise_density (s : solver) (x : R) (un : bool) : result R :=
  bind (need (vals s Density)) (fun p => if un then pydiv x p else Ok (x * p)).
Definition dimensionalise_length (s : solver) (x : R) (un : bool) : result R :=
  bind (need (vals s HalfWidth)) (fun p => if un then pydiv x p else Ok (x * p)).
Definition dimensionalise_gap (s : solver) (x : R) (un : bool) : result R :=
  bind (need (vals s Radius)) (fun r => bind (need (vals s HalfWidth)) (fun a =>
  if un then bind (pydiv r (a ^ 2)) (fun k => Ok (k * x)) else bind (pydiv (a ^ 2) r) (fun k => Ok (k * x)))).

(** ** One sweep (lines 214-285) *)
(** The first three components of the influence matrix (lines 115-134). *)
Definition stencil (x y : R) : R := x + sqrt (x ^ 2 + y ^ 2).
Definition ak (i : nat) : R :=
  let xp := INR i + 1 / 2 in let xm := INR i - 1 / 2 in let ym := - (1 / 2) in let yp := 1 / 2 in
  2 / PI ^ 2 * (xp * ln (stencil yp xp / stencil ym xp) + ym * ln (stencil xm ym / stencil xp ym) +
                xm * ln (stencil ym xm / stencil yp xm) + yp * ln (stencil xp yp / stencil xm yp)).

(** The state a sweep starts from: [width] and [len] are the dimensions of the gap;
    [previous] has the gap and the density of the last time step, None in the first one. *)
Definition arr2 := nat -> nat -> R.
Record state := State { width : nat; len : nat; nd_gap : arr2; nd_density : arr2; nd_viscosity : arr2; nd_pressure : arr2;
                        previous : option (arr2 * arr2) }.
Record coeffs := Coeffs { epsilon : arr2; recip_dx : R; recip_dt : R }.
(** [_solve_row] (lines 319-359): the entries of the line at the interior point i. [recip_dx ^ 2 / density] is
    [recip_dx_squared_rho]. The columns on both sides wrap around. *)
Section Row.
Variables (st : state) (c : coeffs) (prev_gap prev_density : arr2) (p : arr2) (row : nat).
Definition row_up : nat := if Nat.ltb (row + 1) (len st) then (row + 1)%nat else 0%nat.
Definition row_down : nat := if Nat.eqb row 0 then (len st - 1)%nat else (row - 1)%nat.
Definition d1 i := 1 / 2 * (epsilon c i row + epsilon c (i - 1)%nat row).
Definition d2 i := 1 / 2 * (epsilon c i row + epsilon c (i + 1)%nat row).
Definition d4 i := 1 / 2 * (epsilon c i row + epsilon c i row_down).
Definition d5 i := 1 / 2 * (epsilon c i row + epsilon c i row_up).
Definition d3 i := d1 i + d2 i + d4 i + d5 i.
Definition q1 i := ak 1 * p (i - 1)%nat row + ak 0 * p i row + ak 1 * p (i + 1)%nat row.
Definition q2 i := ak 0 * p (i - 1)%nat row + ak 1 * p i row + ak 2 * p (i + 1)%nat row.
Definition weight i := recip_dx c ^ 2 / nd_density st i row.
Definition a_at i := d1 i * weight i + - 1 * ak 1 * recip_dt c + (ak 0 - ak 1) * recip_dx c.
Definition b_at i := - d3 i * weight i + - 1 * ak 0 * recip_dt c + (ak 1 - ak 0) * recip_dx c.
Definition c_at i := d2 i * weight i + - 1 * ak 1 * recip_dt c + (ak 2 - ak 1) * recip_dx c.
Definition f_at i :=
  - (d5 i * p i row_up + d4 i * p i row_down) * weight i +
  ((nd_gap st i row - q1 i) - prev_density i row / nd_density st i row * prev_gap i row) * recip_dt c +
  (((nd_gap st i row - q1 i) - (nd_gap st (i - 1)%nat row - q2 i)) * recip_dx c +
   nd_gap st i row * (1 - nd_density st (i - 1)%nat row / nd_density st i row) * recip_dx c).
(** The arrays passed on to [tdma], with one in the corners of the main diagonal and zero beside
    it (lines 271-272 and 353-357). The lower diagonal starts at row 1. *)
Definition interior (i : nat) : bool := Nat.ltb 0 i && Nat.ltb (i + 1) (width st).
Definition lower_all : arr := fun k => if interior (k + 1) then a_at (k + 1) else 0.
Definition main_all : arr := fun i => if interior i then b_at i else 1.
Definition upper_all : arr := fun i => if interior i then c_at i else 0.
Definition rhs_all : arr := fun i => if interior i then f_at i else 0.
(** Lines 274-281: solve the line, clip, put in the interior values. *)
Definition line : arr := tdma (width st) lower_all main_all upper_all rhs_all.
Definition clip (m x : R) : R := Rmin (Rmax x 0) m.
Definition put_line (max_pressure : R) : arr2 :=
  fun i j => if interior i && Nat.eqb j row then clip max_pressure (line i) else p i j.
End Row.

(** Lines 237-246: the order of the rows, found once. *)
Definition find_order (s : solver) (l : nat) : Z * Z :=
  let '(a, b) := if (step s =? 1)%Z then (1, Z.of_nat l - 1)%Z else (Z.of_nat l - 2, 0)%Z in
  if periodic s then (a - step s, b + step s)%Z else (a, b).
(** [range(a, b, step)] *)
Definition py_range (a b st : Z) : list Z :=
  if (st =? 1)%Z then map (fun k => (a + Z.of_nat k)%Z) (seq 0 (Z.to_nat (b - a)))
  else map (fun k => (a - Z.of_nat k)%Z) (seq 0 (Z.to_nat (a - b))).
(** The loop over the rows; a column that does not exist is an IndexError when it is written. *)
Fixpoint sweep (st : state) (c : coeffs) (pg pd : arr2) (m : R) (rows : list Z) (p : arr2) : result arr2 :=
  match rows with
  | [] => Ok p
  | r :: rest =>
      if (- Z.of_nat (len st) <=? r)%Z && (r <? Z.of_nat (len st))%Z then
        sweep st c pg pd m rest (put_line st c pg pd p (if (r <? 0)%Z then Z.to_nat (r + Z.of_nat (len st)) else Z.to_nat r) m)
      else Err IndexError
  end.
(** [_get_epsilon] (lines 287-291) *)
Definition get_epsilon (st : state) (lam limit : R) : arr2 :=
  fun i j => if Rltb (nd_gap st i j) limit then 0
             else nd_density st i j * nd_gap st i j ^ 3 / nd_viscosity st i j * (1 / lam).
(** [solve] (lines 214-285): the object and the new pressure. In the first time step the
    previous gap and density are the present ones. *)
Definition solve (s : solver) (st : state) (max_pressure : R) : solver * result arr2 :=
  let '(pg, pd) := match previous st with Some x => x | None => (nd_gap st, nd_density st) end in
  match nd_grid_spacing s with
  | Err e => (s, Err e)
  | Ok dx =>
  match pydiv 1 dx with
  | Err e => (s, Err e)
  | Ok rdx =>
  match nd_time_step s with
  | Err e => (s, Err e)
  | Ok dt =>
  let rdt := if Reqb dt 0 then 0 else 1 / dt in
  let '(s1, l) := lambda_bar s in
  match bind l (fun lam => bind (pydiv 1 lam) (fun _ => bind (dimensionalise_gap s1 (47 / 10 ^ 11) true) (fun limit => Ok (lam, limit)))) with
  | Err e => (s1, Err e)
  | Ok (lam, limit) =>
      let order := match row_order s1 with Some o => o | None => find_order s1 (len st) end in
      let s2 := Solver (vals s1) (cache s1) (Some order) (step s1) (periodic s1) in
      (s2, sweep st (Coeffs (get_epsilon st lam limit) rdx rdt) pg pd max_pressure (py_range (fst order) (snd order) (step s1)) (nd_pressure st))
  end end end end.

(** ** Histories *)
Inductive op := Assign (p : param) (v : option R) | ReadLambda | ReadGrid | ReadTime | Solve (st : state) (max_pressure : R) | SetPeriodic (b : bool).
Definition run_op (s : solver) (o : op) : solver :=
  match o with
  | Assign p v => assign s p v
  | ReadLambda => fst (lambda_bar s)
  | ReadGrid | ReadTime => s
  | Solve st m => fst (solve s st m)
  | SetPeriodic b => Solver (vals s) (cache s) (row_order s) (step s) b
  end.
Definition run (s : solver) (l : list op) : solver := fold_left run_op l s.
