(** Model of grid sizes and grid indices in double precision: slippy/surface/Surface_class.py 221-247, 263-277, 299-319,
    350-378 (setters), 762-767 and 1217-1230 (grids of interpolators), 1157-1166 (points), slippy/contact/_model_utils.py
    106-138 (the gap between surfaces, interpolated by the nearest point). Indices are 32 bit integers in the code
    and unbounded here. Exponents are not bounded: nothing over- or
    underflows. Both sides of surfaces are longer than zero. *)
From Coq Require Import List Bool Arith ZArith Reals.
From Flocq Require Import Core.
From Verif Require Import Py SurfaceModel.
Import ListNotations.
Local Open Scope R_scope.

(** A double precision number nearest to [x], ties to even. *)
Definition fl (x : R) : R := round radix2 (FLX_exp 53) ZnearestE x.
(** [np.finfo(float).eps] *)
Definition eps : R := bpow radix2 (-52).
(** [int(a / b)], also of an array as integers *)
Definition int_div (a b : R) : Z := Ztrunc (fl (a / b)).

(** ** The geometry of a surface without a profile *)
Record fgeom := FGeom { f_extent : option (R * R); f_shape : option (Z * Z); f_spacing : option R }.
Definition fscale (s : Z * Z) (h : R) : R * R := (fl (IZR (fst s) * h), fl (IZR (snd s) * h)).
Definition fpoints (e : R * R) (h : R) : Z * Z := (int_div (fst e) h, int_div (snd e) h).
(** [grid_spacing] setter (lines 350-378) *)
Definition fset_spacing (g : fgeom) (h : R) : fgeom :=
  match f_extent g, f_shape g with
  | Some e, _ => let s := fpoints e h in FGeom (Some (fscale s h)) (Some s) (Some h)
  | None, Some s => FGeom (Some (fscale s h)) (Some s) (Some h)
  | None, None => FGeom None None (Some h)
  end.
(** [extent] setter (lines 221-247) *)
Definition fset_extent (g : fgeom) (e : R * R) : fgeom :=
  match match f_spacing g with Some h => Some (fpoints e h) | None => f_shape g end with
  | Some s => let h := fl (fst e / IZR (fst s)) in FGeom (Some (fscale s h)) (Some s) (Some h)
  | None => FGeom (Some e) None None
  end.
(** [shape] setter (lines 263-277) *)
Definition fset_shape (g : fgeom) (s : Z * Z) : fgeom :=
  match f_spacing g, f_extent g with
  | Some h, _ => FGeom (Some (fscale s h)) (Some s) (Some h)
  | None, Some e => let h := fl (fst e / IZR (fst s)) in FGeom (Some (fscale s h)) (Some s) (Some h)
  | None, None => FGeom None (Some s) None
  end.

(** ** Surfaces with a profile *)
Record fsurf := FSurf { heights : grid; step : R }.
(** The extent (line 319), of the rows and of the columns *)
Definition fextent (n : nat) (h : R) : R := fl (h * INR n).
(** [np.arange(start, stop, step)]: the number of values and the values *)
Definition farange_len (start stop h : R) : nat := Z.to_nat (Zceil (fl (fl (stop - start) / h))).
Definition farange (start h : R) (i : nat) : R :=
  match i with O => start | S O => fl (start + h) | _ => fl (start + fl (INR i * fl (fl (start + h) - start))) end.
(** [np.linspace(0, stop, n)] *)
Definition flinspace (stop : R) (n i : nat) : R :=
  if Nat.eqb n 1 then 0 else if Nat.eqb (S i) n then stop else fl (INR i * fl (stop / INR (n - 1))).
(** [a[lo:hi]] of an axis with [n] points: the first index and the number *)
Definition bound (k : Z) (n : nat) : nat := Z.to_nat (if Z.ltb k 0 then Z.max 0 (k + Z.of_nat n) else Z.min k (Z.of_nat n)).
(** An index of an axis: negative ones count from the end. *)
Definition index (k : Z) (n : nat) : option nat :=
  if Z.ltb k (- Z.of_nat n) || Z.leb (Z.of_nat n) k then None else Some (Z.to_nat (if Z.ltb k 0 then k + Z.of_nat n else k)).
(** [interpolate] in nearest mode (Surface_class.py:1217-1220) at an array of points given by their rows and columns *)
Definition fnearest (s : fsurf) (m n : nat) (y x : nat -> R) : result grid :=
  let row i := index (int_div (y i) (step s)) (rows (heights s)) in
  let col j := index (int_div (x j) (step s)) (cols (heights s)) in
  if forallb (fun i => match row i with Some _ => true | None => false end) (seq 0 m) &&
     forallb (fun j => match col j with Some _ => true | None => false end) (seq 0 n) || Nat.eqb (m * n) 0
  then Ok (Grid m n (fun i j => match row i, col j with Some a, Some b => at_ (heights s) a b | _, _ => 0 end))
  else Err IndexError.
(** [a - b] of arrays: sizes of one are repeated. *)
Definition same_size (a b : nat) : option nat := if Nat.eqb a b then Some a else if Nat.eqb a 1 then Some b else if Nat.eqb b 1 then Some a else None.
Definition fminus (a b : grid) : result grid :=
  match same_size (rows a) (rows b), same_size (cols a) (cols b) with
  | Some m, Some n => Ok (Grid m n (fun i j => fl (at_ a (if Nat.eqb (rows a) 1 then O else i) (if Nat.eqb (cols a) 1 then O else j) -
                                                at_ b (if Nat.eqb (rows b) 1 then O else i) (if Nat.eqb (cols b) 1 then O else j))))
  | _, _ => Err ValueError
  end.
(** The gap before the smallest value is taken off (lines 134-138) *)
Definition difference_of (sub2 : result grid) (sub1 : grid) : result grid :=
  bind sub2 (fun g2 => bind (fminus (Grid (rows g2) (cols g2) (fun i j => - at_ g2 i j)) sub1) (fun g =>
  if Nat.eqb (rows g * cols g) 0 then Err ValueError else Ok g)).
(** Surfaces that are not periodic (lines 115-138) *)
Definition fgap_plain (s1 s2 : fsurf) (off : R * R) : result grid :=
  let h := step s1 in
  let ey := fextent (rows (heights s1)) h in let ex := fextent (cols (heights s1)) h in
  let ey2 := fextent (rows (heights s2)) (step s2) in let ex2 := fextent (cols (heights s2)) (step s2) in
  if Rltb ey2 ey || Rltb ex2 ex then Err ValueError else
  let ylo := Rmax (- fst off) 0 in let yhi := Rmin ey (fl (ey2 - fst off)) in
  let xlo := Rmax (- snd off) 0 in let xhi := Rmin ex (fl (ex2 - snd off)) in
  let y0 := bound (int_div ylo h) (rows (heights s1)) in let y1 := bound (int_div yhi h) (rows (heights s1)) in
  let x0 := bound (int_div xlo h) (cols (heights s1)) in let x1 := bound (int_div xhi h) (cols (heights s1)) in
  let sub1 := Grid (y1 - y0) (x1 - x0) (fun i j => at_ (heights s1) (y0 + i) (x0 + j)) in
  difference_of (fnearest s2 (farange_len ylo yhi h) (farange_len xlo xhi h)
                   (fun i => fl (farange ylo h i + fst off)) (fun j => fl (farange xlo h j + snd off))) sub1.
(** [np.remainder]: exact but for negative numbers, to which the divisor is added *)
Definition fremainder (a b : R) : R := fl (a - IZR (Zfloor (a / b)) * b).
(** Periodic surfaces (lines 108-114 and 134-138) *)
Definition fgap_periodic (s1 s2 : fsurf) (off : R * R) : result grid :=
  let h := step s1 in
  let at2 n1 n2 o i := fremainder (fl (fl (flinspace (fl (h * INR (n1 - 1))) n1 i - o) + fl (eps * fextent n1 h))) (fextent n2 (step s2)) in
  difference_of (fnearest s2 (rows (heights s1)) (cols (heights s1))
                   (at2 (rows (heights s1)) (rows (heights s2)) (fst off)) (at2 (cols (heights s1)) (cols (heights s2)) (snd off))) (heights s1).

(** ** The grid of an interpolator (lines 762-765, 1223-1225, 1228-1230): RectBivariateSpline refuses another number of points. *)
Definition finterpolator (s : fsurf) : result unit :=
  if Nat.eqb (farange_len 0 (fextent (rows (heights s)) (step s)) (step s)) (rows (heights s)) &&
     Nat.eqb (farange_len 0 (fextent (cols (heights s)) (step s)) (step s)) (cols (heights s))
  then Ok tt else Err ValueError.
