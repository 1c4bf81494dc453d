(** Model of slippy/contact/_model_utils.py: the gap between two surfaces and the non
    dimensional height. *)
From Coq Require Import List Bool Arith ZArith Reals.
From Verif Require Export SurfaceModel.
Import ListNotations.
Local Open Scope R_scope.

(** [non_dimentional_height] (lines 10-58). [load or 1]: no load and a load of zero give 1. *)
Definition load_or_one (load : option R) : R :=
  match load with Some l => if Reqb l 0 then 1 else l | None => 1 end.
Definition uz (youngs v : R) (load : option R) (gs_x : R) (gs_y : option R) : R :=
  let a := gs_x in
  let b := match gs_y with None => gs_x | Some b => b end in
  let c := sqrt (a ^ 2 + b ^ 2) in
  let big_a := 2 * a * ln ((b + c) / (c - b)) + 2 * b * ln ((a + c) / (c - a)) in
  big_a * load_or_one load * (1 - v ^ 2) / PI / youngs / a / b.
Definition nd_height (h youngs v : R) (load : option R) (gs_x : R) (gs_y : option R) (inverse return_uz : bool) : R :=
  let u := uz youngs v load gs_x gs_y in
  if return_uz then u else if inverse then h * u else h / u.

(** A discrete surface: profile, grid spacing and extent (rows first). *)
Record dsurf := DSurf { d_prof : grid; d_gs : R; d_extent : R * R }.
Inductive second := NoSurface | Discrete (d : dsurf) | Analytical (h : R -> R -> R) | Undefined.

(** [np.arange(a, b, gs)]: its length; its k th value is [a + k * gs]. *)
Definition rceil (x : R) : Z := (- Int_part (- x))%Z.
Definition arange_len (a b gs : R) : nat := Z.to_nat (rceil ((b - a) / gs)).
(** [l[a:b]] of a list of length [n]: start and length. *)
Definition slice_bound (z : Z) (n : nat) : nat :=
  if Z.ltb z 0 then Z.to_nat (z + Z.of_nat n) else Nat.min (Z.to_nat z) n.
(** [np.remainder]. *)
Definition remainder (x m : R) : R := x - m * IZR (Int_part (x / m)).
(** [np.finfo(float).eps]. *)
Definition eps : R := / 2 ^ 52.

(** Broadcasting of one dimension. *)
Definition bdim (n m : nat) : option nat :=
  if Nat.eqb n m then Some n else if Nat.eqb n 1 then Some m else if Nat.eqb m 1 then Some n else None.
Definition bidx (n i : nat) : nat := if Nat.eqb n 1 then 0%nat else i.
Definition broadcast (op : R -> R -> R) (a b : grid) : result grid :=
  match bdim (rows a) (rows b), bdim (cols a) (cols b) with
  | Some r, Some c => Ok (Grid r c (fun i j => op (at_ a (bidx (rows a) i) (bidx (cols a) j))
                                                  (at_ b (bidx (rows b) i) (bidx (cols b) j))))
  | _, _ => Err ValueError
  end.

(** All index pairs of an array, and its values in C order. *)
Definition cells (r c : nat) : list (nat * nat) := flat_map (fun i => map (fun j => (i, j)) (seq 0 c)) (seq 0 r).
Definition values (g : grid) : list R := map (fun p => at_ g (fst p) (snd p)) (cells (rows g) (cols g)).
(** [min] of a Python iterable. *)
Definition py_min (l : list R) : result R :=
  match l with [] => Err ValueError | x :: l' => Ok (fold_left Rmin l' x) end.

Section Gap.
(** [surface_2.interpolate] with a given mode, point by point (y first). *)
Variable interp : dsurf -> R -> R -> result R.

(** Sampling raises if one of the points raises (with any mode: IndexError). *)
Definition sample (d : dsurf) (r c : nat) (pts : nat -> nat -> R * R) : result grid :=
  if forallb (fun p => match interp d (fst (pts (fst p) (snd p))) (snd (pts (fst p) (snd p))) with Ok _ => true | Err _ => false end)
             (cells r c)
  then Ok (Grid r c (fun i j => match interp d (fst (pts i j)) (snd (pts i j)) with Ok v => v | Err _ => 0 end))
  else Err IndexError.

(** [point_wise_interference -= min(...) + interference] (lines 139, 150). *)
Definition settle (g : grid) (h : R) : result grid :=
  bind (py_min (values g)) (fun m => Ok (Grid (rows g) (cols g) (fun i j => at_ g i j - (m + h)))).

(** [get_points_from_extent] without arguments (Surface_class.py:1157-1166). *)
Definition own_points (d : dsurf) : nat -> nat -> R * R := fun i j => (INR i * d_gs d, INR j * d_gs d).

(** The gap, the points on the first and on the second surface. *)
Definition gap_result := (grid * (nat -> nat -> R * R) * (nat -> nat -> R * R))%type.

(** Lines 106-114. *)
Definition gap_periodic (s1 s2 : dsurf) (h : R) (off : R * R) : result gap_result :=
  let p1 := own_points s1 in
  let p2 := fun i j => (remainder (fst (p1 i j) - fst off + eps * fst (d_extent s1)) (fst (d_extent s2)),
                        remainder (snd (p1 i j) - snd off + eps * snd (d_extent s1)) (snd (d_extent s2))) in
  bind (sample s2 (rows (d_prof s1)) (cols (d_prof s1)) p2) (fun sub2 =>
  bind (broadcast (fun b a => - b - a) sub2 (d_prof s1)) (fun g =>
  match values g with
  | [] => Err ValueError
  | _ => bind (settle g h) (fun g' => Ok (g', p1, p2))
  end)).

(** Lines 115-139. *)
Definition gap_plain (s1 s2 : dsurf) (h : R) (off : R * R) : result gap_result :=
  if Rltb (fst (d_extent s2)) (fst (d_extent s1)) || Rltb (snd (d_extent s2)) (snd (d_extent s1)) then Err ValueError
  else
    let gs := d_gs s1 in
    let ylo := Rmax (- fst off) 0 in let yhi := Rmin (fst (d_extent s1)) (fst (d_extent s2) - fst off) in
    let xlo := Rmax (- snd off) 0 in let xhi := Rmin (snd (d_extent s1)) (snd (d_extent s2) - snd off) in
    let p1 := fun i j => (ylo + INR i * gs, xlo + INR j * gs) in
    let p2 := fun i j => (fst (p1 i j) + fst off, snd (p1 i j) + snd off) in
    let g1 := d_prof s1 in
    let y0 := slice_bound (trunc (ylo / gs)) (rows g1) in let y1 := slice_bound (trunc (yhi / gs)) (rows g1) in
    let x0 := slice_bound (trunc (xlo / gs)) (cols g1) in let x1 := slice_bound (trunc (xhi / gs)) (cols g1) in
    let sub1 := Grid (y1 - y0) (x1 - x0) (fun i j => at_ g1 (y0 + i) (x0 + j)) in
    bind (sample s2 (arange_len ylo yhi gs) (arange_len xlo xhi gs) p2) (fun sub2 =>
    bind (broadcast (fun b a => - b - a) sub2 sub1) (fun g =>
    match values g with
    | [] => Err ValueError
    | _ => bind (settle g h) (fun g' => Ok (g', p1, p2))
    end)).

(** Lines 141-150. *)
Definition gap_analytic (s1 : dsurf) (height2 : R -> R -> R) (h : R) (off : R * R) : result gap_result :=
  let p1 := own_points s1 in
  let p2 := fun i j => (fst (p1 i j) - fst off, snd (p1 i j) - snd off) in
  let g1 := d_prof s1 in
  let g := Grid (rows g1) (cols g1) (fun i j => - height2 (fst (p2 i j)) (snd (p2 i j)) - at_ g1 i j) in
  bind (settle g h) (fun g' => Ok (g', p1, p2)).

(** [get_gap_from_model] (lines 62-152); [None]: the first surface is not discrete. *)
Definition get_gap (s1 : option dsurf) (s2 : second) (h : R) (off : R * R) (periodic : bool) : result gap_result :=
  match s2, s1 with
  | NoSurface, _ => Err ValueError
  | _, None => Err ValueError
  | Discrete d2, Some d1 => if periodic then gap_periodic d1 d2 h off else gap_plain d1 d2 h off
  | Analytical f, Some d1 => gap_analytic d1 f h off
  | Undefined, Some _ => Err ValueError
  end.
End Gap.

(** [interpolate] in nearest mode (Surface_class.py:1215-1220). *)
Definition nearest_mode (d : dsurf) (y x : R) : result R := nearest (d_prof d) (d_gs d) y x.
