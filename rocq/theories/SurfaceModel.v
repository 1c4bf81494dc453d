(** Model of the surface classes: slippy/surface/Surface_class.py. Heights are real
    numbers, surfaces have two dimensions. *)
From Coq Require Import String List Bool Arith ZArith Reals.
From Verif Require Export Py.
Import ListNotations.
Local Open Scope R_scope.

Definition Rltb (x y : R) : bool := if Rlt_dec x y then true else false.
Definition Rleb (x y : R) : bool := if Rle_dec x y then true else false.
Definition Reqb (x y : R) : bool := if Req_EM_T x y then true else false.

(** A two dimensional array. *)
Record grid := Grid { rows : nat; cols : nat; at_ : nat -> nat -> R }.

(** Conversion of a float to an integer rounds towards zero: [int(x)], and an array of
    dtype int32. *)
Definition trunc (x : R) : Z := if Rltb x 0 then (- Int_part (- x))%Z else Int_part x.
(** An array of dtype uint16 keeps 16 bits. *)
Definition uint16 (x : R) : nat := Z.to_nat (trunc x mod 65536).

(** ** [wear] (lines 404-438) *)
Record worn := Worn { profile : grid; unworn : grid; wear_volumes : list (string * grid) }.

(** [A[y_ind, x_ind] += depth]: the old values are read first, then stored in order, so the
    last one counts when a point occurs twice. [idx] has (row, column, depth). *)
Fixpoint last_depth (idx : list (nat * nat * R)) (i j : nat) : option R :=
  match idx with
  | [] => None
  | (r, c, d) :: l => match last_depth l i j with
                      | Some d' => Some d'
                      | None => if Nat.eqb r i && Nat.eqb c j then Some d else None
                      end
  end.
Definition add_at (sign : R) (g : grid) (idx : list (nat * nat * R)) : grid :=
  Grid (rows g) (cols g) (fun i j => match last_depth idx i j with Some d => at_ g i j + sign * d | None => at_ g i j end).
Definition zeros_like (g : grid) : grid := Grid (rows g) (cols g) (fun _ _ => 0).
(** [x_pts / grid_spacing + grid_spacing / 2] (lines 433-434). *)
Definition wear_index (gs x : R) : nat := uint16 (x / gs + gs / 2).
Definition indices (gs : R) (pts : list (R * R * R)) : list (nat * nat * R) :=
  map (fun p => match p with (x, y, d) => (wear_index gs y, wear_index gs x, d) end) pts.
(** One call with points (x, y, depth): the three arrays of equal size as one list; the
    ValueErrors of lines 421 and 427 are left out. An index outside of the array raises
    before anything is changed, except that the array of the name exists. *)
Definition wear (gs : R) (w : worn) (name : string) (pts : list (R * R * R)) : worn * result unit :=
  let vols := if dmem name (wear_volumes w) then wear_volumes w
              else dset name (zeros_like (profile w)) (wear_volumes w) in
  let idx := indices gs pts in
  if forallb (fun p => match p with (r, c, _) => Nat.ltb r (rows (profile w)) && Nat.ltb c (cols (profile w)) end) idx then
    match dget name vols with
    | Some v => (Worn (add_at (-1) (profile w) idx) (unworn w) (dset name (add_at 1 v idx) vols), Ok tt)
    | None => (w, Err KeyError)
    end
  else (Worn (profile w) (unworn w) vols, Err IndexError).
(** The profile setter (lines 299-316). *)
Definition set_profile (w : worn) (g : grid) : worn := Worn g g [].
Inductive wop := Wear (name : string) (pts : list (R * R * R)) | SetProfile (g : grid).
Definition wstep (gs : R) (w : worn) (o : wop) : worn :=
  match o with Wear n p => fst (wear gs w n p) | SetProfile g => set_profile w g end.
Definition wrun (gs : R) (w : worn) (os : list wop) : worn := fold_left (wstep gs) os w.

(** ** Extent, shape and grid spacing (lines 215-385), two dimensions *)
Record geom := Geom {
  extent : option (R * R);
  shape : option (nat * nat);
  spacing : option R;
  prof : option (nat * nat) }.   (* the shape of the profile, if there is one *)
Definition new_geom : geom := Geom None None None None.

Definition rn (n : nat) : R := INR n.
(** [int(v / gs)] of a non negative number; raises when [gs] is zero. *)
Definition npts (v gs : R) : nat := Z.to_nat (trunc (v / gs)).
(** [abs(a/b - c/d) > 0.0001]; raises when a divisor is zero. *)
Definition aspect_differs (a b c d : R) : bool := Rltb (1 / 10000) (Rabs (a / b - c / d)).

(** [extent] setter (lines 221-247). *)
Definition set_extent (g : geom) (e : R * R) : geom * result unit :=
  match prof g with
  | Some _ =>
      match shape g with
      | Some (s0, s1) =>
          if Reqb (rn s1) 0 || Reqb (snd e) 0 then (g, Err ZeroDivisionError)
          else if aspect_differs (fst e) (snd e) (rn s0) (rn s1) then (g, Err ValueError)
          else if Reqb (rn s0) 0 then (Geom (Some e) (shape g) (spacing g) (prof g), Err ZeroDivisionError)
          else (Geom (Some e) (shape g) (Some (fst e / rn s0)) (prof g), Ok tt)
      | None => (g, Err TypeError)
      end
  | None =>
      let g1 := Geom (Some e) (shape g) (spacing g) None in
      let go (g2 : geom) :=
        match shape g2 with
        | Some (s0, s1) =>
            if Reqb (rn s0) 0 then (g2, Err ZeroDivisionError)
            else let h := fst e / rn s0 in
                 (Geom (Some (rn s0 * h, rn s1 * h)) (shape g2) (Some h) None, Ok tt)
        | None => (g2, Ok tt)
        end in
      match spacing g with
      | Some h => if Reqb h 0 then (g1, Err ZeroDivisionError)
                  else go (Geom (Some e) (Some (npts (fst e) h, npts (snd e) h)) (Some h) None)
      | None => go g1
      end
  end.

(** [extent] deleter (lines 249-255). *)
Definition del_extent (g : geom) : geom :=
  Geom None (match prof g with None => None | Some _ => shape g end) None (prof g).

(** [shape] setter (lines 263-277) and deleter (lines 279-288). *)
Definition set_shape (g : geom) (s : nat * nat) : geom * result unit :=
  match prof g with
  | Some _ => (g, Err ValueError)
  | None =>
      match spacing g, extent g with
      | Some h, _ => (Geom (Some (rn (fst s) * h, rn (snd s) * h)) (Some s) (Some h) None, Ok tt)
      | None, Some e =>
          if Reqb (rn (fst s)) 0 then (Geom (extent g) (Some s) None None, Err ZeroDivisionError)
          else let h := fst e / rn (fst s) in
               (Geom (Some (rn (fst s) * h, rn (snd s) * h)) (Some s) (Some h) None, Ok tt)
      | None, None => (Geom None (Some s) None None, Ok tt)
      end
  end.
Definition del_shape (g : geom) : geom * result unit :=
  match prof g with
  | None => (Geom None None None None, Ok tt)
  | Some _ => (g, Err ValueError)
  end.

(** [profile] setter (lines 299-332) with an array of shape [s], and deleter (lines
    334-342). *)
Definition set_prof (g : geom) (s : nat * nat) : geom * result unit :=
  match spacing g, extent g with
  | Some h, _ => (Geom (Some (h * rn (fst s), h * rn (snd s))) (Some s) (Some h) (Some s), Ok tt)
  | None, Some e =>
      if Reqb (snd e) 0 || Reqb (rn (snd s)) 0 then (Geom (extent g) (Some s) None (Some s), Err ZeroDivisionError)
      else if Rltb (Rabs (fst e / snd e - rn (fst s) / rn (snd s))) (1 / 10000) then
        if Reqb (rn (fst s)) 0 then (Geom (extent g) (Some s) None (Some s), Err ZeroDivisionError)
        else (Geom (extent g) (Some s) (Some (fst e / rn (fst s))) (Some s), Ok tt)
      else (Geom None (Some s) None (Some s), Ok tt)
  | None, None => (Geom None (Some s) None (Some s), Ok tt)
  end.
Definition del_prof (g : geom) : geom :=
  del_extent (fst (del_shape (Geom (extent g) (shape g) (spacing g) None))).

(** [grid_spacing] setter (lines 350-378, a finite float) and deleter (lines 380-385). *)
Definition set_spacing (g : geom) (h : R) : geom * result unit :=
  match prof g with
  | None =>
      match extent g, shape g with
      | Some e, _ =>
          if Reqb h 0 then (Geom (extent g) (shape g) (Some h) None, Err ZeroDivisionError)
          else let s := (npts (fst e) h, npts (snd e) h) in
               (Geom (Some (rn (fst s) * h, rn (snd s) * h)) (Some s) (Some h) None, Ok tt)
      | None, Some s => (Geom (Some (h * rn (fst s), h * rn (snd s))) (Some s) (Some h) None, Ok tt)
      | None, None => (Geom None None (Some h) None, Ok tt)
      end
  | Some _ =>
      match shape g with
      | Some s => (Geom (Some (rn (fst s) * h, rn (snd s) * h)) (Some s) (Some h) (prof g), Ok tt)
      | None => (Geom (extent g) None (Some h) (prof g), Err TypeError)
      end
  end.
Definition del_spacing (g : geom) : geom :=
  let g1 := Geom None (shape g) None (prof g) in
  match prof g with None => fst (del_shape g1) | Some _ => g1 end.

Inductive gop := SetExtent (e : R * R) | DelExtent | SetShape (s : nat * nat) | DelShape
  | SetProf (s : nat * nat) | DelProf | SetSpacing (h : R) | DelSpacing.
Definition gstep (g : geom) (o : gop) : geom * result unit :=
  match o with
  | SetExtent e => set_extent g e
  | DelExtent => (del_extent g, Ok tt)
  | SetShape s => set_shape g s
  | DelShape => del_shape g
  | SetProf s => set_prof g s
  | DelProf => (del_prof g, Ok tt)
  | SetSpacing h => set_spacing g h
  | DelSpacing => (del_spacing g, Ok tt)
  end.

(** ** The mask setter (lines 186-209); a height is [None] for nan *)
Inductive mval := MFloat (x : option R) | MArray (m : list bool) | MString | MSeq (l : list mval) | MOther.
Definition same_height (x y : option R) : bool :=
  match x, y with Some a, Some b => Reqb a b | _, _ => false end.
Definition is_nan (x : option R) : bool := match x with None => true | Some _ => false end.
(** The shape of an array mask is checked by its length. *)
Fixpoint mask_of (heights : list (option R)) (m : mval) : result (list bool) :=
  match m with
  | MFloat None => Ok (map is_nan heights)
  | MFloat (Some v) => Ok (map (fun h => same_height h (Some v)) heights)
  | MArray a => if Nat.eqb (length a) (length heights) then Ok a else Err TypeError
  | MString => Err TypeError
  | MSeq l =>
      fold_left (fun acc item => bind acc (fun mask => bind (mask_of heights item) (fun m1 =>
        Ok (map (fun ab => andb (fst ab) (snd ab)) (combine m1 mask))))) l (Ok (map (fun _ => false) heights))
  | MOther => Err TypeError
  end.

(** ** Sums and differences (lines 780-840) *)
Record surf := Surf { heights : grid; gspacing : option R }.
Section Arithmetic.
(** [resample(new_spacing, return_profile=True)] of a surface (lines 698-778). *)
Variable resample : surf -> R -> grid.
Definition add_number (s : surf) (x : R) : surf :=
  Surf (Grid (rows (heights s)) (cols (heights s)) (fun i j => at_ (heights s) i j + x)) (gspacing s).
(** [__sub__] with a number (lines 817-819) adds it. *)
Definition sub_number (s : surf) (x : R) : surf := add_number s x.
Definition common (op : R -> R -> R) (a b : grid) : grid :=
  Grid (Nat.min (rows a) (rows b)) (Nat.min (cols a) (cols b)) (fun i j => op (at_ a i j) (at_ b i j)).
Definition combine_surf (op : R -> R -> R) (a b : surf) : surf :=
  match gspacing a, gspacing b with
  | Some ga, Some gb =>
      if Reqb ga gb then Surf (common op (heights a) (heights b)) (Some ga)
      else if Rltb ga gb then Surf (common op (heights a) (resample b ga)) (Some ga)
      else Surf (common op (resample a gb) (heights b)) (Some gb)
  | Some ga, None => Surf (common op (heights a) (heights b)) (Some ga)
  | None, gb => Surf (common op (heights a) (heights b)) gb
  end.
Definition add_surf := combine_surf Rplus.
Definition sub_surf := combine_surf Rminus.
End Arithmetic.

(** ** Analytical surfaces (lines 1621-1882) *)
Record analytic := Analytic {
  base : R -> R -> R;          (* _height *)
  shift_x : R; shift_y : R;    (* _total_shift *)
  rotation : R;                (* _total_rotation *)
  a_extent : option (R * R) }.
(** [height] (lines 1667-1700). *)
Definition height (s : analytic) (x y : R) : R :=
  let c := cos (rotation s) in let n := sin (rotation s) in
  base s (x * c - y * n + (shift_x s * c - shift_y s * n))
         (y * c + x * n + (shift_y s * c + shift_x s * n)).
(** [rotate] and [shift] (lines 1726-1747); [None] is the default argument. *)
Definition rotate (s : analytic) (t : R) : analytic :=
  Analytic (base s) (shift_x s) (shift_y s) (rotation s + t) (a_extent s).
Definition shift (s : analytic) (v : option (R * R)) : analytic :=
  match v with
  | Some (dx, dy) => Analytic (base s) (shift_x s + dx) (shift_y s + dy) (rotation s) (a_extent s)
  | None => match a_extent s with
            | None => s
            | Some (ex, ey) => Analytic (base s) (shift_x s + ex / -2) (shift_y s + ey / -2) (rotation s) (a_extent s)
            end
  end.
Inductive aop := Rotate (t : R) | Shift (v : option (R * R)).
Definition astep (s : analytic) (o : aop) : analytic :=
  match o with Rotate t => rotate s t | Shift v => shift s v end.
Definition arun (s : analytic) (os : list aop) : analytic := fold_left astep os s.
(** A new surface: rotation then shift (lines 1631-1641). *)
Definition new_analytic (f : R -> R -> R) (rot : option R) (sh : option (R * R)) (e : option (R * R)) : analytic :=
  let s := Analytic f 0 0 0 e in
  shift (match rot with Some t => rotate s t | None => s end) sh.
(** [SurfaceCombination] (lines 1843-1882) for surfaces with compatible extents: a new
    analytical surface whose base height is the sum or difference of the heights. *)
Definition combination (op : R -> R -> R) (a b : analytic) (e : option (R * R)) : analytic :=
  Analytic (fun x y => op (height a x y) (height b x y)) 0 0 0 e.
(** [discretise] (lines 1643-1661): point (i, j) of the profile is the height at
    (i * spacing, j * spacing). *)
Definition discretise (s : analytic) (gs : R) (r c : nat) : grid :=
  Grid r c (fun i j => height s (INR i * gs) (INR j * gs)).

(** ** [interpolate] (lines 1193-1234) *)
(** A negative index counts from the end. *)
Definition npindex (n : nat) (z : Z) : option nat :=
  if Z.leb 0 z && Z.ltb z (Z.of_nat n) then Some (Z.to_nat z)
  else if Z.ltb z 0 && Z.leb (- Z.of_nat n) z then Some (Z.to_nat (z + Z.of_nat n)) else None.
Definition nearest (g : grid) (gs y x : R) : result R :=
  match npindex (rows g) (trunc (y / gs)), npindex (cols g) (trunc (x / gs)) with
  | Some i, Some j => Ok (at_ g i j)
  | _, _ => Err IndexError
  end.
(** The interpolator of a surface (lines 1221-1232, 1234): made from the profile when there
    is none of the right degree, and called with (x, y). [spline k g gs] is
    RectBivariateSpline of degree [k], whose first argument runs along the rows. *)
Record interp := Interp { i_profile : grid; i_func : option (nat * (R -> R -> R)) }.
Section Spline.
Variable spline : nat -> grid -> R -> R -> R -> R.
Definition spline_at (s : interp) (gs : R) (k : nat) (remake : bool) (y x : R) : interp * R :=
  match i_func s with
  | Some (k', f) => if negb remake && Nat.eqb k' k then (s, f x y)
                    else (Interp (i_profile s) (Some (k, spline k (i_profile s) gs)), spline k (i_profile s) gs x y)
  | None => (Interp (i_profile s) (Some (k, spline k (i_profile s) gs)), spline k (i_profile s) gs x y)
  end.
(** [wear] forgets the interpolator (line 438), assigning a profile does not. *)
Definition i_wear (s : interp) (g : grid) : interp := Interp g None.
Definition i_set_profile (s : interp) (g : grid) : interp := Interp g (i_func s).
End Spline.
