(** Model of the comparison of surfaces and of their text (slippy/surface/Surface_class.py:842-848, 1604-1618,
    1702-1714, 1802-1809, 1880-1882; Geometric.py:138-140, 247-249, 347-349; FFTBased.py:373-376;
    Random.py:120-121, 396-406). Objects are their instance attributes, in the order in which they were set. *)
From Coq Require Import String List Bool Arith Reals Ascii.
From Verif Require Import Py SurfaceModel Flt.
Import ListNotations.
Local Open Scope R_scope.
Local Open Scope string_scope.

(** The concrete classes. Classes a user derives from them are left out, so that an object is an instance of the class
    of another one when the classes are the same. *)
Inductive kind := KSurface | KFractal | KPerez | KFilter | KFlat | KRound | KPyramid | KDisc | KProb | KCombination.
Definition analytic_kind (k : kind) : bool :=
  match k with KSurface | KFractal | KPerez | KFilter => false | _ => true end.
Definition kind_eqb (a b : kind) : bool :=
  match a, b with
  | KSurface, KSurface | KFractal, KFractal | KPerez, KPerez | KFilter, KFilter | KFlat, KFlat | KRound, KRound
  | KPyramid, KPyramid | KDisc, KDisc | KProb, KProb | KCombination, KCombination => true
  | _, _ => false
  end.

(** Arrays with two dimensions; they and functions are kept in a store and have an identity. *)
Record array := Arr { a_rows : nat; a_cols : nat; a_at : nat -> nat -> flt }.
Record heap := Heap { arrays : nat -> array; functions : nat -> R -> R -> R }.
(** Values of attributes. [VEmpty] is an empty dict, [VRefs] a tuple of surfaces. *)
Inductive val := VNone | VBool (b : bool) | VNum (x : R) | VTup (l : list R) | VLst (l : list R) | VArr (id : nat)
  | VFun (id : nat) | VEmpty | VRefs (l : list nat) | VStr (s : string).
Record obj := Obj { cls : kind; attrs : list (string * val) }.

(** Equality of numbers: not a number differs from itself. *)
Definition feqb (a b : flt) : bool :=
  match a, b with Fin x, Fin y => Reqb x y | PInf, PInf | NInf, NInf => true | _, _ => false end.
Definition all2 (r c : nat) (p : nat -> nat -> bool) : bool :=
  forallb (fun i => forallb (p i) (seq 0 c)) (seq 0 r).
(** [np.array_equal] *)
Definition array_equal (a b : array) : bool :=
  Nat.eqb (a_rows a) (a_rows b) && Nat.eqb (a_cols a) (a_cols b) &&
  all2 (a_rows a) (a_cols a) (fun i j => feqb (a_at a i j) (a_at b i j)).

(** Attributes with the values of the class when the instance has none. *)
Definition discrete (o : obj) : bool := match dget "is_discrete" (attrs o) with Some (VBool b) => b | _ => false end.
Definition spacing_of (o : obj) : option R := match dget "_grid_spacing" (attrs o) with Some (VNum x) => Some x | _ => None end.
Definition profile_of (o : obj) : option nat := match dget "_profile" (attrs o) with Some (VArr i) => Some i | _ => None end.
Definition rotation_of (o : obj) : R := match dget "_total_rotation" (attrs o) with Some (VNum x) => x | _ => 0 end.
Definition shift_of (o : obj) : R * R := match dget "_total_shift" (attrs o) with Some (VTup [x; y]) => (x, y) | _ => (0, 0) end.
Definition extent_of (o : obj) : option (R * R) := match dget "_extent" (attrs o) with Some (VTup [x; y]) => Some (x, y) | _ => None end.
Definition set_attr (k : string) (v : val) (o : obj) : obj := Obj (cls o) (dset k v (attrs o)).

Section Text.
(** The text of numbers, and of the attributes of filter surfaces. *)
Variable show : R -> string.
(** [s[:-n]] *)
Definition drop_last (n : nat) (s : string) : string := substring 0 (String.length s - n) s.
(** The parameters of a fractal surface in the order of input_params. *)
Definition show_val (v : option val) : string := match v with Some (VNum x) => show x | _ => "" end.
(** [_Surface.__repr__] (lines 1604-1618) without a profile, material and mask. [show_shape] is the text of the shape. *)
Definition surface_text (show_shape : option string) (spacing : option R) : string :=
  "Surface(" ++ drop_last 2 ((match show_shape with Some t => "shape = " ++ t ++ ", " | None => "" end) ++
                             (match spacing with Some g => "grid_spacing = " ++ show g ++ ", " | None => "" end)) ++ ")".
(** FFTBased.py 373-376 *)
Definition fractal_text (show_shape : option string) (spacing : option R) (sigma hurst roll : R) : string :=
  "HurstFractal" ++ drop_last 1 (surface_text show_shape spacing) ++ ", " ++
  drop_last 1 (show sigma ++ ", " ++ show hurst ++ ", " ++ show roll) ++ ")".
(** Random.py 396-406: the texts of the target, moments and shape when they are set. *)
Definition filter_text (target : option (string * string)) (moments shape : option string) : string :=
  drop_last 2 ("RandomFilterSurface(" ++
    (match target with Some (t, g) => "target_acf=" ++ t ++ ", " ++ "grid_spacing=" ++ g ++ ", " | None => "" end) ++
    (match moments with Some t => "moments = " ++ t ++ ", " | None => "" end) ++
    (match shape with Some t => "shape = " ++ t ++ ", " | None => "" end)) ++ ")".
(** Surface_class.py 1880-1882 *)
Definition combination_text (a b mode : string) : string :=
  "SurfaceCombination(surface_1=" ++ a ++ ", surface_2=" ++ b ++ ", mode='" ++ mode ++ "'".
End Text.

Section Equality.
Variables (h : heap) (text : obj -> string).
(** [repr(o)]: the method of Perez surfaces returns None (Random.py 120-121), which is refused. *)
Definition repr_of (o : obj) : result string := match cls o with KPerez => Err TypeError | _ => Ok (text o) end.

(** [a == b] of two values of a dict, which is true for the same object. Arrays are compared element by element, and
    the truth of the result is only defined for one element; arrays of different shapes count as different
    (a simplification: some shapes are broadcast). *)
Definition list_eqb (a b : list R) : bool := Nat.eqb (List.length a) (List.length b) && forallb (fun xy => Reqb (fst xy) (snd xy)) (combine a b).
Definition refs_eqb (a b : list nat) : bool := Nat.eqb (List.length a) (List.length b) && forallb (fun xy => Nat.eqb (fst xy) (snd xy)) (combine a b).
Definition truth_of_array (r c : nat) (p : nat -> nat -> bool) : result bool :=
  match (r * c)%nat with O => Ok false | S O => Ok (all2 r c p) | _ => Err ValueError end.
Definition veq (a b : val) : result bool :=
  match a, b with
  | VNone, VNone | VEmpty, VEmpty => Ok true
  | VBool x, VBool y => Ok (Bool.eqb x y)
  | VNum x, VNum y => Ok (Reqb x y)
  | VTup x, VTup y | VLst x, VLst y => Ok (list_eqb x y)
  | VFun i, VFun j => Ok (Nat.eqb i j)
  | VRefs x, VRefs y => Ok (refs_eqb x y)
  | VStr x, VStr y => Ok (String.eqb x y)
  | VArr i, VArr j =>
      if Nat.eqb i j then Ok true
      else let x := arrays h i in let y := arrays h j in
           if Nat.eqb (a_rows x) (a_rows y) && Nat.eqb (a_cols x) (a_cols y) then
             truth_of_array (a_rows x) (a_cols x) (fun i j => feqb (a_at x i j) (a_at y i j))
           else Ok false
  | VArr i, _ | _, VArr i => truth_of_array (a_rows (arrays h i)) (a_cols (arrays h i)) (fun _ _ => false)
  | _, _ => Ok false
  end.
(** [dict == dict]: the sizes, then the entries in the order of the first one. *)
Fixpoint entries_eq (a b : list (string * val)) : result bool :=
  match a with
  | [] => Ok true
  | (k, v) :: r => match dget k b with
                   | None => Ok false
                   | Some w => bind (veq v w) (fun t => if t : bool then entries_eq r b else Ok false)
                   end
  end.
Definition dict_eq (a b : list (string * val)) : result bool :=
  if Nat.eqb (List.length a) (List.length b) then entries_eq a b else Ok false.

(** [np.array_equal] of two profiles, [None] without one. *)
Definition same_profile (a b : option nat) : bool :=
  match a, b with
  | Some i, Some j => array_equal (arrays h i) (arrays h j)
  | None, None => true
  | _, _ => false
  end.
Definition same_spacing (a b : option R) : bool :=
  match a, b with Some x, Some y => Reqb x y | None, None => true | _, _ => false end.
(** [_Surface.__eq__] (lines 842-848) *)
Definition base_eq (a b : obj) : result bool :=
  if negb (Bool.eqb (discrete a) (discrete b)) then Ok false
  else if discrete a then Ok (same_profile (profile_of a) (profile_of b) && same_spacing (spacing_of a) (spacing_of b))
  else bind (repr_of a) (fun s => bind (repr_of b) (fun t => Ok (String.eqb s t))).
(** [_AnalyticalSurface.__eq__] (lines 1802-1809) *)
Definition analytic_eq (a b : obj) : result bool :=
  if negb (kind_eqb (cls a) (cls b)) then Ok false
  else if discrete a && discrete b then base_eq a b
  else dict_eq (attrs a) (attrs b).
(** [a == b] *)
Definition equal (a b : obj) : result bool := if analytic_kind (cls a) then analytic_eq a b else base_eq a b.

(** ** Heights *)
(** The attributes the height of each class is found from; a combination has its function as an attribute. *)
Definition keys (k : kind) : list string :=
  match k with
  | KFlat => ["_slope"] | KRound => ["_radius"] | KPyramid => ["_lengths"] | KDisc => ["frequencies"; "amplitudes"]
  | KProb => ["h"; "qr"; "qs"] | KCombination => ["_height"] | _ => []
  end.
(** What a function sees of a value. *)
Inductive content := CVal (v : val) | CArray (a : array) | CFun (f : R -> R -> R).
Definition look (v : val) : content := match v with VArr i => CArray (arrays h i) | VFun i => CFun (functions h i) | _ => CVal v end.
(** [shapes k] is the method _height of the class (Geometric.py 135, 243, 345, FFTBased.py 117-122) as a function of
    these attributes. *)
Variable shapes : kind -> list (option content) -> R -> R -> R.
(** [height] (lines 1667-1700), or the function that a sum with a number has stored in its place (line 1754). *)
Definition height_at (o : obj) (x y : R) : R :=
  match dget "height" (attrs o) with
  | Some (VFun i) => functions h i x y
  | _ => height (Analytic (shapes (cls o) (map (fun k => option_map look (dget k (attrs o))) (keys (cls o))))
                  (fst (shift_of o)) (snd (shift_of o)) (rotation_of o) (extent_of o)) x y
  end.
End Equality.

(** [rotate] and [shift] (lines 1726-1747) *)
Definition rotated (t : R) (o : obj) : obj := set_attr "_total_rotation" (VNum (rotation_of o + t)) o.
Definition shifted (v : option (R * R)) (o : obj) : obj :=
  let add d := set_attr "_total_shift" (VTup [fst (shift_of o) + fst d; snd (shift_of o) + snd d]) o in
  match v with
  | Some d => add d
  | None => match extent_of o with None => o | Some (ex, ey) => add (ex / -2, ey / -2) end
  end.
(** A new surface without rotation, shift, grid spacing and extent: the parameters of the class, then what
    [_Surface.__init__] sets (lines 152-167). *)
Definition new_plain (k : kind) (params : list (string * val)) : obj :=
  Obj k (params ++ [("is_discrete", VBool false); ("wear_volumes", VEmpty)]).
(** A new [SurfaceCombination] (lines 1846-1874) of two surfaces without extent and grid spacing; [f] is the lambda made
    for it. *)
Definition new_combination (mode : string) (a b f : nat) : obj :=
  Obj KCombination [("is_discrete", VBool false); ("wear_volumes", VEmpty); ("_total_shift", VTup [0 + 0; 0 + 0]);
    ("mode", VStr mode); ("surfaces", VRefs [a; b]); ("_height", VFun f)].
(** A fractal surface that was not generated (FFTBased.py 245-259): Surface.__init__ makes it discrete (line 1351). *)
Definition new_fractal (sigma hurst roll spacing : R) : obj :=
  Obj KFractal [("input_params", VTup [sigma; hurst; roll]); ("_hurst_exponent", VNum hurst); ("_sigma", VNum sigma);
    ("_roll_off_frequency", VNum roll); ("is_discrete", VBool true); ("_grid_spacing", VNum spacing); ("wear_volumes", VEmpty)].
(** A Perez surface (Random.py 90-118) and its realisations: only the profile is set (line 300). *)
Definition new_perez (params : list (string * val)) : obj := new_plain KPerez params.
Definition perez_discretise (id : nat) (o : obj) : obj := set_attr "_profile" (VArr id) o.

(** A sum with a number (lines 1749-1756): a copy with two more attributes. *)
Definition plus_number (f : nat) (o : obj) : obj := set_attr "surface_type" (VStr "Combination") (set_attr "height" (VFun f) o).

(** ** The text of analytical surfaces as a call (lines 1702-1714 and the methods __repr__ of the classes) *)
(** The arguments in the text: numbers and tuples are written so that they are read back, except infinities, which are
    written as a name that isn't defined. *)
Record call := Call { c_shift : option (R * R); c_rotation : option R; c_generate : bool; c_spacing : option R; c_extent : option (R * R) }.
Definition nonzero (x : R) : bool := negb (Reqb x 0).
Definition repr_call (s : analytic) (is_discrete : bool) (spacing : option R) : call :=
  Call (if nonzero (shift_x s) || nonzero (shift_y s) then Some (shift_x s, shift_y s) else None)
       (if nonzero (rotation s) then Some (rotation s) else None)
       is_discrete
       (match spacing with Some g => if nonzero g then Some g else None | None => None end)
       (a_extent s).
(** Evaluating the call: the constructor of the class, whose height is [f] (lines 1631-1641). *)
Definition eval_call (f : R -> R -> R) (c : call) : analytic := new_analytic f (c_rotation c) (c_shift c) (c_extent c).
(** The text of a round surface has its radii; evaluating an infinite one is a NameError, here a KeyError. *)
Definition eval_radii (l : list flt) : result (list R) :=
  fold_right (fun r acc => bind acc (fun l => match r with Fin x => Ok (x :: l) | _ => Err KeyError end)) (Ok []) l.
