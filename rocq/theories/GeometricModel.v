(** Model of the geometric surfaces, slippy/surface/Geometric.py, and of sums and multiples of analytical surfaces,
    slippy/surface/Surface_class.py 1749-1809. Floats are real numbers. *)
From Coq Require Import Reals List Bool Arith.
From Verif Require Import Py SurfaceModel.
Import ListNotations.
Local Open Scope R_scope.

(** ** Shapes *)
(** Arguments: a number, a tuple, a list, or anything else (an array). *)
Inductive arg := Number (x : R) | Tuple (l : list R) | List_ (l : list R) | Other.
(** A radius can be infinite. *)
Inductive radius := Finite (r : R) | Infinite.

(** Geometric.py 93-106 and 136 ([FlatSurface]): the slope of other types is never stored, and heights can't be found. *)
Definition flat_slope (a : arg) : option (list R) :=
  match a with Number x => Some [x; 0] | Tuple l | List_ l => Some l | Other => None end.
Definition flat_height (a : arg) (x y : R) : result R :=
  match flat_slope a with
  | None => Err AttributeError
  | Some (s0 :: s1 :: _) => Ok (x * s0 + y * s1)
  | Some _ => Err IndexError
  end.

(** lines 199-212 ([RoundSurface.__init__]). *)
Inductive radii := OneRadius (r : R) | Radii (l : list radius) | OtherRadii.
Definition new_round (a : radii) : result (radius * radius * radius) :=
  match a with
  | OneRadius r => Ok (Finite r, Finite r, Finite r)
  | Radii [a; b; c] => Ok (a, b, c)
  | _ => Err ValueError
  end.
(** [x / radius] *)
Definition over (x : R) (r : radius) : R := match r with Finite r => x / r | Infinite => 0 end.
(** lines 243-245. The square root of a negative number is NaN, which is replaced by zero. *)
Definition round_height (rx ry : radius) (rz x y : R) : R :=
  let s := 1 - over x rx ^ 2 - over y ry ^ 2 in
  if Rltb s 0 then 0 else sqrt s * rz - rz.

(** lines 301-318 ([PyramidSurface.__init__]): lists are not stored. *)
Definition new_pyramid (a : arg) : result (option (R * R * R)) :=
  match a with
  | Number x => Ok (Some (x, x, x))
  | Tuple [a; b; c] => Ok (Some (a, b, c))
  | Tuple _ => Err ValueError
  | _ => Ok None
  end.
(** line 345 *)
Definition pyramid_height (s : option (R * R * R)) (x y : R) : result R :=
  match s with
  | None => Err AttributeError
  | Some (a, b, c) => Ok ((0 - Rabs x / a - Rabs y / b) * c)
  end.

(** ** Arithmetic (Surface_class.py 1749-1809, 1843-1882) *)
(** Objects are kept in a store and refer to each other by their numbers: the height of a sum with a number is found from
    the original object, not from the copy. *)
Inductive node :=
| Plain (s : analytic)                                       (* height from its own attributes *)
| Scaled (f : R -> R) (original : nat) (own : analytic)      (* + number, - number, * number: a copy whose height is replaced *)
| Combined (op : R -> R -> R) (a b : nat) (own : analytic).  (* SurfaceCombination: _height is replaced *)
Definition store := list node.
(** [height] of an object; objects only refer to earlier ones. *)
Fixpoint height_of (fuel : nat) (st : store) (k : nat) (x y : R) : R :=
  match fuel with
  | O => 0
  | S fuel' =>
    match nth_error st k with
    | None => 0
    | Some (Plain s) => height s x y
    | Some (Scaled f o _) => f (height_of fuel' st o x y)
    | Some (Combined op a b s) =>
        height (Analytic (fun x y => op (height_of fuel' st a x y) (height_of fuel' st b x y)) (shift_x s) (shift_y s) (rotation s) (a_extent s)) x y
    end
  end.
Definition height_at (st : store) (k : nat) (x y : R) : R := height_of (S k) st k x y.
Definition own (n : node) : analytic := match n with Plain s => s | Scaled _ _ s => s | Combined _ _ _ s => s end.
Definition set_own (n : node) (s : analytic) : node :=
  match n with Plain _ => Plain s | Scaled f o _ => Scaled f o s | Combined op a b _ => Combined op a b s end.
Fixpoint replace {A} (k : nat) (x : A) (l : list A) : list A :=
  match l, k with
  | [], _ => []
  | _ :: r, O => x :: r
  | y :: r, S k' => y :: replace k' x r
  end.
(** What a program does with the objects: new surfaces, arithmetic, and moves of an object. Division with [/] finds no
    method ([__div__] is the name of Python 2), and so does a number on the left. *)
Inductive act :=
| New (s : analytic)
| AddNumber (k : nat) (c : R) | SubNumber (k : nat) (c : R) | MulNumber (k : nat) (c : R)
| DivNumber (k : nat) (c : R) | NumberAdd (c : R) (k : nat)
| AddSurface (a b : nat) | SubSurface (a b : nat)
| Move (k : nat) (o : aop).
Definition same_extent (a b : option (R * R)) : bool :=
  match a, b with Some (x, y), Some (x', y') => Reqb x x' && Reqb y y' | _, _ => true end.
Definition act_step (st : store) (a : act) : result store :=
  let get k f := match nth_error st k with Some n => f n | None => Err KeyError end in
  match a with
  | New s => Ok (st ++ [Plain s])
  | AddNumber k c => get k (fun n => Ok (st ++ [Scaled (fun h => h + c) k (own n)]))
  | SubNumber k c => get k (fun n => Ok (st ++ [Scaled (fun h => h - c) k (own n)]))
  | MulNumber k c => get k (fun n => Ok (st ++ [Scaled (fun h => h * c) k (own n)]))
  | DivNumber _ _ | NumberAdd _ _ => Err TypeError
  | AddSurface i j => get i (fun a => get j (fun b =>
      if same_extent (a_extent (own a)) (a_extent (own b)) then
        Ok (st ++ [Combined Rplus i j (Analytic (fun _ _ => 0) 0 0 0 (match a_extent (own a) with Some e => Some e | None => a_extent (own b) end))])
      else Err ValueError))
  | SubSurface i j => get i (fun a => get j (fun b =>
      if same_extent (a_extent (own a)) (a_extent (own b)) then
        Ok (st ++ [Combined Rminus i j (Analytic (fun _ _ => 0) 0 0 0 (match a_extent (own a) with Some e => Some e | None => a_extent (own b) end))])
      else Err ValueError))
  | Move k o => get k (fun n => Ok (replace k (set_own n (astep (own n) o)) st))
  end.
Fixpoint act_run (st : store) (l : list act) : result store :=
  match l with [] => Ok st | a :: r => bind (act_step st a) (fun st => act_run st r) end.
