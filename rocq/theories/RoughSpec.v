(** What the roughness functions should compute, in terms of the heights of the points which are used. *)
From Coq Require Import Reals List Bool Arith ZArith String.
From Verif Require Import Py Flt RoughModel.
Import ListNotations.
Local Open Scope R_scope.

(** Sums over the points of an array for which [u] holds. *)
Fixpoint sum_to (n : nat) (f : nat -> R) : R := match n with O => 0 | S k => sum_to k f + f k end.
Definition over (r c : nat) (u : bmask) (f : nat -> nat -> R) : R :=
  sum_to r (fun i => sum_to c (fun j => if u i j then f i j else 0)).
Definition number (r c : nat) (u : bmask) : R := over r c u (fun _ _ => 1).
Definition average (r c : nat) (u : bmask) (f : nat -> nat -> R) : R := over r c u f / number r c u.
Definition everywhere : bmask := fun _ _ => true.

(** The points used with a mask argument, as documented: all, all but a value, those marked in an array. *)
Definition used (p : arr) (m : mask_arg) : bmask := fun i j =>
  match m with
  | NoMask => true
  | FloatMask NaN => negb (is_nan (h_at p i j))
  | FloatMask x => negb (feqb (h_at p i j) x)
  | IntMask z => negb (feqb (h_at p i j) (Fin (IZR z)))
  | ArrMask _ _ f => f i j
  end.
(** Masks whose shape fits. *)
Definition fits (p : arr) (m : mask_arg) : Prop :=
  match m with ArrMask r c _ => r = nrows p /\ c = ncols p | _ => True end.
(** Masks which [roughness] takes for a profile of floats. *)
Definition fair (p : arr) (m : mask_arg) : Prop :=
  match m with NoMask => True | FloatMask x => x = NaN | IntMask _ => False | ArrMask r c _ => r = nrows p /\ c = ncols p end.
(** The heights at the used points are the numbers [z]. *)
Definition heights_are (p : arr) (u : bmask) (z : nat -> nat -> R) : Prop :=
  forall i j, (i < nrows p)%nat -> (j < ncols p)%nat -> u i j = true -> h_at p i j = Fin (z i j).
Definition some_used (p : arr) (u : bmask) : Prop := exists i j, (i < nrows p)%nat /\ (j < ncols p)%nat /\ u i j = true.

(** ** Polynomials *)
(** All products of powers up to the order; [k] holds the coefficients with the exponent of y running first. *)
Definition polynomial (order : nat) (k : list R) (x y : R) : R :=
  sum_to (S order) (fun a => sum_to (S order) (fun b => nth (a * S order + b) k 0 * x ^ a * y ^ b)).
(** What is left of the heights when a polynomial is subtracted; the column is x, the row is y. *)
Definition left_of (order : nat) (k : list R) (z : nat -> nat -> R) (i j : nat) : R :=
  z i j - polynomial order k (INR j) (INR i).
Definition squares (r c : nat) (u : bmask) (z : nat -> nat -> R) : R := over r c u (fun i j => z i j ^ 2).
(** [z'] is [z] without its best fitting polynomial. *)
Definition flattened (order r c : nat) (u : bmask) (z z' : nat -> nat -> R) : Prop :=
  exists k, List.length k = (S order * S order)%nat /\
    (forall i j, (i < r)%nat -> (j < c)%nat -> u i j = true -> z' i j = left_of order k z i j) /\
    (forall k', squares r c u z' <= squares r c u (left_of order k' z)).

(** ** Least squares routines *)
Definition product (c row : list R) : R := fold_right Rplus 0 (map (fun ab => fst ab * snd ab) (combine c row)).
Definition misfit (g : list (list R)) (c z : list R) : R :=
  fold_right Rplus 0 (map (fun gz => (snd gz - product c (fst gz)) ^ 2) (combine g z)).
(** The routine finds finite coefficients with the smallest misfit for every system with finite entries. *)
Definition good_lstsq (f : nat -> list (list R) -> list flt -> option (list flt)) : Prop :=
  forall n g z, Forall (fun row => List.length row = n) g -> List.length g = List.length z ->
    exists c, f n g (map Fin z) = Some (map Fin c) /\ List.length c = n /\
      forall c', List.length c' = n -> misfit g c z <= misfit g c' z.

(** ** Amplitude parameters of the heights [z] *)
Definition rms (r c : nat) (u : bmask) (z : nat -> nat -> R) : R := sqrt (average r c u (fun i j => z i j ^ 2)).
Definition lowest (r c : nat) (u : bmask) (z : nat -> nat -> R) (x : R) : Prop :=
  (exists i j, (i < r)%nat /\ (j < c)%nat /\ u i j = true /\ x = z i j) /\
  (forall i j, (i < r)%nat -> (j < c)%nat -> u i j = true -> x <= z i j).
Definition amplitude : list string := ["sq"; "sa"; "ssk"; "sku"; "sv"]%string.
(** The value of a parameter, when it is a number. *)
Definition profile_of (s : source) : arr := match s with OfArray a | OfSurface a _ => a end.
Definition with_profile (s : source) (p : arr) : source := match s with OfArray _ => OfArray p | OfSurface _ g => OfSurface p g end.

(** The values of a list of calls, or the first error. *)
Fixpoint all_ok {A} (l : list (result A)) : result (list A) :=
  match l with
  | [] => Ok []
  | Err e :: _ => Err e
  | Ok x :: t => match all_ok t with Ok xs => Ok (x :: xs) | Err e => Err e end
  end.

(** ** Summits *)
Definition interior (p : arr) (i j : nat) : Prop := (1 <= i /\ i + 1 < nrows p /\ 1 <= j /\ j + 1 < ncols p)%nat.
Definition near (a b : nat) : Prop := (a <= b + 1 /\ b <= a + 1)%nat.
(** The four or eight nearest neighbours. *)
Definition adjacent (four : bool) (i j i' j' : nat) : Prop :=
  near i i' /\ near j j' /\ (i, j) <> (i', j') /\ (four = true -> i = i' \/ j = j').
Definition summit (p : arr) (four : bool) (z : nat -> nat -> R) (i j : nat) : Prop :=
  interior p i j /\ forall i' j', adjacent four i j i' j' -> z i' j' < z i j.

(** ** Material and void *)
Definition material_above (r c : nat) (u : bmask) (z : nat -> nat -> R) (h : R) : R := over r c u (fun i j => Rmax 0 (z i j - h)).
Definition void_below (r c : nat) (u : bmask) (z : nat -> nat -> R) (h : R) : R := over r c u (fun i j => Rmax 0 (h - z i j)).
Definition highest (r c : nat) (u : bmask) (z : nat -> nat -> R) (x : R) : Prop :=
  (exists i j, (i < r)%nat /\ (j < c)%nat /\ u i j = true /\ x = z i j) /\
  (forall i j, (i < r)%nat -> (j < c)%nat -> u i j = true -> z i j <= x).
(** The points which the material ratio counts: for a mask those which [roughness] does not use. *)
Definition counted (p : arr) (m : mask_arg) : bmask := fun i j =>
  match m with NoMask => true | _ => negb (used p m i j) end.

(** ** Areas and correlations *)
(** The area of a cell of four points as the product of the mean lengths of opposite sides. *)
Definition side (g a b : R) : R := sqrt (g ^ 2 + (a - b) ^ 2).
Definition cell (g : R) (z : nat -> nat -> R) (x y : nat) : R :=
  (side g (z x y) (z x (y + 1)%nat) + side g (z (x + 1)%nat y) (z (x + 1)%nat (y + 1)%nat)) / 2 *
  ((side g (z x y) (z (x + 1)%nat y) + side g (z x (y + 1)%nat) (z (x + 1)%nat (y + 1)%nat)) / 2).
Definition cells_area (g : R) (r c : nat) (z : nat -> nat -> R) : R := over (r - 1) (c - 1) everywhere (cell g z).

(** Equal up to upper and lower case of the letters A to Z. *)
Definition capitals : string := "ABCDEFGHIJKLMNOPQRSTUVWXYZ".
Definition smalls : string := "abcdefghijklmnopqrstuvwxyz".
Inductive same_letters : string -> string -> Prop :=
| sl_nil : same_letters EmptyString EmptyString
| sl_char c d a b :
    (c = d \/ exists i, (get i capitals = Some c /\ get i smalls = Some d) \/
                       (get i capitals = Some d /\ get i smalls = Some c)) ->
    same_letters a b -> same_letters (String c a) (String d b).
