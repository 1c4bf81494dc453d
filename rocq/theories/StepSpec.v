(** Specification vocabulary for steps and movements (C46 to C49, C71, C83 to C85). *)
From Coq Require Import String List Bool Arith Reals.
From Verif Require Import HeightModel StepModel HeightSpec.
Import ListNotations.
Local Open Scope string_scope.
Local Open Scope R_scope.

(** The value at [t] of the straight line through ([t0], [p0]) and ([t1], [p1]). *)
Definition line (t0 p0 t1 p1 t : R) : R := p0 + (p1 - p0) * ((t - t0) / (t1 - t0)).

(** The fraction of a step of [n] sub steps that has passed at sub step [k] (from 0). *)
Definition fraction (n k : nat) : R := match n with S (S m) => INR k / INR (S m) | _ => 0 end.

(** [v] is the value a sequence prescribes at sub step [k] of [n]: two values are a straight line
    from the first sub step to the last, tables are interpolated (see C71). *)
Definition prescribes (s : values) (n k : nat) (v : R) : Prop :=
  match s with
  | Flat [a; b] => v = line 0 a 1 b (fraction n k)
  | _ => exists f, make_interpolation_func s = Ok f /\ f (fraction n k) = Ok v
  end.

(** The entry of a state is the number [x], the pair or the grid. *)
Definition holds_num (s : dict) (key : string) (x : R) : Prop := dget key s = Some (SNum x).
Definition holds_flag (s : dict) (key : string) (b : bool) : Prop := dget key s = Some (SFlag b).
Definition holds_grid (s : dict) (key : string) (l : list R) : Prop := dget key s = Some (SGrid l).
Definition holds_pair (s : dict) (key : string) (x y : R) : Prop := dget key s = Some (SPair x y).

(** The sub models of the step leave an entry alone. *)
Definition leave_alone (w : world) (key : string) : Prop :=
  forall d d', sub_models w d = Ok d' -> dget key d' = dget key d.

(** Two loads differ by less than five percent of the second. *)
Definition within_5_percent (total load : R) : Prop := load <> 0 /\ Rabs (total - load) / load < 5 / 100.

(** A description of contact that is consistent for a gap of just touching surfaces: the total load
    is the sum of the pressures times the area of a grid point, the displacements are those of the
    pressures, the nodes in contact are those under pressure and the gap is what remains of the just
    touching gap when the surfaces have approached by the interference and deformed. *)
Definition consistent (k : hconfig) (g : list R) (s : dict) : Prop :=
  exists loads h,
    holds_grid s "loads" loads /\ holds_num s "interference" h /\
    holds_num s "total_normal_load" (rsum loads * area k) /\
    holds_grid s "total_displacement" (disp_total k loads) /\
    holds_grid s "surface_1_displacement" (disp1 k loads) /\
    holds_grid s "surface_2_displacement" (disp2 k loads) /\
    dget "contact_nodes" s = Some (SNodes (map (fun x => if Rlt_dec 0 x then true else false) loads)) /\
    (length (disp_total k loads) = length g ->
     exists gap, holds_grid s "gap" gap /\ length gap = length g /\
       forall i, (i < length g)%nat -> nth i gap 0 = nth i g 0 - h + nth i (disp_total k loads) 0).
(** The solver gives one pressure for each node of its domain. *)
Definition one_each (k : hconfig) : Prop :=
  forall d z, length (fst (solver k d z)) = length (filter (fun b => b) d).
(** The solver always converges, and solutions are cached (the default). *)
Definition never_fails (k : hconfig) : Prop := use_cache k = true /\ forall d z, snd (solver k d z) = false.
(** Root finding that finds a root tries no negative interference, and some point of just touching
    surfaces has no gap. *)
Definition stays_above (w : world) : Prop :=
  forall k s b hs r, root_scalar w k s b = (hs, Ok r) -> forall x, In x hs -> 0 <= x.
Definition starts_touching (w : world) : Prop :=
  forall off g p1 p2 b, gap_at w off = Ok (g, p1, p2) -> In 0 (gap (config w b g)).
(** The names of the entries of a state. *)
Definition entries (s : dict) : list string := map fst s.
