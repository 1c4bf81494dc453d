(** What it means that pressures solve a contact problem (C119). *)
From Coq Require Import String List Bool Arith ZArith Reals.
From Verif Require Import Flt SurfaceModel SolverModel SolverSpec BoundSpec ConvSpec TouchModel.
From Verif Require HeightModel StepModel StepSpec.
Import ListNotations.
Local Open Scope string_scope.
Local Open Scope R_scope.

(** The points of a grid with [n] columns are numbered row by row. The displacement of point [k]
    for a unit pressure on point [l]: the coefficient of their index difference. *)
Definition influence (m n : nat) (p0 p1 : bool) (im : grid) (k l : nat) : R :=
  coeff im (difference p0 m (k / n) (l / n)) (difference p1 n (k mod n) (l mod n)).
(** The displacement of point [k] under the pressures [p] of all [N] points. *)
Definition moved_by (N : nat) (C : nat -> nat -> R) (p : list R) (k : nat) : R :=
  total N (fun l => C k l * nth l p 0).
(** The gap that is left when the surfaces have approached by [h] and deformed. *)
Definition left_over (N : nat) (C : nat -> nat -> R) (g : list R) (h : R) (p : list R) (k : nat) : R :=
  nth k g 0 - h + moved_by N C p k.
Definition size (N : nat) (x : nat -> R) : R := sqrt (total N (fun k => x k * x k)).

(** Pressures [p] on the [N] points with gap [g] are admissible at the interference [h] with pressures
    up to [most]: there is no pressure where the undeformed surfaces do not overlap, no tension and
    not more than the maximum pressure. *)
Definition admissible (N : nat) (g : list R) (h : R) (most : flt) (p : list R) : Prop :=
  List.length p = N /\
  (forall k, (k < N)%nat -> - / 10 ^ 14 <= nth k p 0) /\
  (forall k, (k < N)%nat -> h <= nth k g 0 -> nth k p 0 = 0) /\
  (forall k y, (k < N)%nat -> nth k g 0 < h -> most = Fin y -> nth k p 0 < y * (1 + / 10 ^ 14)).
(** They solve the contact problem up to the error [eps]: points without pressure do not
    overlap any more, points at the maximum pressure have no gap, and at the other points where the undeformed
    surfaces overlap the gap that is left is small, positive or negative: its size over all these points is at most [eps]. *)
Definition solves_contact (N : nat) (C : nat -> nat -> R) (g : list R) (h : R) (most : flt) (eps : R) (p : list R) : Prop :=
  admissible N g h most p /\
  exists unloaded full : nat -> bool,
    (forall k, (k < N)%nat -> nth k g 0 < h -> unloaded k = true -> nth k p 0 = 0 /\ - / 10 ^ 14 <= left_over N C g h p k) /\
    (forall k, (k < N)%nat -> nth k g 0 < h -> full k = true -> most = Fin (nth k p 0) /\ left_over N C g h p k <= / 10 ^ 14) /\
    size N (fun k => if Rlt_dec (nth k g 0) h then if unloaded k || full k then 0 else left_over N C g h p k else 0) <= eps.

(** The influence of the points of a contact on each other: one body, or both. *)
Definition points (c : setup) : nat := (grid_rows c * grid_cols c)%nat.
Definition body (c : setup) (im : grid) : nat -> nat -> R :=
  influence (grid_rows c) (grid_cols c) (periodic_0 c) (periodic_1 c) im.
Definition both_bodies (c : setup) (k l : nat) : R := body c (im_1 c) k l + body c (im_2 c) k l.
(** A contact as the constructor accepts it: transforms are large enough, both influence matrices
    have the same shape, that of the grid on periodic axes; adhesion is not positive and the maximum
    pressure not negative. *)
Definition well_formed (c : setup) (g : list R) : Prop :=
  List.length g = points c /\ (forall q, (q <= fft_size c q)%nat) /\
  rows (im_1 c) = rows (im_2 c) /\ cols (im_1 c) = cols (im_2 c) /\
  (periodic_0 c = true -> rows (im_1 c) = grid_rows c) /\ (periodic_1 c = true -> cols (im_1 c) = grid_cols c) /\
  (forall a, least c = Some a -> a <= 0) /\
  match most c with Fin y => 0 <= y | PInf => True | _ => False end.
(** The solver at the interference [h]: for the points that overlap, with the convolution of the plan. If
    it converges in a pass, the two passes before changed no bound (BoundSpec.v). *)
Definition settled_at (c : setup) (g : list R) (h : R) : Prop :=
  let d := map (fun x => HeightModel.Rltb x h) g in
  let z := HeightModel.select d (map (fun x => h - x) g) in
  let n := List.length z in
  let limit := match max_it_inner c with Some m => m | None => Z.of_nat n end in
  forall f k s v, plan c (total_im c) (Some (as_mask (grid_cols c) d)) = Ok f ->
    let start := bccg_init n (operator f n) (as_vec z) (fun _ => Fin 0) (Fin 0) (fun _ => most c) in
    state_after k n (operator f n) (as_vec z) (tol_inner c) limit (fun _ => most c) 1 start = Some s ->
    bccg_step n (operator f n) (as_vec z) (tol_inner c) limit (fun _ => most c) 1 s = inr (v, false) ->
    settled n (operator f n) (as_vec z) (tol_inner c) limit (fun _ => most c) start k.
(** What holds for the pressures when the solver with the tolerance [t] has converged: they are admissible, and if
    the solver had settled and the influence of all points is positive and bounded (BoundSpec.v), they
    solve the contact problem up to an error proportional to the tolerance and to the pressures. *)
Definition contact_solution (c : setup) (g : list R) (h t : R) (p : list R) : Prop :=
  admissible (points c) g h (most c) p /\
  forall m L, between (points c) (both_bodies c) m L -> settled_at c g h ->
    solves_contact (points c) (both_bodies c) g h (most c) (L * (2 + L / m) * (t * size (points c) (fun k => nth k p 0))) p.
(** Lists with the displacements of one body, of both, and the gap that is left. *)
Definition displaces (c : setup) (p d1 d2 d : list R) : Prop :=
  List.length d1 = points c /\ List.length d2 = points c /\ List.length d = points c /\
  forall k, (k < points c)%nat ->
    nth k d1 0 = moved_by (points c) (body c (im_1 c)) p k /\ nth k d2 0 = moved_by (points c) (body c (im_2 c)) p k /\
    nth k d 0 = nth k d1 0 + nth k d2 0.
(** A state describes the solution of the contact problem at the interference [h], with the
    tolerance [t]; [reported] is the interference it reports. *)
Definition solved_state (c : setup) (g : list R) (t reported h : R) (s : StepModel.dict) : Prop :=
  exists p d1 d2 d e,
    StepSpec.holds_num s "interference" reported /\ StepSpec.holds_grid s "loads" p /\
    StepSpec.holds_num s "total_normal_load" (total (points c) (fun k => nth k p 0) * spacing c ^ 2) /\
    StepSpec.holds_grid s "surface_1_displacement" d1 /\ StepSpec.holds_grid s "surface_2_displacement" d2 /\
    StepSpec.holds_grid s "total_displacement" d /\ StepSpec.holds_grid s "gap" e /\
    contact_solution c g h t p /\ displaces c p d1 d2 d /\
    List.length e = points c /\ forall k, (k < points c)%nat -> nth k e 0 = nth k g 0 - reported + nth k d 0.
