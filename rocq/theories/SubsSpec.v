(** Words used in the statements about the sub models (C52 to C55, C91, C92). *)
From Coq Require Import String List Bool Arith ZArith Reals.
From Verif Require Import Py SubsModel.
Import ListNotations.
Local Open Scope R_scope.

(** The state has this entry. *)
Definition has {F} (st : state F) (k : string) (v : val F) : Prop := dget k st = Some v.
(** The flag of the solver is there and false. *)
Definition unconverged {F} (st : state F) : Prop := has st "converged" (VFlag false).
Definition starts_step {F} (st : state F) : Prop := has st "new_step" (VFlag true).

(** A node is worn when it is in contact, the surfaces overlap and the load is at the limit. *)
Definition plastic (limit : R) (loads gap : nat -> R) (contact : nat -> bool) (i : nat) : Prop :=
  limit <= loads i /\ gap i < 0 /\ contact i = true.
(** Exactly the points with the property, each once. *)
Definition lists (N : nat) (P : nat -> Prop) (nodes : list nat) : Prop := NoDup nodes /\ forall i, In i nodes <-> (i < N)%nat /\ P i.
Fixpoint total {A} (f : A -> R) (l : list A) : R := match l with nil => 0 | cons a l' => f a + total f l' end.

(** Plastic deformation of this step that counts at the start of a call without time. *)
Definition before (e : epp) (st : state R) (d : nat -> R) : Prop :=
  match plastic_def e with
  | Some d' => (starts_step st /\ d = (fun _ => 0)) \/ (~ starts_step st /\ d = d')
  | None => d = fun _ => 0
  end.
(** The gap a call uses: the given one, or without time the one of the rigid body position, the
    elastic displacement and the plastic deformation of this step. *)
Definition gap_used (e : epp) (st : state R) (gap : nat -> R) : Prop :=
  if no_time e then
    exists jt h ux uy u d, has st "just_touching_gap" (VGrid jt) /\ has st "interference" (VNum h) /\
      has st "total_displacement" (VTriple ux uy (Some u)) /\ before e st d /\ gap = fun i => jt i - h + u i + d i
  else has st "gap" (VGrid gap).
(** The cell of a surface below a point with the given coordinates (row, column). *)
Definition cell (gs : R) (y x : nat -> R) (i : nat) : nat * nat := (wear_index gs (y i), wear_index gs (x i)).

(** The cells below the worn nodes are all different on a surface that takes part of the wear. *)
Definition different_cells (p gs : R) (st : state R) (points : string) (nodes : list nat) : Prop :=
  0 < p -> forall y x, has st points (VPoints y x) -> NoDup (map (cell gs y x) nodes).

(** One call of a history without time: the overlap of the rigid and elastic parts at each point and
    where the load is at the limit. *)
Record moment := Moment { overlap : nat -> R; at_limit : nat -> Prop }.
Definition describes (limit : R) (st : state R) (mo : moment) : Prop :=
  exists jt h ux uy u lx ly z contact,
    has st "just_touching_gap" (VGrid jt) /\ has st "interference" (VNum h) /\ has st "total_displacement" (VTriple ux uy (Some u)) /\
    has st "loads" (VTriple lx ly (Some z)) /\ has st "contact_nodes" (VMask contact) /\
    (forall i, overlap mo i = h - jt i - u i) /\ (forall i, at_limit mo i <-> limit <= z i /\ contact i = true).
(** The largest overlap at the limit so far, 0 if there is none. *)
Inductive deepest (i : nat) : list moment -> R -> Prop :=
| deepest_none : deepest i [] 0
| deepest_more : forall mo l d, deepest i l d -> at_limit mo i -> deepest i (mo :: l) (Rmax d (overlap mo i))
| deepest_same : forall mo l d, deepest i l d -> ~ at_limit mo i -> deepest i (mo :: l) d.
Definition deformation (out : state R) (t : R) : Prop := has out "total_plastic_deformation" (VNum t).

(** The entries of a dictionary are exactly the announced ones. *)
Definition exactly {F} (out : list (string * F)) (names : list string) : Prop := forall k, In k (map fst out) <-> In k names.
(** All required entries are there, with the kind of value the steps and sub models store. *)
Definition well_typed {F} (k : string) (v : val F) : Prop :=
  match v with
  | VTriple _ _ z => (k = "loads" \/ k = "total_displacement")%string /\ z <> None
  | VGrid _ => (k = "maximum_tangential_force" \/ k = "just_touching_gap" \/ k = "gap" \/ k = "slip_distance")%string
  | VMask _ => (k = "contact_nodes" \/ k = "stick_nodes")%string
  | VNum _ => (k = "interference" \/ k = "time" \/ k = "rigid_body_displacement" \/ k = "total_plastic_deformation")%string
  | VFlag _ => (k = "converged" \/ k = "new_step")%string
  | VPoints _ _ => (k = "surface_1_points" \/ k = "surface_2_points")%string
  | VList _ => (k = "wear_plastic_surface_1" \/ k = "wear_plastic_surface_2")%string
  end.
Definition kept_types {F} (st : state F) : Prop := forall k v, has st k v -> well_typed k v.
Definition supplies {F} (st : state F) (names : list string) : Prop := forall k, In k names -> exists v, has st k v.
