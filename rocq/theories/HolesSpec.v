(** Specification of borders of holes. *)
From Coq Require Import Reals List Bool Arith.
From Verif Require Import SurfaceModel HolesModel.
Import ListNotations.
Local Open Scope R_scope.

(** How many of the first [n] are holes. *)
Fixpoint holes_in (f : nat -> bool) (n : nat) : nat := match n with O => O | S n' => (holes_in f n' + (if f n' then 1 else 0))%nat end.
(** A border of holes: [p0] and [p1] rows at the start and end, [p2] and [p3] columns, around a part that isn't empty. *)
Definition bordered (m : nat -> nat -> bool) (rows cols p0 p1 p2 p3 : nat) : Prop :=
  (p0 + p1 < rows)%nat /\ (p2 + p3 < cols)%nat /\
  forall i j, (i < rows)%nat -> (j < cols)%nat -> (i < p0 \/ rows - p1 <= i \/ j < p2 \/ cols - p3 <= j)%nat -> m i j = true.
(** The share of holes in a whole row or column is not more than a threshold. *)
Definition row_fine (m : nat -> nat -> bool) (cols : nat) (t : R) (i : nat) : Prop := INR (holes_in (m i) cols) <= t * INR cols.
Definition col_fine (m : nat -> nat -> bool) (rows : nat) (t : R) (j : nat) : Prop := INR (holes_in (fun i => m i j) rows) <= t * INR rows.
(** The four outer lines of the part inside of the border. *)
Definition edges_fine (m : nat -> nat -> bool) (rows cols p0 p1 p2 p3 : nat) (t : R) : Prop :=
  row_fine m cols t p0 /\ row_fine m cols t (rows - 1 - p1) /\ col_fine m rows t p2 /\ col_fine m rows t (cols - 1 - p3).
(** Nothing but values within the [n] outer lines, apart from the border. *)
Definition frame_clean (m : nat -> nat -> bool) (rows cols p0 p1 p2 p3 n : nat) : Prop :=
  forall i j, (p0 <= i < rows - p1)%nat -> (p2 <= j < cols - p3)%nat -> (i < n \/ rows - n <= i \/ j < n \/ cols - n <= j)%nat -> m i j = false.
(** An algorithm that fills holes: the shape stays, and so does everything but the holes. *)
Definition fills (inpaint : grid -> (nat -> nat -> bool) -> grid) : Prop :=
  forall q k, rows (inpaint q k) = rows q /\ cols (inpaint q k) = cols q /\ forall i j, k i j = false -> at_ (inpaint q k) i j = at_ q i j.
(** What is a hole: what is not a finite number, or a given value. *)
Definition hole_at (v : hole_value) (h : option R) : Prop := match v with Auto => h = None | Value x => h = Some x end.
Definition holes_of (p : heights) (v : hole_value) (m : nat -> nat -> bool) : Prop := forall i j, m i j = true <-> hole_at v (h_at p i j).
(** A surface of [n] by [n] heights with values on the diagonal only. *)
Definition diagonal (n : nat) : heights := Heights n n (fun i j => if Nat.eqb i j then Some 1 else None).
