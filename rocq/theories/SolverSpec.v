(** Words used in the statements about the iterative solvers. *)
From Coq Require Import List Bool Arith ZArith Reals.
From Verif Require Import Flt SolverModel.
Local Open Scope R_scope.

Fixpoint sum (n : nat) (f : nat -> R) : R := match n with O => 0 | S m => sum m f + f m end.
(** Euclidean length of a vector of n numbers. *)
Definition length2 (n : nat) (x : nat -> R) : R := sqrt (sum n (fun i => x i * x i)).
(** The first n entries are the given real numbers. *)
Definition numbers (n : nat) (v : vec) (x : nat -> R) : Prop := forall i, (i < n)%nat -> v i = Fin (x i).
(** On real vectors the operator is the multiplication by a matrix. *)
Definition is_matrix (n : nat) (f : vec -> vec) (A : nat -> nat -> R) : Prop :=
  forall v x, numbers n v x -> numbers n (f v) (fun i => sum n (fun j => A i j * x j)).
Definition times (n : nat) (A : nat -> nat -> R) (x : nat -> R) (i : nat) : R := sum n (fun j => A i j * x j).
(** Not more than the maximum pressure, which may be infinite. *)
Definition at_most (x : R) (m : flt) : Prop := match m with Fin y => x <= y | PInf => True | _ => False end.
Definition non_negative (m : flt) : Prop := match m with Fin y => 0 <= y | PInf => True | _ => False end.
(** The state of the bound constrained solver after k passes, none when it stopped before. *)
Fixpoint state_after (k n : nat) f b tol max_it mp k_inn (s : bcg) : option bcg :=
  match k with
  | O => Some s
  | S k' => match bccg_step n f b tol max_it mp k_inn s with inl s' => state_after k' n f b tol max_it mp k_inn s' | inr _ => None end
  end.
(** Within the bounds 0 and m with the tolerance 1e-14, or not a number. *)
Definition in_bounds (v m : flt) : Prop :=
  v = NaN \/ (fleb (Fin (- small)) v = true /\ fleb v (fmul m (Fin (1 + small))) = true).
(** ** Loads for given displacements *)
(** Sum over a list of points. *)
Fixpoint sum_over (l : list nat) (f : nat -> R) : R := match l with nil => 0 | cons i l' => f i + sum_over l' f end.
(** The points with a given displacement. *)
Definition prescribed (given : list nat) (disp : vec) : list nat := filter (fun i => negb (is_nan (disp i))) given.
(** The matrix restricted to the points is symmetric and positive definite. *)
Definition symmetric_on (l : list nat) (B : nat -> nat -> R) : Prop := forall i j, In i l -> In j l -> B i j = B j i.
Definition positive_on (l : list nat) (B : nat -> nat -> R) : Prop :=
  forall x, (exists i, In i l /\ x i <> 0) -> 0 < sum_over l (fun i => sum_over l (fun j => x i * B i j * x j)).
