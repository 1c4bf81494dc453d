(** When the loads found by the bound constrained solver are a solution (C37, C119). *)
From Coq Require Import List Bool Arith ZArith Reals.
From Verif Require Import Flt SolverModel SolverSpec.
Local Open Scope R_scope.

(** The loads [x] solve the problem [A x = b] with loads from zero to the maximum up to an error [eps]:
    some points are held at zero, without overlap, some at the maximum, without gap, and at the others the residual is
    small: its length is at most [eps]. *)
Definition nearly_solves (n : nat) (A : nat -> nat -> R) (b : nat -> R) (most : vec) (eps : R) (x : nat -> R) : Prop :=
  (forall i, (i < n)%nat -> - / 10 ^ 14 <= x i /\ fltb (Fin (x i)) (fmul (most i) (Fin (1 + / 10 ^ 14))) = true) /\
  exists zero full : nat -> bool,
    (forall i, (i < n)%nat -> zero i = true -> x i = 0 /\ - / 10 ^ 14 <= times n A x i - b i) /\
    (forall i, (i < n)%nat -> full i = true -> most i = Fin (x i) /\ times n A x i - b i <= / 10 ^ 14) /\
    length2 n (fun i => if zero i || full i then 0 else times n A x i - b i) <= eps.
(** The loads solve it exactly: with no load above the maximum, nowhere tension or overlap left, and no load where a gap is left. *)
Definition exactly_solves (n : nat) (A : nat -> nat -> R) (b : nat -> R) (x : nat -> R) : Prop :=
  forall i, (i < n)%nat -> 0 <= x i /\ 0 <= times n A x i - b i /\ x i * (times n A x i - b i) = 0.

(** The matrix is positive with the constant [m] and bounded with the constant [L]. *)
Definition between (n : nat) (A : nat -> nat -> R) (m L : R) : Prop :=
  0 < m /\ forall z, m * sum n (fun i => z i * z i) <= sum n (fun i => z i * times n A z i) /\ length2 n (times n A z) <= L * length2 n z.

(** A pass is quiet: the same points are held at the bounds after it, and the others have loads that are not at a bound. *)
Definition quiet (n : nat) (most : vec) (s s' : bcg) : Prop :=
  forall i, (i < n)%nat -> msk_0 s' i = msk_0 s i /\ msk_max s' i = msk_max s i /\
    (msk_0 s' i = false -> msk_max s' i = false -> bx s' i <> Fin 0 /\ bx s' i <> most i).
(** The two passes before the last one, number [k] counted from zero, were quiet (all passes before it if there were less). *)
Definition settled (n : nat) (f : vec -> vec) (b : vec) (tol : flt) (max_it : Z) (most : vec) (s : bcg) (k : nat) : Prop :=
  forall j s1 s2, (j < k)%nat -> (k <= j + 2)%nat -> state_after j n f b tol max_it most 1 s = Some s1 ->
    state_after (S j) n f b tol max_it most 1 s = Some s2 -> quiet n most s1 s2.
