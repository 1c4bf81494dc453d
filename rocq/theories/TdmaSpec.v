(** Words used in the statements about tridiagonal systems (C39, C40). *)
From Coq Require Import Arith Reals.
Local Open Scope R_scope.

(** Row i of a tridiagonal matrix with n rows times x; the lower diagonal [l i] belongs to
    row i. *)
Definition tri_row (n : nat) (l d u x : nat -> R) (i : nat) : R :=
  (if Nat.eqb i 0 then 0 else l i * x (i - 1)%nat) + d i * x i + (if Nat.eqb (i + 1) n then 0 else u i * x (i + 1)%nat).
(** The same with the two corners: [l 0] is the top right element and [u (n - 1)] the bottom
    left one. *)
Definition cyclic_row (n : nat) (l d u x : nat -> R) (i : nat) : R :=
  tri_row n l d u x i + (if Nat.eqb i 0 then l 0%nat * x (n - 1)%nat else 0)
                      + (if Nat.eqb (i + 1) n then u (n - 1)%nat * x 0%nat else 0).
(** x solves the system with the given rows. *)
Definition solves (n : nat) (row : (nat -> R) -> nat -> R) (b x : nat -> R) : Prop :=
  forall i, (i < n)%nat -> row x i = b i.
(** Only zero is mapped to zero: the matrix is regular. *)
Definition regular (n : nat) (row : (nat -> R) -> nat -> R) : Prop :=
  forall x, (forall i, (i < n)%nat -> row x i = 0) -> forall i, (i < n)%nat -> x i = 0.
(** The first and last diagonal entries changed as in the Sherman Morrison formula. *)
Definition modified (n : nat) (l d u : nat -> R) (i : nat) : R :=
  let gamma := if Req_EM_T (d 0%nat) 0 then 1 else - d 0%nat in
  d i - (if Nat.eqb i 0 then gamma else 0) - (if Nat.eqb (i + 1) n then l 0%nat * u (n - 1)%nat / gamma else 0).
