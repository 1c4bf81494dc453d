(** The solution of a contact problem, without any error (C127). *)
From Coq Require Import List Bool Arith ZArith Reals.
From Verif Require Import Flt ConvSpec TouchSpec.
Local Open Scope R_scope.

(** Pressures [p] are the answer of the theory at the interference [h]: none where the undeformed surfaces do not
    overlap; elsewhere no tension and not more than the maximum pressure [most], no pressure where a gap is left
    and the maximum pressure where an overlap is left. *)
Definition exact_contact (N : nat) (C : nat -> nat -> R) (g : list R) (h : R) (most : flt) (p : list R) : Prop :=
  List.length p = N /\
  forall k, (k < N)%nat ->
    (h <= nth k g 0 -> nth k p 0 = 0) /\
    (nth k g 0 < h ->
       0 <= nth k p 0 /\ (forall y, most = Fin y -> nth k p 0 <= y) /\
       (0 < left_over N C g h p k -> nth k p 0 = 0) /\
       (left_over N C g h p k < 0 -> most = Fin (nth k p 0))).

(** How far two pressure distributions are apart. *)
Definition apart (N : nat) (p q : list R) : R := size N (fun k => nth k p 0 - nth k q 0).
(** The forces of a contact that are left over at a bound: gaps at points without pressure, overlaps times
    the maximum pressure at points with the maximum. *)
Definition slack (N : nat) (C : nat -> nat -> R) (g : list R) (h : R) (most : flt) (q : list R) : R :=
  total N (fun k => if Rlt_dec (nth k g 0) h then
                      Rmax 0 (left_over N C g h q k) + match most with Fin y => y * Rmax 0 (- left_over N C g h q k) | _ => 0 end
                    else 0).
