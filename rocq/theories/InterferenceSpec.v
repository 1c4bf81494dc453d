(** Words used in the statements about contact at a set interference. *)
From Coq Require Import List Bool Arith ZArith Reals Permutation.
From Verif Require Import Flt InterferenceModel.
Import ListNotations.
Local Open Scope R_scope.

(** The displacement asked of the material: the overlap at the nodes in contact, not a number
    (free) at the others. *)
Definition overlap (interference : flt) (gap : vec) (nodes : mask) : vec :=
  fun i => if nodes i then fsub interference (gap i) else NaN.
(** The gap that is left after the displacement. *)
Definition left_gap (interference : flt) (gap disp : vec) : vec := fun i => fadd (fsub (gap i) interference) (disp i).
(** The number of the n nodes with a property. *)
Definition number_of (n : nat) (p : mask) : nat := List.length (filter p (seq 0 n)).
(** The pressure below which a node loses contact. *)
Definition pull_off (a : adhesion) : flt := match a with Number p => p | _ => Fin 0 end.
Definition is_function (a : adhesion) : Prop := match a with Function _ => True | _ => False end.
(** What numpy says of argpartition: the result has all places; for real numbers, no place
    before the one asked for (here -k, counted from the end) has a larger number than a later
    one. *)
Definition partitions (n : nat) (part : vec -> Z -> list nat) : Prop :=
  (forall v k, Permutation (part v k) (seq 0 n)) /\
  forall (v : vec) (x : nat -> R) (k : nat), (forall i, (i < n)%nat -> v i = Fin (x i)) -> (1 <= k <= n)%nat ->
    forall i j, (i < n - k)%nat -> (n - k <= j < n)%nat ->
      x (nth i (part v (- Z.of_nat k)%Z) 0%nat) <= x (nth j (part v (- Z.of_nat k)%Z) 0%nat).
(** The guess in one direction: nothing where no displacement is given, else the displacement times the largest entry of the
    component, zero where it is missing. *)
Definition guessed (disp : option vec) (comp : option (list R)) (load : option vec) : Prop :=
  match disp, load with
  | None, None => True
  | Some d, Some p => exists l m, comp = Some l /\ In m l /\ (forall x, In x l -> x <= m) /\
      forall i, (forall a, d i = Fin a -> p i = Fin (a * m)) /\ (d i = NaN -> p i = Fin 0)
  | _, _ => False
  end.
