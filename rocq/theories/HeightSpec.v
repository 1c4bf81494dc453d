(** Specification vocabulary for the height optimisation cache (C19 to C21, C72). *)
From Coq Require Import List Bool Arith Reals Sorted.
From Verif Require Import HeightModel.
Import ListNotations.
Local Open Scope R_scope.

(** The total load of the contact problem at interference [h] when loading is free
    (every node whose gap is below [h] may touch), and whether the solver failed. *)
Definition touching (k : hconfig) (h : R) : list bool := map (fun g => Rltb g h) (gap k).
Definition free_solution (k : hconfig) (h : R) : list R * bool :=
  solver k (touching k h) (select (touching k h) (map (fun g => h - g) (gap k))).
Definition free_load (k : hconfig) (h : R) : R :=
  if existsb (fun b => b) (touching k h) then rsum (fst (free_solution k h)) * area k else 0.

(** The value of the load in force after a history. *)
Definition load_in_force (first : R) (os : list hop) : R :=
  fold_left (fun l o => match o with ChangeLoad l' _ => l' | _ => l end) os first.

(** The cached pairs of height and load. *)
Definition cached (s : hstate) : list (R * R) := combine (heights s) (total_loads s).
