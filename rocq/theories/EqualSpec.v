(** Words used in the statements about the comparison and the text of surfaces. *)
From Coq Require Import String List Bool Arith Reals Ascii ZArith.
From Verif Require Import Py SurfaceModel Flt EqualModel.
Import ListNotations.
Local Open Scope R_scope.

(** Two profiles with the same shape and the same heights, none of which is missing. *)
Definition same_heights (p q : array) : Prop :=
  a_rows p = a_rows q /\ a_cols p = a_cols q /\
  forall i j, (i < a_rows p)%nat -> (j < a_cols p)%nat -> a_at p i j = a_at q i j /\ a_at p i j <> NaN.
(** A missing height. *)
Definition has_hole (p : array) : Prop := exists i j, (i < a_rows p)%nat /\ (j < a_cols p)%nat /\ a_at p i j = NaN.
(** How many brackets are open at the end of a text. *)
Fixpoint open_brackets (s : string) : Z :=
  match s with
  | EmptyString => 0
  | String c r => ((if Ascii.eqb c "("%char then 1 else if Ascii.eqb c ")"%char then -1 else 0) + open_brackets r)%Z
  end.
(** What a method sees of two attributes is the same: arrays may be different objects with the same entries. *)
Definition alike (c c' : content) : Prop :=
  c = c' \/ exists p q, c = CArray p /\ c' = CArray q /\ a_rows p = a_rows q /\ a_cols p = a_cols q /\
    forall i j, (i < a_rows p)%nat -> (j < a_cols p)%nat -> a_at p i j = a_at q i j.
Definition opt_alike (a b : option content) : Prop :=
  match a, b with Some c, Some c' => alike c c' | None, None => True | _, _ => False end.
(** The heights of the classes depend on entries of the arrays only. *)
Definition sees_entries (shapes : kind -> list (option content) -> R -> R -> R) : Prop :=
  forall k l l' x y, Forall2 opt_alike l l' -> shapes k l x y = shapes k l' x y.
