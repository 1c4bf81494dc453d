(** Words used in the statements about displacements under given loads (C79, C80). *)
From Coq Require Import String List Bool Arith ZArith Reals.
From Verif Require Import SurfaceModel ConvModel ConvSpec DisplaceModel.
Import ListNotations.
Local Open Scope R_scope.

(** The documented meaning of an argument, None for a direction without values. *)
Definition meant (a : arg3) (d : dirn) : option grid :=
  match a with
  | Named v => get v d
  | Dict l => lookup d l
  | Seq l => match d with Dx => nth 0 l None | Dy => nth 1 l None | Dz => nth 2 l None end
  end.
(** All arrays have the same shape and there is at least one. *)
Definition common_shape (f : dirn -> option grid) (m n : nat) : Prop :=
  (exists d g, f d = Some g) /\ forall d g, f d = Some g -> rows g = m /\ cols g = n.
(** The displacement at a point caused by the loads in one direction. *)
Definition caused (im : grid) (load : option grid) (i j : nat) : R :=
  match load with Some g => superposed false false im g i j | None => 0 end.
(** The sum over the load directions. *)
Definition over_directions (f : dirn -> R) : R := f Dx + f Dy + f Dz.
