(** What the theorems on the override of the CUDA flag speak about. *)
From Coq Require Import List Bool.
From Verif Require Import OverrideModel.
Import ListNotations.

(** The program doesn't assign the flag, and uses override objects only where they are made. *)
Fixpoint tidy (p : stmt) : Prop :=
  match p with
  | SetFlag _ | New _ | With _ _ => False
  | Use | Raise => True
  | WithNew b => tidy b
  | Seq p q | Try p q => tidy p /\ tidy q
  end.

(** What one thread does: [with OverRideCuda():] blocks and reads, one after the other or inside of
    each other. *)
Inductive nested : list op -> Prop :=
| nested_nil : nested []
| nested_read : nested [Read]
| nested_with b : nested b -> nested (Create :: Enter :: b ++ [Exit])
| nested_app a b : nested a -> nested b -> nested (a ++ b).

(** The steps of one thread in a schedule. *)
Definition steps_of (t : nat) (es : list (nat * op)) : list op :=
  map snd (filter (fun e => Nat.eqb (fst e) t) es).
(** A schedule of threads of this kind. *)
Definition schedule (es : list (nat * op)) : Prop := forall t, nested (steps_of t es).

(** The blocks of all threads together are one after the other or inside of each other. *)
Inductive bracketed : list (nat * op) -> Prop :=
| br_nil : bracketed []
| br_read t : bracketed [(t, Read)]
| br_with t b : bracketed b -> bracketed ((t, Create) :: (t, Enter) :: b ++ [(t, Exit)])
| br_app a b : bracketed a -> bracketed b -> bracketed (a ++ b).

Definition start (b : bool) : shared := {| gflag := b; stacks := fun _ => []; reads := [] |}.
