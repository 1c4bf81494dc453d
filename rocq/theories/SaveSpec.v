(** Specification vocabulary for saved records (C09, C10). *)
From Coq Require Import List String Bool Reals.
From Verif Require Import SaveModel.
Import ListNotations.
Local Open Scope string_scope.

(** Every component name with the state entry it comes from and the component. *)
Inductive axis := X | Y | Z.
Definition components : list (string * (string * axis)) :=
  [("loads_x", ("loads", X)); ("loads_y", ("loads", Y)); ("loads_z", ("loads", Z));
   ("total_displacement_x", ("total_displacement", X));
   ("total_displacement_y", ("total_displacement", Y));
   ("total_displacement_z", ("total_displacement", Z));
   ("surface_1_displacement_x", ("surface_1_displacement", X));
   ("surface_1_displacement_y", ("surface_1_displacement", Y));
   ("surface_1_displacement_z", ("surface_1_displacement", Z));
   ("surface_2_displacement_x", ("surface_2_displacement", X));
   ("surface_2_displacement_y", ("surface_2_displacement", Y));
   ("surface_2_displacement_z", ("surface_2_displacement", Z));
   ("surface_1_points_x", ("surface_1_points", X)); ("surface_1_points_y", ("surface_1_points", Y));
   ("surface_2_points_x", ("surface_2_points", X)); ("surface_2_points_y", ("surface_2_points", Y))].
Definition compound (k : string) : Prop :=
  In k ["loads"; "total_displacement"; "surface_1_displacement"; "surface_2_displacement";
        "surface_1_points"; "surface_2_points"].

Section Spec.
Context {A : Type}.
Local Notation sval := (@sval A).
Local Notation state := (@state A).

Definition component (v : sval) (a : axis) : option sval :=
  match v, a with
  | SVec x _ _, X => Some x | SVec _ y _, Y => Some y | SVec _ _ z, Z => Some z
  | SPts _ x, X => Some x | SPts y _, Y => Some y
  | _, _ => None
  end.

(** The value a user can ask for under the name [k]: a component of a compound
    entry, or a plain entry; the compound entries themselves are not available. *)
Definition available (st : state) (k : string) (v : sval) : Prop :=
  (exists p a w, In (k, (p, a)) components /\ dget p st = Some w /\ component w a = Some v)
  \/ (~ compound k /\ dget k st = Some v /\
      forall p a, In (k, (p, a)) components -> dget p st = None).

(** [k] is asked for by the set of requested names [req]: by name, as a component of a
    requested compound name, or by "all". *)
Definition asked (st : state) (req : list string) (k : string) : Prop :=
  (In k req /\ ~ compound k /\ k <> "all")
  \/ (exists p a, In (k, (p, a)) components /\ In p req)
  \/ (In "all" req /\ k <> "all" /\ exists v, available st k v).

(** Compound entries hold what their name says. *)
Definition well_typed (st : state) : Prop :=
  (forall p, In p ["loads"; "total_displacement"; "surface_1_displacement"; "surface_2_displacement"] ->
     forall v, dget p st = Some v -> exists x y z, v = SVec x y z) /\
  (forall p, In p ["surface_1_points"; "surface_2_points"] ->
     forall v, dget p st = Some v -> exists y x, v = SPts y x).

(** The names requested at time [t]: the time and the parameters of every request
    that is active now. *)
Definition requested_now (outs : list (request * list string)) (t max_time : R) (k : string) : Prop :=
  k = "time" \/ exists r params, In (r, params) outs /\ snd (is_active r t max_time) = true /\ In k params.
End Spec.
