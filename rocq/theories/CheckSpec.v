(** Specification of the data check. *)
From Coq Require Import List String Ascii Bool.
From Verif Require Import Py SaveModel SaveSpec StepModel CheckModel.
Import ListNotations.
Local Open Scope string_scope.

(** A name that records can hold when the state has these names: a component of a load or displacement, or another name. *)
Definition vector (p : string) : Prop := In p ["loads"; "total_displacement"; "surface_1_displacement"; "surface_2_displacement"].
Definition obtainable (names : list string) (k : string) : Prop :=
  (exists p a, In (k, (p, a)) components /\ vector p /\ In p names) \/ (In k names /\ ~ vector k).
(** A name asked for: itself, or as a component. *)
Definition asked_for (requested : list string) (k : string) : Prop :=
  (k = "time" \/ In k requested) /\ ~ vector k /\ k <> "all" \/ exists p a, In (k, (p, a)) components /\ vector p /\ In p requested.
(** The attributes of surfaces, which are not checked. *)
Definition attribute (k : string) : bool := String.prefix "surface" k && negb (has_char ";"%char k).

(** The names known when a sub model runs: those of the step and of the sub models before it. *)
Definition known (names : list string) (before : list sub_model) (x : string) : Prop := In x names \/ exists m, In m before /\ In x (provides m).
(** What a step announces: its own names, and those of the lubricant. *)
Definition announces (s : step) : list string := (announced s ++ match own s with Lubricated _ (Some l) => l | _ => [] end)%list.
Definition good_step (s : step) : Prop :=
  first s = true \/
  (match own s with
   | Plain => True
   | Lubricated r l => exists r' l', r = Some r' /\ l = Some l' /\ forall x, In x r' -> In x l' \/ x = "nd_gap" \/ x = "nd_pressure"
   end) /\
  In "time" (announces s) /\
  (forall before m after x, subs s = (before ++ m :: after)%list -> In x (requires m) -> known (announces s) before x) /\
  (forall k, asked_for (List.concat (outputs s)) k -> attribute k = false -> forall names, (forall x, In x names <-> known (announces s) (subs s) x) -> obtainable names k).
Definition good_model (m : contact) : Prop :=
  (exists i, master m = Some i /\ is_discrete i = true /\ has_material i = true) /\
  (exists j, second m = Some j /\ has_material j = true) /\
  forall s, In s (all_steps m) -> good_step s.
