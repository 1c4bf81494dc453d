(** Specification vocabulary for a whole analysis and its result files (C118). *)
From Coq Require Import List String Bool Reals.
From Verif Require Import Py RequestModel SaveModel SaveSpec ContactModel OutputsModel OutputsSpec RunModel.
Import ListNotations.
Local Open Scope string_scope.

Section Spec.
Context {bytes : Type}.
Notation value := (@value R bytes).
Notation state := (@state value).
Variable points : nat -> option state -> list state * result state.
Variable max_time : nat -> R.
Variable params : nat -> list string.
Variable outs : nat -> list nat.

(** A state's value as a value of a result file: times are numbers, and the others are stored as they are. *)
Definition as_value (v : @sval value) : value :=
  match v with STime t => VNum t | SStr s => VStr s | SPlain a => a | _ => VStr "" end.

(** What happens in the course of an analysis: a step begins at a time; a step has computed a time point. *)
Inductive moment := Begins (s : nat) (t : R) | Computed (s : nat) (st : state).
Definition time (st : state) : R := match dget "time" st with Some (STime t) => t | _ => 0%R end.
(** The course of the steps from a state: it ends with the first step that raises. *)
Fixpoint course_of (steps : list nat) (cur : option state) : list moment :=
  match steps with
  | [] => []
  | s :: rest =>
      Begins s (match cur with Some st => time st | None => 0%R end) ::
      (map (Computed s) (fst (points s cur)) ++
      match snd (points s cur) with Ok st => course_of rest (Some st) | Err _ => [] end)%list
  end.
Fixpoint outcome (steps : list nat) (cur : option state) : result (option state) :=
  match steps with
  | [] => Ok cur
  | s :: rest => match snd (points s cur) with Ok st => outcome rest (Some st) | Err e => Err e end
  end.

(** What a request sees of it: the beginning of each step it was added to, and a question at each time point of that step. *)
Definition seen_by (o : nat) (m : moment) : list rop :=
  match m with
  | Begins s t => map (fun _ => NewStep t) (filter (Nat.eqb o) (outs s))
  | Computed s st => map (fun _ => Ask (time st) (max_time s)) (filter (Nat.eqb o) (outs s))
  end.
Definition history_of (o : nat) (ms : list moment) : list rop := flat_map (seen_by o) ms.
(** Is the request active at a time point that comes after [before]? *)
Definition active_at (rq : nat -> request) (before : list moment) (s : nat) (st : state) (o : nat) : Prop :=
  In true (snd (run_request (fst (run_request (rq o) (history_of o before))) (seen_by o (Computed s st)))).
(** The names asked for then. *)
Definition wanted (rq : nat -> request) (before : list moment) (s : nat) (st : state) (k : string) : Prop :=
  k = "time" \/ exists o, In o (outs s) /\ active_at rq before s st o /\ In k (params o).

(** Number of time points of steps with requests: each of them makes one record. *)
Definition saves (m : moment) : bool := match m with Begins _ _ => false | Computed s _ => match outs s with [] => false | _ => true end end.
Definition records_before (ms : list moment) : nat := List.length (filter saves ms).

(** Number of time points of the steps a request was added to. *)
Definition points_of (o : nat) (ms : list moment) : nat :=
  List.length (filter (fun m => match m with Begins _ _ => false | Computed s _ => existsb (Nat.eqb o) (outs s) end) ms).

(** States as steps make them: a time, tuples where tuples belong, and values that can be stored. *)
Variable np_has : string -> bool.
Definition sensible (st : state) : Prop :=
  well_typed st /\ (exists t, dget "time" st = Some (STime t)) /\
  forall k v, available st k v -> storable np_has (as_value v) /\ match v with SVec _ _ _ | SPts _ _ => False | _ => True end.
Definition sensible_steps : Prop :=
  forall s cur, (forall st, In st (fst (points s cur)) -> sensible st) /\
    (forall st, snd (points s cur) = Ok st -> exists t, dget "time" st = Some (STime t)).
(** What is read is what was computed: the time, each value asked for that the state has, and nothing that was not asked for.
    For a name asked for that the state does not have there is nothing, or the text "surface_2_points" (C10). *)
Definition faithful (to_float : bytes -> string -> option R) (names : string -> Prop) (st : state) (d : list (string * value)) : Prop :=
  dget "time" d = Some (VNum (time st)) /\
  exists req, (forall k, In k req <-> names k) /\
    (forall k v, available st k v -> asked st req k -> exists v', dget k d = Some v' /\ reads_as to_float (as_value v) v') /\
    (forall k, asked st req k -> (forall v, ~ available st k v) -> dget k d = None \/ dget k d = Some (VStr "surface_2_points")) /\
    (forall k, ~ asked st req k -> dget k d = None).
End Spec.
