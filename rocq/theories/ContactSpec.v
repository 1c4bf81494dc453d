(** Specification vocabulary for the order of steps and the course of a solution
    (C11 to C14). *)
From Coq Require Import String List ZArith Reals.
From Verif Require Import ContactModel.
Import ListNotations.
Local Open Scope list_scope.

(** [placed p l x l']: adding [x] to the sequence [l] at the position [p] gives [l'].
    No position: at the end. A name: just before the entry of that name, nothing
    happens when there is none. A number: with that many entries before it (after it,
    for a negative number), at the end or at the start when the list is too short. *)
Inductive placed : position -> list (string * nat) -> string * nat -> list (string * nat) -> Prop :=
  | placed_end l x : placed PNone l x (l ++ [x])
  | placed_name k s a b x : ~ In k (map fst a) ->
      placed (PStr k) (a ++ (k, s) :: b) x (a ++ x :: (k, s) :: b)
  | placed_no_name k l x : ~ In k (map fst l) -> placed (PStr k) l x l
  | placed_at a b x : placed (PInt (Z.of_nat (length a))) (a ++ b) x (a ++ x :: b)
  | placed_beyond z l x : (Z.of_nat (length l) < z)%Z -> placed (PInt z) l x (l ++ [x])
  | placed_back a b x : b <> [] -> placed (PInt (- Z.of_nat (length b))) (a ++ b) x (a ++ x :: b)
  | placed_front z l x : (z < - Z.of_nat (length l))%Z -> placed (PInt z) l x (x :: l).

(** The same for a sequence of calls. *)
Inductive built : list (string * nat) -> list (position * (string * nat)) -> list (string * nat) -> Prop :=
  | built_nil l : built l [] l
  | built_cons l p x l1 ops l2 : placed p l x l1 -> built l1 ops l2 -> built l ((p, x) :: ops) l2.

(** The steps added to model [m] in a history. *)
Definition adds_to (step_name : nat -> string) (m : nat) (os : list mop) : list (position * (string * nat)) :=
  flat_map (fun o => match o with
    | MAddStep m' s p => if Nat.eqb m' m then [(p, (step_name s, s))] else []
    | _ => []
    end) os.
(** All steps that some [add_step] call of the history was given. *)
Definition added_steps (os : list mop) : list nat :=
  flat_map (fun o => match o with MAddStep _ s _ => [s] | _ => [] end) os.
Definition new_models (os : list mop) : list nat :=
  flat_map (fun o => match o with MNew m _ => [m] | _ => [] end) os.
Definition initial_steps (os : list mop) : list nat :=
  flat_map (fun o => match o with MNew _ i => [i] | _ => [] end) os.

(** ** Course of a solution *)
Section Course.
Context {State Rec : Type}.
Definition is_write (e : @event State Rec) : bool := match e with EWrite _ => true | _ => false end.
(** Files and output redirection: which are open after a list of events. *)
Definition saver_open (es : list (@event State Rec)) : Z :=
  fold_left (fun n e => match e with EOpenSaver => n + 1 | ECloseSaver => n - 1 | _ => n end)%Z es 0%Z.
Definition log_open (es : list (@event State Rec)) : Z :=
  fold_left (fun n e => match e with EOpenLog => n + 1 | ECloseLog => n - 1 | _ => n end)%Z es 0%Z.
Definition redirected (es : list (@event State Rec)) : Z :=
  fold_left (fun n e => match e with ERedirect => n + 1 | ERestore => n - 1 | _ => n end)%Z es 0%Z.
(** The calls of [solve] of the steps, with the state each was given. *)
Definition solve_calls (es : list (@event State Rec)) : list (nat * option State) :=
  flat_map (fun e => match e with ESolve s st => [(s, st)] | _ => [] end) es.
(** The records in the output file. *)
Definition records (es : list (@event State Rec)) : list Rec :=
  flat_map (fun e => match e with EWrite r => [r] | _ => [] end) es.
End Course.

(** What a solution of the steps [steps] looks like from outside, when it starts at
    the time [t] in the state [cur], every step [s] taking the time [dur s]: the
    requests of the step are told the time, the step is solved from the state the
    step before returned, its records are written. It goes on until a step raises; a
    step that has output requests but no previous state raises before it is solved. *)
Section NormalCourse.
Context {State Rec : Type}.
Variable time_of : State -> option R.
Variable outs : nat -> list nat.
Variable dur : nat -> R.
Inductive course : list (string * nat) -> R -> option State -> list (@event State Rec) ->
    Py.result (option State) -> Prop :=
  | course_end t cur : course [] t cur [] (Py.Ok cur)
  | course_step k s rest t cur recs st' ev r :
      (cur = None -> outs s = []) ->
      time_of st' = Some (t + dur s)%R ->
      course rest (t + dur s)%R (Some st') ev r ->
      course ((k, s) :: rest) t cur
        (map (fun o => ENewStep o t) (outs s) ++ ESolve s cur :: map EWrite recs ++ ev) r
  | course_raise k s rest t cur recs e :
      (cur = None -> outs s = []) ->
      course ((k, s) :: rest) t cur
        (map (fun o => ENewStep o t) (outs s) ++ ESolve s cur :: map EWrite recs) (Py.Err e)
  | course_no_state k s rest t : outs s <> [] ->
      course ((k, s) :: rest) t None [] (Py.Err Py.TypeError).
End NormalCourse.
Fixpoint sum_list (l : list R) : R := match l with [] => 0%R | x :: l' => (x + sum_list l')%R end.
