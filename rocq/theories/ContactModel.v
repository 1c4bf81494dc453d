(** Model of [ContactModel]: slippy/contact/models.py:19-241, with the model setter of
    the steps (slippy/contact/steps.py:56-63) and [InitialStep] (steps.py:304-337). *)
From Coq Require Import List String Bool ZArith Reals.
From Verif Require Export Py RequestModel.
Import ListNotations.
Local Open Scope string_scope.

(** Steps, models and output requests are objects; they are named by numbers. *)
Section Models.
(** The name every step was given (steps.py:39-40). *)
Variable step_name : nat -> string.

(** [owner s] is the attribute [model] of step [s]; [steps_of m] the ordered dictionary
    [steps] of model [m]; [outs_of s] the list [outputs] of step [s]. *)
Record world := World {
  owner : nat -> option nat;
  steps_of : nat -> list (string * nat);
  outs_of : nat -> list nat }.

Definition upd {B} (f : nat -> B) (x : nat) (b : B) : nat -> B :=
  fun y => if Nat.eqb y x then b else f y.

(** [list.insert(position, x)] for a Python int (models.py:122-123). *)
Definition norm_index (z : Z) (n : nat) : nat :=
  if Z.ltb z 0 then Z.to_nat (Z.max 0 (z + Z.of_nat n)) else Nat.min (Z.to_nat z) n.
Definition py_insert {B} (z : Z) (x : B) (l : list B) : list B :=
  let i := norm_index z (List.length l) in (firstn i l ++ x :: skipn i l)%list.

(** [list.index] (models.py:121): [None] is ValueError. *)
Fixpoint list_index (k : string) (l : list string) : option nat :=
  match l with
  | [] => None
  | x :: l' => if String.eqb x k then Some 0 else option_map S (list_index k l')
  end.

(** The argument [position]. *)
Inductive position := PNone | PInt (z : Z) | PStr (s : string).

(** The new dictionary, models.py:115-126. *)
Definition place_step (d : list (string * nat)) (name : string) (s : nat) (p : position)
  : result (list (string * nat)) :=
  let insert z :=
    Ok (fold_left (fun acc kv => dset (fst kv) (snd kv) acc)
          (combine (py_insert z name (map fst d)) (py_insert z s (map snd d))) []) in
  match p with
  | PNone => Ok (dset name s d)
  | PInt z => insert z
  | PStr k => match list_index k (map fst d) with
              | Some i => insert (Z.of_nat i)
              | None => Err ValueError
              end
  end.

(** [add_step] (models.py:87-128). The setter runs first (line 113), so the step keeps
    its new owner when the position is not found. Not modelled: the owner of the sub
    models (127-128). *)
Definition add_step (w : world) (m s : nat) (p : position) : world * result unit :=
  match owner w s with
  | Some _ => (w, Err ValueError)
  | None =>
      let w1 := World (upd (owner w) s (Some m)) (steps_of w) (outs_of w) in
      match place_step (steps_of w m) (step_name s) s p with
      | Ok d => (World (owner w1) (upd (steps_of w) m d) (outs_of w), Ok tt)
      | Err e => (w1, Err e)
      end
  end.

(** [__init__] (models.py:73): the initial step [i] of model [m]; its attribute
    [model] is not set. *)
Definition new_model (w : world) (m i : nat) : world :=
  World (owner w) (upd (steps_of w) m [("Initial", i)]) (outs_of w).

(** Appending the request to every named step (models.py:151-152). *)
Fixpoint append_output (w : world) (m o : nat) (names : list string) : world * result unit :=
  match names with
  | [] => (w, Ok tt)
  | k :: names' =>
      match dget k (steps_of w m) with
      | None => (w, Err KeyError)
      | Some s =>
          append_output (World (owner w) (steps_of w) (upd (outs_of w) s (outs_of w s ++ [o])%list))
                        m o names'
      end
  end.

(** The argument [active_steps]. *)
Inductive active := AStr (s : string) | AList (l : list string).

(** [add_output] (models.py:130-152); [order] is the iteration order of the set. *)
Definition add_output (order : list string -> list string) (w : world) (m o : nat) (a : active)
  : world * result unit :=
  match a with
  | AStr "all" =>
      if smem "Initial" (map fst (steps_of w m))
      then append_output w m o (order (sremove "Initial" (map fst (steps_of w m))))
      else (w, Err KeyError)
  | AStr k => append_output w m o [k]
  | AList l => append_output w m o l
  end.

(** Histories of model building calls. *)
Inductive mop :=
  | MNew (m i : nat)
  | MAddStep (m s : nat) (p : position)
  | MAddOutput (m o : nat) (a : active).
Definition mstep (order : list string -> list string) (w : world) (o : mop) : world :=
  match o with
  | MNew m i => new_model w m i
  | MAddStep m s p => fst (add_step w m s p)
  | MAddOutput m r a => fst (add_output order w m r a)
  end.
Definition empty_world : world := World (fun _ => None) (fun _ => []) (fun _ => []).
Definition mrun (order : list string -> list string) (os : list mop) : world :=
  fold_left (mstep order) os empty_world.

(** ** Solving *)
Section Solve.
(** Model states, with the entry "time" if there is one, and written records. *)
Variable State Rec : Type.
Variable time_of : State -> option R.
(** [step.solve(current_state, output_writer)] for every step: the requests it changes,
    the records it writes, and the state it returns or the exception it raises. *)
Definition store := nat -> request.
Variable step_solve : nat -> option State -> store -> store * list Rec * result State.

(** What can be seen from outside: files, redirected output, calls. *)
Inductive event :=
  | EOpenSaver | ECloseSaver | EOpenLog | ECloseLog | ERedirect | ERestore
  | ENewStep (o : nat) (t : R)
  | ESolve (s : nat) (st : option State)
  | EWrite (r : Rec).

(** models.py:225-226: [output.new_step(current_state['time'])] for every output. *)
Fixpoint tell_outputs (cur : option State) (outs : list nat) (rq : store)
  : store * list event * result unit :=
  match outs with
  | [] => (rq, [], Ok tt)
  | o :: outs' =>
      match cur with
      | None => (rq, [], Err TypeError)
      | Some st =>
          match time_of st with
          | None => (rq, [], Err KeyError)
          | Some t =>
              let '(rq', ev, r) := tell_outputs cur outs' (upd rq o (new_step (rq o) t)) in
              (rq', ENewStep o t :: ev, r)
          end
      end
  end.

(** The loop models.py:223-227. *)
Fixpoint solve_steps (outs : nat -> list nat) (steps : list (string * nat)) (cur : option State)
    (rq : store) : store * list event * result (option State) :=
  match steps with
  | [] => (rq, [], Ok cur)
  | (_, s) :: steps' =>
      let '(rq1, ev1, r1) := tell_outputs cur (outs s) rq in
      match r1 with
      | Err e => (rq1, ev1, Err e)
      | Ok _ =>
          let '(rq2, recs, r2) := step_solve s cur rq1 in
          let ev2 := (ev1 ++ ESolve s cur :: map EWrite recs)%list in
          match r2 with
          | Err e => (rq2, ev2, Err e)
          | Ok st =>
              let '(rq3, ev3, r3) := solve_steps outs steps' (Some st) rq2 in
              (rq3, (ev2 ++ ev3)%list, r3)
          end
      end
  end.

(** [solve] (models.py:186-232). [check] is the outcome of the data check and [opens]
    whether the log file can be created. The exits of the [ExitStack] (212-216) run in
    reverse order whatever happens. *)
Definition solve (w : world) (m : nat) (verbose skip_check opens : bool) (check : result unit) (rq : store)
  : store * list event * result (option State) :=
  let body :=
    let checked := if skip_check then Ok tt else check in
    match checked with
    | Err e => (rq, [], Err e)
    | Ok _ => solve_steps (outs_of w) (steps_of w m) None rq
    end in
  let '(rq', ev, r) := body in
  if verbose then (rq', EOpenSaver :: ev ++ [ECloseSaver], r)%list
  else if opens then
    (rq', EOpenSaver :: EOpenLog :: ERedirect :: ev ++ [ERestore; ECloseLog; ECloseSaver], r)%list
  else (rq, [EOpenSaver; ECloseSaver], Err OSError).
End Solve.

(** ** The initial step *)
(** [InitialStep.solve] (steps.py:327-334) on states that are dictionaries of a type of
    values [V]: it raises when there is a previous state. *)
Definition initial_solve {V} (off_set zero : V) (cur : option (list (string * V)))
  : result (list (string * V)) :=
  match cur with
  | Some _ => Err ValueError
  | None => Ok [("off_set", off_set); ("interference", zero); ("time", zero)]
  end.
End Models.
Arguments EOpenSaver {State Rec}.
Arguments ECloseSaver {State Rec}.
Arguments EOpenLog {State Rec}.
Arguments ECloseLog {State Rec}.
Arguments ERedirect {State Rec}.
Arguments ERestore {State Rec}.
Arguments ENewStep {State Rec} o t.
Arguments ESolve {State Rec} s st.
Arguments EWrite {State Rec} r.
