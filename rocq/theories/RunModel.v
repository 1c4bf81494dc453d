(** Model of a whole analysis and its result files: [ContactModel.solve] (slippy/contact/models.py 186-232, see
    [ContactModel.solve]) with steps that save each of their time points (slippy/contact/steps.py 200-276, called from
    static_step.py 223, quasi_static_step.py 310 and lubrication_steps.py 602) to the files of the [OutputSaver] made in
    models.py 211 (slippy/contact/outputs.py 34-83). What a step computes is any function of the state before it. *)
From Coq Require Import List String Bool Reals.
From Verif Require Import Py RequestModel SaveModel ContactModel OutputsModel.
Import ListNotations.
Local Open Scope string_scope.

Section Run.
Context {bytes : Type}.
Notation value := (@value R bytes).
Notation state := (@state value).
(** The states of the time points of a step, in order, and then the state it returns or the exception it raises; a step
    which raises has saved the points before. *)
Variable points : nat -> option state -> list state * result state.
(** [step.max_time], and the names each request was made with. *)
Variable max_time : nat -> R.
Variable params : nat -> list string.
Variable exec_raises : string -> bool.
Variable order : list string -> list string.

(** [current_state['time']] *)
Definition time_of (st : state) : option R := match dget "time" st with Some (STime t) => Some t | _ => None end.

(** steps.py 214-217 with the requests as objects: a request listed twice is asked twice. *)
Fixpoint ask_ids (os : list nat) (t T : R) (rq : store) (ps : list string) : store * list string :=
  match os with
  | [] => (rq, ps)
  | o :: os' => let '(r, b) := is_active (rq o) t T in
                ask_ids os' t T (upd rq o r) (if b then supdate ps (params o) else ps)
  end.
(** steps.py 200-276 ([save_outputs]) *)
Definition save (os : list nat) (T : R) (st : state) (rq : store) : store * result (list state) :=
  match os with
  | [] => (rq, Ok [])
  | _ => match dget "time" st with
         | Some (STime t) => let '(rq', ps) := ask_ids os t T rq ["time"] in
                             (rq', bind (build_record exec_raises order st ps) (fun rec => Ok [rec]))
         | Some _ => (rq, Err TypeError)
         | None => (rq, Err KeyError)
         end
  end.
(** The time points of a step one after the other; an error in saving ends the step. *)
Fixpoint save_points (os : list nat) (T : R) (pts : list state) (rq : store) : store * list state * option err :=
  match pts with
  | [] => (rq, [], None)
  | st :: pts' =>
      match save os T st rq with
      | (rq1, Err e) => (rq1, [], Some e)
      | (rq1, Ok recs) => let '(rq2, rest, e) := save_points os T pts' rq1 in (rq2, (recs ++ rest)%list, e)
      end
  end.
Definition step_solve (outs : nat -> list nat) (s : nat) (cur : option state) (rq : store) : store * list state * result state :=
  let '(pts, r) := points s cur in
  let '(rq', recs, e) := save_points (outs s) (max_time s) pts rq in
  (rq', recs, match e with Some e => Err e | None => r end).

(** What is passed to [OutputSaver.write]: numbers, strings, arrays. The tuples of loads, displacements and points have been
    split (steps.py 218-237), so that the last case does not come up. *)
Definition written (v : @sval value) : value :=
  match v with STime t => VNum t | SStr s => VStr s | SPlain a => a | _ => VStr "" end.
Definition written_record (r : state) : list (string * value) := map (fun kv => (fst kv, written (snd kv))) r.
(** What happens to the files. *)
Definition file_ops (es : list (@event state state)) : list (@op R bytes) :=
  flat_map (fun e => match e with EOpenSaver => [Enter] | ECloseSaver => [Exit] | EWrite r => [Write (written_record r)] | _ => [] end) es.
Variable to_float : bytes -> string -> option R.
(** The files after [model.solve()] and what it returns. *)
Definition analyse (w : world) (m : nat) (verbose skip_check opens : bool) (check : result unit) (rq : store)
  : @saver R bytes * result (option state) :=
  let '(_, es, r) := solve state state time_of (step_solve (outs_of w)) w m verbose skip_check opens check rq in
  (run to_float new_saver (file_ops es), r).
End Run.
