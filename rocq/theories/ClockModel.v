(** Model of the clock and of output requests in double precision: slippy/contact/quasi_static_step.py 186, 244 and
    306-307, lubrication_steps.py 235, 360 and 396, static_step.py 176, outputs.py 177-224. Exponents are not bounded:
    nothing over- or underflows. Numbers of sub steps and of outputs are below 2^53, so that they are exact. *)
From Coq Require Import List Reals Arith.
From Verif Require Import Py RoundModel RequestModel.
Import ListNotations.
Local Open Scope R_scope.

(** ** The times of the sub steps of a step that starts at [t0] *)
(** [time_period / number_of_steps] (quasi_static_step.py:186, lubrication_steps.py:235) *)
Definition fsub_step (period : R) (n : nat) : R := fl (period / INR n).
(** [current_time += self.time_step] (quasi_static_step.py:306) *)
Fixpoint fadded (t dt : R) (n : nat) : list R :=
  match n with O => [] | S n' => let t' := fl (t + dt) in t' :: fadded t' dt n' end.
Definition quasi_times (t0 period : R) (n : nat) : list R := fadded t0 (fsub_step period n) n.
(** [start_time + (i + 1) * self.time_step] (lubrication_steps.py:396) *)
Definition lub_times (t0 period : R) (n : nat) : list R :=
  map (fun i => fl (t0 + fl (INR (S i) * fsub_step period n))) (seq 0 n).
(** [previous_state['time'] + self.max_time] (static_step.py:176): one time *)
Definition static_times (t0 period : R) : list R := [fl (t0 + period)].

(** [np.linspace(0, 1, self.number_of_steps)] (quasi_static_step.py:259, lubrication_steps.py:371): the relative times at which
    the movements are evaluated *)
Definition relative_times (n : nat) : list R := map (RoundModel.flinspace 1 n) (seq 0 n).

(** ** Output requests. Creating one and [new_step] only store numbers: see RequestModel. *)
(** [np.linspace(a, b, n)] (outputs.py:206) of numpy: with [n - 1] intervals the last value is [b]. Without underflow
    the branch of numpy for a step that is zero gives the same values. *)
Definition flinspace (a b : R) (n : nat) : list R :=
  match n with
  | O => []
  | S O => [a]
  | _ => map (fun i => if Nat.eqb (S i) n then b else fl (fl (INR i * fl (fl (b - a) / INR (n - 1))) + a)) (seq 0 n)
  end.
(** outputs.py:203-212 *)
Definition fbegin_step (r : request) (step_max_time : R) : request :=
  match end_time r with
  | Some _ => r
  | None =>
      let e := fl (start_time r + step_max_time) in
      let tp := match mode r with
                | NOutputs n => flinspace (start_time r) e n
                | StepTimes l => map (fun st => fl (start_time r + st)) l
                | _ => time_points r
                end in
      let '(nx, tp') := take_next tp in
      Request (mode r) (interval_count r) nx tp' (start_time r) (Some e)
  end.
(** [is_active] (outputs.py:186-224) *)
Definition fis_active (r : request) (t step_max_time : R) : request * bool :=
  match mode r with
  | Interval v =>
      if Rltb (interval_count r) v
      then (Request (mode r) (fl (interval_count r + 1)) (next_time r) (time_points r) (start_time r) (end_time r), false)
      else (Request (mode r) 1 (next_time r) (time_points r) (start_time r) (end_time r), true)
  | TimeInterval d =>
      match next_time r with
      | Some x => if Rgeb t x
                  then (Request (mode r) (interval_count r) (Some (fl (x + d))) (time_points r) (start_time r) (end_time r), true)
                  else (r, false)
      | None => (r, false) (* never the case in this mode *)
      end
  | _ => serve_next (fbegin_step r step_max_time) t
  end.
Fixpoint frun_request (r : request) (os : list rop) : request * list bool :=
  match os with
  | [] => (r, [])
  | NewStep t :: os' => frun_request (new_step r t) os'
  | Ask t m :: os' =>
      let '(r1, b) := fis_active r t m in
      let '(r2, bs) := frun_request r1 os' in (r2, b :: bs)
  end.
(** The answers in the step after a history: [new_step] (models.py:226) and a question in every sub step (steps.py:216) *)
Definition fstep_answers (r : request) (hist : list rop) (t0 period : R) (ts : list R) : list bool :=
  snd (frun_request (fst (frun_request r hist)) (NewStep t0 :: map (fun t => Ask t period) ts)).
