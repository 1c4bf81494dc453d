(** Model of [OutputRequest]: slippy/contact/outputs.py:86-224. *)
From Coq Require Import List Reals Lra String.
Import ListNotations.
Local Open Scope R_scope.

(** [x >= y] and [x < y] on floats as booleans. *)
Definition Rgeb (x y : R) : bool := if Rle_dec y x then true else false.
Definition Rltb (x y : R) : bool := if Rlt_dec x y then true else false.

(** The timing modes with their [value] argument (outputs.py:146-171). The number
    of outputs per step is a natural number (numpy raises for anything else). *)
Inductive timing :=
  | Interval (v : R)
  | TimeInterval (d : R)
  | NOutputs (n : nat)
  | StepTimes (l : list R)
  | GlobalTimes (l : list R).

(** The attributes (outputs.py:154-175). [time_points] is what is left in the
    iterator, [next_time = None] stands for Python's [None]. *)
Record request := Request {
  mode : timing;
  interval_count : R;
  next_time : option R;
  time_points : list R;
  start_time : R;
  end_time : option R }.

(** [__init__] (outputs.py:142-175): [None] is the ValueError of line 171. The
    checks of the mode name and of the type of [parameters] are modelled in
    [checked_request] below. *)
Definition new_request (m : timing) : option request :=
  match m with
  | Interval v => Some (Request m v None [] 0 None)
  | TimeInterval _ => Some (Request m 0 (Some 0) [] 0 None)
  | NOutputs _ => Some (Request m 0 None [] 0 None)
  | StepTimes _ => Some (Request m 0 None [] 0 None)
  | GlobalTimes [] => None
  | GlobalTimes (x :: l) => Some (Request m 0 (Some x) l 0 None)
  end.

(** The guards of outputs.py:146-151: the mode name must be known and the
    parameters must be a sequence that is not a string. *)
Definition valid_modes : list string :=
  ["interval"; "time_interval"; "n_outputs_per_step"; "step_times"; "global_times"]%string.
Definition checked_request (mode_name : string) (params_is_sequence params_is_str : bool)
    (m : timing) : option request :=
  if negb (existsb (String.eqb mode_name) valid_modes) then None
  else if orb (negb params_is_sequence) params_is_str then None
  else new_request m.

(** [new_step] (outputs.py:177-184). *)
Definition new_step (r : request) (t : R) : request :=
  match mode r with
  | TimeInterval _ => Request (mode r) (interval_count r) (Some t) (time_points r) t None
  | _ => Request (mode r) (interval_count r) (next_time r) (time_points r) t None
  end.

(** [np.linspace(a, b, n)] (outputs.py:206). *)
Definition linspace (a b : R) (n : nat) : list R :=
  match n with
  | O => []
  | S O => [a]
  | _ => map (fun i => a + INR i * ((b - a) / INR (n - 1))) (seq 0 n)
  end.

(** [next(self.time_points)] with StopIteration as [None] (outputs.py:209-212, 216-219). *)
Definition take_next (l : list R) : option R * list R :=
  match l with [] => (None, []) | x :: l' => (Some x, l') end.

(** outputs.py:203-212. *)
Definition begin_step (r : request) (step_max_time : R) : request :=
  match end_time r with
  | Some _ => r
  | None =>
      let e := start_time r + step_max_time in
      let tp := match mode r with
                | NOutputs n => linspace (start_time r) e n
                | StepTimes l => map (fun st => start_time r + st) l
                | _ => time_points r
                end in
      let '(nx, tp') := take_next tp in
      Request (mode r) (interval_count r) nx tp' (start_time r) (Some e)
  end.

(** outputs.py:214-221. *)
Definition serve_next (r : request) (t : R) : request * bool :=
  match next_time r with
  | Some x => if Rgeb t x
              then let '(nx, tp) := take_next (time_points r) in
                   (Request (mode r) (interval_count r) nx tp (start_time r) (end_time r), true)
              else (r, false)
  | None => (r, false)
  end.

(** [is_active] (outputs.py:186-224). *)
Definition is_active (r : request) (t step_max_time : R) : request * bool :=
  match mode r with
  | Interval v =>
      if Rltb (interval_count r) v
      then (Request (mode r) (interval_count r + 1) (next_time r) (time_points r)
                    (start_time r) (end_time r), false)
      else (Request (mode r) 1 (next_time r) (time_points r) (start_time r) (end_time r), true)
  | TimeInterval d =>
      match next_time r with
      | Some x => if Rgeb t x
                  then (Request (mode r) (interval_count r) (Some (x + d)) (time_points r)
                                (start_time r) (end_time r), true)
                  else (r, false)
      | None => (r, false) (* never the case in this mode *)
      end
  | _ => serve_next (begin_step r step_max_time) t
  end.

(** Histories: [new_step] by the model, [is_active] by the steps; the results of
    the [is_active] calls are collected. *)
Inductive rop := NewStep (t : R) | Ask (t step_max_time : R).
Fixpoint run_request (r : request) (os : list rop) : request * list bool :=
  match os with
  | [] => (r, [])
  | NewStep t :: os' => run_request (new_step r t) os'
  | Ask t m :: os' =>
      let '(r1, b) := is_active r t m in
      let '(r2, bs) := run_request r1 os' in (r2, b :: bs)
  end.
