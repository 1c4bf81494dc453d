(** Specification vocabulary for output timing (C05 to C08). *)
From Coq Require Import List Reals Sorting.Sorted.
From Verif Require Import RequestModel.
Import ListNotations.
Local Open Scope R_scope.

(** A queue of target times: a call at time [t] serves the first waiting target if
    it is not after [t]. *)
Fixpoint queue_answers (q : list R) (ts : list R) : list bool :=
  match ts with
  | [] => []
  | t :: ts' =>
      match q with
      | [] => false :: queue_answers [] ts'
      | x :: q' => if Rle_dec x t then true :: queue_answers q' ts'
                   else false :: queue_answers q ts'
      end
  end.

(** The same over a whole run, with [fresh] set at the start of every step: a fresh
    queue first loses its first target. *)
Fixpoint leaky_queue_answers (q : list R) (fresh : bool) (os : list rop) : list bool :=
  match os with
  | [] => []
  | NewStep _ :: os' => leaky_queue_answers q true os'
  | Ask t _ :: os' =>
      match (if fresh then tl q else q) with
      | [] => false :: leaky_queue_answers [] false os'
      | x :: q' => if Rle_dec x t then true :: leaky_queue_answers q' false os'
                   else false :: leaky_queue_answers (x :: q') false os'
      end
  end.

(** Number of [true] answers. *)
Definition count_true (bs : list bool) : nat := length (filter (fun b => b) bs).

(** Times of the calls answered [true]. *)
Fixpoint active_times (ts : list R) (bs : list bool) : list R :=
  match ts, bs with
  | t :: ts', b :: bs' => if b then t :: active_times ts' bs' else active_times ts' bs'
  | _, _ => []
  end.

(** [x] lies after call [j-1] and not after call [j]. *)
Definition in_gap (ts : list R) (j : nat) (x : R) : Prop :=
  (forall i t, (i < j)%nat -> nth_error ts i = Some t -> t < x) /\
  (exists t, nth_error ts j = Some t /\ x <= t).

(** Times of the [is_active] calls of a history. *)
Fixpoint asks (os : list rop) : list R :=
  match os with [] => [] | NewStep _ :: os' => asks os' | Ask t _ :: os' => t :: asks os' end.

(** Answers of the counter: [m] outputs so far; call at [t] active iff s+m*d<=t. *)
Fixpoint counter_answers (s d : R) (m : nat) (ts : list R) : list bool :=
  match ts with
  | [] => []
  | t :: ts' => if Rle_dec (s + INR m * d) t then true :: counter_answers s d (S m) ts'
                else false :: counter_answers s d m ts'
  end.

(** The answers inside the last step of a history. *)
Definition step_answers (r : request) (hist : list rop) (s T : R) (ts : list R) : list bool :=
  snd (run_request (fst (run_request r hist)) (NewStep s :: map (fun t => Ask t T) ts)).
