(** Theorems for C05 to C08 (timing of output requests). *)
From Coq Require Import List Reals Lra Lia Sorting.Sorted Bool Arith ZArith.
From Verif Require Import RequestModel RequestSpec RequestProofs.
Import ListNotations.
Local Open Scope R_scope.

(** C05. One answer per call; call [k] is active iff [k] is a multiple of
    [max(n,1)], over every interleaving of [new_step] and [is_active]. *)
Theorem c05_interval_every_n :
  forall (n : Z) (os : list rop) (r : request),
  new_request (Interval (IZR n)) = Some r ->
  length (snd (run_request r os)) = length (asks os) /\
  forall k b, nth_error (snd (run_request r os)) k = Some b ->
  (b = true <-> (k mod Z.to_nat (Z.max n 1) = 0)%nat).
Proof. exact interval_integer. Qed.
Print Assumptions c05_interval_every_n.

(** The same for any real value: the period is the least whole number [>= 1] that
    is not below the value. *)
Theorem c05_interval_any_value :
  forall (v : R) (p : nat), (1 <= p)%nat -> v <= INR p ->
  (forall q, (1 <= q < p)%nat -> INR q < v) ->
  forall (os : list rop) (r : request), new_request (Interval v) = Some r ->
  forall k b, nth_error (snd (run_request r os)) k = Some b ->
  (b = true <-> (k mod p = 0)%nat).
Proof. exact interval_spec. Qed.
Print Assumptions c05_interval_any_value.

Example c05_nonvacuous : exists r, new_request (Interval (IZR 2)) = Some r /\
  snd (run_request r [Ask 0 1; NewStep 1; Ask 1 1; Ask 2 1; NewStep 3; Ask 4 1]) = [true; false; true; false].
Proof.
  eexists. split; [reflexivity|]. cbn. unfold is_active. cbn. unfold Rltb.
  repeat (destruct (Rlt_dec _ _); try (exfalso; lra); cbn). reflexivity.
Qed.

(** C06. Inside a step starting at [s], whatever happened before, a call at [t] is
    active iff [s + m d <= t] where [m] is the number of outputs so far in the step. *)
Theorem c06_time_interval_counter :
  forall d r hist s T ts, new_request (TimeInterval d) = Some r ->
  step_answers r hist s T ts = counter_answers s d 0 ts.
Proof. exact time_interval_step. Qed.
Print Assumptions c06_time_interval_counter.

(** The [m]-th output is never before [s + m d]. *)
Theorem c06_never_early :
  forall d r hist s T ts, new_request (TimeInterval d) = Some r ->
  forall m x, nth_error (active_times ts (step_answers r hist s T ts)) m = Some x ->
  s + INR m * d <= x.
Proof.
  intros d r hist s T ts Hr m x H. rewrite (time_interval_step d) in H by exact Hr.
  exact (counter_never_early s d ts 0 m x H).
Qed.
Print Assumptions c06_never_early.

(** If the first call is less than one interval after the start, and later calls
    are at most one interval apart, the number [n] of outputs up to the last call
    [t] is [floor((t-s)/d) + 1]. *)
Theorem c06_exact_count :
  forall d r hist s T t0 ts, 0 < d -> new_request (TimeInterval d) = Some r ->
  s <= t0 < s + d ->
  (forall i a b, nth_error (t0 :: ts) i = Some a -> nth_error (t0 :: ts) (S i) = Some b ->
     a <= b <= a + d) ->
  let n := count_true (step_answers r hist s T (t0 :: ts)) in
  let t := last (t0 :: ts) 0 in
  INR n - 1 <= (t - s) / d < INR n.
Proof. exact time_interval_count. Qed.
Print Assumptions c06_exact_count.

(** The documented schedule (interval 0.25 in a step of length 1 writes at 0.25,
    0.5, 0.75 and 1) fails: with time points every 0.125 there are outputs at 0.125
    as well. *)
Theorem c06_documented_schedule_refuted :
  exists r, new_request (TimeInterval (1/4)) = Some r /\
  active_times [1/8; 2/8; 3/8; 4/8; 5/8; 6/8; 7/8; 1]
    (step_answers r [] 0 1 [1/8; 2/8; 3/8; 4/8; 5/8; 6/8; 7/8; 1])
  <> [1/4; 2/4; 3/4; 1].
Proof.
  eexists. split; [reflexivity|]. rewrite (time_interval_step (1/4)) by reflexivity.
  cbn [counter_answers]. cbn [INR].
  destruct (Rle_dec (0 + 0 * (1/4)) (1/8)); [|exfalso; lra]. cbn [active_times].
  intros H. injection H as H _. lra.
Qed.
Print Assumptions c06_documented_schedule_refuted.

Example c06_nonvacuous : exists r, new_request (TimeInterval 1) = Some r /\
  step_answers r [Ask 5 1; NewStep 9] 10 5 [10; 10.5; 11.5; 12] = [true; false; true; true].
Proof.
  eexists. split; [reflexivity|]. rewrite (time_interval_step 1) by reflexivity. cbn.
  repeat (destruct (Rle_dec _ _); try (exfalso; lra)). reflexivity.
Qed.

(** C07. Each step is a queue over its own targets, whatever happened before. *)
Theorem c07_n_outputs_queue :
  forall n r hist s T ts, new_request (NOutputs n) = Some r ->
  step_answers r hist s T ts = queue_answers (linspace s (s + T) n) ts.
Proof. exact n_outputs_step. Qed.
Print Assumptions c07_n_outputs_queue.

Theorem c07_linspace_evenly_spaced :
  forall a b n, length (linspace a b n) = n /\
  ((2 <= n)%nat -> forall i, (i < n)%nat ->
     nth_error (linspace a b n) i = Some (a + INR i * (b - a) / INR (n - 1))).
Proof. exact linspace_spec. Qed.
Print Assumptions c07_linspace_evenly_spaced.

Theorem c07_step_times_queue :
  forall l r hist s T ts, new_request (StepTimes l) = Some r ->
  step_answers r hist s T ts = queue_answers (map (fun st => s + st) l) ts.
Proof. exact step_times_step. Qed.
Print Assumptions c07_step_times_queue.

(** Consequences for any queue of targets. *)
Theorem c07_never_early :
  forall ts q i x, nth_error (active_times ts (queue_answers q ts)) i = Some x ->
  exists y, nth_error q i = Some y /\ y <= x.
Proof. exact queue_never_early. Qed.
Print Assumptions c07_never_early.

Theorem c07_at_most_the_targets :
  forall ts q, (count_true (queue_answers q ts) <= length q)%nat.
Proof. exact queue_count. Qed.
Print Assumptions c07_at_most_the_targets.

Theorem c07_served_by_first_call :
  forall ts q, StronglySorted Rlt q ->
  (forall j x y, In x q -> In y q -> in_gap ts j x -> in_gap ts j y -> x = y) ->
  forall j b, nth_error (queue_answers q ts) j = Some b ->
  (b = true <-> exists x, In x q /\ in_gap ts j x).
Proof. exact queue_served. Qed.
Print Assumptions c07_served_by_first_call.

Example c07_nonvacuous : exists r, new_request (StepTimes [0.5; 1]) = Some r /\
  step_answers r [NewStep 0; Ask 7 7] 2 2 [2; 2.5; 2.75; 4] = [false; true; false; true].
Proof.
  eexists. split; [reflexivity|]. rewrite (step_times_step [0.5; 1]) by reflexivity. cbn.
  repeat (destruct (Rle_dec _ _); try (exfalso; lra)). reflexivity.
Qed.

(** C08. Global times are a queue that loses its first waiting target at the first
    call after construction and after each new step. *)
Theorem c08_global_leaky_queue :
  forall x l r os, new_request (GlobalTimes (x :: l)) = Some r ->
  snd (run_request r os) = leaky_queue_answers (x :: l) true os.
Proof. exact global_spec. Qed.
Print Assumptions c08_global_leaky_queue.

(** An empty list of global times is rejected. *)
Theorem c08_empty_rejected : new_request (GlobalTimes []) = None.
Proof. exact eq_refl. Qed.
Print Assumptions c08_empty_rejected.

(** Targets that are served are served in order, once, never early. *)
Theorem c08_in_order_never_early :
  forall os q fresh,
  exists served, length served = count_true (leaky_queue_answers q fresh os) /\
  (exists idx, StronglySorted lt idx /\ map (nth_error q) idx = map Some served) /\
  Forall2 Rle served (active_times (asks os) (leaky_queue_answers q fresh os)).
Proof. exact leaky_never_early. Qed.
Print Assumptions c08_in_order_never_early.

(** The first listed time has no influence on anything. *)
Theorem c08_first_time_ignored :
  forall x y l r r' os, new_request (GlobalTimes (x :: l)) = Some r ->
  new_request (GlobalTimes (y :: l)) = Some r' ->
  snd (run_request r os) = snd (run_request r' os).
Proof.
  intros x y l r r' os H H'. rewrite (global_spec x l r os H), (global_spec y l r' os H').
  exact (leaky_first_irrelevant x y l os).
Qed.
Print Assumptions c08_first_time_ignored.

(** "Output is written at each listed time" is false: a single time never fires. *)
Theorem c08_single_time_never_fires_refuted :
  forall x r os, new_request (GlobalTimes [x]) = Some r ->
  Forall (fun b => b = false) (snd (run_request r os)).
Proof.
  intros x r os H. rewrite (global_spec x [] r os H). exact (leaky_single x os).
Qed.
Print Assumptions c08_single_time_never_fires_refuted.

Example c08_nonvacuous : exists r, new_request (GlobalTimes [1; 2; 3; 4]) = Some r /\
  snd (run_request r [NewStep 0; Ask 1 3; Ask 2 3; Ask 3 3; NewStep 3; Ask 4 1]) = [false; true; true; false].
Proof.
  eexists. split; [reflexivity|]. rewrite (global_spec 1 [2;3;4]) by reflexivity. cbn.
  repeat (destruct (Rle_dec _ _); try (exfalso; lra)). reflexivity.
Qed.
