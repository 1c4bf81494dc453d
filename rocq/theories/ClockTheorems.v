(** Theorems for C124 (the clock and output requests in double precision). *)
From Coq Require Import List Bool Arith ZArith Reals Lia Lra Psatz.
From Flocq Require Import Core.
From Verif Require Import Py RoundModel RoundSpec RoundProofs RequestModel RequestSpec RequestProofs RequestTheorems ClockModel ClockSpec ClockProofs.
Import ListNotations.
Local Open Scope R_scope.

(** Requests that count sub steps do not depend on rounding: the answers of the exact model (C05) over every history. *)
Theorem c124_interval : forall v r os, v <= 2 ^ 52 -> new_request (Interval v) = Some r ->
  snd (frun_request r os) = snd (run_request r os).
Proof. intros v r os Hv Hr. rewrite (counted_run v os r Hv (counted_new v r Hr)). reflexivity. Qed.
Print Assumptions c124_interval.

(** An interval of one sub step is written in every sub step of a quasi static step, whatever the length of the step. *)
Theorem c124_every_sub_step : forall r hist t0 p n, double t0 -> 0 <= p -> (0 < n)%nat -> new_request (TimeInterval (fsub_step p n)) = Some r ->
  fstep_answers r hist t0 p (quasi_times t0 p n) = repeat true n.
Proof.
  intros r hist t0 p n Ht Hp Hn Hr. rewrite (ftime_interval _ r hist t0 p _ Hr). apply fcounter_every; [ apply double_fmt, Ht | ].
  rewrite <- fl_0. apply fl_le. apply (sub_step_between p n Hp Hn).
Qed.
Print Assumptions c124_every_sub_step.

(** A static step: every request by times writes, but for times after its end. *)
Theorem c124_static : forall r hist t0 p, double t0 -> 0 <= p ->
  (forall d, new_request (TimeInterval d) = Some r -> fstep_answers r hist t0 p (static_times t0 p) = [true]) /\
  (forall m, (0 < m)%nat -> new_request (NOutputs m) = Some r -> fstep_answers r hist t0 p (static_times t0 p) = [true]) /\
  (forall st l, st <= p -> new_request (StepTimes (st :: l)) = Some r -> fstep_answers r hist t0 p (static_times t0 p) = [true]).
Proof.
  intros r hist t0 p Ht Hp. apply double_fmt in Ht.
  assert (L : t0 <= fl (t0 + p)) by (rewrite <- (fl_id t0 Ht) at 1; apply fl_le; lra).
  split; [ | split ].
  - intros d Hr. rewrite (ftime_interval _ r hist t0 p _ Hr). cbn. destruct (Rle_dec t0 (fl (t0 + p))); [ reflexivity | contradiction ].
  - intros m Hm Hr. rewrite (fn_outputs m r hist t0 p _ Hr). destruct m as [|[|m]]; [ lia | | ].
    + cbn. destruct (Rle_dec t0 (fl (t0 + p))); [ reflexivity | contradiction ].
    + assert (E : exists q, flinspace t0 (fl (t0 + p)) (S (S m)) = t0 :: q).
      { pose proof (flinspace_nth t0 (fl (t0 + p)) (S (S m)) 0 ltac:(lia) ltac:(lia)) as N.
        destruct (flinspace t0 (fl (t0 + p)) (S (S m))) as [|y q]; [ discriminate | ]. cbn in N. injection N as ->. exists q.
        f_equal. rewrite Rmult_0_l, fl_0, Rplus_0_l. apply fl_id, Ht. }
      destruct E as (q & ->). cbn. destruct (Rle_dec t0 (fl (t0 + p))); [ reflexivity | contradiction ].
  - intros st l Hst Hr. rewrite (fstep_times _ r hist t0 p _ Hr). cbn.
    destruct (Rle_dec (fl (t0 + st)) (fl (t0 + p))) as [_ | N]; [ reflexivity | exfalso; apply N, fl_le; lra ].
Qed.
Print Assumptions c124_static.

(** How far the clock is off: sub step [k + 1] by at most [k + 3] units in the last place, in both kinds of steps with sub steps. *)
Theorem c124_drift : forall t0 p n k x, 0 <= t0 -> 0 <= p -> (0 < n)%nat -> INR (k + 3) <= 2 ^ 52 ->
  nth_error (quasi_times t0 p n) k = Some x \/ nth_error (lub_times t0 p n) k = Some x ->
  Rabs (x - (t0 + INR (S k) * (p / INR n))) <= INR (k + 3) / 2 ^ 52 * (t0 + INR (S k) * (p / INR n)).
Proof.
  intros t0 p n k x Ht Hp Hn Hk H. destruct (sub_step_between p n Hp Hn) as [D _].
  assert (0 <= t0 + INR (S k) * (p / INR n)) by (pose proof (pos_INR (S k)); assert (0 <= INR (S k) * (p / INR n)) by (apply Rmult_le_pos; assumption); lra).
  destruct H as [H | H]; (eapply near_linear; [ | eassumption .. ]); [ apply quasi_near | apply lub_near ]; assumption.
Qed.
Print Assumptions c124_drift.
(** Both have a time for every sub step. *)
Theorem c124_sub_steps : forall t0 p n, length (quasi_times t0 p n) = n /\ length (lub_times t0 p n) = n.
Proof. intros. split; [ apply quasi_length | apply lub_length ]. Qed.
Print Assumptions c124_sub_steps.

(** Outputs evenly spaced over a step: if [m] are asked for in at least [m - 1] sub steps, all are written but perhaps the last.
    Output [i + 1] is written at most one sub step after the first, number [c], that should not be before its time. *)
Theorem c124_all_but_last : forall r hist t0 p n m ts, ts = quasi_times t0 p n \/ ts = lub_times t0 p n ->
  double t0 -> 0 <= t0 -> 0 < p -> INR n * INR (n + 8) * (t0 + p) <= 2 ^ 53 * p -> (2 <= m)%nat -> (m <= n + 1)%nat ->
  new_request (NOutputs m) = Some r ->
  let answers := fstep_answers r hist t0 p ts in
  (m - 1 <= count_true answers <= m)%nat /\
  forall i c, (i < m - 1)%nat -> (c < n)%nat -> t0 + INR i * (p / INR (m - 1)) <= t0 + INR c * (p / INR n) ->
    (i + 1 <= count_true (firstn (c + 1) answers))%nat.
Proof.
  intros r hist t0 p n m ts Hts Ht H0 Pp Hc Hm Hmn Hr answers. apply double_fmt in Ht. assert (Hp : 0 <= p) by lra.
  assert (Hnear : near t0 p n ts) by (destruct Hts as [-> | ->]; [ apply quasi_near | apply lub_near ]; try assumption; lia).
  assert (Hlen : length ts = n) by (destruct Hts as [-> | ->]; [ apply quasi_length | apply lub_length ]).
  unfold answers. rewrite (fn_outputs m r hist t0 p ts Hr).
  assert (S : forall i c, (i < m - 1)%nat -> (c < n)%nat -> (i * n <= c * (m - 1))%nat ->
    (i + 1 <= count_true (firstn (c + 1) (queue_answers (flinspace t0 (fl (t0 + p)) m) ts)))%nat).
  { intros i c Hi Hcn Hic. rewrite !Nat.add_1_r. apply (near_serve t0 p n); try assumption; lia. }
  split; [ split | ].
  - specialize (S (m - 2)%nat (n - 1)%nat ltac:(lia) ltac:(lia)). eapply Nat.le_trans; [ | apply (count_firstn_all _ (n - 1 + 1)) ].
    eapply Nat.le_trans; [ | apply S ]; [ lia | ].
    assert (N : exists d a, n = (a + 1 + d)%nat /\ m = (a + 2)%nat) by (exists (n - (m - 1))%nat, (m - 2)%nat; lia). destruct N as (d & a & -> & ->).
    replace (a + 2 - 2)%nat with a by lia. replace (a + 2 - 1)%nat with (a + 1)%nat by lia. replace (a + 1 + d - 1)%nat with (a + d)%nat by lia. nia.
  - eapply Nat.le_trans; [ apply queue_count | rewrite flinspace_length; lia ].
  - intros i c Hi Hcn Hle. apply S; try assumption. apply INR_le. rewrite !mult_INR.
    assert (N : 0 < INR n) by (apply lt_0_INR; lia). assert (M : 0 < INR (m - 1)) by (apply lt_0_INR; lia).
    apply (Rmult_le_reg_r (p / (INR n * INR (m - 1)))); [ apply Rdiv_lt_0_compat; [ assumption | apply Rmult_lt_0_compat; assumption ] | ].
    replace (INR i * INR n * (p / (INR n * INR (m - 1)))) with (INR i * (p / INR (m - 1))) by (field; lra).
    replace (INR c * INR (m - 1) * (p / (INR n * INR (m - 1)))) with (INR c * (p / INR n)) by (field; lra). lra.
Qed.
Print Assumptions c124_all_but_last.
Example c124_all_but_last_case : exists r, new_request (NOutputs 5) = Some r /\
  (4 <= count_true (fstep_answers r [NewStep 0; Ask 1 1] 3 1 (quasi_times 3 1 1000)) <= 5)%nat.
Proof.
  eexists. split; [ reflexivity | ]. apply (c124_all_but_last _ _ 3 1 1000 5); try reflexivity; try lra; try lia; auto.
  - exists 3%Z, 0%Z. split; [ simpl; ring | lia ].
  - rewrite !INR_IZR_INZ, pow_IZR, <- !mult_IZR, <- (plus_IZR 3 1), <- mult_IZR. apply IZR_le. vm_compute. discriminate.
Qed.

(** Times with few digits: whole numbers of a unit [2 ^ e] below [2 ^ 53] of it. All times are exact and the requests answer
    as in the exact model (C06, C07). *)
Theorem c124_few_digits : forall e r hist hist' t0 p n ts, ts = quasi_times t0 p n \/ ts = lub_times t0 p n ->
  (0 < n)%nat -> 0 <= t0 -> 0 <= p -> whole e t0 -> whole e (p / INR n) -> small e (t0 + p) ->
  ts = even_times t0 p n /\
  (forall d, 0 <= d -> whole e d -> small e (t0 + p + d) -> new_request (TimeInterval d) = Some r ->
    fstep_answers r hist t0 p ts = step_answers r hist' t0 p ts) /\
  (forall m, ((2 <= m)%nat -> whole e (p / INR (m - 1))) -> new_request (NOutputs m) = Some r ->
    fstep_answers r hist t0 p ts = step_answers r hist' t0 p ts) /\
  (forall l, Forall (fun st => whole e st /\ small e (t0 + st)) l -> new_request (StepTimes l) = Some r ->
    fstep_answers r hist t0 p ts = step_answers r hist' t0 p ts).
Proof.
  intros e r hist hist' t0 p n ts Hts Hn Ht Hp Wt Wd Hs.
  assert (E : ts = even_times t0 p n) by (destruct Hts as [-> | ->]; [ apply (quasi_exact e) | apply (lub_exact e) ]; assumption).
  split; [ exact E | ]. split; [ | split ].
  - intros d Hd Wi Hsd Hr. rewrite (ftime_interval d r hist t0 p ts Hr), (time_interval_step d r hist' t0 p ts Hr).
    rewrite <- (fcounter_exact e t0 d (t0 + p) ts); try assumption; [ simpl INR; rewrite Rmult_0_l, Rplus_0_r; reflexivity | rewrite E; apply even_top; assumption ].
  - intros m Wm Hr. rewrite (fn_outputs m r hist t0 p ts Hr), (n_outputs_step m r hist' t0 p ts Hr), (flinspace_exact e) by assumption. reflexivity.
  - intros l Hl Hr. rewrite (fstep_times l r hist t0 p ts Hr), (step_times_step l r hist' t0 p ts Hr). f_equal.
    apply map_ext_in. intros st Hst. rewrite Forall_forall in Hl. destruct (Hl st Hst) as [W S].
    apply (fl_whole e); [ apply whole_plus; assumption | exact S ].
Qed.
Print Assumptions c124_few_digits.
Example c124_few_digits_case : quasi_times 3 1 4 = [3 + 1 / 4; 3 + 2 / 4; 3 + 3 / 4; 4].
Proof.
  destruct (c124_few_digits (-2) (Request (NOutputs 0) 0 None [] 0 None) [] [] 3 1 4 _ (or_introl eq_refl)) as [-> _]; try lra; try lia.
  - exists 12%Z. simpl. lra.
  - exists 1%Z. simpl. lra.
  - unfold small. rewrite Rabs_pos_eq by lra. change (-2 + 53)%Z with 51%Z. rewrite <- IZR_Zpower by lia. rewrite <- plus_IZR. apply IZR_lt. vm_compute. reflexivity.
  - unfold even_times. cbn [seq map INR]. repeat (apply f_equal2; [ lra | ]). reflexivity.
Qed.
(** Without rounding all evenly spaced outputs are written if there are at least as many sub steps. *)
Theorem c124_exact_count : forall r hist t0 p n m, 0 <= p -> (2 <= m)%nat -> (m <= n)%nat -> new_request (NOutputs m) = Some r ->
  count_true (step_answers r hist t0 p (even_times t0 p n)) = m.
Proof. intros r hist t0 p n m Hp Hm Hn Hr. rewrite (n_outputs_step m r hist t0 p _ Hr). apply even_count; assumption. Qed.
Print Assumptions c124_exact_count.

(** Refuted: as many evenly spaced outputs are written as were asked for. Ten sub steps of a first step that lasts 1 (of any unit):
    the clock stops below the end and the last output is never written; nor is one asked for at the end of the step. *)
Theorem c124_last_refuted : forall k r hist, let p := bpow radix2 k in
  (forall m, (2 <= m)%nat -> new_request (NOutputs m) = Some r -> (count_true (fstep_answers r hist 0 p (quasi_times 0 p 10)) < m)%nat) /\
  (new_request (StepTimes [p]) = Some r -> count_true (fstep_answers r hist 0 p (quasi_times 0 p 10)) = 0%nat) /\
  last (quasi_times 0 p 10) 0 = p * below_one.
Proof.
  intros k r hist p. unfold p. split; [ | split ].
  - intros m Hm Hr. rewrite (fn_outputs m r hist 0 _ _ Hr), fl_one. rewrite <- (flinspace_length 0 (bpow radix2 k) m) at 2.
    apply (queue_missed _ _ (bpow radix2 k)); [ apply ten_below | apply flinspace_last; assumption ].
  - intros Hr. rewrite (fstep_times _ r hist 0 _ _ Hr). cbn [map]. rewrite fl_one. 
    pose proof (queue_missed _ [bpow radix2 k] (bpow radix2 k) (ten_below k) (or_introl eq_refl)) as Q. cbn [length] in Q. lia.
  - rewrite ten_quasi, (one_unit k). cbn [ten_times map last]. unfold below_one. replace 72057594037927928%Z with (2 ^ 56 - 8)%Z by reflexivity.
    rewrite minus_IZR. replace (IZR 8) with (IZR (2 ^ 56) * bpow radix2 (-53)); [ ring | ]. rewrite (IZR_pow2 56), <- bpow_plus by lia. reflexivity.
Qed.
Print Assumptions c124_last_refuted.
(** The same in a lubricated step of 49 sub steps, although its times are not added up *)
Theorem c124_lubrication_refuted : forall k r hist, let p := bpow radix2 k in
  (forall m, (2 <= m)%nat -> new_request (NOutputs m) = Some r -> (count_true (fstep_answers r hist 0 p (lub_times 0 p 49)) < m)%nat) /\
  (new_request (StepTimes [p]) = Some r -> count_true (fstep_answers r hist 0 p (lub_times 0 p 49)) = 0%nat).
Proof.
  intros k r hist p. unfold p. split.
  - intros m Hm Hr. rewrite (fn_outputs m r hist 0 _ _ Hr), fl_one. rewrite <- (flinspace_length 0 (bpow radix2 k) m) at 2.
    apply (queue_missed _ _ (bpow radix2 k)); [ apply lub_below | apply flinspace_last; assumption ].
  - intros Hr. rewrite (fstep_times _ r hist 0 _ _ Hr). cbn [map]. rewrite fl_one. 
    pose proof (queue_missed _ [bpow radix2 k] (bpow radix2 k) (lub_below k) (or_introl eq_refl)) as Q. cbn [length] in Q. lia.
Qed.
Print Assumptions c124_lubrication_refuted.
(** Refuted: an interval of two sub steps is written in every second sub step. Ten sub steps: in the first, second, fourth, seventh
    and ninth, where without rounding it is the first, second, fourth, sixth, eighth and tenth. *)
Theorem c124_time_interval_refuted : forall k r r' hist, let p := bpow radix2 k in
  new_request (TimeInterval (2 * fsub_step p 10)) = Some r -> new_request (TimeInterval (2 * (p / INR 10))) = Some r' ->
  fstep_answers r hist 0 p (quasi_times 0 p 10) = [true; true; false; true; false; false; true; false; true; false] /\
  step_answers r' hist 0 p (even_times 0 p 10) = [true; true; false; true; false; true; false; true; false; true].
Proof.
  intros k r r' hist p Hr Hr'. split.
  - rewrite (ftime_interval _ r hist 0 p _ Hr). apply ten_second.
  - rewrite (time_interval_step _ r' hist 0 p _ Hr'). assert (P : 0 < p) by apply bpow_gt_0. unfold even_times. cbn [seq map counter_answers].
    set (d := p / INR 10). assert (0 < d) by (apply Rdiv_lt_0_compat; [ assumption | apply lt_0_INR; lia ]). cbn [INR].
    repeat (match goal with |- context [Rle_dec ?a ?b] => destruct (Rle_dec a b); try (exfalso; lra) end). reflexivity.
Qed.
Print Assumptions c124_time_interval_refuted.

(** Refuted: the results of the third of ten sub steps of a step that lasts 1 (of any unit) can be read by the time 0.3. No sub step is at that
    time: the third is at 0.30000000000000004. *)
Theorem c124_lookup_refuted : forall k, ~ In (three_tenth * bpow radix2 k) (quasi_times 0 (bpow radix2 k) 10).
Proof. exact ten_not_three. Qed.
Print Assumptions c124_lookup_refuted.

(** The relative times at which movements are evaluated start at 0, end at exactly 1, increase and never leave the range of the given movements;
    for a single sub step it is 0. *)
Theorem c124_relative : forall n, (2 <= n)%nat -> (Z.of_nat n <= 2 ^ 31)%Z ->
  length (relative_times n) = n /\ nth_error (relative_times n) 0 = Some 0 /\ nth_error (relative_times n) (n - 1) = Some 1 /\
  (forall i j x y, (i < j)%nat -> nth_error (relative_times n) i = Some x -> nth_error (relative_times n) j = Some y -> x < y) /\
  Forall (fun x => 0 <= x <= 1) (relative_times n).
Proof.
  intros n Hn Hb. unfold relative_times. split; [ rewrite map_length, seq_length; reflexivity | ].
  split; [ rewrite nth_error_map_seq_in by lia; rewrite relative_first by assumption; reflexivity | ].
  split; [ rewrite nth_error_map_seq_in by lia; rewrite relative_last by assumption; reflexivity | ]. split.
  - intros i j x y Hij Hx Hy. apply nth_error_map_seq in Hx, Hy. destruct Hx as [Hi ->], Hy as [Hj ->]. apply relative_mono; lia.
  - apply Forall_forall. intros x H. apply in_map_iff in H. destruct H as (i & <- & Hi). apply in_seq in Hi. split.
    + destruct i; [ rewrite relative_first by assumption; lra | ]. rewrite <- (relative_first n Hn). apply Rlt_le, relative_mono; lia.
    + destruct (Nat.eq_dec i (n - 1)) as [-> | Ne]; [ rewrite relative_last by assumption; lra | ]. eapply Rle_trans; [ apply Rlt_le, (relative_mono n i (n - 1)); lia | rewrite relative_last by assumption; lra ].
Qed.
Print Assumptions c124_relative.
Example c124_relative_single : relative_times 1 = [0].
Proof. reflexivity. Qed.
