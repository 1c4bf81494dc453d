From Coq Require Import List Reals Lra Lia Sorting.Sorted Bool Arith ZArith.
From Verif Require Import RequestModel RequestSpec.
Import ListNotations.
Local Open Scope R_scope.

Lemma Rgeb_true t x : Rgeb t x = true <-> x <= t.
Proof. unfold Rgeb. destruct (Rle_dec x t); split; auto; try discriminate; lra. Qed.
Lemma Rgeb_dec t x : Rgeb t x = if Rle_dec x t then true else false.
Proof. reflexivity. Qed.


Lemma run_length os : forall r, length (snd (run_request r os)) = length (asks os).
Proof.
  induction os as [|[t|t m] os IH]; intros r; cbn; [reflexivity|apply IH|].
  destruct (is_active r t m) as [r1 b]. specialize (IH r1).
  destruct (run_request r1 os) as [r2 bs]. cbn in *. now rewrite IH.
Qed.

(** ** Interval mode *)
Section IntervalMode.
Variables (v : R) (p : nat).
Hypothesis Hp1 : (1 <= p)%nat.
Hypothesis Hpv : v <= INR p.
Hypothesis Hmin : forall q, (1 <= q < p)%nat -> INR q < v.

Lemma interval_from os : forall r j, mode r = Interval v ->
  (interval_count r = INR j /\ (1 <= j <= p)%nat) \/ (interval_count r = v /\ j = p) ->
  forall k b, nth_error (snd (run_request r os)) k = Some b ->
  (b = true <-> ((k + j) mod p = 0)%nat).
Proof.
  induction os as [|[t|t m] os IH]; intros r j Hm Hc k b Hk.
  - cbn in Hk. destruct k; discriminate.
  - cbn in Hk. apply (IH (new_step r t) j) with (k := k) (b := b).
    + unfold new_step. now rewrite Hm.
    + unfold new_step. rewrite Hm. exact Hc.
    + exact Hk.
  - cbn [run_request] in Hk. unfold is_active in Hk. rewrite Hm in Hk.
    unfold Rltb in Hk.
    assert (Hj : (1 <= j <= p)%nat) by (destruct Hc as [[_ ?]|[_ ->]]; lia).
    destruct (Rlt_dec (interval_count r) v) as [Hlt|Hge].
    + destruct Hc as [[Hc _]|[Hc ->]]; [|lra].
      assert (Hjp : (j < p)%nat).
      { destruct (Nat.eq_dec j p) as [->|]; [lra|lia]. }
      match type of Hk with context [run_request ?r1 os] =>
        specialize (IH r1 (S j) eq_refl); destruct (run_request r1 os) as [r2 bs] eqn:E end.
      cbn in Hk. destruct k as [|k].
      * injection Hk as <-. split; [discriminate|]. cbn. rewrite Nat.mod_small by lia. lia.
      * cbn in Hk. replace (S k + j)%nat with (k + S j)%nat by lia. apply IH; [|exact Hk].
        left. cbn [interval_count]. rewrite S_INR, Hc. split; [reflexivity|lia].
    + assert (j = p).
      { destruct Hc as [[Hc _]|[_ ->]]; [|reflexivity].
        destruct (Nat.eq_dec j p) as [|Hn]; [assumption|].
        exfalso. assert (INR j < v) by (apply Hmin; lia). lra. }
      subst j.
      match type of Hk with context [run_request ?r1 os] =>
        specialize (IH r1 1%nat eq_refl); destruct (run_request r1 os) as [r2 bs] eqn:E end.
      cbn in Hk. destruct k as [|k].
      * injection Hk as <-. split; [|reflexivity]. intros _. cbn. apply Nat.mod_same. lia.
      * cbn in Hk. 
        replace ((S k + p) mod p)%nat with ((k + 1) mod p)%nat.
        2:{ replace (S k + p)%nat with ((k + 1) + 1 * p)%nat by lia.
            symmetry. apply Nat.mod_add. lia. }
        apply IH; [|exact Hk]. left. cbn [interval_count]. split; [reflexivity|lia].
Qed.

Lemma interval_spec os r : new_request (Interval v) = Some r ->
  forall k b, nth_error (snd (run_request r os)) k = Some b ->
  (b = true <-> (k mod p = 0)%nat).
Proof.
  intros Hr k b Hk. injection Hr as <-.
  pose proof (interval_from os (Request (Interval v) v None [] 0 None) p eq_refl
                (or_intror (conj eq_refl eq_refl)) k b Hk) as A.
  rewrite A. replace (k + p)%nat with (k + 1 * p)%nat by lia. rewrite Nat.mod_add by lia. reflexivity.
Qed.
End IntervalMode.

Lemma interval_integer (n : Z) os r : new_request (Interval (IZR n)) = Some r ->
  length (snd (run_request r os)) = length (asks os) /\
  forall k b, nth_error (snd (run_request r os)) k = Some b ->
  (b = true <-> (k mod Z.to_nat (Z.max n 1) = 0)%nat).
Proof.
  intros Hr. split; [apply run_length|]. apply (interval_spec (IZR n)); [lia| | |exact Hr].
  - rewrite INR_IZR_INZ, Z2Nat.id by lia. apply IZR_le. lia.
  - intros q Hq. rewrite INR_IZR_INZ. apply IZR_lt. lia.
Qed.

(** ** Time interval mode *)

Definition only_asks (os : list rop) : Prop :=
  Forall (fun o => match o with Ask _ _ => True | NewStep _ => False end) os.

Lemma time_interval_counter d os : only_asks os -> forall r s m,
  mode r = TimeInterval d -> next_time r = Some (s + INR m * d) ->
  snd (run_request r os) = counter_answers s d m (asks os).
Proof.
  induction 1 as [|o os Ho H IH]; intros r s m Hm Hn; [reflexivity|].
  destruct o as [t|t mx]; [destruct Ho|]. cbn [run_request asks counter_answers].
  unfold is_active. rewrite Hm, Hn, Rgeb_dec.
  destruct (Rle_dec (s + INR m * d) t).
  - match goal with |- context [run_request ?r1 os] =>
      specialize (IH r1 s (S m) eq_refl); destruct (run_request r1 os) as [r2 bs] end.
    cbn [snd] in IH |- *. rewrite IH; [reflexivity|]. cbn [next_time]. f_equal. rewrite S_INR. lra.
  - specialize (IH r s m Hm Hn). destruct (run_request r os) as [r2 bs]. cbn in *. now rewrite IH.
Qed.

Lemma mode_new_step r t : mode (new_step r t) = mode r.
Proof. unfold new_step. destruct (mode r); reflexivity. Qed.
Lemma mode_begin r m : mode (begin_step r m) = mode r.
Proof.
  unfold begin_step. destruct (end_time r); [reflexivity|]. destruct (take_next _). reflexivity.
Qed.
Lemma mode_serve r t : mode (fst (serve_next r t)) = mode r.
Proof.
  unfold serve_next. destruct (next_time r) as [x|]; [|reflexivity].
  destruct (Rgeb t x); [|reflexivity]. destruct (take_next _). reflexivity.
Qed.
Lemma mode_active r t m : mode (fst (is_active r t m)) = mode r.
Proof.
  unfold is_active. destruct (mode r) eqn:E; try (rewrite mode_serve, mode_begin; exact E).
  - destruct (Rltb _ _); cbn; auto.
  - destruct (next_time r) as [x|]; [|auto]. destruct (Rgeb t x); auto.
Qed.
Lemma mode_run os : forall r, mode (fst (run_request r os)) = mode r.
Proof.
  induction os as [|[t|t m] os IH]; intros r; [reflexivity| |].
  - cbn. rewrite IH. apply mode_new_step.
  - cbn. pose proof (mode_active r t m) as A. destruct (is_active r t m) as [r1 b]. cbn in A.
    specialize (IH r1). destruct (run_request r1 os) as [r2 bs]. cbn in *. congruence.
Qed.
Lemma run_app os1 os2 r :
  run_request r (os1 ++ os2) =
  (fst (run_request (fst (run_request r os1)) os2),
   snd (run_request r os1) ++ snd (run_request (fst (run_request r os1)) os2)).
Proof.
  revert r. induction os1 as [|[t|t m] os1 IH]; intros r; cbn [app run_request].
  - cbn. now destruct (run_request r os2).
  - apply IH.
  - destruct (is_active r t m) as [r1 b]. rewrite IH. destruct (run_request r1 os1) as [r2 bs].
    reflexivity.
Qed.


Lemma asks_map T ts : asks (map (fun t => Ask t T) ts) = ts.
Proof. induction ts as [|t ts IH]; cbn; [reflexivity|now rewrite IH]. Qed.
Lemma only_asks_map T ts : only_asks (map (fun t => Ask t T) ts).
Proof. apply Forall_map. apply Forall_forall. intros x _. exact I. Qed.

Lemma time_interval_step d r hist s T ts : new_request (TimeInterval d) = Some r ->
  step_answers r hist s T ts = counter_answers s d 0 ts.
Proof.
  intros Hr. unfold step_answers. cbn [run_request].
  assert (Hm : mode (fst (run_request r hist)) = TimeInterval d).
  { rewrite mode_run. injection Hr as <-. reflexivity. }
  rewrite (time_interval_counter d) with (s := s) (m := 0%nat).
  - now rewrite asks_map.
  - apply only_asks_map.
  - rewrite mode_new_step. exact Hm.
  - unfold new_step. rewrite Hm. cbn. f_equal. lra.
Qed.

Lemma counter_never_early s d ts : forall m i x,
  nth_error (active_times ts (counter_answers s d m ts)) i = Some x ->
  s + INR (m + i) * d <= x.
Proof.
  induction ts as [|t ts IH]; intros m i x H; cbn in H; [destruct i; discriminate|].
  destruct (Rle_dec (s + INR m * d) t) as [Hle|Hn]; cbn in H.
  - destruct i as [|i]; cbn in H.
    + injection H as <-. now rewrite Nat.add_0_r.
    + apply IH in H. replace (m + S i)%nat with (S m + i)%nat by lia. exact H.
  - now apply IH.
Qed.

(** Exact count under dense calls. *)
Lemma counter_dense s d : 0 < d -> forall ts m t0,
  (0 < m)%nat -> s + (INR m - 1) * d <= t0 -> t0 < s + INR m * d ->
  (forall i a b, nth_error (t0 :: ts) i = Some a -> nth_error (t0 :: ts) (S i) = Some b ->
     a <= b <= a + d) ->
  let n := (m + count_true (counter_answers s d m ts))%nat in
  let t := last (t0 :: ts) 0 in
  s + (INR n - 1) * d <= t /\ t < s + INR n * d.
Proof.
  intros Hd ts. induction ts as [|t1 ts IH]; intros m t0 Hm0 Hlo Hhi Hg n t.
  - unfold n, t. cbn. rewrite Nat.add_0_r. split; assumption.
  - assert (H01 : t0 <= t1 <= t0 + d) by (apply (Hg 0%nat); reflexivity).
    assert (Hg' : forall i a b, nth_error (t1 :: ts) i = Some a ->
       nth_error (t1 :: ts) (S i) = Some b -> a <= b <= a + d).
    { intros i a b Ha Hb. apply (Hg (S i)); assumption. }
    unfold n, t. cbn [counter_answers].
    replace (last (t0 :: t1 :: ts) 0) with (last (t1 :: ts) 0) by reflexivity.
    destruct (Rle_dec (s + INR m * d) t1) as [Hle|Hn].
    + specialize (IH (S m) t1). cbv zeta in IH.
      assert (E : (m + count_true (true :: counter_answers s d (S m) ts))%nat
                  = (S m + count_true (counter_answers s d (S m) ts))%nat).
      { unfold count_true. cbn. lia. }
      rewrite E. apply IH; [lia| | |exact Hg'].
      * rewrite S_INR. lra.
      * rewrite S_INR. lra.
    + specialize (IH m t1). cbv zeta in IH.
      change (count_true (false :: counter_answers s d m ts)) with (count_true (counter_answers s d m ts)).
      apply IH; [exact Hm0|lra|lra|exact Hg'].
Qed.

Lemma time_interval_count d r hist s T t0 ts : 0 < d ->
  new_request (TimeInterval d) = Some r ->
  s <= t0 < s + d ->
  (forall i a b, nth_error (t0 :: ts) i = Some a -> nth_error (t0 :: ts) (S i) = Some b ->
     a <= b <= a + d) ->
  let n := count_true (step_answers r hist s T (t0 :: ts)) in
  let t := last (t0 :: ts) 0 in
  INR n - 1 <= (t - s) / d < INR n.
Proof.
  intros Hd Hr H0 Hg. cbv zeta. rewrite (time_interval_step d) by exact Hr.
  cbn [counter_answers]. destruct (Rle_dec (s + INR 0 * d) t0) as [Hle|Hn]; [|cbn in Hn; lra].
  change (count_true (true :: counter_answers s d 1 ts))
    with (1 + count_true (counter_answers s d 1 ts))%nat.
  destruct (counter_dense s d Hd ts 1 t0) as [A B]; [lia|cbn; lra|cbn; lra|exact Hg|].
  set (n := (1 + count_true (counter_answers s d 1 ts))%nat) in *.
  set (t := last (t0 :: ts) 0) in *.
  split.
  - apply Rmult_le_reg_r with d; [exact Hd|]. unfold Rdiv. rewrite Rmult_assoc, Rinv_l by lra. lra.
  - apply Rmult_lt_reg_r with d; [exact Hd|]. unfold Rdiv. rewrite Rmult_assoc, Rinv_l by lra. lra.
Qed.

(** ** Queue modes *)
Definition queue_of (r : request) : list R :=
  match next_time r with Some x => x :: time_points r | None => [] end.
Definition wf_queue (r : request) : Prop := next_time r = None -> time_points r = [].

Lemma serve_queue r t : wf_queue r ->
  (match queue_of r with
   | [] => snd (serve_next r t) = false /\ queue_of (fst (serve_next r t)) = []
   | x :: q => if Rle_dec x t then snd (serve_next r t) = true /\ queue_of (fst (serve_next r t)) = q
               else snd (serve_next r t) = false /\ queue_of (fst (serve_next r t)) = x :: q
   end) /\ wf_queue (fst (serve_next r t)) /\ mode (fst (serve_next r t)) = mode r /\
  end_time (fst (serve_next r t)) = end_time r /\ start_time (fst (serve_next r t)) = start_time r.
Proof.
  intros Hw. unfold serve_next, queue_of, wf_queue in *.
  destruct r as [md ic nx tp st en]; cbn in *.
  destruct nx as [x|]; cbn.
  - rewrite Rgeb_dec. destruct (Rle_dec x t); cbn.
    + destruct tp as [|y tp]; cbn; repeat split; try reflexivity; discriminate.
    + repeat split; discriminate.
  - repeat split; auto.
Qed.

Lemma begin_queue r T : end_time r = None ->
  end_time (begin_step r T) <> None /\ wf_queue (begin_step r T) /\
  queue_of (begin_step r T) =
    match mode r with
    | NOutputs n => linspace (start_time r) (start_time r + T) n
    | StepTimes l => map (fun st => start_time r + st) l
    | _ => time_points r
    end.
Proof.
  intros He. unfold begin_step, wf_queue, queue_of. rewrite He.
  destruct (match mode r with
       | NOutputs n => linspace (start_time r) (start_time r + T) n
       | StepTimes l => map (fun st => start_time r + st) l
       | _ => time_points r end) as [|x l]; cbn; repeat split; try discriminate; auto.
Qed.
Lemma begin_done r T e : end_time r = Some e -> begin_step r T = r.
Proof. intros He. unfold begin_step. now rewrite He. Qed.

Definition queue_mode (m : timing) : bool :=
  match m with NOutputs _ | StepTimes _ | GlobalTimes _ => true | _ => false end.
Lemma active_queue_mode r t T : queue_mode (mode r) = true ->
  is_active r t T = serve_next (begin_step r T) t.
Proof. unfold is_active. destruct (mode r); cbn; intros; try discriminate; reflexivity. Qed.

(** Running calls once the step has begun. *)
Lemma queue_run T ts : forall r e, queue_mode (mode r) = true -> end_time r = Some e -> wf_queue r ->
  snd (run_request r (map (fun t => Ask t T) ts)) = queue_answers (queue_of r) ts.
Proof.
  induction ts as [|t ts IH]; intros r e Hm He Hw; [reflexivity|].
  cbn [map run_request]. rewrite active_queue_mode, (begin_done r T e He) by exact Hm.
  destruct (serve_queue r t Hw) as (A & B & C & D & _).
  destruct (serve_next r t) as [r1 b] eqn:E. cbn [fst snd] in *.
  specialize (IH r1 e). rewrite C, D in IH. specialize (IH Hm He B).
  destruct (run_request r1 (map (fun t => Ask t T) ts)) as [r2 bs] eqn:E2. cbn in IH |- *.
  rewrite IH. cbn [queue_answers]. destruct (queue_of r) as [|x q].
  - destruct A as [-> ->]. reflexivity.
  - destruct (Rle_dec x t); destruct A as [-> ->]; reflexivity.
Qed.

Lemma queue_step T t ts r : queue_mode (mode r) = true -> end_time r = None ->
  snd (run_request r (map (fun t => Ask t T) (t :: ts))) =
  queue_answers (queue_of (begin_step r T)) (t :: ts).
Proof.
  intros Hm He. destruct (begin_queue r T He) as (A & B & _).
  destruct (end_time (begin_step r T)) as [e|] eqn:Ee; [|congruence].
  rewrite <- (queue_run T (t :: ts) (begin_step r T) e); [|now rewrite mode_begin|exact Ee|exact B].
  cbn [map run_request]. rewrite !active_queue_mode by (rewrite ?mode_begin; exact Hm).
  rewrite (begin_done (begin_step r T) T e Ee). reflexivity.
Qed.

Lemma new_step_fields r s : end_time (new_step r s) = None /\ start_time (new_step r s) = s.
Proof. unfold new_step. destruct (mode r); split; reflexivity. Qed.

Lemma step_queue r hist s T ts targets :
  (match mode r with
   | NOutputs n => targets = linspace s (s + T) n
   | StepTimes l => targets = map (fun st => s + st) l
   | _ => False end) ->
  step_answers r hist s T ts = queue_answers targets ts.
Proof.
  intros Ht. unfold step_answers. cbn [run_request].
  set (r0 := fst (run_request r hist)).
  assert (Hm : mode (new_step r0 s) = mode r) by (rewrite mode_new_step; unfold r0; apply mode_run).
  destruct (new_step_fields r0 s) as [He Hs].
  destruct ts as [|t ts]; [reflexivity|].
  rewrite queue_step; [|rewrite Hm; destruct (mode r); try destruct Ht; reflexivity|exact He].
  destruct (begin_queue (new_step r0 s) T He) as (_ & _ & Q). rewrite Q, Hm, Hs.
  destruct (mode r); try destruct Ht; reflexivity.
Qed.

Lemma n_outputs_step n r hist s T ts : new_request (NOutputs n) = Some r ->
  step_answers r hist s T ts = queue_answers (linspace s (s + T) n) ts.
Proof. intros Hr. apply step_queue. injection Hr as <-. reflexivity. Qed.
Lemma step_times_step l r hist s T ts : new_request (StepTimes l) = Some r ->
  step_answers r hist s T ts = queue_answers (map (fun st => s + st) l) ts.
Proof. intros Hr. apply step_queue. injection Hr as <-. reflexivity. Qed.

(** Consequences of being a queue. *)
Lemma queue_never_early ts : forall q i x,
  nth_error (active_times ts (queue_answers q ts)) i = Some x ->
  exists y, nth_error q i = Some y /\ y <= x.
Proof.
  induction ts as [|t ts IH]; intros q i x H; cbn in H; [destruct i; discriminate|].
  destruct q as [|y q].
  - cbn in H. apply IH in H. exact H.
  - destruct (Rle_dec y t) as [Hle|Hn]; cbn in H.
    + destruct i as [|i]; cbn in H.
      * injection H as <-. exists y. split; [reflexivity|exact Hle].
      * apply IH in H. exact H.
    + apply IH in H. exact H.
Qed.
Lemma queue_count ts : forall q, (count_true (queue_answers q ts) <= length q)%nat.
Proof.
  induction ts as [|t ts IH]; intros q; [cbn; lia|]. cbn. destruct q as [|y q].
  - exact (IH []).
  - destruct (Rle_dec y t).
    + specialize (IH q). unfold count_true in *. cbn in *. lia.
    + specialize (IH (y :: q)). unfold count_true in *. cbn in *. lia.
Qed.

Lemma in_gap_tail t ts j x : in_gap (t :: ts) (S j) x <-> t < x /\ in_gap ts j x.
Proof.
  unfold in_gap. split.
  - intros [A B]. split; [apply (A 0%nat); [lia|reflexivity]|]. split.
    + intros i t' Hi Ht. apply (A (S i)); [lia|exact Ht].
    + exact B.
  - intros [Ht [A B]]. split; [|exact B]. intros [|i] t' Hi Ht'.
    + cbn in Ht'. injection Ht' as <-. exact Ht.
    + apply (A i); [lia|exact Ht'].
Qed.
Lemma in_gap_zero t ts x : in_gap (t :: ts) 0 x <-> x <= t.
Proof.
  unfold in_gap. split.
  - intros [_ (t' & Ht & Hx)]. cbn in Ht. injection Ht as <-. exact Hx.
  - intros Hx. split; [intros; lia|]. exists t. split; [reflexivity|exact Hx].
Qed.

Lemma queue_served ts : forall q, StronglySorted Rlt q ->
  (forall j x y, In x q -> In y q -> in_gap ts j x -> in_gap ts j y -> x = y) ->
  forall j b, nth_error (queue_answers q ts) j = Some b ->
  (b = true <-> exists x, In x q /\ in_gap ts j x).
Proof.
  induction ts as [|t ts IH]; intros q Hq Hg j b Hb; cbn in Hb; [destruct j; discriminate|].
  destruct q as [|x q].
  - assert (Hno : b = false).
    { destruct j as [|j]; cbn in Hb; [now injection Hb|].
      clear - Hb. revert j Hb. induction ts as [|t ts IH]; intros j Hb; cbn in Hb; [destruct j; discriminate|].
      destruct j as [|j]; cbn in Hb; [now injection Hb|]. eapply IH. exact Hb. }
    subst b. split; [discriminate|]. intros (x & [] & _).
  - inversion Hq as [|? ? Hq' Hx]; subst. rewrite Forall_forall in Hx.
    destruct (Rle_dec x t) as [Hle|Hn].
    + (* x is served now; all others are after t *)
      assert (Hrest : forall y, In y q -> t < y).
      { intros y Hy. destruct (Rlt_le_dec t y) as [|Hyt]; [assumption|].
        exfalso. assert (x = y).
        { apply (Hg 0%nat); [now left|now right|now apply in_gap_zero|now apply in_gap_zero]. }
        specialize (Hx y Hy). lra. }
      destruct j as [|j]; cbn in Hb.
      * injection Hb as <-. split; [|reflexivity]. intros _. exists x.
        split; [now left|now apply in_gap_zero].
      * rewrite (IH q Hq') with (j := j) (b := b); [| |exact Hb].
        -- split; intros (y & Hy & G); exists y.
           ++ split; [now right|]. apply in_gap_tail. split; [now apply Hrest|exact G].
           ++ apply in_gap_tail in G as [Hty G]. destruct Hy as [<-|Hy]; [lra|]. split; assumption.
        -- intros k y z Hy Hz Gy Gz. apply (Hg (S k)); [now right|now right| |];
             apply in_gap_tail; (split; [now apply Hrest|assumption]).
    + assert (Hall : forall y, In y (x :: q) -> t < y).
      { intros y [<-|Hy]; [lra|]. specialize (Hx y Hy). lra. }
      destruct j as [|j]; cbn in Hb.
      * injection Hb as <-. split; [discriminate|]. intros (y & Hy & G).
        apply in_gap_zero in G. specialize (Hall y Hy). lra.
      * rewrite (IH (x :: q) Hq) with (j := j) (b := b); [| |exact Hb].
        -- split; intros (y & Hy & G); exists y; (split; [exact Hy|]).
           ++ apply in_gap_tail. split; [now apply Hall|exact G].
           ++ now apply in_gap_tail in G as [_ G].
        -- intros k y z Hy Hz Gy Gz. apply (Hg (S k)); [assumption|assumption| |];
             apply in_gap_tail; (split; [now apply Hall|assumption]).
Qed.

Lemma linspace_spec a b n : length (linspace a b n) = n /\
  ((2 <= n)%nat -> forall i, (i < n)%nat ->
     nth_error (linspace a b n) i = Some (a + INR i * (b - a) / INR (n - 1))).
Proof.
  destruct n as [|[|n]]; [split; [reflexivity|intros; lia]|split; [reflexivity|intros; lia]|].
  unfold linspace. split; [now rewrite map_length, seq_length|].
  intros _ i Hi. rewrite nth_error_map.
  assert (E : nth_error (seq 0 (S (S n))) i = Some i).
  { rewrite nth_error_nth' with (d := 0%nat) by (rewrite seq_length; lia).
    now rewrite seq_nth by exact Hi. }
  rewrite E. cbn [option_map]. f_equal. unfold Rdiv. now rewrite Rmult_assoc.
Qed.

(** ** Global times *)
Lemma global_run os : forall r l, mode r = GlobalTimes l -> 
  (end_time r = None -> snd (run_request r os) = leaky_queue_answers (0 :: time_points r) true os) /\
  (end_time r <> None -> wf_queue r -> snd (run_request r os) = leaky_queue_answers (queue_of r) false os).
Proof.
  induction os as [|[t|t T] os IH]; intros r l Hm; [split; reflexivity| |].
  - cbn [run_request leaky_queue_answers].
    destruct (IH (new_step r t) l) as [A _]; [now rewrite mode_new_step|].
    destruct (new_step_fields r t) as [He _]. specialize (A He).
    assert (Htp : time_points (new_step r t) = time_points r).
    { unfold new_step. destruct (mode r); reflexivity. }
    rewrite Htp in A. split.
    + intros _. exact A.
    + intros _ Hw. rewrite A.
      (* only the tail of the queue matters when fresh *)
      assert (F : forall os x y q, leaky_queue_answers (x :: q) true os = leaky_queue_answers (y :: q) true os).
      { clear. induction os as [|[t|t T] os IH]; intros x y q; cbn; [reflexivity|apply IH|reflexivity]. }
      unfold queue_of. destruct (next_time r) as [x|] eqn:E; [apply F|].
      rewrite (Hw E).
      clear. induction os as [|[t|t T] os IH]; cbn; [reflexivity|exact IH|reflexivity].
  - cbn [run_request]. rewrite active_queue_mode by now rewrite Hm.
    assert (K : forall r0, mode r0 = GlobalTimes l -> end_time r0 <> None -> wf_queue r0 ->
      snd (let '(r1, b) := serve_next r0 t in let '(r2, bs) := run_request r1 os in (r2, b :: bs))
      = match queue_of r0 with
        | [] => false :: leaky_queue_answers [] false os
        | x :: q' => if Rle_dec x t then true :: leaky_queue_answers q' false os
                     else false :: leaky_queue_answers (x :: q') false os
        end).
    { intros r0 Hm0 He0 Hw0. destruct (serve_queue r0 t Hw0) as (A & B & C & D & _).
      destruct (serve_next r0 t) as [r1 b]. cbn [fst snd] in *.
      destruct (IH r1 l) as [_ Q]; [congruence|]. 
      assert (He1 : end_time r1 <> None) by congruence. specialize (Q He1 B).
      destruct (run_request r1 os) as [r2 bs]. cbn in Q |- *. rewrite Q.
      destruct (queue_of r0) as [|x q]; [destruct A as [-> ->]; reflexivity|].
      destruct (Rle_dec x t); destruct A as [-> ->]; reflexivity. }
    split.
    + intros He. destruct (begin_queue r T He) as (A & B & Q). rewrite K.
      * rewrite Q, Hm. cbn. reflexivity.
      * now rewrite mode_begin.
      * exact A.
      * exact B.
    + intros He Hw. destruct (end_time r) as [e|] eqn:Ee; [|congruence].
      rewrite (begin_done r T e Ee). rewrite K; [reflexivity|exact Hm|congruence|exact Hw].
Qed.

Lemma global_spec x l r os : new_request (GlobalTimes (x :: l)) = Some r ->
  snd (run_request r os) = leaky_queue_answers (x :: l) true os.
Proof.
  intros Hr. injection Hr as <-.
  destruct (global_run os (Request (GlobalTimes (x :: l)) 0 (Some x) l 0 None) (x :: l) eq_refl) as [A _].
  rewrite A by reflexivity. cbn [time_points].
  clear. revert x l. induction os as [|[t|t T] os IH]; intros x l; cbn; [reflexivity|apply IH|reflexivity].
Qed.
Lemma leaky_first_irrelevant x y l os :
  leaky_queue_answers (x :: l) true os = leaky_queue_answers (y :: l) true os.
Proof. induction os as [|[t|t T] os IH]; cbn; [reflexivity|exact IH|reflexivity]. Qed.
Lemma leaky_single x os : Forall (fun b => b = false) (leaky_queue_answers [x] true os).
Proof.
  induction os as [|[t|t T] os IH]; cbn; [constructor|exact IH|]. constructor; [reflexivity|].
  clear. assert (H : forall f, Forall (fun b => b = false) (leaky_queue_answers [] f os)).
  { induction os as [|[t|t T] os IH]; intros f; cbn; [constructor|apply IH|].
    destruct f; cbn; (constructor; [reflexivity|apply IH]). }
  apply H.
Qed.

(** Served targets: increasing positions in the list, never early. *)
Lemma leaky_never_early os : forall q fresh,
  exists served, length served = count_true (leaky_queue_answers q fresh os) /\
  (exists idx, StronglySorted lt idx /\ map (nth_error q) idx = map Some served) /\
  Forall2 Rle served (active_times (asks os) (leaky_queue_answers q fresh os)).
Proof.
  assert (Shift : forall (q : list R) x idx (served : list R), map (nth_error q) idx = map Some served ->
    map (nth_error (x :: q)) (map S idx) = map Some served).
  { intros q x idx served E. rewrite map_map. cbn. exact E. }
  assert (SS : forall idx, StronglySorted lt idx -> StronglySorted lt (map S idx)).
  { induction 1 as [|i idx Hs IH Hf]; cbn; [constructor|]. constructor; [exact IH|].
    apply Forall_map. eapply Forall_impl; [|exact Hf]. intros a Ha. cbn. lia. }
  induction os as [|[t|t T] os IH]; intros q fresh; cbn [leaky_queue_answers asks].
  - exists []. split; [reflexivity|]. split; [exists []; split; constructor|constructor].
  - apply IH.
  - assert (K : forall q', 
      exists served,
        length served = count_true (match q' with
          | [] => false :: leaky_queue_answers [] false os
          | x :: q0 => if Rle_dec x t then true :: leaky_queue_answers q0 false os
                       else false :: leaky_queue_answers (x :: q0) false os end) /\
        (exists idx, StronglySorted lt idx /\ map (nth_error q') idx = map Some served) /\
        Forall2 Rle served (active_times (t :: asks os) (match q' with
          | [] => false :: leaky_queue_answers [] false os
          | x :: q0 => if Rle_dec x t then true :: leaky_queue_answers q0 false os
                       else false :: leaky_queue_answers (x :: q0) false os end))).
    { intros [|x q'].
      - destruct (IH [] false) as (sv & A & B & C). exists sv. split; [exact A|]. split; [exact B|exact C].
      - destruct (Rle_dec x t) as [Hle|Hn].
        + destruct (IH q' false) as (sv & A & (idx & B1 & B2) & C). exists (x :: sv).
          split; [cbn; unfold count_true in *; cbn; lia|]. split.
          * exists (0%nat :: map S idx). split.
            -- constructor; [now apply SS|]. apply Forall_map. apply Forall_forall. intros; lia.
            -- cbn [map nth_error]. f_equal. now apply Shift.
          * cbn. constructor; [exact Hle|exact C].
        + destruct (IH (x :: q') false) as (sv & A & B & C). exists sv. split; [exact A|]. split; [exact B|exact C]. }
    destruct fresh; [|apply K].
    destruct q as [|x q]; [apply K|]. cbn [tl].
    destruct (K q) as (sv & A & (idx & B1 & B2) & C). exists sv. split; [exact A|]. split; [|exact C].
    exists (map S idx). split; [now apply SS|now apply Shift].
Qed.
