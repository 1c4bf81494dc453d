(** Proofs about the clock in double precision (C124). *)
From Coq Require Import List Bool Arith ZArith Reals Lia Lra Psatz.
From Flocq Require Import Core.
From Verif Require Import Py RoundModel RoundSpec RoundProofs RequestModel RequestSpec RequestProofs ClockModel ClockSpec.
Import ListNotations.
Local Open Scope R_scope.
Notation fmt := (generic_format radix2 (FLX_exp 53)).

(** ** Requests as queues *)
Lemma fmode_begin r m : mode (fbegin_step r m) = mode r.
Proof. unfold fbegin_step. destruct (end_time r); [ reflexivity | ]. destruct (take_next _). reflexivity. Qed.
Lemma fmode_active r t m : mode (fst (fis_active r t m)) = mode r.
Proof.
  unfold fis_active. destruct (mode r) eqn:E; try (rewrite mode_serve, fmode_begin; exact E).
  - destruct (Rltb _ _); cbn; auto.
  - destruct (next_time r) as [x|]; [ | auto ]. destruct (Rgeb t x); auto.
Qed.
Lemma fmode_run os : forall r, mode (fst (frun_request r os)) = mode r.
Proof.
  induction os as [|[t|t m] os IH]; intros r; [ reflexivity | | ].
  - cbn. rewrite IH. apply mode_new_step.
  - cbn. pose proof (fmode_active r t m) as A. destruct (fis_active r t m) as [r1 b]. cbn in A.
    specialize (IH r1). destruct (frun_request r1 os) as [r2 bs]. cbn in *. congruence.
Qed.
Definition ftargets (r : request) (T : R) : list R :=
  match mode r with
  | NOutputs n => flinspace (start_time r) (fl (start_time r + T)) n
  | StepTimes l => map (fun st => fl (start_time r + st)) l
  | _ => time_points r
  end.
Lemma fbegin_queue r T : end_time r = None ->
  end_time (fbegin_step r T) <> None /\ wf_queue (fbegin_step r T) /\ queue_of (fbegin_step r T) = ftargets r T.
Proof.
  intros He. unfold fbegin_step, wf_queue, queue_of. rewrite He. fold (ftargets r T).
  destruct (ftargets r T) as [|x l]; cbn; repeat split; try discriminate; auto.
Qed.
Lemma fbegin_done r T e : end_time r = Some e -> fbegin_step r T = r.
Proof. intros He. unfold fbegin_step. now rewrite He. Qed.
Lemma factive_queue_mode r t T : queue_mode (mode r) = true -> fis_active r t T = serve_next (fbegin_step r T) t.
Proof. unfold fis_active. destruct (mode r); cbn; intros; try discriminate; reflexivity. Qed.
Lemma fqueue_run T ts : forall r e, queue_mode (mode r) = true -> end_time r = Some e -> wf_queue r ->
  snd (frun_request r (map (fun t => Ask t T) ts)) = queue_answers (queue_of r) ts.
Proof.
  induction ts as [|t ts IH]; intros r e Hm He Hw; [ reflexivity | ].
  cbn [map frun_request]. rewrite factive_queue_mode, (fbegin_done r T e He) by exact Hm.
  destruct (serve_queue r t Hw) as (A & B & C & D & _).
  destruct (serve_next r t) as [r1 b] eqn:E. cbn [fst snd] in *.
  specialize (IH r1 e). rewrite C, D in IH. specialize (IH Hm He B).
  destruct (frun_request r1 (map (fun t => Ask t T) ts)) as [r2 bs] eqn:E2. cbn in IH |- *.
  rewrite IH. cbn [queue_answers]. destruct (queue_of r) as [|x q].
  - destruct A as [-> ->]. reflexivity.
  - destruct (Rle_dec x t); destruct A as [-> ->]; reflexivity.
Qed.
Lemma fstep_queue r hist s T ts targets :
  (match mode r with
   | NOutputs n => targets = flinspace s (fl (s + T)) n
   | StepTimes l => targets = map (fun st => fl (s + st)) l
   | _ => False end) ->
  fstep_answers r hist s T ts = queue_answers targets ts.
Proof.
  intros Ht. unfold fstep_answers. cbn [frun_request].
  set (r0 := fst (frun_request r hist)).
  assert (Hm : mode (new_step r0 s) = mode r) by (rewrite mode_new_step; unfold r0; apply fmode_run).
  destruct (new_step_fields r0 s) as [He Hs].
  destruct ts as [|t ts]; [ reflexivity | ].
  destruct (fbegin_queue (new_step r0 s) T He) as (A & B & Q).
  assert (Q' : queue_of (fbegin_step (new_step r0 s) T) = targets)
    by (rewrite Q; unfold ftargets; rewrite Hm, Hs; destruct (mode r); try destruct Ht; reflexivity).
  assert (K : queue_mode (mode (new_step r0 s)) = true) by (rewrite Hm; destruct (mode r); try destruct Ht; reflexivity).
  destruct (end_time (fbegin_step (new_step r0 s) T)) as [e|] eqn:Ee; [ | congruence ].
  rewrite <- Q', <- (fqueue_run T (t :: ts) (fbegin_step (new_step r0 s) T) e); [ | now rewrite fmode_begin | exact Ee | exact B ].
  cbn [map frun_request]. rewrite !factive_queue_mode by (rewrite ?fmode_begin; exact K).
  rewrite (fbegin_done (fbegin_step (new_step r0 s) T) T e Ee). reflexivity.
Qed.
Lemma fn_outputs n r hist s T ts : new_request (NOutputs n) = Some r ->
  fstep_answers r hist s T ts = queue_answers (flinspace s (fl (s + T)) n) ts.
Proof. intros Hr. apply fstep_queue. injection Hr as <-. reflexivity. Qed.
Lemma fstep_times l r hist s T ts : new_request (StepTimes l) = Some r ->
  fstep_answers r hist s T ts = queue_answers (map (fun st => fl (s + st)) l) ts.
Proof. intros Hr. apply fstep_queue. injection Hr as <-. reflexivity. Qed.
(** ** Time intervals *)
Fixpoint fcounter (x d : R) (ts : list R) : list bool :=
  match ts with
  | [] => []
  | t :: ts' => if Rle_dec x t then true :: fcounter (fl (x + d)) d ts' else false :: fcounter x d ts'
  end.
Lemma fcounter_run d T ts : forall r x, mode r = TimeInterval d -> next_time r = Some x ->
  snd (frun_request r (map (fun t => Ask t T) ts)) = fcounter x d ts.
Proof.
  induction ts as [|t ts IH]; intros r x Hm Hn; [ reflexivity | ]. cbn [map frun_request fcounter].
  unfold fis_active. rewrite Hm, Hn, Rgeb_dec. destruct (Rle_dec x t).
  - match goal with |- context [frun_request ?r1 (map ?f ts)] => specialize (IH r1 (fl (x + d)) eq_refl eq_refl); destruct (frun_request r1 (map f ts)) as [r2 bs] end.
    cbn [snd] in IH |- *. now rewrite IH.
  - specialize (IH r x Hm Hn). destruct (frun_request r (map (fun t => Ask t T) ts)) as [r2 bs]. cbn in *. now rewrite IH.
Qed.
Lemma ftime_interval d r hist s T ts : new_request (TimeInterval d) = Some r ->
  fstep_answers r hist s T ts = fcounter s d ts.
Proof.
  intros Hr. unfold fstep_answers. cbn [frun_request].
  assert (Hm : mode (fst (frun_request r hist)) = TimeInterval d) by (rewrite fmode_run; injection Hr as <-; reflexivity).
  apply fcounter_run; [ rewrite mode_new_step; exact Hm | unfold new_step; rewrite Hm; reflexivity ].
Qed.
Lemma fadded_length : forall n t dt, length (fadded t dt n) = n.
Proof. induction n; intros; cbn; [ reflexivity | rewrite IHn; reflexivity ]. Qed.
Lemma fcounter_every : forall n t dt, fmt t -> 0 <= dt -> fcounter t dt (fadded t dt n) = repeat true n.
Proof.
  induction n; intros t dt Ht Hd; [ reflexivity | ]. cbn.
  assert (t <= fl (t + dt)) by (rewrite <- (fl_id t Ht) at 1; apply fl_le; lra).
  destruct (Rle_dec t (fl (t + dt))); [ | contradiction ]. f_equal. apply IHn; [ apply fmt_fl | exact Hd ].
Qed.
(** ** Counting interval mode *)
Definition counted (v : R) (r : request) : Prop :=
  mode r = Interval v /\ (interval_count r = v \/ exists z, interval_count r = IZR z /\ (0 < z)%Z).
Lemma counted_new : forall v r, new_request (Interval v) = Some r -> counted v r.
Proof. intros v r H. injection H as <-. split; [ reflexivity | left; reflexivity ]. Qed.
Lemma counted_step : forall v r t, counted v r -> counted v (new_step r t).
Proof. intros v r t [M C]. unfold new_step. rewrite M. split; [ reflexivity | exact C ]. Qed.
Lemma counted_active : forall v r t T, v <= 2 ^ 52 -> counted v r -> fis_active r t T = is_active r t T /\ counted v (fst (is_active r t T)).
Proof.
  intros v r t T Hv [M C]. unfold fis_active, is_active. rewrite M. unfold Rltb. destruct (Rlt_dec (interval_count r) v).
  - destruct C as [C | (z & C & Hz)]; [ lra | ].
    assert (z < 2 ^ 52)%Z by (apply lt_IZR; rewrite <- C; rewrite pow_IZR in Hv; eapply Rlt_le_trans; [ eassumption | exact Hv ]).
    assert (E : fl (interval_count r + 1) = interval_count r + 1).
    { rewrite C, <- plus_IZR. apply fl_id, fmt_Z. lia. }
    rewrite E. split; [ reflexivity | ]. split; [ reflexivity | right ]. exists (z + 1)%Z. cbn. split; [ rewrite C, plus_IZR; reflexivity | lia ].
  - split; [ reflexivity | ]. split; [ reflexivity | right ]. exists 1%Z. split; [ reflexivity | lia ].
Qed.
Lemma counted_run : forall v os r, v <= 2 ^ 52 -> counted v r -> frun_request r os = run_request r os.
Proof.
  intros v os. induction os as [|[t|t T] os IH]; intros r Hv C; [ reflexivity | | ]; cbn [frun_request run_request].
  - apply IH; [ exact Hv | apply counted_step, C ].
  - destruct (counted_active v r t T Hv C) as [-> C']. destruct (is_active r t T) as [r1 b]. rewrite (IH r1 Hv C'). reflexivity.
Qed.

(** ** Queues that are served *)
Lemma count_cons : forall b bs, count_true (b :: bs) = ((if b then 1 else 0) + count_true bs)%nat.
Proof. intros [] bs; reflexivity. Qed.
Lemma queue_by : forall ts q i (g : nat -> nat),
  (forall k, (k <= i)%nat -> exists y t, nth_error q k = Some y /\ nth_error ts (g k) = Some t /\ y <= t) ->
  (forall k, (k < i)%nat -> (g k < g (S k))%nat) ->
  (S i <= count_true (firstn (S (g i)) (queue_answers q ts)))%nat.
Proof.
  induction ts as [|t ts IH]; intros q i g Hy Hg.
  { destruct (Hy 0%nat ltac:(lia)) as (y & t & _ & N & _). destruct (g 0%nat); discriminate. }
  assert (G : forall k, (k <= i)%nat -> (g 0%nat + k <= g k)%nat).
  { induction k; intros Hk; [ lia | ]. specialize (IHk ltac:(lia)). specialize (Hg k ltac:(lia)). lia. }
  destruct q as [|y q].
  { destruct (Hy 0%nat ltac:(lia)) as (y & t' & N & _). discriminate. }
  cbn [queue_answers]. destruct (Rle_dec y t) as [L | L]; cbn [firstn]; rewrite count_cons.
  - destruct i as [|i]; [ lia | ]. cbn [Nat.add]. apply le_n_S. pose proof (G (S i) ltac:(lia)).
    specialize (IH q i (fun k => g (S k) - 1)%nat). cbn in IH.
    replace (g (S i)) with (S (g (S i) - 1)) by lia. apply IH.
    + intros k Hk. destruct (Hy (S k) ltac:(lia)) as (y' & t' & N1 & N2 & L'). exists y', t'.
      split; [ exact N1 | ]. split; [ | exact L' ]. pose proof (G (S k) ltac:(lia)). destruct (g (S k)); [ lia | ]. cbn in N2 |- *. rewrite Nat.sub_0_r. exact N2.
    + intros k Hk. pose proof (Hg (S k) ltac:(lia)). pose proof (G (S k) ltac:(lia)). lia.
  - assert (P : (0 < g 0)%nat).
    { destruct (Hy 0%nat ltac:(lia)) as (y' & t' & N1 & N2 & L'). destruct (g 0%nat); [ | lia ]. cbn in N1, N2. injection N1 as <-. injection N2 as <-. contradiction. }
    cbn [Nat.add]. pose proof (G i ltac:(lia)). specialize (IH (y :: q) i (fun k => g k - 1)%nat). cbn in IH.
    replace (g i) with (S (g i - 1)) by lia. apply IH.
    + intros k Hk. destruct (Hy k Hk) as (y' & t' & N1 & N2 & L'). exists y', t'.
      split; [ exact N1 | ]. split; [ | exact L' ]. pose proof (G k Hk). destruct (g k); [ lia | ]. cbn in N2 |- *. rewrite Nat.sub_0_r. exact N2.
    + intros k Hk. pose proof (Hg k Hk). pose proof (G k ltac:(lia)). lia.
Qed.
Lemma count_firstn_le : forall bs a b, (a <= b)%nat -> (count_true (firstn a bs) <= count_true (firstn b bs))%nat.
Proof.
  induction bs as [|x bs IH]; intros a b H; [ destruct a, b; cbn; lia | ].
  destruct a; [ cbn; lia | ]. destruct b; [ lia | ]. cbn [firstn]. rewrite !count_cons. specialize (IH a b ltac:(lia)). lia.
Qed.
Lemma count_firstn_all : forall bs a, (count_true (firstn a bs) <= count_true bs)%nat.
Proof.
  induction bs as [|x bs IH]; intros a; [ destruct a; cbn; lia | ]. destruct a; [ cbn; lia | ]. cbn [firstn]. rewrite !count_cons. specialize (IH a). lia.
Qed.
Lemma queue_missed : forall ts q y, Forall (fun t => t < y) ts -> In y q -> (count_true (queue_answers q ts) < length q)%nat.
Proof.
  induction ts as [|t ts IH]; intros q y H Hy; [ destruct q; [ destruct Hy | cbn; lia ] | ].
  inversion H as [|? ? H1 H2]; subst. destruct q as [|x q]; [ destruct Hy | ]. cbn [queue_answers].
  destruct (Rle_dec x t); rewrite count_cons; cbn [Nat.add length].
  - destruct Hy as [-> | Hy]; [ lra | ]. specialize (IH q y H2 Hy). lia.
  - specialize (IH (x :: q) y H2 Hy). cbn [length] in IH. lia.
Qed.

(** ** How far the clock is off *)
Definition u : R := / 2 ^ 53.
Lemma fl_u : forall x, 0 <= x -> x * (1 - u) <= fl x <= x * (1 + u).
Proof. exact fl_between. Qed.
Lemma u_range : 0 < u <= / 1024.
Proof. unfold u. split; [ apply Rinv_0_lt_compat; lra | apply Rinv_le_contravar; lra ]. Qed.
Lemma pow_low : forall k, 0 <= (1 - u) ^ k <= 1.
Proof. pose proof u_range. intros k. split; [ apply pow_le; lra | ]. apply Rle_trans with (1 ^ k); [ apply pow_incr; lra | rewrite pow1; lra ]. Qed.
Lemma pow_high : forall k, 1 <= (1 + u) ^ k.
Proof. pose proof u_range. intros k. apply pow_R1_Rle. lra. Qed.
Lemma fadded_near : forall n t dt k x, 0 <= t -> 0 <= dt -> nth_error (fadded t dt n) k = Some x ->
  (t + INR (S k) * dt) * (1 - u) ^ S k <= x <= (t + INR (S k) * dt) * (1 + u) ^ S k.
Proof.
  induction n; intros t dt k x Ht Hd H; [ destruct k; discriminate | ]. cbn [fadded] in H.
  pose proof (fl_u (t + dt) ltac:(lra)) as B. pose proof u_range as U. destruct k as [|k].
  - injection H as <-. simpl. rewrite !Rmult_1_l, !Rmult_1_r. exact B.
  - cbn [nth_error] in H. assert (0 <= fl (t + dt)). { eapply Rle_trans; [ | apply B ]. apply Rmult_le_pos; lra. }
    specialize (IHn (fl (t + dt)) dt k x ltac:(assumption) Hd H). destruct IHn as [L1 L2].
    assert (K : 0 <= INR (S k) * dt) by (apply Rmult_le_pos; [ apply pos_INR | assumption ]).
    rewrite (S_INR (S k)). set (c := INR (S k) * dt) in *. replace (t + (INR (S k) + 1) * dt) with (t + dt + c) by (unfold c; ring).
    split.
    + eapply Rle_trans; [ | exact L1 ]. change ((1 - u) ^ S (S k)) with ((1 - u) * (1 - u) ^ S k). rewrite <- Rmult_assoc.
      apply Rmult_le_compat_r; [ apply pow_low | ]. nra.
    + eapply Rle_trans; [ exact L2 | ]. change ((1 + u) ^ S (S k)) with ((1 + u) * (1 + u) ^ S k). rewrite <- (Rmult_assoc _ (1 + u)).
      apply Rmult_le_compat_r; [ pose proof (pow_high (S k)); lra | ]. nra.
Qed.
Definition near (t0 p : R) (n : nat) (ts : list R) : Prop :=
  forall k x, nth_error ts k = Some x ->
  (t0 + INR (S k) * (p / INR n)) * (1 - u) ^ S (S (S k)) <= x <= (t0 + INR (S k) * (p / INR n)) * (1 + u) ^ S (S (S k)).
Lemma sub_step_between : forall p n, 0 <= p -> (0 < n)%nat -> 0 <= p / INR n /\ p / INR n * (1 - u) <= fsub_step p n <= p / INR n * (1 + u).
Proof.
  intros p n Hp Hn. assert (0 < INR n) by (apply lt_0_INR; assumption).
  assert (0 <= p / INR n) by (apply Rmult_le_pos; [ assumption | apply Rlt_le, Rinv_0_lt_compat; assumption ]).
  split; [ assumption | ]. apply fl_u. assumption.
Qed.
Lemma quasi_near : forall t0 p n, 0 <= t0 -> 0 <= p -> (0 < n)%nat -> near t0 p n (quasi_times t0 p n).
Proof.
  intros t0 p n Ht Hp Hn k x H. destruct (sub_step_between p n Hp Hn) as (D0 & D1 & D2). pose proof u_range as U.
  unfold quasi_times in H. apply fadded_near in H; [ | assumption | nra ]. set (d := p / INR n) in *. set (f := fsub_step p n) in *.
  pose proof (pos_INR (S k)) as K. set (c := INR (S k)) in *.
  assert (A : c * (d * (1 - u)) <= c * f) by (apply Rmult_le_compat_l; assumption).
  assert (B : c * f <= c * (d * (1 + u))) by (apply Rmult_le_compat_l; assumption).
  assert (C : 0 <= c * d) by (apply Rmult_le_pos; assumption).
  destruct H as [H1 H2]. split.
  - eapply Rle_trans; [ | exact H1 ].
    change ((1 - u) ^ S (S (S k))) with ((1 - u) * ((1 - u) * (1 - u) ^ S k)). rewrite <- 2 Rmult_assoc. apply Rmult_le_compat_r; [ apply pow_low | ].
    assert ((t0 + c * d) * (1 - u) <= t0 + c * f) by nra. assert (0 <= (t0 + c * d) * (1 - u)) by (apply Rmult_le_pos; lra). nra.
  - eapply Rle_trans; [ exact H2 | ].
    change ((1 + u) ^ S (S (S k))) with ((1 + u) * ((1 + u) * (1 + u) ^ S k)). rewrite <- 2 (Rmult_assoc _ (1 + u)).
    apply Rmult_le_compat_r; [ pose proof (pow_high (S k)); lra | ]. assert (t0 + c * f <= (t0 + c * d) * (1 + u)) by nra. assert (0 <= (t0 + c * d) * (1 + u)) by (apply Rmult_le_pos; lra). nra.
Qed.
Lemma nth_error_map_seq : forall (f : nat -> R) n k x, nth_error (map f (seq 0 n)) k = Some x -> (k < n)%nat /\ x = f k.
Proof.
  intros f n k x H. assert (k < n)%nat. { assert (N : nth_error (map f (seq 0 n)) k <> None) by congruence. apply nth_error_Some in N. rewrite map_length, seq_length in N. exact N. }
  split; [ assumption | ]. rewrite nth_error_map in H. rewrite (nth_error_nth' (seq 0 n) 0%nat) in H by (rewrite seq_length; assumption).
  rewrite seq_nth in H by assumption. cbn in H. congruence.
Qed.
Lemma nth_error_map_seq_in : forall (f : nat -> R) n k, (k < n)%nat -> nth_error (map f (seq 0 n)) k = Some (f k).
Proof.
  intros f n k H. rewrite nth_error_map. rewrite (nth_error_nth' (seq 0 n) 0%nat) by (rewrite seq_length; assumption).
  rewrite seq_nth by assumption. reflexivity.
Qed.
Lemma lub_near : forall t0 p n, 0 <= t0 -> 0 <= p -> (0 < n)%nat -> near t0 p n (lub_times t0 p n).
Proof.
  intros t0 p n Ht Hp Hn k x H. destruct (sub_step_between p n Hp Hn) as (D0 & D1 & D2). pose proof u_range as U.
  unfold lub_times in H. apply nth_error_map_seq in H. destruct H as [Hk ->]. set (d := p / INR n) in *. set (f := fsub_step p n) in *.
  pose proof (pos_INR (S k)) as K. set (c := INR (S k)) in *.
  assert (A : c * (d * (1 - u)) <= c * f) by (apply Rmult_le_compat_l; assumption).
  assert (B : c * f <= c * (d * (1 + u))) by (apply Rmult_le_compat_l; assumption).
  assert (C : 0 <= c * d) by (apply Rmult_le_pos; assumption).
  pose proof (fl_u (c * f) ltac:(nra)) as [E1 E2].
  assert (F1 : c * d * (1 - u) * (1 - u) <= fl (c * f)) by nra.
  assert (F2 : fl (c * f) <= c * d * (1 + u) * (1 + u)) by nra.
  assert (F0 : 0 <= c * d * (1 - u) * (1 - u)) by (apply Rmult_le_pos; [ apply Rmult_le_pos | ]; lra).
  assert (F3 : 0 <= t0 + fl (c * f)) by (clear - F0 F1 Ht; lra).
  pose proof (fl_u (t0 + fl (c * f)) F3) as [G1 G2].
  assert (U1 : 0 <= (1 - u) * (1 - u) <= 1) by (clear - U; split; [ apply Rmult_le_pos; lra | nra ]). assert (U2 : 1 <= (1 + u) * (1 + u)) by (clear - U; nra).
  assert (T1 : t0 * ((1 - u) * (1 - u)) <= t0) by (clear - U1 Ht; nra). assert (T2 : t0 <= t0 * ((1 + u) * (1 + u))) by (clear - U2 Ht; nra).
  assert (X : 0 <= t0 + c * d) by lra. split.
  - eapply Rle_trans; [ | exact G1 ].
    replace ((t0 + c * d) * (1 - u) ^ S (S (S k))) with ((t0 + c * d) * ((1 - u) * (1 - u)) * (1 - u) * (1 - u) ^ k) by (simpl; ring).
    assert (Y : 0 <= (t0 + c * d) * ((1 - u) * (1 - u))) by (repeat apply Rmult_le_pos; lra).
    assert (Z : (t0 + c * d) * ((1 - u) * (1 - u)) * (1 - u) <= (t0 + fl (c * f)) * (1 - u)) by (apply Rmult_le_compat_r; lra).
    eapply Rle_trans; [ | exact Z ]. rewrite <- (Rmult_1_r ((t0 + c * d) * ((1 - u) * (1 - u)) * (1 - u))) at 2.
    apply Rmult_le_compat_l; [ apply Rmult_le_pos; lra | apply pow_low ].
  - eapply Rle_trans; [ exact G2 | ].
    replace ((t0 + c * d) * (1 + u) ^ S (S (S k))) with ((t0 + c * d) * ((1 + u) * (1 + u)) * (1 + u) * (1 + u) ^ k) by (simpl; ring).
    assert (Z : (t0 + fl (c * f)) * (1 + u) <= (t0 + c * d) * ((1 + u) * (1 + u)) * (1 + u)) by (apply Rmult_le_compat_r; lra).
    eapply Rle_trans; [ exact Z | ]. rewrite <- (Rmult_1_r ((t0 + c * d) * ((1 + u) * (1 + u)) * (1 + u))) at 1.
    apply Rmult_le_compat_l; [ repeat apply Rmult_le_pos; lra | apply pow_high ].
Qed.
Lemma bernoulli_low : forall k, 1 - INR k * u <= (1 - u) ^ k.
Proof.
  pose proof u_range as U. induction k; [ simpl; lra | ]. rewrite S_INR. change ((1 - u) ^ S k) with ((1 - u) * (1 - u) ^ k).
  pose proof (pos_INR k). assert (0 <= INR k * u) by (apply Rmult_le_pos; lra). nra.
Qed.
Lemma bernoulli_high : forall k, INR k * u <= / 2 -> (1 + u) ^ k <= 1 + 2 * (INR k * u).
Proof.
  pose proof u_range as U. induction k; intros H; [ simpl; lra | ]. rewrite S_INR in *. change ((1 + u) ^ S k) with ((1 + u) * (1 + u) ^ k).
  pose proof (pos_INR k). assert (0 <= INR k * u) by (apply Rmult_le_pos; lra). assert (IH : (1 + u) ^ k <= 1 + 2 * (INR k * u)) by (apply IHk; lra). nra.
Qed.
Lemma near_linear : forall t0 p n ts k x, near t0 p n ts -> 0 <= t0 + INR (S k) * (p / INR n) -> INR (k + 3) <= 2 ^ 52 -> nth_error ts k = Some x ->
  Rabs (x - (t0 + INR (S k) * (p / INR n))) <= INR (k + 3) / 2 ^ 52 * (t0 + INR (S k) * (p / INR n)).
Proof.
  intros t0 p n ts k x H Hp Hk E. apply H in E. destruct E as [E1 E2]. set (a := t0 + INR (S k) * (p / INR n)) in *.
  replace (S (S (S k))) with (k + 3)%nat in * by lia. pose proof (bernoulli_low (k + 3)) as L.
  assert (Q : INR (k + 3) / 2 ^ 52 = 2 * (INR (k + 3) * u)) by (unfold u; change (2 ^ 53) with (2 * 2 ^ 52); field).
  assert (HH : INR (k + 3) * u <= / 2) by (unfold u; change (2 ^ 53) with (2 * 2 ^ 52); apply (Rmult_le_reg_r (2 * 2 ^ 52)); [ lra | ]; replace (INR (k + 3) * / (2 * 2 ^ 52) * (2 * 2 ^ 52)) with (INR (k + 3)) by field; lra).
  pose proof (bernoulli_high (k + 3) HH) as G. pose proof (pos_INR (k + 3)). assert (0 <= INR (k + 3) * u) by (apply Rmult_le_pos; [ assumption | pose proof u_range; lra ]).
  rewrite Q. apply Rabs_le. split; nra.
Qed.

(** ** Evenly spaced outputs *)
Lemma flinspace_nth : forall a b m i, (2 <= m)%nat -> (i < m - 1)%nat ->
  nth_error (flinspace a b m) i = Some (fl (fl (INR i * fl (fl (b - a) / INR (m - 1))) + a)).
Proof.
  intros a b m i Hm Hi. unfold flinspace. destruct m as [|[|m]]; [ lia .. | ].
  rewrite nth_error_map_seq_in by lia. destruct (Nat.eqb_spec (S i) (S (S m))); [ lia | reflexivity ].
Qed.
Lemma flinspace_last : forall a b m, (2 <= m)%nat -> In b (flinspace a b m).
Proof.
  intros a b m Hm. apply nth_error_In with (m - 1)%nat. unfold flinspace. destruct m as [|[|m]]; [ lia .. | ].
  rewrite nth_error_map_seq_in by lia. destruct (Nat.eqb_spec (S (S (S m) - 1)) (S (S m))); [ reflexivity | lia ].
Qed.
Lemma flinspace_length : forall a b m, length (flinspace a b m) = m.
Proof. intros a b [|[|m]]; [ reflexivity .. | ]. unfold flinspace. rewrite map_length, seq_length. reflexivity. Qed.
Lemma flinspace_high : forall t0 p m i, fmt t0 -> 0 <= t0 -> 0 <= p -> (2 <= m)%nat -> (i < m - 1)%nat ->
  exists y, nth_error (flinspace t0 (fl (t0 + p)) m) i = Some y /\ y <= t0 + INR i * (p / INR (m - 1)) + 6 * u * (t0 + p).
Proof.
  intros t0 p m i Ft Ht Hp Hm Hi. pose proof u_range as U. eexists. split; [ apply flinspace_nth; assumption | ].
  assert (M : 0 < INR (m - 1)) by (apply lt_0_INR; lia). pose proof (Rinv_0_lt_compat _ M) as M'.
  pose proof (pos_INR i) as I0. assert (I1 : INR i <= INR (m - 1)) by (apply le_INR; lia).
  assert (Q : 0 <= INR i * / INR (m - 1) <= 1).
  { split; [ apply Rmult_le_pos; lra | ]. apply (Rmult_le_reg_r (INR (m - 1))); [ exact M | ]. rewrite Rmult_assoc, Rinv_l by lra. lra. }
  set (e := fl (t0 + p)). destruct (fl_u (t0 + p) ltac:(lra)) as [_ E2]. fold e in E2.
  assert (E1 : t0 <= e) by (rewrite <- (fl_id t0 Ft); apply fl_le; lra).
  destruct (fl_u (e - t0) ltac:(lra)) as [_ D2]. set (dl := fl (e - t0)) in *.
  assert (D1 : 0 <= dl) by (rewrite <- fl_0; apply fl_le; lra).
  assert (S0 : 0 <= dl / INR (m - 1)) by (apply Rmult_le_pos; lra).
  destruct (fl_u (dl / INR (m - 1)) S0) as [_ S2]. set (st := fl (dl / INR (m - 1))) in *.
  assert (S1 : 0 <= st) by (rewrite <- fl_0; apply fl_le; lra).
  assert (P0 : 0 <= INR i * st) by (apply Rmult_le_pos; lra).
  destruct (fl_u (INR i * st) P0) as [_ P2]. set (pr := fl (INR i * st)) in *.
  assert (P1 : 0 <= pr) by (rewrite <- fl_0; apply fl_le; lra).
  destruct (fl_u (pr + t0) ltac:(lra)) as [_ Y2]. set (E := t0 + p) in *.
  assert (HE : 0 <= E) by (unfold E; lra). set (q := INR i * / INR (m - 1)) in *.
  assert (B1 : dl <= (p + E * u) * (1 + u)). { eapply Rle_trans; [ exact D2 | ]. apply Rmult_le_compat_r; [ lra | ]. unfold E in *. lra. }
  assert (B2 : INR i * st <= q * dl * (1 + u)). { replace (q * dl * (1 + u)) with (INR i * (dl / INR (m - 1) * (1 + u))) by (unfold q; field; lra). apply Rmult_le_compat_l; assumption. }
  assert (B3 : pr <= q * dl * (1 + u) * (1 + u)). { eapply Rle_trans; [ exact P2 | ]. apply Rmult_le_compat_r; lra. }
  assert (B4 : q * dl <= q * ((p + E * u) * (1 + u))) by (apply Rmult_le_compat_l; lra).
  assert (B5 : pr <= q * ((p + E * u) * (1 + u)) * (1 + u) * (1 + u)). { eapply Rle_trans; [ exact B3 | ]. apply Rmult_le_compat_r; [ lra | ]. apply Rmult_le_compat_r; lra. }
  eapply Rle_trans; [ exact Y2 | ].
  assert (B6 : (pr + t0) * (1 + u) <= (q * ((p + E * u) * (1 + u)) * (1 + u) * (1 + u) + t0) * (1 + u)) by (apply Rmult_le_compat_r; lra).
  eapply Rle_trans; [ exact B6 | ].
  replace (INR i * (p / INR (m - 1))) with (q * p) by (unfold q; field; lra).
  assert (V : (1 + u) * (1 + u) * (1 + u) * (1 + u) <= 1 + 4 * u + u / 8). { clear - U. assert (0 <= u * u <= u / 1024) by nra. assert (0 <= u * u * u <= u / 1024) by nra. assert (0 <= u * u * u * u <= u / 1024) by nra. nra. }
  assert (V1 : 1 <= (1 + u) * (1 + u) * (1 + u) * (1 + u)). { change (1 <= (1 + u) * (1 + u) * (1 + u) * (1 + u)). replace ((1 + u) * (1 + u) * (1 + u) * (1 + u)) with ((1 + u) ^ 4) by ring. apply pow_high. }
  set (w := (1 + u) * (1 + u) * (1 + u) * (1 + u)) in *.
  replace ((q * ((p + E * u) * (1 + u)) * (1 + u) * (1 + u) + t0) * (1 + u)) with (q * (p + E * u) * w + t0 * (1 + u)) by (unfold w; ring).
  assert (Hpu : 0 <= E * u) by (apply Rmult_le_pos; lra).
  assert (C1 : q * (p + E * u) * w = q * p + q * p * (w - 1) + q * (E * u) * w) by ring.
  assert (C2 : q * p * (w - 1) <= p * (4 * u + u / 8)). { apply Rmult_le_compat; [ apply Rmult_le_pos; lra | lra | | lra ]. rewrite <- (Rmult_1_l p) at 2. apply Rmult_le_compat_r; lra. }
  assert (C3 : q * (E * u) * w <= E * u * (1 + / 8)).
  { apply Rmult_le_compat; [ apply Rmult_le_pos; lra | lra | | lra ]. rewrite <- (Rmult_1_l (E * u)) at 2. apply Rmult_le_compat_r; lra. }
  assert (C4 : 0 <= t0 * u) by (apply Rmult_le_pos; lra). assert (C5 : 0 <= p * u) by (apply Rmult_le_pos; lra).
  assert (C6 : E * u = t0 * u + p * u) by (unfold E; ring). replace (6 * u * E) with (6 * (E * u)) by ring.
  rewrite C1. lra.
Qed.
Definition slot (n m k : nat) : nat := ((k * n + (m - 2)) / (m - 1))%nat.
Lemma slot_ge : forall n m k, (2 <= m)%nat -> (k * n <= slot n m k * (m - 1))%nat.
Proof. intros n m k Hm. unfold slot. pose proof (Nat.mod_upper_bound (k * n + (m - 2)) (m - 1) ltac:(lia)). pose proof (Nat.div_mod (k * n + (m - 2)) (m - 1) ltac:(lia)). nia. Qed.
Lemma slot_le : forall n m k c, (2 <= m)%nat -> (k * n <= c * (m - 1))%nat -> (slot n m k <= c)%nat.
Proof.
  intros n m k c Hm H. unfold slot. apply Nat.lt_succ_r. apply Nat.div_lt_upper_bound; [ lia | ]. nia.
Qed.
Lemma slot_mono : forall n m k, (2 <= m)%nat -> (m - 1 <= n)%nat -> (slot n m k < slot n m (S k))%nat.
Proof.
  intros n m k Hm Hn. apply Nat.lt_le_trans with (S (slot n m k)); [ lia | ].
  unfold slot. replace (S k * n + (m - 2))%nat with ((k * n + (m - 2)) + n)%nat by lia.
  apply Nat.le_trans with ((k * n + (m - 2) + 1 * (m - 1)) / (m - 1))%nat; [ rewrite Nat.div_add by lia; lia | apply Nat.div_le_mono; lia ].
Qed.
Lemma near_serve : forall t0 p n ts m i c, near t0 p n ts -> length ts = n -> fmt t0 -> 0 <= t0 -> 0 <= p ->
  INR n * INR (n + 8) * (t0 + p) <= 2 ^ 53 * p -> (2 <= m)%nat -> (m - 1 <= n)%nat -> (i < m - 1)%nat -> (c < n)%nat -> (i * n <= c * (m - 1))%nat ->
  (S i <= count_true (firstn (S c) (queue_answers (flinspace t0 (fl (t0 + p)) m) ts)))%nat.
Proof.
  intros t0 p n ts m i c Hnear Hlen Ft Ht Hp Hc Hm Hmn Hi Hcn Hic.
  apply Nat.le_trans with (count_true (firstn (S (slot n m i)) (queue_answers (flinspace t0 (fl (t0 + p)) m) ts))).
  2:{ apply count_firstn_le. apply le_n_S. apply slot_le; assumption. }
  apply queue_by; [ | intros; apply slot_mono; assumption ].
  intros k Hk. destruct (flinspace_high t0 p m k Ft Ht Hp Hm ltac:(lia)) as (y & Ny & Hy).
  pose proof (slot_ge n m k Hm) as G. assert (L : (slot n m k < n)%nat) by (apply Nat.le_lt_trans with c; [ apply slot_le; [ assumption | nia ] | assumption ]).
  set (g := slot n m k) in *. destruct (nth_error ts g) as [x|] eqn:Ex; [ | apply nth_error_None in Ex; lia ].
  exists y, x. split; [ exact Ny | ]. split; [ reflexivity | ]. destruct (Hnear g x Ex) as [X _].
  pose proof u_range as U. assert (N : 0 < INR n) by (apply lt_0_INR; lia). assert (M : 0 < INR (m - 1)) by (apply lt_0_INR; lia).
  assert (K : INR k * (p / INR (m - 1)) <= INR g * (p / INR n)).
  { apply le_INR in G. rewrite !mult_INR in G. apply (Rmult_le_reg_r (INR n * INR (m - 1))); [ apply Rmult_lt_0_compat; assumption | ].
    replace (INR k * (p / INR (m - 1)) * (INR n * INR (m - 1))) with (INR k * INR n * p) by (field; lra).
    replace (INR g * (p / INR n) * (INR n * INR (m - 1))) with (INR g * INR (m - 1) * p) by (field; lra). apply Rmult_le_compat_r; assumption. }
  assert (D0 : 0 <= p / INR n) by (apply Rmult_le_pos; [ assumption | apply Rlt_le, Rinv_0_lt_compat; assumption ]).
  assert (D1 : INR (S g) * (p / INR n) <= p).
  { apply Rle_trans with (INR n * (p / INR n)); [ apply Rmult_le_compat_r; [ assumption | apply le_INR; lia ] | right; field; lra ]. }
  rewrite S_INR in X, D1. pose proof (bernoulli_low (S (S (S g)))) as B.
  assert (B' : 1 - INR (n + 2) * u <= (1 - u) ^ S (S (S g))).
  { eapply Rle_trans; [ | exact B ]. assert (INR (S (S (S g))) <= INR (n + 2)) by (apply le_INR; lia). assert (INR (S (S (S g))) * u <= INR (n + 2) * u) by (apply Rmult_le_compat_r; lra). lra. }
  set (a := t0 + (INR g + 1) * (p / INR n)) in *. assert (A0 : 0 <= a) by (unfold a; pose proof (pos_INR g); assert (0 <= (INR g + 1) * (p / INR n)) by (apply Rmult_le_pos; lra); lra).
  assert (A1 : a <= t0 + p) by (unfold a; lra).
  assert (F : a - (t0 + p) * (INR (n + 2) * u) <= x).
  { eapply Rle_trans; [ | exact X ]. eapply Rle_trans; [ | apply Rmult_le_compat_l; [ exact A0 | exact B' ] ].
    assert (W : 0 <= INR (n + 2) * u) by (apply Rmult_le_pos; [ apply pos_INR | lra ]). assert (a * (INR (n + 2) * u) <= (t0 + p) * (INR (n + 2) * u)) by (apply Rmult_le_compat_r; assumption). lra. }
  assert (Z : (t0 + p) * (INR (n + 8) * u) <= p / INR n).
  { apply (Rmult_le_reg_r (INR n * 2 ^ 53)); [ apply Rmult_lt_0_compat; [ assumption | apply pow_lt; lra ] | ].
    replace (p / INR n * (INR n * 2 ^ 53)) with (2 ^ 53 * p) by (field; lra). unfold u.
    replace ((t0 + p) * (INR (n + 8) * / 2 ^ 53) * (INR n * 2 ^ 53)) with (INR n * INR (n + 8) * (t0 + p)) by (field; apply pow_nonzero; lra). exact Hc. }
  rewrite !plus_INR in *. unfold a in F. assert (EQ : (t0 + p) * ((INR n + INR 8) * u) = (t0 + p) * ((INR n + INR 2) * u) + 6 * u * (t0 + p)) by (simpl; ring).
  rewrite EQ in Z. rewrite Rmult_plus_distr_r, Rmult_1_l in F. lra.
Qed.
Lemma quasi_length : forall t0 p n, length (quasi_times t0 p n) = n.
Proof. intros. apply fadded_length. Qed.
Lemma lub_length : forall t0 p n, length (lub_times t0 p n) = n.
Proof. intros. unfold lub_times. rewrite map_length, seq_length. reflexivity. Qed.

(** ** Times with few digits *)
Lemma fl_whole : forall e x, whole e x -> small e x -> fl x = x.
Proof.
  intros e x [z ->] H. apply fl_id. apply double_fmt. exists z, e. split; [ reflexivity | ].
  unfold small in H. rewrite Rabs_mult, (Rabs_pos_eq (bpow radix2 e)) in H by apply bpow_ge_0. rewrite Z.add_comm, bpow_plus in H.
  apply Rmult_lt_reg_r in H; [ | apply bpow_gt_0 ]. rewrite <- abs_IZR in H. apply lt_IZR. rewrite (IZR_pow2 53) by lia. exact H.
Qed.
Lemma whole_plus : forall e x y, whole e x -> whole e y -> whole e (x + y).
Proof. intros e x y [a ->] [b ->]. exists (a + b)%Z. rewrite plus_IZR. ring. Qed.
Lemma whole_minus : forall e x y, whole e x -> whole e y -> whole e (x - y).
Proof. intros e x y [a ->] [b ->]. exists (a - b)%Z. rewrite minus_IZR. ring. Qed.
Lemma whole_nat : forall e x n, whole e x -> whole e (INR n * x).
Proof. intros e x n [a ->]. exists (Z.of_nat n * a)%Z. rewrite mult_IZR, INR_IZR_INZ. ring. Qed.
Lemma small_le : forall e x y, 0 <= x <= y -> small e y -> small e x.
Proof. intros e x y H S. unfold small in *. rewrite Rabs_pos_eq in * by lra. lra. Qed.
Lemma fadded_exact : forall e n t dt, whole e t -> whole e dt -> 0 <= t -> 0 <= dt -> small e (t + INR n * dt) ->
  fadded t dt n = map (fun i => t + INR (S i) * dt) (seq 0 n).
Proof.
  intros e n. induction n; intros t dt Wt Wd Ht Hd Hs; [ reflexivity | ]. cbn [fadded seq map]. rewrite S_INR in Hs. pose proof (pos_INR n).
  assert (P : 0 <= INR n * dt) by (apply Rmult_le_pos; assumption).
  assert (E : fl (t + dt) = t + dt). { apply (fl_whole e); [ apply whole_plus; assumption | apply (small_le e) with (t + (INR n + 1) * dt); [ lra | exact Hs ] ]. }
  rewrite E. f_equal; [ simpl; ring | ].
  rewrite IHn; [ | apply whole_plus; assumption | assumption | lra | assumption | replace (t + dt + INR n * dt) with (t + (INR n + 1) * dt) by ring; exact Hs ].
  rewrite <- seq_shift, map_map. apply map_ext. intros i. rewrite !S_INR. ring.
Qed.
Lemma sub_step_exact : forall e p n, (0 < n)%nat -> 0 <= p -> whole e (p / INR n) -> small e p -> fsub_step p n = p / INR n.
Proof.
  intros e p n Hn Hp W S. apply (fl_whole e); [ exact W | ]. apply (small_le e) with p; [ | exact S ].
  assert (1 <= INR n) by (apply (le_INR 1); lia). split; [ apply Rmult_le_pos; [ assumption | apply Rlt_le, Rinv_0_lt_compat; lra ] | ].
  apply (Rmult_le_reg_r (INR n)); [ lra | ]. unfold Rdiv. rewrite Rmult_assoc, Rinv_l by lra. nra.
Qed.
Lemma quasi_exact : forall e t0 p n, (0 < n)%nat -> 0 <= t0 -> 0 <= p -> whole e t0 -> whole e (p / INR n) -> small e (t0 + p) ->
  quasi_times t0 p n = even_times t0 p n.
Proof.
  intros e t0 p n Hn Ht Hp Wt Wd Hs. unfold quasi_times, even_times. assert (0 < INR n) by (apply lt_0_INR; assumption).
  rewrite (sub_step_exact e) by (first [ assumption | apply (small_le e) with (t0 + p); [ lra | assumption ] ]).
  apply (fadded_exact e); try assumption; [ apply Rmult_le_pos; [ assumption | apply Rlt_le, Rinv_0_lt_compat; assumption ] | ].
  replace (INR n * (p / INR n)) with p by (field; lra). assumption.
Qed.
Lemma lub_exact : forall e t0 p n, (0 < n)%nat -> 0 <= t0 -> 0 <= p -> whole e t0 -> whole e (p / INR n) -> small e (t0 + p) ->
  lub_times t0 p n = even_times t0 p n.
Proof.
  intros e t0 p n Hn Ht Hp Wt Wd Hs. unfold lub_times, even_times. assert (N : 0 < INR n) by (apply lt_0_INR; assumption).
  rewrite (sub_step_exact e) by (first [ assumption | apply (small_le e) with (t0 + p); [ lra | assumption ] ]).
  apply map_ext_in. intros i Hi. apply in_seq in Hi.
  assert (D0 : 0 <= p / INR n) by (apply Rmult_le_pos; [ assumption | apply Rlt_le, Rinv_0_lt_compat; assumption ]).
  assert (D1 : 0 <= INR (S i) * (p / INR n) <= p).
  { split; [ apply Rmult_le_pos; [ apply pos_INR | assumption ] | ]. apply Rle_trans with (INR n * (p / INR n)); [ apply Rmult_le_compat_r; [ assumption | apply le_INR; lia ] | right; field; lra ]. }
  rewrite (fl_whole e (INR (S i) * (p / INR n))); [ | apply whole_nat, Wd | apply (small_le e) with (t0 + p); [ lra | assumption ] ].
  apply (fl_whole e); [ apply whole_plus; [ assumption | apply whole_nat, Wd ] | apply (small_le e) with (t0 + p); [ lra | assumption ] ].
Qed.
Lemma flinspace_exact : forall e t0 p m, 0 <= t0 -> 0 <= p -> whole e t0 -> ((2 <= m)%nat -> whole e (p / INR (m - 1))) -> small e (t0 + p) ->
  flinspace t0 (fl (t0 + p)) m = linspace t0 (t0 + p) m.
Proof.
  intros e t0 p m Ht Hp Wt Wp Hs. unfold flinspace, linspace. destruct m as [|[|m]]; [ reflexivity .. | ].
  specialize (Wp ltac:(lia)). set (M := (S (S m) - 1)%nat) in *. assert (HM : (0 < M)%nat) by (unfold M; lia). assert (N : 0 < INR M) by (apply lt_0_INR; assumption).
  assert (W : whole e p) by (replace p with (INR M * (p / INR M)) by (field; lra); apply whole_nat, Wp).
  rewrite (fl_whole e (t0 + p)) by (try apply whole_plus; assumption).
  replace (t0 + p - t0) with p by ring. rewrite (fl_whole e p) by (first [ assumption | apply (small_le e) with (t0 + p); [ lra | assumption ] ]).
  change (fl (p / INR M)) with (fsub_step p M). rewrite (sub_step_exact e) by (first [ assumption | apply (small_le e) with (t0 + p); [ lra | assumption ] ]).
  apply map_ext_in. intros i Hi. apply in_seq in Hi. destruct (Nat.eqb_spec (S i) (S (S m))) as [E | E].
  - replace i with M by (unfold M; lia). field. lra.
  - assert (D0 : 0 <= p / INR M) by (apply Rmult_le_pos; [ assumption | apply Rlt_le, Rinv_0_lt_compat; assumption ]).
    assert (D1 : 0 <= INR i * (p / INR M) <= p).
    { split; [ apply Rmult_le_pos; [ apply pos_INR | assumption ] | ]. apply Rle_trans with (INR M * (p / INR M)); [ apply Rmult_le_compat_r; [ assumption | apply le_INR; unfold M; lia ] | right; field; lra ]. }
    rewrite (fl_whole e (INR i * (p / INR M))); [ | apply whole_nat, Wp | apply (small_le e) with (t0 + p); [ lra | assumption ] ].
    rewrite Rplus_comm. apply (fl_whole e); [ apply whole_plus; [ assumption | apply whole_nat, Wp ] | apply (small_le e) with (t0 + p); [ lra | assumption ] ].
Qed.
Lemma fcounter_exact : forall e s d top ts, whole e s -> whole e d -> 0 <= s -> 0 <= d -> Forall (fun t => t <= top) ts -> small e (top + d) ->
  forall m, fcounter (s + INR m * d) d ts = counter_answers s d m ts.
Proof.
  intros e s d top ts Ws Wd H0 Hd Hts Hs. induction Hts as [|t ts Ht Hts IH]; intros m; [ reflexivity | ]. cbn [fcounter counter_answers].
  destruct (Rle_dec (s + INR m * d) t); [ | rewrite IH; reflexivity ].
  rewrite <- IH. do 2 f_equal. rewrite S_INR. replace (s + (INR m + 1) * d) with (s + INR m * d + d) by ring.
  apply (fl_whole e); [ apply whole_plus; [ apply whole_plus; [ assumption | apply whole_nat, Wd ] | assumption ] | ].
  pose proof (pos_INR m). assert (0 <= INR m * d) by (apply Rmult_le_pos; assumption). apply (small_le e) with (top + d); [ lra | assumption ].
Qed.
Lemma even_top : forall t0 p n, (0 < n)%nat -> 0 <= p -> Forall (fun t => t <= t0 + p) (even_times t0 p n).
Proof.
  intros t0 p n Hn Hp. apply Forall_forall. intros x H. apply in_map_iff in H. destruct H as (i & <- & Hi). apply in_seq in Hi.
  assert (N : 0 < INR n) by (apply lt_0_INR; assumption). apply Rplus_le_compat_l.
  apply Rle_trans with (INR n * (p / INR n)); [ apply Rmult_le_compat_r; [ apply Rmult_le_pos; [ assumption | apply Rlt_le, Rinv_0_lt_compat; assumption ] | apply le_INR; lia ] | right; field; lra ].
Qed.
(** Without rounding all outputs are written. *)
Lemma even_count : forall t0 p n m, 0 <= p -> (2 <= m)%nat -> (m <= n)%nat ->
  count_true (queue_answers (linspace t0 (t0 + p) m) (even_times t0 p n)) = m.
Proof.
  intros t0 p n m Hp Hm Hn. assert (N : 0 < INR n) by (apply lt_0_INR; lia). assert (M : 0 < INR (m - 1)) by (apply lt_0_INR; lia).
  apply Nat.le_antisymm.
  { eapply Nat.le_trans; [ apply queue_count | ]. rewrite (proj1 (linspace_spec t0 (t0 + p) m)). lia. }
  set (g := fun k => (slot n m k - 1)%nat).
  assert (S1 : (2 <= slot n m 1)%nat) by (pose proof (slot_ge n m 1 Hm); nia).
  assert (Q : (S (m - 1) <= count_true (firstn (S (g (m - 1))) (queue_answers (linspace t0 (t0 + p) m) (even_times t0 p n))))%nat).
  { apply queue_by.
    - intros k Hk. destruct (linspace_spec t0 (t0 + p) m) as [_ L]. rewrite (L Hm k ltac:(lia)). unfold even_times.
      assert (G : (slot n m k <= n)%nat) by (apply slot_le; [ assumption | nia ]). unfold g.
      rewrite nth_error_map_seq_in by lia. do 2 eexists. split; [ reflexivity | ]. split; [ reflexivity | ].
      apply Rplus_le_compat_l. replace (t0 + p - t0) with p by ring. pose proof (slot_ge n m k Hm) as K.
      assert (K' : (k * n <= S (slot n m k - 1) * (m - 1))%nat) by nia. apply le_INR in K'. rewrite !mult_INR in K'.
      apply (Rmult_le_reg_r (INR n * INR (m - 1))); [ apply Rmult_lt_0_compat; assumption | ].
      replace (INR k * p / INR (m - 1) * (INR n * INR (m - 1))) with (INR k * INR n * p) by (field; lra).
      replace (INR (S (slot n m k - 1)) * (p / INR n) * (INR n * INR (m - 1))) with (INR (S (slot n m k - 1)) * INR (m - 1) * p) by (field; lra).
      apply Rmult_le_compat_r; assumption.
    - intros k Hk. unfold g. pose proof (slot_mono n m k Hm ltac:(lia)). destruct k; [ | pose proof (slot_mono n m 0 Hm ltac:(lia)); pose proof (slot_mono n m k Hm ltac:(lia)); lia ].
      assert (slot n m 0 = 0)%nat by (pose proof (slot_le n m 0 0 Hm); lia). lia. }
  pose proof (count_firstn_all (queue_answers (linspace t0 (t0 + p) m) (even_times t0 p n)) (S (g (m - 1))%nat)). lia.
Qed.

(** ** Rounding whole numbers *)
Definition zfl (a : Z) : Z :=
  let s := Z.max 0 (Z.log2 a - 52) in let q := (a / 2 ^ s)%Z in let r := (a mod 2 ^ s)%Z in
  ((match (2 * r ?= 2 ^ s)%Z with Lt => q | Gt => q + 1 | Eq => if Z.even q then q else q + 1 end) * 2 ^ s)%Z.
Lemma fl_zfl : forall a, (0 < a)%Z -> fl (IZR a) = IZR (zfl a).
Proof.
  intros a Ha. unfold zfl. set (s := Z.max 0 (Z.log2 a - 52)). cbv zeta. destruct (Z.log2_spec a Ha) as [L1 L2]. pose proof (Z.log2_nonneg a).
  destruct (Z.le_gt_cases (Z.log2 a) 52) as [C | C].
  - replace s with 0%Z by lia. rewrite Z.pow_0_r, Z.div_1_r, Z.mod_1_r, Z.mul_1_r. change (2 * 0 ?= 1)%Z with Lt. cbv iota.
    apply fl_id, fmt_Z. rewrite Z.abs_eq by lia. eapply Z.lt_le_trans; [ exact L2 | ]. apply Z.pow_le_mono_r; lia.
  - assert (Hs : s = (Z.log2 a - 52)%Z) by lia. assert (Ps : (0 < 2 ^ s)%Z) by (apply Z.pow_pos_nonneg; lia).
    assert (Mg : (mag radix2 (IZR a) : Z) = (Z.log2 a + 1)%Z).
    { apply mag_unique. rewrite Rabs_pos_eq by (apply IZR_le; lia). replace (Z.log2 a + 1 - 1)%Z with (Z.log2 a) by ring.
      rewrite <- !IZR_Zpower by lia. split; [ apply IZR_le; exact L1 | apply IZR_lt; exact L2 ]. }
    unfold fl, round, scaled_mantissa, F2R, cexp, FLX_exp. simpl Fnum; simpl Fexp. rewrite Mg.
    replace (Z.log2 a + 1 - 53)%Z with s by lia. rewrite mult_IZR, (IZR_pow2 s) by lia. f_equal. f_equal.
    rewrite bpow_opp, <- (IZR_pow2 s) by lia. change (IZR a * / IZR (2 ^ s)) with (IZR a / IZR (2 ^ s)).
    assert (P : 0 < IZR (2 ^ s)) by (apply IZR_lt; assumption).
    unfold ZnearestE, Znearest. rewrite Zfloor_div by lia. pose proof (Z.div_mod a (2 ^ s) ltac:(lia)) as DM. pose proof (Z.mod_pos_bound a (2 ^ s) Ps) as MB.
    set (q := (a / 2 ^ s)%Z) in *. set (r := (a mod 2 ^ s)%Z) in *.
    assert (E : IZR a / IZR (2 ^ s) - IZR q = IZR r / IZR (2 ^ s)). { rewrite DM, plus_IZR, mult_IZR. field. lra. }
    rewrite E.
    assert (Cl : (0 < r)%Z -> Zceil (IZR a / IZR (2 ^ s)) = (q + 1)%Z).
    { intros Hr. rewrite Zceil_floor_neq; rewrite Zfloor_div by lia; fold q; [ reflexivity | ].
      intros K. assert (IZR r / IZR (2 ^ s) = 0) by (rewrite <- E, <- K; ring). assert (0 < IZR r / IZR (2 ^ s)) by (apply Rdiv_lt_0_compat; [ apply IZR_lt; assumption | assumption ]). lra. }
    destruct (Z.compare_spec (2 * r) (2 ^ s)) as [K | K | K].
    + rewrite Rcompare_Eq. 2:{ rewrite <- K, mult_IZR. field. assert (r <> 0)%Z by lia. apply not_0_IZR. assumption. }
      rewrite Cl by lia. destruct (Z.even q); reflexivity.
    + rewrite Rcompare_Lt; [ reflexivity | ]. apply IZR_lt in K. rewrite mult_IZR in K. apply (Rmult_lt_reg_r (IZR (2 ^ s))); [ assumption | ].
      unfold Rdiv. rewrite Rmult_assoc, Rinv_l by lra. lra.
    + rewrite Rcompare_Gt; [ apply Cl; lia | ]. apply IZR_lt in K. rewrite mult_IZR in K. apply (Rmult_lt_reg_r (IZR (2 ^ s))); [ assumption | ].
      unfold Rdiv. rewrite Rmult_assoc, Rinv_l by lra. lra.
Qed.
Lemma fl_plus_Z : forall a b e, (0 < a + b)%Z -> fl (IZR a * bpow radix2 e + IZR b * bpow radix2 e) = IZR (zfl (a + b)) * bpow radix2 e.
Proof. intros a b e H. rewrite <- Rmult_plus_distr_r, <- plus_IZR, fl_scale, fl_zfl by assumption. reflexivity. Qed.

(** ** A step of length one in ten sub steps *)
Definition ten_times : list Z := [7205759403792794; 14411518807585588; 21617278211378384; 28823037615171176; 36028797018963968;
  43234556422756760; 50440315826549552; 57646075230342344; 64851834634135136; 72057594037927928]%Z.
Fixpoint zadded (t dt : Z) (n : nat) : list Z := match n with O => [] | S n' => let t' := zfl (t + dt) in t' :: zadded t' dt n' end.
Lemma zfl_pos : forall a, (0 < a)%Z -> (0 < zfl a)%Z.
Proof.
  intros a H. apply lt_IZR. rewrite <- fl_zfl by assumption. destruct (fl_u (IZR a)) as [B _]; [ apply IZR_le; lia | ].
  eapply Rlt_le_trans; [ | exact B ]. pose proof u_range. apply Rmult_lt_0_compat; [ apply IZR_lt; assumption | lra ].
Qed.
Lemma fadded_Z : forall e n t dt, (0 <= t)%Z -> (0 < dt)%Z ->
  fadded (IZR t * bpow radix2 e) (IZR dt * bpow radix2 e) n = map (fun z => IZR z * bpow radix2 e) (zadded t dt n).
Proof.
  intros e n. induction n; intros t dt Ht Hd; [ reflexivity | ]. cbn [fadded zadded map]. rewrite fl_plus_Z by lia.
  rewrite IHn; [ reflexivity | pose proof (zfl_pos (t + dt)); lia | assumption ].
Qed.
Lemma tenth_step : forall k, fsub_step (bpow radix2 k) 10 = IZR 7205759403792794 * bpow radix2 (k - 56).
Proof.
  intros k. unfold fsub_step. replace (bpow radix2 k / INR 10) with (IZR 1 / IZR 10 * bpow radix2 k) by (rewrite INR_IZR_INZ; simpl; field).
  rewrite fl_scale, (fl_quot_Z 1 10 7205759403792794 56); [ | lia .. ]. rewrite Rmult_assoc, <- bpow_plus. do 2 f_equal. lia.
Qed.
Lemma ten_quasi : forall k, quasi_times 0 (bpow radix2 k) 10 = map (fun z => IZR z * bpow radix2 (k - 56)) ten_times.
Proof.
  intros k. unfold quasi_times. rewrite tenth_step. replace 0 with (IZR 0 * bpow radix2 (k - 56)) at 1 by (simpl; ring).
  rewrite fadded_Z by lia. reflexivity.
Qed.
Lemma one_unit : forall k, bpow radix2 k = IZR (2 ^ 56) * bpow radix2 (k - 56).
Proof. intros k. rewrite (IZR_pow2 56) by lia. rewrite <- bpow_plus. f_equal. lia. Qed.
Lemma ten_below : forall k, Forall (fun t => t < bpow radix2 k) (quasi_times 0 (bpow radix2 k) 10).
Proof.
  intros k. rewrite ten_quasi, (one_unit k). apply Forall_forall. intros x H. apply in_map_iff in H. destruct H as (z & <- & Hz).
  apply Rmult_lt_compat_r; [ apply bpow_gt_0 | ]. apply IZR_lt. change (2 ^ 56)%Z with 72057594037927936%Z.
  repeat (destruct Hz as [<- | Hz]; [ lia | ]). destruct Hz.
Qed.
Lemma fl_one : forall k, fl (0 + bpow radix2 k) = bpow radix2 k.
Proof. intros k. rewrite Rplus_0_l. apply fl_id. apply double_fmt. exists 1%Z, k. split; [ simpl; ring | lia ]. Qed.
(** 49 times a 49th *)
Lemma lub_below : forall k, Forall (fun t => t < bpow radix2 k) (lub_times 0 (bpow radix2 k) 49).
Proof.
  intros k. apply Forall_forall. intros x H. apply in_map_iff in H. destruct H as (i & <- & Hi). apply in_seq in Hi.
  assert (D : fsub_step (bpow radix2 k) 49 = IZR 5882252574524729 * bpow radix2 (-58) * bpow radix2 k).
  { unfold fsub_step. replace (bpow radix2 k / INR 49) with (IZR 1 / IZR 49 * bpow radix2 k) by (rewrite INR_IZR_INZ; simpl; field).
    rewrite fl_scale, (fl_quot_Z 1 49 5882252574524729 58); [ | lia .. ]. reflexivity. }
  rewrite D. set (d := IZR 5882252574524729 * bpow radix2 (-58) * bpow radix2 k).
  assert (Dp : 0 <= d) by (unfold d; repeat apply Rmult_le_pos; try apply bpow_ge_0; apply IZR_le; lia).
  rewrite Rplus_0_l, (fl_id (fl _)) by apply fmt_fl.
  apply Rle_lt_trans with (fl (IZR 49 * d)). { apply fl_le. apply Rmult_le_compat_r; [ assumption | ]. rewrite INR_IZR_INZ. apply IZR_le. lia. }
  unfold d. rewrite <- !Rmult_assoc, <- mult_IZR, !fl_scale, fl_zfl by lia.
  replace (bpow radix2 k) with (IZR (2 ^ 58) * bpow radix2 (-58) * bpow radix2 k) at 2.
  2:{ rewrite (IZR_pow2 58) by lia. rewrite <- bpow_plus. simpl. ring. }
  apply Rmult_lt_compat_r; [ apply bpow_gt_0 | ]. apply Rmult_lt_compat_r; [ apply bpow_gt_0 | ]. apply IZR_lt. vm_compute. reflexivity.
Qed.
(** Every second sub step *)
Lemma fcounter_Z : forall e ts x d, (0 <= x)%Z -> (0 < d)%Z ->
  fcounter (IZR x * bpow radix2 e) (IZR d * bpow radix2 e) (map (fun z => IZR z * bpow radix2 e) ts) =
  (fix go x ts := match ts with [] => [] | t :: ts' => if (x <=? t)%Z then true :: go (zfl (x + d)) ts' else false :: go x ts' end) x ts.
Proof.
  intros e ts. induction ts as [|t ts IH]; intros x d Hx Hd; [ reflexivity | ]. cbn [map fcounter]. pose proof (bpow_gt_0 radix2 e) as B.
  destruct (Z.leb_spec x t) as [L | L].
  - destruct (Rle_dec (IZR x * bpow radix2 e) (IZR t * bpow radix2 e)) as [_ | N]; [ | exfalso; apply N; apply Rmult_le_compat_r; [ lra | apply IZR_le, L ] ].
    rewrite fl_plus_Z by lia. rewrite IH; [ reflexivity | pose proof (zfl_pos (x + d)); lia | assumption ].
  - destruct (Rle_dec (IZR x * bpow radix2 e) (IZR t * bpow radix2 e)) as [N | _]; [ exfalso | ].
    { apply Rmult_le_reg_r in N; [ | assumption ]. apply le_IZR in N. lia. }
    rewrite IH by assumption. reflexivity.
Qed.
Lemma ten_second : forall k, fcounter 0 (2 * fsub_step (bpow radix2 k) 10) (quasi_times 0 (bpow radix2 k) 10) =
  [true; true; false; true; false; false; true; false; true; false].
Proof.
  intros k. rewrite ten_quasi, tenth_step. replace 0 with (IZR 0 * bpow radix2 (k - 56)) by (simpl; ring).
  rewrite <- Rmult_assoc, <- mult_IZR, fcounter_Z by lia. vm_compute. reflexivity.
Qed.

(** ** Relative times *)
Lemma relative_inner : forall n i, (2 <= n)%nat -> (S i < n)%nat -> RoundModel.flinspace 1 n i = fl (INR i * fl (1 / INR (n - 1))).
Proof. intros n i Hn Hi. unfold RoundModel.flinspace. destruct (Nat.eqb_spec n 1); [ lia | ]. destruct (Nat.eqb_spec (S i) n); [ lia | reflexivity ]. Qed.
Lemma relative_last : forall n, (2 <= n)%nat -> RoundModel.flinspace 1 n (n - 1) = 1.
Proof. intros n Hn. unfold RoundModel.flinspace. destruct (Nat.eqb_spec n 1); [ lia | ]. destruct (Nat.eqb_spec (S (n - 1)) n); [ reflexivity | lia ]. Qed.
Lemma relative_first : forall n, (2 <= n)%nat -> RoundModel.flinspace 1 n 0 = 0.
Proof. intros n Hn. rewrite relative_inner by lia. simpl INR. rewrite Rmult_0_l. apply fl_0. Qed.
Lemma relative_step : forall n i, (2 <= n)%nat -> (Z.of_nat n <= 2 ^ 31)%Z -> (S i < n)%nat -> RoundModel.flinspace 1 n i < RoundModel.flinspace 1 n (S i).
Proof.
  intros n i Hn Hb Hi. rewrite relative_inner by assumption. assert (M : 0 < INR (n - 1)) by (apply lt_0_INR; lia).
  assert (D : 0 < 1 / INR (n - 1)) by (apply Rdiv_lt_0_compat; lra). destruct (fl_u (1 / INR (n - 1)) ltac:(lra)) as [S1 S2]. set (s := fl (1 / INR (n - 1))) in *.
  assert (U : 0 < u <= / 2 ^ 53) by (unfold u; split; [ apply Rinv_0_lt_compat, pow_lt; lra | lra ]). assert (U' := u_range).
  assert (S0 : 0 < s) by (eapply Rlt_le_trans; [ | exact S1 ]; apply Rmult_lt_0_compat; lra).
  pose proof (pos_INR i) as I0. assert (Ps : 0 <= INR i * s) by (apply Rmult_le_pos; lra). destruct (fl_u (INR i * s) Ps) as [_ A].
  pose proof (INR_31 n Hb) as B31. assert (I1 : INR (S i) <= INR (n - 1)) by (apply le_INR; lia). rewrite S_INR in I1.
  assert (N1 : INR (n - 1) <= INR n) by (apply le_INR; lia).
  assert (Iu : (2 * INR i + 4) * u < 1).
  { apply Rle_lt_trans with ((2 * 2 ^ 31 + 4) * / 2 ^ 53); [ apply Rmult_le_compat; lra | ]. apply (Rmult_lt_reg_r (2 ^ 53)); [ lra | ]. rewrite Rmult_assoc, Rinv_l by lra. lra. }
  assert (K : INR i * s * (1 + u) < (INR i + 1) * s * (1 - u)).
  { assert (0 < s * (1 - (2 * INR i + 1) * u)) by (apply Rmult_lt_0_compat; lra). lra. }
  destruct (Nat.eq_dec (S (S i)) n) as [E | E].
  - replace (S i) with (n - 1)%nat by lia. rewrite relative_last by assumption.
    apply Rle_lt_trans with (INR i * s * (1 + u)); [ exact A | ].
    assert (E1 : INR (n - 1) = INR i + 1) by (rewrite <- S_INR; f_equal; lia).
    assert (X : (INR i + 1) * s <= 1 + u).
    { rewrite <- E1. apply Rle_trans with (INR (n - 1) * (1 / INR (n - 1) * (1 + u))); [ apply Rmult_le_compat_l; lra | right; field; lra ]. }
    assert (Y : (INR i + 1) * s * (1 - u) <= (1 + u) * (1 - u)) by (apply Rmult_le_compat_r; lra). nra.
  - rewrite relative_inner by lia. fold s. rewrite S_INR. destruct (fl_u ((INR i + 1) * s)) as [C _]; [ apply Rmult_le_pos; lra | ]. lra.
Qed.
Lemma relative_mono : forall n i j, (2 <= n)%nat -> (Z.of_nat n <= 2 ^ 31)%Z -> (i < j < n)%nat -> RoundModel.flinspace 1 n i < RoundModel.flinspace 1 n j.
Proof.
  intros n i j Hn Hb [Hij Hj]. induction j; [ lia | ]. destruct (Nat.eq_dec i j) as [-> | Ne]; [ apply relative_step; assumption || lia | ].
  eapply Rlt_trans; [ apply IHj; lia | apply relative_step; assumption || lia ].
Qed.
Lemma ten_not_three : forall k, ~ In (three_tenth * bpow radix2 k) (quasi_times 0 (bpow radix2 k) 10).
Proof.
  intros k H. rewrite ten_quasi in H. apply in_map_iff in H. destruct H as (z & E & Hz).
  assert (F : three_tenth * bpow radix2 k = IZR 21617278211378380 * bpow radix2 (k - 56)).
  { unfold three_tenth. rewrite Rmult_assoc, <- bpow_plus. replace (k - 56)%Z with (-2 + (-54 + k))%Z by lia. rewrite (bpow_plus radix2 (-2)), <- Rmult_assoc. f_equal.
    change (bpow radix2 (-2)) with (/ 4). lra. }
  rewrite F in E. apply Rmult_eq_reg_r in E; [ | apply Rgt_not_eq, bpow_gt_0 ]. apply eq_IZR in E. subst z.
  repeat (destruct Hz as [Hz | Hz]; [ discriminate | ]). destruct Hz.
Qed.
