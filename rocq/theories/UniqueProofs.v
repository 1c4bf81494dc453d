(** Lemmas for UniqueTheorems.v. *)
From Coq Require Import List Bool Arith ZArith Reals Lia Lra.
From Coquelicot Require Import Coquelicot.
From Verif Require Import Flt SolverModel SolverSpec SolverProofs BoundSpec BoundProofs ConvSpec ConvProofs TouchSpec TouchProofs UniqueSpec.
Import ListNotations.
Local Open Scope R_scope.

Lemma size_length2 N x : size N x = length2 N x.
Proof. reflexivity. Qed.
Lemma moved_times N C p k : moved_by N C p k = times N C (fun l => nth l p 0) k.
Proof. unfold moved_by, times. symmetry. apply sum_total. Qed.
Lemma times_minus N C x y k : times N C (fun l => x l - y l) k = times N C x k - times N C y k.
Proof.
  unfold times. rewrite (sum_ext N _ (fun j => C k j * x j + (-1) * (C k j * y j))) by (intros; ring). rewrite sum_plus, sum_mult. ring.
Qed.

(** ** The energy of the difference of two states *)
Section Difference.
Variables (N : nat) (C : nat -> nat -> R) (m L : R) (g : list R).
Hypothesis B : between N C m L.
Lemma between_pos : 0 < m.
Proof. exact (proj1 B). Qed.

Lemma difference_energy h h' p q : m * (apart N q p * apart N q p) <=
  total N (fun k => (nth k q 0 - nth k p 0) * (left_over N C g h' q k - left_over N C g h p k)) + (h' - h) * (total N (fun k => nth k q 0) - total N (fun k => nth k p 0)).
Proof.
  unfold apart. rewrite size_length2, length2_sq. set (z := fun k => nth k q 0 - nth k p 0).
  pose proof (proj1 (proj2 B z)) as E. apply (Rle_trans _ _ _ E). apply Req_le.
  change (total N) with (sum N). rewrite (sum_ext N (fun i => z i * times N C z i)
    (fun k => z k * (left_over N C g h' q k - left_over N C g h p k) + ((h' - h) * nth k q 0 + (-1) * ((h' - h) * nth k p 0)))).
  2: { intros i Hi. unfold left_over. rewrite !moved_times. unfold z at 2. rewrite times_minus. unfold z. ring. }
  rewrite !sum_plus, !sum_mult. unfold z. ring.
Qed.

(** Exact solutions at two interferences. *)
Lemma exact_monotone h h' most p q : h <= h' -> (h < h' -> forall i j, (i < N)%nat -> (j < N)%nat -> 0 <= C i j) ->
  exact_contact N C g h most p -> exact_contact N C g h' most q ->
  m * (apart N q p * apart N q p) <= (h' - h) * (total N (fun k => nth k q 0) - total N (fun k => nth k p 0)).
Proof.
  intros Hh Cp (Lp & P) (Lq & Q). pose proof (difference_energy h h' p q) as E.
  assert (T : total N (fun k => (nth k q 0 - nth k p 0) * (left_over N C g h' q k - left_over N C g h p k)) <= 0); [|lra].
  change (total N) with (sum N). apply Rle_trans with (sum N (fun _ => 0)); [|rewrite sum_zero; lra]. apply sum_le. intros k Hk.
  destruct (P k Hk) as (P1 & P2). destruct (Q k Hk) as (Q1 & Q2).
  assert (Pp : 0 <= nth k p 0) by (destruct (Rle_dec h (nth k g 0)); [rewrite P1 by assumption; lra|destruct P2 as (? & _); lra]).
  destruct (Rle_dec h' (nth k g 0)) as [G'|G'].
  - rewrite Q1 by assumption. rewrite P1 by lra. lra.
  - destruct (Q2 ltac:(lra)) as (Qp & Qm & Qg & Qo). destruct (Rle_dec h (nth k g 0)) as [G|G].
    + rewrite P1 by assumption. assert (A : 0 <= left_over N C g h p k).
      { unfold left_over. assert (0 <= moved_by N C p k); [|lra]. rewrite moved_times. apply sum_nonneg. intros l Hl. apply Rmult_le_pos; [apply Cp; [lra|assumption|assumption]|].
        destruct (P l Hl) as (R1 & R2). destruct (Rle_dec h (nth l g 0)); [rewrite R1 by assumption; lra|destruct R2 as (? & _); lra]. }
      destruct (Rlt_dec 0 (left_over N C g h' q k)) as [Z|Z]; [rewrite (Qg Z); lra|]. nra.
    + destruct (P2 ltac:(lra)) as (_ & Pm & Pg & Po). set (a := left_over N C g h p k) in *. set (b := left_over N C g h' q k) in *.
      assert (A : 0 <= (nth k q 0 - nth k p 0) * a).
      { destruct (total_order_T 0 a) as [[Z|Z]|Z]; [rewrite (Pg Z); nra|rewrite <- Z; lra|]. specialize (Qm _ (Po Z)). nra. }
      assert (A' : (nth k q 0 - nth k p 0) * b <= 0).
      { destruct (total_order_T 0 b) as [[Z|Z]|Z]; [rewrite (Qg Z); nra|rewrite <- Z; lra|]. specialize (Pm _ (Qo Z)). nra. }
      lra.
Qed.

(** A solution up to an error and an exact one at the same interference. *)
Lemma near_energy h most eps p q : match most with Fin y => 0 <= y | PInf => True | _ => False end ->
  solves_contact N C g h most eps p -> exact_contact N C g h most q ->
  m * (apart N p q * apart N p q) <= apart N p q * (eps + / 10 ^ 14 * sqrt (INR N)) + / 10 ^ 14 * slack N C g h most q.
Proof.
  intros My ((Lp & Pl & Pz & Pm) & zero & full & Z & F & S) (Lq & Q).
  pose proof (difference_energy h h q p) as E. rewrite Rminus_eq_0, Rmult_0_l, Rplus_0_r in E. apply (Rle_trans _ _ _ E). clear E.
  set (d := / 10 ^ 14) in *. assert (Dp : 0 < d) by (apply Rinv_0_lt_compat, pow_lt; lra).
  set (r := fun k => if Rlt_dec (nth k g 0) h then if zero k || full k then 0 else left_over N C g h p k else 0) in *.
  set (z := fun k => nth k p 0 - nth k q 0).
  assert (H : total N (fun k => (nth k p 0 - nth k q 0) * (left_over N C g h p k - left_over N C g h q k)) <=
    sum N (fun k => z k * r k) + (d * sum N (fun k => Rabs (z k) * 1) + d * slack N C g h most q)).
  { unfold slack. change (total N) with (sum N). rewrite <- !sum_mult, <- !sum_plus. apply sum_le. intros k Hk. fold (z k).
    unfold r. destruct (Q k Hk) as (Q1 & Q2). destruct (Rlt_dec (nth k g 0) h) as [G|G].
    2: { unfold z. rewrite (Q1 ltac:(lra)), (Pz k Hk ltac:(lra)). rewrite Rminus_0_r, Rabs_R0. lra. }
    destruct (Q2 G) as (Qp & Qm & Qg & Qo). clear Q1 Q2. set (a := left_over N C g h p k) in *. set (b := left_over N C g h q k) in *.
    pose proof (Pl k Hk) as P1.
    assert (A : z k * a <= z k * (if zero k || full k then 0 else a) + d * Rabs (z k)).
    { destruct (zero k) eqn:Ez.
      - destruct (Z k Hk G Ez) as (Z1 & Z2). fold a in Z2. cbn [orb]. unfold z. rewrite Z1. rewrite Rminus_0_l, Rabs_Ropp, (Rabs_pos_eq _ Qp). nra.
      - destruct (full k) eqn:Ef; cbn [orb].
        + destruct (F k Hk G Ef) as (F1 & F2). fold a in F2. specialize (Qm _ F1). unfold z. rewrite Rabs_pos_eq by lra. nra.
        + pose proof (Rabs_pos (z k)). nra. }
    assert (A' : - (z k * b) <= d * (Rmax 0 b + match most with Fin y => y * Rmax 0 (- b) | _ => 0 end)).
    { unfold z. destruct (total_order_T 0 b) as [[Y|Y]|Y].
      - rewrite (Qg Y). rewrite (Rmax_right 0 b) by lra. rewrite (Rmax_left 0 (- b)) by lra.
        assert (match most with Fin y => y * 0 | _ => 0 end = 0) by (destruct most; ring). nra.
      - rewrite <- Y, Ropp_0, Rmax_left by lra. assert (match most with Fin y => y * 0 | _ => 0 end = 0) by (destruct most; ring). nra.
      - specialize (Qo Y). rewrite Qo in *. rewrite (Rmax_left 0 b) by lra. rewrite (Rmax_right 0 (- b)) by lra.
        specialize (Pm k _ Hk G eq_refl). nra. }
    nra. }
  apply (Rle_trans _ _ _ H). clear H.
  assert (Ez : apart N p q = length2 N z) by apply size_length2. rewrite Ez.
  pose proof (dot_le N z r) as D1. rewrite size_length2 in S. pose proof (dot_le N (fun k => Rabs (z k)) (fun _ => 1)) as D2.
  assert (L1 : length2 N (fun k => Rabs (z k)) = length2 N z).
  { unfold length2. f_equal. apply sum_ext. intros i _. rewrite <- Rabs_mult. apply Rabs_pos_eq. nra. }
  assert (L2 : length2 N (fun _ => 1) = sqrt (INR N)).
  { unfold length2. f_equal. clear. induction N as [|n IH]; [reflexivity|]. cbn [sum]. rewrite IH, S_INR. lra. }
  rewrite L1, L2 in D2. pose proof (length2_pos N z). assert (length2 N z * length2 N r <= length2 N z * eps) by (apply Rmult_le_compat_l; assumption).
  assert (d * sum N (fun k => Rabs (z k) * 1) <= d * (length2 N z * sqrt (INR N))) by (apply Rmult_le_compat_l; lra). lra.
Qed.
End Difference.

Lemma quadratic_bound m s e D : 0 < m -> 0 <= s -> 0 <= D -> m * (s * s) <= s * e + D -> s <= Rmax 0 e / m + sqrt (D / m).
Proof.
  intros Hm Hs HD H. pose proof (Rmax_l 0 e). pose proof (Rmax_r 0 e). set (e' := Rmax 0 e) in *.
  assert (Q : s * s <= s * (e' / m) + D / m).
  { apply Rmult_le_reg_l with m; [lra|]. replace (m * (s * (e' / m) + D / m)) with (s * e' + D) by (field; lra). nra. }
  assert (Hd : 0 <= D / m) by (apply Rdiv_le_0_compat; lra). pose proof (sqrt_pos (D / m)) as Sp. pose proof (sqrt_sqrt _ Hd) as Se.
  assert (He : 0 <= e' / m) by (apply Rdiv_le_0_compat; lra). set (u := e' / m) in *. set (w := sqrt (D / m)) in *. rewrite <- Se in Q.
  destruct (Rle_dec s (u + w)); [assumption|]. exfalso. nra.
Qed.

(** ** There is a solution: the limit of projected steps *)
Section Existence.
Variables (N : nat) (C : nat -> nat -> R) (m L : R) (g : list R) (h : R) (most : flt).
Hypothesis B : between N C m L.
Hypothesis Most : match most with Fin y => 0 <= y | PInf => True | _ => False end.

Definition hold (k : nat) (v : R) : R :=
  if Rlt_dec (nth k g 0) h then match most with Fin y => Rmin y (Rmax 0 v) | _ => Rmax 0 v end else 0.
Lemma hold_near k v w : (hold k v - hold k w) * (hold k v - hold k w) <= (v - w) * (v - w).
Proof.
  unfold hold. destruct (Rlt_dec (nth k g 0) h); [|pose proof (Rle_0_sqr (v - w)) as S; unfold Rsqr in S; lra].
  assert (Q : forall a b, (Rmax 0 a - Rmax 0 b) * (Rmax 0 a - Rmax 0 b) <= (a - b) * (a - b)).
  { intros a b. apply (Rsqr_le_abs_1 (Rmax 0 a - Rmax 0 b) (a - b)). unfold Rmax. destruct (Rle_dec 0 a), (Rle_dec 0 b); try apply Rle_refl; unfold Rabs; repeat match goal with |- context [Rcase_abs ?x] => destruct (Rcase_abs x) end; lra. }
  assert (Q' : forall y a b, (Rmin y a - Rmin y b) * (Rmin y a - Rmin y b) <= (a - b) * (a - b)).
  { intros y a b. apply (Rsqr_le_abs_1 (Rmin y a - Rmin y b) (a - b)). unfold Rmin. destruct (Rle_dec y a), (Rle_dec y b); try apply Rle_refl; unfold Rabs; repeat match goal with |- context [Rcase_abs ?x] => destruct (Rcase_abs x) end; lra. }
  destruct most as [y| | |]; [|apply Q..]. apply (Rle_trans _ _ _ (Q' _ _ _) (Q _ _)).
Qed.

Definition L' : R := Rmax m L.
Definition tau : R := m / (L' * L').
Definition shrink : R := 1 - m * m / (L' * L').
Definition res (x : nat -> R) (k : nat) : R := nth k g 0 - h + times N C x k.
Definition next (x : nat -> R) (k : nat) : R := hold k (x k - tau * res x k).

Lemma L'_pos : 0 < m <= L' /\ L <= L'.
Proof. pose proof (proj1 B). unfold L'. pose proof (Rmax_l m L). pose proof (Rmax_r m L). lra. Qed.
Lemma shrink_range : 0 <= shrink < 1.
Proof.
  destruct L'_pos as ([Hm H] & _). unfold shrink. assert (P : 0 < L' * L') by nra.
  assert (0 < m * m / (L' * L')) by (apply Rdiv_lt_0_compat; nra).
  assert (m * m / (L' * L') <= 1); [|lra]. apply Rmult_le_reg_r with (L' * L'); [exact P|]. unfold Rdiv. rewrite Rmult_assoc, Rinv_l by lra. nra.
Qed.
Lemma tau_shrink D : D - 2 * tau * (m * D) + tau * tau * (L' * L' * D) = shrink * D.
Proof. destruct L'_pos as ([Hm H] & _). unfold tau, shrink. field. lra. Qed.
Lemma next_shrinks x y : sum N (fun k => (next x k - next y k) * (next x k - next y k)) <= shrink * sum N (fun k => (x k - y k) * (x k - y k)).
Proof.
  set (z := fun k => x k - y k). destruct L'_pos as ([Hm H] & HL).
  apply Rle_trans with (sum N (fun k => (z k - tau * times N C z k) * (z k - tau * times N C z k))).
  - apply sum_le. intros k Hk. unfold next. apply (Rle_trans _ _ _ (hold_near _ _ _)). apply Req_le. unfold res, z. rewrite times_minus. ring.
  - rewrite (sum_ext N _ (fun k => z k * z k + (- (2 * tau) * (z k * times N C z k) + tau * tau * (times N C z k * times N C z k)))) by (intros; ring).
    rewrite !sum_plus, !sum_mult. change (sum N (fun k => (x k - y k) * (x k - y k))) with (sum N (fun k => z k * z k)).
    destruct (proj2 B z) as (E1 & E2). pose proof (length2_pos N z). pose proof (length2_pos N (times N C z)).
    assert (E3 : sum N (fun k => times N C z k * times N C z k) <= L' * L' * sum N (fun k => z k * z k)).
    { rewrite <- (length2_sq N (times N C z)), <- (length2_sq N z).
      assert (Q : length2 N (times N C z) <= L' * length2 N z) by nra.
      apply Rle_trans with ((L' * length2 N z) * (L' * length2 N z)); [apply Rmult_le_compat; assumption|lra]. }
    rewrite <- tau_shrink. assert (T : 0 < tau) by (unfold tau; apply Rdiv_lt_0_compat; nra).
    assert (tau * (m * sum N (fun k => z k * z k)) <= tau * sum N (fun k => z k * times N C z k)) by (apply Rmult_le_compat_l; lra).
    assert (tau * tau * sum N (fun k => times N C z k * times N C z k) <= tau * tau * (L' * L' * sum N (fun k => z k * z k))) by (apply Rmult_le_compat_l; nra).
    lra.
Qed.

Fixpoint iterate (n : nat) : nat -> R := match n with O => fun _ => 0 | S n' => next (iterate n') end.
Definition first : R := sum N (fun k => (iterate 1 k - iterate 0 k) * (iterate 1 k - iterate 0 k)).
Lemma iterate_steps n : sum N (fun k => (iterate (S n) k - iterate n k) * (iterate (S n) k - iterate n k)) <= shrink ^ n * first.
Proof.
  induction n as [|n IH]; [cbn [pow]; unfold first; lra|].
  apply (Rle_trans _ _ _ (next_shrinks (iterate (S n)) (iterate n))). cbn [pow]. rewrite Rmult_assoc. apply Rmult_le_compat_l; [apply shrink_range|exact IH].
Qed.
Lemma term_le n (f : nat -> R) k : (forall i, (i < n)%nat -> 0 <= f i) -> (k < n)%nat -> f k <= sum n f.
Proof.
  induction n as [|n IH]; intros P Hk; [lia|]. cbn [sum]. destruct (Nat.eq_dec k n) as [->|Ne].
  - pose proof (sum_nonneg n f ltac:(intros; apply P; lia)). lra.
  - specialize (IH ltac:(intros; apply P; lia) ltac:(lia)). specialize (P n ltac:(lia)). lra.
Qed.
Lemma iterate_component n k : (k < N)%nat -> Rabs (iterate (S n) k - iterate n k) <= sqrt first * sqrt shrink ^ n.
Proof.
  intros Hk. pose proof (iterate_steps n) as H. set (d := fun i => iterate (S n) i - iterate n i).
  pose proof (term_le N (fun i => d i * d i) k ltac:(intros; nra) Hk) as T. cbn beta in T.
  assert (Q : d k * d k <= shrink ^ n * first) by (apply (Rle_trans _ _ _ T); exact H).
  pose proof shrink_range as [S0 _].
  assert (F : 0 <= first) by apply sq_pos.
  fold (d k). rewrite <- (sqrt_Rsqr_abs (d k)). unfold Rsqr. apply (Rle_trans _ _ _ (sqrt_le_1_alt _ _ Q)).
  rewrite sqrt_mult by (try apply pow_le; assumption). apply Req_le. rewrite Rmult_comm. f_equal.
  clear - S0. induction n as [|n IH]; [apply sqrt_1|]. cbn [pow]. rewrite sqrt_mult by (try apply pow_le; assumption). now rewrite IH.
Qed.
Lemma iterate_limit k : (k < N)%nat -> exists l : R, is_lim_seq (fun n => iterate n k) l.
Proof.
  intros Hk. assert (E : ex_series (fun n => iterate (S n) k - iterate n k)).
  { apply (@ex_series_le R_AbsRing R_CompleteNormedModule) with (fun n => sqrt first * sqrt shrink ^ n).
    - intros n. apply iterate_component. exact Hk.
    - apply (ex_series_scal_l (sqrt first) (fun n => sqrt shrink ^ n)). apply ex_series_geom.
      pose proof shrink_range as [S0 S1]. rewrite Rabs_pos_eq by apply sqrt_pos. rewrite <- sqrt_1. apply sqrt_lt_1_alt. lra. }
  destruct E as (l & El). exists l. apply is_lim_seq_incr_1.
  apply is_lim_seq_ext with (fun n => sum_n (fun n => iterate (S n) k - iterate n k) n); [|exact El].
  intros n. induction n as [|n IH]; [rewrite sum_O; cbn [iterate]; lra|]. rewrite sum_Sn, IH. unfold plus. cbn -[iterate]. lra.
Qed.
Lemma lim_sum n (u : nat -> nat -> R) (l : nat -> R) : (forall k, (k < n)%nat -> is_lim_seq (fun i => u i k) (l k)) -> is_lim_seq (fun i => sum n (u i)) (sum n l).
Proof.
  induction n as [|n IH]; intros H; cbn [sum]; [apply is_lim_seq_const|]. apply is_lim_seq_plus'; [apply IH; intros; apply H; lia|apply H; lia].
Qed.
Lemma choose_limits n (P : nat -> R -> Prop) : (forall k, (k < n)%nat -> exists l, P k l) -> exists q : list R, List.length q = n /\ forall k, (k < n)%nat -> P k (nth k q 0).
Proof.
  induction n as [|n IH]; intros H; [exists []; split; [reflexivity|lia]|]. destruct IH as (q & Lq & Q); [intros; apply H; lia|]. destruct (H n ltac:(lia)) as (l & Hl).
  exists (q ++ [l])%list. split; [rewrite app_length; cbn; lia|]. intros k Hk. destruct (Nat.eq_dec k n) as [->|Ne].
  - rewrite app_nth2 by lia. rewrite Lq, Nat.sub_diag. exact Hl.
  - rewrite app_nth1 by lia. apply Q. lia.
Qed.
Lemma fixed_point : exists q : list R, List.length q = N /\ forall k, (k < N)%nat -> nth k q 0 = next (fun l => nth l q 0) k.
Proof.
  destruct (choose_limits N (fun k l => is_lim_seq (fun n => iterate n k) l) iterate_limit) as (q & Lq & Q). exists q. split; [exact Lq|].
  set (x := fun l => nth l q 0). intros k Hk. fold (x k).
  assert (H : (x k - next x k) * (x k - next x k) <= 0).
  { change (Rbar_le ((x k - next x k) * (x k - next x k)) 0).
    apply is_lim_seq_le with (fun n => (iterate (S n) k - next x k) * (iterate (S n) k - next x k)) (fun n => shrink * sum N (fun i => (iterate n i - x i) * (iterate n i - x i))).
    - intros n. apply Rle_trans with (sum N (fun i => (next (iterate n) i - next x i) * (next (iterate n) i - next x i))); [|apply next_shrinks].
      apply (term_le N (fun i => (next (iterate n) i - next x i) * (next (iterate n) i - next x i)) k); [intros i _; exact (Rle_0_sqr (next (iterate n) i - next x i))|exact Hk].
    - assert (D : is_lim_seq (fun n => iterate (S n) k - next x k) (x k - next x k)).
      { apply is_lim_seq_minus'; [|apply is_lim_seq_const]. apply -> (is_lim_seq_incr_1 (fun n => iterate n k)). apply Q. exact Hk. }
      apply is_lim_seq_mult'; exact D.
    - replace (Finite 0) with (Finite (shrink * sum N (fun i => (x i - x i) * (x i - x i)))).
      2: { f_equal. rewrite (sum_ext N _ (fun _ => 0)) by (intros; ring). rewrite sum_zero. ring. }
      apply is_lim_seq_mult'; [apply is_lim_seq_const|]. apply (lim_sum N (fun n i => (iterate n i - x i) * (iterate n i - x i)) (fun i => (x i - x i) * (x i - x i))). intros i Hi.
      assert (D : is_lim_seq (fun n => iterate n i - x i) (x i - x i)) by (apply is_lim_seq_minus'; [apply Q; exact Hi|apply is_lim_seq_const]).
      apply is_lim_seq_mult'; exact D. }
  pose proof (Rle_0_sqr (x k - next x k)) as S. unfold Rsqr in S. assert (Z : (x k - next x k) * (x k - next x k) = 0) by lra. apply Rmult_integral in Z. lra.
Qed.
Lemma exact_exists : exists q, exact_contact N C g h most q.
Proof.
  destruct fixed_point as (q & Lq & Q). exists q. split; [exact Lq|]. intros k Hk. specialize (Q k Hk). unfold next, hold in Q. set (x := fun l => nth l q 0) in *.
  destruct L'_pos as ([Hm H] & _). assert (T : 0 < tau) by (unfold tau; apply Rdiv_lt_0_compat; nra).
  assert (E : res x k = left_over N C g h q k) by (unfold res, left_over; rewrite moved_times; reflexivity). rewrite <- E. change (nth k q 0) with (x k) in *. clear E.
  split.
  - intros G. destruct (Rlt_dec (nth k g 0) h); [lra|exact Q].
  - intros G. destruct (Rlt_dec (nth k g 0) h); [|lra]. set (v := tau * res x k) in *.
    assert (V1 : 0 < res x k -> 0 < v) by (intros; apply Rmult_lt_0_compat; assumption).
    assert (V2 : res x k < 0 -> v < 0) by (intros; unfold v; nra).
    destruct most as [y| | |]; try contradiction; unfold Rmin, Rmax in Q.
    + destruct (Rle_dec 0 (x k - v)); [destruct (Rle_dec y (x k - v))|destruct (Rle_dec y 0)];
      (split; [lra|]; split; [intros y' E; injection E as <-; lra|]; split; [intros Z; specialize (V1 Z); lra|intros Z; specialize (V2 Z); f_equal; lra]).
    + destruct (Rle_dec 0 (x k - v)); (split; [lra|]; split; [discriminate|]; split; [intros Z; specialize (V1 Z); lra|intros Z; specialize (V2 Z); exfalso; lra]).
Qed.
End Existence.
