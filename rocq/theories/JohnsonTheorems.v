(** Theorems on the fits of distributions (C67, C103). *)
From Coq Require Import Reals List Bool Arith Lia Lra Psatz.
From Verif Require Import Py SurfaceModel SurfaceProofs JohnsonModel JohnsonSpec JohnsonProofs.
Import ListNotations.
Local Open Scope R_scope.

Lemma ltb_yes x y : x < y -> Rltb x y = true.
Proof. intro H. destruct (Rltb x y) eqn:E; [reflexivity|]. apply Rltb_false in E. lra. Qed.
Lemma ltb_no x y : y <= x -> Rltb x y = false.
Proof. intro H. destruct (Rltb x y) eqn:E; [|reflexivity]. apply Rltb_true in E. lra. Qed.
Lemma leb_yes x y : x <= y -> Rleb x y = true.
Proof. intro H. unfold Rleb. destruct (Rle_dec x y); [reflexivity|lra]. Qed.
Lemma leb_no x y : y < x -> Rleb x y = false.
Proof. intro H. unfold Rleb. destruct (Rle_dec x y); [lra|reflexivity]. Qed.
Lemma eqb_no x y : x <> y -> Reqb x y = false.
Proof. intro H. destruct (Reqb x y) eqn:E; [|reflexivity]. apply Reqb_true in E. congruence. Qed.

(** ** C67: the fit to quantiles *)

(** The distribution has the given quantiles at the normal quantiles -1.5, -0.5, 0.5 and 1.5. *)
Definition reproduces (d : dist) (x0 x1 x2 x3 : R) : Prop :=
  quantile d (-1.5) = Some x0 /\ quantile d (-0.5) = Some x1 /\ quantile d 0.5 = Some x2 /\ quantile d 1.5 = Some x3.

(** Heavy tails: the unbounded family reproduces them exactly. *)
Theorem c67_unbounded (x0 x1 x2 x3 : R) : x0 < x1 < x2 -> x2 < x3 ->
  (x3 - x2) * (x1 - x0) > 1.0001 * (x2 - x1) ^ 2 -> reproduces (fit_quantiles x0 x1 x2 x3) x0 x1 x2 x3.
Proof.
  intros [X1 X2] X3 T. unfold fit_quantiles. set (m := x3 - x2) in *. set (n := x1 - x0) in *. set (p := x2 - x1) in *. set (q0 := (x1 + x2) * 0.5).
  assert (M : 0 < m) by (unfold m; lra). assert (N : 0 < n) by (unfold n; lra). assert (P : 0 < p) by (unfold p; lra). assert (P2 : 0 < p ^ 2) by nra.
  set (a := m / p). set (b := n / p). assert (A : 0 < a) by now apply Rdiv_lt_0_compat. assert (B : 0 < b) by now apply Rdiv_lt_0_compat.
  assert (AB : 1.0001 < a * b).
  { apply (Rmult_lt_reg_r (p ^ 2)); [exact P2|]. replace (a * b * p ^ 2) with (m * n) by (unfold a, b; field; lra). lra. }
  cbv zeta. rewrite ltb_no by lra. rewrite ltb_yes by lra. unfold reproduces, quantile.
  assert (AB1 : 1 < a * b) by lra.
  destruct (su_c a b A B AB1) as [_ CP]. destruct (su_lam p a b P A B AB1) as [_ LP].
  destruct (su_inner p a b q0 P A B AB1) as [I1 I2]. destruct (su_outer p a b q0 P A B AB1) as [O1 O2]. cbv zeta in *.
  set (c := arccosh (0.5 * (a + b))) in *. set (g := arcsinh _) in *. set (lam := 2 * p * _ / _) in *. set (xi := q0 + _ / _) in *.
  rewrite (ltb_yes 0 (1 / c)) by (apply Rdiv_lt_0_compat; lra). rewrite (ltb_yes 0 lam) by exact LP. cbn [andb].
  assert (Q : forall z, (z - 1 / c * g) / (1 / c) = z * c - g) by (intro; field; lra). rewrite !Q.
  replace (-1.5 * c) with (- (3 * (c / 2))) by lra. replace (-0.5 * c) with (- (c / 2)) by lra. replace (0.5 * c) with (c / 2) by lra. replace (1.5 * c) with (3 * (c / 2)) by lra.
  rewrite I1, I2, O1, O2. replace (p * a) with m by (unfold a; field; lra). replace (p * b) with n by (unfold b; field; lra).
  unfold q0, p, m, n. repeat split; f_equal; lra.
Qed.
Print Assumptions c67_unbounded.

(** Light tails: so does the bounded family. *)
Theorem c67_bounded (x0 x1 x2 x3 : R) : x0 < x1 < x2 -> x2 < x3 ->
  (x3 - x2) * (x1 - x0) < 0.9999 * (x2 - x1) ^ 2 -> reproduces (fit_quantiles x0 x1 x2 x3) x0 x1 x2 x3.
Proof.
  intros [X1 X2] X3 T. unfold fit_quantiles. set (m := x3 - x2) in *. set (n := x1 - x0) in *. set (p := x2 - x1) in *. set (q0 := (x1 + x2) * 0.5).
  assert (M : 0 < m) by (unfold m; lra). assert (N : 0 < n) by (unfold n; lra). assert (P : 0 < p) by (unfold p; lra). assert (P2 : 0 < p ^ 2) by nra.
  assert (T1 : m / p * (n / p) < 0.9999).
  { apply (Rmult_lt_reg_r (p ^ 2)); [exact P2|]. replace (m / p * (n / p) * p ^ 2) with (m * n) by (field; lra). lra. }
  cbv zeta. rewrite ltb_yes by lra.
  set (a := p / m). set (b := p / n). assert (A : 0 < a) by now apply Rdiv_lt_0_compat. assert (B : 0 < b) by now apply Rdiv_lt_0_compat.
  assert (AB1 : 1 < a * b).
  { apply (Rmult_lt_reg_r (m * n)); [now apply Rmult_lt_0_compat|]. replace (a * b * (m * n)) with (p ^ 2) by (unfold a, b; field; lra). nra. }
  unfold reproduces, quantile. destruct (sb_h a b A B AB1) as (CP & _). destruct (sb_lam p a b P A B AB1) as [_ LP].
  destruct (sb_points p a b q0 P A B AB1) as (I1 & I2 & O1 & O2). cbv zeta in *.
  set (c := arccosh (0.5 * sqrt _)) in *. set (g := arcsinh _) in *. set (lam := p * sqrt _ / _) in *. set (xi := q0 - 0.5 * lam + _ / _) in *.
  rewrite (ltb_yes 0 (0.5 / c)) by (apply Rdiv_lt_0_compat; lra). rewrite (ltb_yes 0 lam) by exact LP. cbn [andb].
  assert (Q : forall z, (z - 0.5 / c * g) / (0.5 / c) = 2 * z * c - g). { intro. replace 0.5 with (/ 2) by lra. field. lra. } rewrite !Q.
  replace (2 * -1.5 * c) with (- (3 * c)) by lra. replace (2 * -0.5 * c) with (- c) by lra. replace (2 * 0.5 * c) with c by lra. replace (2 * 1.5 * c) with (3 * c) by lra.
  rewrite I1, I2, O1, O2. replace (p / a) with m by (unfold a; field; lra). replace (p / b) with n by (unfold b; field; lra).
  unfold q0, p, m, n. repeat split; f_equal; lra.
Qed.
Print Assumptions c67_bounded.

Lemma johnsonsl_one a b loc : 0 < b -> b <> 1 -> johnsonsl a b loc 1 = LogNormal (1 / b) loc (Some (exp (- (a / b)))).
Proof.
  intros B B1. unfold johnsonsl, np_log. replace (b / 1) with b by field. rewrite ltb_yes by exact B. rewrite ltb_yes by lra. rewrite ln_1.
  assert (L : ln b <> 0). { intro L. apply B1. rewrite <- (exp_ln b B), L. apply exp_0. }
  rewrite eqb_no. 2:{ apply Rmult_integral_contrapositive_currified; [exact L|]. apply pow_nonzero. lra. }
  f_equal. f_equal. f_equal. field. split; lra.
Qed.
Lemma johnsonsl_nan a b loc scale z : scale < 0 \/ b = 1 /\ scale = 1 -> quantile (johnsonsl a b loc scale) z = None.
Proof.
  intros [H|[-> ->]]; unfold johnsonsl, np_log.
  - rewrite (ltb_no 0 scale) by lra. destruct (Rltb 0 (b / scale)); reflexivity.
  - replace (1 / 1) with 1 by field. rewrite !ltb_yes by lra. rewrite ln_1. rewrite (proj2 (Reqb_true _ _)) by ring. reflexivity.
Qed.
(** Between the two families, with a longer upper tail: three of the quantiles are exact, and the fourth is only when the
    lengths are exactly in proportion; it is out by at most 1/10000 of the length it should have. *)
Theorem c67_lognormal (x0 x1 x2 x3 : R) : x0 < x1 < x2 -> x2 < x3 ->
  let m := x3 - x2 in let n := x1 - x0 in let p := x2 - x1 in
  0.9999 * p ^ 2 <= m * n <= 1.0001 * p ^ 2 -> 1.0001 * p < m -> m <> exp 1 * p ->
  let d := fit_quantiles x0 x1 x2 x3 in
  exists y0, quantile d (-1.5) = Some y0 /\ quantile d (-0.5) = Some x1 /\ quantile d 0.5 = Some x2 /\ quantile d 1.5 = Some x3 /\
    (x1 - y0) * m = p ^ 2 /\ (y0 = x0 <-> m * n = p ^ 2) /\ Rabs (y0 - x0) <= 0.0001 * (x1 - y0).
Proof.
  intros [X1 X2] X3 m n p [T1 T2] MP ME d. unfold d, fit_quantiles. fold m n p. set (q0 := (x1 + x2) * 0.5).
  assert (M : 0 < m) by (unfold m; lra). assert (N : 0 < n) by (unfold n; lra). assert (P : 0 < p) by (unfold p; lra). assert (P2 : 0 < p ^ 2) by nra.
  set (a := m / p). set (b := n / p). assert (A : 0 < a) by now apply Rdiv_lt_0_compat. assert (B : 0 < b) by now apply Rdiv_lt_0_compat.
  assert (AB : a * b * p ^ 2 = m * n) by (unfold a, b; field; lra). assert (AM : a * p = m) by (unfold a; field; lra).
  cbv zeta. rewrite ltb_no by nra. rewrite ltb_no by nra.
  assert (A1 : 1.0001 < a) by nra. rewrite ltb_yes by (rewrite Rabs_right; lra). rewrite (ltb_yes 0 (a - 1)) by lra. rewrite (Rabs_right (a - 1)) by lra.
  assert (LA : 0 < ln a) by (rewrite <- ln_1; apply ln_increasing; lra).
  rewrite johnsonsl_one.
  2:{ apply Rdiv_lt_0_compat; lra. }
  2:{ intro H. apply ME. assert (L1 : ln a = 1). { apply (f_equal Rinv) in H. rewrite Rinv_1 in H. rewrite <- H. field. lra. } rewrite <- AM, <- (exp_ln a A), L1. ring. }
  assert (SA : 0 < sqrt a) by (apply sqrt_lt_R0; lra). assert (S2 : sqrt a * sqrt a = a) by (apply sqrt_sqrt; lra).
  assert (G : exp (- (1 / ln a * ln ((a - 1) / (p * sqrt a)) / (1 / ln a))) = p * sqrt a / (a - 1)).
  { replace (- (1 / ln a * ln ((a - 1) / (p * sqrt a)) / (1 / ln a))) with (- ln ((a - 1) / (p * sqrt a))) by (field; lra).
    rewrite exp_Ropp, exp_ln; [field; split; [lra|split; lra]|]. apply Rdiv_lt_0_compat; [lra|now apply Rmult_lt_0_compat]. }
  rewrite G. replace (1 / (1 / ln a)) with (ln a) by (field; lra). unfold quantile. rewrite (ltb_yes 0 (ln a)) by exact LA.
  assert (KP : 0 < p * sqrt a / (a - 1)) by (apply Rdiv_lt_0_compat; [now apply Rmult_lt_0_compat|lra]). rewrite ltb_yes by exact KP. cbn [andb].
  assert (H5 : exp (ln a * 0.5) = sqrt a). { replace (ln a * 0.5) with (/ 2 * ln a) by lra. now apply Rpower_sqrt. }
  assert (H15 : exp (ln a * 1.5) = a * sqrt a). { replace (ln a * 1.5) with (ln a + ln a * 0.5) by lra. rewrite exp_plus, H5, exp_ln by exact A. reflexivity. }
  replace (ln a * -0.5) with (- (ln a * 0.5)) by lra. replace (ln a * -1.5) with (- (ln a * 1.5)) by lra. rewrite !exp_Ropp, H5, H15.
  set (loc := q0 - 0.5 * p * (a + 1) / (a - 1)).
  exists (loc + p * sqrt a / (a - 1) * / (a * sqrt a)). split; [reflexivity|].
  assert (V0 : loc + p * sqrt a / (a - 1) * / (a * sqrt a) = x1 - p / a).
  { replace (p * sqrt a / (a - 1) * / (a * sqrt a)) with (p / (a * (a - 1))) by (field; lra). unfold loc, q0. replace 0.5 with (/ 2) by lra.
    replace x2 with (x1 + p) by (unfold p; ring). field. lra. }
  split; [f_equal|split; [f_equal|split; [f_equal|]]].
  - replace (p * sqrt a / (a - 1) * / sqrt a) with (p / (a - 1)) by (field; lra). unfold loc, q0. replace 0.5 with (/ 2) by lra.
    replace x2 with (x1 + p) by (unfold p; ring). field. lra.
  - replace (p * sqrt a / (a - 1) * sqrt a) with (p * (sqrt a * sqrt a) / (a - 1)) by (field; lra). rewrite S2. unfold loc, q0. replace 0.5 with (/ 2) by lra.
    replace x1 with (x2 - p) by (unfold p; ring). field. lra.
  - replace (p * sqrt a / (a - 1) * (a * sqrt a)) with (p * a * (sqrt a * sqrt a) / (a - 1)) by (field; lra). rewrite S2. unfold loc, q0. replace 0.5 with (/ 2) by lra.
    replace x1 with (x2 - p) by (unfold p; ring). replace x3 with (x2 + a * p) by (rewrite AM; unfold m; ring). field. lra.
  - rewrite V0. assert (PA : p / a * m = p ^ 2) by (rewrite <- AM; field; lra). assert (0 < p / a) by now apply Rdiv_lt_0_compat.
    split; [lra|]. split.
    + split; intro H0.
      * assert (n = p / a) by (unfold n; lra). rewrite H1. lra.
      * assert (n = p / a). { apply (Rmult_eq_reg_r m); [|lra]. rewrite PA. lra. } unfold n in H1. lra.
    + replace (x1 - p / a - x0) with (n - p / a) by (unfold n; ring). replace (x1 - (x1 - p / a)) with (p / a) by ring.
      apply Rabs_le. split; apply (Rmult_le_reg_r m); try exact M; nra.
Qed.
Print Assumptions c67_lognormal.
(** With a longer lower tail, or when the upper lengths are in the ratio e, the distribution has no quantiles at all. *)
Theorem c67_lognormal_refuted (x0 x1 x2 x3 z : R) : x0 < x1 < x2 -> x2 < x3 ->
  let m := x3 - x2 in let n := x1 - x0 in let p := x2 - x1 in
  0.9999 * p ^ 2 <= m * n <= 1.0001 * p ^ 2 -> m < 0.9999 * p \/ m = exp 1 * p ->
  quantile (fit_quantiles x0 x1 x2 x3) z = None.
Proof.
  intros [X1 X2] X3 m n p [T1 T2] ME. unfold fit_quantiles. fold m n p. set (q0 := (x1 + x2) * 0.5).
  assert (M : 0 < m) by (unfold m; lra). assert (N : 0 < n) by (unfold n; lra). assert (P : 0 < p) by (unfold p; lra). assert (P2 : 0 < p ^ 2) by nra.
  set (a := m / p). set (b := n / p). assert (A : 0 < a) by now apply Rdiv_lt_0_compat. assert (B : 0 < b) by now apply Rdiv_lt_0_compat.
  assert (AB : a * b * p ^ 2 = m * n) by (unfold a, b; field; lra). assert (AM : a * p = m) by (unfold a; field; lra).
  cbv zeta. rewrite ltb_no by nra. rewrite ltb_no by nra. destruct ME as [ME|ME].
  - assert (A1 : a < 0.9999) by nra. rewrite ltb_yes by (rewrite Rabs_left; lra). rewrite (ltb_no 0 (a - 1)) by lra. apply johnsonsl_nan. left. lra.
  - assert (A1 : a = exp 1) by (unfold a; rewrite ME; field; lra). pose proof (exp_ineq1 1 ltac:(lra)). rewrite ltb_yes by (rewrite Rabs_right; lra). rewrite (ltb_yes 0 (a - 1)) by lra.
    apply johnsonsl_nan. right. split; [|reflexivity]. rewrite A1, ln_exp. field.
Qed.
Print Assumptions c67_lognormal_refuted.
(** Evenly spaced quantiles are not reproduced unless the spacing is one. *)
Theorem c67_normal_refuted (x1 s : R) : 0 < s ->
  let d := fit_quantiles (x1 - s) x1 (x1 + s) (x1 + 2 * s) in
  (exists loc scale, d = Normal loc scale) /\ (reproduces d (x1 - s) x1 (x1 + s) (x1 + 2 * s) <-> s = 1).
Proof.
  intros S0 d. unfold d, fit_quantiles. replace (x1 + 2 * s - (x1 + s)) with s by ring. replace (x1 - (x1 - s)) with s by ring. replace (x1 + s - x1) with s by ring.
  replace (s / s) with 1 by (field; lra). cbv zeta. rewrite !ltb_no by (try (replace (1 - 1) with 0 by ring; rewrite Rabs_R0); lra).
  split; [eexists; eexists; reflexivity|]. unfold reproduces, quantile. assert (0 < 1 / s) by (apply Rdiv_lt_0_compat; lra). rewrite ltb_yes by assumption. split.
  - intros (_ & H1 & H2 & _). injection H1 as H1. injection H2 as H2. assert (D : 1 / s = s) by lra.
    assert (s * s = 1) by (rewrite <- D at 1; field; lra). nra.
  - intros ->. replace (1 / 1) with 1 by field. repeat split; f_equal; lra.
Qed.
Print Assumptions c67_normal_refuted.

(** Cases: quantiles of each kind. *)
Example c67_unbounded_case : reproduces (fit_quantiles 1 2 3 6) 1 2 3 6.
Proof. apply c67_unbounded; lra. Qed.
Example c67_bounded_case : reproduces (fit_quantiles (-2) (-1) 1 2) (-2) (-1) 1 2.
Proof. apply c67_bounded; lra. Qed.
Example c67_lognormal_case : reproduces (fit_quantiles 0 2 6 14) 0 2 6 14.
Proof.
  assert (E2 : 2 < exp 1) by (pose proof (exp_ineq1 1 ltac:(lra)); lra).
  destruct (c67_lognormal 0 2 6 14) as (y0 & H1 & H2 & H3 & H4 & H5 & [_ H6] & H7); try lra.
  rewrite H6 in H1 by lra. repeat split; assumption.
Qed.

(** ** C103: the fit to moments *)
Section Moments.
Variable sb_fit : R -> R -> R -> R -> result (R * R * R * R).
Variable fuel : nat.
Notation fit := (fit_moments sb_fit fuel).

(** Moments which no distribution has are refused, and distributions with two values or one are not returned. *)
Theorem c103_refused (mean sd skew kurtosis : R) (return_rv : bool) :
  (sd < 0 -> fit mean sd skew kurtosis return_rv = Err ValueError) /\
  (sd = 0 -> fit mean sd skew kurtosis true = Err NotImplementedError) /\
  (0 < sd -> 0 <= kurtosis < skew ^ 2 + 0.99 -> fit mean sd skew kurtosis return_rv = Err ValueError) /\
  (0 < sd -> skew ^ 2 + 0.99 <= kurtosis <= skew ^ 2 + 1.01 -> fit mean sd skew kurtosis true = Err NotImplementedError).
Proof.
  assert (S2 := pow2_ge_0 skew). unfold fit_moments. repeat split.
  - intro H. rewrite ltb_yes by exact H. reflexivity.
  - intros ->. rewrite ltb_no by lra. rewrite (proj2 (Reqb_true 0 0) eq_refl). reflexivity.
  - intros SD [K1 K2]. rewrite ltb_no by lra. rewrite eqb_no by lra. rewrite leb_yes by lra. rewrite ltb_yes by lra. reflexivity.
  - intros SD [K1 K2]. rewrite ltb_no by lra. rewrite eqb_no by lra. rewrite leb_yes by lra. rewrite ltb_no by lra. rewrite leb_yes by lra. cbn [andb].
    set (r := sqrt (1 - 4 / (skew ^ 2 + 4))). assert (R1 : 0 <= r < 1).
    { split; [apply sqrt_pos|]. rewrite <- sqrt_1. apply sqrt_lt_1_alt. assert (0 < 4 / (skew ^ 2 + 4)) by (apply Rdiv_lt_0_compat; lra).
      assert (4 / (skew ^ 2 + 4) <= 1) by (apply (Rmult_le_reg_r (skew ^ 2 + 4)); [lra|]; replace (4 / (skew ^ 2 + 4) * (skew ^ 2 + 4)) with 4 by (field; lra); lra). lra. }
    set (y := if Rltb 0 skew then _ else _). assert (Y : 0 < y < 1) by (unfold y; destruct (Rltb 0 skew); lra).
    assert (Q : 0 < y * (1 - y)) by (apply Rmult_lt_0_compat; lra). unfold msqrt. rewrite ltb_no by lra. cbn [bind]. unfold mdiv. rewrite eqb_no; [reflexivity|].
    apply Rgt_not_eq. now apply sqrt_lt_R0.
Qed.
Print Assumptions c103_refused.

(** The smallest kurtosis: the two values and the proportion returned have the mean, standard deviation and skew given. *)
Theorem c103_two_values (mean sd skew kurtosis : R) : 0 < sd -> skew ^ 2 + 0.99 <= kurtosis <= skew ^ 2 + 1.01 ->
  exists xi xlam gamma q, fit mean sd skew kurtosis false = Ok (Some (Params 5 xi xlam gamma q)) /\ 0 < q < 1 /\ xi < xlam /\
    two_mean xlam xi q = mean /\ two_central xlam xi q 2 = sd ^ 2 /\ two_central xlam xi q 3 = skew * sd ^ 3 /\
    two_central xlam xi q 4 = (skew ^ 2 + 1) * sd ^ 4.
Proof.
  intros SD [K1 K2]. assert (S2 := pow2_ge_0 skew). unfold fit_moments.
  rewrite ltb_no by lra. rewrite eqb_no by lra. rewrite leb_yes by lra. rewrite ltb_no by lra. rewrite leb_yes by lra. cbn [andb].
  set (v := 1 - 4 / (skew ^ 2 + 4)). set (r := sqrt v).
  assert (V0 : v * (skew ^ 2 + 4) = skew ^ 2) by (unfold v; field; lra). assert (V : 0 <= v) by nra.
  assert (R2 : r ^ 2 = v) by (apply pow2_sqrt; exact V). assert (RP : 0 <= r) by apply sqrt_pos.
  assert (V1 : v < 1) by (assert (0 < 4 / (skew ^ 2 + 4)) by (apply Rdiv_lt_0_compat; lra); unfold v; lra). assert (R1 : r < 1) by nra.
  set (y := if Rltb 0 skew then _ else _). assert (Y : 0 < y < 1) by (unfold y; destruct (Rltb 0 skew); lra).
  assert (Q : y * (1 - y) * (skew ^ 2 + 4) = 1).
  { replace (y * (1 - y)) with ((1 - r ^ 2) / 4) by (unfold y; destruct (Rltb 0 skew); lra). rewrite R2. unfold v. field. lra. }
  assert (QP : 0 < y * (1 - y)) by (apply Rmult_lt_0_compat; lra).
  unfold msqrt. rewrite ltb_no by lra. cbn [bind]. assert (SQ : 0 < sqrt (y * (1 - y))) by now apply sqrt_lt_R0.
  unfold mdiv. rewrite eqb_no by lra. cbn [bind]. set (s := sqrt (y * (1 - y))) in *. assert (SS : s ^ 2 = y * (1 - y)) by (apply pow2_sqrt; lra).
  set (x := sd / s). assert (XP : 0 < x) by now apply Rdiv_lt_0_compat. assert (XS : x * s = sd) by (unfold x; field; lra).
  exists (mean - y * x), (mean - y * x + x), 0, y. split; [reflexivity|]. split; [exact Y|]. split; [lra|].
  assert (TM : two_mean (mean - y * x + x) (mean - y * x) y = mean) by (unfold two_mean; ring). split; [exact TM|].
  assert (E2 : x ^ 2 * (y * (1 - y)) = sd ^ 2) by (rewrite <- SS, <- XS; ring).
  assert (SK : (1 - 2 * y) = skew * s).
  { assert (LQ : (1 - 2 * y) ^ 2 = (skew * s) ^ 2). { rewrite Rpow_mult_distr, SS. transitivity (y * (1 - y) * (skew ^ 2 + 4) - 4 * (y * (1 - y))); [rewrite Q|]; ring. }
    unfold y in *. destruct (Rltb 0 skew) eqn:E; [apply Rltb_true in E|apply Rltb_false in E].
    - apply square_eq; [lra|apply Rmult_le_pos; lra|exact LQ].
    - cut (- (1 - 2 * (0.5 + 0.5 * r)) = - (skew * s)); [lra|]. apply square_eq; [lra|nra|]. replace ((- (skew * s)) ^ 2) with ((skew * s) ^ 2) by ring. rewrite <- LQ. ring. }
  unfold two_central. rewrite TM.
  replace (mean - y * x + x - mean) with ((1 - y) * x) by ring. replace (mean - y * x - mean) with (- (y * x)) by ring. repeat split.
  - rewrite <- E2. ring.
  - replace (y * ((1 - y) * x) ^ 3 + (1 - y) * (- (y * x)) ^ 3) with (x * (x ^ 2 * (y * (1 - y))) * (1 - 2 * y)) by ring. rewrite E2, SK, <- XS. ring.
  - replace (y * ((1 - y) * x) ^ 4 + (1 - y) * (- (y * x)) ^ 4) with (x ^ 2 * (x ^ 2 * (y * (1 - y))) * (1 - 3 * (y * (1 - y)))) by ring. rewrite E2.
    replace (x ^ 2) with (sd ^ 2 * (skew ^ 2 + 4)).
    { transitivity (sd ^ 4 * (skew ^ 2 + 4 - 3 * (y * (1 - y) * (skew ^ 2 + 4)))); [ring|]. rewrite Q. ring. }
    rewrite <- E2. replace (x ^ 2 * (y * (1 - y)) * (skew ^ 2 + 4)) with (x ^ 2 * (y * (1 - y) * (skew ^ 2 + 4))) by ring. rewrite Q. ring.
Qed.
Print Assumptions c103_two_values.

(** Close to a normal distribution, the normal distribution with the mean and standard deviation is returned. *)
Theorem c103_normal (mean sd skew kurtosis : R) : 0 < sd -> Rabs skew < 0.01 -> Rabs (kurtosis - 3) < 0.01 ->
  exists d, fit mean sd skew kurtosis true = Ok (Some (Rv d)) /\ forall z, quantile d z = Some (mean + sd * z).
Proof.
  intros SD SK KU. pose proof (Rabs_def2 _ _ SK). pose proof (Rabs_def2 _ _ KU). unfold fit_moments.
  rewrite ltb_no by lra. rewrite eqb_no by lra. rewrite leb_yes by lra. rewrite ltb_no by nra. rewrite leb_no by nra. cbn [andb].
  rewrite !ltb_yes by assumption. cbn [andb]. exists (Normal mean sd). split; [reflexivity|]. intro z. cbn [quantile]. now rewrite ltb_yes.
Qed.
Print Assumptions c103_normal.

(** What the fits below have in common: the distribution is that of [f] of a standard normal number, whose mean and
    standard deviation are those given. *)
Definition mean_sd (d : dist) (f : expsum) (mean sd : R) : Prop :=
  (forall z, quantile d z = Some (value f z)) /\ expect f = mean /\ central f 2 = sd ^ 2.

Lemma lognormal_moments mean sd skew : 0 < sd -> 0 < skew -> ln (omega_of skew) <> 1 ->
  exists d f, sl_fit mean sd skew (omega_of skew) true = Ok (Rv d) /\ mean_sd d f mean sd /\ central f 3 = skew * sd ^ 3 /\
    central f 4 = (omega_of skew ^ 4 + 2 * omega_of skew ^ 3 + 3 * omega_of skew ^ 2 - 3) * sd ^ 4.
Proof.
  intros SD SK NE. destruct (omega_facts skew) as (OE & _ & O1). specialize (O1 ltac:(lra)). set (o := omega_of skew) in *.
  assert (LO : 0 < ln o) by (rewrite <- ln_1; apply ln_increasing; lra). unfold sl_fit. rewrite (ltb_no skew 0) by lra.
  unfold mlog at 1. rewrite ltb_yes by lra. cbn [bind]. unfold msqrt. rewrite ltb_no by lra. cbn [bind].
  assert (SO : 0 < sqrt (ln o)) by now apply sqrt_lt_R0. unfold mdiv. rewrite eqb_no by lra. cbn [bind]. assert (S2 : 0 < sd ^ 2) by nra. rewrite eqb_no by lra. cbn [bind].
  assert (RP : 0 < o * (o - 1) / sd ^ 2) by (apply Rdiv_lt_0_compat; nra). unfold mlog. rewrite ltb_yes by exact RP. cbn [bind].
  set (s := sqrt (ln o)) in *. assert (SS : s ^ 2 = ln o) by (apply pow2_sqrt; lra). set (g := ln (o * (o - 1) / sd ^ 2)) in *.
  rewrite johnsonsl_one.
  2:{ apply Rdiv_lt_0_compat; lra. }
  2:{ intro H. apply NE. assert (s = 1) by (apply (f_equal Rinv) in H; rewrite Rinv_1 in H; rewrite <- H; field; lra). rewrite <- SS, H0. ring. }
  set (loc := 1 * mean - _). replace (1 / (1 / s)) with s by (field; lra).
  set (k := exp (- (0.5 * (1 / s) * g / (1 / s)))). assert (KP : 0 < k) by apply exp_pos.
  assert (K2 : k ^ 2 * (o * (o - 1)) = sd ^ 2).
  { replace (k ^ 2) with (/ exp g). 2:{ replace (k ^ 2) with (k * k) by ring. unfold k. rewrite <- exp_plus, <- exp_Ropp. f_equal. replace 0.5 with (/ 2) by lra. field. lra. }
    unfold g. rewrite exp_ln by exact RP. field. nra. }
  exists (LogNormal s loc (Some k)), [(loc, 0); (k, s); (0, - s)]. split; [reflexivity|].
  destruct (less_mean_two loc k 0 s) as [EX LM]. cbv zeta in EX, LM. set (f := [(loc, 0); (k, s); (0, - s)]) in *.
  set (w := exp (s ^ 2 / 2)) in *. assert (W2 : w ^ 2 = o). { replace (w ^ 2) with (w * w) by ring. unfold w. rewrite <- exp_plus. rewrite <- (exp_ln o) by lra. f_equal. rewrite SS. field. }
  assert (WP : 0 < w) by apply exp_pos.
  assert (C2 : central f 2 = sd ^ 2).
  { transitivity (expect (power [(- expect f, 0); (loc, 0); (k, s); (0, - s)] 2)); [reflexivity|]. rewrite (central_2 (expect f) loc k 0 s EX). fold w. rewrite W2, <- K2. ring. }
  split; [split; [|split; [|exact C2]]|split].
  - intro z. unfold quantile. rewrite !ltb_yes by assumption. cbn [andb]. f_equal. unfold f, value. cbn [fold_right fst snd]. rewrite Rmult_0_l, exp_0. ring.
  - rewrite EX. unfold loc. replace ((0.5 / (1 / s) - 0.5 * (1 / s) * g) / (1 / s)) with (- (0.5 * (1 / s) * g / (1 / s)) + s ^ 2 / 2).
    2:{ replace 0.5 with (/ 2) by lra. field. lra. }
    rewrite exp_plus. fold k w. ring.
  - transitivity (expect (power [(- expect f, 0); (loc, 0); (k, s); (0, - s)] 3)); [reflexivity|]. rewrite (central_3_one (expect f) loc k 0 s EX eq_refl). fold w. rewrite W2.
    apply (Rmult_eq_reg_r (k * w)); [|apply Rgt_not_eq; now apply Rmult_lt_0_compat].
    assert (KW : sd ^ 2 = (k * w) ^ 2 * (o - 1)) by (rewrite <- K2, <- W2; ring). set (x := k * w) in *. assert (XP : 0 < x) by (unfold x; now apply Rmult_lt_0_compat).
    assert (SQ : x * ((o - 1) * (o + 2)) = skew * sd).
    { apply square_eq; [apply Rmult_le_pos; [lra|apply Rmult_le_pos; lra]|apply Rmult_le_pos; lra|].
      replace ((skew * sd) ^ 2) with (skew ^ 2 * sd ^ 2) by ring. rewrite <- OE, KW. ring. }
    replace (k ^ 3 * w ^ 3 * (o - 1) ^ 2 * (o + 2) * x) with (x ^ 2 * (o - 1) * (x * (x * ((o - 1) * (o + 2))))) by (unfold x; ring).
    rewrite <- KW, SQ. ring.
  - transitivity (expect (power [(- expect f, 0); (loc, 0); (k, s); (0, - s)] 4)); [reflexivity|]. rewrite (central_4_one (expect f) loc k 0 s EX eq_refl). fold w.
    replace (sd ^ 4) with ((sd ^ 2) ^ 2) by ring. rewrite <- K2. replace (w ^ 8) with ((w ^ 2) ^ 4) by ring. replace (w ^ 6) with ((w ^ 2) ^ 3) by ring. replace (w ^ 4) with ((w ^ 2) ^ 2) by ring.
    rewrite W2. ring.
Qed.

(** [o] is the number a log normal distribution with this skew has: [o = exp (s^2)] for the shape [s]. *)
Definition lognormal_skew (o skew : R) : Prop := 1 <= o /\ (o - 1) * (o + 2) ^ 2 = skew ^ 2.
Definition lognormal_kurtosis (o : R) : R := o ^ 4 + 2 * o ^ 3 + 3 * o ^ 2 - 3.
(** When a log normal distribution is asked for: a kurtosis below zero, or one close to that of the log normal
    distribution with the same skew, but not one of those dealt with above. *)
Definition asks_lognormal (o skew kurtosis : R) : Prop :=
  kurtosis < 0 \/ Rabs (lognormal_kurtosis o - kurtosis) < 0.01 /\ skew ^ 2 + 1.01 < kurtosis /\ ~ (Rabs skew < 0.01 /\ Rabs (kurtosis - 3) < 0.01).

Lemma omega_unique o skew : lognormal_skew o skew -> o = omega_of skew.
Proof.
  intros [O1 OE]. destruct (omega_facts skew) as (WE & W1 & _). set (w := omega_of skew) in *.
  assert (D : (o - w) * (o ^ 2 + o * w + w ^ 2 + 3 * (o + w)) = 0) by nra. apply Rmult_integral in D. destruct D as [D|D]; [lra|]. exfalso. nra.
Qed.
Lemma asks_fit mean sd skew kurtosis return_rv o : 0 < sd -> lognormal_skew o skew -> asks_lognormal o skew kurtosis ->
  fit mean sd skew kurtosis return_rv = bind (sl_fit mean sd skew (omega_of skew) return_rv) (fun f => Ok (Some f)).
Proof.
  intros SD LS AL. pose proof (omega_unique _ _ LS) as OU. assert (S2 := pow2_ge_0 skew). unfold fit_moments. rewrite ltb_no by lra. rewrite eqb_no by lra.
  fold (omega_of skew). rewrite <- OU. replace (o * o * (3 + o * (2 + o)) - 3) with (lognormal_kurtosis o) by (unfold lognormal_kurtosis; ring). cbv zeta.
  destruct AL as [KN|(KB & KP & NN)].
  - rewrite (leb_no 0 kurtosis) by exact KN. cbn [andb]. rewrite (ltb_no (Rabs (kurtosis - 3))), andb_false_r by (rewrite Rabs_left; lra).
    rewrite (ltb_yes kurtosis 0) by exact KN. rewrite ltb_yes; [reflexivity|]. replace (lognormal_kurtosis o - lognormal_kurtosis o) with 0 by ring. rewrite Rabs_R0. lra.
  - rewrite (leb_yes 0 kurtosis) by lra. rewrite (ltb_no kurtosis) by lra. rewrite leb_no by lra. cbn [andb].
    replace (Rltb (Rabs skew) 0.01 && Rltb (Rabs (kurtosis - 3)) 0.01) with false.
    2:{ symmetry. destruct (Rltb (Rabs skew) 0.01) eqn:E1; [|reflexivity]. destruct (Rltb (Rabs (kurtosis - 3)) 0.01) eqn:E2; [|reflexivity].
        apply Rltb_true in E1. apply Rltb_true in E2. tauto. }
    rewrite (ltb_no kurtosis 0) by lra. rewrite ltb_yes by exact KB. reflexivity.
Qed.
(** With a positive skew the log normal distribution has the mean, standard deviation and skew given, and its kurtosis is
    that of a log normal distribution. *)
Theorem c103_lognormal (mean sd skew kurtosis o : R) : 0 < sd -> 0 < skew -> lognormal_skew o skew -> asks_lognormal o skew kurtosis -> o <> exp 1 ->
  exists d f, fit mean sd skew kurtosis true = Ok (Some (Rv d)) /\ mean_sd d f mean sd /\ central f 3 = skew * sd ^ 3 /\
    central f 4 = lognormal_kurtosis o * sd ^ 4.
Proof.
  intros SD SK LS AL NE. pose proof (omega_unique _ _ LS) as OU. destruct (lognormal_moments mean sd skew SD SK) as (d & f & H1 & H2 & H3 & H4).
  { intro L. apply NE. rewrite OU, <- L. symmetry. apply exp_ln. destruct LS. lra. }
  exists d, f. rewrite (asks_fit _ _ _ _ _ o SD LS AL), H1. split; [reflexivity|]. rewrite <- OU in H4. tauto.
Qed.
(** With a negative skew, or when that number is e, every quantile is NaN; without skew the fit fails. *)
Theorem c103_lognormal_refuted (mean sd skew kurtosis o : R) : 0 < sd -> lognormal_skew o skew -> asks_lognormal o skew kurtosis ->
  (skew < 0 \/ o = exp 1 -> exists d, fit mean sd skew kurtosis true = Ok (Some (Rv d)) /\ forall z, quantile d z = None) /\
  (skew = 0 -> fit mean sd skew kurtosis true = Err ZeroDivisionError).
Proof.
  intros SD LS AL. rewrite (asks_fit _ _ _ _ _ o SD LS AL). pose proof (omega_unique _ _ LS) as OU. destruct (omega_facts skew) as (OE & OG & O1). rewrite <- OU in *.
  assert (S2 : 0 < sd ^ 2) by nra. split.
  - intro C. assert (N : skew <> 0). { intros ->. destruct C as [C|C]; [lra|]. pose proof (exp_ineq1 1 ltac:(lra)). nra. }
    specialize (O1 N). assert (LO : 0 < ln o) by (rewrite <- ln_1; apply ln_increasing; lra). unfold sl_fit.
    unfold mlog at 1. rewrite ltb_yes by lra. cbn [bind]. unfold msqrt. rewrite ltb_no by lra. cbn [bind].
    assert (SO : 0 < sqrt (ln o)) by now apply sqrt_lt_R0. unfold mdiv. rewrite eqb_no by lra. cbn [bind]. rewrite eqb_no by lra. cbn [bind].
    assert (RP : 0 < o * (o - 1) / sd ^ 2) by (apply Rdiv_lt_0_compat; nra). unfold mlog. rewrite ltb_yes by exact RP. cbn [bind].
    eexists. split; [reflexivity|]. intro z. apply johnsonsl_nan. destruct (Rltb skew 0) eqn:E; [left; lra|]. apply Rltb_false in E.
    destruct C as [C|C]; [lra|]. right. split; [|reflexivity]. rewrite C, ln_exp, sqrt_1. field.
  - intros ->. assert (o = 1). { destruct LS as [L1 L2]. assert ((o - 1) * (o + 2) ^ 2 = 0) by lra. apply Rmult_integral in H. destruct H as [H|H]; [lra|]. nra. }
    subst o. rewrite H. unfold sl_fit, mlog. rewrite ltb_yes by lra. cbn [bind]. rewrite ln_1. unfold msqrt. rewrite ltb_no by lra. cbn [bind]. rewrite sqrt_0.
    unfold mdiv. rewrite (proj2 (Reqb_true 0 0) eq_refl). reflexivity.
Qed.

Lemma msqrt_ok x y : msqrt x = Ok y -> 0 <= x /\ y = sqrt x.
Proof. unfold msqrt. destruct (Rltb x 0) eqn:E; [discriminate|]. apply Rltb_false in E. intro H. inversion H. split; [lra|reflexivity]. Qed.
Lemma mlog_ok x y : mlog x = Ok y -> 0 < x /\ y = ln x.
Proof. unfold mlog. destruct (Rltb 0 x) eqn:E; [|discriminate]. apply Rltb_true in E. intro H. inversion H. split; [lra|reflexivity]. Qed.
Lemma mdiv_ok x y z : mdiv x y = Ok z -> y <> 0 /\ z = x / y.
Proof. unfold mdiv. destruct (Reqb y 0) eqn:E; [discriminate|]. apply Reqb_false in E. intro H. inversion H. split; [assumption|reflexivity]. Qed.
Lemma bind_ok {A B} (r : result A) (f : A -> result B) y : bind r f = Ok y -> exists x, r = Ok x /\ f x = Ok y.
Proof. destruct r as [x|]; [|discriminate]. intro H. exists x. split; [reflexivity|exact H]. Qed.
(** The last lines of the fit of an unbounded distribution, for any [w] and [y]. *)
Lemma su_result sd mean w y (sx delta xlam : R) : 0 < sd -> 0 < w -> ln w <> 0 -> 0 <= 1 / ln w -> delta = sqrt (1 / ln w) ->
  0 <= 0.5 * (w - 1) * (0.5 * w * (exp y ^ 2 + 1 / exp y ^ 2) + 1) -> sx = sqrt (0.5 * (w - 1) * (0.5 * w * (exp y ^ 2 + 1 / exp y ^ 2) + 1)) -> sx <> 0 -> xlam = sd / sx ->
  let f := [(mean + xlam * exp (/ delta ^ 2 / 2) * sinh y, 0); (xlam / 2 * exp (- y), / delta); (- (xlam / 2 * exp y), - / delta)] in
  mean_sd (Unbounded (y * delta) delta (mean + xlam * exp (/ delta ^ 2 / 2) * sinh y) xlam) f mean sd /\
  (y = 0 -> central f 3 = 0 /\ 2 * central f 4 = (w ^ 4 + 2 * w ^ 2 + 3) * sd ^ 4) /\ 1 < w.
Proof.
  intros SD WP LN IL DE SX0 SXE SXN XL f.
  assert (LP : 0 < ln w). { destruct (Rle_lt_dec (ln w) 0) as [H|H]; [|exact H]. exfalso. assert (ln w < 0) by lra. assert (1 / ln w < 0) by (unfold Rdiv; rewrite Rmult_1_l; now apply Rinv_lt_0_compat). lra. }
  assert (W1 : 1 < w). { apply Rnot_le_lt. intro H. assert (ln w <= ln 1) by (destruct H as [H|H]; [left; now apply ln_increasing|right; now f_equal]). rewrite ln_1 in H0. lra. }
  assert (DP : 0 < delta). { rewrite DE. apply sqrt_lt_R0. apply Rdiv_lt_0_compat; lra. } assert (D2 : delta ^ 2 = 1 / ln w) by (rewrite DE; apply pow2_sqrt; exact IL).
  assert (SXP : 0 < sx). { assert (0 <= sx) by (rewrite SXE; apply sqrt_pos). lra. } assert (XP : 0 < xlam) by (rewrite XL; now apply Rdiv_lt_0_compat).
  assert (ED : / delta ^ 2 = ln w) by (rewrite D2; field; lra).
  assert (W : exp ((/ delta) ^ 2 / 2) = exp (/ delta ^ 2 / 2)) by (f_equal; field; lra).
  set (s := / delta) in *. set (u := exp (s ^ 2 / 2)) in *. assert (U2 : u ^ 2 = w).
  { replace (u ^ 2) with (u * u) by ring. unfold u. rewrite <- exp_plus. transitivity (exp (ln w)); [|now apply exp_ln]. f_equal. replace (s ^ 2) with (/ delta ^ 2) by (unfold s; field; lra). rewrite ED. field. }
  assert (SX2 : sx ^ 2 = 0.5 * (w - 1) * (0.5 * w * (exp y ^ 2 + 1 / exp y ^ 2) + 1)) by (rewrite SXE; apply pow2_sqrt; exact SX0).
  assert (XS : xlam ^ 2 * sx ^ 2 = sd ^ 2) by (rewrite XL; field; exact SXN).
  pose proof (exp_pos y) as EP. pose proof (exp_Ropp y) as EN. set (loc := mean + _) in *. set (k1 := xlam / 2 * exp (- y)) in *. set (k2 := - (xlam / 2 * exp y)) in *.
  destruct (less_mean_two loc k1 k2 s) as [EX LM]. cbv zeta in EX, LM. fold f u in EX.
  split; [|split; [|exact W1]].
  - split; [|split].
    + intro z. unfold quantile. rewrite !ltb_yes by assumption. cbn [andb]. f_equal. unfold f, value. cbn [fold_right fst snd]. rewrite Rmult_0_l, exp_0.
      replace ((z - y * delta) / delta) with (s * z + - y) by (unfold s; field; lra). unfold sinh, k1, k2. rewrite Ropp_plus_distr, !exp_plus, Ropp_involutive, Ropp_mult_distr_l. field.
    + rewrite EX. unfold loc, k1, k2, sinh. rewrite <- W. field.
    + transitivity (expect (power [(- expect f, 0); (loc, 0); (k1, s); (k2, - s)] 2)); [reflexivity|]. rewrite (central_2 (expect f) loc k1 k2 s EX). fold u. rewrite U2.
      rewrite <- XS, SX2. unfold k1, k2. rewrite EN. replace 0.5 with (/ 2) by lra. field. lra.
  - intros Y0. assert (E1 : exp y = 1) by (rewrite Y0; apply exp_0). assert (K : k2 = - k1) by (unfold k1, k2; rewrite EN, E1; field). split.
    + transitivity (expect (power [(- expect f, 0); (loc, 0); (k1, s); (k2, - s)] 3)); [reflexivity|]. apply (central_3_even (expect f) loc k1 k2 s EX K).
    + replace (central f 4) with (expect (power [(- expect f, 0); (loc, 0); (k1, s); (k2, - s)] 4)) by reflexivity. rewrite (central_4_even (expect f) loc k1 k2 s EX K). fold u.
      replace (u ^ 16) with ((u ^ 2) ^ 8) by ring. replace (u ^ 4) with ((u ^ 2) ^ 2) by ring. rewrite U2. replace (sd ^ 4) with ((sd ^ 2) ^ 2) by ring. rewrite <- XS, SX2. unfold k1. rewrite EN, E1. replace 0.5 with (/ 2) by lra. field.
Qed.
(** Moments of an unbounded distribution with [m = w sinh(y)^2]. *)
Lemma su_moments loc xlam w y delta : 1 < w -> 0 < delta -> / delta ^ 2 = ln w ->
  let f := [(loc, 0); (xlam / 2 * exp (- y), / delta); (- (xlam / 2 * exp y), - / delta)] in
  let m := w * sinh y ^ 2 in
  2 * central f 2 = xlam ^ 2 * (w - 1) * (2 * m + w + 1) /\
  4 * central f 3 = - (xlam ^ 3 * exp (ln w / 2) * (w - 1) ^ 2 * sinh y * (3 * (w + 1) ^ 2 + 4 * (w + 2) * m)) /\
  8 * central f 4 = xlam ^ 4 * (w - 1) ^ 2 * ((w ^ 4 + 2 * w ^ 3 + 3 * w ^ 2 - 3) * (2 * (w + 2 * m) ^ 2 - w ^ 2) + 4 * w * (w + 2) * (w + 2 * m) + 3 * (2 * w + 1)).
Proof.
  intros W1 DP ED f m. pose proof (exp_pos y) as EP. pose proof (exp_Ropp y) as EN. set (k1 := xlam / 2 * exp (- y)) in *. set (k2 := - (xlam / 2 * exp y)) in *. set (s := / delta) in *.
  destruct (less_mean_two loc k1 k2 s) as [EX LM]. cbv zeta in EX, LM. fold f in EX. set (u := exp (s ^ 2 / 2)) in *.
  assert (SU : s ^ 2 / 2 = ln w / 2) by (rewrite <- ED; unfold s; field; lra).
  assert (U2 : u ^ 2 = w). { replace (u ^ 2) with (u * u) by ring. unfold u. rewrite <- exp_plus. transitivity (exp (ln w)); [|apply exp_ln; lra]. f_equal. rewrite SU. field. }
  assert (UE : exp (ln w / 2) = u) by (unfold u; rewrite SU; reflexivity). rewrite UE.
  set (e := exp y) in *. assert (SE : sinh y = (e - / e) / 2) by (unfold sinh; rewrite EN; reflexivity). unfold m. rewrite SE.
  assert (K1 : k1 = xlam / 2 * / e) by (unfold k1; rewrite EN; reflexivity). assert (K2 : k2 = - (xlam / 2 * e)) by reflexivity.
  split; [|split].
  - transitivity (2 * expect (power [(- expect f, 0); (loc, 0); (k1, s); (k2, - s)] 2)); [reflexivity|]. rewrite (central_2 (expect f) loc k1 k2 s EX). fold u. rewrite U2, K1, K2. field. lra.
  - transitivity (4 * expect (power [(- expect f, 0); (loc, 0); (k1, s); (k2, - s)] 3)); [reflexivity|]. rewrite (central_3 (expect f) loc k1 k2 s EX). fold u. rewrite U2, K1, K2. field. lra.
  - transitivity (8 * expect (power [(- expect f, 0); (loc, 0); (k1, s); (k2, - s)] 4)); [reflexivity|]. rewrite (central_4 (expect f) loc k1 k2 s EX). fold u.
    replace (u ^ 8) with ((u ^ 2) ^ 4) by ring. replace (u ^ 6) with ((u ^ 2) ^ 3) by ring. replace (u ^ 4) with ((u ^ 2) ^ 2) by ring. rewrite U2, K1, K2. field. lra.
Qed.
(** What one pass of the iterations finds from the width [w]: [m] gives the kurtosis, [z] is the squared skewness, [w'] the next width. *)
Definition pass (b1 b2 w m z w' : R) : Prop :=
  2 * b2 * (w + 1 + 2 * m) ^ 2 = (w ^ 4 + 2 * w ^ 3 + 3 * w ^ 2 - 3) * (2 * (w + 2 * m) ^ 2 - w ^ 2) + 4 * w * (w + 2) * (w + 2 * m) + 3 * (2 * w + 1) /\
  2 * m + w + 1 <> 0 /\ z = m * (w - 1) * (4 * (w + 2) * m + 3 * (w + 1) ^ 2) ^ 2 / (2 * (2 * m + w + 1) ^ 3) /\ z <> 0 /\
  0 <= w' /\ (w' ^ 2 + 1) ^ 2 = 1 - 2 * (1.5 - b2 + b1 * (b2 - 1.5 - w ^ 2 * (1 + 0.5 * w ^ 2)) / z).
Lemma su_loop_exit b1 b2 tol fuel' : forall w m z w' m', su_loop fuel' b1 b2 tol w m z = Ok (Some (w', m')) -> 0 <= w ->
  (exists z0, z = Some z0 /\ Rabs (b1 - z0) <= tol /\ w' = w /\ m' = m) \/
  exists w0 z0, 0 <= w0 /\ pass b1 b2 w0 m' z0 w' /\ Rabs (b1 - z0) <= tol.
Proof.
  induction fuel' as [|k IH]; intros w m z w' m' H W0; cbn [su_loop] in H.
  - destruct z as [z0|]; [|discriminate]. destruct (Rltb tol (Rabs (b1 - z0))) eqn:E; [discriminate|]. apply Rltb_false in E. cbn [negb] in H. injection H as <- <-. left. exists z0. repeat split; lra.
  - assert (Stop : (exists z0, z = Some z0 /\ Rabs (b1 - z0) <= tol /\ w' = w /\ m' = m) \/ (match z with None => true | Some z0 => Rltb tol (Rabs (b1 - z0)) end = true)).
    { destruct z as [z0|]; [|right; reflexivity]. destruct (Rltb tol (Rabs (b1 - z0))) eqn:E; [right; reflexivity|]. left. apply Rltb_false in E. cbn [negb] in H. injection H as <- <-. exists z0. repeat split; lra. }
    destruct Stop as [Stop|Go]; [left; exact Stop|]. rewrite Go in H. cbn [negb] in H. cbv zeta in H. right.
    apply bind_ok in H. destruct H as (s & Hs & H). apply msqrt_ok in Hs. destruct Hs as [D Hs].
    apply bind_ok in H. destruct H as (m1 & Hm & H). apply mdiv_ok in Hm. destruct Hm as [Bn Hm].
    apply bind_ok in H. destruct H as (z1 & Hz & H). apply mdiv_ok in Hz. destruct Hz as [Zn Hz].
    apply bind_ok in H. destruct H as (t & Ht & H). apply mdiv_ok in Ht. destruct Ht as [Tn Ht].
    apply bind_ok in H. destruct H as (s2 & Hs2 & H). apply msqrt_ok in Hs2. destruct Hs2 as [D2 Hs2].
    apply bind_ok in H. destruct H as (w1 & Hw & H). apply msqrt_ok in Hw. destruct Hw as [D3 Hw].
    assert (W1 : 0 <= w1) by (rewrite Hw; apply sqrt_pos).
    assert (P : pass b1 b2 w m1 z1 w1).
    { assert (S2 : s * s = (8 * ((w - 1) * (3 + w * (7 + w * (6 + w * (3 + w)))) - (w + 1) * (b2 - 3))) ^ 2 - 2 * (16 * ((w - 1) * (6 + w * (6 + w * (3 + w))) - (b2 - 3))) *
          ((w - 1) * (3 + w * (9 + w * (10 + w * (6 + w * (3 + w))))) - 2 * (w + 1) * ((w + 1) * (b2 - 3)))) by (rewrite Hs; apply sqrt_sqrt; exact D).
      set (a := 8 * ((w - 1) * (3 + w * (7 + w * (6 + w * (3 + w)))) - (w + 1) * (b2 - 3))) in *.
      set (b := 16 * ((w - 1) * (6 + w * (6 + w * (3 + w))) - (b2 - 3))) in *.
      set (c := (w - 1) * (3 + w * (9 + w * (10 + w * (6 + w * (3 + w))))) - 2 * (w + 1) * ((w + 1) * (b2 - 3))) in *.
      assert (Sm : s = b * m1 + a) by (rewrite Hm; field; exact Bn).
      assert (Q : b * m1 ^ 2 + 2 * a * m1 + 2 * c = 0). { apply (Rmult_eq_reg_l b); [|exact Bn]. rewrite Sm in S2. rewrite Rmult_0_r. transitivity ((b * m1 + a) * (b * m1 + a) - (a ^ 2 - 2 * b * c)); [ring|rewrite S2; ring]. }
      assert (N2 : 2 * m1 + (w + 1) <> 0). { intro E. apply Zn. rewrite E. ring. }
      refine (conj _ (conj _ (conj _ (conj Tn (conj W1 _))))).
      - apply Rminus_diag_uniq. transitivity (- (b * m1 ^ 2 + 2 * a * m1 + 2 * c) / 2); [unfold a, b, c; field|rewrite Q; field].
      - lra.
      - rewrite Hz. replace (2 * m1 + w + 1) with (2 * m1 + (w + 1)) by ring. field. exact N2.
      - assert (W2 : w1 * w1 = s2 - 1) by (rewrite Hw; apply sqrt_sqrt; exact D3).
        replace (w1 ^ 2 + 1) with s2 by (replace (w1 ^ 2) with (w1 * w1) by ring; lra). replace (s2 ^ 2) with (s2 * s2) by ring. rewrite Hs2, sqrt_sqrt by exact D2. rewrite Ht. reflexivity. }
    destruct (IH w1 m1 (Some z1) w' m' H W1) as [(z0 & E & T & -> & ->)|X]; [|exact X].
    injection E as <-. exists w, z1. auto.
Qed.
(** A fitted unbounded distribution has the mean and standard deviation given, however many iterations there were. *)
Theorem c103_unbounded (mean sd skew kurtosis a b loc scale : R) : 0 < sd ->
  fit mean sd skew kurtosis true = Ok (Some (Rv (Unbounded a b loc scale))) ->
  exists f, mean_sd (Unbounded a b loc scale) f mean sd.
Proof.
  intros SD H. unfold fit_moments in H. rewrite (ltb_no sd 0), (eqb_no sd 0) in H by lra.
  destruct (_ && _); [discriminate|]. destruct (_ && _).
  { apply bind_ok in H. destruct H as (s & _ & H). apply bind_ok in H. destruct H as (x & _ & H). discriminate. }
  destruct (_ && _); [discriminate|]. cbv zeta in H. set (om := Rpower _ _ + _ - 1) in H. set (ku := if Rltb kurtosis 0 then _ else _) in H.
  assert (SL : bind (sl_fit mean sd skew om true) (fun f => Ok (Some f)) = Ok (Some (Rv (Unbounded a b loc scale))) -> False).
  { intro L. apply bind_ok in L. destruct L as (r & L & E). inversion E; subst r. unfold sl_fit in L.
    repeat (apply bind_ok in L; destruct L as (? & _ & L)). discriminate. }
  destruct (Rltb _ 0.01); [now apply SL in H|]. destruct (Rltb 0 _).
  { destruct (sb_fit _ _ _ _) as [[[[? ?] ?] ?]|e]; [discriminate|]. destruct e; try discriminate. now apply SL in H. }
  apply bind_ok in H. destruct H as (r & H & E). destruct r as [[[[xi xlam] gamma] delta]|]; [|discriminate]. inversion E; subst xi xlam gamma delta. clear E.
  unfold su_fit in H. apply bind_ok in H. destruct H as (s0 & _ & H). apply bind_ok in H. destruct H as (w0 & _ & H). apply bind_ok in H. destruct H as (wy & _ & H).
  destruct wy as [[w y]|]; [|discriminate]. apply bind_ok in H. destruct H as (lw & LW & H). apply mlog_ok in LW. destruct LW as [WP ->].
  apply bind_ok in H. destruct H as (il & IL & H). apply mdiv_ok in IL. destruct IL as [LN ->]. apply bind_ok in H. destruct H as (delta & DE & H). apply msqrt_ok in DE. destruct DE as [IP DE].
  apply bind_ok in H. destruct H as (sx & SX & H). apply msqrt_ok in SX. destruct SX as [S0 SX]. apply bind_ok in H. destruct H as (xlam & XL & H). apply mdiv_ok in XL. destruct XL as [SN XL].
  apply bind_ok in H. destruct H as (gd & GD & H). apply mdiv_ok in GD. destruct GD as [DN ->]. replace (y * delta / delta) with y in H by (field; exact DN).
  destruct (su_result sd mean w y sx delta xlam SD WP LN IP DE S0 SX SN XL) as [MS _]. cbv zeta in MS. inversion H; subst. eexists. exact MS.
Qed.
(** The last lines for a fit that was found. *)
Lemma su_fit_end mean sd skew k2 tol xi xlam gamma delta : su_fit fuel mean sd skew k2 tol = Ok (Some (xi, xlam, gamma, delta)) -> 0 < sd -> tol <= Rabs skew ->
  exists w w0 y m, 0 <= w0 /\ su_loop fuel (skew ^ 2) k2 tol w0 0 None = Ok (Some (w, m)) /\ 0 <= m / w /\
    y = (if Rltb 0 skew then ln (sqrt (m / w) + sqrt (m / w + 1)) * -1 else ln (sqrt (m / w) + sqrt (m / w + 1))) /\
    1 < w /\ 0 < delta /\ / delta ^ 2 = ln w /\ gamma = y * delta /\ 0 < xlam /\
    xi = mean + xlam * exp (/ delta ^ 2 / 2) * sinh y /\
    let f := [(mean + xlam * exp (/ delta ^ 2 / 2) * sinh y, 0); (xlam / 2 * exp (- y), / delta); (- (xlam / 2 * exp y), - / delta)] in
    mean_sd (Unbounded gamma delta xi xlam) f mean sd.
Proof.
  intros H SD T. unfold su_fit in H. rewrite (ltb_no (Rabs skew) tol) in H by exact T.
  apply bind_ok in H. destruct H as (s0 & _ & H). apply bind_ok in H. destruct H as (w0 & Hw0 & H). apply msqrt_ok in Hw0. destruct Hw0 as [_ Hw0].
  apply bind_ok in H. destruct H as (wy & HL & H). apply bind_ok in HL. destruct HL as (wm & HL & HY). destruct wm as [[w m]|]; [|inversion HY; subst wy; discriminate].
  apply bind_ok in HY. destruct HY as (q & Hq & HY). apply mdiv_ok in Hq. destruct Hq as [Wn Hq].
  apply bind_ok in HY. destruct HY as (s1 & Hs1 & HY). apply msqrt_ok in Hs1. destruct Hs1 as [Q0 Hs1]. apply bind_ok in HY. destruct HY as (s2 & Hs2 & HY). apply msqrt_ok in Hs2. destruct Hs2 as [_ Hs2].
  apply bind_ok in HY. destruct HY as (y0 & Hy0 & HY). apply mlog_ok in Hy0. destruct Hy0 as [_ Hy0]. inversion HY; subst wy. clear HY.
  set (y := if Rltb 0 skew then y0 * -1 else y0) in *.
  apply bind_ok in H. destruct H as (lw & LW & H). apply mlog_ok in LW. destruct LW as [WP ->].
  apply bind_ok in H. destruct H as (il & IL & H). apply mdiv_ok in IL. destruct IL as [LN ->]. apply bind_ok in H. destruct H as (delta' & DE & H). apply msqrt_ok in DE. destruct DE as [IP DE].
  apply bind_ok in H. destruct H as (sx & SX & H). apply msqrt_ok in SX. destruct SX as [S0 SX]. apply bind_ok in H. destruct H as (xlam' & XL & H). apply mdiv_ok in XL. destruct XL as [SN XL].
  apply bind_ok in H. destruct H as (gd & GD & H). apply mdiv_ok in GD. destruct GD as [DN ->]. replace (y * delta' / delta') with y in H by (field; exact DN).
  destruct (su_result sd mean w y sx delta' xlam' SD WP LN IP DE S0 SX SN XL) as (MS & _ & W1). cbv zeta in MS. injection H as <- <- <- <-.
  assert (DP : 0 < delta'). { assert (0 <= delta') by (rewrite DE; apply sqrt_pos). lra. }
  assert (XP : 0 < xlam'). { rewrite XL. apply Rdiv_lt_0_compat; [exact SD|]. assert (0 <= sx) by (rewrite SX; apply sqrt_pos). lra. }
  exists w, w0, y, m. split; [rewrite Hw0; apply sqrt_pos|]. split; [exact HL|]. split; [rewrite <- Hq; exact Q0|]. split; [unfold y; rewrite Hy0, Hs1, Hs2, Hq; reflexivity|].
  split; [exact W1|]. split; [exact DP|]. split; [|split; [reflexivity|split; [exact XP|split; [reflexivity|exact MS]]]].
  replace (delta' ^ 2) with (1 / ln w) by (rewrite DE; symmetry; apply pow2_sqrt; exact IP). field. exact LN.
Qed.
Lemma fit_unbounded mean sd skew kurtosis a b loc scale : 0 < sd -> fit mean sd skew kurtosis true = Ok (Some (Rv (Unbounded a b loc scale))) ->
  exists k2, (0 <= kurtosis -> k2 = kurtosis) /\ su_fit fuel mean sd skew k2 0.01 = Ok (Some (loc, scale, a, b)).
Proof.
  intros SD H. unfold fit_moments in H. rewrite (ltb_no sd 0), (eqb_no sd 0) in H by lra.
  destruct (_ && _); [discriminate|]. destruct (_ && _).
  { apply bind_ok in H. destruct H as (s & _ & H). apply bind_ok in H. destruct H as (x & _ & H). discriminate. }
  destruct (_ && _); [discriminate|]. cbv zeta in H. set (om := Rpower _ _ + _ - 1) in H.
  assert (SL : bind (sl_fit mean sd skew om true) (fun f => Ok (Some f)) = Ok (Some (Rv (Unbounded a b loc scale))) -> False).
  { intro L. apply bind_ok in L. destruct L as (r & L & E). inversion E; subst r. unfold sl_fit in L.
    repeat (apply bind_ok in L; destruct L as (? & _ & L)). discriminate. }
  match type of H with context [Rltb kurtosis 0] => idtac end.
  set (ku := if Rltb kurtosis 0 then _ else _) in H. exists ku. split.
  { intro K. unfold ku. rewrite ltb_no by exact K. reflexivity. }
  destruct (Rltb _ 0.01); [now apply SL in H|]. destruct (Rltb 0 _).
  { destruct (sb_fit _ _ _ _) as [[[[? ?] ?] ?]|e]; [discriminate|]. destruct e; try discriminate. now apply SL in H. }
  apply bind_ok in H. destruct H as (r & H & E). destruct r as [[[[xi xlam] gamma] delta]|]; [|discriminate]. inversion E; subst xi xlam gamma delta. exact H.
Qed.
Lemma log_sinh q : 0 <= q -> sinh (ln (sqrt q + sqrt (q + 1))) = sqrt q.
Proof.
  intro Q. assert (P1 : 0 <= sqrt q) by apply sqrt_pos. assert (P2 : 0 < sqrt (q + 1)) by (apply sqrt_lt_R0; lra).
  assert (S1 : sqrt q * sqrt q = q) by (apply sqrt_sqrt; exact Q). assert (S2 : sqrt (q + 1) * sqrt (q + 1) = q + 1) by (apply sqrt_sqrt; lra).
  unfold sinh. rewrite exp_Ropp, exp_ln by lra. apply (Rmult_eq_reg_l (2 * (sqrt q + sqrt (q + 1)))); [|lra].
  transitivity ((sqrt q + sqrt (q + 1)) * (sqrt q + sqrt (q + 1)) - 1); [field; lra|]. nra.
Qed.
(** It is skewed to the side asked for. *)
Theorem c103_skew_side (mean sd skew kurtosis a b loc scale : R) : 0 < sd -> 0.01 <= Rabs skew ->
  fit mean sd skew kurtosis true = Ok (Some (Rv (Unbounded a b loc scale))) ->
  exists f, mean_sd (Unbounded a b loc scale) f mean sd /\ 0 < skew * central f 3.
Proof.
  intros SD T H. destruct (fit_unbounded _ _ _ _ _ _ _ _ SD H) as (k2 & _ & H2).
  destruct (su_fit_end _ _ _ _ _ _ _ _ _ H2 SD T) as (w & w0 & y & m & W0 & HL & Q0 & Y & W1 & DP & ED & -> & XP & XI & MS). cbv zeta in MS.
  eexists. split; [exact MS|]. destruct (su_loop_exit _ _ _ _ _ _ _ _ _ HL W0) as [(z0 & E & _)|(w1 & z & W2 & (_ & _ & Z & Zn & _) & _)]; [discriminate|].
  assert (Mn : m <> 0). { intros ->. apply Zn. rewrite Z. unfold Rdiv. rewrite !Rmult_0_l. reflexivity. }
  assert (Q : 0 < m / w). { destruct Q0 as [Q0|Q0]; [exact Q0|]. exfalso. apply Mn. transitivity (m / w * w); [field; lra|]. rewrite <- Q0. ring. }
  destruct (su_moments (mean + scale * exp (/ b ^ 2 / 2) * sinh y) scale w y b W1 DP ED) as (_ & C3 & _). cbv zeta in C3.
  set (c := central _ 3) in *. assert (SQ : 0 < sqrt (m / w)) by (apply sqrt_lt_R0; exact Q).
  assert (K : 0 < scale ^ 3 * exp (ln w / 2) * (w - 1) ^ 2 * (3 * (w + 1) ^ 2 + 4 * (w + 2) * (w * sinh y ^ 2))).
  { apply Rmult_lt_0_compat; [apply Rmult_lt_0_compat; [apply Rmult_lt_0_compat; [apply pow_lt; exact XP|apply exp_pos]|apply pow_lt; lra]|].
    pose proof (pow2_ge_0 (sinh y)). assert (0 < (w + 1) ^ 2) by (apply pow_lt; lra). assert (0 <= (w + 2) * (w * sinh y ^ 2)) by (apply Rmult_le_pos; [lra|apply Rmult_le_pos; lra]). lra. }
  set (k := scale ^ 3 * exp (ln w / 2) * (w - 1) ^ 2 * (3 * (w + 1) ^ 2 + 4 * (w + 2) * (w * sinh y ^ 2))) in *.
  assert (C : 4 * c = - (k * sinh y)) by (rewrite C3; unfold k; ring). rewrite Y in C. destruct (Rltb 0 skew) eqn:S.
  - apply Rltb_true in S. replace (ln (sqrt (m / w) + sqrt (m / w + 1)) * -1) with (- ln (sqrt (m / w) + sqrt (m / w + 1))) in C by ring. rewrite sinh_neg, log_sinh in C by lra.
    apply Rmult_lt_0_compat; [exact S|]. assert (0 < k * sqrt (m / w)) by (apply Rmult_lt_0_compat; assumption). lra.
  - apply Rltb_false in S. rewrite log_sinh in C by lra. assert (skew < 0). { destruct S as [S|S]; [exact S|]. subst. rewrite Rabs_R0 in T. lra. }
    assert (0 < k * sqrt (m / w)) by (apply Rmult_lt_0_compat; assumption). assert (c < 0) by lra. nra.
Qed.
(** The iterations end when a distribution with the kurtosis given, and the mean and standard deviation, has a squared
    skewness within 0.01 of the one given. The fit has the width found from it in one more pass, and the same product of
    the width and the squared sine. *)
Theorem c103_last_pass (mean sd skew kurtosis a b loc scale : R) : 0 < sd -> 0.1 < Rabs skew -> 0 <= kurtosis ->
  fit mean sd skew kurtosis true = Ok (Some (Rv (Unbounded a b loc scale))) ->
  let width p := exp (/ p ^ 2) in
  exists a0 b0 loc0 scale0 f0, mean_sd (Unbounded a0 b0 loc0 scale0) f0 mean sd /\ central f0 4 = kurtosis * sd ^ 4 /\
    Rabs (skew ^ 2 - squared_skew f0) <= 0.01 /\ width b * sinh (a / b) ^ 2 = width b0 * sinh (a0 / b0) ^ 2 /\
    (width b ^ 2 + 1) ^ 2 = 1 - 2 * (1.5 - kurtosis + skew ^ 2 * (kurtosis - 1.5 - width b0 ^ 2 * (1 + 0.5 * width b0 ^ 2)) / squared_skew f0).
Proof.
  intros SD T1 K H width. assert (T : 0.01 <= Rabs skew) by lra. destruct (fit_unbounded _ _ _ _ _ _ _ _ SD H) as (k2 & EK & H2). specialize (EK K). subst k2.
  destruct (su_fit_end _ _ _ _ _ _ _ _ _ H2 SD T) as (w & ws & y & m & W0 & HL & Q0 & Y & W1 & DP & ED & -> & XP & XI & MS). cbv zeta in MS.
  destruct (su_loop_exit _ _ _ _ _ _ _ _ _ HL W0) as [(z0 & E & _)|(w0 & z & W2 & (KU & Nz & Z & Zn & _ & NW) & TZ)]; [discriminate|].
  assert (M0 : 0 <= m). { replace m with (m / w * w) by (field; lra). apply Rmult_le_pos; [exact Q0|lra]. }
  assert (W01 : 1 < w0).
  { assert (S2 : 0.01 < skew ^ 2) by (rewrite <- (pow2_abs skew); nra). assert (ZP : 0 < z) by (pose proof (Rabs_def2 (skew ^ 2 - z) (skew ^ 2)); destruct (Rle_lt_dec z 0) as [N|N]; [|exact N]; rewrite Rabs_right in TZ; lra).
    apply Rnot_le_lt. intro N. assert (z <= 0); [|lra]. rewrite Z. replace (m * (w0 - 1)) with (- (m * (1 - w0))) by ring. rewrite <- Ropp_mult_distr_l. unfold Rdiv. rewrite <- Ropp_mult_distr_l.
    apply Ropp_le_cancel. rewrite Ropp_0, Ropp_involutive. apply Rmult_le_pos; [apply Rmult_le_pos; [apply Rmult_le_pos; lra|apply pow2_ge_0]|]. left. apply Rinv_0_lt_compat. apply Rmult_lt_0_compat; [lra|]. apply pow_lt. lra. }
  set (q := m / w0). assert (Qp : 0 <= q) by (apply Rmult_le_pos; [exact M0|left; apply Rinv_0_lt_compat; lra]).
  set (y0 := ln (sqrt q + sqrt (q + 1))). assert (SY : sinh y0 = sqrt q) by (apply log_sinh; exact Qp). assert (SM : w0 * sinh y0 ^ 2 = m) by (rewrite SY, pow2_sqrt by exact Qp; unfold q; field; lra).
  assert (LP : 0 < ln w0) by (rewrite <- ln_1; apply ln_increasing; lra). assert (IP : 0 < 1 / ln w0) by (apply Rdiv_lt_0_compat; lra).
  set (d0 := sqrt (1 / ln w0)). assert (D0 : 0 < d0) by (apply sqrt_lt_R0; exact IP). assert (ED0 : / d0 ^ 2 = ln w0) by (unfold d0; rewrite pow2_sqrt by lra; field; lra).
  set (var := 0.5 * (w0 - 1) * (0.5 * w0 * (exp y0 ^ 2 + 1 / exp y0 ^ 2) + 1)). pose proof (exp_pos y0) as EP.
  assert (VP : 0 < var). { unfold var. apply Rmult_lt_0_compat; [lra|]. assert (0 < exp y0 ^ 2) by (apply pow_lt; exact EP). assert (0 < 1 / exp y0 ^ 2) by (apply Rdiv_lt_0_compat; lra). assert (0 < 0.5 * w0 * (exp y0 ^ 2 + 1 / exp y0 ^ 2)) by (apply Rmult_lt_0_compat; lra). lra. }
  assert (SV : 0 < sqrt var) by (apply sqrt_lt_R0; exact VP).
  destruct (su_result sd mean w0 y0 (sqrt var) d0 (sd / sqrt var) SD ltac:(lra) ltac:(lra) ltac:(lra) eq_refl ltac:(fold var; lra) eq_refl ltac:(lra) eq_refl) as (MS0 & _ & _). cbv zeta in MS0.
  set (xl := sd / sqrt var) in *. set (f0 := [_; _; _]) in MS0. do 4 eexists. exists f0. split; [exact MS0|].
  destruct (su_moments (mean + xl * exp (/ d0 ^ 2 / 2) * sinh y0) xl w0 y0 d0 W01 D0 ED0) as (C2 & C3 & C4). cbv zeta in C2, C3, C4. fold f0 in C2, C3, C4. rewrite SM in C2, C3, C4.
  destruct MS0 as (_ & _ & MS2). assert (XL : xl ^ 2 * (w0 - 1) * (2 * m + w0 + 1) = 2 * sd ^ 2) by (rewrite <- MS2; symmetry; exact C2).
  assert (XPos : 0 < xl) by (unfold xl; apply Rdiv_lt_0_compat; assumption). assert (GP : 0 < 2 * m + w0 + 1) by lra.
  assert (SK : squared_skew f0 = z).
  { unfold squared_skew. replace (central f0 3) with (- (xl ^ 3 * exp (ln w0 / 2) * (w0 - 1) ^ 2 * sinh y0 * (3 * (w0 + 1) ^ 2 + 4 * (w0 + 2) * m)) / 4) by (rewrite <- C3; field).
    replace (central f0 2) with (xl ^ 2 * (w0 - 1) * (2 * m + w0 + 1) / 2) by (rewrite <- C2; field).
    assert (E2 : exp (ln w0 / 2) ^ 2 = w0). { replace (exp (ln w0 / 2) ^ 2) with (exp (ln w0 / 2) * exp (ln w0 / 2)) by ring. rewrite <- exp_plus. replace (ln w0 / 2 + ln w0 / 2) with (ln w0) by field. apply exp_ln. lra. }
    rewrite Z. transitivity (exp (ln w0 / 2) ^ 2 * sinh y0 ^ 2 * (w0 - 1) * (4 * (w0 + 2) * m + 3 * (w0 + 1) ^ 2) ^ 2 / (2 * (2 * m + w0 + 1) ^ 3)); [field; lra|]. rewrite E2, SM. reflexivity. }
  rewrite SK. split.
  { apply (Rmult_eq_reg_l 8); [|lra]. rewrite C4, <- KU. replace (sd ^ 4) with ((sd ^ 2) ^ 2) by ring. replace (sd ^ 2) with (xl ^ 2 * (w0 - 1) * (2 * m + w0 + 1) / 2) by (rewrite XL; field). field. }
  split; [exact TZ|]. assert (WB0 : width d0 = w0) by (unfold width; rewrite ED0; apply exp_ln; lra). rewrite WB0. assert (WB : width b = w) by (unfold width; rewrite ED; apply exp_ln; lra). rewrite WB. split; [|exact NW].
  replace (y * b / b) with y by (field; lra). replace (y0 * d0 / d0) with y0 by (field; lra). rewrite SM.
  assert (SY2 : sinh y ^ 2 = m / w). { rewrite Y. destruct (Rltb 0 skew); [replace (ln (sqrt (m / w) + sqrt (m / w + 1)) * -1) with (- ln (sqrt (m / w) + sqrt (m / w + 1))) by ring; rewrite sinh_neg|]; rewrite log_sinh by exact Q0; [replace ((- sqrt (m / w)) ^ 2) with (sqrt (m / w) ^ 2) by ring|]; apply pow2_sqrt; exact Q0. }
  rewrite SY2. field. lra.
Qed.
(** Without skew the kurtosis is also the one given, and a distribution is found for every kurtosis above that of a
    normal distribution. *)
Theorem c103_symmetric (mean sd kurtosis : R) : 0 < sd -> 3.01 <= kurtosis ->
  exists d f, fit mean sd 0 kurtosis true = Ok (Some (Rv d)) /\ mean_sd d f mean sd /\ central f 3 = 0 /\ central f 4 = kurtosis * sd ^ 4.
Proof.
  intros SD K. unfold fit_moments. rewrite (ltb_no sd 0), (eqb_no sd 0) by lra. rewrite (leb_yes 0 kurtosis), (ltb_no kurtosis), (leb_no kurtosis) by lra. cbn [andb].
  rewrite (ltb_no (Rabs (kurtosis - 3))), andb_false_r by (rewrite Rabs_right; lra). rewrite (ltb_no kurtosis 0) by lra. cbv zeta. fold (omega_of 0).
  rewrite <- (omega_unique 1 0) by (split; [lra|ring]). rewrite (ltb_no (Rabs _)) by (rewrite Rabs_left; lra). rewrite ltb_no by lra.
  unfold su_fit. unfold msqrt at 1. rewrite ltb_no by lra. cbn [bind]. set (q := 2.0 * kurtosis - 2.8 * 0 ^ 2 - 2.0). assert (Q : q = 2 * kurtosis - 2) by (unfold q; lra).
  assert (SQ : 2 < sqrt q). { apply Rlt_le_trans with (sqrt 4.01). { replace 2 with (sqrt (2 * 2)) by (apply sqrt_square; lra). apply sqrt_lt_1; lra. } apply sqrt_le_1; lra. }
  assert (S2 : sqrt q ^ 2 = q) by (apply pow2_sqrt; lra).
  unfold msqrt at 1. rewrite ltb_no by lra. cbn [bind]. set (w := sqrt (sqrt q - 1.0)). assert (W2 : w ^ 2 = sqrt q - 1) by (unfold w; rewrite pow2_sqrt; lra).
  assert (WP : 0 < w) by (apply sqrt_lt_R0; lra). assert (W1 : 1 < w) by nra. rewrite (ltb_yes (Rabs 0)) by (rewrite Rabs_R0; lra). cbn [bind].
  assert (LP : 0 < ln w) by (rewrite <- ln_1; apply ln_increasing; lra). unfold mlog. rewrite ltb_yes by exact WP. cbn [bind]. unfold mdiv at 1. rewrite eqb_no by lra. cbn [bind].
  assert (IP : 0 < 1 / ln w) by (apply Rdiv_lt_0_compat; lra). unfold msqrt at 1. rewrite ltb_no by lra. cbn [bind]. set (delta := sqrt (1 / ln w)). assert (DP : 0 < delta) by now apply sqrt_lt_R0.
  set (e := 0.5 * (w - 1) * (0.5 * w * (exp 0 ^ 2 + 1 / exp 0 ^ 2) + 1)). assert (EP : 0 < e). { unfold e. rewrite exp_0. replace (1 ^ 2 + 1 / 1 ^ 2) with 2 by field. nra. }
  unfold msqrt. rewrite ltb_no by lra. cbn [bind]. assert (SP : 0 < sqrt e) by now apply sqrt_lt_R0. unfold mdiv. rewrite eqb_no by lra. cbn [bind]. rewrite eqb_no by lra. cbn [bind].
  replace (0 * delta / delta) with 0 by (field; lra).
  destruct (su_result sd mean w 0 (sqrt e) delta (sd / sqrt e) SD WP) as (MS & EV & _); try reflexivity; try lra; try (fold e; lra).
  destruct (EV eq_refl) as [E3 E4]. eexists. eexists. split; [reflexivity|]. split; [exact MS|]. split; [exact E3|].
  apply (Rmult_eq_reg_l 2); [|lra]. rewrite E4. replace (w ^ 4) with ((w ^ 2) ^ 2) by ring. rewrite W2.
  replace ((sqrt q - 1) ^ 2 + 2 * (sqrt q - 1) + 3) with (sqrt q ^ 2 + 2) by ring. rewrite S2, Q. ring.
Qed.
End Moments.
Print Assumptions c103_lognormal.
Print Assumptions c103_lognormal_refuted.
Print Assumptions c103_unbounded.
Print Assumptions c103_skew_side.
Print Assumptions c103_last_pass.
Print Assumptions c103_symmetric.

(** Powers of a sum of exponentials have the powers of its values: the central moments are those of the values. *)
Lemma c103_value (f : expsum) (k : nat) (z : R) : value (power (less_mean f) k) z = (value f z - expect f) ^ k.
Proof. rewrite value_power. f_equal. unfold less_mean. rewrite value_cons, Rmult_0_l, exp_0. ring. Qed.

(** Cases: for a skew of 4 the number is 2. *)
Example c103_lognormal_case sb fuel : exists d f,
  fit_moments sb fuel 5 2 4 (-1) true = Ok (Some (Rv d)) /\ mean_sd d f 5 2 /\ central f 3 = 4 * 2 ^ 3.
Proof.
  assert (L : lognormal_skew 2 4) by (split; [lra|ring]). assert (E2 : 2 < exp 1) by (pose proof (exp_ineq1 1 ltac:(lra)); lra).
  destruct (c103_lognormal sb fuel 5 2 4 (-1) 2) as (d & f & H1 & H2 & H3 & _); try lra; try assumption; [left; lra|]. exists d, f. tauto.
Qed.
Example c103_negative_case sb fuel : exists d, fit_moments sb fuel 5 2 (-4) (-1) true = Ok (Some (Rv d)) /\ quantile d 0 = None.
Proof.
  assert (L : lognormal_skew 2 (-4)) by (split; [lra|ring]). destruct (c103_lognormal_refuted sb fuel 5 2 (-4) (-1) 2) as [H _]; try lra; try assumption; [left; lra|].
  destruct H as (d & H1 & H2); [left; lra|]. exists d. split; [exact H1|apply H2].
Qed.
Example c103_symmetric_case sb fuel : exists d f, fit_moments sb fuel 1 2 0 6 true = Ok (Some (Rv d)) /\ mean_sd d f 1 2 /\ central f 4 = 6 * 2 ^ 4.
Proof. destruct (c103_symmetric sb fuel 1 2 6) as (d & f & H1 & H2 & _ & H4); try lra. exists d, f. tauto. Qed.
(** Iterations that end after one pass, from the width 2. *)
Example c103_last_pass_case sb fuel : exists skew kurtosis a b loc scale, 0.1 < Rabs skew /\ 0 <= kurtosis /\
  fit_moments sb (S fuel) 0 1 skew kurtosis true = Ok (Some (Rv (Unbounded a b loc scale))).
Proof.
  set (b1 := 495275 / 31542014). set (k := 30465041 / 2253001). set (skew := sqrt b1).
  assert (B1 : 0.0156 < b1 < 0.0158) by (unfold b1; split; lra). assert (KK : 13.5 < k < 13.6) by (unfold k; split; lra).
  assert (S2 : skew ^ 2 = b1) by (unfold skew; apply pow2_sqrt; lra). assert (SP : 0 < skew) by (apply sqrt_lt_R0; lra).
  assert (S1 : 0.1 < skew) by nra.
  exists skew, k. do 4 eexists. split; [rewrite Rabs_right; lra|]. split; [lra|].
  unfold fit_moments. rewrite (ltb_no 1 0), (eqb_no 1 0) by lra. rewrite !S2. rewrite (leb_yes 0 k), (ltb_no k), (leb_no k) by lra. cbn [andb].
  rewrite (ltb_no (Rabs skew)) by (rewrite Rabs_right; lra). cbn [andb]. rewrite (ltb_no k 0) by lra. cbv zeta.
  replace (Rpower (0.5 * b1 + 1 + skew * sqrt (0.25 * b1 + 1)) (1 / 3) + Rpower (0.5 * b1 + 1 - skew * sqrt (0.25 * b1 + 1)) (1 / 3) - 1) with (omega_of skew) by (unfold omega_of; rewrite S2; reflexivity).
  destruct (omega_facts skew) as (OE & OG & _). rewrite S2 in OE. set (o := omega_of skew) in *. assert (O1 : o < 1.01) by nra.
  assert (OL : o * o * (3 + o * (2 + o)) - 3 < 4) by nra. assert (OA : Rabs (o * o * (3 + o * (2 + o)) - 3 - k) = k - (o * o * (3 + o * (2 + o)) - 3)) by (rewrite Rabs_left; lra).
  rewrite OA, (ltb_no (k - _)), (ltb_no 0) by lra.
  unfold su_fit. rewrite (ltb_no (Rabs skew)) by (rewrite Rabs_right; lra). rewrite !S2.
  replace (2.0 * k - 2.8 * b1 - 2.0) with (5 * 5) by (unfold k, b1; lra).
  unfold msqrt at 1. rewrite ltb_no by lra. cbn [bind]. rewrite sqrt_square by lra. replace (5 - 1.0) with (2 * 2) by lra. unfold msqrt at 1. rewrite ltb_no by lra. cbn [bind]. rewrite sqrt_square by lra.
  cbn [su_loop negb]. cbv zeta.
  set (aa := 8 * ((2 - 1) * (3 + 2 * (7 + 2 * (6 + 2 * (3 + 2)))) - (2 + 1) * (k - 3))). set (bb := 16 * ((2 - 1) * (6 + 2 * (6 + 2 * (3 + 2))) - (k - 3))).
  assert (A0 : 300 < aa) by (unfold aa; lra). assert (B0 : 400 < bb) by (unfold bb; lra).
  assert (DI : aa ^ 2 - 2 * bb * ((2 - 1) * (3 + 2 * (9 + 2 * (10 + 2 * (6 + 2 * (3 + 2))))) - 2 * (2 + 1) * ((2 + 1) * (k - 3))) = (aa + bb / 1000) * (aa + bb / 1000)).
  { unfold aa, bb, k. field. }
  rewrite DI. unfold msqrt at 1. rewrite ltb_no by nra. cbn [bind]. rewrite sqrt_square by lra.
  unfold mdiv at 1. rewrite eqb_no by lra. cbn [bind]. replace ((aa + bb / 1000 - aa) / bb) with (1 / 1000) by (field; lra).
  unfold mdiv at 1. rewrite eqb_no by lra. cbn [bind]. set (z := _ / _).
  assert (Z : 0.0134 < z < 0.0136) by (unfold z; split; lra).
  unfold mdiv at 1. rewrite eqb_no by lra. cbn [bind].
  set (r := 1 - 2 * (1.5 - k + b1 * (k - 1.5 - 2 ^ 2 * (1 + 0.5 * 2 ^ 2)) / z)).
  assert (R1 : 16 < r). { unfold r. assert (b1 * (k - 1.5 - 2 ^ 2 * (1 + 0.5 * 2 ^ 2)) / z < 2); [|lra]. apply (Rmult_lt_reg_r z); [lra|]. replace (b1 * (k - 1.5 - 2 ^ 2 * (1 + 0.5 * 2 ^ 2)) / z * z) with (b1 * (k - 1.5 - 2 ^ 2 * (1 + 0.5 * 2 ^ 2))) by (field; lra). nra. }
  unfold msqrt at 1. rewrite ltb_no by lra. cbn [bind]. assert (R2 : 4 < sqrt r) by (replace 4 with (sqrt (4 * 4)) by (apply sqrt_square; lra); apply sqrt_lt_1; lra).
  unfold msqrt at 1. rewrite ltb_no by lra. cbn [bind]. set (w := sqrt (sqrt r - 1)). assert (W1 : 1 < w) by (unfold w; rewrite <- sqrt_1 at 1; apply sqrt_lt_1; lra).
  assert (St : su_loop fuel b1 k 0.01 w (1 / 1000) (Some z) = Ok (Some (w, 1 / 1000))).
  { destruct fuel; cbn [su_loop]; rewrite ltb_no by (apply Rabs_le; lra); reflexivity. }
  rewrite St. cbn [bind]. unfold mdiv at 1. rewrite eqb_no by lra. cbn [bind]. set (q := 1 / 1000 / w). assert (Q : 0 < q) by (unfold q; apply Rdiv_lt_0_compat; lra).
  unfold msqrt at 1. rewrite ltb_no by lra. cbn [bind]. unfold msqrt at 1. rewrite ltb_no by lra. cbn [bind].
  assert (Q1 : 0 < sqrt q) by (apply sqrt_lt_R0; lra). assert (Q2 : 0 < sqrt (q + 1)) by (apply sqrt_lt_R0; lra).
  unfold mlog at 1. rewrite ltb_yes by lra. cbn [bind]. rewrite (ltb_yes 0 skew) by exact SP. set (y := ln _ * -1).
  assert (LP : 0 < ln w) by (rewrite <- ln_1; apply ln_increasing; lra). unfold mlog at 1. rewrite ltb_yes by lra. cbn [bind]. unfold mdiv at 1. rewrite eqb_no by lra. cbn [bind].
  assert (IP : 0 < 1 / ln w) by (apply Rdiv_lt_0_compat; lra). unfold msqrt at 1. rewrite ltb_no by lra. cbn [bind]. assert (DP : 0 < sqrt (1 / ln w)) by now apply sqrt_lt_R0.
  set (e := 0.5 * (w - 1) * (0.5 * w * (exp y ^ 2 + 1 / exp y ^ 2) + 1)).
  assert (EP : 0 < e). { unfold e. pose proof (exp_pos y). apply Rmult_lt_0_compat; [lra|]. assert (0 < exp y ^ 2) by (apply pow_lt; lra). assert (0 < 1 / exp y ^ 2) by (apply Rdiv_lt_0_compat; lra). assert (0 < 0.5 * w * (exp y ^ 2 + 1 / exp y ^ 2)) by (apply Rmult_lt_0_compat; lra). lra. }
  unfold msqrt. rewrite ltb_no by lra. cbn [bind]. assert (0 < sqrt e) by now apply sqrt_lt_R0. unfold mdiv. rewrite eqb_no by lra. cbn [bind]. rewrite eqb_no by lra. cbn [bind]. reflexivity.
Qed.
