(** Proofs about influence coefficients. *)
From Coq Require Import String List Bool Arith ZArith Reals Lia Lra.
From Coquelicot Require Import Coquelicot.
From Verif Require Import Py SurfaceModel InfluenceModel.
Import ListNotations.
Local Open Scope R_scope.

Lemma offset_spec s i : (0 < s)%nat -> offset s i = (Z.of_nat i - Z.of_nat ((s - 1) / 2))%Z.
Proof.
  intros H. unfold offset. destruct (Nat.Even_or_Odd s) as [[p ->]|[p ->]].
  - replace (2 * p - 1)%nat with (1 + (p - 1) * 2)%nat by lia. rewrite Nat.div_add by lia.
    rewrite (Nat.mul_comm 2 p), Nat.div_mul, Nat.mod_mul by lia. cbn [Nat.div fst Nat.divmod]. lia.
  - replace (2 * p + 1 - 1)%nat with (p * 2)%nat by lia. rewrite Nat.div_mul by lia.
    replace (2 * p + 1)%nat with (1 + p * 2)%nat by lia. rewrite Nat.div_add, Nat.mod_add by lia.
    cbn [Nat.div fst Nat.divmod]. change (Nat.modulo 1 2) with 1%nat. lia.
Qed.

(** Half integers are not zero. *)
Lemma half_neq (d : Z) : IZR d + 1 / 2 <> 0 /\ IZR d - 1 / 2 <> 0.
Proof.
  assert (A : forall z, IZR (2 * z + 1) <> 0). { intros z. apply not_0_IZR. lia. }
  pose proof (A d) as P. pose proof (A (d - 1)%Z) as Q.
  rewrite plus_IZR, mult_IZR in P, Q. rewrite minus_IZR in Q. split; lra.
Qed.

Lemma pow2_gt_0 x : x <> 0 -> 0 < x ^ 2.
Proof. intros H. destruct (Rtotal_order x 0) as [L|[L|L]]; [nra|contradiction|nra]. Qed.
Lemma ln_quot_neg a b m : m <> 0 -> (- b + sqrt (b ^ 2 + m ^ 2)) / (- a + sqrt (a ^ 2 + m ^ 2)) =
  (a + sqrt (a ^ 2 + m ^ 2)) / (b + sqrt (b ^ 2 + m ^ 2)).
Proof.
  intros Hm.
  assert (P : forall x, sqrt (x ^ 2 + m ^ 2) * sqrt (x ^ 2 + m ^ 2) = x ^ 2 + m ^ 2) by (intros; apply sqrt_sqrt; nra).
  assert (M : 0 < m ^ 2) by (apply pow2_gt_0; exact Hm).
  assert (Q : forall x, x + sqrt (x ^ 2 + m ^ 2) <> 0).
  { intros x E. specialize (P x). pose proof (sqrt_pos (x ^ 2 + m ^ 2)). nra. }
  assert (Q' : forall x, - x + sqrt (x ^ 2 + m ^ 2) <> 0).
  { intros x E. specialize (P x). pose proof (sqrt_pos (x ^ 2 + m ^ 2)). nra. }
  assert (U : (b + sqrt (b ^ 2 + m ^ 2)) * (- b + sqrt (b ^ 2 + m ^ 2)) = m ^ 2) by (specialize (P b); nra).
  assert (V : (a + sqrt (a ^ 2 + m ^ 2)) * (- a + sqrt (a ^ 2 + m ^ 2)) = m ^ 2) by (specialize (P a); nra).
  apply (Rmult_eq_reg_r ((- a + sqrt (a ^ 2 + m ^ 2)) * (b + sqrt (b ^ 2 + m ^ 2)))).
  - transitivity ((b + sqrt (b ^ 2 + m ^ 2)) * (- b + sqrt (b ^ 2 + m ^ 2))); [field; apply Q'|].
    transitivity ((a + sqrt (a ^ 2 + m ^ 2)) * (- a + sqrt (a ^ 2 + m ^ 2))); [rewrite U, V; reflexivity|]. field. apply Q.
  - apply Rmult_integral_contrapositive_currified; [apply Q'|apply Q].
Qed.
Lemma neg_sq x : (- x) ^ 2 = x ^ 2.
Proof. ring. Qed.

(** Reflection of one axis. *)
Lemma zz_reflect_x hx hy k el m n : m <> 0 -> n <> 0 -> shape_zz hx hy (- el) (- k) m n = shape_zz hx hy k el m n.
Proof.
  intros Hm Hn. unfold shape_zz. rewrite !neg_sq.
  rewrite !(ln_quot_neg _ _ m Hm). rewrite (ln_quot_neg el k n Hn).
  assert (L : forall a, a <> 0 ->
    ln ((n + sqrt (a ^ 2 + n ^ 2)) / (m + sqrt (a ^ 2 + m ^ 2))) = - ln ((m + sqrt (a ^ 2 + m ^ 2)) / (n + sqrt (a ^ 2 + n ^ 2)))).
  { intros a Ha.
    assert (S : forall x, 0 < x + sqrt (a ^ 2 + x ^ 2)).
    { intros x. pose proof (sqrt_sqrt (a ^ 2 + x ^ 2) ltac:(nra)). pose proof (sqrt_pos (a ^ 2 + x ^ 2)).
      assert (0 < a ^ 2) by (apply pow2_gt_0; exact Ha). nra. }
    rewrite <- ln_Rinv by (apply Rdiv_lt_0_compat; apply S). f_equal. field.
    split; apply Rgt_not_eq; apply S. }
  destruct (Req_dec k 0) as [->|Hk], (Req_dec el 0) as [->|Hel].
  - rewrite Ropp_0. ring.
  - rewrite (L el) by exact Hel. ring.
  - rewrite (L k) by exact Hk. ring.
  - rewrite (L k), (L el) by assumption. ring.
Qed.
Lemma zz_swap hx hy k el m n : k <> 0 -> el <> 0 -> m <> 0 -> n <> 0 -> shape_zz hx hy k el m n = shape_zz hy hx m n k el.
Proof.
  intros Hk Hel Hm Hn. unfold shape_zz.
  rewrite (Rplus_comm (m ^ 2) (k ^ 2)), (Rplus_comm (m ^ 2) (el ^ 2)), (Rplus_comm (n ^ 2) (k ^ 2)), (Rplus_comm (n ^ 2) (el ^ 2)).
  apply Rplus_comm.
Qed.
Lemma zz_reflect_y hx hy k el m n : k <> 0 -> el <> 0 -> m <> 0 -> n <> 0 -> shape_zz hx hy k el (- n) (- m) = shape_zz hx hy k el m n.
Proof. intros Hk Hel Hm Hn. rewrite zz_swap, zz_reflect_x, <- zz_swap by lra. reflexivity. Qed.

Definition zz (hx hy : R) (di dj : Z) : R :=
  shape_zz hx hy (IZR di + 1 / 2) (IZR di - 1 / 2) (IZR dj + 1 / 2) (IZR dj - 1 / 2).
Lemma zz_opp_x hx hy di dj : zz hx hy (- di) dj = zz hx hy di dj.
Proof.
  unfold zz. rewrite opp_IZR. destruct (half_neq dj).
  rewrite <- (zz_reflect_x hx hy (IZR di + 1 / 2)) by assumption. f_equal; lra.
Qed.
Lemma zz_opp_y hx hy di dj : zz hx hy di (- dj) = zz hx hy di dj.
Proof.
  unfold zz. rewrite opp_IZR. destruct (half_neq dj), (half_neq di).
  rewrite <- (zz_reflect_y hx hy _ _ (IZR dj + 1 / 2)) by assumption. f_equal; lra.
Qed.
Lemma zz_abs hx hy di dj di' dj' : Z.abs di = Z.abs di' -> Z.abs dj = Z.abs dj' -> zz hx hy di dj = zz hx hy di' dj'.
Proof.
  intros A B. assert (C : di = di' \/ di = (- di')%Z) by lia. assert (D : dj = dj' \/ dj = (- dj')%Z) by lia.
  destruct C as [->| ->], D as [->| ->]; rewrite ?zz_opp_x, ?zz_opp_y; reflexivity.
Qed.

(** ** Tangential coupling is odd *)
Lemma xz_reflect hx hy k el m n : k <> 0 -> el <> 0 -> shape_xz hx hy (- el) (- k) m n = - shape_xz hx hy k el m n.
Proof.
  intros Hk Hel. unfold shape_xz. rewrite !neg_sq.
  assert (P : forall a x, a <> 0 -> 0 < a ^ 2 + x ^ 2) by (intros a x Ha; pose proof (pow2_gt_0 a Ha); nra).
  assert (L : forall x, ln ((el ^ 2 + x ^ 2) / (k ^ 2 + x ^ 2)) = - ln ((k ^ 2 + x ^ 2) / (el ^ 2 + x ^ 2))).
  { intros x. pose proof (P k x Hk). pose proof (P el x Hel). rewrite <- ln_Rinv by (apply Rdiv_lt_0_compat; assumption).
    f_equal. field. split; lra. }
  rewrite !L.
  replace (m / - el) with (- (m / el)) by (field; assumption). replace (n / - el) with (- (n / el)) by (field; assumption).
  replace (m / - k) with (- (m / k)) by (field; assumption). replace (n / - k) with (- (n / k)) by (field; assumption).
  rewrite !atan_opp. lra.
Qed.
Definition xz (hx hy : R) (di dj : Z) : R :=
  shape_xz hx hy (IZR di + 1 / 2) (IZR di - 1 / 2) (IZR dj + 1 / 2) (IZR dj - 1 / 2).
Lemma xz_odd hx hy di dj : xz hx hy (- di) dj = - xz hx hy di dj.
Proof.
  unfold xz. rewrite opp_IZR. destruct (half_neq di). rewrite <- xz_reflect by assumption. f_equal; lra.
Qed.
Lemma xz_reflect_y hx hy k el m n : k <> 0 -> el <> 0 -> shape_xz hx hy k el (- n) (- m) = shape_xz hx hy k el m n.
Proof.
  intros Hk Hel. unfold shape_xz. rewrite !neg_sq.
  assert (P : forall a x, a <> 0 -> 0 < a ^ 2 + x ^ 2) by (intros a x Ha; pose proof (pow2_gt_0 a Ha); nra).
  assert (L : forall x, ln ((el ^ 2 + x ^ 2) / (k ^ 2 + x ^ 2)) = - ln ((k ^ 2 + x ^ 2) / (el ^ 2 + x ^ 2))).
  { intros x. pose proof (P k x Hk). pose proof (P el x Hel). rewrite <- ln_Rinv by (apply Rdiv_lt_0_compat; assumption).
    f_equal. field. split; lra. }
  rewrite !L.
  replace (- n / el) with (- (n / el)) by (field; assumption). replace (- m / el) with (- (m / el)) by (field; assumption).
  replace (- n / k) with (- (n / k)) by (field; assumption). replace (- m / k) with (- (m / k)) by (field; assumption).
  rewrite !atan_opp. lra.
Qed.
Lemma xz_opp_y hx hy di dj : xz hx hy di (- dj) = xz hx hy di dj.
Proof.
  unfold xz. rewrite opp_IZR. destruct (half_neq di).
  rewrite <- (xz_reflect_y hx hy _ _ (IZR dj + 1 / 2)) by assumption. f_equal; lra.
Qed.

(** The coupling of neighbours is positive. *)
Lemma xz_neighbour hx hy : 0 < hx -> 0 < hy -> 0 < xz hx hy 1 0.
Proof.
  intros Hx Hy. unfold xz, shape_xz.
  replace (((IZR 1 + 1 / 2) ^ 2 + (IZR 0 + 1 / 2) ^ 2) / ((IZR 1 - 1 / 2) ^ 2 + (IZR 0 + 1 / 2) ^ 2)) with 5 by field.
  replace (((IZR 1 - 1 / 2) ^ 2 + (IZR 0 - 1 / 2) ^ 2) / ((IZR 1 + 1 / 2) ^ 2 + (IZR 0 - 1 / 2) ^ 2)) with (/ 5) by field.
  rewrite ln_Rinv by lra.
  replace ((IZR 0 + 1 / 2) / (IZR 1 + 1 / 2)) with (/ 3) by field.
  replace ((IZR 0 - 1 / 2) / (IZR 1 + 1 / 2)) with (- / 3) by field.
  replace ((IZR 0 - 1 / 2) / (IZR 1 - 1 / 2)) with (Ropp 1) by field.
  replace ((IZR 0 + 1 / 2) / (IZR 1 - 1 / 2)) with 1 by field.
  rewrite !atan_opp, atan_1.
  assert (L : 0 < ln 5) by (rewrite <- ln_1; apply ln_increasing; lra).
  assert (T : PI / 4 < 3 * atan (/ 3)).
  { rewrite Machin_2_3_7. assert (atan (/ 7) < atan (/ 3)) by (apply atan_increasing; lra). lra. }
  replace (hy / 2 * ((IZR 0 + 1 / 2) * ln 5 + (IZR 0 - 1 / 2) * - ln 5) +
    hx * ((IZR 1 + 1 / 2) * (atan (/ 3) - - atan (/ 3)) + (IZR 1 - 1 / 2) * (- (PI / 4) - PI / 4)))
    with (hy / 2 * ln 5 + hx * (3 * atan (/ 3) - PI / 4)) by field.
  apply Rplus_lt_0_compat; apply Rmult_lt_0_compat; lra.
Qed.

(** ** Normal coefficients are positive *)
(** t -> asinh(t / k) - t / sqrt(k^2 + t^2) increases. *)
Lemma sq_pos k t : k <> 0 -> 0 < k ^ 2 + t ^ 2.
Proof. intros Hk. pose proof (pow2_gt_0 k Hk). pose proof (pow2_ge_0 t). lra. Qed.
Lemma sqrt_sq k t : sqrt (k ^ 2 + t ^ 2) * sqrt (k ^ 2 + t ^ 2) = k ^ 2 + t ^ 2.
Proof. apply sqrt_sqrt. nra. Qed.
Lemma plus_sqrt_pos k t : k <> 0 -> 0 < t + sqrt (k ^ 2 + t ^ 2).
Proof.
  intros Hk. pose proof (sqrt_sq k t).
  pose proof (sqrt_pos (k ^ 2 + t ^ 2)). pose proof (pow2_gt_0 k Hk).
  destruct (Rlt_le_dec 0 (t + sqrt (k ^ 2 + t ^ 2))); [assumption|]. nra.
Qed.
Lemma sqrt_pos' k t : k <> 0 -> 0 < sqrt (k ^ 2 + t ^ 2).
Proof. intros Hk. apply sqrt_lt_R0. apply sq_pos. exact Hk. Qed.

(** The mean value theorem for a positive derivative. *)
Lemma increasing_on (f f' : R -> R) a b : a < b -> (forall x, a <= x <= b -> derivable_pt_lim f x (f' x)) ->
  (forall x, a < x < b -> 0 < f' x) -> f a < f b.
Proof.
  intros H D P. destruct (MVT_cor2 f f' a b H D) as (c & E & Hc). specialize (P c Hc). nra.
Qed.

Definition ldiff (k t : R) : R := ln (t + sqrt (k ^ 2 + t ^ 2)).
Definition gfun (k t : R) : R := ldiff k t - t / sqrt (k ^ 2 + t ^ 2).
Lemma ldiff_derive k t : k <> 0 -> derivable_pt_lim (ldiff k) t (/ sqrt (k ^ 2 + t ^ 2)).
Proof.
  intros Hk. apply is_derive_Reals. unfold ldiff. pose proof (sq_pos k t Hk). pose proof (plus_sqrt_pos k t Hk).
  pose proof (sqrt_pos' k t Hk).
  auto_derive.
  - cbn in *. split; [assumption|]. split; [assumption|exact I].
  - change (t * (t * 1)) with (t ^ 2). change (k * (k * 1)) with (k ^ 2). field. split; lra.
Qed.
Lemma gfun_derive k t : k <> 0 -> derivable_pt_lim (gfun k) t (t ^ 2 / (sqrt (k ^ 2 + t ^ 2)) ^ 3).
Proof.
  intros Hk. pose proof (sq_pos k t Hk). pose proof (sqrt_pos' k t Hk). pose proof (sqrt_sq k t) as E.
  assert (D : derivable_pt_lim (fun t => t / sqrt (k ^ 2 + t ^ 2)) t (k ^ 2 / (sqrt (k ^ 2 + t ^ 2)) ^ 3)).
  { apply is_derive_Reals. auto_derive.
    - cbn in *. split; [assumption|]. split; [apply Rgt_not_eq; assumption|exact I].
    - change (t * (t * 1)) with (t ^ 2). change (k * (k * 1)) with (k ^ 2).
      set (s := sqrt (k ^ 2 + t ^ 2)) in *. replace (k ^ 2) with (s * s - t ^ 2) by lra. field. lra. }
  replace (t ^ 2 / sqrt (k ^ 2 + t ^ 2) ^ 3) with (/ sqrt (k ^ 2 + t ^ 2) - k ^ 2 / (sqrt (k ^ 2 + t ^ 2)) ^ 3).
  - apply (derivable_pt_lim_minus (ldiff k) (fun t => t / sqrt (k ^ 2 + t ^ 2))); [apply ldiff_derive; exact Hk|exact D].
  - set (s := sqrt (k ^ 2 + t ^ 2)) in *. replace (k ^ 2) with (s * s - t ^ 2) by lra. field. lra.
Qed.
Lemma gfun_increasing k a b : k <> 0 -> a < b -> gfun k a < gfun k b.
Proof.
  intros Hk.
  assert (P : forall a b, a < b -> (b <= 0 \/ 0 <= a) -> gfun k a < gfun k b).
  { clear a b. intros a b H C. apply (increasing_on _ (fun t => t ^ 2 / (sqrt (k ^ 2 + t ^ 2)) ^ 3)); [exact H| |].
    - intros x _. apply gfun_derive. exact Hk.
    - intros x Hx. apply Rdiv_lt_0_compat; [apply pow2_gt_0; lra|]. apply pow_lt. apply sqrt_pos'. exact Hk. }
  intros H. destruct (Rle_lt_dec b 0) as [B|B]; [apply P; auto|]. destruct (Rle_lt_dec 0 a) as [A|A]; [apply P; auto|].
  apply (Rlt_trans _ (gfun k 0)); apply P; lra.
Qed.
Lemma ldiff_increasing k a b : k <> 0 -> a < b -> ldiff k a < ldiff k b.
Proof.
  intros Hk H. apply (increasing_on _ (fun t => / sqrt (k ^ 2 + t ^ 2))); [exact H| |].
  - intros x _. apply ldiff_derive. exact Hk.
  - intros x _. apply Rinv_0_lt_compat. apply sqrt_pos'. exact Hk.
Qed.

Definition phi (m n k : R) : R := k * (ldiff k m - ldiff k n).
Lemma phi_derive m n k : k <> 0 -> derivable_pt_lim (phi m n) k (gfun k m - gfun k n).
Proof.
  intros Hk. unfold gfun.
  assert (D : forall t, derivable_pt_lim (fun k => ldiff k t) k (/ k - t / (k * sqrt (k ^ 2 + t ^ 2)))).
  { intros t. pose proof (sq_pos k t Hk). pose proof (sqrt_pos' k t Hk). pose proof (sqrt_sq k t) as E.
    pose proof (plus_sqrt_pos k t Hk).
    apply is_derive_Reals. unfold ldiff. auto_derive.
    - cbn in *. split; [assumption|]. split; [assumption|exact I].
    - change (t * (t * 1)) with (t ^ 2). change (k * (k * 1)) with (k ^ 2).
      set (s := sqrt (k ^ 2 + t ^ 2)) in *.
      apply (Rmult_eq_reg_r (k * s * (t + s))); [|apply Rmult_integral_contrapositive_currified; [apply Rmult_integral_contrapositive_currified|]; lra].
      transitivity (k ^ 2); [field; split; lra|]. replace (k ^ 2) with (s * s - t ^ 2) by lra. field. split; [lra|exact Hk]. }
  replace (ldiff k m - m / sqrt (k ^ 2 + m ^ 2) - (ldiff k n - n / sqrt (k ^ 2 + n ^ 2)))
    with (1 * (ldiff k m - ldiff k n) + k * ((/ k - m / (k * sqrt (k ^ 2 + m ^ 2))) - (/ k - n / (k * sqrt (k ^ 2 + n ^ 2))))).
  - apply (derivable_pt_lim_mult id (fun k => ldiff k m - ldiff k n)); [apply derivable_pt_lim_id|].
    apply (derivable_pt_lim_minus (fun k => ldiff k m) (fun k => ldiff k n)); apply D.
  - pose proof (sqrt_pos' k m Hk). pose proof (sqrt_pos' k n Hk). field. repeat split; lra.
Qed.
Lemma phi_increasing m n a b : n < m -> 0 < a -> a < b -> phi m n a < phi m n b.
Proof.
  intros H Ha Hb. apply (increasing_on _ (fun k => gfun k m - gfun k n)); [exact Hb| |].
  - intros x Hx. apply phi_derive. lra.
  - intros x Hx. pose proof (gfun_increasing x n m). lra.
Qed.
Lemma phi_pos m n a : n < m -> 0 < a -> 0 < phi m n a.
Proof. intros H Ha. unfold phi. pose proof (ldiff_increasing a n m). apply Rmult_lt_0_compat; lra. Qed.
Lemma phi_opp m n a : phi m n (- a) = - phi m n a.
Proof. unfold phi, ldiff. rewrite !neg_sq. ring. Qed.
(** An interval of half integers: both positive or symmetric. *)
Lemma phi_step m n (d : Z) : n < m -> (0 <= d)%Z -> 0 < phi m n (IZR d + 1 / 2) - phi m n (IZR d - 1 / 2).
Proof.
  intros H Hd. destruct (Z.eq_dec d 0) as [->|E].
  - replace (IZR 0 - 1 / 2) with (- (1 / 2)) by lra. replace (IZR 0 + 1 / 2) with (1 / 2) by lra. rewrite phi_opp.
    pose proof (phi_pos m n (1 / 2)). lra.
  - assert (1 <= IZR d) by (apply IZR_le; lia). pose proof (phi_increasing m n (IZR d - 1 / 2) (IZR d + 1 / 2)). lra.
Qed.
Lemma zz_phi hx hy k el m n : k <> 0 -> el <> 0 -> m <> 0 -> n <> 0 ->
  shape_zz hx hy k el m n = hx * (phi m n k - phi m n el) + hy * (phi k el m - phi k el n).
Proof.
  intros Hk Hel Hm Hn. unfold shape_zz, phi, ldiff.
  rewrite (Rplus_comm (m ^ 2) (k ^ 2)), (Rplus_comm (m ^ 2) (el ^ 2)), (Rplus_comm (n ^ 2) (k ^ 2)), (Rplus_comm (n ^ 2) (el ^ 2)).
  assert (S : forall a x, a <> 0 -> 0 < x + sqrt (a ^ 2 + x ^ 2)) by (intros; apply plus_sqrt_pos; assumption).
  assert (S' : forall a x, a <> 0 -> 0 < x + sqrt (x ^ 2 + a ^ 2)).
  { intros a x Ha. rewrite (Rplus_comm (x ^ 2)). apply plus_sqrt_pos. exact Ha. }
  rewrite !ln_div by (apply S; assumption) || idtac.
  rewrite !ln_div by (first [apply S; assumption | apply S'; assumption]).
  ring.
Qed.
Lemma zz_positive hx hy di dj : 0 < hx -> 0 < hy -> 0 < zz hx hy di dj.
Proof.
  intros Hx Hy. rewrite (zz_abs hx hy di dj (Z.abs di) (Z.abs dj)) by lia.
  generalize (Z.abs_nonneg di), (Z.abs_nonneg dj). generalize (Z.abs di) as a, (Z.abs dj) as b. intros a b Ha Hb.
  unfold zz. destruct (half_neq a), (half_neq b). rewrite zz_phi by assumption.
  pose proof (phi_step (IZR b + 1 / 2) (IZR b - 1 / 2) a ltac:(lra) Ha).
  pose proof (phi_step (IZR a + 1 / 2) (IZR a - 1 / 2) b ltac:(lra) Hb).
  apply Rplus_lt_0_compat; apply Rmult_lt_0_compat; assumption.
Qed.

(** ** The integral of 1 / r over a cell *)
Lemma inner_integral y a b : y <> 0 -> is_RInt (fun x => / sqrt (x ^ 2 + y ^ 2)) a b (ldiff y b - ldiff y a).
Proof.
  intros Hy. apply (is_RInt_ext (fun x => / sqrt (y ^ 2 + x ^ 2))).
  { intros x _. rewrite (Rplus_comm (y ^ 2)). reflexivity. }
  apply (is_RInt_derive (ldiff y) (fun x => / sqrt (y ^ 2 + x ^ 2))).
  - intros x _. apply is_derive_Reals. apply ldiff_derive. exact Hy.
  - intros x _. apply (ex_derive_continuous (fun x => / sqrt (y ^ 2 + x ^ 2))).
    pose proof (sq_pos y x Hy). pose proof (sqrt_pos' y x Hy). auto_derive. cbn in *.
    split; [assumption|]. split; [lra|exact I].
Qed.
Definition outer (k el y : R) : R := phi k el y + k * ldiff k y - el * ldiff el y.
Lemma outer_derive k el y : k <> 0 -> el <> 0 -> y <> 0 -> derivable_pt_lim (outer k el) y (ldiff y k - ldiff y el).
Proof.
  intros Hk Hel Hy. unfold outer.
  replace (ldiff y k - ldiff y el) with ((gfun y k - gfun y el) + k * / sqrt (k ^ 2 + y ^ 2) - el * / sqrt (el ^ 2 + y ^ 2)).
  - apply (derivable_pt_lim_minus (fun y => phi k el y + k * ldiff k y) (fun y => el * ldiff el y)).
    + apply (derivable_pt_lim_plus (phi k el) (fun y => k * ldiff k y)); [apply phi_derive; exact Hy|].
      apply (derivable_pt_lim_scal (ldiff k)). apply ldiff_derive. exact Hk.
    + apply (derivable_pt_lim_scal (ldiff el)). apply ldiff_derive. exact Hel.
  - unfold gfun. rewrite (Rplus_comm (k ^ 2)), (Rplus_comm (el ^ 2)). unfold Rdiv. ring.
Qed.
Lemma ldiff_derive_k k t : k <> 0 -> derivable_pt_lim (fun k => ldiff k t) k (/ k - t / (k * sqrt (k ^ 2 + t ^ 2))).
Proof.
  intros Hk. pose proof (sq_pos k t Hk). pose proof (sqrt_pos' k t Hk). pose proof (sqrt_sq k t) as E.
  pose proof (plus_sqrt_pos k t Hk).
  apply is_derive_Reals. unfold ldiff. auto_derive.
  - cbn in *. split; [assumption|]. split; [assumption|exact I].
  - change (t * (t * 1)) with (t ^ 2). change (k * (k * 1)) with (k ^ 2).
    set (s := sqrt (k ^ 2 + t ^ 2)) in *.
    apply (Rmult_eq_reg_r (k * s * (t + s))); [|apply Rmult_integral_contrapositive_currified; [apply Rmult_integral_contrapositive_currified|]; lra].
    transitivity (k ^ 2); [field; split; lra|]. replace (k ^ 2) with (s * s - t ^ 2) by lra. field. split; [lra|exact Hk].
Qed.
Lemma outer_integral k el n m : k <> 0 -> el <> 0 -> (0 < n /\ 0 < m) \/ (n < 0 /\ m < 0) ->
  is_RInt (fun y => ldiff y k - ldiff y el) n m (outer k el m - outer k el n).
Proof.
  intros Hk Hel S. assert (N : forall y, Rmin n m <= y <= Rmax n m -> y <> 0).
  { intros y [H1 H2]. unfold Rmin, Rmax in *. destruct (Rle_dec n m); lra. }
  apply (is_RInt_derive (outer k el) (fun y => ldiff y k - ldiff y el)).
  - intros y Hy. apply is_derive_Reals. apply outer_derive; auto.
  - intros y Hy. apply (ex_derive_continuous (fun y => ldiff y k - ldiff y el)).
    exists ((/ y - k / (y * sqrt (y ^ 2 + k ^ 2))) - (/ y - el / (y * sqrt (y ^ 2 + el ^ 2)))).
    apply is_derive_Reals. apply (derivable_pt_lim_minus (fun y => ldiff y k) (fun y => ldiff y el)); apply ldiff_derive_k; auto.
Qed.
(** The double integral over [el, k] x [n, m]. *)
Lemma cell_integral k el n m : k <> 0 -> el <> 0 -> (0 < n /\ 0 < m) \/ (n < 0 /\ m < 0) ->
  RInt (fun y => RInt (fun x => / sqrt (x ^ 2 + y ^ 2)) el k) n m = outer k el m - outer k el n.
Proof.
  intros Hk Hel S. rewrite (RInt_ext _ (fun y => ldiff y k - ldiff y el)).
  - apply is_RInt_unique. apply outer_integral; assumption.
  - intros y [H1 H2]. apply is_RInt_unique. apply inner_integral.
    unfold Rmin, Rmax in *. destruct (Rle_dec n m); lra.
Qed.
Lemma zz_outer k el m n : k <> 0 -> el <> 0 -> m <> 0 -> n <> 0 -> shape_zz 1 1 k el m n = outer k el m - outer k el n.
Proof. intros Hk Hel Hm Hn. rewrite zz_phi by assumption. unfold outer, phi. ring. Qed.
Lemma zz_square h k el m n : shape_zz h h k el m n = h * shape_zz 1 1 k el m n.
Proof. unfold shape_zz. ring. Qed.
Lemma half_sign (d : Z) : d <> 0%Z -> (0 < IZR d - 1 / 2 /\ 0 < IZR d + 1 / 2) \/ (IZR d - 1 / 2 < 0 /\ IZR d + 1 / 2 < 0).
Proof.
  intros H. destruct (Z_lt_ge_dec d 0) as [L|G].
  - right. assert (IZR d <= -1) by (apply IZR_le; lia). lra.
  - left. assert (1 <= IZR d) by (apply IZR_le; lia). lra.
Qed.
(** Scaling of lengths. *)
Lemma ldiff_scale h k t : 0 < h -> k <> 0 -> ldiff (h * k) (h * t) = ln h + ldiff k t.
Proof.
  intros Hh Hk. unfold ldiff.
  replace ((h * k) ^ 2 + (h * t) ^ 2) with (h ^ 2 * (k ^ 2 + t ^ 2)) by ring.
  rewrite sqrt_mult by nra. replace (sqrt (h ^ 2)) with h by (symmetry; apply sqrt_pow2; lra).
  rewrite <- Rmult_plus_distr_l. apply ln_mult; [exact Hh|]. apply plus_sqrt_pos. exact Hk.
Qed.
Lemma outer_scale h k el m n : 0 < h -> k <> 0 -> el <> 0 -> m <> 0 -> n <> 0 ->
  outer (h * k) (h * el) (h * m) - outer (h * k) (h * el) (h * n) = h * (outer k el m - outer k el n).
Proof.
  intros Hh Hk Hel Hm Hn. unfold outer, phi. rewrite !ldiff_scale by assumption. ring.
Qed.
(** The integral is bounded for a cell far away. *)
Lemma cell_bound k el n m : el < k -> k <> 0 -> el <> 0 -> 0 < n -> n < m ->
  outer k el m - outer k el n <= (m - n) * ((k - el) / n).
Proof.
  intros H Hk Hel Hn Hm. rewrite <- (is_RInt_unique _ _ _ _ (outer_integral k el n m Hk Hel ltac:(left; lra))).
  replace ((m - n) * ((k - el) / n)) with (RInt (fun _ => (k - el) / n) n m) by (rewrite RInt_const; reflexivity).
  apply RInt_le; [lra| | |].
  - eexists. apply outer_integral; [assumption|assumption|left; lra].
  - apply ex_RInt_const.
  - intros y Hy. rewrite <- (is_RInt_unique _ _ _ _ (inner_integral y el k ltac:(lra))).
    replace ((k - el) / n) with (RInt (fun _ => / n) el k) by (rewrite RInt_const; reflexivity).
    apply RInt_le; [lra| | |].
    + eexists. apply inner_integral. lra.
    + apply ex_RInt_const.
    + intros x _. apply Rinv_le_contravar; [exact Hn|]. rewrite <- (sqrt_pow2 n) by lra. apply sqrt_le_1_alt.
      assert (0 <= x ^ 2) by apply pow2_ge_0. assert (n ^ 2 <= y ^ 2) by (apply pow_incr; lra). lra.
Qed.

(** ** The cell of the load itself *)
Lemma at_right_pos (P : R -> Prop) : (forall e, 0 < e < 1 -> P e) -> at_right 0 P.
Proof.
  intros H. exists (mkposreal 1 Rlt_0_1). intros y B Hy. apply H. split; [exact Hy|].
  apply Rabs_def2 in B. unfold minus, plus, opp in B. cbn in B. lra.
Qed.
Lemma right_cont (f : R -> R) : continuous f 0 -> filterlim f (at_right 0) (locally (f 0)).
Proof. intros H. intros P HP. specialize (H P HP). destruct H as [d D]. exists d. intros y B _. apply D. exact B. Qed.
Lemma xlnx : filterlim (fun e => e * ln e) (at_right 0) (locally 0).
Proof.
  apply (filterlim_le_le (F := at_right 0) (fun e => - (2 * sqrt e)) (fun e => e * ln e) (fun _ => 0) (Finite 0)).
  - apply at_right_pos. intros e He. split.
    + assert (S : 0 < sqrt e) by (apply sqrt_lt_R0; lra).
      assert (E : sqrt e * sqrt e = e) by (apply sqrt_sqrt; lra).
      assert (L : ln (/ sqrt e) < / sqrt e).
      { assert (0 < / sqrt e) by (apply Rinv_0_lt_compat; exact S). pose proof (exp_ineq1 (ln (/ sqrt e))) as X.
        destruct (Req_dec (ln (/ sqrt e)) 0) as [Z|Z]; [lra|]. specialize (X Z). rewrite exp_ln in X by assumption. lra. }
      rewrite ln_Rinv in L by exact S.
      assert (M : ln e = 2 * ln (sqrt e)). { rewrite <- E at 1. rewrite ln_mult by assumption. ring. }
      rewrite M. assert (Q : - ln (sqrt e) * e <= / sqrt e * e) by (apply Rmult_le_compat_r; lra).
      replace (/ sqrt e * e) with (sqrt e) in Q by (rewrite <- E at 3; field; lra). lra.
    + assert (ln e <= 0) by (rewrite <- ln_1; destruct (Req_dec e 1); [subst; lra|left; apply ln_increasing; lra]). nra.
  - assert (C : continuous (fun e => - (2 * sqrt e)) 0).
    { apply (continuous_opp (V := R_NormedModule) (fun e => 2 * sqrt e)).
      apply (continuous_mult (K := R_AbsRing) (fun _ => 2) sqrt); [apply continuous_const|]. apply continuous_sqrt. }
    apply right_cont in C. cbn beta in C. rewrite sqrt_0, Rmult_0_r, Ropp_0 in C. exact C.
  - apply filterlim_const.
Qed.
(** What is left out by the strip of half width e around the load. *)
Lemma strip_value e : 0 < e -> outer (1 / 2) (- (1 / 2)) (- e) - outer (1 / 2) (- (1 / 2)) e =
  - 4 * (e * ldiff e (1 / 2)) + 4 * (e * ln e) + (ldiff (1 / 2) (- e) - ldiff (1 / 2) e).
Proof.
  intros He. unfold outer, phi.
  assert (A : ldiff e (- (1 / 2)) = 2 * ln e - ldiff e (1 / 2)).
  { pose proof (plus_sqrt_pos e (1 / 2) ltac:(lra)) as P. pose proof (plus_sqrt_pos e (- (1 / 2)) ltac:(lra)) as Q.
    unfold ldiff. apply (Rplus_eq_reg_r (ln (1 / 2 + sqrt (e ^ 2 + (1 / 2) ^ 2)))).
    rewrite <- ln_mult by assumption. replace (2 * ln e - ln (1 / 2 + sqrt (e ^ 2 + (1 / 2) ^ 2)) + ln (1 / 2 + sqrt (e ^ 2 + (1 / 2) ^ 2)))
      with (ln e + ln e) by ring. rewrite <- ln_mult by assumption. f_equal.
    rewrite neg_sq. pose proof (sqrt_sq e (1 / 2)). nra. }
  assert (B : forall t, ldiff (- e) t = ldiff e t) by (intros; unfold ldiff; rewrite neg_sq; reflexivity).
  assert (C : forall t, ldiff (- (1 / 2)) t = ldiff (1 / 2) t) by (intros; unfold ldiff; rewrite neg_sq; reflexivity).
  rewrite !B, !C, A. lra.
Qed.
Lemma strip_limit : filterlim (fun e => outer (1 / 2) (- (1 / 2)) (- e) - outer (1 / 2) (- (1 / 2)) e) (at_right 0) (locally 0).
Proof.
  apply (filterlim_within_ext (F := locally 0) (fun u => 0 < u)
    (fun e => - 4 * (e * ldiff e (1 / 2)) + 4 * (e * ln e) + (ldiff (1 / 2) (- e) - ldiff (1 / 2) e))).
  { intros e He. symmetry. apply strip_value. exact He. }
  set (f e := - 4 * (e * ldiff e (1 / 2)) + (ldiff (1 / 2) (- e) - ldiff (1 / 2) e)).
  assert (C : filterlim f (at_right 0) (locally 0)).
  { replace 0 with (f 0) at 2 by (unfold f; rewrite Ropp_0; ring). apply right_cont.
    apply (ex_derive_continuous f). unfold f, ldiff.
    assert (S0 : 0 < 0 ^ 2 + (1 / 2) ^ 2) by lra.
    assert (S1 : 0 < (1 / 2) ^ 2 + 0 ^ 2) by lra.
    assert (S2 : 0 < (1 / 2) ^ 2 + (- 0) ^ 2) by lra.
    pose proof (sqrt_lt_R0 _ S0). pose proof (sqrt_lt_R0 _ S1). pose proof (sqrt_lt_R0 _ S2).
    auto_derive. cbn in *. repeat split; try assumption; try lra. }
  assert (X : filterlim (fun e => 4 * (e * ln e)) (at_right 0) (locally 0)).
  { replace 0 with (4 * 0) at 2 by ring. apply (filterlim_comp _ _ _ (fun e => e * ln e) (fun x => 4 * x) _ (locally 0)); [exact xlnx|].
    apply (filterlim_scal_r (K := R_AbsRing) (V := R_NormedModule) 4 0). }
  apply (filterlim_ext (fun e => plus (f e) (4 * (e * ln e)))).
  { intros e. unfold f, plus. cbn. ring. }
  pose proof (filterlim_comp_2 (G := locally 0) (H := locally 0) _ _ _ C X (filterlim_plus (K := R_AbsRing) (V := R_NormedModule) 0 0)) as E.
  change (plus (0 : R_NormedModule) 0) with (0 + 0) in E. rewrite Rplus_0_l in E. exact E.
Qed.
Lemma self_integral : filterlim (fun e => RInt (fun y => RInt (fun x => / sqrt (x ^ 2 + y ^ 2)) (- (1 / 2)) (1 / 2)) (- (1 / 2)) (- e)
    + RInt (fun y => RInt (fun x => / sqrt (x ^ 2 + y ^ 2)) (- (1 / 2)) (1 / 2)) e (1 / 2))
  (at_right 0) (locally (shape_zz 1 1 (1 / 2) (- (1 / 2)) (1 / 2) (- (1 / 2)))).
Proof.
  set (D e := outer (1 / 2) (- (1 / 2)) (- e) - outer (1 / 2) (- (1 / 2)) e).
  set (v := shape_zz 1 1 (1 / 2) (- (1 / 2)) (1 / 2) (- (1 / 2))).
  apply (filterlim_within_ext (F := locally 0) (fun u => 0 < u) (fun e => plus v (D e))).
  { intros e He. rewrite !cell_integral by lra. unfold v, D. rewrite zz_outer by lra. unfold plus. cbn. ring. }
  pose proof (filterlim_comp_2 (G := locally v) (H := locally 0) _ _ _ (filterlim_const v) strip_limit
    (filterlim_plus (K := R_AbsRing) (V := R_NormedModule) v 0)) as E.
  change (plus (v : R_NormedModule) 0) with (v + 0) in E. rewrite Rplus_0_r in E. exact E.
Qed.
(** The same in a grid of spacing h. *)
Lemma self_integral_scaled h : 0 < h ->
  filterlim (fun e => RInt (fun y => RInt (fun x => / sqrt (x ^ 2 + y ^ 2)) (- (h / 2)) (h / 2)) (- (h / 2)) (- e)
    + RInt (fun y => RInt (fun x => / sqrt (x ^ 2 + y ^ 2)) (- (h / 2)) (h / 2)) e (h / 2))
  (at_right 0) (locally (shape_zz h h (1 / 2) (- (1 / 2)) (1 / 2) (- (1 / 2)))).
Proof.
  intros Hh. set (D e := outer (1 / 2) (- (1 / 2)) (- e) - outer (1 / 2) (- (1 / 2)) e).
  set (v := shape_zz 1 1 (1 / 2) (- (1 / 2)) (1 / 2) (- (1 / 2))).
  apply (filterlim_within_ext (F := locally 0) (fun u => 0 < u) (fun e => h * plus v (D (e / h)))).
  { intros e He. rewrite !cell_integral by lra. unfold v, D. rewrite zz_outer by lra.
    assert (0 < e / h) by (apply Rdiv_lt_0_compat; assumption).
    pose proof (outer_scale h (1 / 2) (- (1 / 2)) (- (e / h)) (- (1 / 2)) Hh ltac:(lra) ltac:(lra) ltac:(lra) ltac:(lra)) as A.
    pose proof (outer_scale h (1 / 2) (- (1 / 2)) (1 / 2) (e / h) Hh ltac:(lra) ltac:(lra) ltac:(lra) ltac:(lra)) as B.
    replace (h * (1 / 2)) with (h / 2) in A, B by field. replace (h * - (1 / 2)) with (- (h / 2)) in A, B by field.
    
    assert (E1 : h * (e / h) = e) by (field; lra). assert (E2 : h * - (e / h) = - e) by (field; lra).
    rewrite E1 in B. rewrite E2 in A.
    rewrite A, B. unfold plus. cbn. ring. }
  rewrite zz_square. fold v.
  assert (S : filterlim (fun e => e / h) (at_right 0) (at_right 0)).
  { intros P [d HP]. assert (Hd : 0 < d * h) by (apply Rmult_lt_0_compat; [apply cond_pos|exact Hh]).
    exists (mkposreal _ Hd). intros y B Hy. apply HP.
    - unfold ball in *. cbn in *. unfold AbsRing_ball, abs, minus, plus, opp in *. cbn in *.
      rewrite Ropp_0, Rplus_0_r in *. apply Rabs_def1; apply Rabs_def2 in B.
      + apply (Rmult_lt_reg_r h); [exact Hh|]. replace (y / h * h) with y by (field; lra). lra.
      + apply (Rmult_lt_reg_r h); [exact Hh|]. replace (y / h * h) with y by (field; lra). lra.
    - apply Rdiv_lt_0_compat; assumption. }
  pose proof (filterlim_comp _ _ _ (fun e => e / h) D _ _ _ S strip_limit) as T.
  pose proof (filterlim_comp_2 (G := locally v) (H := locally 0) _ _ _ (filterlim_const v) T
    (filterlim_plus (K := R_AbsRing) (V := R_NormedModule) v 0)) as E.
  change (plus (v : R_NormedModule) 0) with (v + 0) in E. rewrite Rplus_0_r in E.
  exact (filterlim_comp _ _ _ _ (fun x => h * x) _ _ _ E (filterlim_scal_r (K := R_AbsRing) (V := R_NormedModule) h v)).
Qed.
