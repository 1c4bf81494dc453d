(** Lemmas on autocorrelations. *)
From Coq Require Import Reals List Bool Arith ZArith Lia Lra.
From Verif Require Import Py SurfaceModel ConvModel ConvSpec ConvProofs DftProofs FilterProofs SpectraModel SpectraSpec.
Import ListNotations.
Local Open Scope R_scope.

Lemma pairs_ext n t f g : (forall a b, (a < n)%nat -> (b < n)%nat -> f a b = g a b) -> pairs n t f = pairs n t g.
Proof.
  intro H. apply total_ext. intros a A. destruct (Z.leb_spec 0 (Z.of_nat a + t)), (Z.ltb_spec (Z.of_nat a + t) (Z.of_nat n)); cbn; try reflexivity. apply H; lia.
Qed.
Lemma pairs_zero n f : pairs n 0 f = total n (fun a => f a a).
Proof. apply total_ext. intros a A. rewrite Z.add_0_r. rewrite (proj2 (Z.leb_le _ _)), (proj2 (Z.ltb_lt _ _)) by lia. cbn. now rewrite Nat2Z.id. Qed.
(** A shift to the right and to the left. *)
Lemma pairs_right n t f : (t <= n)%nat -> pairs n (Z.of_nat t) f = total (n - t) (fun a => f a (a + t)%nat).
Proof.
  intro L. unfold pairs. rewrite (total_cut n (n - t)) by lia. apply total_ext. intros a A.
  rewrite (proj2 (Z.leb_le _ _)) by lia. cbn [andb]. replace (Z.to_nat (Z.of_nat a + Z.of_nat t)) with (a + t)%nat by lia. destruct (Z.ltb_spec (Z.of_nat a + Z.of_nat t) (Z.of_nat n)), (Nat.ltb_spec a (n - t)); try reflexivity; lia.
Qed.
Lemma pairs_left n t f : (t <= n)%nat -> pairs n (- Z.of_nat t) f = total (n - t) (fun a => f (a + t)%nat a).
Proof.
  intro L. unfold pairs. transitivity (total (n - t) (fun k => (fun b => f b (b - t)%nat) (k + t)%nat)).
  - rewrite (total_move n t (fun b => f b (b - t)%nat) L). apply total_ext. intros a A. rewrite andb_comm. rewrite (proj2 (Z.ltb_lt _ _)) by lia. cbn [andb]. destruct (Z.leb_spec 0 (Z.of_nat a + - Z.of_nat t)), (Nat.leb_spec t a); try reflexivity; try lia. f_equal. lia.
  - apply total_ext. intros a A. cbv beta. f_equal. lia.
Qed.
Lemma pairs_far n t f : (Z.of_nat n <= Z.abs t)%Z -> pairs n t f = 0.
Proof.
  intro L. unfold pairs. transitivity (total n (fun _ => 0)); [|apply total_zero]. apply total_ext. intros a A. destruct (Z.leb_spec 0 (Z.of_nat a + t)), (Z.ltb_spec (Z.of_nat a + t) (Z.of_nat n)); cbn; try reflexivity. lia.
Qed.
Lemma pairs_sym n t f : pairs n (- t) f = pairs n t (fun a b => f b a).
Proof.
  destruct (Z_lt_le_dec (Z.abs t) (Z.of_nat n)); [|rewrite !pairs_far by lia; reflexivity].
  destruct (Z_le_gt_dec 0 t).
  - replace t with (Z.of_nat (Z.to_nat t)) by lia. rewrite pairs_left, pairs_right by lia. reflexivity.
  - replace t with (- Z.of_nat (Z.to_nat (- t)))%Z by lia. rewrite Z.opp_involutive, pairs_left, pairs_right by lia. reflexivity.
Qed.
Lemma cov_sym p di dj : autocovariance p (- di) (- dj) = autocovariance p di dj.
Proof.
  unfold autocovariance. f_equal. rewrite pairs_sym. apply pairs_ext. intros a a' _ _. rewrite pairs_sym. apply pairs_ext. intros; ring.
Qed.
Lemma pairs_le n t f g : (forall a b, (a < n)%nat -> (b < n)%nat -> f a b <= g a b) -> pairs n t f <= pairs n t g.
Proof.
  intro H. apply total_le. intros a A. destruct (Z.leb_spec 0 (Z.of_nat a + t)), (Z.ltb_spec (Z.of_nat a + t) (Z.of_nat n)); cbn; try lra. apply H; lia.
Qed.
Lemma pairs_add n t f g : pairs n t (fun a b => f a b + g a b) = pairs n t f + pairs n t g.
Proof. unfold pairs. rewrite <- total_add. apply total_ext. intros a A. destruct (_ && _); lra. Qed.
Lemma pairs_scal n t c f : pairs n t (fun a b => c * f a b) = c * pairs n t f.
Proof. unfold pairs. rewrite <- total_scal. apply total_ext. intros a A. destruct (_ && _); lra. Qed.
Lemma pairs_first n t f : (forall a, (a < n)%nat -> 0 <= f a) -> pairs n t (fun a _ => f a) <= total n f.
Proof. intro H. apply total_le. intros a A. destruct (_ && _); [lra|now apply H]. Qed.
Lemma pairs_second n t f : (forall a, (a < n)%nat -> 0 <= f a) -> pairs n t (fun _ b => f b) <= total n f.
Proof. intro H. rewrite <- (Z.opp_involutive t), pairs_sym. now apply pairs_first. Qed.
(** The mean square is not exceeded: |x y| <= (x^2 + y^2) / 2. *)
Lemma cov_bound p di dj : (0 < rows p)%nat -> (0 < cols p)%nat -> Rabs (autocovariance p di dj) <= mean_square p.
Proof.
  intros N M. unfold autocovariance, mean_square. set (n := rows p) in *. set (m := cols p) in *.
  assert (P : 0 < INR n * INR m) by (apply Rmult_lt_0_compat; apply lt_0_INR; assumption).
  assert (Q : forall s, s = 1 \/ s = -1 -> s * pairs n di (fun a a' => pairs m dj (fun b b' => at_ p a b * at_ p a' b')) <= total2 n m (fun i j => at_ p i j ^ 2)).
  { intros s Sg. rewrite <- pairs_scal.
    apply Rle_trans with (pairs n di (fun a a' => / 2 * (total m (fun b => at_ p a b ^ 2) + total m (fun b => at_ p a' b ^ 2)))).
    - apply pairs_le. intros a a' A A'. rewrite <- pairs_scal.
      apply Rle_trans with (pairs m dj (fun b b' => / 2 * (at_ p a b ^ 2 + at_ p a' b' ^ 2))).
      + apply pairs_le. intros b b' _ _. pose proof (pow2_ge_0 (at_ p a b - at_ p a' b')). pose proof (pow2_ge_0 (at_ p a b + at_ p a' b')). destruct Sg; subst s; lra.
      + rewrite pairs_scal, pairs_add. apply Rmult_le_compat_l; [lra|]. apply Rplus_le_compat; [apply (pairs_first m dj (fun b => at_ p a b ^ 2))|apply (pairs_second m dj (fun b => at_ p a' b ^ 2))]; intros; apply pow2_ge_0.
    - rewrite pairs_scal, pairs_add. assert (T0 : forall a, (a < n)%nat -> 0 <= total m (fun b => at_ p a b ^ 2)) by (intros; apply total_nonneg; intros; apply pow2_ge_0).
      pose proof (pairs_first n di (fun a => total m (fun b => at_ p a b ^ 2)) T0). pose proof (pairs_second n di (fun a => total m (fun b => at_ p a b ^ 2)) T0). unfold total2. lra. }
  unfold Rdiv. rewrite Rabs_mult, (Rabs_pos_eq (/ _)) by (left; now apply Rinv_0_lt_compat). apply Rmult_le_compat_r; [left; now apply Rinv_0_lt_compat|].
  apply Rabs_le. pose proof (Q 1 (or_introl eq_refl)). pose proof (Q (-1) (or_intror eq_refl)). lra.
Qed.
Lemma cov_zero p : autocovariance p 0 0 = mean_square p.
Proof. unfold autocovariance, mean_square, total2. f_equal. rewrite pairs_zero. apply total_ext. intros a _. rewrite pairs_zero. apply total_ext. intros; ring. Qed.

(** The correlation of the library. *)
Lemma half_up n : (0 < n)%nat -> ((n - 1) / 2 + n / 2 = n - 1)%nat.
Proof.
  intro N. pose proof (Nat.div_mod n 2 ltac:(lia)). pose proof (Nat.mod_upper_bound n 2 ltac:(lia)). pose proof (Nat.div_mod (n - 1) 2 ltac:(lia)). pose proof (Nat.mod_upper_bound (n - 1) 2 ltac:(lia)). lia.
Qed.
Lemma acf_is p i j : (i < rows p)%nat -> (j < cols p)%nat -> at_ (acf_array p) i j = autocovariance p (lag (rows p) i) (lag (cols p) j).
Proof.
  intros I J. rewrite <- cov_sym. unfold autocovariance. cbn [acf_array at_ correlate_same]. f_equal. unfold correlate_full. set (n := rows p) in *. set (m := cols p) in *.
  pose proof (half_up n ltac:(lia)) as HN. pose proof (half_up m ltac:(lia)) as HM.
  rewrite rsum_total. unfold pairs at 1. apply total_ext. intros a A. rewrite rsum_total. unfold lag.
  destruct (Z.leb_spec 0 (Z.of_nat a + - (Z.of_nat i - Z.of_nat (n / 2)))) as [X|X]; cbn [andb].
  - destruct (Z.ltb_spec (Z.of_nat a + - (Z.of_nat i - Z.of_nat (n / 2))) (Z.of_nat n)) as [Y|Y].
    + unfold pairs. apply total_ext. intros b B. rewrite (proj2 (Nat.leb_le _ (a + (n - 1)))) by lia. cbn [andb].
      destruct (Z.leb_spec 0 (Z.of_nat b + - (Z.of_nat j - Z.of_nat (m / 2)))) as [X'|X']; cbn [andb].
      * rewrite (proj2 (Nat.leb_le _ (b + (m - 1)))) by lia. unfold pad. fold n m. rewrite (proj2 (Nat.ltb_lt (a + (n - 1) - (i + (n - 1) / 2)) n)) by lia. cbn [andb].
        destruct (Z.ltb_spec (Z.of_nat b + - (Z.of_nat j - Z.of_nat (m / 2))) (Z.of_nat m)) as [Y'|Y'].
        -- rewrite (proj2 (Nat.ltb_lt (b + (m - 1) - (j + (m - 1) / 2)) m)) by lia. f_equal. f_equal; lia.
        -- rewrite (proj2 (Nat.ltb_ge (b + (m - 1) - (j + (m - 1) / 2)) m)) by lia. lra.
      * rewrite (proj2 (Nat.leb_gt _ (b + (m - 1)))) by lia. lra.
    + transitivity (total m (fun _ => 0)); [|apply total_zero]. apply total_ext. intros b B. unfold pad. fold n m. rewrite (proj2 (Nat.ltb_ge (a + (n - 1) - (i + (n - 1) / 2)) n)) by lia. cbn [andb]. destruct (_ && _); lra.
  - transitivity (total m (fun _ => 0)); [|apply total_zero]. apply total_ext. intros b B. rewrite (proj2 (Nat.leb_gt _ (a + (n - 1)))) by lia. cbn [andb]. lra.
Qed.
Lemma lag_middle n : lag n (n / 2) = 0%Z.
Proof. unfold lag. lia. Qed.
Lemma half_lt n : (0 < n)%nat -> (n / 2 < n)%nat.
Proof. intro. apply Nat.div_lt; lia. Qed.
Lemma points_are n s i : (0 < n)%nat -> acf_points n s i = s * (INR i - (INR n - 1) / 2).
Proof.
  intro N. unfold acf_points. assert (P : 0 < INR n) by now apply lt_0_INR.
  assert (G : forall k, rsum k (fun i => INR i * s) = s * (INR k * (INR k - 1) / 2)). { induction k as [|k IH]; [cbn; lra|]. cbn [rsum]. rewrite IH, S_INR. field. }
  rewrite G. field. lra.
Qed.
Lemma half_INR n : INR (n / 2) = if Nat.even n then INR n / 2 else (INR n - 1) / 2.
Proof.
  pose proof (Nat.div_mod n 2 ltac:(lia)) as D. assert (E : INR n = 2 * INR (n / 2) + INR (n mod 2)) by (rewrite D at 1; rewrite plus_INR, mult_INR; reflexivity).
  destruct (Nat.even n) eqn:V.
  - apply Nat.even_spec in V. destruct V as (k & ->). rewrite (Nat.mul_comm 2 k), Nat.div_mul, mult_INR by lia. cbn [INR]. field.
  - assert (O : Nat.odd n = true) by (unfold Nat.odd; now rewrite V). apply Nat.odd_spec in O. destruct O as (k & ->). replace (2 * k + 1)%nat with (1 + k * 2)%nat by lia. rewrite Nat.div_add by lia. change (1 / 2)%nat with 0%nat. rewrite Nat.add_0_l, plus_INR, mult_INR. cbn [INR]. field.
Qed.
(** The transform of a single value. *)
Lemma fft_single n m g i j k l : (i < n)%nat -> (j < m)%nat -> (forall a b, (a < n)%nat -> (b < m)%nat -> (a, b) <> (i, j) -> g a b = 0) ->
  fft2 n m (fun a b => creal (g a b)) k l = cmul (creal (g i j)) (cmul (root n (Z.of_nat (k * i))) (root m (Z.of_nat (l * j)))).
Proof.
  intros I J H.
  assert (CS : forall n f i, (i < n)%nat -> (forall a, (a < n)%nat -> a <> i -> f a = c0) -> csum n f = f i).
  { clear. induction n as [|n IH]; intros f i I H; [lia|]. cbn [csum]. destruct (Nat.eq_dec i n) as [->|E].
    - assert (Z : csum n f = c0). { assert (forall k, (k <= n)%nat -> csum k f = c0) as X; [|apply X; lia]. induction k as [|k IHk]; intro K; [reflexivity|]. cbn [csum]. rewrite IHk, H by lia. unfold cadd, c0. cbn. f_equal; lra. }
      rewrite Z. destruct (f n). unfold cadd, c0. cbn. f_equal; lra.
    - rewrite (IH f i) by (try lia; intros; apply H; lia). rewrite (H n) by lia. destruct (f i). unfold cadd, c0. cbn. f_equal; lra. }
  assert (ZM : forall z, cmul (creal 0) z = c0) by (intros [x y]; unfold cmul, creal, c0; cbn; f_equal; lra).
  unfold fft2. rewrite (CS n _ i I).
  - rewrite (CS m _ j J); [reflexivity|]. intros b B E. rewrite H by (try assumption; congruence). apply ZM.
  - intros a A E. rewrite (csum_ext m _ (fun _ => c0)); [|intros b B; rewrite H by (try assumption; congruence); apply ZM]. clear. induction m as [|m IH]; [reflexivity|]. cbn [csum]. rewrite IH. unfold cadd, c0. cbn. f_equal; lra.
Qed.
