(** Integrals of Hertz pressures. *)
From Coq Require Import Reals Lra Lia Psatz.
From Coquelicot Require Import Coquelicot.
Local Open Scope R_scope.

Lemma continuous_circle c y : continuous (fun y : R => sqrt (c ^ 2 - y ^ 2)) y.
Proof.
  apply (continuous_comp (fun y => c ^ 2 - y ^ 2) sqrt); [|apply continuous_sqrt].
  apply (ex_derive_continuous (fun y : R => c ^ 2 - y ^ 2)). auto_derive. exact I.
Qed.
(** Half a disc. *)
Lemma semicircle c : 0 <= c -> is_RInt (fun y => sqrt (c ^ 2 - y ^ 2)) (- c) c (PI * c ^ 2 / 2).
Proof.
  intro C. pose proof PI_RGT_0 as P.
  set (f := fun y : R => sqrt (c ^ 2 - y ^ 2)).
  assert (E : ex_RInt f (- c) c) by (apply (ex_RInt_continuous f); intros; apply continuous_circle).
  enough (V : RInt f (- c) c = PI * c ^ 2 / 2) by (rewrite <- V; now apply (RInt_correct f)).
  pose proof (RInt_comp f (fun t => c * sin t) (fun t => c * cos t) (- (PI / 2)) (PI / 2)) as K.
  cbv beta in K. rewrite sin_neg, sin_PI2 in K. replace (c * - (1)) with (- c) in K by ring. rewrite Rmult_1_r in K. rewrite <- K.
  - set (F := fun t => c ^ 2 * (t + sin t * cos t) / 2).
    assert (D : is_RInt (fun t => c ^ 2 * cos t ^ 2) (- (PI / 2)) (PI / 2) (F (PI / 2) - F (- (PI / 2)))).
    { apply (is_RInt_derive F).
      - intros t _. unfold F. auto_derive; [exact I|]. pose proof (sin2_cos2 t) as H. unfold Rsqr in H. nra.
      - intros t _. apply (ex_derive_continuous (fun t => c ^ 2 * cos t ^ 2)). auto_derive. exact I. }
    assert (G : F (PI / 2) - F (- (PI / 2)) = PI * c ^ 2 / 2).
    { unfold F. rewrite sin_neg, cos_neg, cos_PI2. field. }
    rewrite G in D. apply (is_RInt_unique (fun t => c ^ 2 * cos t ^ 2)) in D. rewrite <- D. apply RInt_ext. intros t T.
    rewrite Rmin_left, Rmax_right in T by lra. unfold f. unfold scal. cbn. unfold mult. cbn.
    assert (Q : 0 <= cos t) by (apply cos_ge_0; lra).
    pose proof (sin2_cos2 t) as H. unfold Rsqr in H.
    replace (c * (c * 1) - c * sin t * (c * sin t * 1)) with ((c * cos t) * (c * cos t)).
    + rewrite sqrt_square by (apply Rmult_le_pos; assumption). ring.
    + replace ((c * cos t) * (c * cos t)) with (c * c * (cos t * cos t)) by ring.
      replace (cos t * cos t) with (1 - sin t * sin t) by lra. ring.
  - intros x _. apply continuous_circle.
  - intros x _. split; [auto_derive; [exact I|ring]|].
    apply (ex_derive_continuous (fun t => c * cos t)). auto_derive. exact I.
Qed.

Lemma zero_RInt p q : is_RInt (fun _ : R => 0) p q 0.
Proof.
  pose proof (is_RInt_const p q (0 : R)) as H. unfold scal in H. cbn in H. unfold mult in H. cbn in H.
  now rewrite Rmult_0_r in H.
Qed.
(** A function which vanishes outside of an interval, integrated over a larger one. *)
Lemma is_RInt_larger (f : R -> R) a x l : 0 <= a <= x -> is_RInt f (- a) a l ->
  (forall y, a <= y -> f y = 0) -> (forall y, y <= - a -> f y = 0) -> is_RInt f (- x) x l.
Proof.
  intros A I H1 H2.
  assert (Z : forall p q, (forall y, Rmin p q <= y <= Rmax p q -> f y = 0) -> is_RInt f p q 0).
  { intros p q H. apply (is_RInt_ext (fun _ => 0)).
    - intros y Y. symmetry. apply H. lra.
    - apply zero_RInt. }
  assert (I1 : is_RInt f (- x) (- a) 0).
  { apply Z. intros y Y. rewrite Rmax_right in Y by lra. apply H2. lra. }
  assert (I2 : is_RInt f a x 0).
  { apply Z. intros y Y. rewrite Rmin_left in Y by lra. apply H1. lra. }
  pose proof (is_RInt_Chasles _ _ _ _ _ _ I1 I) as J. pose proof (is_RInt_Chasles _ _ _ _ _ _ J I2) as K.
  replace l with (plus (plus 0 l) 0); [exact K|]. unfold plus. cbn. ring.
Qed.

Lemma clip_sq a x : Rmax 0 (1 - (x / a) ^ 2) = if Rlt_dec (1 - (x / a) ^ 2) 0 then 0 else 1 - (x / a) ^ 2.
Proof. unfold Rmax. destruct (Rle_dec 0 _), (Rlt_dec _ 0); lra. Qed.
Lemma inside_sq a x : 0 < a -> - a <= x <= a -> 0 <= 1 - (x / a) ^ 2.
Proof.
  intros A X. replace (1 - (x / a) ^ 2) with ((a - x) * (a + x) / a ^ 2) by (field; lra).
  apply Rmult_le_pos; [apply Rmult_le_pos; lra|]. left. apply Rinv_0_lt_compat. now apply pow_lt.
Qed.
Lemma outside_sq a x : 0 < a -> a <= x \/ x <= - a -> 1 - (x / a) ^ 2 <= 0.
Proof.
  intros A X. replace (1 - (x / a) ^ 2) with (- (((x - a) * (a + x)) / a ^ 2)) by (field; lra).
  assert (0 <= (x - a) * (a + x)) by (destruct X; nra).
  assert (0 <= (x - a) * (a + x) / a ^ 2) by (apply Rmult_le_pos; [assumption|]; left; apply Rinv_0_lt_compat; now apply pow_lt). lra.
Qed.

(** The volume under half an ellipsoid. *)
Lemma ellipse_row a b p x y : 0 < a -> 0 < b -> b <= y ->
  is_RInt (fun w => p * sqrt (Rmax 0 (1 - (x / a) ^ 2 - (w / b) ^ 2))) (- y) y (p * PI * b / 2 * Rmax 0 (1 - (x / a) ^ 2)).
Proof.
  intros A B Y. set (s := 1 - (x / a) ^ 2). pose proof PI_RGT_0 as P.
  assert (W : forall w, 0 <= (w / b) ^ 2) by (intro; apply pow2_ge_0).
  assert (S1 : s <= 1) by (unfold s; pose proof (pow2_ge_0 (x / a)); lra).
  destruct (Rlt_dec 0 s) as [S|S].
  - rewrite (Rmax_right 0 s) by lra. set (c := b * sqrt s). assert (SP : 0 < sqrt s) by now apply sqrt_lt_R0.
    assert (C : 0 < c) by now apply Rmult_lt_0_compat.
    assert (SL : sqrt s <= 1) by (rewrite <- sqrt_1; apply sqrt_le_1_alt; lra).
    assert (CB : c <= b) by (unfold c; nra).
    assert (C2 : c ^ 2 = b ^ 2 * s) by (unfold c; rewrite Rpow_mult_distr, pow2_sqrt by lra; reflexivity).
    assert (OUT : forall w, c <= w \/ w <= - c -> p * sqrt (Rmax 0 (s - (w / b) ^ 2)) = 0).
    { intros w Hw. rewrite Rmax_left; [rewrite sqrt_0; ring|].
      replace (s - (w / b) ^ 2) with (s * (1 - (w / c) ^ 2)).
      - pose proof (outside_sq c w C Hw). nra.
      - replace ((w / c) ^ 2) with (w ^ 2 / c ^ 2) by (field; lra). rewrite C2. field. lra. }
    apply (is_RInt_larger _ c); [lra| | |].
    + apply (is_RInt_ext (fun w => scal (p / b) (sqrt (c ^ 2 - w ^ 2)))).
      * intros w Hw. rewrite Rmin_left, Rmax_right in Hw by lra. unfold scal. cbn -[pow]. unfold mult. cbn -[pow].
        rewrite Rmax_right.
        -- replace (c ^ 2 - w ^ 2) with (b ^ 2 * (s - (w / b) ^ 2)) by (rewrite C2; field; lra).
           rewrite sqrt_mult_alt by apply pow2_ge_0. rewrite sqrt_pow2 by lra. field. lra.
        -- replace (s - (w / b) ^ 2) with (s * (1 - (w / c) ^ 2)).
           ++ pose proof (inside_sq c w C). nra.
           ++ replace ((w / c) ^ 2) with (w ^ 2 / c ^ 2) by (field; lra). rewrite C2. field. lra.
      * replace (p * PI * b / 2 * s) with (scal (p / b) (PI * c ^ 2 / 2)).
        -- apply (is_RInt_scal (fun w => sqrt (c ^ 2 - w ^ 2))). apply semicircle. lra.
        -- unfold scal. cbn -[pow]. unfold mult. cbn -[pow]. rewrite C2. field. lra.
    + intros w Hw. apply OUT. now left.
    + intros w Hw. apply OUT. now right.
  - rewrite (Rmax_left 0 s) by lra. rewrite Rmult_0_r.
    apply (is_RInt_ext (fun _ => 0)).
    + intros w _. pose proof (W w). rewrite Rmax_left by lra. rewrite sqrt_0. cbn. now rewrite Rmult_0_r.
    + apply zero_RInt.
Qed.
Lemma parabola a q : 0 < a -> is_RInt (fun x => q * Rmax 0 (1 - (x / a) ^ 2)) (- a) a (q * (4 * a / 3)).
Proof.
  intro A. apply (is_RInt_ext (fun x => q * (1 - (x / a) ^ 2))).
  - intros x X. rewrite Rmin_left, Rmax_right in X by lra. rewrite Rmax_right; [reflexivity|]. apply inside_sq; lra.
  - set (F := fun x => q * (x - x ^ 3 / (3 * a ^ 2))).
    replace (q * (4 * a / 3)) with (F a - F (- a)) by (unfold F; field; lra).
    apply (is_RInt_derive F).
    + intros x _. unfold F. auto_derive; [exact I|]. field. lra.
    + intros x _. apply (ex_derive_continuous (fun x => q * (1 - (x / a) ^ 2))). auto_derive. exact I.
Qed.
Lemma ellipse_volume a b p x y : 0 < a -> 0 < b -> a <= x -> b <= y ->
  is_RInt (fun u => RInt (fun w => p * sqrt (Rmax 0 (1 - (u / a) ^ 2 - (w / b) ^ 2))) (- y) y) (- x) x (2 / 3 * p * (PI * a * b)).
Proof.
  intros A B X Y. apply (is_RInt_ext (fun u => p * PI * b / 2 * Rmax 0 (1 - (u / a) ^ 2))).
  - intros u _. symmetry. apply (is_RInt_unique (fun w => p * sqrt (Rmax 0 (1 - (u / a) ^ 2 - (w / b) ^ 2)))). now apply ellipse_row.
  - replace (2 / 3 * p * (PI * a * b)) with (p * PI * b / 2 * (4 * a / 3)) by field.
    apply (is_RInt_larger _ a); [lra|now apply parabola| |].
    + intros u U. rewrite Rmax_left; [ring|]. apply outside_sq; lra.
    + intros u U. rewrite Rmax_left; [ring|]. apply outside_sq; lra.
Qed.
