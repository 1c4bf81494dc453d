(** Proofs about the Johnson SL distributions (C123). *)
From Coq Require Import Reals List Bool Arith Lra.
From Coquelicot Require Import Coquelicot.
From Verif Require Import Py SurfaceModel SlModel SlSpec.
Import ListNotations.
Local Open Scope R_scope.

Lemma Rltb_t : forall x y, x < y -> Rltb x y = true.
Proof. intros. unfold Rltb. destruct (Rlt_dec x y); [ reflexivity | contradiction ]. Qed.
Lemma Rltb_f : forall x y, y <= x -> Rltb x y = false.
Proof. intros. unfold Rltb. destruct (Rlt_dec x y); [ lra | reflexivity ]. Qed.
Lemma standard_number : forall a b loc scale z, 0 < scale -> standard loc scale (number a b loc scale z) = exp ((z - a) / b).
Proof. intros. unfold standard, number. field. lra. Qed.
Lemma open_true : forall y, 0 < y < 1 -> open_support y = true.
Proof. intros y H. unfold open_support. rewrite !Rltb_t by lra. reflexivity. Qed.
Lemma closed_true : forall y, 0 <= y <= 1 -> closed_support y = true.
Proof. intros y H. unfold closed_support. rewrite !Rltb_f by lra. reflexivity. Qed.
Lemma log_one : forall y, 0 < y -> log_of [y] = Ok (ln y).
Proof. intros. unfold log_of. rewrite Rltb_t by assumption. reflexivity. Qed.
Lemma cdf_inside : forall Phi Quant a b loc scale x, 0 < standard loc scale x < 1 ->
  cdf (sl_gen Phi Quant) a b loc scale [x] = Ok [Phi (a + b * ln (standard loc scale x))].
Proof.
  intros Phi Quant a b loc scale x H. unfold cdf. cbn [argcheck sl_gen map]. unfold fill. cbn [filter existsb].
  rewrite (open_true _ H). cbn [orb cdf_ sl_gen]. rewrite log_one by lra. cbn [bind map]. rewrite (open_true _ H). reflexivity.
Qed.
Lemma cdf_above : forall Phi Quant a b loc scale x, 1 <= standard loc scale x ->
  cdf (sl_gen Phi Quant) a b loc scale [x] = Ok [1].
Proof.
  intros Phi Quant a b loc scale x H. unfold cdf. cbn [argcheck sl_gen map]. unfold fill. cbn [filter existsb].
  unfold open_support. rewrite (Rltb_f _ 1) by lra. rewrite andb_false_r. cbn [orb map]. rewrite (Rltb_f _ 1) by lra. reflexivity.
Qed.
Lemma pdf_inside : forall Phi Quant a b loc scale x, 0 < standard loc scale x <= 1 ->
  pdf (sl_gen Phi Quant) a b loc scale [x] =
  Ok [standard loc scale x * phi (a + b * ln (standard loc scale x)) / scale].
Proof.
  intros Phi Quant a b loc scale x H. unfold pdf. cbn [argcheck sl_gen map]. unfold fill. cbn [filter existsb].
  rewrite closed_true by lra. cbn [orb pdf_ sl_gen]. rewrite log_one by lra. cbn [bind map hd]. rewrite closed_true by lra. reflexivity.
Qed.
Lemma phi_pos : forall x, 0 < phi x.
Proof. intros. unfold phi. apply Rdiv_lt_0_compat; [ apply exp_pos | ]. apply sqrt_lt_R0. pose proof PI_RGT_0. lra. Qed.
Lemma ln_number : forall a b z, b <> 0 -> a + b * ln (exp ((z - a) / b)) = z.
Proof. intros. rewrite ln_exp. field. assumption. Qed.
Lemma exp_below_1 : forall x, exp x < 1 <-> x < 0.
Proof.
  intros x. rewrite <- exp_0. split; [ apply exp_lt_inv | apply exp_increasing ].
Qed.
Lemma standard_inside_derive : forall Phi Quant a b loc scale x, normal Phi Quant -> 0 < scale -> 0 < standard loc scale x ->
  is_derive (fun t => Phi (a + b * ln (standard loc scale t))) x
    (b / (standard loc scale x * scale) * phi (a + b * ln (standard loc scale x))).
Proof.
  intros Phi Quant a b loc scale x (D & _) Hs Hx.
  assert (E : is_derive (fun t => a + b * ln (standard loc scale t)) x (b / (standard loc scale x * scale))).
  { unfold standard in *. auto_derive; [ assumption | field ]. split; [ lra | ]. intros C. rewrite C in Hx. unfold Rdiv in Hx. lra. }
  pose proof (is_derive_comp Phi (fun t => a + b * ln (standard loc scale t)) x _ _ (D _) E) as C.
  exact C.
Qed.
Lemma Phi_increasing : forall Phi Quant, normal Phi Quant -> forall x y, x < y -> Phi x < Phi y.
Proof.
  intros Phi Quant (D & _) x y H.
  apply (incr_function Phi m_infty p_infty (fun t => exp (- t ^ 2 / 2) / sqrt (2 * PI))); try exact I; try assumption.
  - intros t _ _. apply D.
  - intros t _ _. apply phi_pos.
Qed.
Lemma exp_mono : forall x y, x <= y -> exp x <= exp y.
Proof. intros x y [H | ->]; [ left; apply exp_increasing, H | right; reflexivity ]. Qed.
