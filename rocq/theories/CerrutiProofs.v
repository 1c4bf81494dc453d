(** Proofs about tangential influence coefficients. *)
From Coq Require Import String List Bool Arith ZArith Reals Lia Lra.
From Coquelicot Require Import Coquelicot.
From Verif Require Import Py SurfaceModel InfluenceModel InfluenceProofs CerrutiSpec.
Local Open Scope R_scope.

Definition same_side (n m : R) : Prop := (0 < n /\ 0 < m) \/ (n < 0 /\ m < 0).
Lemma between_neq n m y : same_side n m -> Rmin n m <= y <= Rmax n m -> y <> 0.
Proof. intros S [H1 H2]. unfold Rmin, Rmax, same_side in *. destruct (Rle_dec n m); lra. Qed.

(** A double integral by an antiderivative in each variable. *)
Lemma over_by (f F : R -> R -> R) (G : R -> R) x0 x1 y0 y1 : same_side y0 y1 ->
  (forall x y, y <> 0 -> derivable_pt_lim (fun x => F x y) x (f x y)) ->
  (forall x y, y <> 0 -> ex_derive (fun x => f x y) x) ->
  (forall y, y <> 0 -> derivable_pt_lim G y (F x1 y - F x0 y)) ->
  (forall x y, y <> 0 -> ex_derive (fun y => F x y) y) ->
  over f x0 x1 y0 y1 = G y1 - G y0.
Proof.
  intros S D C D2 C2. unfold over. rewrite (RInt_ext _ (fun y => F x1 y - F x0 y)).
  - apply is_RInt_unique. apply (is_RInt_derive G (fun y => F x1 y - F x0 y)).
    + intros y Hy. apply is_derive_Reals. apply D2. apply (between_neq _ _ _ S Hy).
    + intros y Hy. pose proof (between_neq _ _ _ S Hy) as N. apply (ex_derive_continuous (fun y => F x1 y - F x0 y)).
      apply (ex_derive_minus (K := R_AbsRing) (V := R_NormedModule) (fun y => F x1 y) (fun y => F x0 y)); apply C2; exact N.
  - intros y Hy. assert (N : y <> 0) by (apply (between_neq _ _ _ S); lra).
    apply is_RInt_unique. apply (is_RInt_derive (fun x => F x y) (fun x => f x y)).
    + intros x _. apply is_derive_Reals. apply D. exact N.
    + intros x _. apply (ex_derive_continuous (fun x => f x y)). apply C. exact N.
Qed.

Lemma dist_comm x y : dist x y = dist y x.
Proof. unfold dist. rewrite Rplus_comm. reflexivity. Qed.
Lemma dist_pos x y : y <> 0 -> 0 < dist x y.
Proof. intros H. rewrite dist_comm. apply sqrt_pos'. exact H. Qed.
Lemma dist_sq x y : dist x y ^ 2 = x ^ 2 + y ^ 2.
Proof. unfold dist. rewrite pow2_sqrt; [reflexivity|]. nra. Qed.
Lemma dist_derive x y : y <> 0 -> derivable_pt_lim (fun x => dist x y) x (x / dist x y).
Proof.
  intros H. apply is_derive_Reals. unfold dist. pose proof (sq_pos y x H). pose proof (dist_pos x y H) as P. unfold dist in P.
  auto_derive; [cbn in *; lra|]. change (x * (x * 1)) with (x ^ 2). change (y * (y * 1)) with (y ^ 2). field. lra.
Qed.
Lemma ex_derive_dist x y : y <> 0 -> ex_derive (fun x => dist x y) x.
Proof. intros H. eexists. apply is_derive_Reals. apply dist_derive. exact H. Qed.
Lemma dist_derive' x y : y <> 0 -> derivable_pt_lim (fun y => dist x y) y (y / dist x y).
Proof.
  intros H. apply is_derive_Reals. unfold dist. pose proof (sq_pos y x H). pose proof (dist_pos x y H) as P. unfold dist in P.
  auto_derive; [cbn in *; lra|]. change (x * (x * 1)) with (x ^ 2). change (y * (y * 1)) with (y ^ 2). field. lra.
Qed.
Lemma ldiff_dist y x : ldiff y x = ln (x + dist x y).
Proof. unfold ldiff, dist. rewrite (Rplus_comm (y ^ 2)). reflexivity. Qed.
Lemma ex_ldiff_x y x : y <> 0 -> ex_derive (fun x => ldiff y x) x.
Proof. intros H. eexists. apply is_derive_Reals. apply ldiff_derive. exact H. Qed.
Lemma ex_ldiff_y y x : y <> 0 -> ex_derive (fun y => ldiff y x) y.
Proof. intros H. eexists. apply is_derive_Reals. apply ldiff_derive_k. exact H. Qed.

(** Kernels that are smooth off the axis. *)
Ltac smooth N x y := unfold dist; let P := fresh in let Q := fresh in
  pose proof (sq_pos y x N) as P; pose proof (sqrt_pos' y x N) as Q; rewrite (Rplus_comm (y ^ 2)) in P, Q; auto_derive; cbn in *;
  repeat match goal with |- _ /\ _ => split end; try exact I; try assumption; try lra; try (apply Rgt_not_eq; unfold Rgt; repeat apply Rmult_lt_0_compat; lra).

Lemma over_sq v x0 x1 y0 y1 c : x0 <> 0 -> x1 <> 0 -> same_side y0 y1 ->
  over (fun x y => c * ((1 - v) / dist x y + v * x ^ 2 / dist x y ^ 3)) x0 x1 y0 y1 =
  c * ((1 - v) * (outer x1 x0 y1 - outer x1 x0 y0) + v * (phi x1 x0 y1 - phi x1 x0 y0)).
Proof.
  intros H0 H1 S.
  rewrite (over_by _ (fun x y => c * ((1 - v) * ldiff y x + v * gfun y x))
    (fun y => c * ((1 - v) * outer x1 x0 y + v * phi x1 x0 y)) _ _ _ _ S); [ring| | | |].
  - intros x y N. replace (c * ((1 - v) / dist x y + v * x ^ 2 / dist x y ^ 3))
      with (c * ((1 - v) * / sqrt (y ^ 2 + x ^ 2) + v * (x ^ 2 / sqrt (y ^ 2 + x ^ 2) ^ 3)))
      by (unfold dist; rewrite (Rplus_comm (y ^ 2)); unfold Rdiv; ring).
    apply (derivable_pt_lim_scal (fun x => (1 - v) * ldiff y x + v * gfun y x)).
    apply (derivable_pt_lim_plus (fun x => (1 - v) * ldiff y x) (fun x => v * gfun y x)).
    + apply (derivable_pt_lim_scal (ldiff y)). apply ldiff_derive. exact N.
    + apply (derivable_pt_lim_scal (gfun y)). apply gfun_derive. exact N.
  - intros x y N. smooth N x y.
  - intros y N. replace (c * ((1 - v) * ldiff y x1 + v * gfun y x1) - c * ((1 - v) * ldiff y x0 + v * gfun y x0))
      with (c * ((1 - v) * (ldiff y x1 - ldiff y x0) + v * (gfun y x1 - gfun y x0))) by ring.
    apply (derivable_pt_lim_scal (fun y => (1 - v) * outer x1 x0 y + v * phi x1 x0 y)).
    apply (derivable_pt_lim_plus (fun y => (1 - v) * outer x1 x0 y) (fun y => v * phi x1 x0 y)).
    + apply (derivable_pt_lim_scal (outer x1 x0)). apply outer_derive; assumption.
    + apply (derivable_pt_lim_scal (phi x1 x0)). apply phi_derive; assumption.
  - intros x y N. unfold gfun, ldiff. pose proof (plus_sqrt_pos y x N). pose proof (sq_pos y x N). pose proof (sqrt_pos' y x N).
    auto_derive. cbn in *. repeat split; try assumption; lra.
Qed.
Lemma over_sq' v x0 x1 y0 y1 c : x0 <> 0 -> x1 <> 0 -> same_side y0 y1 ->
  over (fun x y => c * ((1 - v) / dist x y + v * y ^ 2 / dist x y ^ 3)) x0 x1 y0 y1 =
  c * ((1 - v) * (outer x1 x0 y1 - outer x1 x0 y0) + v * ((x1 * ldiff x1 y1 - x0 * ldiff x0 y1) - (x1 * ldiff x1 y0 - x0 * ldiff x0 y0))).
Proof.
  intros H0 H1 S.
  rewrite (over_by _ (fun x y => c * ((1 - v) * ldiff y x + v * (x / dist x y)))
    (fun y => c * ((1 - v) * outer x1 x0 y + v * (x1 * ldiff x1 y - x0 * ldiff x0 y))) _ _ _ _ S); [ring| | | |].
  - intros x y N. pose proof (dist_pos x y N) as P.
    replace (c * ((1 - v) / dist x y + v * y ^ 2 / dist x y ^ 3))
      with (c * ((1 - v) * / sqrt (y ^ 2 + x ^ 2) + v * (y ^ 2 / dist x y ^ 3)))
      by (unfold dist; rewrite (Rplus_comm (y ^ 2)); unfold Rdiv; ring).
    apply (derivable_pt_lim_scal (fun x => (1 - v) * ldiff y x + v * (x / dist x y))).
    apply (derivable_pt_lim_plus (fun x => (1 - v) * ldiff y x) (fun x => v * (x / dist x y))).
    + apply (derivable_pt_lim_scal (ldiff y)). apply ldiff_derive. exact N.
    + apply (derivable_pt_lim_scal (fun x => x / dist x y)).
      replace (y ^ 2 / dist x y ^ 3) with ((1 * dist x y - (x / dist x y) * x) / (Rsqr (dist x y))).
      * apply (derivable_pt_lim_div id (fun x => dist x y)); [apply derivable_pt_lim_id|apply dist_derive; exact N|lra].
      * replace (y ^ 2) with (dist x y ^ 2 - x ^ 2) by (rewrite dist_sq; ring). unfold Rsqr. field. lra.
  - intros x y N. smooth N x y.
  - intros y N. replace (c * ((1 - v) * ldiff y x1 + v * (x1 / dist x1 y)) - c * ((1 - v) * ldiff y x0 + v * (x0 / dist x0 y)))
      with (c * ((1 - v) * (ldiff y x1 - ldiff y x0) + v * (x1 * / sqrt (x1 ^ 2 + y ^ 2) - x0 * / sqrt (x0 ^ 2 + y ^ 2))))
      by (unfold dist, Rdiv; ring).
    apply (derivable_pt_lim_scal (fun y => (1 - v) * outer x1 x0 y + v * (x1 * ldiff x1 y - x0 * ldiff x0 y))).
    apply (derivable_pt_lim_plus (fun y => (1 - v) * outer x1 x0 y) (fun y => v * (x1 * ldiff x1 y - x0 * ldiff x0 y))).
    + apply (derivable_pt_lim_scal (outer x1 x0)). apply outer_derive; assumption.
    + apply (derivable_pt_lim_scal (fun y => x1 * ldiff x1 y - x0 * ldiff x0 y)).
      apply (derivable_pt_lim_minus (fun y => x1 * ldiff x1 y) (fun y => x0 * ldiff x0 y)).
      * apply (derivable_pt_lim_scal (ldiff x1)). apply ldiff_derive. assumption.
      * apply (derivable_pt_lim_scal (ldiff x0)). apply ldiff_derive. assumption.
  - intros x y N. unfold ldiff, dist. pose proof (plus_sqrt_pos y x N). pose proof (sq_pos y x N) as P. pose proof (sqrt_pos' y x N) as Q.
    pose proof P as P'. pose proof Q as Q'. rewrite (Rplus_comm (y ^ 2)) in P', Q'.
    auto_derive. cbn in *. repeat split; try assumption; lra.
Qed.
Lemma over_xy x0 x1 y0 y1 c : same_side y0 y1 -> x0 <> 0 -> x1 <> 0 ->
  over (fun x y => c * (x * y / dist x y ^ 3)) x0 x1 y0 y1 =
  c * (dist x1 y0 - dist x1 y1 + dist x0 y1 - dist x0 y0).
Proof.
  intros S H0 H1.
  rewrite (over_by _ (fun x y => c * (- y * / dist x y))
    (fun y => c * (dist x0 y - dist x1 y)) _ _ _ _ S); [ring| | | |].
  - intros x y N. pose proof (dist_pos x y N) as P. apply is_derive_Reals.
    apply (is_derive_ext (fun x => c * (- y * / sqrt (x ^ 2 + y ^ 2)))); [reflexivity|].
    unfold dist in *. pose proof (sq_pos y x N) as Q. rewrite (Rplus_comm (y ^ 2)) in Q. auto_derive.
    + cbn in *. repeat split; try assumption; lra.
    + change (x * (x * 1)) with (x ^ 2). change (y * (y * 1)) with (y ^ 2). field. lra.
  - intros x y N. smooth N x y.
  - intros y N. pose proof (dist_pos x0 y N). pose proof (dist_pos x1 y N).
    replace (c * (- y * / dist x1 y) - c * (- y * / dist x0 y)) with (c * (y / dist x0 y - y / dist x1 y)) by (field; lra).
    apply (derivable_pt_lim_scal (fun y => dist x0 y - dist x1 y)).
    apply (derivable_pt_lim_minus (fun y => dist x0 y) (fun y => dist x1 y)); apply dist_derive'; exact N.
  - intros x y N. smooth N x y.
Qed.

(** x / r^2 *)
Definition hfun (x y : R) : R := / 2 * (y * ln (x ^ 2 + y ^ 2)) + x * atan (y / x).
Lemma over_x x0 x1 y0 y1 c : same_side y0 y1 -> x0 <> 0 -> x1 <> 0 ->
  over (fun x y => c * (x / dist x y ^ 2)) x0 x1 y0 y1 = c * ((hfun x1 y1 - hfun x0 y1) - (hfun x1 y0 - hfun x0 y0)).
Proof.
  intros S H0 H1.
  rewrite (over_by _ (fun x y => c * (/ 2 * ln (x ^ 2 + y ^ 2)))
    (fun y => c * (hfun x1 y - hfun x0 y)) _ _ _ _ S); [ring| | | |].
  - intros x y N. rewrite dist_sq. pose proof (sq_pos y x N) as Q. rewrite (Rplus_comm (y ^ 2)) in Q. apply is_derive_Reals.
    auto_derive; [cbn in *; lra|]. change (x * (x * 1)) with (x ^ 2). change (y * (y * 1)) with (y ^ 2). field. lra.
  - intros x y N. smooth N x y.
  - assert (D : forall x y, x <> 0 -> y <> 0 -> derivable_pt_lim (hfun x) y (/ 2 * ln (x ^ 2 + y ^ 2) + 1)).
    { intros x y Hx N. apply is_derive_Reals. unfold hfun. pose proof (sq_pos x y Hx) as Q.
      auto_derive; [cbn in *; repeat split; try assumption; lra|].
      change (x * (x * 1)) with (x ^ 2). change (y * (y * 1)) with (y ^ 2).
      unfold Rsqr. field. repeat split; try assumption; nra. }
    intros y N. replace (c * (/ 2 * ln (x1 ^ 2 + y ^ 2)) - c * (/ 2 * ln (x0 ^ 2 + y ^ 2)))
      with (c * ((/ 2 * ln (x1 ^ 2 + y ^ 2) + 1) - (/ 2 * ln (x0 ^ 2 + y ^ 2) + 1))) by ring.
    apply (derivable_pt_lim_scal (fun y => hfun x1 y - hfun x0 y)).
    apply (derivable_pt_lim_minus (hfun x1) (hfun x0)); apply D; assumption.
  - intros x y N. pose proof (sq_pos y x N) as Q. rewrite (Rplus_comm (y ^ 2)) in Q. auto_derive. cbn in *; lra.
Qed.
(** y / r^2 *)
Lemma over_y x0 x1 y0 y1 c : same_side y0 y1 -> x0 <> 0 -> x1 <> 0 ->
  over (fun x y => c * (y / dist x y ^ 2)) x0 x1 y0 y1 = c * ((hfun y1 x1 - hfun y1 x0) - (hfun y0 x1 - hfun y0 x0)).
Proof.
  intros S H0 H1.
  rewrite (over_by _ (fun x y => c * atan (x / y))
    (fun y => c * (hfun y x1 - hfun y x0)) _ _ _ _ S); [ring| | | |].
  - intros x y N. rewrite dist_sq. pose proof (sq_pos y x N) as Q. rewrite (Rplus_comm (y ^ 2)) in Q. apply is_derive_Reals.
    auto_derive; [exact I|]. unfold Rsqr. field. repeat split; try assumption; nra.
  - intros x y N. smooth N x y.
  - assert (D : forall x y, x <> 0 -> y <> 0 -> derivable_pt_lim (fun y => hfun y x) y (atan (x / y))).
    { intros x y Hx N. apply is_derive_Reals. unfold hfun. pose proof (sq_pos y x N) as Q.
      auto_derive; [cbn in *; repeat split; try assumption; lra|].
      change (x * (x * 1)) with (x ^ 2). change (y * (y * 1)) with (y ^ 2).
      assert (1 + x * / y * (x * / y * 1) <> 0) by (apply Rgt_not_eq; pose proof (pow2_ge_0 (x / y)) as Z; unfold Rdiv in Z; cbn in Z; lra).
      change (x / y) with (x * / y). set (A := atan (x * / y)). clearbody A. field. repeat split; try assumption; nra. }
    intros y N. rewrite <- Rmult_minus_distr_l.
    apply (derivable_pt_lim_scal (fun y => hfun y x1 - hfun y x0)).
    apply (derivable_pt_lim_minus (fun y => hfun y x1) (fun y => hfun y x0)); apply D; assumption.
  - intros x y N. auto_derive. exact N.
Qed.

(** ** Closed forms at the corners *)
Definition box (F : R -> R -> R) (x0 x1 y0 y1 : R) : R := (F x1 y1 - F x0 y1) - (F x1 y0 - F x0 y0).
Definition closed (f F : R -> R -> R) : Prop := forall x0 x1 y0 y1, x0 <> 0 -> x1 <> 0 -> same_side y0 y1 ->
  over f x0 x1 y0 y1 = box F x0 x1 y0 y1.
Definition strip (F : R -> R -> R) (w e : R) : R := (F w (- e) - F (- w) (- e)) - (F w e - F (- w) e).

Lemma scaled_neq h x : 0 < h -> x <> 0 -> h * x <> 0.
Proof. intros. apply Rmult_integral_contrapositive_currified; lra. Qed.
Lemma scaled_side h d : 0 < h -> d <> 0%Z -> same_side (h * (IZR d - 1 / 2)) (h * (IZR d + 1 / 2)).
Proof. intros Hh Hd. destruct (half_sign d Hd) as [[A B]|[A B]]; [left|right]; split; nra. Qed.

Lemma cell_of f F hx hy a b : 0 < hx -> 0 < hy -> closed f F -> closed (fun x y => f y x) (fun x y => F y x) ->
  filterlim (strip F (hx * (1 / 2))) (at_right 0) (locally 0) ->
  cell_value f hx hy a b (box F (hx * (IZR b - 1 / 2)) (hx * (IZR b + 1 / 2)) (hy * (IZR a - 1 / 2)) (hy * (IZR a + 1 / 2))).
Proof.
  intros Hx Hy C C' L. destruct (half_neq a) as [A1 A2], (half_neq b) as [B1 B2].
  pose proof (scaled_neq hx _ Hx B1). pose proof (scaled_neq hx _ Hx B2).
  pose proof (scaled_neq hy _ Hy A1). pose proof (scaled_neq hy _ Hy A2).
  unfold cell_value. cbv zeta. split; [|split].
  - intros Ha. symmetry. apply C; try assumption. apply scaled_side; assumption.
  - intros Hb. change (over' f ?x0 ?x1 ?y0 ?y1) with (over (fun x y => f y x) y0 y1 x0 x1).
    rewrite C'; try assumption; [unfold box; ring|]. apply scaled_side; assumption.
  - intros -> ->.
    replace (hx * (0 - 1 / 2)) with (- (hx * (1 / 2))) in * by ring. replace (hx * (0 + 1 / 2)) with (hx * (1 / 2)) in * by ring.
    replace (hy * (0 - 1 / 2)) with (- (hy * (1 / 2))) in * by ring. replace (hy * (0 + 1 / 2)) with (hy * (1 / 2)) in * by ring.
    set (w := hx * (1 / 2)) in *. set (t := hy * (1 / 2)) in *. set (v := box F (- w) w (- t) t).
    apply (filterlim_within_ext (F := locally 0) (fun u => 0 < u) (fun e => plus v (strip F w e))).
    { intros e He. assert (0 < t) by (unfold t; lra). rewrite !C; try assumption; [|left; lra|right; lra].
      unfold v, box, strip, plus. cbn. ring. }
    pose proof (filterlim_comp_2 (G := locally v) (H := locally 0) _ _ _ (filterlim_const v) L
      (filterlim_plus (K := R_AbsRing) (V := R_NormedModule) v 0)) as E.
    change (plus (v : R_NormedModule) 0) with (v + 0) in E. rewrite Rplus_0_r in E. exact E.
Qed.

Definition corner_xx (c v x y : R) : R := c * (y * ldiff y x + (1 - v) * (x * ldiff x y)).
Definition corner_yy (c v x y : R) : R := corner_xx c v y x.
Lemma closed_xx c v : closed (fun x y => c * ((1 - v) / dist x y + v * x ^ 2 / dist x y ^ 3)) (corner_xx c v).
Proof.
  intros x0 x1 y0 y1 H0 H1 S. rewrite over_sq by assumption. unfold box, corner_xx, outer, phi. ring.
Qed.
Lemma closed_yy c v : closed (fun x y => c * ((1 - v) / dist x y + v * y ^ 2 / dist x y ^ 3)) (corner_yy c v).
Proof.
  intros x0 x1 y0 y1 H0 H1 S. rewrite over_sq' by assumption. unfold box, corner_yy, corner_xx, outer, phi. ring.
Qed.
Lemma closed_xy c : closed (fun x y => c * (x * y / dist x y ^ 3)) (fun x y => - (c * dist x y)).
Proof. intros x0 x1 y0 y1 H0 H1 S. rewrite over_xy by assumption. unfold box. ring. Qed.
Lemma closed_x c : closed (fun x y => c * (x / dist x y ^ 2)) (fun x y => c * hfun x y).
Proof. intros x0 x1 y0 y1 H0 H1 S. rewrite over_x by assumption. unfold box. ring. Qed.
Lemma closed_y c : closed (fun x y => c * (y / dist x y ^ 2)) (fun x y => c * hfun y x).
Proof. intros x0 x1 y0 y1 H0 H1 S. rewrite over_y by assumption. unfold box. ring. Qed.
Lemma closed_ext f f' F : (forall x y, f x y = f' x y) -> closed f F -> closed f' F.
Proof.
  intros E C x0 x1 y0 y1 H0 H1 S. rewrite <- C by assumption. unfold over. apply RInt_ext. intros y _.
  apply RInt_ext. intros x _. symmetry. apply E.
Qed.

(** ** The strip around the load *)
Lemma ldiff_neg e w : 0 < e -> ldiff e (- w) = 2 * ln e - ldiff e w.
Proof.
  intros He. pose proof (plus_sqrt_pos e w ltac:(lra)) as P. pose proof (plus_sqrt_pos e (- w) ltac:(lra)) as Q.
  unfold ldiff. apply (Rplus_eq_reg_r (ln (w + sqrt (e ^ 2 + w ^ 2)))).
  rewrite <- ln_mult by assumption. replace (2 * ln e - ln (w + sqrt (e ^ 2 + w ^ 2)) + ln (w + sqrt (e ^ 2 + w ^ 2)))
    with (ln e + ln e) by ring. rewrite <- ln_mult by assumption. f_equal.
  rewrite neg_sq. pose proof (sqrt_sq e w). nra.
Qed.
Lemma ldiff_opp_k k t : ldiff (- k) t = ldiff k t.
Proof. unfold ldiff. rewrite neg_sq. reflexivity. Qed.
Lemma limit_const0 (f : R -> R) : (forall e, 0 < e -> f e = 0) -> filterlim f (at_right 0) (locally 0).
Proof.
  intros H. apply (filterlim_within_ext (F := locally 0) (fun u => 0 < u) (fun _ => 0)); [intros e He; symmetry; apply H; exact He|].
  apply filterlim_const.
Qed.
Lemma strip_sum c1 c2 w : 0 < w ->
  filterlim (strip (fun x y => c1 * (y * ldiff y x) + c2 * (x * ldiff x y)) w) (at_right 0) (locally 0).
Proof.
  intros Hw. set (f e := - (4 * c1) * (e * ldiff e w) + c2 * (2 * w * (ldiff w (- e) - ldiff w e))).
  apply (filterlim_within_ext (F := locally 0) (fun u => 0 < u) (fun e => plus (f e) (4 * c1 * (e * ln e)))).
  { intros e He. unfold strip, f, plus. cbn. rewrite !ldiff_opp_k, !ldiff_neg by assumption. ring. }
  assert (C : filterlim f (at_right 0) (locally 0)).
  { replace 0 with (f 0) at 2 by (unfold f; rewrite Ropp_0; ring). apply right_cont.
    apply (ex_derive_continuous f). unfold f, ldiff.
    pose proof (pow2_gt_0 w ltac:(lra)).
    assert (S0 : 0 < 0 ^ 2 + w ^ 2) by lra.
    assert (S1 : 0 < w ^ 2 + 0 ^ 2) by lra.
    assert (S2 : 0 < w ^ 2 + (- 0) ^ 2) by lra.
    pose proof (sqrt_lt_R0 _ S0). pose proof (sqrt_lt_R0 _ S1). pose proof (sqrt_lt_R0 _ S2).
    auto_derive. cbn in *. repeat split; try assumption; try lra. }
  assert (X : filterlim (fun e => 4 * c1 * (e * ln e)) (at_right 0) (locally 0)).
  { replace 0 with (4 * c1 * 0) at 2 by ring. apply (filterlim_comp _ _ _ (fun e => e * ln e) (fun x => 4 * c1 * x) _ (locally 0)); [exact xlnx|].
    apply (filterlim_scal_r (K := R_AbsRing) (V := R_NormedModule) (4 * c1) 0). }
  pose proof (filterlim_comp_2 (G := locally 0) (H := locally 0) _ _ _ C X (filterlim_plus (K := R_AbsRing) (V := R_NormedModule) 0 0)) as E.
  change (plus (0 : R_NormedModule) 0) with (0 + 0) in E. rewrite Rplus_0_l in E. exact E.
Qed.
Lemma strip_ext F F' w : (forall x y, F x y = F' x y) ->
  filterlim (strip F w) (at_right 0) (locally 0) -> filterlim (strip F' w) (at_right 0) (locally 0).
Proof. intros E L. apply (filterlim_ext (strip F w)); [|exact L]. intros e. unfold strip. rewrite !E. reflexivity. Qed.
Lemma strip_xx c v w : 0 < w -> filterlim (strip (corner_xx c v) w) (at_right 0) (locally 0).
Proof. intros Hw. apply (strip_ext (fun x y => c * (y * ldiff y x) + (c * (1 - v)) * (x * ldiff x y))); [intros; unfold corner_xx; ring|apply strip_sum; exact Hw]. Qed.
Lemma strip_yy c v w : 0 < w -> filterlim (strip (corner_yy c v) w) (at_right 0) (locally 0).
Proof. intros Hw. apply (strip_ext (fun x y => (c * (1 - v)) * (y * ldiff y x) + c * (x * ldiff x y))); [intros; unfold corner_yy, corner_xx; ring|apply strip_sum; exact Hw]. Qed.
Lemma strip_xy c w : filterlim (strip (fun x y => - (c * dist x y)) w) (at_right 0) (locally 0).
Proof. apply limit_const0. intros e He. unfold strip, dist. rewrite !neg_sq. ring. Qed.
Lemma hfun_neg_x x y : x <> 0 -> hfun (- x) y = hfun x y.
Proof. intros H. unfold hfun. rewrite neg_sq. replace (y / - x) with (- (y / x)) by (field; exact H). rewrite atan_opp. ring. Qed.
Lemma hfun_neg_y x y : hfun x (- y) = - hfun x y.
Proof. unfold hfun. rewrite neg_sq. replace (- y / x) with (- (y / x)) by (unfold Rdiv; ring). rewrite atan_opp. ring. Qed.
Lemma strip_x c w : 0 < w -> filterlim (strip (fun x y => c * hfun x y) w) (at_right 0) (locally 0).
Proof. intros Hw. apply limit_const0. intros e He. unfold strip. rewrite !hfun_neg_x by lra. ring. Qed.
Lemma strip_y c w : 0 < w -> filterlim (strip (fun x y => c * hfun y x) w) (at_right 0) (locally 0).
Proof. intros Hw. apply limit_const0. intros e He. unfold strip. rewrite !(hfun_neg_x e) by lra. ring. Qed.

(** ** The formulas of the code at unit spacing *)
Lemma ln_quot_ldiff a b k : k <> 0 -> ln ((a + sqrt (k ^ 2 + a ^ 2)) / (b + sqrt (k ^ 2 + b ^ 2))) = ldiff k a - ldiff k b.
Proof. intros Hk. apply ln_div; apply plus_sqrt_pos; exact Hk. Qed.
Lemma ln_quot_ldiff' a b k : k <> 0 -> ln ((a + sqrt (a ^ 2 + k ^ 2)) / (b + sqrt (b ^ 2 + k ^ 2))) = ldiff k a - ldiff k b.
Proof. intros Hk. rewrite (Rplus_comm (a ^ 2)), (Rplus_comm (b ^ 2)). apply ln_quot_ldiff. exact Hk. Qed.
Lemma shape_xx_box c v h k el m n : 0 < h -> k <> 0 -> el <> 0 -> m <> 0 -> n <> 0 ->
  c * shape_xx v h h k el m n = box (corner_xx c v) (h * el) (h * k) (h * n) (h * m).
Proof.
  intros Hh Hk Hel Hm Hn. unfold box, corner_xx. rewrite !ldiff_scale by assumption. unfold shape_xx.
  rewrite (ln_quot_ldiff m n k), (ln_quot_ldiff n m el), (ln_quot_ldiff' k el m), (ln_quot_ldiff' el k n) by assumption. ring.
Qed.
Lemma shape_yy_box c v h k el m n : 0 < h -> k <> 0 -> el <> 0 -> m <> 0 -> n <> 0 ->
  c * shape_yy v h h k el m n = box (corner_yy c v) (h * el) (h * k) (h * n) (h * m).
Proof.
  intros Hh Hk Hel Hm Hn. unfold box, corner_yy, corner_xx. rewrite !ldiff_scale by assumption. unfold shape_yy.
  rewrite (ln_quot_ldiff m n k), (ln_quot_ldiff n m el), (ln_quot_ldiff' k el m), (ln_quot_ldiff' el k n) by assumption. ring.
Qed.
Lemma shape_xy_box c hx hy k el m n :
  c * shape_xy hx hy k el m n = box (fun x y => - (c * dist x y)) (hx * el) (hx * k) (hy * n) (hy * m).
Proof.
  unfold box, dist, shape_xy.
  assert (E : forall x y, sqrt ((hx * x) ^ 2 + (hy * y) ^ 2) = sqrt (hy ^ 2 * y ^ 2 + hx ^ 2 * x ^ 2)) by (intros; f_equal; ring).
  rewrite !E. ring.
Qed.
Lemma hfun_scale h x y : 0 < h -> x <> 0 -> hfun (h * x) (h * y) = h * hfun x y + h * y * ln h.
Proof.
  intros Hh Hx. unfold hfun. replace ((h * x) ^ 2 + (h * y) ^ 2) with (h * h * (x ^ 2 + y ^ 2)) by ring.
  pose proof (sq_pos x y Hx). rewrite ln_mult by nra. rewrite ln_mult by assumption.
  replace (h * y / (h * x)) with (y / x) by (field; lra). field.
Qed.
Lemma shape_xz_box c h k el m n : 0 < h -> k <> 0 -> el <> 0 -> m <> 0 -> n <> 0 ->
  c * shape_xz h h k el m n = box (fun x y => c * hfun x y) (h * el) (h * k) (h * n) (h * m).
Proof.
  intros Hh Hk Hel Hm Hn. unfold box. rewrite !hfun_scale by assumption. unfold shape_xz, hfun.
  rewrite !ln_div by (apply sq_pos; assumption). field.
Qed.
Lemma shape_zy_swap hx hy k el m n : shape_zy hx hy k el m n = shape_xz hy hx m n k el.
Proof.
  unfold shape_zy, shape_xz. rewrite (Rplus_comm (k ^ 2)), (Rplus_comm (el ^ 2)). reflexivity.
Qed.
Lemma shape_zy_box c h k el m n : 0 < h -> k <> 0 -> el <> 0 -> m <> 0 -> n <> 0 ->
  c * shape_zy h h k el m n = box (fun x y => c * hfun y x) (h * el) (h * k) (h * n) (h * m).
Proof.
  intros Hh Hk Hel Hm Hn. rewrite shape_zy_swap. rewrite shape_xz_box by assumption. unfold box. ring.
Qed.

(** ** Cells *)
Lemma cell_xx g v h a b : 0 < h -> cell_value (u_xx g v) h h a b
  (1 / (2 * PI * g) * shape_xx v h h (IZR b + 1 / 2) (IZR b - 1 / 2) (IZR a + 1 / 2) (IZR a - 1 / 2)).
Proof.
  intros Hh. destruct (half_neq a) as [A1 A2], (half_neq b) as [B1 B2]. rewrite shape_xx_box by assumption.
  apply cell_of; [exact Hh|exact Hh|apply closed_xx| |apply strip_xx; lra].
  apply (closed_ext (fun x y => 1 / (2 * PI * g) * ((1 - v) / dist x y + v * y ^ 2 / dist x y ^ 3))); [|apply closed_yy].
  intros x y. unfold u_xx. rewrite (dist_comm y x). reflexivity.
Qed.
Lemma cell_yy g v h a b : 0 < h -> cell_value (u_yy g v) h h a b
  (1 / (2 * PI * g) * shape_yy v h h (IZR b + 1 / 2) (IZR b - 1 / 2) (IZR a + 1 / 2) (IZR a - 1 / 2)).
Proof.
  intros Hh. destruct (half_neq a) as [A1 A2], (half_neq b) as [B1 B2]. rewrite shape_yy_box by assumption.
  apply cell_of; [exact Hh|exact Hh|apply closed_yy| |apply strip_yy; lra].
  apply (closed_ext (fun x y => 1 / (2 * PI * g) * ((1 - v) / dist x y + v * x ^ 2 / dist x y ^ 3))); [|apply closed_xx].
  intros x y. unfold u_yy. rewrite (dist_comm y x). reflexivity.
Qed.
Lemma cell_xy g v hx hy a b : 0 < hx -> 0 < hy -> cell_value (u_xy g v) hx hy a b
  (v / (2 * PI * g) * shape_xy hx hy (IZR b + 1 / 2) (IZR b - 1 / 2) (IZR a + 1 / 2) (IZR a - 1 / 2)).
Proof.
  intros Hx Hy. rewrite shape_xy_box. set (c := v / (2 * PI * g)).
  apply (cell_of _ (fun x y => - (c * dist x y))); [exact Hx|exact Hy|apply closed_xy| |apply strip_xy].
  intros x0 x1 y0 y1 H0 H1 S. transitivity (over (fun x y => c * (x * y / dist x y ^ 3)) x0 x1 y0 y1).
  - unfold over. apply RInt_ext. intros y _. apply RInt_ext. intros x _. unfold u_xy. rewrite (dist_comm y x), (Rmult_comm y x). reflexivity.
  - rewrite closed_xy by assumption. unfold box. rewrite !(dist_comm _ x0), !(dist_comm _ x1). reflexivity.
Qed.
Lemma cell_x c h a b : 0 < h -> cell_value (fun x y => c * (x / dist x y ^ 2)) h h a b
  (c * shape_xz h h (IZR b + 1 / 2) (IZR b - 1 / 2) (IZR a + 1 / 2) (IZR a - 1 / 2)).
Proof.
  intros Hh. destruct (half_neq a) as [A1 A2], (half_neq b) as [B1 B2]. rewrite shape_xz_box by assumption.
  apply (cell_of _ (fun x y => c * hfun x y)); [exact Hh|exact Hh|apply closed_x| |apply strip_x; lra].
  apply (closed_ext (fun x y => c * (y / dist x y ^ 2))); [|apply closed_y].
  intros x y. rewrite (dist_comm y x). reflexivity.
Qed.
Lemma cell_y c h a b : 0 < h -> cell_value (fun x y => c * (y / dist x y ^ 2)) h h a b
  (c * shape_zy h h (IZR b + 1 / 2) (IZR b - 1 / 2) (IZR a + 1 / 2) (IZR a - 1 / 2)).
Proof.
  intros Hh. destruct (half_neq a) as [A1 A2], (half_neq b) as [B1 B2]. rewrite shape_zy_box by assumption.
  apply (cell_of _ (fun x y => c * hfun y x)); [exact Hh|exact Hh|apply closed_y| |apply strip_y; lra].
  apply (closed_ext (fun x y => c * (x / dist x y ^ 2))); [|apply closed_x].
  intros x y. rewrite (dist_comm y x). reflexivity.
Qed.

(** The formula for neighbours when the cells get longer. *)
Lemma xz_grows hx hy : 0 < hx -> hy / 2 * ln 5 < xz hx hy 1 0.
Proof.
  intros Hx. unfold xz, shape_xz.
  replace (((IZR 1 + 1 / 2) ^ 2 + (IZR 0 + 1 / 2) ^ 2) / ((IZR 1 - 1 / 2) ^ 2 + (IZR 0 + 1 / 2) ^ 2)) with 5 by field.
  replace (((IZR 1 - 1 / 2) ^ 2 + (IZR 0 - 1 / 2) ^ 2) / ((IZR 1 + 1 / 2) ^ 2 + (IZR 0 - 1 / 2) ^ 2)) with (/ 5) by field.
  rewrite ln_Rinv by lra.
  replace ((IZR 0 + 1 / 2) / (IZR 1 + 1 / 2)) with (/ 3) by field.
  replace ((IZR 0 - 1 / 2) / (IZR 1 + 1 / 2)) with (- / 3) by field.
  replace ((IZR 0 - 1 / 2) / (IZR 1 - 1 / 2)) with (Ropp 1) by field.
  replace ((IZR 0 + 1 / 2) / (IZR 1 - 1 / 2)) with 1 by field.
  rewrite !atan_opp, atan_1.
  assert (T : PI / 4 < 3 * atan (/ 3)).
  { rewrite Machin_2_3_7. assert (atan (/ 7) < atan (/ 3)) by (apply atan_increasing; lra). lra. }
  replace (hy / 2 * ((IZR 0 + 1 / 2) * ln 5 + (IZR 0 - 1 / 2) * - ln 5) +
    hx * ((IZR 1 + 1 / 2) * (atan (/ 3) - - atan (/ 3)) + (IZR 1 - 1 / 2) * (- (PI / 4) - PI / 4)))
    with (hy / 2 * ln 5 + hx * (3 * atan (/ 3) - PI / 4)) by field.
  assert (0 < hx * (3 * atan (/ 3) - PI / 4)) by (apply Rmult_lt_0_compat; lra). lra.
Qed.
(** The integral for neighbours is bounded by the width. *)
Lemma neighbour_bound c hx hy : 0 < hx -> 0 < hy ->
  Rabs (over' (fun x y => c * (x / dist x y ^ 2)) (hx * (1 - 1 / 2)) (hx * (1 + 1 / 2)) (hy * (0 - 1 / 2)) (hy * (0 + 1 / 2))) <=
  Rabs c * (hx * PI).
Proof.
  intros Hx Hy. unfold over'.
  set (x0 := hx * (1 - 1 / 2)). set (x1 := hx * (1 + 1 / 2)). set (t := hy * (0 + 1 / 2)).
  replace (hy * (0 - 1 / 2)) with (- t) by (unfold t; ring).
  assert (I : forall x, 0 < x -> is_RInt (fun y => c * (x / dist x y ^ 2)) (- t) t (c * (2 * atan (t / x)))).
  { intros x Px. replace (c * (2 * atan (t / x))) with (c * atan (t / x) - c * atan (- t / x))
      by (replace (- t / x) with (- (t / x)) by (unfold Rdiv; ring); rewrite atan_opp; ring).
    apply (is_RInt_derive (fun y => c * atan (y / x)) (fun y => c * (x / dist x y ^ 2))).
    - intros y _. rewrite dist_sq. pose proof (sq_pos x y ltac:(lra)).
      auto_derive; [exact Logic.I|]. unfold Rsqr. field. repeat split; nra.
    - intros y _. apply (ex_derive_continuous (fun y => c * (x / dist x y ^ 2))). unfold dist.
      pose proof (sq_pos x y ltac:(lra)) as P. pose proof (sqrt_lt_R0 _ P). auto_derive. cbn in *.
      repeat split; try assumption. apply Rgt_not_eq. unfold Rgt. repeat apply Rmult_lt_0_compat; lra. }
  assert (L : 0 < x0 < x1) by (unfold x0, x1; lra).
  rewrite (RInt_ext _ (fun x => c * (2 * atan (t / x)))).
  2: { intros x [P Q]. rewrite Rmin_left, Rmax_right in * by lra. apply is_RInt_unique. apply I. lra. }
  assert (D : forall x, x0 <= x <= x1 -> ex_derive (fun x => c * (2 * atan (t / x))) x) by (intros; auto_derive; lra).
  replace (Rabs c * (hx * PI)) with ((x1 - x0) * (Rabs c * PI)) by (unfold x0, x1; field).
  apply (abs_RInt_le_const (fun x => c * (2 * atan (t / x)))); [lra| |].
  - apply (ex_RInt_continuous (V := R_CompleteNormedModule)). intros x P. rewrite Rmin_left, Rmax_right in P by lra.
    apply (ex_derive_continuous (fun x => c * (2 * atan (t / x)))). apply D. exact P.
  - intros x P. rewrite Rabs_mult. apply Rmult_le_compat_l; [apply Rabs_pos|].
    pose proof (atan_bound (t / x)). apply Rabs_le. lra.
Qed.
