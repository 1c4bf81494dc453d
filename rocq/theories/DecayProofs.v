(** Proofs about normal influence coefficients far from and near to the load. *)
From Coq Require Import String List Bool Arith ZArith Reals Lia Lra.
From Coquelicot Require Import Coquelicot.
From Verif Require Import Py SurfaceModel InfluenceModel InfluenceProofs CerrutiSpec CerrutiProofs DecaySpec.
Local Open Scope R_scope.

Definition gl (k el y : R) : R := ldiff y k - ldiff y el.
Lemma ratio_increasing y a b : y <> 0 -> a < b -> a / sqrt (y ^ 2 + a ^ 2) < b / sqrt (y ^ 2 + b ^ 2).
Proof.
  intros Hy H. apply (increasing_on (fun t => t / sqrt (y ^ 2 + t ^ 2)) (fun t => y ^ 2 / (sqrt (y ^ 2 + t ^ 2)) ^ 3)); [exact H| |].
  - intros t _. pose proof (sq_pos y t Hy). pose proof (sqrt_pos' y t Hy). pose proof (sqrt_sq y t) as E.
    apply is_derive_Reals. auto_derive.
    + cbn in *. split; [assumption|]. split; [lra|exact I].
    + change (t * (t * 1)) with (t ^ 2). change (y * (y * 1)) with (y ^ 2).
      set (s := sqrt (y ^ 2 + t ^ 2)) in *. replace (y ^ 2) with (s * s - t ^ 2) by lra. field. lra.
  - intros t _. apply Rdiv_lt_0_compat; [apply pow2_gt_0; exact Hy|]. apply pow_lt. apply sqrt_pos'. exact Hy.
Qed.
Lemma gl_decreasing k el a b : el < k -> 0 < a -> a < b -> gl k el b < gl k el a.
Proof.
  intros Hk Ha H. apply Ropp_lt_cancel.
  apply (increasing_on (fun y => - gl k el y) (fun y => - ((/ y - k / (y * sqrt (y ^ 2 + k ^ 2))) - (/ y - el / (y * sqrt (y ^ 2 + el ^ 2)))))); [exact H| |].
  - intros y Hy. apply (derivable_pt_lim_opp (gl k el)).
    apply (derivable_pt_lim_minus (fun y => ldiff y k) (fun y => ldiff y el)); apply ldiff_derive_k; lra.
  - intros y Hy. pose proof (ratio_increasing y el k ltac:(lra) Hk) as R. pose proof (sqrt_pos' y k ltac:(lra)). pose proof (sqrt_pos' y el ltac:(lra)).
    replace (- (/ y - k / (y * sqrt (y ^ 2 + k ^ 2)) - (/ y - el / (y * sqrt (y ^ 2 + el ^ 2)))))
      with (/ y * (k / sqrt (y ^ 2 + k ^ 2) - el / sqrt (y ^ 2 + el ^ 2))) by (field; lra).
    apply Rmult_lt_0_compat; [apply Rinv_0_lt_compat|]; lra.
Qed.
Lemma gl_even k el y : gl k el (- y) = gl k el y.
Proof. unfold gl. rewrite !ldiff_opp_k. reflexivity. Qed.
(** The mean value on one side of the axis. *)
Lemma outer_mean k el a b : k <> 0 -> el <> 0 -> a < b -> (0 < a \/ b < 0) ->
  exists c, a < c < b /\ outer k el b - outer k el a = gl k el c * (b - a).
Proof.
  intros Hk Hel H S. destruct (MVT_cor2 (outer k el) (gl k el) a b H) as (c & E & Hc).
  - intros y Hy. apply outer_derive; [exact Hk|exact Hel|lra].
  - exists c. split; [exact Hc|exact E].
Qed.
Lemma ldiff_mean y a b : y <> 0 -> a < b -> exists c, a < c < b /\ ldiff y b - ldiff y a = / dist c y * (b - a).
Proof.
  intros Hy H. destruct (MVT_cor2 (ldiff y) (fun x => / sqrt (y ^ 2 + x ^ 2)) a b H) as (c & E & Hc).
  - intros x _. apply ldiff_derive. exact Hy.
  - exists c. split; [exact Hc|]. rewrite E. unfold dist. rewrite (Rplus_comm (c ^ 2)). reflexivity.
Qed.
(** Near the axis. *)
Lemma limit_ext (f g : R -> R) : (forall e, 0 < e -> f e = g e) -> filterlim f (at_right 0) (locally 0) -> filterlim g (at_right 0) (locally 0).
Proof. intros E L. apply (filterlim_within_ext (F := locally 0) (fun u => 0 < u) f); [intros; apply E; assumption|exact L]. Qed.
Lemma limit_plus (f g : R -> R) : filterlim f (at_right 0) (locally 0) -> filterlim g (at_right 0) (locally 0) ->
  filterlim (fun e => f e + g e) (at_right 0) (locally 0).
Proof.
  intros F G. pose proof (filterlim_comp_2 (G := locally 0) (H := locally 0) _ _ _ F G (filterlim_plus (K := R_AbsRing) (V := R_NormedModule) 0 0)) as E.
  change (plus (0 : R_NormedModule) 0) with (0 + 0) in E. rewrite Rplus_0_l in E. exact E.
Qed.
Lemma limit_scal (c : R) (f : R -> R) : filterlim f (at_right 0) (locally 0) -> filterlim (fun e => c * f e) (at_right 0) (locally 0).
Proof.
  intros F. replace 0 with (c * 0) at 2 by ring. apply (filterlim_comp _ _ _ f (fun x => c * x) _ (locally 0)); [exact F|].
  apply (filterlim_scal_r (K := R_AbsRing) (V := R_NormedModule) c 0).
Qed.
Lemma limit_cont (f : R -> R) : ex_derive f 0 -> f 0 = 0 -> filterlim f (at_right 0) (locally 0).
Proof. intros D E. rewrite <- E at 2. apply right_cont. apply (ex_derive_continuous f). exact D. Qed.
Lemma limit_yl x : x <> 0 -> filterlim (fun e => e * ldiff e x) (at_right 0) (locally 0).
Proof.
  assert (P : forall x, 0 < x -> filterlim (fun e => e * ldiff e x) (at_right 0) (locally 0)).
  { intros w Hw. apply limit_cont; [|ring]. unfold ldiff. pose proof (pow2_gt_0 w ltac:(lra)). assert (S0 : 0 < 0 ^ 2 + w ^ 2) by lra.
    pose proof (sqrt_lt_R0 _ S0). auto_derive. cbn in *. repeat split; try assumption; lra. }
  intros H. destruct (Rlt_le_dec 0 x) as [L|L]; [apply P; exact L|].
  apply (limit_ext (fun e => 2 * (e * ln e) + (-1) * (e * ldiff e (- x)))).
  - intros e He. rewrite <- (Ropp_involutive x) at 2. rewrite (ldiff_neg e (- x)) by exact He. ring.
  - apply limit_plus; apply limit_scal; [exact xlnx|]. apply P. lra.
Qed.
Lemma limit_l k : k <> 0 -> filterlim (fun e => ldiff k (- e) - ldiff k e) (at_right 0) (locally 0).
Proof.
  intros Hk. apply limit_cont; [|rewrite Ropp_0; ring]. unfold ldiff. pose proof (pow2_gt_0 k Hk).
  assert (S1 : 0 < k ^ 2 + 0 ^ 2) by lra. assert (S2 : 0 < k ^ 2 + (- 0) ^ 2) by lra.
  pose proof (sqrt_lt_R0 _ S1). pose proof (sqrt_lt_R0 _ S2). auto_derive. cbn in *. repeat split; try assumption; lra.
Qed.
Lemma outer_gap k el : k <> 0 -> el <> 0 -> filterlim (fun e => outer k el (- e) - outer k el e) (at_right 0) (locally 0).
Proof.
  intros Hk Hel. apply (limit_ext (fun e => ((-2) * (e * ldiff e k) + 2 * (e * ldiff e el)) +
    (k * (ldiff k (- e) - ldiff k e) + (- el) * (ldiff el (- e) - ldiff el e)))).
  - intros e He. unfold outer, phi. rewrite !ldiff_opp_k. ring.
  - apply limit_plus; apply limit_plus; apply limit_scal; try (apply limit_yl; assumption); apply limit_l; assumption.
Qed.
(** The cell across the axis gets at least what its edges get. *)
Lemma outer_across k el t : k <> 0 -> el <> 0 -> el < k -> 0 < t -> 2 * t * gl k el t <= outer k el t - outer k el (- t).
Proof.
  intros Hk Hel H Ht. set (d := outer k el t - outer k el (- t)).
  assert (A : forall e, 0 < e < t -> 2 * (t - e) * gl k el t <= d + (outer k el (- e) - outer k el e)).
  { intros e He. destruct (outer_mean k el e t Hk Hel ltac:(lra) ltac:(lra)) as (c & Hc & E).
    destruct (outer_mean k el (- t) (- e) Hk Hel ltac:(lra) ltac:(lra)) as (c' & Hc' & E').
    pose proof (gl_decreasing k el c t H ltac:(lra) ltac:(lra)) as P.
    pose proof (gl_decreasing k el (- c') t H ltac:(lra) ltac:(lra)) as P'. rewrite gl_even in P'.
    assert (gl k el t * (t - e) <= gl k el c * (t - e)) by (apply Rmult_le_compat_r; lra).
    assert (gl k el t * (t - e) <= gl k el c' * (- e - - t)) by (replace (- e - - t) with (t - e) by ring; apply Rmult_le_compat_r; lra).
    unfold d. lra. }
  destruct (Rle_lt_dec (2 * t * gl k el t) d) as [L|L]; [exact L|exfalso].
  (* the right side has a limit *)
  pose proof (limit_plus (fun e => outer k el (- e) - outer k el e) (fun e => e * (2 * gl k el t)) (outer_gap k el Hk Hel)
    ltac:(apply limit_cont; [auto_derive; exact I|ring])) as F.
  specialize (F (fun x => x < 2 * t * gl k el t - d)).
  assert (O : locally 0 (fun x => x < 2 * t * gl k el t - d)).
  { exists (mkposreal (2 * t * gl k el t - d) ltac:(lra)). intros y B. apply Rabs_def2 in B. unfold minus, plus, opp in B. cbn in B. lra. }
  specialize (F O). destruct F as [eps F]. pose proof (cond_pos eps) as Pe.
  set (e := Rmin (eps / 2) (t / 2)).
  assert (He : 0 < e < t /\ e < eps).
  { unfold e. pose proof (Rmin_l (eps / 2) (t / 2)). pose proof (Rmin_r (eps / 2) (t / 2)).
    assert (0 < Rmin (eps / 2) (t / 2)) by (apply Rmin_glb_lt; lra). lra. }
  assert (B : ball 0 eps e). { unfold ball. cbn. unfold AbsRing_ball, abs, minus, plus, opp. cbn. rewrite Rabs_right by lra. lra. }
  specialize (F e B ltac:(lra)). cbn beta in F. specialize (A e ltac:(lra)). lra.
Qed.

(** ** Coefficients at unit spacing *)
Lemma zz_unit di dj : zz 1 1 di dj = outer (IZR di + 1 / 2) (IZR di - 1 / 2) (IZR dj + 1 / 2) - outer (IZR di + 1 / 2) (IZR di - 1 / 2) (IZR dj - 1 / 2).
Proof. unfold zz. destruct (half_neq di), (half_neq dj). apply zz_outer; assumption. Qed.
Lemma zz_swap hx hy di dj : zz hx hy di dj = zz hy hx dj di.
Proof.
  unfold zz, shape_zz. rewrite !(Rplus_comm ((IZR di + 1 / 2) ^ 2)), !(Rplus_comm ((IZR di - 1 / 2) ^ 2)). ring.
Qed.
Lemma zz_step di dj : (0 <= dj)%Z -> zz 1 1 di (dj + 1) < zz 1 1 di dj.
Proof.
  intros H. rewrite !zz_unit. destruct (half_neq di) as [K EL]. set (k := IZR di + 1 / 2) in *. set (el := IZR di - 1 / 2) in *.
  assert (L : el < k) by (unfold el, k; lra). rewrite plus_IZR. replace (IZR dj + 1 - 1 / 2) with (IZR dj + 1 / 2) by lra.
  assert (P : 0 <= IZR dj) by (apply IZR_le; exact H).
  destruct (outer_mean k el (IZR dj + 1 / 2) (IZR dj + 1 + 1 / 2) K EL ltac:(lra) ltac:(lra)) as (c & Hc & ->).
  pose proof (gl_decreasing k el (IZR dj + 1 / 2) c L ltac:(lra) ltac:(lra)) as D.
  replace (IZR dj + 1 + 1 / 2 - (IZR dj + 1 / 2)) with 1 by ring. rewrite Rmult_1_r.
  apply (Rlt_le_trans _ _ _ D). destruct (Z.eq_dec dj 0) as [-> |N].
  - replace (0 + 1 / 2) with (1 / 2) by ring. replace (0 - 1 / 2) with (- (1 / 2)) by ring.
    pose proof (outer_across k el (1 / 2) K EL L ltac:(lra)) as Q. lra.
  - assert (1 <= IZR dj) by (apply IZR_le; lia).
    destruct (outer_mean k el (IZR dj - 1 / 2) (IZR dj + 1 / 2) K EL ltac:(lra) ltac:(lra)) as (c' & Hc' & ->).
    replace (IZR dj + 1 / 2 - (IZR dj - 1 / 2)) with 1 by field. rewrite Rmult_1_r.
    left. apply gl_decreasing; lra.
Qed.
Lemma zz_further di dj dj' : (0 <= dj < dj')%Z -> zz 1 1 di dj' < zz 1 1 di dj.
Proof.
  intros H. replace dj' with (dj + 1 + Z.of_nat (Z.to_nat (dj' - dj - 1)))%Z by lia.
  induction (Z.to_nat (dj' - dj - 1)) as [|p IH].
  - rewrite Z.add_0_r. apply zz_step. lia.
  - apply (Rlt_trans _ (zz 1 1 di (dj + 1 + Z.of_nat p))); [|exact IH].
    replace (dj + 1 + Z.of_nat (S p))%Z with (dj + 1 + Z.of_nat p + 1)%Z by lia. apply zz_step. lia.
Qed.
Lemma zz_decay di dj di' dj' : (Z.abs di <= Z.abs di')%Z -> (Z.abs dj <= Z.abs dj')%Z ->
  (Z.abs di <> Z.abs di' \/ Z.abs dj <> Z.abs dj') -> zz 1 1 di' dj' < zz 1 1 di dj.
Proof.
  intros A B N.
  rewrite (zz_abs 1 1 di dj (Z.abs di) (Z.abs dj)), (zz_abs 1 1 di' dj' (Z.abs di') (Z.abs dj')) by lia.
  assert (W : forall p q q', (0 <= q <= q')%Z -> zz 1 1 p q' <= zz 1 1 p q).
  { intros p q q' H. destruct (Z.eq_dec q q') as [-> |E]; [lra|]. left. apply zz_further. lia. }
  destruct (Z.eq_dec (Z.abs dj) (Z.abs dj')) as [E|E].
  - rewrite <- E. rewrite (zz_swap 1 1 (Z.abs di')), (zz_swap 1 1 (Z.abs di)). apply zz_further. lia.
  - apply (Rlt_le_trans _ (zz 1 1 (Z.abs di') (Z.abs dj))); [apply zz_further; lia|].
    rewrite (zz_swap 1 1 (Z.abs di')), (zz_swap 1 1 (Z.abs di)). apply W. lia.
Qed.
(** One over the distance of some point inside. *)
Lemma zz_point di dj : (di <> 0 \/ dj <> 0)%Z -> exists x y, inside_cell 1 dj di x y /\ zz 1 1 di dj = / dist x y.
Proof.
  assert (P : forall di dj, dj <> 0%Z -> exists x y, inside_cell 1 dj di x y /\ zz 1 1 di dj = / dist x y).
  { intros p q Hq. rewrite zz_unit. destruct (half_neq p) as [K EL].
    destruct (outer_mean (IZR p + 1 / 2) (IZR p - 1 / 2) (IZR q - 1 / 2) (IZR q + 1 / 2) K EL ltac:(lra)) as (y & Hy & ->).
    { destruct (half_sign q Hq); lra. }
    assert (Ny : y <> 0) by (destruct (half_sign q Hq); lra).
    destruct (ldiff_mean y (IZR p - 1 / 2) (IZR p + 1 / 2) Ny ltac:(lra)) as (x & Hx & E).
    exists x, y. split; [unfold inside_cell; lra|]. unfold gl. rewrite E. field. apply Rgt_not_eq. apply dist_pos. exact Ny. }
  intros [H|H]; [|apply P; exact H]. destruct (P dj di H) as (x & y & I & E). exists y, x. split.
  - unfold inside_cell in *. tauto.
  - rewrite zz_swap, E, dist_comm. reflexivity.
Qed.
Lemma zz_centre : zz 1 1 0 0 = 4 * ln (1 + sqrt 2).
Proof.
  unfold zz, shape_zz. replace (0 + 1 / 2) with (1 / 2) by ring. replace (0 - 1 / 2) with (- (1 / 2)) by ring. rewrite !neg_sq.
  assert (S : sqrt ((1 / 2) ^ 2 + (1 / 2) ^ 2) = sqrt 2 / 2).
  { apply sqrt_lem_1; [lra| |].
    - apply Rlt_le. apply Rdiv_lt_0_compat; [apply Rlt_sqrt2_0|lra].
    - pose proof (sqrt_sqrt 2 ltac:(lra)). lra. }
  rewrite S. pose proof (sqrt_sqrt 2 ltac:(lra)) as Q. pose proof Rlt_sqrt2_0 as P.
  assert (G : 1 < sqrt 2) by nra.
  assert (E : (1 / 2 + sqrt 2 / 2) / (- (1 / 2) + sqrt 2 / 2) = (1 + sqrt 2) * (1 + sqrt 2)).
  { apply (Rmult_eq_reg_r (- (1 / 2) + sqrt 2 / 2)); [|lra]. unfold Rdiv at 1. rewrite Rmult_assoc, Rinv_l by lra. nra. }
  assert (E' : (- (1 / 2) + sqrt 2 / 2) / (1 / 2 + sqrt 2 / 2) = / ((1 + sqrt 2) * (1 + sqrt 2))).
  { rewrite <- E. field. split; lra. }
  rewrite E, E', ln_Rinv by nra. rewrite ln_mult by lra. field.
Qed.
