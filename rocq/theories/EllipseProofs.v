(** Proofs for elliptical contacts. *)
From Coq Require Import Reals List Bool Lra Lia Psatz.
From Coquelicot Require Import Coquelicot.
From Verif Require Import Py SurfaceModel Flt SurfaceProofs SolverProofs HertzFullModel EllipseModel EllipseSpec.
Local Open Scope R_scope.

Lemma delta_pos m t : m < 1 -> 0 < 1 - m * sin t ^ 2.
Proof.
  intro M. pose proof (sin2_cos2 t) as T. unfold Rsqr in T. pose proof (pow2_ge_0 (sin t)) as S. pose proof (pow2_ge_0 (cos t)) as C.
  assert (S1 : sin t ^ 2 <= 1) by (cbn [pow] in *; nra). destruct (Rle_lt_dec m 0); [nra|]. nra.
Qed.
Lemma delta_cos k t : 1 - (1 - 1 / k ^ 2) * cos t ^ 2 = (1 - (1 - k ^ 2) * sin t ^ 2) / k ^ 2 \/ k = 0.
Proof.
  destruct (Req_dec k 0) as [E|E]; [now right|left]. pose proof (sin2_cos2 t) as T. unfold Rsqr in T.
  replace (cos t ^ 2) with (1 - sin t ^ 2) by (cbn [pow]; lra). field. exact E.
Qed.
Lemma sqrt_cube d : 0 < d -> sqrt (d ^ 3) = d * sqrt d.
Proof.
  intro D. replace (d ^ 3) with (d ^ 2 * d) by ring. rewrite sqrt_mult by (try apply pow2_ge_0; lra).
  rewrite sqrt_pow2 by lra. reflexivity.
Qed.

Lemma rint_minus (f g : R -> R) a b : ex_RInt f a b -> ex_RInt g a b -> RInt (fun t => f t - g t) a b = RInt f a b - RInt g a b.
Proof. exact (RInt_minus (V := R_CompleteNormedModule) f g a b). Qed.
Lemma rint_plus (f g : R -> R) a b : ex_RInt f a b -> ex_RInt g a b -> RInt (fun t => f t + g t) a b = RInt f a b + RInt g a b.
Proof. exact (RInt_plus (V := R_CompleteNormedModule) f g a b). Qed.
Lemma rint_scal (f : R -> R) a b c : ex_RInt f a b -> RInt (fun t => c * f t) a b = c * RInt f a b.
Proof. exact (RInt_scal (V := R_CompleteNormedModule) f a b c). Qed.
Lemma rint_const a b c : RInt (fun _ => c) a b = (b - a) * c.
Proof. exact (RInt_const (V := R_CompleteNormedModule) a b c). Qed.

Section Integrals.
Variable m : R.
Hypothesis M : m < 1.
Let d (t : R) := 1 - m * sin t ^ 2.
Let DP t : 0 < d t := delta_pos m t M.
Let SP t : 0 < sqrt (d t) := sqrt_lt_R0 _ (DP t).
Let SS t : sqrt (d t) * sqrt (d t) = d t := sqrt_sqrt _ (Rlt_le _ _ (DP t)).

Lemma cont_k t : continuous (fun t => / sqrt (1 - m * sin t ^ 2)) t.
Proof.
  apply (ex_derive_continuous (K := R_AbsRing) (V := R_NormedModule)). auto_derive.
  pose proof (DP t) as D. pose proof (SP t) as S. unfold d in *. cbn [pow] in *.
  split; [lra|]. split; [apply Rgt_not_eq; replace (1 + - (m * (sin t * (sin t * 1)))) with (1 - m * (sin t * (sin t * 1))) by ring; exact S|exact I].
Qed.
Lemma cont_e t : continuous (fun t => sqrt (1 - m * sin t ^ 2)) t.
Proof.
  apply (ex_derive_continuous (K := R_AbsRing) (V := R_NormedModule)). auto_derive.
  pose proof (DP t) as D. unfold d in *. cbn [pow] in *. lra.
Qed.
Lemma cont_3 (f : R -> R) t : (forall t, ex_derive f t) -> continuous (fun t => f t / (d t * sqrt (d t))) t.
Proof.
  intro F. apply (ex_derive_continuous (K := R_AbsRing) (V := R_NormedModule)). unfold d. auto_derive.
  pose proof (DP t) as D. pose proof (SP t) as S. unfold d in *. cbn [pow] in *.
  repeat split; [apply F|lra|]. apply Rgt_not_eq.
  replace (1 + - (m * (sin t * (sin t * 1)))) with (1 - m * (sin t * (sin t * 1))) by ring. now apply Rmult_lt_0_compat.
Qed.
Lemma ex_k : ex_RInt (fun t => / sqrt (1 - m * sin t ^ 2)) 0 (PI / 2).
Proof. apply (ex_RInt_continuous (V := R_CompleteNormedModule)). intros t _. apply cont_k. Qed.
Lemma ex_e : ex_RInt (fun t => sqrt (1 - m * sin t ^ 2)) 0 (PI / 2).
Proof. apply (ex_RInt_continuous (V := R_CompleteNormedModule)). intros t _. apply cont_e. Qed.
Lemma ex_3 (f : R -> R) : (forall t, ex_derive f t) -> ex_RInt (fun t => f t / (d t * sqrt (d t))) 0 (PI / 2).
Proof. intro F. apply (ex_RInt_continuous (V := R_CompleteNormedModule)). intros t _. now apply cont_3. Qed.

Lemma der_sin2 t : ex_derive (fun t => sin t ^ 2) t. Proof. auto_derive. exact I. Qed.
Lemma der_cos2 t : ex_derive (fun t => cos t ^ 2) t. Proof. auto_derive. exact I. Qed.
Lemma der_one t : ex_derive (fun _ : R => 1) t. Proof. auto_derive. exact I. Qed.

(** Integrals of functions which differ by a derivative. *)
Lemma same_integral (f g F : R -> R) : (forall t, is_derive F t (f t - g t)) -> (forall t, continuous f t) -> (forall t, continuous g t) ->
  F (PI / 2) = F 0 -> RInt f 0 (PI / 2) = RInt g 0 (PI / 2).
Proof.
  intros D CF CG E.
  assert (XF : ex_RInt f 0 (PI / 2)) by (apply (ex_RInt_continuous (V := R_CompleteNormedModule)); intros; apply CF).
  assert (XG : ex_RInt g 0 (PI / 2)) by (apply (ex_RInt_continuous (V := R_CompleteNormedModule)); intros; apply CG).
  assert (Z : RInt (fun t => f t - g t) 0 (PI / 2) = 0).
  { apply is_RInt_unique. replace 0 with (minus (F (PI / 2)) (F 0)) at 2 by (rewrite E; unfold minus, plus, opp; cbn; ring).
    apply (is_RInt_derive F).
    - intros t _. apply D.
    - intros t _. apply (continuous_minus (V := R_NormedModule)); [apply CF|apply CG]. }
  rewrite rint_minus in Z by assumption. lra.
Qed.

Lemma der_sc t : is_derive (fun t => sin t * cos t / sqrt (d t)) t ((1 - 2 * sin t ^ 2 + m * sin t ^ 4) / (d t * sqrt (d t))).
Proof.
  unfold d. auto_derive.
  - pose proof (DP t) as D. pose proof (SP t) as S. unfold d in *. cbn [pow] in *.
    replace (1 + - (m * (sin t * (sin t * 1)))) with (1 - m * (sin t * (sin t * 1))) by ring.
    repeat split; [lra|apply Rgt_not_eq; exact S].
  - pose proof (DP t) as D. pose proof (SP t) as S. pose proof (SS t) as Q. fold (d t).
    replace (1 + - (m * (sin t * (sin t * 1)))) with (d t) by (unfold d; ring).
    pose proof (sin2_cos2 t) as T. unfold Rsqr in T. set (s := sin t) in *. set (c := cos t) in *. set (q := sqrt (d t)) in *.
    assert (C2 : c * c = 1 - s * s) by lra.
    assert (DD : d t = 1 - m * (s * s)) by (unfold d; fold s; ring).
    apply (Rmult_eq_reg_r (2 * (q * q * q))); [|apply Rgt_not_eq; repeat apply Rmult_lt_0_compat; lra].
    replace ((1 - 2 * s ^ 2 + m * s ^ 4) / (d t * q) * (2 * (q * q * q))) with (2 * (1 - 2 * s ^ 2 + m * s ^ 4)) by (rewrite <- Q; field; lra).
    match goal with |- ?l * _ = _ => replace (l * (2 * (q * q * q))) with
      (2 * (c * c - s * s) * (q * q) + 2 * m * (s * s) * (c * c)) by (field; lra) end.
    rewrite Q, DD, C2. ring.
Qed.

(** The integrals of the displacement along and across the long axis. *)
Definition int_long : R := RInt (fun t => cos t ^ 2 / (d t * sqrt (d t))) 0 (PI / 2).
Definition int_short : R := RInt (fun t => sin t ^ 2 / (d t * sqrt (d t))) 0 (PI / 2).
Definition int_cube : R := RInt (fun t => 1 / (d t * sqrt (d t))) 0 (PI / 2).

Lemma sc_ends c : c * (sin (PI / 2) * cos (PI / 2) / sqrt (d (PI / 2))) = c * (sin 0 * cos 0 / sqrt (d 0)).
Proof. rewrite cos_PI2, sin_0. unfold Rdiv. ring. Qed.

Lemma e_cube : elliptic_e m = (1 - m) * int_cube.
Proof.
  unfold elliptic_e, int_cube.
  replace ((1 - m) * RInt (fun t => 1 / (d t * sqrt (d t))) 0 (PI / 2))
    with (RInt (fun t => (1 - m) * (1 / (d t * sqrt (d t)))) 0 (PI / 2)).
  2: { apply rint_scal. apply (ex_3 (fun _ => 1) der_one). }
  apply (same_integral _ _ (fun t => m * (sin t * cos t / sqrt (d t)))).
  - intro t. replace (sqrt (1 - m * sin t ^ 2) - (1 - m) * (1 / (d t * sqrt (d t)))) with (m * ((1 - 2 * sin t ^ 2 + m * sin t ^ 4) / (d t * sqrt (d t)))).
    + apply is_derive_scal. apply der_sc.
    + fold (d t). pose proof (SP t) as S. pose proof (DP t) as D. pose proof (SS t) as Q.
      apply (Rmult_eq_reg_r (d t * sqrt (d t))); [|apply Rgt_not_eq; now apply Rmult_lt_0_compat].
      replace ((sqrt (d t) - (1 - m) * (1 / (d t * sqrt (d t)))) * (d t * sqrt (d t))) with (d t * (sqrt (d t) * sqrt (d t)) - (1 - m)) by (field; split; lra).
      rewrite Q. match goal with |- ?l = _ => replace l with (m * (1 - 2 * sin t ^ 2 + m * sin t ^ 4)) by (cbn [pow]; field; split; lra) end.
      unfold d. ring.
  - intro t. apply cont_e.
  - intro t. apply (continuous_scal_r (V := R_NormedModule)). apply (cont_3 (fun _ => 1) t der_one).
  - apply sc_ends.
Qed.

Lemma short_identity : m * int_short = elliptic_e m / (1 - m) - elliptic_k m.
Proof.
  rewrite e_cube. replace ((1 - m) * int_cube / (1 - m)) with int_cube by (field; lra).
  unfold int_cube, elliptic_k, int_short.
  assert (X3 := ex_3 (fun _ => 1) der_one). assert (XS := ex_3 (fun t => sin t ^ 2) der_sin2). cbn beta in X3, XS.
  rewrite <- rint_scal by exact XS. rewrite <- rint_minus by (try exact X3; exact ex_k).
  apply RInt_ext. intros t _. pose proof (SP t) as S. pose proof (DP t) as D. fold (d t).
  replace (1 / (d t * sqrt (d t)) - / sqrt (d t)) with ((1 - d t) / (d t * sqrt (d t))) by (field; split; lra).
  replace (m * (sin t ^ 2 / (d t * sqrt (d t)))) with (m * sin t ^ 2 / (d t * sqrt (d t))) by (field; split; lra).
  f_equal. unfold d. ring.
Qed.

Lemma long_identity : m * int_long = elliptic_k m - elliptic_e m.
Proof.
  assert (X3 := ex_3 (fun _ => 1) der_one). assert (XS := ex_3 (fun t => sin t ^ 2) der_sin2). assert (XC := ex_3 (fun t => cos t ^ 2) der_cos2). cbn beta in *.
  assert (A : int_long + int_short = int_cube).
  { unfold int_long, int_short, int_cube.
    rewrite <- rint_plus by assumption. apply RInt_ext. intros t _. pose proof (sin2_cos2 t) as T. unfold Rsqr in T. cbn beta.
    replace 1 with (cos t ^ 2 + sin t ^ 2) by (cbn [pow]; lra). symmetry. apply Rdiv_plus_distr. }
  pose proof short_identity as B. pose proof e_cube as C.
  assert (E : elliptic_e m / (1 - m) = int_cube) by (rewrite C; field; lra).
  rewrite E in B. rewrite C. assert (L : int_long = int_cube - int_short) by lra. rewrite L. lra.
Qed.

Lemma k_bounds : 0 <= m -> PI / 2 <= elliptic_k m <= PI / 2 / sqrt (1 - m).
Proof.
  intro M0. pose proof PI_RGT_0 as P. assert (S1 : 0 < sqrt (1 - m)) by (apply sqrt_lt_R0; lra).
  assert (CB : forall c, @eq R (RInt (fun _ => c) 0 (PI / 2)) (PI / 2 * c)).
  { intro c. rewrite rint_const. ring. }
  assert (SB : forall t, sin t ^ 2 <= 1).
  { intro t. pose proof (sin2_cos2 t) as T. unfold Rsqr in T. pose proof (pow2_ge_0 (cos t)). cbn [pow] in *. lra. }
  unfold elliptic_k. split.
  - apply Rle_trans with (RInt (fun _ => 1) 0 (PI / 2)); [right; symmetry; rewrite CB; ring|].
    apply RInt_le; [lra|apply ex_RInt_const|exact ex_k|]. intros t _. pose proof (SP t) as S. fold (d t).
    rewrite <- Rinv_1. apply Rinv_le_contravar; [exact S|]. rewrite <- sqrt_1. apply sqrt_le_1_alt. unfold d. pose proof (pow2_ge_0 (sin t)). nra.
  - apply Rle_trans with (RInt (fun _ => / sqrt (1 - m)) 0 (PI / 2)); [|right; rewrite CB; reflexivity].
    apply RInt_le; [lra|exact ex_k|apply ex_RInt_const|]. intros t _. apply Rinv_le_contravar; [exact S1|].
    apply sqrt_le_1_alt. pose proof (SB t). nra.
Qed.
Lemma int_long_pos : 0 < int_long.
Proof.
  unfold int_long. pose proof PI_RGT_0 as P.
  assert (Z : @eq R (RInt (fun _ => 0) 0 (PI / 2)) 0) by (rewrite rint_const; ring). rewrite <- Z at 1.
  apply RInt_lt; [lra| | |].
  - intros t _. apply (cont_3 (fun t => cos t ^ 2) t der_cos2).
  - intros t _. apply continuous_const.
  - intros t T. apply Rdiv_lt_0_compat; [apply pow_lt; apply cos_gt_0; lra|]. apply Rmult_lt_0_compat; [apply DP|apply SP].
Qed.
Lemma int_short_pos : 0 < int_short.
Proof.
  unfold int_short. pose proof PI_RGT_0 as P.
  assert (Z : @eq R (RInt (fun _ => 0) 0 (PI / 2)) 0) by (rewrite rint_const; ring). rewrite <- Z at 1.
  apply RInt_lt; [lra| | |].
  - intros t _. apply (cont_3 (fun t => sin t ^ 2) t der_sin2).
  - intros t _. apply continuous_const.
  - intros t T. apply Rdiv_lt_0_compat; [apply pow_lt; apply sin_gt_0; lra|]. apply Rmult_lt_0_compat; [apply DP|apply SP].
Qed.
(** The first less the second integral is at least pi / 4 times the parameter. *)
Lemma k_minus_e : 0 <= m -> m * (PI / 4) <= elliptic_k m - elliptic_e m.
Proof.
  intro M0. pose proof PI_RGT_0 as P.
  assert (S2 : is_RInt (fun t => m * sin t ^ 2) 0 (PI / 2) (m * (PI / 4))).
  { replace (m * (PI / 4)) with (minus ((fun t => m * (t / 2 - sin t * cos t / 2)) (PI / 2)) ((fun t => m * (t / 2 - sin t * cos t / 2)) 0)).
    - apply (is_RInt_derive (fun t => m * (t / 2 - sin t * cos t / 2))).
      + intros t _. auto_derive; [exact I|]. pose proof (sin2_cos2 t) as T. unfold Rsqr in T. 
        transitivity (m * (1 / 2 - (cos t * cos t - sin t * sin t) / 2)); [field|].
        replace (cos t * cos t) with (1 - sin t * sin t) by lra. cbn [pow]. field.
      + intros t _. apply (ex_derive_continuous (K := R_AbsRing) (V := R_NormedModule)). auto_derive. exact I.
    - unfold minus, plus, opp. cbn. rewrite cos_PI2, sin_0. field. }
  rewrite <- (is_RInt_unique _ _ _ _ S2). unfold elliptic_k, elliptic_e.
  rewrite <- rint_minus by (try exact ex_k; exact ex_e).
  apply RInt_le; [lra|eexists; exact S2|apply (ex_RInt_minus (V := R_NormedModule)); [exact ex_k|exact ex_e]|].
  intros t _. fold (d t).
  pose proof (SP t) as S. pose proof (SS t) as Q. pose proof (DP t) as D.
  replace (/ sqrt (d t) - sqrt (d t)) with (m * sin t ^ 2 * / sqrt (d t)).
  - assert (1 <= / sqrt (d t)).
    { rewrite <- Rinv_1. apply Rinv_le_contravar; [exact S|]. rewrite <- sqrt_1. apply sqrt_le_1_alt. unfold d. pose proof (pow2_ge_0 (sin t)). nra. }
    pose proof (pow2_ge_0 (sin t)). assert (0 <= m * sin t ^ 2) by nra. nra.
  - replace (m * sin t ^ 2) with (1 - d t) by (unfold d; ring). rewrite <- Q at 1. field. lra.
Qed.
Lemma long_short : 0 < m -> int_long < int_short.
Proof.
  intro M0. pose proof PI_RGT_0 as P.
  set (g := fun t => cos t ^ 2 / (d t * sqrt (d t)) + 3 * m * (sin t ^ 2 * cos t ^ 2) / (d t * d t * sqrt (d t))).
  assert (CG : forall t, continuous g t).
  { intro t. unfold g. apply (ex_derive_continuous (K := R_AbsRing) (V := R_NormedModule)). unfold d. auto_derive.
    pose proof (DP t) as D. pose proof (SP t) as S. unfold d in D, S. cbn [pow] in D, S.
    set (z := sin t * (sin t * 1)) in *. replace (1 + - (m * z)) with (1 - m * z) by ring.
    assert (0 < (1 - m * z) * sqrt (1 - m * z)) by now apply Rmult_lt_0_compat.
    assert (0 < (1 - m * z) * (1 - m * z) * sqrt (1 - m * z)) by (apply Rmult_lt_0_compat; [now apply Rmult_lt_0_compat|assumption]).
    repeat split; try lra; apply Rgt_not_eq; assumption. }
  assert (E : int_short = RInt g 0 (PI / 2)).
  { unfold int_short. apply (same_integral _ _ (fun t => - (sin t * cos t) / (d t * sqrt (d t)))).
    - intro t. unfold d. auto_derive.
      + pose proof (DP t) as D. pose proof (SP t) as S. unfold d in D, S. cbn [pow] in D, S.
        set (z := sin t * (sin t * 1)) in *. replace (1 + - (m * z)) with (1 - m * z) by ring.
        repeat split; try lra. apply Rgt_not_eq. now apply Rmult_lt_0_compat.
      + pose proof (DP t) as D. pose proof (SP t) as S. pose proof (SS t) as Q. unfold g. fold (d t).
        replace (1 + - (m * (sin t * (sin t * 1)))) with (d t) by (unfold d; ring).
        pose proof (sin2_cos2 t) as T. unfold Rsqr in T. set (s := sin t) in *. set (c := cos t) in *. set (q := sqrt (d t)) in *.
        rewrite <- Q. field. lra.
    - intro t. apply (cont_3 (fun t => sin t ^ 2) t der_sin2).
    - exact CG.
    - rewrite cos_PI2, sin_0. unfold Rdiv. ring. }
  rewrite E. unfold int_long. apply RInt_lt; [lra| | |].
  - intros t _. apply CG.
  - intros t _. apply (cont_3 (fun t => cos t ^ 2) t der_cos2).
  - intros t T. unfold g. pose proof (DP t) as D. pose proof (SP t) as S.
    assert (0 < 3 * m * (sin t ^ 2 * cos t ^ 2) / (d t * d t * sqrt (d t))); [|lra].
    apply Rdiv_lt_0_compat; [|apply Rmult_lt_0_compat; [now apply Rmult_lt_0_compat|assumption]].
    apply Rmult_lt_0_compat; [lra|]. apply Rmult_lt_0_compat; apply pow_lt; [apply sin_gt_0|apply cos_gt_0]; lra.
Qed.
Lemma short_bound : m <= 3 / 4 -> 0 <= m -> int_short <= 8 * int_long.
Proof.
  intros M4 M0. pose proof PI_RGT_0 as P.
  assert (XC := ex_3 (fun t => cos t ^ 2) der_cos2). assert (XS := ex_3 (fun t => sin t ^ 2) der_sin2). cbn beta in XC, XS.
  assert (CS : forall t, continuous (fun t => sin t ^ 2) t) by (intro t; apply (ex_derive_continuous (K := R_AbsRing) (V := R_NormedModule)); apply der_sin2).
  assert (CC : forall t, continuous (fun t => cos t ^ 2) t) by (intro t; apply (ex_derive_continuous (K := R_AbsRing) (V := R_NormedModule)); apply der_cos2).
  assert (ES : ex_RInt (fun t => sin t ^ 2) 0 (PI / 2)) by (apply (ex_RInt_continuous (V := R_CompleteNormedModule)); intros; apply CS).
  assert (EC : ex_RInt (fun t => cos t ^ 2) 0 (PI / 2)) by (apply (ex_RInt_continuous (V := R_CompleteNormedModule)); intros; apply CC).
  assert (EQ : RInt (fun t => sin t ^ 2) 0 (PI / 2) = RInt (fun t => cos t ^ 2) 0 (PI / 2)).
  { apply (same_integral _ _ (fun t => - (sin t * cos t))); [|exact CS|exact CC|].
    - intro t. auto_derive; [exact I|]. ring.
    - rewrite cos_PI2, sin_0. ring. }
  assert (DB : forall t, / 4 <= d t <= 1).
  { intro t. pose proof (sin2_cos2 t) as T. unfold Rsqr in T. pose proof (pow2_ge_0 (cos t)). pose proof (pow2_ge_0 (sin t)).
    assert (sin t ^ 2 <= 1) by (cbn [pow] in *; lra). unfold d. split; nra. }
  assert (SB : forall t, / 2 <= sqrt (d t) <= 1).
  { intro t. pose proof (DB t). split.
    - apply Rsqr_incr_0_var; [|apply sqrt_pos]. unfold Rsqr. rewrite sqrt_sqrt by lra. lra.
    - rewrite <- sqrt_1. apply sqrt_le_1_alt. lra. }
  apply Rle_trans with (8 * RInt (fun t => sin t ^ 2) 0 (PI / 2)).
  - rewrite <- rint_scal by exact ES. apply RInt_le; [lra|exact XS|apply (ex_RInt_scal (V := R_NormedModule)); exact ES|].
    intros t _. pose proof (DB t). pose proof (SB t). pose proof (pow2_ge_0 (sin t)). assert (X : / 8 <= d t * sqrt (d t)) by nra.
    unfold Rdiv. rewrite Rmult_comm. apply Rmult_le_compat_r; [assumption|]. replace 8 with (/ / 8) by field. apply Rinv_le_contravar; lra.
  - rewrite EQ. apply Rmult_le_compat_l; [lra|]. apply RInt_le; [lra|exact EC|exact XC|].
    intros t _. pose proof (DB t). pose proof (SB t). pose proof (pow2_ge_0 (cos t)).
    assert (X : 0 < d t * sqrt (d t) <= 1) by nra. unfold Rdiv. rewrite <- (Rmult_1_r (cos t ^ 2)) at 1. apply Rmult_le_compat_l; [assumption|].
    rewrite <- Rinv_1. apply Rinv_le_contravar; lra.
Qed.
End Integrals.

Lemma k_increases m1 m2 : 0 <= m1 -> m1 < m2 -> m2 < 1 -> elliptic_k m1 < elliptic_k m2.
Proof.
  intros A B C. pose proof PI_RGT_0 as P. unfold elliptic_k. apply RInt_lt; [lra| | |].
  - intros t _. now apply cont_k.
  - intros t _. apply cont_k. lra.
  - intros t T. assert (S : 0 < sin t) by (apply sin_gt_0; lra). assert (S2 : 0 < sin t ^ 2) by now apply pow_lt.
    apply Rinv_lt_contravar; [apply Rmult_lt_0_compat; apply sqrt_lt_R0; apply delta_pos; lra|].
    apply sqrt_lt_1_alt. split; [left; apply delta_pos; lra|]. nra.
Qed.

Lemma h_int_eq k : h_int k = elliptic_k (1 - k ^ 2).
Proof. unfold h_int, elliptic_k. apply RInt_ext. intros t _. unfold Rdiv. apply Rmult_1_l. Qed.
Lemma i_int_eq k : 0 < k -> i_int k = int_long (1 - k ^ 2).
Proof.
  intro K. assert (1 - k ^ 2 < 1) by (pose proof (pow_lt k 2 K); lra). unfold i_int, int_long. apply RInt_ext. intros t _.
  rewrite sqrt_cube by now apply delta_pos. reflexivity.
Qed.
Lemma j_int_eq k : 0 < k -> j_int k = k ^ 3 * int_short (1 - k ^ 2).
Proof.
  intro K. assert (K2 := pow_lt k 2 K). assert (M : 1 - k ^ 2 < 1) by lra. unfold j_int. rewrite (proj2 (Reqb_false k 0)) by lra.
  set (f := fun psi => cos psi ^ 2 / sqrt ((1 - (1 - 1 / k ^ 2) * sin psi ^ 2) ^ 3)).
  assert (CF : forall t, continuous f t).
  { intro t. unfold f. assert (D : 0 < 1 - (1 - 1 / k ^ 2) * sin t ^ 2).
    { apply delta_pos. assert (0 < 1 / k ^ 2) by (apply Rdiv_lt_0_compat; lra). lra. }
    apply (ex_derive_continuous (K := R_AbsRing) (V := R_NormedModule)). auto_derive.
    set (z := sin t ^ 2) in *.
    match goal with |- context [sqrt ?e] => assert (E : e = (1 - (1 - 1 / k ^ 2) * z) ^ 3) by (unfold z; cbn [pow]; ring) end.
    assert (0 < (1 - (1 - 1 / k ^ 2) * z) ^ 3) by (apply pow_lt; exact D).
    repeat split; try (rewrite E; lra); try (rewrite E; assumption). rewrite E. apply Rgt_not_eq. now apply sqrt_lt_R0. }
  assert (S : RInt f 0 (PI / 2) = RInt (fun t => f (PI / 2 - t)) 0 (PI / 2)).
  { assert (X := RInt_comp_lin (V := R_CompleteNormedModule) f (-1) (PI / 2) 0 (PI / 2)).
    replace (-1 * 0 + PI / 2) with (PI / 2) in X by ring. replace (-1 * (PI / 2) + PI / 2) with 0 in X by ring.
    assert (XF : ex_RInt f (PI / 2) 0) by (apply (ex_RInt_continuous (V := R_CompleteNormedModule)); intros; apply CF).
    specialize (X XF). rewrite <- (opp_RInt_swap f (PI / 2) 0) by exact XF. rewrite <- X.
    rewrite <- RInt_opp.
    - apply RInt_ext. intros t _. unfold opp, scal. cbn. unfold mult. cbn. replace (-1 * t + PI / 2) with (PI / 2 - t) by ring.
      match goal with |- ?l = ?r => change (@eq R l r) end. ring.
    - apply (ex_RInt_continuous (V := R_CompleteNormedModule)). intros t _.
      apply (continuous_scal_r (V := R_NormedModule)). apply (continuous_comp (fun t => -1 * t + PI / 2) f); [|apply CF].
      apply (ex_derive_continuous (K := R_AbsRing) (V := R_NormedModule)). auto_derive. exact I. }
  rewrite S. unfold int_short.
  rewrite <- rint_scal by (apply (ex_3 (1 - k ^ 2) M (fun t => sin t ^ 2) der_sin2)).
  apply RInt_ext. intros t _. unfold f.
  rewrite cos_shift, sin_shift. destruct (delta_cos k t) as [E|E]; [|lra]. rewrite E.
  assert (D := delta_pos (1 - k ^ 2) t M). set (q := 1 - (1 - k ^ 2) * sin t ^ 2) in *.
  rewrite sqrt_cube by (apply Rdiv_lt_0_compat; assumption). rewrite sqrt_div by lra. rewrite sqrt_pow2 by lra.
  assert (0 < sqrt q) by now apply sqrt_lt_R0. match goal with |- ?l = ?r => change (@eq R l r) end. field. repeat split; lra.
Qed.
