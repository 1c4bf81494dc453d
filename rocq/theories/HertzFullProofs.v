(** Proofs about the full Hertz solution. *)
From Coq Require Import Reals List Bool Lra Lia Psatz ZArith.
From Coquelicot Require Import Coquelicot.
From Verif Require Import Py SurfaceModel Flt SurfaceProofs SolverProofs HertzFullModel HertzFullSpec.
Import ListNotations.
Local Open Scope R_scope.

(** ** Angles *)
Lemma curvature_curv r : curvature r = curv r.
Proof. destruct r; cbn; [reflexivity|]. unfold Rdiv. ring. Qed.

Lemma floor_spec x : IZR (Int_part x) <= x < IZR (Int_part x) + 1.
Proof. pose proof (base_Int_part x) as [A B]. lra. Qed.
Lemma floor_unique x (k : Z) : IZR k <= x < IZR k + 1 -> Int_part x = k.
Proof.
  intros [A B]. pose proof (floor_spec x) as [C D].
  assert (IZR (Int_part x) < IZR (k + 1)) by (rewrite plus_IZR; lra).
  assert (IZR k < IZR (Int_part x + 1)) by (rewrite plus_IZR; lra).
  apply lt_IZR in H, H0. lia.
Qed.
Lemma pi_mod_spec x : 0 <= pi_mod x < PI.
Proof.
  unfold pi_mod. pose proof PI_RGT_0 as P. pose proof (floor_spec (x / PI)) as [A B].
  set (k := IZR (Int_part (x / PI))) in *. assert (X : x = PI * (x / PI)) by (field; lra).
  set (u := x / PI) in *. rewrite X. split; nra.
Qed.
Lemma norm_angle_spec x : between_axes x (norm_angle x).
Proof.
  pose proof PI_RGT_0 as P. pose proof (pi_mod_spec x) as [A B]. unfold norm_angle. cbv zeta.
  assert (E : x = pi_mod x + IZR (Int_part (x / PI)) * PI) by (unfold pi_mod; ring).
  destruct (Rltb (pi_mod x) (PI / 2)) eqn:C.
  - apply Rltb_true in C. split; [lra|]. now exists (Int_part (x / PI)).
  - apply Rltb_false in C. split; [lra|]. exists (Int_part (x / PI) + 1)%Z. rewrite plus_IZR. lra.
Qed.
Lemma between_axes_unique x t u : between_axes x t -> between_axes x u -> t = u.
Proof.
  pose proof PI_RGT_0 as P. intros [T (k & K)] [U (j & J)].
  assert (E : t - u = (IZR j - IZR k) * PI) by lra. rewrite <- minus_IZR in E.
  assert (Z : (j - k = 0)%Z).
  { assert (IZR (j - k) < IZR 1) by nra. assert (IZR (-1) < IZR (j - k)) by nra. apply lt_IZR in H, H0. lia. }
  rewrite Z in E. lra.
Qed.
Lemma norm_angle_period x (k : Z) : norm_angle (x + IZR k * PI) = norm_angle x.
Proof.
  apply (between_axes_unique (x + IZR k * PI)); [apply norm_angle_spec|].
  destruct (norm_angle_spec x) as [A (j & E)]. split; [exact A|]. exists (j + k)%Z. rewrite plus_IZR. lra.
Qed.
Lemma norm_angle_id t : - (PI / 2) <= t < PI / 2 -> norm_angle t = t.
Proof.
  intro T. apply (between_axes_unique t); [apply norm_angle_spec|]. split; [exact T|]. exists 0%Z. lra.
Qed.
Lemma cos_sin_period x (k : Z) : cos (x + 2 * IZR k * PI) = cos x /\ sin (x + 2 * IZR k * PI) = sin x.
Proof.
  destruct (Z_le_gt_dec 0 k) as [K|K].
  - rewrite <- (Z2Nat.id k) by exact K. rewrite <- INR_IZR_INZ. split; [apply cos_period|apply sin_period].
  - assert (E : IZR k = - INR (Z.to_nat (- k))) by (rewrite INR_IZR_INZ, Z2Nat.id, opp_IZR by lia; lra).
    set (n := Z.to_nat (- k)) in *. split.
    + rewrite <- (cos_period (x + 2 * IZR k * PI) n), E. f_equal. ring.
    + rewrite <- (sin_period (x + 2 * IZR k * PI) n), E. f_equal. ring.
Qed.
Lemma cos_norm_angle x : cos (2 * norm_angle x) = cos (2 * x).
Proof.
  destruct (norm_angle_spec x) as [_ (k & E)]. rewrite E at 2. replace (2 * (norm_angle x + IZR k * PI)) with (2 * norm_angle x + 2 * IZR k * PI) by ring.
  symmetry. apply cos_sin_period.
Qed.

(** Angles with the same sine and cosine. *)
Lemma same_angle u w : cos u = cos w -> sin u = sin w -> - (2 * PI) < u - w < 2 * PI -> u = w.
Proof.
  intros C S B. pose proof PI_RGT_0 as P.
  assert (D : cos (u - w) = 1) by (rewrite cos_minus, C, S; pose proof (sin2_cos2 w) as H; unfold Rsqr in H; lra).
  set (d := (u - w) / 2). assert (E : u - w = 2 * d) by (unfold d; lra). rewrite E in D. rewrite cos_2a_sin in D.
  assert (Z : sin d = 0) by nra.
  assert (d = 0).
  { destruct (Rtotal_order d 0) as [L|[L|L]]; [|exact L|].
    - assert (0 < sin (- d)) by (apply sin_gt_0; lra). rewrite sin_neg in H. lra.
    - assert (0 < sin d) by (apply sin_gt_0; lra). lra. }
  lra.
Qed.

(** ** The arctangent of two arguments *)
Lemma sq_sum_sqrt x y : x <> 0 -> sqrt (x ^ 2 + y ^ 2) = Rabs x * sqrt (1 + (y / x)²).
Proof.
  intro X. rewrite <- sqrt_Rsqr_abs, <- sqrt_mult_alt by apply Rle_0_sqr. f_equal. unfold Rsqr. field. exact X.
Qed.
Lemma arctan2_polar neg y x :
  sqrt (x ^ 2 + y ^ 2) * cos (arctan2 neg y x) = x /\ sqrt (x ^ 2 + y ^ 2) * sin (arctan2 neg y x) = y.
Proof.
  unfold arctan2.
  assert (Q : 0 < sqrt (1 + (y / x)²)) by (apply sqrt_lt_R0; pose proof (Rle_0_sqr (y / x)); lra).
  destruct (Rltb 0 x) eqn:A.
  - apply Rltb_true in A. rewrite cos_atan, sin_atan, sq_sum_sqrt, Rabs_pos_eq by lra. split; field; lra.
  - apply Rltb_false in A. destruct (Rltb x 0) eqn:B.
    + apply Rltb_true in B. rewrite sq_sum_sqrt, (Rabs_left x) by lra.
      destruct (Rltb 0 y || Reqb y 0 && negb neg).
      * rewrite neg_cos, neg_sin, cos_atan, sin_atan. split; field; lra.
      * replace (atan (y / x) - PI) with (- (PI - atan (y / x))) by ring. rewrite cos_neg, sin_neg, sin_PI_x, Rtrigo_facts.cos_pi_minus, cos_atan, sin_atan.
        split; field; lra.
    + apply Rltb_false in B. assert (x = 0) by lra. subst x.
      replace (sqrt (0 ^ 2 + y ^ 2)) with (Rabs y) by (rewrite <- sqrt_Rsqr_abs; f_equal; unfold Rsqr; ring).
      destruct (Rltb 0 y) eqn:C; [apply Rltb_true in C|apply Rltb_false in C; destruct (Rltb y 0) eqn:D; [apply Rltb_true in D|apply Rltb_false in D]].
      * rewrite cos_PI2, sin_PI2, Rabs_pos_eq by lra. lra.
      * replace (- PI / 2) with (- (PI / 2)) by field. rewrite cos_neg, sin_neg, cos_PI2, sin_PI2, Rabs_left by lra. lra.
      * assert (y = 0) by lra. subst y. rewrite Rabs_R0. lra.
Qed.
Lemma arctan2_zero neg : arctan2 neg 0 0 = 0.
Proof. unfold arctan2. rewrite !(proj2 (Rltb_false 0 0)) by lra. reflexivity. Qed.
Lemma arctan2_pos neg y x : 0 < x -> - (PI / 2) < arctan2 neg y x < PI / 2.
Proof. intro X. unfold arctan2. rewrite (proj2 (Rltb_true 0 x)) by lra. pose proof (atan_bound (y / x)). lra. Qed.

(** ** The relative curvatures *)
Definition len (a b t : R) : R := sqrt ((a * cos t + b) ^ 2 + (a * sin t) ^ 2).
Lemma len_eq a b t : len a b t = sqrt (a ^ 2 + b ^ 2 + 2 * a * b * cos t).
Proof.
  unfold len. f_equal. pose proof (sin2_cos2 t) as H. unfold Rsqr in H. nra.
Qed.
Lemma len_sq a b t : 0 <= a ^ 2 + b ^ 2 + 2 * a * b * cos t.
Proof.
  pose proof (sin2_cos2 t) as H. unfold Rsqr in H. pose proof (pow2_ge_0 (a * cos t + b)) as P. pose proof (pow2_ge_0 (a * sin t)) as Q.
  replace (a ^ 2 + b ^ 2 + 2 * a * b * cos t) with ((a * cos t + b) ^ 2 + (a * sin t) ^ 2); [lra|].
  replace ((a * cos t + b) ^ 2 + (a * sin t) ^ 2) with (a ^ 2 * (sin t * sin t + cos t * cos t) + b ^ 2 + 2 * a * b * cos t) by ring.
  rewrite H. ring.
Qed.
Lemma len_sym a b t : len a b t = len b a t.
Proof. rewrite !len_eq. f_equal. ring. Qed.
Lemma double_half a b t : 2 * half_angle a b t = arctan2 (xorb (Rltb a 0) (Rltb t 0)) (a * sin t) (a * cos t + b).
Proof. unfold half_angle. field. Qed.
Lemma half_polar a b t : len a b t * cos (2 * half_angle a b t) = a * cos t + b /\ len a b t * sin (2 * half_angle a b t) = a * sin t.
Proof. rewrite double_half. apply arctan2_polar. Qed.
Lemma len_nonneg a b t : 0 <= len a b t.
Proof. apply sqrt_pos. Qed.
Lemma len_zero a b t : len a b t = 0 -> a * cos t + b = 0 /\ a * sin t = 0.
Proof.
  intro Z. pose proof (pow2_ge_0 (a * cos t + b)) as P. pose proof (pow2_ge_0 (a * sin t)) as Q.
  apply sqrt_eq_0 in Z; [|lra]. split; apply Rsqr_0_uniq; unfold Rsqr; lra.
Qed.
(** Twice the sum of the two half angles is the angle up to turns. *)
Lemma half_sum a b t : len a b t <> 0 ->
  cos (2 * half_angle a b t + 2 * half_angle b a t) = cos t /\ sin (2 * half_angle a b t + 2 * half_angle b a t) = sin t.
Proof.
  intro N. destruct (half_polar a b t) as [C1 S1], (half_polar b a t) as [C2 S2]. rewrite (len_sym b a) in C2, S2.
  pose proof (len_nonneg a b t) as P.
  assert (N2 : len a b t * len a b t = a ^ 2 + b ^ 2 + 2 * a * b * cos t).
  { rewrite len_eq. apply sqrt_sqrt. apply len_sq. }
  set (n := len a b t) in *. set (u := 2 * half_angle a b t) in *. set (w := 2 * half_angle b a t) in *.
  pose proof (sin2_cos2 t) as H. unfold Rsqr in H.
  rewrite cos_plus, sin_plus. split; apply (Rmult_eq_reg_l (n * n)); try nra.
  - replace (n * n * (cos u * cos w - sin u * sin w)) with ((n * cos u) * (n * cos w) - (n * sin u) * (n * sin w)) by ring.
    rewrite C1, C2, S1, S2, N2. replace (sin t * sin t) with (1 - cos t * cos t) in H by lra.
    replace ((a * cos t + b) * (b * cos t + a) - a * sin t * (b * sin t)) with
      ((a * cos t + b) * (b * cos t + a) - a * b * (sin t * sin t)) by ring.
    replace (sin t * sin t) with (1 - cos t * cos t) by (pose proof (sin2_cos2 t) as H'; unfold Rsqr in H'; lra). ring.
  - replace (n * n * (sin u * cos w + cos u * sin w)) with ((n * sin u) * (n * cos w) + (n * cos u) * (n * sin w)) by ring.
    rewrite C1, C2, S1, S2, N2. ring.
Qed.

Lemma cos2_half x : cos x ^ 2 = (1 + cos (2 * x)) / 2 /\ sin x ^ 2 = (1 - cos (2 * x)) / 2.
Proof. rewrite cos_2a_cos at 1. rewrite cos_2a_sin. split; field. Qed.

(** The sum of the relative curvatures does not depend on the angles, their difference is the length of the sum. *)
Lemma difference_len a b t : (a = 0 /\ b = 0) \/ (0 <= cos t \/ len a b t <> 0) ->
  b * cos (2 * half_angle a b t) + a * cos (2 * half_angle b a t) = len a b t.
Proof.
  intro D. destruct (half_polar a b t) as [C1 S1], (half_polar b a t) as [C2 S2]. rewrite (len_sym b a) in C2, S2.
  pose proof (len_nonneg a b t) as P.
  assert (N2 : len a b t * len a b t = a ^ 2 + b ^ 2 + 2 * a * b * cos t).
  { rewrite len_eq. apply sqrt_sqrt. apply len_sq. }
  destruct (Req_dec (len a b t) 0) as [Z|N].
  - rewrite Z. pose proof (len_zero a b t Z) as [X Y]. rewrite len_sym in Z. pose proof (len_zero b a t Z) as [X' Y'].
    rewrite !double_half, X, Y, X', Y', !arctan2_zero, cos_0.
    destruct D as [[-> ->]|[D|D]]; [lra| |rewrite len_sym in D; contradiction].
    assert (E : (a + b) * (1 + cos t) = 0) by lra. apply Rmult_integral in E. destruct E; lra.
  - apply (Rmult_eq_reg_l (len a b t)); [|exact N].
    replace (len a b t * (b * cos (2 * half_angle a b t) + a * cos (2 * half_angle b a t))) with
      (b * (len a b t * cos (2 * half_angle a b t)) + a * (len a b t * cos (2 * half_angle b a t))) by ring.
    rewrite C1, C2, N2. ring.
Qed.

(** ** Displacements *)
Lemma sin_gt_cos w : 0 < w < PI -> w * cos w < sin w.
Proof.
  intros [A B].
  destruct (MVT_gen (fun x => sin x - x * cos x) 0 w (fun x => x * sin x)) as (c & C & E).
  - intros x X. auto_derive; [exact I|]. ring.
  - intros x _. apply continuity_pt_filterlim. apply (ex_derive_continuous (fun x => sin x - x * cos x)). auto_derive. exact I.
  - rewrite Rmin_left, Rmax_right in C by lra. rewrite sin_0 in E.
    assert (P : 0 <= c * sin c) by (apply Rmult_le_pos; [lra|]; apply sin_ge_0; lra).
    destruct (Rle_lt_dec 0 (cos w)) as [CW|CW].
    + (* strict: the derivative is positive on the second half *)
      destruct (MVT_gen (fun x => sin x - x * cos x) (w / 2) w (fun x => x * sin x)) as (d & D & F).
      * intros x X. auto_derive; [exact I|]. ring.
      * intros x _. apply continuity_pt_filterlim. apply (ex_derive_continuous (fun x => sin x - x * cos x)). auto_derive. exact I.
      * rewrite Rmin_left, Rmax_right in D by lra.
        assert (Q : 0 < d * sin d) by (apply Rmult_lt_0_compat; [lra|]; apply sin_gt_0; lra).
        destruct (MVT_gen (fun x => sin x - x * cos x) 0 (w / 2) (fun x => x * sin x)) as (h & H & G).
        -- intros x X. auto_derive; [exact I|]. ring.
        -- intros x _. apply continuity_pt_filterlim. apply (ex_derive_continuous (fun x => sin x - x * cos x)). auto_derive. exact I.
        -- rewrite Rmin_left, Rmax_right in H by lra. rewrite sin_0 in G.
           assert (S : 0 <= h * sin h) by (apply Rmult_le_pos; [lra|]; apply sin_ge_0; lra).
           assert (0 <= h * sin h * (w / 2 - 0)) by (apply Rmult_le_pos; lra).
           assert (0 < d * sin d * (w - w / 2)) by (apply Rmult_lt_0_compat; lra). lra.
    + assert (0 < sin w) by (apply sin_gt_0; lra). nra.
Qed.
(** Outside of the contact the displacement exceeds the parabola. *)
Lemma outside_gap a r : 0 < a < r ->
  PI / 2 * (2 * a ^ 2 - r ^ 2) < (2 * a ^ 2 - r ^ 2) * asin (a / r) + r * a * sqrt (1 - a ^ 2 / r ^ 2).
Proof.
  intros [A B]. pose proof PI_RGT_0 as P.
  assert (Q : 0 < a / r < 1).
  { split; [apply Rdiv_lt_0_compat; lra|]. apply (Rmult_lt_reg_r r); [lra|]. unfold Rdiv. rewrite Rmult_assoc, Rinv_l; lra. }
  set (f := asin (a / r)). assert (S : sin f = a / r) by (apply sin_asin; lra).
  assert (F : - (PI / 2) < f < PI / 2) by (apply asin_bound_lt; lra).
  assert (F0 : 0 < f).
  { destruct (Rle_lt_dec f 0) as [L|L]; [|exact L]. exfalso. assert (0 <= sin (- f)) by (apply sin_ge_0; lra). rewrite sin_neg in H. lra. }
  assert (C : sqrt (1 - a ^ 2 / r ^ 2) = cos f).
  { replace (1 - a ^ 2 / r ^ 2) with (1 - (a / r) * (a / r)) by (field; lra). rewrite <- S.
    pose proof (sin2_cos2 f) as H. unfold Rsqr in H. replace (1 - sin f * sin f) with (cos f * cos f) by lra.
    apply sqrt_square. apply cos_ge_0; lra. }
  rewrite C. replace a with (r * sin f) by (rewrite S; field; lra).
  set (w := 2 * (PI / 2 - f)). assert (W : 0 < w < PI) by (unfold w; lra).
  pose proof (sin_gt_cos w W) as G. assert (CW : cos w = - cos (2 * f)).
  { unfold w. replace (2 * (PI / 2 - f)) with (PI - 2 * f) by field. apply Rtrigo_facts.cos_pi_minus. }
  assert (SW : sin w = sin (2 * f)).
  { unfold w. replace (2 * (PI / 2 - f)) with (PI - 2 * f) by field. apply sin_PI_x. }
  rewrite CW, SW in G. rewrite cos_2a_sin, sin_2a in G. unfold w in G.
  assert (R2 : 0 < r ^ 2) by (apply pow_lt; lra).
  assert (X : 0 < r ^ 2 * (sin f * cos f + (PI / 2 - f) * (1 - 2 * sin f * sin f))) by (apply Rmult_lt_0_compat; [assumption|]; nra).
  nra.
Qed.

(** ** Pressures *)
Lemma sphere_pressure_eq a p x y : 0 < a -> sphere_pressure a p x y = p * sqrt (Rmax 0 (1 - (x / a) ^ 2 - (y / a) ^ 2)).
Proof.
  intro A. unfold sphere_pressure. f_equal. f_equal. f_equal.
  replace ((sqrt (x ^ 2 + y ^ 2) / a) ^ 2) with ((x ^ 2 + y ^ 2) / a ^ 2); [field; lra|].
  unfold Rdiv at 2. rewrite Rpow_mult_distr, pow2_sqrt by nra. field. lra.
Qed.

(** ** Parallel axes *)
Lemma half_zero a b : 0 <= a + b -> half_angle a b 0 = 0.
Proof.
  intro H. unfold half_angle. rewrite sin_0, cos_0, Rmult_0_r, Rmult_1_r. destruct (Req_dec (a + b) 0) as [E|E].
  - rewrite E, arctan2_zero. lra.
  - unfold arctan2. rewrite (proj2 (Rltb_true 0 (a + b))) by lra. unfold Rdiv at 2. rewrite Rmult_0_l, atan_0. lra.
Qed.

(** ** What a result tells *)
Section Inversion.
Variables int_i int_j int_h : R -> R.
Variable find_k : option R -> result R.
Notation hertz_full := (hertz_full int_i int_j int_h find_k).
Definition rel_k1 (x1 y1 x2 y2 : radius) (al be : R) : R :=
  cos al ^ 2 * curvature x1 + sin al ^ 2 * curvature y1 + cos be ^ 2 * curvature x2 + sin be ^ 2 * curvature y2.
Definition rel_k2 (x1 y1 x2 y2 : radius) (al be : R) : R :=
  sin al ^ 2 * curvature x1 + cos al ^ 2 * curvature y1 + sin be ^ 2 * curvature x2 + cos be ^ 2 * curvature y2.
Lemma sanitise_inv l p : sanitise_radii l = Ok p -> l = [fst p; snd p] \/ (l = [fst p] /\ snd p = fst p).
Proof.
  destruct l as [|a [|b [|c l]]]; cbn; try discriminate.
  - destruct (is_zero a); [discriminate|]. cbn. intros [= <-]. now right.
  - destruct (is_zero a || is_zero b); [discriminate|]. intros [= <-]. now left.
Qed.
Lemma valid_zero r : valid r -> is_zero r = false.
Proof. destruct r; cbn; [reflexivity|]. intro. now apply Reqb_false. Qed.
Lemma sanitise_ok a b : valid a -> valid b -> sanitise_radii [a; b] = Ok (a, b).
Proof. intros A B. cbn. now rewrite (valid_zero a A), (valid_zero b B). Qed.

Lemma full_inv x1 y1 x2 y2 m v load angle line f : hertz_full [x1; y1] [x2; y2] m v load angle line = Ok f ->
  let t := norm_angle angle in
  let ca := curvature x2 - curvature y2 in
  let cb := curvature x1 - curvature y1 in
  let al := half_angle ca cb (2 * t) in
  let be := half_angle cb ca (2 * t) in
  let k1 := rel_k1 x1 y1 x2 y2 al be in
  let k2 := rel_k2 x1 y1 x2 y2 al be in
  0 < load /\ valid x1 /\ valid y1 /\ valid x2 /\ valid y2 /\ Rabs (al + be - t) <= 1e-8 /\
  f_alpha f = al /\ f_beta f = be /\ f_radii f = (inverse k1, inverse k2) /\
  fltb (inverse k1) (Fin 0) = false /\ fltb (inverse k2) (Fin 0) = false /\ ~ (inverse k1 = PInf /\ inverse k2 = PInf) /\
  exists m1 m2 v1 v2, sanitise_material m = Ok (m1, m2) /\ sanitise_material v = Ok (v1, v2) /\
    f_e_star f = 1 / ((1 - v1 ^ 2) / m1 + (1 - v2 ^ 2) / m2) /\
    ((exists l, f_contact f = Line l /\ l = full_line (inverse k1) (inverse k2) (f_e_star f) (v1, v2) load /\ line = true /\
        (fltb (Fin 100000) (fdiv (inverse k1) (inverse k2)) || fltb (Fin 100000) (fdiv (inverse k2) (inverse k1))) = true) \/
     (line = false /\ exists x, inverse k1 = Fin x /\ inverse k2 = Fin x /\
        f_contact f = Sphere (full_sphere x (f_e_star f) (m1, m2) (v1, v2) load)) \/
     (line = false /\ exists x y, inverse k1 = Fin x /\ inverse k2 = Fin y /\ x <> y /\
        full_ellipse int_i int_j int_h find_k (x1, y1) (x2, y2) (m1, m2) (v1, v2) load t al be (Fin x) (Fin y)
        = Ok (f_contact f))).
Proof.
  intro H. unfold HertzFullModel.hertz_full in H. cbn [sanitise_radii bind] in H.
  destruct (is_zero x1 || is_zero y1) eqn:Z1; [discriminate|]. destruct (is_zero x2 || is_zero y2) eqn:Z2; [discriminate|].
  apply orb_false_iff in Z1, Z2. cbn [bind] in H.
  destruct (sanitise_material m) as [[m1 m2]|] eqn:M; [|discriminate]. cbn [bind] in H.
  destruct (sanitise_material v) as [[v1 v2]|] eqn:V; [|discriminate]. cbn [bind fst snd] in H.
  destruct (Rleb load 0) eqn:L; [discriminate|]. cbv zeta. unfold rel_k1, rel_k2.
  set (t := norm_angle angle) in *.
  set (al := half_angle (curvature x2 - curvature y2) (curvature x1 - curvature y1) (2 * t)) in *.
  set (be := half_angle (curvature x1 - curvature y1) (curvature x2 - curvature y2) (2 * t)) in *.
  destruct (Rltb 1e-8 (Rabs (al + be - t))) eqn:C; [discriminate|].
  set (k1 := cos al ^ 2 * curvature x1 + sin al ^ 2 * curvature y1 + cos be ^ 2 * curvature x2 + sin be ^ 2 * curvature y2) in *.
  set (k2 := sin al ^ 2 * curvature x1 + cos al ^ 2 * curvature y1 + sin be ^ 2 * curvature x2 + cos be ^ 2 * curvature y2) in *.
  destruct (fltb (inverse k1) (Fin 0)) eqn:N1; [discriminate|]. destruct (fltb (inverse k2) (Fin 0)) eqn:N2; [discriminate|].
  cbn [orb] in H.
  assert (VV : valid x1 /\ valid y1 /\ valid x2 /\ valid y2).
  { destruct Z1 as [A1 A2], Z2 as [B1 B2].
    assert (W : forall r, is_zero r = false -> valid r) by (intros [|r] E; cbn in *; [exact I|]; now apply Reqb_false).
    auto. }
  apply Rltb_false in C.
  assert (L' : 0 < load) by (destruct (Rle_lt_dec load 0) as [Q|Q]; [apply Rleb_true in Q; congruence|exact Q]).
  destruct VV as (W1 & W2 & W3 & W4).
  assert (FIN : f_alpha f = al /\ f_beta f = be /\ f_radii f = (inverse k1, inverse k2) /\
     ~ (inverse k1 = PInf /\ inverse k2 = PInf) /\ f_e_star f = 1 / ((1 - v1 ^ 2) / m1 + (1 - v2 ^ 2) / m2) /\
    ((exists l, f_contact f = Line l /\ l = full_line (inverse k1) (inverse k2) (f_e_star f) (v1, v2) load /\ line = true /\
        (fltb (Fin 100000) (fdiv (inverse k1) (inverse k2)) || fltb (Fin 100000) (fdiv (inverse k2) (inverse k1))) = true) \/
     (line = false /\ exists x, inverse k1 = Fin x /\ inverse k2 = Fin x /\
        f_contact f = Sphere (full_sphere x (f_e_star f) (m1, m2) (v1, v2) load)) \/
     (line = false /\ exists x y, inverse k1 = Fin x /\ inverse k2 = Fin y /\ x <> y /\
        full_ellipse int_i int_j int_h find_k (x1, y1) (x2, y2) (m1, m2) (v1, v2) load t al be (Fin x) (Fin y)
        = Ok (f_contact f)))).
  { generalize dependent (inverse k1). intros r1 R1 H. generalize dependent (inverse k2). intros r2 R2 H.
    destruct (fltb (Fin 100000) (fdiv r1 r2) || fltb (Fin 100000) (fdiv r2 r1)) eqn:LI.
    - assert (X : ~ (r1 = PInf /\ r2 = PInf)) by (intros [-> ->]; discriminate).
      assert (Y : (if line then Ok {| f_alpha := al; f_beta := be; f_radii := (r1, r2);
        f_e_star := 1 / ((1 - v1 ^ 2) / m1 + (1 - v2 ^ 2) / m2);
        f_contact := Line (full_line r1 r2 (1 / ((1 - v1 ^ 2) / m1 + (1 - v2 ^ 2) / m2)) (v1, v2) load) |} else Err ValueError) = Ok f)
        by (destruct r1, r2; try exact H; discriminate).
      destruct line; [|discriminate]. injection Y as <-. cbn. repeat split; try assumption. left. eexists. repeat split.
    - destruct r1 as [x| | |], r2 as [y| | |]; try discriminate. destruct (Reqb x y) eqn:E.
      + apply Reqb_true in E. subst y. destruct line; [discriminate|]. injection H as <-. cbn.
        repeat split; [intros [? _]; discriminate|]. right. left. split; [reflexivity|]. now exists x.
      + apply Reqb_false in E. destruct line; [discriminate|].
        destruct (full_ellipse _ _ _ _ _ _ _ _ _ _ _ _ _ _) as [c|] eqn:FE; [|discriminate]. cbn [bind] in H. injection H as <-. cbn.
        repeat split; [intros [? _]; discriminate|]. right. right. split; [reflexivity|]. exists x, y. now repeat split. }
  destruct FIN as (F1 & F2 & F3 & F4 & F5 & F6).
  repeat (split; [first [assumption|reflexivity]|]). exists m1, m2, v1, v2. repeat (split; [first [assumption|reflexivity]|]). exact F6.
Qed.
End Inversion.
