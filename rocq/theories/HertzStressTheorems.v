(** C100: the stresses returned by the full Hertz solution. *)
From Coq Require Import Reals List Bool Lra Lia Psatz.
From Verif Require Import Py SurfaceModel Flt SurfaceProofs SolverProofs HertzModel HertzSpec HertzProofs.
From Verif Require Import HertzFullModel HertzFullSpec HertzFullProofs HertzFullTheorems.
Import ListNotations.
Local Open Scope R_scope.

Section Full.
Variables int_i int_j int_h : R -> R.
Variable find_k : option R -> result R.
Notation hertz_full := (hertz_full int_i int_j int_h find_k).

Lemma sphere_facts (s : system) : physical s ->
  let c := full_sphere (s_r s) (e_star s) (s_e1 s, s_e2 s) (s_v1 s, s_v2 s) (s_load s) in
  0 < sp_radius c /\ 0 < sp_p0 c /\
  sp_surface c = (surface_stress (sp_radius c) (sp_p0 c) (s_v1 s), surface_stress (sp_radius c) (sp_p0 c) (s_v2 s)) /\
  sp_axis c = (axis_stress (sp_radius c) (sp_p0 c) (s_v1 s), axis_stress (sp_radius c) (sp_p0 c) (s_v2 s)) /\
  sp_tensile c = ((1 - 2 * s_v1 s) * sp_p0 c / 3, (1 - 2 * s_v2 s) * sp_p0 c / 3) /\
  sp_pressure c = sphere_pressure (sp_radius c) (sp_p0 c).
Proof.
  intros P c. pose proof PI_RGT_0 as Q. pose proof P as (_ & _ & _ & _ & _ & L).
  assert (A : 0 < sp_radius c) by apply exp_pos. split; [exact A|]. split; [|repeat split].
  unfold c in *. cbn [full_sphere sp_p0 sp_radius] in *. apply Rdiv_lt_0_compat; [lra|].
  apply Rmult_lt_0_compat; [lra|]. now apply pow_lt.
Qed.

Lemma surface_z a p v x y : 0 < a ->
  normal (surface_stress a p v (sqrt (x ^ 2 + y ^ 2))) = Fin (- sphere_pressure a p x y).
Proof.
  intro A. unfold surface_stress, sphere_pressure, normal. set (r := sqrt (x ^ 2 + y ^ 2)).
  assert (R0 : 0 <= r) by apply sqrt_pos. assert (A2 : 0 < a ^ 2) by now apply pow_lt.
  assert (E : 1 - (r / a) ^ 2 = 1 - r ^ 2 / a ^ 2) by (field; lra).
  destruct (Rleb r a) eqn:B; cbn [snd].
  - apply Rleb_true in B. rewrite Rmax_right.
    + rewrite E. f_equal. ring.
    + rewrite E. assert (r ^ 2 <= a ^ 2) by (apply pow_incr; lra).
      replace (1 - r ^ 2 / a ^ 2) with ((a ^ 2 - r ^ 2) / a ^ 2) by (field; lra). apply Rmult_le_pos; [lra|left; now apply Rinv_0_lt_compat].
  - assert (a < r). { destruct (Rle_lt_dec r a) as [W|W]; [apply Rleb_true in W; congruence|exact W]. }
    rewrite Rmax_left; [rewrite sqrt_0; f_equal; ring|].
    rewrite E. assert (a ^ 2 <= r ^ 2) by (apply pow_incr; lra).
    replace (1 - r ^ 2 / a ^ 2) with (- ((r ^ 2 - a ^ 2) / a ^ 2)) by (field; lra).
    assert (0 <= (r ^ 2 - a ^ 2) / a ^ 2); [|lra]. apply Rmult_le_pos; [lra|left; now apply Rinv_0_lt_compat].
Qed.

Lemma surface_inside a p v r : 0 < a -> 0 < r <= a ->
  let u := sqrt (1 - r ^ 2 / a ^ 2) in
  let t := (1 - 2 * v) / 3 * (1 + u + u ^ 2) / (1 + u) in
  0 <= u < 1 /\ (r < a -> 0 < u) /\ surface_stress a p v r = (Fin (p * (t - u)), Fin (- p * (t - 2 * v * u)), Fin (- u * p)).
Proof.
  intros A B u t. assert (A2 : 0 < a ^ 2) by now apply pow_lt. assert (R2 : 0 < r ^ 2) by now apply pow_lt.
  assert (RA : r ^ 2 <= a ^ 2) by (apply pow_incr; lra).
  assert (S0 : 0 <= 1 - r ^ 2 / a ^ 2).
  { replace (1 - r ^ 2 / a ^ 2) with ((a ^ 2 - r ^ 2) / a ^ 2) by (field; lra). apply Rmult_le_pos; [lra|left; now apply Rinv_0_lt_compat]. }
  assert (Q : 0 < r ^ 2 / a ^ 2) by now apply Rdiv_lt_0_compat.
  assert (U2 : u ^ 2 = 1 - r ^ 2 / a ^ 2) by (apply pow2_sqrt; exact S0).
  assert (U0 : 0 <= u) by apply sqrt_pos.
  assert (U1 : u < 1) by (apply Rsqr_incrst_0; [unfold Rsqr; lra|lra|lra]).
  split; [lra|]. split.
  - intro W. apply sqrt_lt_R0. replace (1 - r ^ 2 / a ^ 2) with ((a ^ 2 - r ^ 2) / a ^ 2) by (field; lra).
    apply Rdiv_lt_0_compat; [|lra]. replace (a ^ 2 - r ^ 2) with ((a - r) * (a + r)) by ring. apply Rmult_lt_0_compat; lra.
  - unfold surface_stress. rewrite (proj2 (Rleb_true r a)) by lra. unfold fdiv. rewrite (proj2 (Reqb_false (r ^ 2) 0)) by lra.
    fold u. rewrite <- U2. cbn [fmul fsub fadd fneg].
    assert (AR : a ^ 2 / r ^ 2 = / ((1 - u) * (1 + u))).
    { replace ((1 - u) * (1 + u)) with (1 - u ^ 2) by ring. rewrite U2. field. lra. }
    rewrite AR.
    replace ((1 - 2 * v) / 3 * / ((1 - u) * (1 + u)) * (1 - u ^ 2 * u)) with t by (unfold t; field; lra).
    reflexivity.
Qed.

(** The normal stress on the surface is the pressure, on the axis it is the greatest pressure at the surface and
    becomes smaller with the depth. *)
Theorem c100_normal (s : system) (r1 r2 : radius) : physical s -> valid r1 -> valid r2 -> curv r1 + curv r2 = / s_r s ->
  exists f c, hertz_full [r1] [r2] [s_e1 s; s_e2 s] [s_v1 s; s_v2 s] (s_load s) 0 false = Ok f /\ f_contact f = Sphere c /\
    (forall x y, let d := sqrt (x ^ 2 + y ^ 2) in
       normal (fst (sp_surface c) d) = Fin (- sp_pressure c x y) /\ normal (snd (sp_surface c) d) = Fin (- sp_pressure c x y)) /\
    (forall z, snd (fst (sp_axis c) z) = snd (snd (sp_axis c) z)) /\
    snd (fst (sp_axis c) 0) = - sp_p0 c /\
    (forall z, - sp_p0 c <= snd (fst (sp_axis c) z) < 0) /\
    (forall z w, 0 <= z < w -> snd (fst (sp_axis c) z) < snd (fst (sp_axis c) w)).
Proof.
  intros P V1 V2 C. eexists. eexists. split; [now apply sphere_result|]. split; [reflexivity|].
  destruct (sphere_facts s P) as (A & PP & -> & -> & _ & ->). set (c := full_sphere _ _ _ _ _) in *.
  set (a := sp_radius c) in *. set (p := sp_p0 c) in *. cbn [fst snd]. assert (A2 : 0 < a ^ 2) by now apply pow_lt.
  assert (D : forall z, 0 <= z ^ 2 / a ^ 2). { intro z. apply Rmult_le_pos; [apply pow2_ge_0|left; now apply Rinv_0_lt_compat]. }
  split; [intros x y; split; now apply surface_z|]. split; [reflexivity|]. unfold axis_stress. cbn [snd]. split; [|split].
  - field. lra.
  - intro z. specialize (D z). set (q := 1 + z ^ 2 / a ^ 2) in *.
    assert (I : 0 < / q <= 1).
    { split; [apply Rinv_0_lt_compat; unfold q; lra|]. rewrite <- Rinv_1. apply Rinv_le_contravar; unfold q; lra. }
    assert (E : - p / q = - (p * / q)) by (unfold Rdiv; ring). rewrite E. split; [nra|].
    assert (0 < p * / q) by (apply Rmult_lt_0_compat; lra). lra.
  - intros z w ZW. pose proof (D z) as D1. pose proof (D w) as D2.
    assert (L : z ^ 2 / a ^ 2 < w ^ 2 / a ^ 2).
    { apply Rmult_lt_compat_r; [now apply Rinv_0_lt_compat|]. replace (z ^ 2) with (z * z) by ring. replace (w ^ 2) with (w * w) by ring. nra. }
    assert (I : / (1 + w ^ 2 / a ^ 2) < / (1 + z ^ 2 / a ^ 2)) by (apply Rinv_lt_contravar; [apply Rmult_lt_0_compat; lra|lra]).
    unfold Rdiv at 1 3. rewrite !Ropp_mult_distr_l_reverse. apply Ropp_lt_contravar. apply Rmult_lt_compat_l; assumption.
Qed.
(** The greatest tensile stress is the radial stress on the edge of the contact, no other point of the surface but
    the centre (see below) has a greater one. *)
Theorem c100_tensile (s : system) (r1 r2 : radius) : physical s -> valid r1 -> valid r2 -> curv r1 + curv r2 = / s_r s ->
  s_v1 s <= 1 / 2 -> s_v2 s <= 1 / 2 ->
  exists f c, hertz_full [r1] [r2] [s_e1 s; s_e2 s] [s_v1 s; s_v2 s] (s_load s) 0 false = Ok f /\ f_contact f = Sphere c /\
    radial (fst (sp_surface c) (sp_radius c)) = Fin (fst (sp_tensile c)) /\
    radial (snd (sp_surface c) (sp_radius c)) = Fin (snd (sp_tensile c)) /\
    forall d, 0 < d -> exists t1 t2, radial (fst (sp_surface c) d) = Fin t1 /\ t1 <= fst (sp_tensile c) /\
      radial (snd (sp_surface c) d) = Fin t2 /\ t2 <= snd (sp_tensile c).
Proof.
  intros P V1 V2 C N1 N2. eexists. eexists. split; [now apply sphere_result|]. split; [reflexivity|].
  destruct (sphere_facts s P) as (A & PP & -> & _ & -> & _). set (c := full_sphere _ _ _ _ _) in *.
  set (a := sp_radius c) in *. set (p := sp_p0 c) in *. cbn [fst snd]. assert (A2 : 0 < a ^ 2) by now apply pow_lt.
  pose proof P as (_ & _ & _ & B1 & B2 & _).
  assert (EDGE : forall v, radial (surface_stress a p v a) = Fin ((1 - 2 * v) * p / 3)).
  { intro v. destruct (surface_inside a p v a A ltac:(lra)) as (_ & _ & ->). unfold radial. cbn [fst]. f_equal.
    replace (1 - a ^ 2 / a ^ 2) with 0 by (field; lra). rewrite sqrt_0. field. }
  assert (ANY : forall v d, 0 <= v <= 1 / 2 -> 0 < d -> exists t, radial (surface_stress a p v d) = Fin t /\ t <= (1 - 2 * v) * p / 3).
  { intros v d V D. destruct (Rle_lt_dec d a) as [W|W].
    - destruct (surface_inside a p v d A ltac:(lra)) as (U & _ & ->). unfold radial. cbn [fst]. eexists. split; [reflexivity|].
      set (u := sqrt _) in *. replace ((1 - 2 * v) * p / 3) with (p * ((1 - 2 * v) / 3)) by field. apply Rmult_le_compat_l; [lra|].
      replace ((1 - 2 * v) / 3 * (1 + u + u ^ 2) / (1 + u)) with ((1 - 2 * v) / 3 + (1 - 2 * v) / 3 * (u * (u / (1 + u)))) by (field; lra).
      assert (0 <= u / (1 + u) <= 1).
      { split; [apply Rmult_le_pos; [lra|left; apply Rinv_0_lt_compat; lra]|].
        apply (Rmult_le_reg_r (1 + u)); [lra|]. replace (u / (1 + u) * (1 + u)) with u by (field; lra). lra. }
      assert (0 <= u * (u / (1 + u)) <= u) by (split; [apply Rmult_le_pos; lra|pose proof (Rmult_le_compat_l u (u / (1 + u)) 1 ltac:(lra) ltac:(lra)); lra]).
      nra.
    - unfold surface_stress. assert (B : Rleb d a = false) by (destruct (Rleb d a) eqn:B; [apply Rleb_true in B; lra|reflexivity]). rewrite B.
      assert (D2 : 0 < d ^ 2) by now apply pow_lt. assert (AD : a ^ 2 <= d ^ 2) by (apply pow_incr; lra).
      unfold fdiv, radial. cbn [fst]. rewrite (proj2 (Reqb_false (d ^ 2) 0)) by lra. eexists. split; [reflexivity|].
      apply (Rmult_le_reg_r (d ^ 2)); [exact D2|].
      replace (p * (1 - 2 * v) * a ^ 2 / 3 / d ^ 2 * d ^ 2) with ((1 - 2 * v) * p / 3 * a ^ 2) by (field; lra).
      apply Rmult_le_compat_l; [|exact AD]. apply Rmult_le_pos; [|lra]. apply Rmult_le_pos; lra. }
  split; [apply EDGE|]. split; [apply EDGE|]. intros d D.
  destruct (ANY (s_v1 s) d ltac:(lra) D) as (t1 & E1 & L1). destruct (ANY (s_v2 s) d ltac:(lra) D) as (t2 & E2 & L2).
  exists t1, t2. repeat split; assumption.
Qed.
(** Refuted: on the surface of an elastic body under a Hertz pressure the sum of the stresses in the surface is
    [1 + 2 v] times the normal stress (Johnson, equation 3.42). On the axis this is so, but near it, inside of the
    contact, the sum is [1 - 2 v] times the normal stress, as the part of the hoop stress with [2 v] has the wrong
    sign. *)
Theorem c100_hoop_refuted (s : system) (r1 r2 : radius) : physical s -> valid r1 -> valid r2 -> curv r1 + curv r2 = / s_r s ->
  s_v1 s <> 0 ->
  exists f c, hertz_full [r1] [r2] [s_e1 s; s_e2 s] [s_v1 s; s_v2 s] (s_load s) 0 false = Ok f /\ f_contact f = Sphere c /\
    2 * fst (fst (sp_axis c) 0) = (1 + 2 * s_v1 s) * snd (fst (sp_axis c) 0) /\
    forall d, 0 < d < sp_radius c ->
      exists sr st sz, fst (sp_surface c) d = (Fin sr, Fin st, Fin sz) /\ sr + st = (1 - 2 * s_v1 s) * sz /\
        sr + st <> (1 + 2 * s_v1 s) * sz.
Proof.
  intros P V1 V2 C N. eexists. eexists. split; [now apply sphere_result|]. split; [reflexivity|].
  destruct (sphere_facts s P) as (A & PP & -> & -> & _). set (c := full_sphere _ _ _ _ _) in *.
  set (a := sp_radius c) in *. set (p := sp_p0 c) in *. cbn [fst snd]. assert (A2 : 0 < a ^ 2) by now apply pow_lt. split.
  - unfold axis_stress. cbn [fst snd]. rewrite (proj2 (Reqb_true 0 0)) by reflexivity.
    replace (0 / a) with 0 by (field; lra). replace (0 ^ 2 / a ^ 2) with 0 by (field; lra). lra.
  - intros d D. destruct (surface_inside a p (s_v1 s) d A ltac:(lra)) as (U & UP & ->). specialize (UP (proj2 D)).
    set (u := sqrt _) in *. eexists. eexists. eexists. split; [reflexivity|]. split; [ring|].
    intro Q. assert (Z : 4 * s_v1 s * (u * p) = 0) by lra. apply Rmult_integral in Z. destruct Z as [Z|Z]; [lra|].
    apply Rmult_integral in Z. lra.
Qed.
(** Refuted: at the centre of the contact the stresses in the surface are not a number. *)
Theorem c100_centre_refuted (s : system) (r1 r2 : radius) : physical s -> valid r1 -> valid r2 -> curv r1 + curv r2 = / s_r s ->
  exists f c, hertz_full [r1] [r2] [s_e1 s; s_e2 s] [s_v1 s; s_v2 s] (s_load s) 0 false = Ok f /\ f_contact f = Sphere c /\
    radial (fst (sp_surface c) 0) = NaN /\ hoop (fst (sp_surface c) 0) = NaN.
Proof.
  intros P V1 V2 C. eexists. eexists. split; [now apply sphere_result|]. split; [reflexivity|].
  destruct (sphere_facts s P) as (A & PP & -> & _). set (c := full_sphere _ _ _ _ _) in *.
  set (a := sp_radius c) in *. set (p := sp_p0 c) in *. cbn [fst snd]. assert (A2 : 0 < a ^ 2) by now apply pow_lt.
  unfold surface_stress. rewrite (proj2 (Rleb_true 0 a)) by lra.
  replace (0 ^ 2) with 0 by ring. replace (1 - 0 / a ^ 2) with 1 by (field; lra). rewrite sqrt_1.
  replace (1 - 1 * 1) with 0 by ring. unfold fdiv. rewrite (proj2 (Reqb_true 0 0)) by reflexivity.
  assert (SI : forall x, fmul (signed_inf x) (Fin 0) = NaN).
  { assert (S0 : signed_inf 0 = NaN).
    { unfold signed_inf. rewrite !(proj2 (Rltb_false 0 0)) by lra. reflexivity. }
    intro x. unfold signed_inf at 1. destruct (Rltb 0 x); [exact S0|]. destruct (Rltb x 0); [|reflexivity].
    cbn [fmul]. rewrite Ropp_0. exact S0. }
  assert (S1 : signed_inf (a ^ 2) = PInf) by (unfold signed_inf; rewrite (proj2 (Rltb_true 0 (a ^ 2))) by lra; reflexivity).
  assert (Z : fmul (fmul (Fin ((1 - 2 * s_v1 s) / 3)) (signed_inf (a ^ 2))) (Fin 0) = NaN).
  { rewrite S1. exact (SI ((1 - 2 * s_v1 s) / 3)). }
  rewrite Z. split; reflexivity.
Qed.
(** Refuted: for lines the normal stress on the surface is never the pressure: it is zero inside of the contact and
    not a number outside. Below the centre it grows without limit with the depth. *)
Theorem c100_line_refuted (s : system) (r1 r2 : radius) : physical s -> valid r1 -> valid r2 -> curv r1 + curv r2 = / s_r s ->
  exists f c, hertz_full [r1; Flat] [r2; Flat] [s_e1 s; s_e2 s] [s_v1 s; s_v2 s] (s_load s) 0 true = Ok f /\ f_contact f = Line c /\
    (forall x, 0 < Rabs x < li_width c -> hoop (li_stress c x 0) = Fin 0) /\
    (forall x, x = 0 \/ li_width c <= Rabs x -> hoop (li_stress c x 0) = NaN) /\
    (forall x, hoop (li_stress c x 0) <> Fin (- li_pressure c x)) /\
    (forall bound, exists z q, 0 < z /\ hoop (li_stress c 0 z) = Fin q /\ q < bound).
Proof.
  intros P V1 V2 C. destruct (c98_line int_i int_j int_h find_k s r1 r2 P V1 V2 C) as (f & c & H & E & _ & _ & PR).
  exists f, c. split; [exact H|]. split; [exact E|].
  rewrite line_result in H by assumption. injection H as <-. cbn [f_contact] in E. injection E as <-.
  destruct (line_full_values s P) as [W M]. pose proof (line_a_pos s P) as A. pose proof (line_p_pos s P) as PP.
  set (c := full_line _ _ _ _ _) in *. assert (ST : li_stress c = line_stress (li_width c) (li_p0 c)) by reflexivity.
  rewrite ST. set (a := li_width c) in *. set (p := li_p0 c) in *. rewrite <- W in A. fold a in A. rewrite <- M in PP. fold p in PP. clear M W.
  assert (SZ : np_sign 0 = 0).
  { unfold np_sign. rewrite (proj2 (Rltb_false 0 0)) by lra. reflexivity. }
  assert (IN : forall x, 0 < Rabs x < a -> hoop (line_stress a p x 0) = Fin 0).
  { intros x X. unfold line_stress, hoop. cbn [fst snd]. rewrite SZ.
    assert (XZ : x <> 0) by (intros ->; rewrite Rabs_R0 in X; lra). assert (X' := proj2 X). apply Rabs_def2 in X'.
    assert (G : 0 < a ^ 2 - x ^ 2) by (replace (a ^ 2 - x ^ 2) with ((a - x) * (a + x)) by ring; apply Rmult_lt_0_compat; lra).
    replace ((a ^ 2 - x ^ 2 + 0 ^ 2) ^ 2 + 4 * x ^ 2 * 0 ^ 2) with ((a ^ 2 - x ^ 2) ^ 2) by ring.
    rewrite sqrt_pow2 by lra. set (k := 0.5 * (a ^ 2 - x ^ 2 + (a ^ 2 - x ^ 2 + 0 ^ 2))).
    assert (K : 0 < k) by (unfold k; lra).
    assert (NS : np_sign x <> 0). { unfold np_sign. destruct (Rltb 0 x) eqn:B; [lra|]. destruct (Rltb x 0) eqn:B2; [lra|].
      apply Rltb_false in B, B2. lra. }
    assert (N2 : (np_sign x * k) ^ 2 <> 0) by (apply pow_nonzero; apply Rmult_integral_contrapositive_currified; lra).
    replace (0 ^ 2 + (np_sign x * k) ^ 2) with ((np_sign x * k) ^ 2) by ring.
    replace ((0 * k) ^ 2 + (np_sign x * k) ^ 2) with ((np_sign x * k) ^ 2) by ring.
    unfold fdiv. rewrite (proj2 (Reqb_false _ 0)) by exact N2. cbn [fadd fmul]. f_equal. ring. }
  assert (OUT : forall x, x = 0 \/ a <= Rabs x -> hoop (line_stress a p x 0) = NaN).
  { intros x X. unfold line_stress, hoop. cbn [fst snd]. rewrite SZ.
    set (k := 0.5 * _). assert (Z : np_sign x * k = 0).
    { destruct X as [-> | X]; [rewrite SZ; ring|]. assert (G : a ^ 2 - x ^ 2 <= 0).
      { assert (a ^ 2 <= Rabs x ^ 2) by (apply pow_incr; lra). rewrite pow2_abs in H. lra. }
      unfold k. replace ((a ^ 2 - x ^ 2 + 0 ^ 2) ^ 2 + 4 * x ^ 2 * 0 ^ 2) with ((x ^ 2 - a ^ 2) ^ 2) by ring.
      rewrite sqrt_pow2 by lra. ring. }
    rewrite Z. replace (0 ^ 2 + 0 ^ 2) with 0 by ring. replace ((0 * k) ^ 2 + 0 ^ 2) with 0 by ring.
    unfold fdiv. rewrite !(proj2 (Reqb_true 0 0)) by reflexivity. unfold signed_inf. rewrite !(proj2 (Rltb_false 0 0)) by lra. reflexivity. }
  split; [exact IN|]. split; [exact OUT|]. split.
  - intro x. destruct (Req_dec x 0) as [Z|Z]; [rewrite (OUT x (or_introl Z)); discriminate|].
    destruct (Rle_lt_dec a (Rabs x)) as [X|X]; [rewrite (OUT x (or_intror X)); discriminate|].
    rewrite IN by (split; [now apply Rabs_pos_lt|exact X]). intro Q.
    assert (Q' : 0 = - li_pressure c x) by congruence. destruct (PR x) as (_ & B & I).
    assert (Y : li_pressure c x = 0) by lra. apply (proj1 I) in Y. fold a in Y. lra.
  - intro bound. set (z := Rmax 1 (a * (1 - bound) / p)). assert (Z1 : 1 <= z) by apply Rmax_l.
    assert (Z2 : a * (1 - bound) / p <= z) by apply Rmax_r.
    assert (A2 : 0 < a ^ 2) by now apply pow_lt. assert (ZZ : z <= z ^ 2) by nra.
    assert (NS : np_sign z = 1) by (unfold np_sign; rewrite (proj2 (Rltb_true 0 z)) by lra; reflexivity).
    exists z. set (m := a ^ 2 + z ^ 2). assert (MP : 0 < m) by (unfold m; lra).
    exists (- (p / a) * (m + z ^ 2 / m)). split; [lra|]. split.
    + unfold line_stress, hoop. cbn [fst snd]. rewrite SZ, NS.
      replace ((a ^ 2 - 0 ^ 2 + z ^ 2) ^ 2 + 4 * 0 ^ 2 * z ^ 2) with (m ^ 2) by (unfold m; ring).
      rewrite sqrt_pow2 by lra. replace (1 * (0.5 * (m + (a ^ 2 - 0 ^ 2 + z ^ 2)))) with m by (unfold m; lra).
      replace (z ^ 2 + (0 * (0.5 * (m + (a ^ 2 - 0 ^ 2 + z ^ 2)))) ^ 2) with (z ^ 2) by ring.
      replace (m ^ 2 + (0 * (0.5 * (m + (a ^ 2 - 0 ^ 2 + z ^ 2)))) ^ 2) with (m ^ 2) by ring.
      assert (M2 : m ^ 2 <> 0) by (apply pow_nonzero; lra).
      unfold fdiv. rewrite (proj2 (Reqb_false _ 0)) by exact M2. cbn [fadd fmul]. f_equal. field. lra.
    + assert (0 < z ^ 2 / m) by (apply Rdiv_lt_0_compat; lra).
      assert (QA : 0 < p / a) by now apply Rdiv_lt_0_compat.
      assert (1 - bound <= p / a * z).
      { apply (Rmult_le_reg_r (a / p)); [now apply Rdiv_lt_0_compat|].
        replace ((1 - bound) * (a / p)) with (a * (1 - bound) / p) by (field; lra).
        replace (p / a * z * (a / p)) with z by (field; lra). exact Z2. }
      assert (p / a * z <= p / a * (m + z ^ 2 / m)) by (apply Rmult_le_compat_l; [lra|unfold m in *; lra]). lra.
Qed.
End Full.

(** The cases are met by a sphere of radius 1 on a flat. *)
Example c100_case : physical {| s_r := 1; s_e1 := 2; s_e2 := 3; s_v1 := 0.3; s_v2 := 0.25; s_load := 1 |} /\
  valid (Rad 1) /\ valid Flat /\ curv (Rad 1) + curv Flat = / 1 /\ 0.3 <= 1 / 2 /\ 0.25 <= 1 / 2 /\ 0.3 <> 0.
Proof. unfold physical, valid, curv. cbn. repeat split; lra. Qed.

Print Assumptions c100_normal.
Print Assumptions c100_tensile.
Print Assumptions c100_hoop_refuted.
Print Assumptions c100_centre_refuted.
Print Assumptions c100_line_refuted.
