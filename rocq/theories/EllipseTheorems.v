(** C120: elliptical contacts are Hertz's, but the displacements reported for them are not. *)
From Coq Require Import Reals List Bool Lra Lia Psatz.
From Coquelicot Require Import Coquelicot.
From Verif Require Import Py SurfaceModel Flt SurfaceProofs SolverProofs HertzModel HertzSpec HertzProofs.
From Verif Require Import HertzFullModel HertzFullSpec HertzFullProofs HertzFullTheorems EllipseModel EllipseSpec EllipseProofs.
Import ListNotations.
Local Open Scope R_scope.

(** [optimize.brentq] finds a root of [_k_root] (exactly, without its tolerance), where there is one. *)
Definition root_finder (find_k : option R -> result R) : Prop :=
  forall w k, find_k (Some w) = Ok k -> 0 < k < 1 /\ 0 < w < PI /\ k_root k w = 0.
Definition compliance (v modulus : R) : R := (1 - v ^ 2) / modulus.

Section Contact.
Variable find_k : option R -> result R.
Hypothesis find : root_finder find_k.
Notation hertz_full := (hertz_full i_int j_int h_int find_k).

Lemma ellipse_known x1 y1 x2 y2 m1 m2 v1 v2 load angle line f c :
  0 < m1 -> 0 < m2 -> v1 ^ 2 < 1 -> v2 ^ 2 < 1 -> 0 < curv x1 + curv y1 + curv x2 + curv y2 ->
  hertz_full [x1; y1] [x2; y2] [m1; m2] [v1; v2] load angle line = Ok f -> f_contact f = Ellipse c ->
  exists w k, aux_angle (x1, y1) (x2, y2) (norm_angle angle) = Some w /\ 0 < k < 1 /\ 0 < w < PI /\ 0 < load /\
    0 < el_a c /\ el_b c = k * el_a c /\ el_p0 c = 3 * load / (2 * PI * el_a c * el_b c) /\
    el_a c ^ 3 * (curv x1 + curv y1 + curv x2 + curv y2) * sin (w / 2) ^ 2
      = 3 * load * int_long (1 - k ^ 2) * (compliance v1 m1 + compliance v2 m2) / PI /\
    int_short (1 - k ^ 2) * sin (w / 2) ^ 2 = int_long (1 - k ^ 2) * cos (w / 2) ^ 2 /\
    fst (el_deflection c) = 3 * load / (2 * PI * el_a c) * elliptic_k (1 - k ^ 2) * compliance v1 m1 /\
    snd (el_deflection c) = 3 * load / (2 * PI * el_a c) * elliptic_k (1 - k ^ 2) * compliance v2 m2.
Proof.
  intros M1 M2 V1 V2 R0 H E.
  destruct (c98_deflection i_int j_int h_int find_k x1 y1 x2 y2 m1 m2 v1 v2 load angle line f c ltac:(lra) ltac:(lra) H E) as (k & FK & DF).
  cbv zeta in DF.
  destruct (c62_ellipse i_int j_int h_int find_k x1 y1 x2 y2 _ _ load angle line f c H E) as (_ & A & B & AR & LD & _).
  pose proof (full_inv i_int j_int h_int find_k _ _ _ _ _ _ _ _ _ _ H) as F. cbv zeta in F.
  destruct F as (L & _ & _ & _ & _ & _ & _ & _ & _ & _ & _ & _ & n1 & n2 & u1 & u2 & SM & SV & _ & D).
  inversion SM; subst n1 n2. inversion SV; subst u1 u2.
  destruct D as [(l & D & _)|[(_ & x & _ & _ & D)|(_ & x & y & _ & _ & _ & D)]]; [congruence|congruence|].
  rewrite E in D. unfold full_ellipse in D. destruct (aux_angle _ _ _) as [w|] eqn:AU.
  2: { destruct (find_k None); discriminate. }
  rewrite FK in D. cbn [bind fst snd] in D. destruct (find w k FK) as (KB & WB & RT).
  exists w, k. split; [reflexivity|]. split; [exact KB|]. split; [exact WB|]. split; [exact L|]. split; [exact A|].
  pose proof PI_RGT_0 as Q. assert (K2 : 0 < k ^ 2) by (apply pow_lt; lra). assert (K3 : 0 < k ^ 3) by (apply pow_lt; lra).
  assert (M : 1 - k ^ 2 < 1) by lra.
  pose proof (int_long_pos (1 - k ^ 2) M) as IL. pose proof (int_short_pos (1 - k ^ 2) M) as IS.
  assert (SP : 0 < sin (w / 2)) by (apply sin_gt_0; lra). assert (CO : 0 < cos (w / 2)) by (apply cos_gt_0; lra).
  assert (S2 : 0 < sin (w / 2) ^ 2) by now apply pow_lt. assert (C2 : 0 < cos (w / 2) ^ 2) by now apply pow_lt.
  assert (ROOT : int_short (1 - k ^ 2) * sin (w / 2) ^ 2 = int_long (1 - k ^ 2) * cos (w / 2) ^ 2).
  { unfold k_root in RT. rewrite i_int_eq, j_int_eq in RT by lra. unfold tan in RT.
    assert (X : k ^ 3 / (sin (w / 2) / cos (w / 2)) ^ 2 = k ^ 3 * cos (w / 2) ^ 2 / sin (w / 2) ^ 2) by (field; lra). rewrite X in RT.
    apply (Rmult_eq_reg_l (k ^ 3)); [|lra].
    assert (Y : k ^ 3 * cos (w / 2) ^ 2 / sin (w / 2) ^ 2 = k ^ 3 * int_short (1 - k ^ 2) / int_long (1 - k ^ 2)) by lra.
    apply (f_equal (fun z => z * (sin (w / 2) ^ 2 * int_long (1 - k ^ 2)))) in Y.
    replace (k ^ 3 * cos (w / 2) ^ 2 / sin (w / 2) ^ 2 * (sin (w / 2) ^ 2 * int_long (1 - k ^ 2)))
      with (k ^ 3 * (int_long (1 - k ^ 2) * cos (w / 2) ^ 2)) in Y by (field; lra).
    replace (k ^ 3 * int_short (1 - k ^ 2) / int_long (1 - k ^ 2) * (sin (w / 2) ^ 2 * int_long (1 - k ^ 2)))
      with (k ^ 3 * (int_short (1 - k ^ 2) * sin (w / 2) ^ 2)) in Y by (field; lra). lra. }
  assert (RAT : el_b c = k * el_a c).
  { destruct (c98_ratio i_int j_int h_int find_k x1 y1 x2 y2 [m1; m2] [v1; v2] load angle line f c) as (k' & FK' & EB & _); [|exact H|exact E|].
    - intros w' k' Fw. destruct (find w' k' Fw) as (A1 & A2 & A3). split; [lra|]. split; [exact A2|].
      assert (0 < k' ^ 2) by (apply pow_lt; lra). assert (0 < k' ^ 3) by (apply pow_lt; lra).
      rewrite i_int_eq, j_int_eq by lra. pose proof (int_long_pos (1 - k' ^ 2) ltac:(lra)). pose proof (int_short_pos (1 - k' ^ 2) ltac:(lra)).
      split; [assumption|]. split; [now apply Rmult_lt_0_compat|].
      unfold k_root in A3. rewrite i_int_eq, j_int_eq in A3 by lra. exact A3.
    - rewrite AU, FK in FK'. injection FK' as <-. exact EB. }
  split; [exact RAT|]. split.
  { assert (AP : 0 < el_area c) by (rewrite AR; apply Rmult_lt_0_compat; [apply Rmult_lt_0_compat|]; assumption).
    apply (Rmult_eq_reg_l (2 / 3 * el_area c)); [|lra].
    replace (2 / 3 * el_area c * el_p0 c) with load by lra. rewrite AR. field. repeat split; lra. }
  assert (C1P : 0 < compliance v1 m1) by (unfold compliance; apply Rdiv_lt_0_compat; lra).
  assert (C2P : 0 < compliance v2 m2) by (unfold compliance; apply Rdiv_lt_0_compat; lra).
  split; [|split; [exact ROOT|]].
  2: { rewrite h_int_eq in DF. destruct DF as [D1 D2]. split; [rewrite D1|rewrite D2]; unfold compliance; reflexivity. }
  set (r := curv x1 + curv y1 + curv x2 + curv y2) in *.
  assert (EA : el_a c = Rpower (2 * i_int k / PI / sin (w / 2) ^ 2) (1 / 3) *
    Rpower (3 * load / 8 / r * (4 * (1 - v1 ^ 2) / m1 + 4 * (1 - v2 ^ 2) / m2)) (1 / 3)).
  { rewrite !curvature_curv in D. fold r in D. destruct (fltb _ _); injection D as D; rewrite <- D; reflexivity. }
  rewrite EA, Rpow_mult_distr, !cube_root_cube.
  - rewrite i_int_eq by lra. unfold compliance. field. repeat split; lra.
  - apply Rmult_lt_0_compat; [apply Rdiv_lt_0_compat; [lra|exact R0]|].
    replace (4 * (1 - v1 ^ 2) / m1 + 4 * (1 - v2 ^ 2) / m2) with (4 * (compliance v1 m1 + compliance v2 m2)) by (unfold compliance; field; lra). lra.
  - rewrite i_int_eq by lra. apply Rdiv_lt_0_compat; [apply Rdiv_lt_0_compat; lra|assumption].
Qed.

(** ** The contact is Hertz's *)
(** The displacements (of theory) which the reported pressure causes in the two bodies close the gap between them in the
    whole contact, and bring them together by the reported deflections: for bodies one of which is equally curved in all
    directions, or crossed at 45 degrees (for others the auxiliary angle is wrong, C97). *)
Theorem c120_contact (x1 y1 x2 y2 : radius) (m1 m2 v1 v2 load angle k1 k2 : R) (line : bool) (f : full) (c : ellipse_res) :
  0 < m1 -> 0 < m2 -> v1 ^ 2 < 1 -> v2 ^ 2 < 1 ->
  let d1 := curv x1 - curv y1 in let d2 := curv x2 - curv y2 in
  d1 * d2 * cos (2 * angle) = 0 ->
  k1 + k2 = curv x1 + curv y1 + curv x2 + curv y2 -> k1 - k2 = curvature_difference d1 d2 angle -> 0 < k1 + k2 ->
  hertz_full [x1; y1] [x2; y2] [m1; m2] [v1; v2] load angle line = Ok f -> f_contact f = Ellipse c ->
  el_b c < el_a c /\
  hertz_uz (compliance v1 m1) (el_a c) (el_b c) (el_p0 c) 0 0 = fst (el_deflection c) /\
  hertz_uz (compliance v2 m2) (el_a c) (el_b c) (el_p0 c) 0 0 = snd (el_deflection c) /\
  forall x y, inside (el_a c) (el_b c) x y ->
    hertz_uz (compliance v1 m1) (el_a c) (el_b c) (el_p0 c) x y + hertz_uz (compliance v2 m2) (el_a c) (el_b c) (el_p0 c) x y
      = fst (el_deflection c) + snd (el_deflection c) - gap k1 k2 x y.
Proof.
  intros M1 M2 V1 V2 d1 d2 X45 SUM DIF R0 H E. rewrite SUM in R0.
  destruct (ellipse_known x1 y1 x2 y2 m1 m2 v1 v2 load angle line f c M1 M2 V1 V2 R0 H E)
    as (w & k & AU & KB & WB & L & A & EB & EP & A3 & RT & F1 & F2).
  assert (BA : el_b c < el_a c) by (rewrite EB; nra). split; [exact BA|].
  assert (CW : cos w = (k1 - k2) / (k1 + k2)).
  { rewrite SUM, DIF. assert (AX := c97_auxiliary_refuted x1 y1 x2 y2 (norm_angle angle) w R0 AU). cbv zeta in AX.
    unfold curvature_difference in *. rewrite !cos_norm_angle in AX. apply AX. exact X45. }
  assert (HC : cos w = 1 - 2 * sin (w / 2) ^ 2).
  { replace w with (2 * (w / 2)) at 1 by field. rewrite cos_2a. pose proof (sin2_cos2 (w / 2)) as T. unfold Rsqr in T. cbn [pow]. lra. }
  assert (HS : cos (w / 2) ^ 2 = 1 - sin (w / 2) ^ 2).
  { pose proof (sin2_cos2 (w / 2)) as T. unfold Rsqr in T. cbn [pow]. lra. }
  set (s := sin (w / 2) ^ 2) in *. set (r := curv x1 + curv y1 + curv x2 + curv y2) in *.
  assert (K2S : k2 = r * s).
  { assert (k1 - k2 = (1 - 2 * s) * r) by (rewrite <- HC, CW, SUM; field; lra). lra. }
  assert (K1S : k1 = r * (1 - s)) by lra.
  assert (K2P : 0 < k ^ 2) by (apply pow_lt; lra). assert (M : 1 - k ^ 2 < 1) by lra.
  assert (MP : 0 < 1 - k ^ 2) by nra.
  pose proof (short_identity (1 - k ^ 2) M) as SI. pose proof (long_identity (1 - k ^ 2) M) as LI.
  assert (ME : eccentricity2 (el_a c) (el_b c) = 1 - k ^ 2) by (unfold eccentricity2; rewrite EB; field; lra).
  set (kk := elliptic_k (1 - k ^ 2)) in *. set (ee := elliptic_e (1 - k ^ 2)) in *.
  set (il := int_long (1 - k ^ 2)) in *. set (is := int_short (1 - k ^ 2)) in *.
  set (c1 := compliance v1 m1) in *. set (c2 := compliance v2 m2) in *. pose proof PI_RGT_0 as Q.
  assert (UZ : forall cc x y, hertz_uz cc (el_a c) (el_b c) (el_p0 c) x y =
    3 * load / (2 * PI * el_a c) * cc * (kk - il / el_a c ^ 2 * x ^ 2 - is / el_a c ^ 2 * y ^ 2)).
  { intros cc x y. unfold hertz_uz. rewrite ME. fold kk ee. rewrite <- LI.
    replace (el_a c ^ 2 / el_b c ^ 2 * ee - kk) with ((1 - k ^ 2) * is).
    - rewrite EP, EB. field. repeat split; lra.
    - rewrite SI, EB. replace (1 - (1 - k ^ 2)) with (k ^ 2) by ring. field. repeat split; lra. }
  split; [rewrite UZ, F1; field; lra|]. split; [rewrite UZ, F2; field; lra|]. intros x y _.
  rewrite !UZ, F1, F2. unfold gap. rewrite K1S, K2S.
  set (a := el_a c) in *. set (q := 3 * load / (2 * PI * a)).
  assert (P1 : q * (c1 + c2) * (il / a ^ 2) = r * s / 2).
  { apply (Rmult_eq_reg_r (2 * a ^ 3)); [|apply Rgt_not_eq; assert (0 < a ^ 3) by (now apply pow_lt); lra].
    replace (r * s / 2 * (2 * a ^ 3)) with (a ^ 3 * r * s) by field. rewrite A3. unfold q. field. lra. }
  assert (S0 : 0 < s) by (apply pow_lt; apply sin_gt_0; lra).
  assert (P2 : q * (c1 + c2) * (is / a ^ 2) = r * (1 - s) / 2).
  { rewrite <- HS. apply (Rmult_eq_reg_r s); [|lra].
    replace (q * (c1 + c2) * (is / a ^ 2) * s) with (q * (c1 + c2) * (is * s / a ^ 2)) by (field; lra). rewrite RT.
    replace (q * (c1 + c2) * (il * cos (w / 2) ^ 2 / a ^ 2)) with (q * (c1 + c2) * (il / a ^ 2) * cos (w / 2) ^ 2) by (field; lra).
    rewrite P1. field. }
  transitivity (q * kk * c1 + q * kk * c2 - q * (c1 + c2) * (il / a ^ 2) * x ^ 2 - q * (c1 + c2) * (is / a ^ 2) * y ^ 2); [ring|].
  rewrite P1, P2. field.
Qed.

(** ** The displacements which are reported *)
Lemma boundary a b x y : 0 < a -> 0 < b -> (Rmax 0 (1 - (x / a) ^ 2 - (y / b) ^ 2) = 0 <-> ~ inside a b x y).
Proof.
  intros A B. unfold inside. split.
  - intros E I. rewrite Rmax_right in E by lra. lra.
  - intro I. apply Rmax_left. lra.
Qed.
(** The value of the closure inside of a contact which is not round. *)
Definition reported (comp a b p0 x y : R) : R :=
  let e := sqrt (eccentricity2 a b) in
  comp * p0 * b * (elliptic_k e - (elliptic_k e - elliptic_e e) / (eccentricity2 a b * a ^ 2) * x ^ 2
    - (a ^ 2 / b ^ 2 * elliptic_e e - elliptic_k e) / (eccentricity2 a b * a ^ 2) * y ^ 2).
Notation displacement := (ellipse_displacement elliptic_k elliptic_e).
Lemma ecc_bounds a b : 0 < b -> b < a -> 0 < eccentricity2 a b < 1.
Proof.
  intros B A. unfold eccentricity2. assert (A2 : 0 < a ^ 2) by (apply pow_lt; lra). assert (B2 : 0 < b ^ 2) by (apply pow_lt; lra).
  assert (b ^ 2 < a ^ 2) by nra. assert (0 < b ^ 2 / a ^ 2) by now apply Rdiv_lt_0_compat.
  assert (b ^ 2 / a ^ 2 < 1). { apply (Rmult_lt_reg_r (a ^ 2)); [assumption|]. unfold Rdiv. rewrite Rmult_assoc, Rinv_l by lra. lra. }
  lra.
Qed.
Lemma reported_inside a b p0 v modulus x y : 0 < b -> b < a -> modulus <> 0 -> inside a b x y ->
  displacement a b p0 v modulus None x y = Ok (Fin (reported (compliance v modulus) a b p0 x y)).
Proof.
  intros B A MO I. destruct (ecc_bounds a b B A) as [E0 E1]. pose proof PI_RGT_0 as Q. unfold ellipse_displacement.
  rewrite (proj2 (Rltb_false a b)) by lra.
  destruct (Reqb (Rmax 0 (1 - (x / a) ^ 2 - (y / b) ^ 2)) 0) eqn:Z.
  { apply Reqb_true in Z. apply boundary in Z; [tauto|lra|lra]. }
  change (1 - b ^ 2 / a ^ 2) with (eccentricity2 a b). rewrite pow2_sqrt by lra.
  unfold reported. set (e := sqrt (eccentricity2 a b)). set (m := eccentricity2 a b) in *.
  assert (A2 : 0 < a ^ 2) by (apply pow_lt; lra).
  unfold fdiv. rewrite (proj2 (Reqb_false m 0)) by lra. rewrite (proj2 (Reqb_false (a ^ 2) 0)) by lra.
  cbn [fmul fsub fadd fneg]. f_equal. f_equal. unfold compliance. field. repeat split; lra.
Qed.

(** The closure refuses ellipses whose first axis is the shorter one, at every point. Otherwise it is not a number
    outside of the ellipse, and a number inside unless the contact is round. *)
Theorem c120_displacement (a b p0 v modulus : R) (angle : option R) (x y : R) : 0 < a -> 0 < b -> modulus <> 0 ->
  let u := displacement a b p0 v modulus angle x y in
  let x' := match angle with None => x | Some g => turned_x g x y end in
  let y' := match angle with None => y | Some g => turned_y g x y end in
  (a < b -> u = Err ValueError) /\
  (b <= a -> ~ inside a b x' y' -> u = Ok NaN) /\
  (b < a -> inside a b x' y' -> exists z, u = Ok (Fin z)) /\
  u = displacement a b p0 v modulus None x' y'.
Proof.
  intros A B MO u x' y'.
  assert (T : u = displacement a b p0 v modulus None x' y') by (destruct angle; reflexivity).
  split; [|split; [|split; [|exact T]]]; rewrite T.
  - intro L. unfold ellipse_displacement. rewrite (proj2 (Rltb_true a b)) by exact L. reflexivity.
  - intros L I. unfold ellipse_displacement. rewrite (proj2 (Rltb_false a b)) by lra. cbv zeta.
    rewrite (proj2 (Reqb_true _ 0)); [reflexivity|]. now apply boundary.
  - intros L I. eexists. now apply reported_inside.
Qed.

(** The closures in the results: on the axes of a body the point is turned by the angle of that body, other numbers for
    the axes are refused. *)
Theorem c120_axes (c : ellipse_res) (v m : R * R) (body : bool) (x y : R) : el_b c <= el_a c ->
  let u := body_displacement elliptic_k elliptic_e c v m body in
  let at_angle g := displacement (el_a c) (el_b c) (el_p0 c) (if body then snd v else fst v) (if body then snd m else fst m) None
    (turned_x g x y) (turned_y g x y) in
  u 0%nat x y = displacement (el_a c) (el_b c) (el_p0 c) (if body then snd v else fst v) (if body then snd m else fst m) None x y /\
  u 1%nat x y = at_angle (fst (el_axes c)) /\ u 2%nat x y = at_angle (snd (el_axes c)) /\
  (forall n, (2 < n)%nat -> u n x y = Err IndexError).
Proof.
  intros L u at_angle. split; [reflexivity|]. split; [reflexivity|]. split; [reflexivity|].
  intros n N. unfold u, body_displacement. do 3 (destruct n as [|n]; [lia|]). rewrite (proj2 (Rltb_false (el_a c) (el_b c))) by lra. reflexivity.
Qed.

Lemma half_angle_sin a b t : 0 < a -> 0 <= b -> 0 < cos t -> sin t <> 0 -> sin (2 * half_angle a b t) <> 0.
Proof.
  intros A B C S. unfold half_angle. set (q := a * cos t + b). assert (Q : 0 < q) by (unfold q; nra).
  replace (2 * (_ / 2)) with (atan (a * sin t / q)).
  - intro Z. assert (N : a * sin t / q <> 0).
    { unfold Rdiv. apply Rmult_integral_contrapositive_currified; [apply Rmult_integral_contrapositive_currified; [lra|exact S]|].
      apply Rinv_neq_0_compat. lra. }
    apply N. pose proof (tan_atan (a * sin t / q)) as T. unfold tan in T. rewrite Z in T. rewrite <- T. unfold Rdiv. ring.
  - unfold arctan2. rewrite (proj2 (Rltb_true 0 q)) by exact Q. field.
Qed.
(** Refuted: a point has the same pressure whichever body's axes its coordinates are given on. If both bodies are curved
    differently in their two directions and their axes are turned, there is a point with two different pressures,
    in whichever direction the axes of the second body are turned from those of the first: the points are turned in the
    same direction for both bodies. *)
Theorem c120_axes_refuted (x1 y1 x2 y2 : radius) (m1 m2 v1 v2 load angle sign : R) (line : bool) (f : full) (c : ellipse_res) :
  0 < m1 -> 0 < m2 -> v1 ^ 2 < 1 -> v2 ^ 2 < 1 -> 0 < curv x1 + curv y1 + curv x2 + curv y2 ->
  curv y1 < curv x1 -> curv y2 < curv x2 -> 0 < Rabs angle < PI / 4 -> sign = 1 \/ sign = -1 ->
  hertz_full [x1; y1] [x2; y2] [m1; m2] [v1; v2] load angle line = Ok f -> f_contact f = Ellipse c ->
  exists x y, el_pressure c (Some (fst (el_axes c))) x y <>
    el_pressure c (Some (snd (el_axes c))) (turned_x (sign * angle) x y) (turned_y (sign * angle) x y).
Proof.
  intros M1 M2 V1 V2 R0 C1 C2 AN SG H E.
  destruct (ellipse_known x1 y1 x2 y2 m1 m2 v1 v2 load angle line f c M1 M2 V1 V2 R0 H E)
    as (w & k & AU & KB & WB & L & A & EB & EP & _).
  assert (BP : 0 < el_b c) by (rewrite EB; now apply Rmult_lt_0_compat). assert (BA : el_b c < el_a c) by (rewrite EB; nra).
  pose proof PI_RGT_0 as Q.
  assert (PP : 0 < el_p0 c).
  { rewrite EP. apply Rdiv_lt_0_compat; [lra|]. apply Rmult_lt_0_compat; [apply Rmult_lt_0_compat|]; lra. }
  pose proof (accepted_check x1 y1 x2 y2 angle ltac:(lra) ltac:(lra) ltac:(lra) (proj2 AN)) as CH.
  destruct AN as [A0 A4]. apply Rabs_lt_between in A4. rewrite norm_angle_id in CH by lra.
  assert (CP : 0 < cos (2 * angle)) by (apply cos_gt_0; lra).
  assert (SN : sin (2 * angle) <> 0).
  { intro Z. assert (NZ : angle <> 0) by (intro Y; rewrite Y, Rabs_R0 in A0; lra).
    destruct (Rtotal_order angle 0) as [X|[X|X]]; [|tauto|].
    - assert (sin (2 * angle) < 0) by (apply sin_lt_0_var; lra). lra.
    - assert (0 < sin (2 * angle)) by (apply sin_gt_0; lra). lra. }
  set (al := half_angle (curvature x2 - curvature y2) (curvature x1 - curvature y1) (2 * angle)) in *.
  set (be := half_angle (curvature x1 - curvature y1) (curvature x2 - curvature y2) (2 * angle)) in *.
  assert (SA : sin (2 * al) <> 0) by (apply half_angle_sin; rewrite ?curvature_curv; lra).
  assert (SB : sin (2 * be) <> 0) by (apply half_angle_sin; rewrite ?curvature_curv; lra).
  assert (AX : (exists z, el_axes c = (al + z, be + z)) /\ el_pressure c = ellipse_pressure (el_a c) (el_b c) (el_p0 c)).
  { pose proof (full_inv i_int j_int h_int find_k _ _ _ _ _ _ _ _ _ _ H) as F. cbv zeta in F.
    destruct F as (_ & _ & _ & _ & _ & _ & _ & _ & _ & _ & _ & _ & n1 & n2 & u1 & u2 & _ & _ & _ & D).
    destruct D as [(l & D & _)|[(_ & x & _ & _ & D)|(_ & x & y & _ & _ & _ & D)]]; [congruence|congruence|].
    rewrite E in D. unfold full_ellipse in D. rewrite AU in D. destruct (find_k (Some w)); [|discriminate]. cbn [bind] in D.
    rewrite norm_angle_id in D by lra. fold al be in D.
    destruct (fltb _ _); injection D as D; rewrite <- D; cbn [el_axes el_pressure el_a el_b el_p0]; (split; [|reflexivity]);
      [exists (PI / 2); reflexivity|exists 0; now rewrite !Rplus_0_r]. }
  destruct AX as [[z AX] PR]. rewrite AX, PR. cbn [fst snd].
  set (delta := be - al + sign * angle).
  assert (SD : sin delta <> 0).
  { unfold delta. rewrite <- CH. destruct SG as [-> | ->].
    - replace (be - al + 1 * (al + be)) with (2 * be) by ring. exact SB.
    - replace (be - al + -1 * (al + be)) with (- (2 * al)) by ring. rewrite sin_neg. lra. }
  set (a := el_a c) in *. set (b := el_b c) in *. set (p := el_p0 c) in *.
  exists (a / 2 * cos (al + z)), (- (a / 2 * sin (al + z))). unfold ellipse_pressure, rotate, turned_x, turned_y.
  assert (T := sin2_cos2 (al + z)). unfold Rsqr in T.
  replace (a / 2 * cos (al + z) * cos (al + z) - - (a / 2 * sin (al + z)) * sin (al + z)) with (a / 2)
    by (transitivity (a / 2 * (sin (al + z) * sin (al + z) + cos (al + z) * cos (al + z))); [rewrite T|]; ring).
  replace (a / 2 * cos (al + z) * sin (al + z) + - (a / 2 * sin (al + z)) * cos (al + z)) with 0 by ring.
  set (g := sign * angle) in *.
  set (x' := (a / 2 * cos (al + z) * cos g - - (a / 2 * sin (al + z)) * sin g) * cos (be + z) -
    (a / 2 * cos (al + z) * sin g + - (a / 2 * sin (al + z)) * cos g) * sin (be + z)).
  set (y' := (a / 2 * cos (al + z) * cos g - - (a / 2 * sin (al + z)) * sin g) * sin (be + z) +
    (a / 2 * cos (al + z) * sin g + - (a / 2 * sin (al + z)) * cos g) * cos (be + z)).
  assert (DE : delta = g - (al + z) + (be + z)) by (unfold delta; ring).
  assert (X' : x' = a / 2 * cos delta) by (rewrite DE, cos_plus, cos_minus, sin_minus; unfold x'; ring).
  assert (Y' : y' = a / 2 * sin delta) by (rewrite DE, sin_plus, cos_minus, sin_minus; unfold y'; ring).
  rewrite X', Y'. assert (TD := sin2_cos2 delta). unfold Rsqr in TD.
  set (q1 := 1 - (a / 2 / a) ^ 2 - (0 / b) ^ 2). set (q2 := 1 - (a / 2 * cos delta / a) ^ 2 - (a / 2 * sin delta / b) ^ 2).
  assert (Q1 : q1 = 3 / 4) by (unfold q1; field; lra).
  assert (S2 : 0 < sin delta * sin delta) by (apply Rlt_0_sqr in SD; exact SD).
  assert (RB : 1 < a / b) by (apply (Rmult_lt_reg_r b); [lra|]; unfold Rdiv; rewrite Rmult_assoc, Rinv_l by lra; lra).
  assert (Q2 : q2 < 3 / 4).
  { unfold q2. replace (a / 2 * cos delta / a) with (cos delta / 2) by (field; lra).
    replace (a / 2 * sin delta / b) with (a / b * sin delta / 2) by (field; lra).
    set (rr := a / b) in *. replace ((rr * sin delta / 2) ^ 2) with (rr * rr * (sin delta * sin delta) / 4) by field.
    assert (1 < rr * rr) by nra. assert (1 * (sin delta * sin delta) < rr * rr * (sin delta * sin delta)) by (apply Rmult_lt_compat_r; lra).
    replace ((cos delta / 2) ^ 2) with (cos delta * cos delta / 4) by field. lra. }
  rewrite Q1. rewrite (Rmax_right 0 (3 / 4)) by lra. intro EQ. apply Rmult_eq_reg_l in EQ; [|lra].
  assert (sqrt (Rmax 0 q2) < sqrt (3 / 4)); [|lra]. apply sqrt_lt_1_alt. split; [apply Rmax_l|]. apply Rmax_lub_lt; lra.
Qed.

(** Refuted: round contacts have displacements. They are not numbers. *)
Theorem c120_round_refuted (a p0 v modulus : R) (angle : option R) (x y : R) : 0 < a -> 0 < p0 ->
  displacement a a p0 v modulus angle x y = Ok NaN.
Proof.
  intros A P. pose proof PI_RGT_0 as Q. unfold ellipse_displacement. rewrite (proj2 (Rltb_false a a)) by lra.
  replace (1 - a ^ 2 / a ^ 2) with 0 by (field; lra). rewrite sqrt_0. replace (0 ^ 2) with 0 by ring.
  assert (KE : elliptic_k 0 - elliptic_e 0 = 0).
  { assert (X := long_identity 0 ltac:(lra)). lra. }
  assert (A2 : 0 < a ^ 2) by now apply pow_lt. assert (PB : 0 < PI * p0 * a) by (apply Rmult_lt_0_compat; [apply Rmult_lt_0_compat|]; assumption).
  unfold fdiv at 2. rewrite (proj2 (Reqb_true 0 0)) by reflexivity. unfold signed_inf at 1. rewrite (proj2 (Rltb_true 0 (PI * p0 * a))) by exact PB.
  cbn [fdiv]. rewrite (proj2 (Rltb_false (a ^ 2) 0)) by lra. rewrite KE. cbn [fmul]. unfold signed_inf at 1.
  rewrite (proj2 (Rltb_false 0 0)) by lra.
  destruct (match angle with None => (x, y) | Some g => rotate g x y end) as [x' y']. destruct (Reqb _ 0); reflexivity.
Qed.

(** Refuted: the displacement at the middle of the contact is the deflection of the body. It is more, in each
    elliptical contact and for both bodies: the integral is taken at the eccentricity instead of at its square. *)
Theorem c120_centre_refuted (x1 y1 x2 y2 : radius) (m1 m2 v1 v2 load angle : R) (line : bool) (f : full) (c : ellipse_res) (body : bool) :
  0 < m1 -> 0 < m2 -> v1 ^ 2 < 1 -> v2 ^ 2 < 1 -> 0 < curv x1 + curv y1 + curv x2 + curv y2 ->
  hertz_full [x1; y1] [x2; y2] [m1; m2] [v1; v2] load angle line = Ok f -> f_contact f = Ellipse c ->
  let deflection := if body then snd (el_deflection c) else fst (el_deflection c) in
  exists z, body_displacement elliptic_k elliptic_e c (v1, v2) (m1, m2) body 0 0 0 = Ok (Fin z) /\ 0 < deflection < z /\
    z * elliptic_k (eccentricity2 (el_a c) (el_b c)) = deflection * elliptic_k (sqrt (eccentricity2 (el_a c) (el_b c))).
Proof.
  intros M1 M2 V1 V2 R0 H E deflection.
  destruct (ellipse_known x1 y1 x2 y2 m1 m2 v1 v2 load angle line f c M1 M2 V1 V2 R0 H E)
    as (w & k & AU & KB & WB & L & A & EB & EP & A3 & RT & F1 & F2).
  assert (BP : 0 < el_b c) by (rewrite EB; now apply Rmult_lt_0_compat). assert (BA : el_b c < el_a c) by (rewrite EB; nra).
  assert (ME : eccentricity2 (el_a c) (el_b c) = 1 - k ^ 2) by (unfold eccentricity2; rewrite EB; field; lra).
  destruct (ecc_bounds _ _ BP BA) as [E0 E1]. rewrite <- ME in F1, F2.
  set (cc := compliance (if body then v2 else v1) (if body then m2 else m1)).
  assert (CP : 0 < cc) by (unfold cc, compliance; destruct body; apply Rdiv_lt_0_compat; lra).
  pose proof PI_RGT_0 as Q.
  assert (DF : deflection = 3 * load / (2 * PI * el_a c) * elliptic_k (eccentricity2 (el_a c) (el_b c)) * cc)
    by (unfold deflection, cc; destruct body; assumption).
  set (m := eccentricity2 (el_a c) (el_b c)) in *.
  assert (LT : elliptic_k m < elliptic_k (sqrt m)).
  { assert (SQ := sqrt_sqrt m ltac:(lra)). assert (0 < sqrt m) by (apply sqrt_lt_R0; lra).
    assert (sqrt m < 1) by (rewrite <- sqrt_1; apply sqrt_lt_1_alt; lra). apply k_increases; [lra| |assumption]. rewrite <- SQ at 1. nra. }
  assert (K0 : 0 < elliptic_k m) by (destruct (k_bounds m E1 ltac:(lra)); lra).
  assert (UP : 0 < 3 * load / (2 * PI * el_a c) * cc).
  { apply Rmult_lt_0_compat; [|exact CP]. apply Rdiv_lt_0_compat; [lra|]. apply Rmult_lt_0_compat; lra. }
  exists (reported cc (el_a c) (el_b c) (el_p0 c) 0 0).
  assert (VAL : reported cc (el_a c) (el_b c) (el_p0 c) 0 0 = 3 * load / (2 * PI * el_a c) * cc * elliptic_k (sqrt m)).
  { unfold reported. fold m. rewrite EP. field. repeat split; lra. }
  split.
  - unfold body_displacement, cc. cbn [fst snd].
    assert (I0 : inside (el_a c) (el_b c) 0 0).
    { unfold inside. replace ((0 / el_a c) ^ 2 + (0 / el_b c) ^ 2) with 0 by (field; lra). lra. }
    destruct body; apply reported_inside; try assumption; lra.
  - rewrite VAL, DF. split; [|ring].
    replace (3 * load / (2 * PI * el_a c) * elliptic_k m * cc) with (3 * load / (2 * PI * el_a c) * cc * elliptic_k m) by ring.
    set (u := 3 * load / (2 * PI * el_a c) * cc) in *. split; [now apply Rmult_lt_0_compat|]. now apply Rmult_lt_compat_l.
Qed.

(** Refuted: the surface is pressed in everywhere in the contact. In contacts which are nearly round the reported
    displacements near the ends of the long axis are out of the surface, those of theory are into it. *)
Theorem c120_edge_refuted (a b p0 v modulus x : R) : 0 < b -> b < a -> 15 * a ^ 2 <= 16 * b ^ 2 -> 0 < p0 -> 0 < modulus -> v ^ 2 < 1 ->
  3 / 4 <= (x / a) ^ 2 < 1 ->
  exists z, displacement a b p0 v modulus None x 0 = Ok (Fin z) /\ z < 0 /\ 0 < hertz_uz (compliance v modulus) a b p0 x 0.
Proof.
  intros B A NR P M V X. destruct (ecc_bounds a b B A) as [E0 E1]. pose proof PI_RGT_0 as Q.
  assert (A2 : 0 < a ^ 2) by (apply pow_lt; lra).
  assert (CP : 0 < compliance v modulus) by (unfold compliance; apply Rdiv_lt_0_compat; lra).
  assert (U : 0 < compliance v modulus * p0 * b) by (apply Rmult_lt_0_compat; [apply Rmult_lt_0_compat|]; assumption).
  exists (reported (compliance v modulus) a b p0 x 0). split; [|split].
  - apply reported_inside; try assumption; [lra|]. unfold inside. replace ((0 / b) ^ 2) with 0 by (field; lra). lra.
  - unfold reported. set (m := eccentricity2 a b) in *. set (e := sqrt m).
    assert (M16 : m <= 1 / 16).
    { unfold m, eccentricity2. assert (15 / 16 <= b ^ 2 / a ^ 2); [|lra]. apply (Rmult_le_reg_r (a ^ 2)); [assumption|].
      replace (b ^ 2 / a ^ 2 * a ^ 2) with (b ^ 2) by (field; lra). lra. }
    assert (EP : 0 < e) by (apply sqrt_lt_R0; lra). assert (E2 : e * e = m) by (apply sqrt_sqrt; lra).
    assert (E4 : e <= 1 / 4) by nra.
    destruct (k_bounds e ltac:(lra) ltac:(lra)) as [_ KU]. pose proof (k_minus_e e ltac:(lra) ltac:(lra)) as KE.
    assert (S34 : 6 / 7 <= sqrt (1 - e)).
    { apply Rsqr_incr_0_var; [|apply sqrt_pos]. unfold Rsqr. rewrite sqrt_sqrt by lra. lra. }
    assert (KU' : elliptic_k e <= PI / 2 * (7 / 6)).
    { eapply Rle_trans; [exact KU|]. unfold Rdiv at 1. apply Rmult_le_compat_l; [lra|].
      replace (7 / 6) with (/ (6 / 7)) by field. apply Rinv_le_contravar; lra. }
    set (kk := elliptic_k e) in *. set (ee := elliptic_e e) in *.
    replace ((kk - ee) / (m * a ^ 2) * x ^ 2) with ((kk - ee) / m * (x / a) ^ 2) by (field; lra).
    replace ((a ^ 2 / b ^ 2 * ee - kk) / (m * a ^ 2) * 0 ^ 2) with 0 by (field; lra).
    assert (Y : PI <= (kk - ee) / m).
    { apply (Rmult_le_reg_r m); [lra|]. replace ((kk - ee) / m * m) with (kk - ee) by (field; lra). rewrite <- E2.
      assert (e * e <= e * (1 / 4)) by (apply Rmult_le_compat_l; lra). assert (PI * (e * e) <= PI * (e * (1 / 4))) by (apply Rmult_le_compat_l; lra). lra. }
    assert (Z : PI * (3 / 4) <= (kk - ee) / m * (x / a) ^ 2) by (apply Rmult_le_compat; lra).
    assert (W : kk - (kk - ee) / m * (x / a) ^ 2 - 0 < 0) by lra.
    apply Ropp_lt_cancel. rewrite Ropp_0, Ropp_mult_distr_r. apply Rmult_lt_0_compat; lra.
  - unfold hertz_uz. set (m := eccentricity2 a b) in *. apply Rmult_lt_0_compat; [exact U|].
    pose proof (long_identity m E1) as LI. pose proof (short_identity m E1) as SI. pose proof (int_short_pos m E1) as SP.
    pose proof (int_long_pos m E1) as LP. set (kk := elliptic_k m) in *. set (ee := elliptic_e m) in *.
    replace ((kk - ee) / (m * a ^ 2) * x ^ 2) with ((kk - ee) / m * (x / a) ^ 2) by (field; lra).
    replace ((a ^ 2 / b ^ 2 * ee - kk) / (m * a ^ 2) * 0 ^ 2) with 0 by (field; lra).
    rewrite <- LI. replace (m * int_long m / m) with (int_long m) by (field; lra).
    assert (D : kk - int_long m = (1 - m) * int_short m).
    { apply (Rmult_eq_reg_l m); [|lra]. replace (m * (kk - int_long m)) with (m * kk - m * int_long m) by ring.
      replace (m * ((1 - m) * int_short m)) with ((1 - m) * (m * int_short m)) by ring. rewrite LI, SI. field. lra. }
    assert (0 < (1 - m) * int_short m) by (apply Rmult_lt_0_compat; lra). nra.
Qed.
End Contact.

(** The cases are met: an oracle for which a contact with axes in the ratio 2 is found, for a body on a flat, with the
    auxiliary angle at which this is a root. *)
Definition case_tan : R := sqrt (int_long (3 / 4) / int_short (3 / 4)).
Definition case_w : R := 2 * atan case_tan.
Definition case_find (w : option R) : result R :=
  match w with Some w => if Reqb w case_w then Ok (1 / 2) else Err ValueError | None => Err ValueError end.
Lemma case_facts : 0 < case_tan < 1 /\ / 8 <= case_tan ^ 2 /\ 0 < case_w < PI /\ tan (case_w / 2) = case_tan /\
  0 < cos case_w < 1 /\ 1 + cos case_w <= 8 * (1 - cos case_w).
Proof.
  assert (IL := int_long_pos (3 / 4) ltac:(lra)). assert (IS := int_short_pos (3 / 4) ltac:(lra)).
  assert (LS := long_short (3 / 4) ltac:(lra) ltac:(lra)). assert (SB := short_bound (3 / 4) ltac:(lra) ltac:(lra) ltac:(lra)).
  assert (Q : 0 < int_long (3 / 4) / int_short (3 / 4)) by (apply Rdiv_lt_0_compat; lra).
  assert (Q1 : int_long (3 / 4) / int_short (3 / 4) < 1).
  { apply (Rmult_lt_reg_r (int_short (3 / 4))); [lra|]. unfold Rdiv. rewrite Rmult_assoc, Rinv_l by lra. lra. }
  assert (Q8 : / 8 <= int_long (3 / 4) / int_short (3 / 4)).
  { apply (Rmult_le_reg_r (int_short (3 / 4))); [lra|]. unfold Rdiv. rewrite Rmult_assoc, Rinv_l by lra. lra. }
  assert (T0 : 0 < case_tan) by now apply sqrt_lt_R0.
  assert (T1 : case_tan < 1) by (rewrite <- sqrt_1; apply sqrt_lt_1_alt; lra).
  assert (T2 : case_tan ^ 2 = int_long (3 / 4) / int_short (3 / 4)) by (apply pow2_sqrt; lra).
  assert (AB := atan_bound case_tan). assert (A0 : 0 < atan case_tan) by (rewrite <- atan_0; now apply atan_increasing).
  assert (TW : tan (case_w / 2) = case_tan) by (unfold case_w; replace (2 * atan case_tan / 2) with (atan case_tan) by field; apply tan_atan).
  assert (CA : 0 < cos (atan case_tan)) by (apply cos_gt_0; lra).
  set (t := case_tan) in *.
  assert (SC : sin (atan t) = t * cos (atan t)) by (rewrite <- (tan_atan t) at 2; unfold tan; field; lra).
  pose proof (sin2_cos2 (atan t)) as SS. unfold Rsqr in SS.
  assert (CW : cos case_w = cos (atan t) * cos (atan t) - sin (atan t) * sin (atan t)) by (unfold case_w; fold t; apply cos_2a).
  rewrite SC in SS, CW. set (c := cos (atan t)) in *.
  assert (CC : 0 < c * c) by now apply Rmult_lt_0_compat. assert (TT : 0 < t * t < 1) by nra. cbn [pow] in *.
  assert (TC : t * c * (t * c) = t * t * (c * c)) by ring.
  rewrite TC in *. assert (P1 : t * t * (c * c) < 1 * (c * c)) by (apply Rmult_lt_compat_r; lra).
  assert (P8 : / 8 * (c * c) <= t * t * (c * c)) by (apply Rmult_le_compat_r; lra).
  assert (PT : 0 < t * t * (c * c)) by (apply Rmult_lt_0_compat; lra).
  assert (W : 0 < case_w < PI) by (unfold case_w; fold t; lra).
  split; [lra|]. split; [lra|]. split; [exact W|]. split; [exact TW|]. rewrite CW. lra.
Qed.
Lemma case_find_root : root_finder case_find.
Proof.
  intros w k. unfold case_find. destruct (Reqb w case_w) eqn:E; [|discriminate]. apply Reqb_true in E. intros [= <-]. subst w.
  destruct case_facts as (T & T8 & W & TW & _). split; [lra|]. split; [exact W|].
  unfold k_root. rewrite TW, i_int_eq, j_int_eq by lra. replace (1 - (1 / 2) ^ 2) with (3 / 4) by field.
  assert (IL := int_long_pos (3 / 4) ltac:(lra)). assert (IS := int_short_pos (3 / 4) ltac:(lra)).
  unfold case_tan. rewrite pow2_sqrt; [field; lra|]. left. apply Rdiv_lt_0_compat; lra.
Qed.
Example c120_case : let x1 := Rad (/ (1 + cos case_w)) in let y1 := Rad (/ (1 - cos case_w)) in exists f c,
  HertzFullModel.hertz_full i_int j_int h_int case_find [x1; y1] [Flat; Flat] [2; 3] [0.3; 0.25] 1 0 false = Ok f /\
  f_contact f = Ellipse c /\ root_finder case_find /\ (curv x1 - curv y1) * (curv Flat - curv Flat) * cos (2 * 0) = 0 /\
  (1 + cos case_w) + (1 - cos case_w) = curv x1 + curv y1 + curv Flat + curv Flat /\
  (1 + cos case_w) - (1 - cos case_w) = curvature_difference (curv x1 - curv y1) (curv Flat - curv Flat) 0.
Proof.
  destruct case_facts as (T & T8 & W & TW & CW & C8). intros x1 y1. set (u := cos case_w) in *.
  assert (X1 : curv x1 = 1 + u) by (unfold x1, curv; field; lra). assert (Y1 : curv y1 = 1 - u) by (unfold y1, curv; field; lra).
  assert (XF : curv Flat = 0) by reflexivity.
  assert (DIF : (1 + u) - (1 - u) = curvature_difference (curv x1 - curv y1) (curv Flat - curv Flat) 0).
  { rewrite X1, Y1, XF. unfold curvature_difference. rewrite Rmult_0_r, cos_0.
    replace (sqrt _) with (sqrt ((2 * u) ^ 2)) by (f_equal; ring). rewrite sqrt_pow2; lra. }
  assert (SUM : (1 + u) + (1 - u) = curv x1 + curv y1 + curv Flat + curv Flat) by (rewrite X1, Y1, XF; ring).
  assert (AU : aux_angle (x1, y1) (Flat, Flat) 0 = Some case_w).
  { unfold aux_angle. cbn [fst snd]. rewrite !curvature_curv, X1, Y1, XF, Rmult_0_r, cos_0.
    replace (sqrt _ / _) with u.
    - rewrite (proj2 (Rleb_true (Rabs u) 1)) by (rewrite Rabs_pos_eq; lra). unfold u. rewrite acos_cos by lra. reflexivity.
    - replace (sqrt _) with (sqrt ((2 * u) ^ 2)) by (f_equal; ring). rewrite sqrt_pow2 by lra. field. lra. }
  destruct (c97_accepted i_int j_int h_int case_find x1 y1 Flat Flat 2 3 0.3 0.25 1 0 (1 + u) (1 - u)) as [_ H].
  1, 2: unfold valid, x1, y1; apply Rinv_neq_0_compat; lra.
  1, 2: exact I.
  1: lra.
  1: rewrite X1, Y1; lra.
  1: lra.
  1: left; rewrite X1, Y1; lra.
  1: rewrite Rabs_R0; pose proof PI_RGT_0; lra.
  1: exact SUM.
  1: exact DIF.
  1: lra.
  specialize (H ltac:(lra)). cbv zeta in H. rewrite norm_zero, AU in H. destruct H as [_ H].
  destruct (H (1 / 2)) as (f & E & [[D _]|[_ [c D]]]).
  - unfold case_find. rewrite (proj2 (Reqb_true case_w case_w)) by reflexivity. reflexivity.
  - discriminate.
  - exists f, c. split; [exact E|]. split; [exact D|]. split; [exact case_find_root|].
    split; [rewrite XF; ring|]. split; [exact SUM|exact DIF].
Qed.
(** Two equal barrels whose axes include 30 degrees. *)
Definition case_d : R := 2 * cos case_w / sqrt (5 / 2).
Example c120_axes_case : let x1 := Rad (/ ((1 + case_d) / 2)) in let y1 := Rad (/ ((1 - case_d) / 2)) in exists f c,
  HertzFullModel.hertz_full i_int j_int h_int case_find [x1; y1] [x1; y1] [2; 3] [0.3; 0.25] 1 (PI / 6) false = Ok f /\
  f_contact f = Ellipse c /\ root_finder case_find /\ curv y1 < curv x1 /\ 0 < curv x1 + curv y1 + curv x1 + curv y1 /\
  0 < Rabs (PI / 6) < PI / 4.
Proof.
  destruct case_facts as (T & T8 & W & TW & CW & C8). intros x1 y1. unfold case_d in *. set (u := cos case_w) in *.
  assert (U : u <= 7 / 9) by lra.
  set (q := sqrt (5 / 2)). assert (Q2 : q * q = 5 / 2) by (apply sqrt_sqrt; lra). assert (Q0 : 0 < q) by (apply sqrt_lt_R0; lra).
  assert (QB : 15 / 10 < q < 16 / 10) by nra.
  set (d := 2 * u / q) in *.
  assert (DQ : d * q = 2 * u) by (unfold d; field; lra). assert (D0 : 0 < d) by (apply Rdiv_lt_0_compat; lra).
  assert (D1 : d < 10 / 9).
  { destruct (Rlt_le_dec d (10 / 9)) as [|Y]; [assumption|]. assert (10 / 9 * (15 / 10) < d * q) by (apply Rmult_le_0_lt_compat; lra || nra). lra. }
  assert (DD : d * d * (5 / 2) = 4 * (u * u)) by (rewrite <- Q2; transitivity ((d * q) * (d * q)); [ring|rewrite DQ; ring]).
  assert (D98 : d * d < 97 / 100) by nra. assert (D2 : d < 1) by nra.
  set (s3 := sqrt 3). assert (S3 : s3 * s3 = 3) by (apply sqrt_sqrt; lra). assert (S0 : 0 < s3) by (apply sqrt_lt_R0; lra).
  assert (DS : 0 < d * s3) by now apply Rmult_lt_0_compat.
  assert (DS2 : (d * s3) * (d * s3) = 3 * (d * d)) by (transitivity (d * d * (s3 * s3)); [ring|rewrite S3; ring]).
  assert (DSB : d * s3 < 18 / 10) by nra.
  assert (X1 : curv x1 = (1 + d) / 2) by (unfold x1, curv; rewrite Rinv_inv; reflexivity). assert (Y1 : curv y1 = (1 - d) / 2) by (unfold y1, curv; rewrite Rinv_inv; reflexivity).
  pose proof PI_RGT_0 as P. assert (C3 : cos (2 * (PI / 6)) = 1 / 2) by (replace (2 * (PI / 6)) with (PI / 3) by field; apply cos_PI3).
  assert (DIF : (1 + d * s3 / 2) - (1 - d * s3 / 2) = curvature_difference (curv x1 - curv y1) (curv x1 - curv y1) (PI / 6)).
  { rewrite X1, Y1. unfold curvature_difference. rewrite C3.
    replace (sqrt _) with (sqrt ((d * s3) ^ 2)); [rewrite sqrt_pow2; lra|]. f_equal. replace ((d * s3) ^ 2) with ((d * s3) * (d * s3)) by ring. rewrite DS2. field. }
  assert (AU : aux_angle (x1, y1) (x1, y1) (PI / 6) = Some case_w).
  { unfold aux_angle. cbn [fst snd]. rewrite !curvature_curv, X1, Y1, C3.
    replace (sqrt _ / _) with u.
    - rewrite (proj2 (Rleb_true (Rabs u) 1)) by (rewrite Rabs_pos_eq; lra). unfold u. rewrite acos_cos by lra. reflexivity.
    - replace (sqrt _) with (sqrt ((2 * u) ^ 2)); [rewrite sqrt_pow2 by lra; field; lra|].
      f_equal. replace ((2 * u) ^ 2) with (4 * (u * u)) by ring. rewrite <- DD. field. }
  assert (AB : Rabs (PI / 6) = PI / 6) by (apply Rabs_pos_eq; lra).
  destruct (c97_accepted i_int j_int h_int case_find x1 y1 x1 y1 2 3 0.3 0.25 1 (PI / 6) (1 + d * s3 / 2) (1 - d * s3 / 2)) as [_ H].
  1, 2, 3, 4: unfold valid, x1, y1; apply Rinv_neq_0_compat; fold u q d; lra.
  1: lra.
  1, 2: rewrite X1, Y1; lra.
  1: left; rewrite X1, Y1; lra.
  1: rewrite AB; lra.
  1: rewrite X1, Y1; lra.
  1: exact DIF.
  1: lra.
  specialize (H ltac:(lra)). cbv zeta in H. rewrite norm_angle_id in H by lra. rewrite AU in H. destruct H as [_ H].
  destruct (H (1 / 2)) as (f & E & [[D _]|[_ [c D]]]).
  - unfold case_find. rewrite (proj2 (Reqb_true case_w case_w)) by reflexivity. reflexivity.
  - discriminate.
  - exists f, c. split; [exact E|]. split; [exact D|]. split; [exact case_find_root|]. rewrite X1, Y1, AB. lra.
Qed.
(** A nearly round contact. *)
Example c120_edge_case : 0 < 99 /\ 99 < 100 /\ 15 * 100 ^ 2 <= 16 * 99 ^ 2 /\ 3 / 4 <= (90 / 100) ^ 2 < 1.
Proof. lra. Qed.

Print Assumptions c120_contact.
Print Assumptions c120_displacement.
Print Assumptions c120_axes.
Print Assumptions c120_axes_refuted.
Print Assumptions c120_round_refuted.
Print Assumptions c120_centre_refuted.
Print Assumptions c120_edge_refuted.
