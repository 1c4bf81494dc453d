(** C62 and C97 to C100: the full Hertz solution. *)
From Coq Require Import Reals List Bool Lra Lia Psatz ZArith.
From Verif Require Import Py SurfaceModel Flt SurfaceProofs SolverProofs HertzModel HertzSpec HertzProofs.
From Coquelicot Require Import Coquelicot.
From Verif Require Import HertzFullModel HertzFullSpec HertzIntProofs HertzFullProofs.
Import ListNotations.
Local Open Scope R_scope.

Section Full.
Variables int_i int_j int_h : R -> R.
Variable find_k : option R -> result R.
Notation hertz_full := (hertz_full int_i int_j int_h find_k).

(** ** C62: agreement with the simple solutions *)

Lemma e_star_eq s : e_star s = 1 / ((1 - s_v1 s ^ 2) / s_e1 s + (1 - s_v2 s ^ 2) / s_e2 s).
Proof. unfold e_star, Rdiv. ring. Qed.
Lemma sphere_a_eq s : Rpower (3 * s_load s * s_r s / 4 / e_star s) (1 / 3) = point_a s.
Proof.
  unfold point_a. f_equal; [|field]. unfold Rdiv. rewrite Rinv_mult. ring.
Qed.
Lemma rleb_load s : physical s -> Rleb (s_load s) 0 = false.
Proof. intros (_ & _ & _ & _ & _ & L). destruct (Rleb (s_load s) 0) eqn:E; [|reflexivity]. apply Rleb_true in E. lra. Qed.
Lemma rabs_zero : Rltb 1e-8 (Rabs (0 + 0 - 0)) = false.
Proof. apply Rltb_false. replace (0 + 0 - 0) with 0 by ring. rewrite Rabs_R0. lra. Qed.
Lemma diag x : x - x = 0. Proof. ring. Qed.
Lemma norm_zero : norm_angle 0 = 0.
Proof. apply norm_angle_id. pose proof PI_RGT_0. lra. Qed.

(** Two spheres (or a sphere on a flat) with relative radius [s_r]. *)
Lemma sphere_result (s : system) (r1 r2 : radius) : physical s -> valid r1 -> valid r2 -> curv r1 + curv r2 = / s_r s ->
  hertz_full [r1] [r2] [s_e1 s; s_e2 s] [s_v1 s; s_v2 s] (s_load s) 0 false =
  Ok {| f_alpha := 0; f_beta := 0; f_radii := (Fin (s_r s), Fin (s_r s)); f_e_star := e_star s;
        f_contact := Sphere (full_sphere (s_r s) (e_star s) (s_e1 s, s_e2 s) (s_v1 s, s_v2 s) (s_load s)) |}.
Proof.
  intros P V1 V2 C. unfold HertzFullModel.hertz_full. cbn [sanitise_radii]. rewrite (valid_zero r1 V1), (valid_zero r2 V2). cbn [orb bind sanitise_material fst snd].
  rewrite (rleb_load s P). rewrite norm_zero. rewrite !diag. rewrite Rmult_0_r.
  rewrite half_zero by lra. rewrite rabs_zero. rewrite cos_0, sin_0, !curvature_curv.
  replace (1 ^ 2 * curv r1 + 0 ^ 2 * curv r1 + 1 ^ 2 * curv r2 + 0 ^ 2 * curv r2) with (/ s_r s) by (rewrite <- C; ring).
  replace (0 ^ 2 * curv r1 + 1 ^ 2 * curv r1 + 0 ^ 2 * curv r2 + 1 ^ 2 * curv r2) with (/ s_r s) by (rewrite <- C; ring).
  pose proof P as (R0 & _). unfold inverse. rewrite (proj2 (Reqb_false (/ s_r s) 0)) by (apply Rinv_neq_0_compat; lra).
  replace (1 / / s_r s) with (s_r s) by (field; lra). cbn [fltb].
  rewrite (proj2 (Rltb_false (s_r s) 0)) by lra. cbn [orb].
  unfold fdiv. rewrite (proj2 (Reqb_false (s_r s) 0)) by lra. cbn [fltb]. rewrite (proj2 (Rltb_false 100000 (s_r s / s_r s))).
  - cbn [orb]. rewrite (proj2 (Reqb_true (s_r s) (s_r s))) by reflexivity. rewrite <- e_star_eq. reflexivity.
  - replace (s_r s / s_r s) with 1 by (field; lra). lra.
Qed.
Theorem c62_sphere (s : system) (r1 r2 : radius) : physical s -> valid r1 -> valid r2 -> curv r1 + curv r2 = / s_r s ->
  exists f c, hertz_full [r1] [r2] [s_e1 s; s_e2 s] [s_v1 s; s_v2 s] (s_load s) 0 false = Ok f /\ f_contact f = Sphere c /\
    Fin (sp_radius c) = p_radius (point_solution s) /\ Fin (sp_p0 c) = p_pressure (point_solution s) /\
    Fin (sp_deflection c) = p_disp (point_solution s) /\ Fin (f_e_star f) = p_e_star (point_solution s) /\
    Fin (fst (sp_tensile c)) = p_tensile (point_solution s) /\
    sp_area c = PI * sp_radius c ^ 2 /\
    sp_mean c * sp_area c = s_load s /\ 2 / 3 * sp_p0 c * sp_area c = s_load s.
Proof.
  intros P V1 V2 C. eexists. eexists. split; [now apply sphere_result|]. split; [reflexivity|].
  pose proof (point_a_pos s) as A. pose proof PI_RGT_0 as Q.
  cbn [full_sphere sp_radius sp_p0 sp_deflection f_e_star point_solution p_radius p_pressure p_disp p_e_star p_tensile fst snd
       sp_tensile sp_area sp_mean].
  rewrite sphere_a_eq. unfold point_p. repeat split; try reflexivity.
  - f_equal. field. lra.
  - f_equal. field. lra.
  - field. lra.
  - field. lra.
Qed.
(** Parallel cylinders. *)
Lemma line_result (s : system) (r1 r2 : radius) : physical s -> valid r1 -> valid r2 -> curv r1 + curv r2 = / s_r s ->
  hertz_full [r1; Flat] [r2; Flat] [s_e1 s; s_e2 s] [s_v1 s; s_v2 s] (s_load s) 0 true =
  Ok {| f_alpha := 0; f_beta := 0; f_radii := (Fin (s_r s), PInf); f_e_star := e_star s;
        f_contact := Line (full_line (Fin (s_r s)) PInf (e_star s) (s_v1 s, s_v2 s) (s_load s)) |}.
Proof.
  intros P V1 V2 C. pose proof P as (R0 & _). assert (I : 0 < / s_r s) by now apply Rinv_0_lt_compat.
  unfold HertzFullModel.hertz_full. cbn [sanitise_radii is_zero]. rewrite (valid_zero r1 V1), (valid_zero r2 V2). cbn [orb bind sanitise_material fst snd].
  rewrite (rleb_load s P). rewrite norm_zero, !curvature_curv. cbn [curv]. rewrite Rmult_0_r, (Rminus_0_r (curv r1)), (Rminus_0_r (curv r2)).
  rewrite !half_zero by lra. rewrite rabs_zero. rewrite cos_0, sin_0.
  replace (1 ^ 2 * curv r1 + 0 ^ 2 * 0 + 1 ^ 2 * curv r2 + 0 ^ 2 * 0) with (/ s_r s) by (rewrite <- C; ring).
  replace (0 ^ 2 * curv r1 + 1 ^ 2 * 0 + 0 ^ 2 * curv r2 + 1 ^ 2 * 0) with 0 by ring.
  unfold inverse. rewrite (proj2 (Reqb_false (/ s_r s) 0)) by lra. rewrite (proj2 (Reqb_true 0 0)) by reflexivity.
  replace (1 / / s_r s) with (s_r s) by (field; lra). cbn [fltb orb].
  rewrite (proj2 (Rltb_false (s_r s) 0)) by lra. cbn [orb fdiv]. rewrite (proj2 (Rltb_false (s_r s) 0)) by lra. cbn [fltb].
  rewrite orb_true_r. rewrite <- e_star_eq. reflexivity.
Qed.
Theorem c62_line (s : system) (r1 r2 : radius) : physical s -> valid r1 -> valid r2 -> curv r1 + curv r2 = / s_r s ->
  exists f c, hertz_full [r1; Flat] [r2; Flat] [s_e1 s; s_e2 s] [s_v1 s; s_v2 s] (s_load s) 0 true = Ok f /\ f_contact f = Line c /\
    li_radii c = (Fin (li_width c), PInf) /\
    Fin (li_width c) = l_width (line_solution s) /\ Fin (li_p0 c) = l_pressure (line_solution s) /\
    Fin (f_e_star f) = l_e_star (line_solution s).
Proof.
  intros P V1 V2 C. eexists. eexists. split; [now apply line_result|]. split; [reflexivity|].
  pose proof (line_a_pos s P) as A. pose proof PI_RGT_0 as Q. pose proof (e_star_pos s P) as E.
  cbn [full_line fmin fltb li_width li_p0 li_radii line_solution l_width l_pressure l_e_star f_e_star].
  assert (W : sqrt (4 * s_load s * s_r s / PI / e_star s) = line_a s).
  { unfold line_a. f_equal. field. lra. }
  rewrite W. repeat split. f_equal. unfold line_p. field. lra.
Qed.
Lemma line_full_values (s : system) : physical s ->
  let c := full_line (Fin (s_r s)) PInf (e_star s) (s_v1 s, s_v2 s) (s_load s) in
  li_width c = line_a s /\ li_p0 c = line_p s.
Proof.
  intros P. pose proof (line_a_pos s P) as A. pose proof PI_RGT_0 as Q. pose proof (e_star_pos s P) as E. cbn.
  assert (W : sqrt (4 * s_load s * s_r s / PI / e_star s) = line_a s).
  { unfold line_a. f_equal. field. lra. }
  rewrite W. split; [reflexivity|]. unfold line_p. field. lra.
Qed.
(** Refuted: the mean pressure of a line contact is the load over the width. The load over half the width is returned,
    which exceeds the maximum pressure. *)
Theorem c62_line_mean_refuted (s : system) (r1 r2 : radius) : physical s -> valid r1 -> valid r2 -> curv r1 + curv r2 = / s_r s ->
  exists f c, hertz_full [r1; Flat] [r2; Flat] [s_e1 s; s_e2 s] [s_v1 s; s_v2 s] (s_load s) 0 true = Ok f /\ f_contact f = Line c /\
    li_mean c * (2 * li_width c) = 2 * s_load s /\ li_p0 c < li_mean c.
Proof.
  intros P V1 V2 C. eexists. eexists. split; [now apply line_result|]. split; [reflexivity|].
  destruct (line_full_values s P) as [W M]. pose proof (line_a_pos s P) as A. pose proof PI_RGT_0 as Q. pose proof (e_star_pos s P) as E.
  pose proof P as (_ & _ & _ & _ & _ & L).
  assert (X : li_mean (full_line (Fin (s_r s)) PInf (e_star s) (s_v1 s, s_v2 s) (s_load s)) = s_load s / line_a s).
  { rewrite <- W. reflexivity. }
  rewrite W, M, X. split; [field; lra|]. unfold line_p.
  assert (P2 : 2 < PI) by (pose proof PI2_3_2; lra).
  apply (Rmult_lt_reg_r (line_a s)); [assumption|]. replace (2 * s_load s / (PI * line_a s) * line_a s) with (s_load s * (2 / PI)) by (field; lra).
  replace (s_load s / line_a s * line_a s) with (s_load s * 1) by (field; lra). apply Rmult_lt_compat_l; [assumption|].
  apply (Rmult_lt_reg_r PI); [assumption|]. replace (2 / PI * PI) with 2 by (field; lra). lra.
Qed.
(** Refuted: the von Mises stress agrees with the simple solution: it is multiplied by the constant it has to be
    divided by, for every ratio above zero up to 1/2 exclusive. *)
Theorem c62_line_mises_refuted (s : system) (r1 r2 : radius) : physical s -> valid r1 -> valid r2 -> curv r1 + curv r2 = / s_r s ->
  0 < s_v1 s < 1 / 2 ->
  exists f c, hertz_full [r1; Flat] [r2; Flat] [s_e1 s; s_e2 s] [s_v1 s; s_v2 s] (s_load s) 0 true = Ok f /\ f_contact f = Line c /\
    line_mises s < li_p0 c < fst (li_mises c).
Proof.
  intros P V1 V2 C V. eexists. eexists. split; [now apply line_result|]. split; [reflexivity|].
  destruct (line_full_values s P) as [W M]. pose proof (line_p_pos s P) as A.
  assert (X : fst (li_mises (full_line (Fin (s_r s)) PInf (e_star s) (s_v1 s, s_v2 s) (s_load s))) = mises_c (s_v1 s) * line_p s).
  { rewrite <- M. reflexivity. }
  rewrite X, M. unfold line_mises, mises_c. set (v := s_v1 s) in *.
  destruct (Rle_dec v 0.1938) as [H|H].
  - rewrite (proj2 (Rleb_true v 0.1938) H).
    replace (1 + 4 * (v - 1) * v) with ((1 - 2 * v) * (1 - 2 * v)) by ring. rewrite sqrt_square by lra.
    split; [nra|]. assert (1 < 1 / (1 - 2 * v)); [|nra].
    apply (Rmult_lt_reg_r (1 - 2 * v)); [lra|]. replace (1 / (1 - 2 * v) * (1 - 2 * v)) with 1 by (field; lra). lra.
  - assert (B : Rleb v 0.1938 = false) by (destruct (Rleb v 0.1938) eqn:B; [apply Rleb_true in B; lra|reflexivity]). rewrite B.
    set (c := 1.164 + 2.975 * v - 2.906 * v ^ 2). assert (1 < c) by (unfold c; nra). split; [|nra].
    apply (Rmult_lt_reg_r c); [lra|]. replace (line_p s / c * c) with (line_p s) by (field; lra). nra.
Qed.
Lemma ellipse_inv r1 r2 m v load angle al be rel1 rel2 c :
  full_ellipse int_i int_j int_h find_k r1 r2 m v load angle al be rel1 rel2 = Ok (Ellipse c) ->
  exists w k cc, aux_angle r1 r2 angle = Some w /\ find_k (Some w) = Ok k /\ 0 < cc /\
    el_a c = Rpower (2 * int_i k / PI / sin (w / 2) ^ 2) (1 / 3) * cc /\
    el_b c = Rpower (2 * int_j k / PI / cos (w / 2) ^ 2) (1 / 3) * cc /\
    el_area c = el_a c * el_b c * PI /\ el_p0 c = 3 * load / 2 / el_area c /\ el_mean c = el_p0 c / el_area c /\
    el_pressure c = ellipse_pressure (el_a c) (el_b c) (el_p0 c).
Proof.
  unfold full_ellipse. intro D. destruct (aux_angle r1 r2 angle) as [w|].
  - destruct (find_k (Some w)) as [k|] eqn:K; [|discriminate]. cbn [bind] in D.
    assert (G : forall a b : R, 0 < Rpower a b) by (intros; apply exp_pos).
    exists w, k, (Rpower (3 * load / 8 / (curvature (fst r1) + curvature (snd r1) + curvature (fst r2) + curvature (snd r2)) *
      (4 * (1 - fst v ^ 2) / fst m + 4 * (1 - snd v ^ 2) / snd m)) (1 / 3)).
    destruct (fltb rel1 rel2); injection D as <-; repeat split; first [exact K|apply G].
  - destruct (find_k None); [|discriminate]. discriminate.
Qed.
(** Elliptical contacts: the load is 2/3 of the maximum pressure times the area, but (refuted) the mean pressure is not
    the load over the area: it is the maximum pressure over the area. *)
Theorem c62_ellipse (x1 y1 x2 y2 : radius) (m v : list R) (load angle : R) (line : bool) (f : full) (c : ellipse_res) :
  hertz_full [x1; y1] [x2; y2] m v load angle line = Ok f -> f_contact f = Ellipse c ->
  line = false /\ 0 < el_a c /\ 0 < el_b c /\ el_area c = PI * el_a c * el_b c /\ 2 / 3 * el_p0 c * el_area c = load /\
  (el_mean c * el_area c = load <-> el_area c = 3 / 2).
Proof.
  intros H E. pose proof (full_inv _ _ _ _ _ _ _ _ _ _ _ _ _ _ H) as F. cbv zeta in F.
  destruct F as (L & _ & _ & _ & _ & _ & _ & _ & _ & _ & _ & _ & m1 & m2 & v1 & v2 & _ & _ & _ & D).
  destruct D as [(l & D & _)|[(_ & x & _ & _ & D)|(Li & x & y & _ & _ & _ & D)]]; [congruence|congruence|].
  split; [exact Li|]. rewrite E in D. apply ellipse_inv in D.
  destruct D as (w & k & cc & _ & _ & C1 & EA & EB & EQ & EP & EM & _).
  assert (A : 0 < el_a c) by (rewrite EA; apply Rmult_lt_0_compat; [apply exp_pos|exact C1]).
  assert (B : 0 < el_b c) by (rewrite EB; apply Rmult_lt_0_compat; [apply exp_pos|exact C1]).
  pose proof PI_RGT_0 as Q. assert (QP : 0 < el_area c) by (rewrite EQ; apply Rmult_lt_0_compat; [now apply Rmult_lt_0_compat|exact Q]).
  split; [exact A|]. split; [exact B|]. split; [rewrite EQ; ring|]. rewrite EM, EP. set (q := el_area c) in *.
  split; [field; lra|]. replace (3 * load / 2 / q / q * q) with (load * (3 / 2 / q)) by (field; lra). split; intro Z.
  - assert (Z' : 3 / 2 / q = 1) by (apply (Rmult_eq_reg_l load); lra). apply (f_equal (fun z => z * q)) in Z'.
    replace (3 / 2 / q * q) with (3 / 2) in Z' by (field; lra). lra.
  - rewrite Z. field.
Qed.
(** Loads which are not positive are refused; the [line] flag must fit. *)
Theorem c62_refused (r1 r2 : list radius) (m v : list R) (load angle : R) (line : bool) (f : full) :
  hertz_full r1 r2 m v load angle line = Ok f ->
  0 < load /\ (line = true <-> exists c, f_contact f = Line c).
Proof.
  intro H. assert (S : exists x1 y1 x2 y2, hertz_full [x1; y1] [x2; y2] m v load angle line = Ok f).
  { unfold HertzFullModel.hertz_full in H |- *. destruct (sanitise_radii r1) as [[x1 y1]|] eqn:S1; [|discriminate]. cbn [bind] in H.
    destruct (sanitise_radii r2) as [[x2 y2]|] eqn:S2; [|discriminate]. cbn [bind] in H.
    exists x1, y1, x2, y2.
    assert (V : forall l a b, sanitise_radii l = Ok (a, b) -> sanitise_radii [a; b] = Ok (a, b)).
    { intros l a b E. destruct (sanitise_inv l (a, b) E) as [->|[-> D]]; [exact E|]. cbn in D. subst b. exact E. }
    rewrite (V _ _ _ S1), (V _ _ _ S2). exact H. }
  destruct S as (x1 & y1 & x2 & y2 & S). pose proof (full_inv _ _ _ _ _ _ _ _ _ _ _ _ _ _ S) as F. cbv zeta in F.
  destruct F as (L & _ & _ & _ & _ & _ & _ & _ & _ & _ & _ & _ & m1 & m2 & v1 & v2 & _ & _ & _ & D).
  split; [exact L|]. destruct D as [(l & D & _ & -> & _)|[(-> & x & _ & _ & D)|(-> & x & y & _ & _ & _ & D)]].
  - split; [intros _; now exists l|reflexivity].
  - split; [discriminate|]. intros (c & C). congruence.
  - split; [discriminate|]. intros (c & C). unfold full_ellipse in D.
    destruct (find_k _); [|discriminate]. cbn [bind] in D. destruct (aux_angle _ _ _); [destruct (fltb _ _)|]; congruence.
Qed.

(** ** C97: the relative radii *)
Lemma inverse_has k : has_curvature (inverse k) k.
Proof.
  unfold has_curvature, inverse. destruct (Req_dec k 0) as [E|E].
  - left. rewrite (proj2 (Reqb_true k 0) E). tauto.
  - right. rewrite (proj2 (Reqb_false k 0) E). split; [exact E|]. f_equal. field. exact E.
Qed.
(** The reciprocals of the relative radii add up to the sum of all curvatures, and their difference is the one of
    theory; the first radius is the smaller one. *)
Theorem c97_radii (x1 y1 x2 y2 : radius) (m v : list R) (load angle : R) (line : bool) (f : full) :
  hertz_full [x1; y1] [x2; y2] m v load angle line = Ok f ->
  exists k1 k2, has_curvature (fst (f_radii f)) k1 /\ has_curvature (snd (f_radii f)) k2 /\
    k1 + k2 = curv x1 + curv y1 + curv x2 + curv y2 /\
    k1 - k2 = curvature_difference (curv x1 - curv y1) (curv x2 - curv y2) angle /\ 0 <= k2 <= k1 /\ 0 < k1.
Proof.
  intros H. pose proof (full_inv _ _ _ _ _ _ _ _ _ _ _ _ _ _ H) as F. cbv zeta in F.
  set (t := norm_angle angle) in *. set (al := half_angle _ _ (2 * t)) in F. set (be := half_angle (curvature x1 - curvature y1) _ (2 * t)) in F.
  destruct F as (L & _ & _ & _ & _ & B & _ & _ & FR & N1 & N2 & N3 & _).
  set (k1 := rel_k1 x1 y1 x2 y2 al be) in *. set (k2 := rel_k2 x1 y1 x2 y2 al be) in *.
  exists k1, k2. rewrite FR. cbn [fst snd]. split; [apply inverse_has|]. split; [apply inverse_has|].
  assert (SUM : k1 + k2 = curv x1 + curv y1 + curv x2 + curv y2).
  { unfold k1, k2, rel_k1, rel_k2. destruct (cos2_half al) as [-> ->], (cos2_half be) as [-> ->]. rewrite !curvature_curv. field. }
  assert (TB : - (PI / 2) <= t < PI / 2) by apply norm_angle_spec.
  assert (D : k1 - k2 = curvature_difference (curv x1 - curv y1) (curv x2 - curv y2) angle).
  { unfold k1, k2, rel_k1, rel_k2, curvature_difference.
    destruct (cos2_half al) as [-> ->], (cos2_half be) as [-> ->].
    rewrite <- (cos_norm_angle angle). fold t. set (ca := curvature x2 - curvature y2) in *. set (cb := curvature x1 - curvature y1) in *.
    replace (sqrt _) with (len ca cb (2 * t)).
    - rewrite <- difference_len; [unfold al, be, ca, cb; field|].
      destruct (Req_dec (len ca cb (2 * t)) 0) as [Z|Z]; [|tauto].
      (* no direction is preferred: the angles are zero *)
      pose proof (len_zero _ _ _ Z) as [X Y]. assert (Z' := Z). rewrite len_sym in Z'. pose proof (len_zero _ _ _ Z') as [X' Y'].
      assert (AL : al = 0) by (assert (2 * al = 0) by (unfold al; rewrite double_half, X, Y; apply arctan2_zero); lra).
      assert (BE : be = 0) by (assert (2 * be = 0) by (unfold be; rewrite double_half, X', Y'; apply arctan2_zero); lra).
      rewrite AL, BE in B. replace (0 + 0 - t) with (- t) in B by ring. rewrite Rabs_Ropp in B. apply Rabs_le_between in B.
      right. left. apply cos_ge_0; pose proof PI2_3_2; lra.
    - rewrite len_eq. f_equal. unfold ca, cb. rewrite !curvature_curv. ring. }
  split; [exact SUM|]. split; [exact D|].
  assert (DP : 0 <= k1 - k2) by (rewrite D; apply sqrt_pos).
  assert (P2 : 0 <= k2).
  { unfold inverse in N2. destruct (Reqb k2 0) eqn:E; [apply Reqb_true in E; lra|]. apply Reqb_false in E. cbn in N2. apply Rltb_false in N2.
    destruct (Rle_lt_dec 0 k2) as [Q|Q]; [exact Q|]. assert (1 / k2 < 0); [|lra]. unfold Rdiv. rewrite Rmult_1_l. now apply Rinv_lt_0_compat. }
  split; [lra|]. destruct (Req_dec k1 0) as [E|E]; [|lra]. exfalso. apply N3. assert (k2 = 0) by lra.
  unfold inverse. rewrite (proj2 (Reqb_true k1 0) E), (proj2 (Reqb_true k2 0) H0). tauto.
Qed.
(** Turning a body by pi changes nothing. *)
Theorem c97_period (r1 r2 : list radius) (m v : list R) (load angle : R) (line : bool) (k : Z) :
  hertz_full r1 r2 m v load (angle + IZR k * PI) line = hertz_full r1 r2 m v load angle line.
Proof. unfold HertzFullModel.hertz_full. now rewrite norm_angle_period. Qed.

Lemma turned (x1 y1 x2 y2 : radius) (m v : list R) (load angle : R) (line : bool) :
  let t := norm_angle angle in
  let ca := curvature x2 - curvature y2 in let cb := curvature x1 - curvature y1 in
  1e-8 < Rabs (half_angle ca cb (2 * t) + half_angle cb ca (2 * t) - t) ->
  valid x1 -> valid y1 -> valid x2 -> valid y2 -> (exists p, sanitise_material m = Ok p) -> (exists p, sanitise_material v = Ok p) ->
  hertz_full [x1; y1] [x2; y2] m v load angle line = Err ValueError.
Proof.
  intros t ca cb H V1 V2 V3 V4 (pm & M) (pv & V). unfold HertzFullModel.hertz_full.
  rewrite !sanitise_ok by assumption. cbn [bind fst snd]. rewrite M. cbn [bind]. rewrite V. cbn [bind].
  destruct (Rleb load 0); [reflexivity|]. fold t ca cb. now rewrite (proj2 (Rltb_true _ _) H).
Qed.
(** Refuted: every pair of bodies is accepted. Spheres with an angle, which means nothing for them, are refused with
    the message that there is a bug... *)
Theorem c97_sphere_refuted (r1 r2 : radius) (m v : R) (load angle t : R) (line : bool) : valid r1 -> valid r2 ->
  between_axes angle t -> 1e-8 < Rabs t ->
  hertz_full [r1] [r2] [m] [v] load angle line = Err ValueError.
Proof.
  intros V1 V2 B T. assert (norm_angle angle = t) by (apply (between_axes_unique angle); [apply norm_angle_spec|exact B]). subst t.
  replace (hertz_full [r1] [r2] [m] [v] load angle line) with (hertz_full [r1; r1] [r2; r2] [m] [v] load angle line).
  - apply turned; try assumption; [|now eexists|now eexists]. rewrite !diag.
    unfold half_angle. rewrite !Rmult_0_l, Rplus_0_l, arctan2_zero. replace (0 / 2 + 0 / 2 - norm_angle angle) with (- norm_angle angle) by field.
    now rewrite Rabs_Ropp.
  - unfold HertzFullModel.hertz_full. cbn [sanitise_radii]. reflexivity.
Qed.
(** ... as are bodies which are both less curved in x than in y direction, when the axes include less than 45 degrees.
    For parallel cylinders it depends on which axis they lie along. *)
Lemma half_negative a b t : a < 0 -> b < 0 -> 0 < cos t -> - PI <= t < PI ->
  exists u, - (PI / 2) < u < PI / 2 /\ 2 * half_angle a b t = u + (if Rlt_dec t 0 then PI else - PI).
Proof.
  intros A B C T. rewrite double_half. rewrite (proj2 (Rltb_true a 0) A). unfold arctan2.
  assert (X : a * cos t + b < 0) by nra. rewrite (proj2 (Rltb_false 0 _)) by lra. rewrite (proj2 (Rltb_true _ 0) X).
  exists (atan (a * sin t / (a * cos t + b))). split; [pose proof (atan_bound (a * sin t / (a * cos t + b))); lra|].
  pose proof PI_RGT_0 as P. destruct (Rlt_dec t 0) as [L|L].
  - rewrite (proj2 (Rltb_true t 0) L). cbn [xorb negb]. rewrite andb_true_r.
    assert (S : sin t <= 0). { assert (0 <= sin (- t)) by (apply sin_ge_0; lra). rewrite sin_neg in H. lra. }
    destruct (Req_dec (sin t) 0) as [Z|Z].
    + rewrite Z, Rmult_0_r. rewrite (proj2 (Reqb_true 0 0)) by reflexivity. rewrite orb_true_r. reflexivity.
    + rewrite (proj2 (Rltb_true 0 (a * sin t))) by nra. reflexivity.
  - rewrite (proj2 (Rltb_false t 0)) by lra. cbn [xorb negb]. rewrite andb_false_r.
    assert (S : 0 <= sin t) by (apply sin_ge_0; lra). rewrite (proj2 (Rltb_false 0 (a * sin t))) by nra. cbn [orb]. lra.
Qed.
Theorem c97_axes_refuted (x1 y1 x2 y2 : radius) (m v : R) (load angle : R) (line : bool) :
  valid x1 -> valid y1 -> valid x2 -> valid y2 -> curv x1 < curv y1 -> curv x2 < curv y2 -> Rabs angle < PI / 4 ->
  hertz_full [x1; y1] [x2; y2] [m] [v] load angle line = Err ValueError.
Proof.
  intros V1 V2 V3 V4 C1 C2 A. pose proof PI_RGT_0 as P. apply Rabs_lt_between in A.
  apply turned; try assumption; [|now eexists|now eexists]. rewrite norm_angle_id by lra. rewrite !curvature_curv.
  assert (C : 0 < cos (2 * angle)) by (apply cos_gt_0; lra).
  destruct (half_negative (curv x2 - curv y2) (curv x1 - curv y1) (2 * angle)) as (u & U & EU); [lra..|].
  destruct (half_negative (curv x1 - curv y1) (curv x2 - curv y2) (2 * angle)) as (w & W & EW); [lra..|].
  set (al := half_angle (curv x2 - curv y2) _ _) in *. set (be := half_angle (curv x1 - curv y1) _ _) in *.
  pose proof PI2_3_2 as P3.
  destruct (Rlt_dec (2 * angle) 0).
  - assert (PI / 4 < al + be - angle) by lra. rewrite Rabs_pos_eq by lra. lra.
  - assert (al + be - angle < - (PI / 4)) by lra. rewrite Rabs_left by lra. lra.
Qed.
Example c97_axes_case (s : system) : physical s ->
  hertz_full [Flat; Rad (2 * s_r s)] [Flat; Rad (2 * s_r s)] [s_e1 s] [s_v1 s] (s_load s) 0 true = Err ValueError /\
  exists f, hertz_full [Rad (2 * s_r s); Flat] [Rad (2 * s_r s); Flat] [s_e1 s; s_e2 s] [s_v1 s; s_v2 s] (s_load s) 0 true = Ok f.
Proof.
  intro P. pose proof P as (R0 & _). pose proof PI_RGT_0 as Q. assert (0 < / (2 * s_r s)) by (apply Rinv_0_lt_compat; lra).
  split.
  - apply c97_axes_refuted; cbn; try exact I; try lra. rewrite Rabs_R0. lra.
  - eexists. apply line_result; cbn; try exact P; try lra. field. lra.
Qed.
(** Bodies whose curvature is at least as large in x as in y direction are accepted at each angle up to 45 degrees:
    the message does not appear. *)
Lemma check_passes a b t : 0 <= a -> 0 <= b -> 0 < a + b -> - (PI / 2) < t < PI / 2 -> 0 < cos t ->
  half_angle a b t + half_angle b a t = t / 2.
Proof.
  intros A B AB T C. pose proof PI_RGT_0 as P.
  assert (X1 : 0 < a * cos t + b) by nra || (destruct (Req_dec b 0); nra).
  assert (X2 : 0 < b * cos t + a) by nra || (destruct (Req_dec a 0); nra).
  assert (N : len a b t <> 0) by (intro Z; apply len_zero in Z; lra).
  destruct (half_sum a b t N) as [HC HS].
  pose proof (arctan2_pos (xorb (Rltb a 0) (Rltb t 0)) (a * sin t) _ X1) as B1.
  pose proof (arctan2_pos (xorb (Rltb b 0) (Rltb t 0)) (b * sin t) _ X2) as B2.
  rewrite <- double_half in B1, B2.
  assert (E : 2 * half_angle a b t + 2 * half_angle b a t = t) by (apply same_angle; [assumption..|lra]). lra.
Qed.
Lemma accepted_check (x1 y1 x2 y2 : radius) (angle : R) : curv y1 <= curv x1 -> curv y2 <= curv x2 ->
  (curv y1 < curv x1 \/ curv y2 < curv x2) -> Rabs angle < PI / 4 ->
  half_angle (curvature x2 - curvature y2) (curvature x1 - curvature y1) (2 * norm_angle angle) +
  half_angle (curvature x1 - curvature y1) (curvature x2 - curvature y2) (2 * norm_angle angle) = norm_angle angle.
Proof.
  intros C1 C2 C A. pose proof PI_RGT_0 as P. apply Rabs_lt_between in A. rewrite norm_angle_id by lra. rewrite !curvature_curv.
  rewrite check_passes; [field|lra|lra|lra|lra|apply cos_gt_0; lra].
Qed.
Theorem c97_accepted (x1 y1 x2 y2 : radius) (m1 m2 v1 v2 load angle k1 k2 : R) :
  valid x1 -> valid y1 -> valid x2 -> valid y2 -> 0 < load ->
  curv y1 <= curv x1 -> curv y2 <= curv x2 -> (curv y1 < curv x1 \/ curv y2 < curv x2) -> Rabs angle < PI / 4 ->
  k1 + k2 = curv x1 + curv y1 + curv x2 + curv y2 ->
  k1 - k2 = curvature_difference (curv x1 - curv y1) (curv x2 - curv y2) angle -> 0 <= k2 ->
  (100000 * k2 < k1 -> exists f, hertz_full [x1; y1] [x2; y2] [m1; m2] [v1; v2] load angle true = Ok f) /\
  (k1 <= 100000 * k2 ->
    let w := aux_angle (x1, y1) (x2, y2) (norm_angle angle) in
    (forall e, find_k w = Err e -> hertz_full [x1; y1] [x2; y2] [m1; m2] [v1; v2] load angle false = Err e) /\
    (forall k, find_k w = Ok k -> exists f, hertz_full [x1; y1] [x2; y2] [m1; m2] [v1; v2] load angle false = Ok f /\
       ((w = None /\ f_contact f = EllipseNaN) \/ (w <> None /\ exists c, f_contact f = Ellipse c)))).
Proof.
  intros V1 V2 V3 V4 L C1 C2 C A SUM DIF K2. pose proof (accepted_check x1 y1 x2 y2 angle C1 C2 C A) as CH.
  pose proof PI_RGT_0 as P. assert (A' := A). apply Rabs_lt_between in A'.
  assert (CP : 0 < cos (2 * angle)) by (apply cos_gt_0; lra).
  assert (KD : 0 < k1 - k2).
  { rewrite DIF. apply sqrt_lt_R0. set (d1 := curv x1 - curv y1) in *. set (d2 := curv x2 - curv y2) in *.
    assert (0 <= d1) by (unfold d1; lra). assert (0 <= d2) by (unfold d2; lra). assert (0 < d1 \/ 0 < d2) by (unfold d1, d2; lra).
    assert (0 <= d1 * d2 * cos (2 * angle)) by (apply Rmult_le_pos; [nra|lra]). nra. }
  set (al := half_angle (curvature x2 - curvature y2) (curvature x1 - curvature y1) (2 * norm_angle angle)) in *.
  set (be := half_angle (curvature x1 - curvature y1) (curvature x2 - curvature y2) (2 * norm_angle angle)) in *.
  assert (S' : rel_k1 x1 y1 x2 y2 al be + rel_k2 x1 y1 x2 y2 al be = k1 + k2).
  { rewrite SUM. unfold rel_k1, rel_k2. destruct (cos2_half al) as [-> ->], (cos2_half be) as [-> ->]. rewrite !curvature_curv. field. }
  assert (D' : rel_k1 x1 y1 x2 y2 al be - rel_k2 x1 y1 x2 y2 al be = k1 - k2).
  { rewrite DIF. unfold rel_k1, rel_k2, curvature_difference. destruct (cos2_half al) as [-> ->], (cos2_half be) as [-> ->].
    rewrite <- (cos_norm_angle angle). set (ca := curvature x2 - curvature y2) in *. set (cb := curvature x1 - curvature y1) in *.
    replace (sqrt _) with (len ca cb (2 * norm_angle angle)).
    - rewrite <- difference_len; [unfold al, be, ca, cb; field|]. right. left. rewrite cos_norm_angle. lra.
    - rewrite len_eq. f_equal. unfold ca, cb. rewrite !curvature_curv. ring. }
  assert (E1 : rel_k1 x1 y1 x2 y2 al be = k1) by lra. assert (E2 : rel_k2 x1 y1 x2 y2 al be = k2) by lra.
  unfold rel_k1, rel_k2 in E1, E2.
  assert (LB : Rleb load 0 = false) by (destruct (Rleb load 0) eqn:E; [apply Rleb_true in E; lra|reflexivity]).
  assert (Z : Rltb 1e-8 (Rabs (al + be - norm_angle angle)) = false).
  { rewrite CH, diag, Rabs_R0. apply Rltb_false. lra. }
  assert (I1 : inverse k1 = Fin (1 / k1)) by (unfold inverse; rewrite (proj2 (Reqb_false k1 0)) by lra; reflexivity).
  assert (P1 : 0 < 1 / k1) by (apply Rdiv_lt_0_compat; lra).
  split; intro Q.
  - unfold HertzFullModel.hertz_full. rewrite !sanitise_ok by assumption. cbn [bind fst snd sanitise_material]. rewrite LB.
    fold al be. rewrite Z, E1, E2, I1. cbn [fltb]. rewrite (proj2 (Rltb_false (1 / k1) 0)) by lra. cbn [orb].
    unfold inverse. destruct (Req_dec k2 0) as [N|N].
    + rewrite (proj2 (Reqb_true k2 0) N). cbn [fltb fdiv orb]. rewrite (proj2 (Rltb_false (1 / k1) 0)) by lra. cbn [fltb]. rewrite orb_true_r. eexists. reflexivity.
    + rewrite (proj2 (Reqb_false k2 0) N). assert (P2 : 0 < 1 / k2) by (apply Rdiv_lt_0_compat; lra). cbn [fltb].
      rewrite (proj2 (Rltb_false (1 / k2) 0)) by lra. unfold fdiv. rewrite !(proj2 (Reqb_false _ 0)) by lra. cbn [fltb].
      rewrite (proj2 (Rltb_true 100000 (1 / k2 / (1 / k1)))).
      * rewrite orb_true_r. eexists. reflexivity.
      * replace (1 / k2 / (1 / k1)) with (k1 / k2) by (field; lra). apply (Rmult_lt_reg_r k2); [lra|].
        replace (k1 / k2 * k2) with k1 by (field; lra). lra.
  - intro w. assert (0 < k2) by lra. assert (P2 : 0 < 1 / k2) by (apply Rdiv_lt_0_compat; lra).
    unfold HertzFullModel.hertz_full. rewrite !sanitise_ok by assumption. cbn [bind fst snd sanitise_material]. rewrite LB.
    fold al be. rewrite Z, E1, E2, I1. cbn [fltb]. rewrite (proj2 (Rltb_false (1 / k1) 0)) by lra. cbn [orb].
    unfold inverse. rewrite (proj2 (Reqb_false k2 0)) by lra. cbn [fltb]. rewrite (proj2 (Rltb_false (1 / k2) 0)) by lra.
    unfold fdiv. rewrite !(proj2 (Reqb_false _ 0)) by lra. cbn [fltb].
    replace (1 / k2 / (1 / k1)) with (k1 / k2) by (field; lra). replace (1 / k1 / (1 / k2)) with (k2 / k1) by (field; lra).
    rewrite (proj2 (Rltb_false 100000 (k2 / k1))), (proj2 (Rltb_false 100000 (k1 / k2))).
    + cbn [orb]. rewrite (proj2 (Reqb_false (1 / k1) (1 / k2))).
      * unfold full_ellipse. fold w. split; [intros e F; rewrite F; reflexivity|]. intros k F. rewrite F. cbn [bind].
        destruct w as [w'|]; [destruct (fltb _ _)|]; cbn [bind]; eexists; (split; [reflexivity|]); cbn [f_contact].
        -- right. split; [discriminate|]. eexists. reflexivity.
        -- right. split; [discriminate|]. eexists. reflexivity.
        -- now left.
      * intro E. assert (k1 = k2); [|lra]. apply (f_equal (fun z => z * k1 * k2)) in E.
        replace (1 / k1 * k1 * k2) with k2 in E by (field; lra). replace (1 / k2 * k1 * k2) with k1 in E by (field; lra). lra.
    + apply (Rmult_le_reg_r k2); [lra|]. replace (k1 / k2 * k2) with k1 by (field; lra). lra.
    + apply (Rmult_le_reg_r k1); [lra|]. replace (k2 / k1 * k1) with k2 by (field; lra). lra.
Qed.
(** Refuted: the auxiliary angle of elliptical contacts is the one of theory, whose cosine is the difference over the
    sum of the relative curvatures. It is only if the bodies are not both curved differently in their two directions,
    or cross at 45 degrees. *)
Theorem c97_auxiliary_refuted (x1 y1 x2 y2 : radius) (angle w : R) :
  let d1 := curv x1 - curv y1 in let d2 := curv x2 - curv y2 in
  let sum := curv x1 + curv y1 + curv x2 + curv y2 in
  0 < sum -> aux_angle (x1, y1) (x2, y2) angle = Some w ->
  (cos w = curvature_difference d1 d2 angle / sum <-> d1 * d2 * cos (2 * angle) = 0).
Proof.
  intros d1 d2 sum S A. unfold aux_angle in A. cbn [fst snd] in A. rewrite !curvature_curv in A. fold d1 d2 sum in A.
  set (x := sqrt _ / sum) in A. destruct (Rleb (Rabs x) 1) eqn:B; [|discriminate]. apply Rleb_true, Rabs_le_between in B. injection A as <-.
  rewrite cos_acos by exact B. unfold x, curvature_difference.
  assert (P1 : 0 <= d1 ^ 2 + d2 ^ 2 + 2 * d1 * d2 * cos (2 * angle)) by (apply len_sq).
  assert (P2 : 0 <= d1 ^ 2 + d2 ^ 2 + d1 * d2 * cos (2 * angle)) by (pose proof (pow2_ge_0 d1); pose proof (pow2_ge_0 d2); nra).
  split; intro E.
  - apply Rmult_eq_reg_r in E; [|apply Rinv_neq_0_compat; lra]. apply sqrt_inj in E; [lra|assumption..].
  - f_equal. f_equal. lra.
Qed.

(** ** C98: the load carried by the pressure *)
Theorem c98_sphere (x1 y1 x2 y2 : radius) (m v : list R) (load angle : R) (line : bool) (f : full) (c : sphere_res) :
  hertz_full [x1; y1] [x2; y2] m v load angle line = Ok f -> f_contact f = Sphere c ->
  carries (sp_pressure c) (sp_radius c) (sp_radius c) load /\
  (forall x y, 0 <= sp_pressure c x y <= sp_p0 c /\ (sp_pressure c x y = 0 <-> sp_radius c ^ 2 <= x ^ 2 + y ^ 2)) /\
  sp_pressure c 0 0 = sp_p0 c.
Proof.
  intros H E. pose proof (full_inv _ _ _ _ _ _ _ _ _ _ _ _ _ _ H) as F. cbv zeta in F.
  destruct F as (L & _ & _ & _ & _ & _ & _ & _ & _ & _ & _ & _ & m1 & m2 & v1 & v2 & _ & _ & _ & D).
  destruct D as [(l & D & _)|[(_ & x & _ & _ & D)|(_ & x & y & _ & _ & _ & D)]].
  - congruence.
  - rewrite E in D. injection D as ->. cbn [full_sphere sp_pressure sp_radius sp_p0].
    set (a := Rpower _ _). assert (A : 0 < a) by apply exp_pos. pose proof PI_RGT_0 as Q.
    assert (A2 : 0 < a ^ 2) by now apply pow_lt.
    set (p := 3 * load / (2 * PI * a ^ 2)).
    assert (PP : 0 < p). { apply Rdiv_lt_0_compat; [lra|]. apply Rmult_lt_0_compat; [lra|assumption]. }
    split; [|split].
    + intros X Y HX HY. replace load with (2 / 3 * p * (PI * a * a)) by (unfold p; field; lra).
      apply (is_RInt_ext (fun u => RInt (fun w => p * sqrt (Rmax 0 (1 - (u / a) ^ 2 - (w / a) ^ 2))) (- Y) Y)).
      * intros u _. apply RInt_ext. intros w _. symmetry. now apply sphere_pressure_eq.
      * now apply ellipse_volume.
    + intros u w. rewrite sphere_pressure_eq by exact A. set (q := 1 - (u / a) ^ 2 - (w / a) ^ 2).
      assert (Q1 : q <= 1) by (unfold q; pose proof (pow2_ge_0 (u / a)); pose proof (pow2_ge_0 (w / a)); lra).
      assert (Q2 : q = (a ^ 2 - (u ^ 2 + w ^ 2)) / a ^ 2) by (unfold q; field; lra).
      split.
      * assert (S : 0 <= sqrt (Rmax 0 q) <= 1).
        { split; [apply sqrt_pos|]. rewrite <- sqrt_1. apply sqrt_le_1_alt. apply Rmax_lub; lra. }
        split; [apply Rmult_le_pos; lra|]. nra.
      * split; intro Z.
        -- apply Rmult_integral in Z. destruct Z as [Z|Z]; [lra|]. apply sqrt_eq_0 in Z; [|apply Rmax_l].
           destruct (Rle_lt_dec (a ^ 2) (u ^ 2 + w ^ 2)) as [W|W]; [exact W|]. exfalso.
           assert (0 < q) by (rewrite Q2; apply Rdiv_lt_0_compat; lra). rewrite Rmax_right in Z by lra. lra.
        -- rewrite Rmax_left; [rewrite sqrt_0; ring|]. rewrite Q2. apply (Rmult_le_reg_r (a ^ 2)); [assumption|].
           replace ((a ^ 2 - (u ^ 2 + w ^ 2)) / a ^ 2 * a ^ 2) with (a ^ 2 - (u ^ 2 + w ^ 2)) by (field; lra). lra.
    + rewrite sphere_pressure_eq by exact A. replace (1 - (0 / a) ^ 2 - (0 / a) ^ 2) with 1 by (field; lra).
      rewrite Rmax_right by lra. rewrite sqrt_1. ring.
  - unfold full_ellipse in D. rewrite E in D.
    destruct (find_k _); [|discriminate]. cbn [bind] in D. destruct (aux_angle _ _ _); [destruct (fltb _ _)|]; discriminate.
Qed.
Theorem c98_ellipse (x1 y1 x2 y2 : radius) (m v : list R) (load angle : R) (line : bool) (f : full) (c : ellipse_res) :
  hertz_full [x1; y1] [x2; y2] m v load angle line = Ok f -> f_contact f = Ellipse c ->
  carries (el_pressure c None) (el_a c) (el_b c) load /\ el_pressure c None 0 0 = el_p0 c /\
  (forall x y, 0 <= el_pressure c None x y <= el_p0 c /\
    (el_pressure c None x y = 0 <-> 1 <= (x / el_a c) ^ 2 + (y / el_b c) ^ 2)).
Proof.
  intros H E. destruct (c62_ellipse _ _ _ _ _ _ _ _ _ _ _ H E) as (_ & A & B & AR & LD & _).
  pose proof (full_inv _ _ _ _ _ _ _ _ _ _ _ _ _ _ H) as F. cbv zeta in F.
  destruct F as (L & _ & _ & _ & _ & _ & _ & _ & _ & _ & _ & _ & m1 & m2 & v1 & v2 & _ & _ & _ & D).
  destruct D as [(l & D & _)|[(_ & x & _ & _ & D)|(_ & x & y & _ & _ & _ & D)]]; [congruence|congruence|].
  rewrite E in D. apply ellipse_inv in D. destruct D as (w & k & cc & _ & _ & _ & _ & _ & EQ & EP & _ & PR).
  pose proof PI_RGT_0 as Q. assert (QP : 0 < el_area c) by (rewrite EQ; apply Rmult_lt_0_compat; [now apply Rmult_lt_0_compat|exact Q]).
  assert (PP : 0 < el_p0 c) by (rewrite EP; apply Rdiv_lt_0_compat; lra).
  rewrite PR. unfold ellipse_pressure. set (a := el_a c) in *. set (b := el_b c) in *. set (p := el_p0 c) in *. split; [|split].
  - intros X Y HX HY. rewrite <- LD, AR. now apply ellipse_volume.
  - replace (1 - (0 / a) ^ 2 - (0 / b) ^ 2) with 1 by (field; lra). rewrite Rmax_right by lra. rewrite sqrt_1. ring.
  - intros u z. set (q := 1 - (u / a) ^ 2 - (z / b) ^ 2). pose proof (pow2_ge_0 (u / a)). pose proof (pow2_ge_0 (z / b)).
    assert (S : 0 <= sqrt (Rmax 0 q) <= 1).
    { split; [apply sqrt_pos|]. rewrite <- sqrt_1. apply sqrt_le_1_alt. apply Rmax_lub; [lra|unfold q; lra]. }
    split; [split; [apply Rmult_le_pos; lra|nra]|]. split; intro Z.
    + apply Rmult_integral in Z. destruct Z as [Z|Z]; [lra|]. apply sqrt_eq_0 in Z; [|apply Rmax_l].
      destruct (Rle_lt_dec q 0) as [W|W]; [unfold q in W; lra|]. rewrite Rmax_right in Z by lra. lra.
    + rewrite Rmax_left; [rewrite sqrt_0; ring|]. unfold q. lra.
Qed.
(** The axes of the elliptical contact are in the ratio which is the root of the equation of Deeg. *)
Theorem c98_ratio (x1 y1 x2 y2 : radius) (m v : list R) (load angle : R) (line : bool) (f : full) (c : ellipse_res) :
  (forall w k, find_k (Some w) = Ok k -> 0 < k <= 1 /\ 0 < w < PI /\ 0 < int_i k /\ 0 < int_j k /\
     k ^ 3 / tan (w / 2) ^ 2 - int_j k / int_i k = 0) ->
  hertz_full [x1; y1] [x2; y2] m v load angle line = Ok f -> f_contact f = Ellipse c ->
  exists k, find_k (aux_angle (x1, y1) (x2, y2) (norm_angle angle)) = Ok k /\ el_b c = k * el_a c /\ el_b c <= el_a c.
Proof.
  intros K H E. destruct (c62_ellipse _ _ _ _ _ _ _ _ _ _ _ H E) as (_ & A & B & _).
  pose proof (full_inv _ _ _ _ _ _ _ _ _ _ _ _ _ _ H) as F. cbv zeta in F.
  destruct F as (L & _ & _ & _ & _ & _ & _ & _ & _ & _ & _ & _ & m1 & m2 & v1 & v2 & _ & _ & _ & D).
  destruct D as [(l & D & _)|[(_ & x & _ & _ & D)|(_ & x & y & _ & _ & _ & D)]]; [congruence|congruence|].
  rewrite E in D. apply ellipse_inv in D. destruct D as (w & k & cc & AU & FK & CP & EA & EB & _).
  destruct (K w k FK) as (KB & WB & IP & JP & RT). exists k. rewrite AU. split; [exact FK|].
  pose proof PI_RGT_0 as Q.
  assert (SP : 0 < sin (w / 2)) by (apply sin_gt_0; lra). assert (CO : 0 < cos (w / 2)) by (apply cos_gt_0; lra).
  assert (S2 : 0 < sin (w / 2) ^ 2) by now apply pow_lt. assert (C2 : 0 < cos (w / 2) ^ 2) by now apply pow_lt.
  set (fi := Rpower (2 * int_i k / PI / sin (w / 2) ^ 2) (1 / 3)) in *. set (gj := Rpower (2 * int_j k / PI / cos (w / 2) ^ 2) (1 / 3)) in *.
  assert (FP : 0 < fi) by apply exp_pos. assert (GP : 0 < gj) by apply exp_pos.
  assert (F3 : fi ^ 3 = 2 * int_i k / PI / sin (w / 2) ^ 2).
  { apply cube_root_cube. apply Rdiv_lt_0_compat; [|assumption]. apply Rdiv_lt_0_compat; lra. }
  assert (G3 : gj ^ 3 = 2 * int_j k / PI / cos (w / 2) ^ 2).
  { apply cube_root_cube. apply Rdiv_lt_0_compat; [|assumption]. apply Rdiv_lt_0_compat; lra. }
  assert (KF : gj = k * fi).
  { apply cube_inj; [lra|apply Rmult_le_pos; lra|]. rewrite Rpow_mult_distr, F3, G3.
    assert (JE : int_j k = int_i k * k ^ 3 * (cos (w / 2) ^ 2 / sin (w / 2) ^ 2)).
    { unfold tan in RT. replace (k ^ 3 / (sin (w / 2) / cos (w / 2)) ^ 2) with (k ^ 3 * (cos (w / 2) ^ 2 / sin (w / 2) ^ 2)) in RT by (field; lra).
      replace (int_j k) with (int_i k * (int_j k / int_i k)) by (field; lra). 
      replace (int_j k / int_i k) with (k ^ 3 * (cos (w / 2) ^ 2 / sin (w / 2) ^ 2)) by lra. ring. }
    rewrite JE. field. lra. }
  split; [rewrite EA, EB, KF; ring|]. rewrite EA, EB, KF. rewrite Rmult_assoc. assert (0 < fi * cc) by now apply Rmult_lt_0_compat. nra.
Qed.
(** Each body of an elliptical contact moves in proportion to its own compliance. *)
Theorem c98_deflection (x1 y1 x2 y2 : radius) (m1 m2 v1 v2 load angle : R) (line : bool) (f : full) (c : ellipse_res) :
  m1 <> 0 -> v1 ^ 2 <> 1 ->
  hertz_full [x1; y1] [x2; y2] [m1; m2] [v1; v2] load angle line = Ok f -> f_contact f = Ellipse c ->
  exists k, find_k (aux_angle (x1, y1) (x2, y2) (norm_angle angle)) = Ok k /\
  let shared := 3 * load / (2 * PI * el_a c) * int_h k in
  fst (el_deflection c) = shared * ((1 - v1 ^ 2) / m1) /\ snd (el_deflection c) = shared * ((1 - v2 ^ 2) / m2).
Proof.
  intros M V H E. destruct (c62_ellipse _ _ _ _ _ _ _ _ _ _ _ H E) as (_ & A & _).
  pose proof (full_inv _ _ _ _ _ _ _ _ _ _ _ _ _ _ H) as F. cbv zeta in F.
  destruct F as (L & _ & _ & _ & _ & _ & _ & _ & _ & _ & _ & _ & n1 & n2 & u1 & u2 & SM & SV & _ & D).
  inversion SM; subst n1 n2. inversion SV; subst u1 u2.
  destruct D as [(l & D & _)|[(_ & x & _ & _ & D)|(_ & x & y & _ & _ & _ & D)]]; [congruence|congruence|].
  rewrite E in D. unfold full_ellipse in D. destruct (aux_angle _ _ _) as [w|] eqn:AU.
  - destruct (find_k (Some w)) as [k|] eqn:K; [|discriminate]. cbn [bind fst snd] in D. exists k. split; [reflexivity|]. cbv zeta.
    pose proof PI_RGT_0 as Q. assert (T : 1 - v1 ^ 2 <> 0) by lra. set (t1 := 1 - v1 ^ 2) in *. clearbody t1.
    destruct (fltb _ _); inversion D; subst c; cbn [el_deflection el_a fst snd] in *; set (a := _ * Rpower (3 * load / 8 / _ * _) _) in *;
      clearbody a; (split; [|unfold Rdiv; set (i2 := / m2); clearbody i2]);
      field; repeat split; try assumption; apply Rgt_not_eq; lra.
  - destruct (find_k None); [|discriminate]. discriminate.
Qed.
Theorem c98_line (s : system) (r1 r2 : radius) : physical s -> valid r1 -> valid r2 -> curv r1 + curv r2 = / s_r s ->
  exists f c, hertz_full [r1; Flat] [r2; Flat] [s_e1 s; s_e2 s] [s_v1 s; s_v2 s] (s_load s) 0 true = Ok f /\ f_contact f = Line c /\
    carries_line (li_pressure c) (li_width c) (s_load s) /\ li_pressure c 0 = li_p0 c /\
    (forall x, li_tensile c x = - li_pressure c x /\ 0 <= li_pressure c x <= li_p0 c /\
       (li_pressure c x = 0 <-> li_width c <= Rabs x)).
Proof.
  intros P V1 V2 C. eexists. eexists. split; [now apply line_result|]. split; [reflexivity|].
  destruct (line_full_values s P) as [W M]. pose proof (line_a_pos s P) as A. pose proof PI_RGT_0 as Q. pose proof (line_p_pos s P) as PP.
  pose proof P as (_ & _ & _ & _ & _ & L).
  set (c := full_line _ _ _ _ _) in *.
  assert (PR : li_pressure c = line_pressure (line_a s) (s_load s) false) by (rewrite <- W; reflexivity).
  assert (TE : li_tensile c = line_pressure (line_a s) (s_load s) true) by (rewrite <- W; reflexivity).
  rewrite PR, TE, W, M. clear PR TE W M c. set (a := line_a s) in *.
  assert (IN : forall x, - a <= x <= a -> line_pressure a (s_load s) false x = 2 * s_load s / PI / a ^ 2 * sqrt (a ^ 2 - x ^ 2)).
  { intros x X. unfold line_pressure. rewrite Rmax_left, Rmin_left by (try apply Rmax_lub; lra). reflexivity. }
  assert (OUT : forall x, a <= x \/ x <= - a -> line_pressure a (s_load s) false x = 0).
  { intros x X. unfold line_pressure. assert (E : Rmin (Rmax x (- a)) a = a \/ Rmin (Rmax x (- a)) a = - a).
    { destruct X; [left; rewrite Rmax_left, Rmin_right by lra; reflexivity|right; rewrite Rmax_right, Rmin_left by lra; reflexivity]. }
    replace (a ^ 2 - Rmin (Rmax x (- a)) a ^ 2) with 0 by (destruct E as [-> | ->]; ring). rewrite sqrt_0. ring. }
  assert (KP : 0 < 2 * s_load s / PI / a ^ 2) by (apply Rdiv_lt_0_compat; [apply Rdiv_lt_0_compat; lra|now apply pow_lt]).
  assert (P0 : line_p s = 2 * s_load s / PI / a ^ 2 * a) by (unfold line_p; fold a; field; lra).
  split; [|split].
  - intros X HX. apply (is_RInt_larger _ a); [lra| |intros; apply OUT; now left|intros; apply OUT; now right].
    apply (is_RInt_ext (fun y => scal (2 * s_load s / PI / a ^ 2) (sqrt (a ^ 2 - y ^ 2)))).
    + intros x X'. rewrite Rmin_left, Rmax_right in X' by lra. rewrite IN by lra. reflexivity.
    + pose proof (is_RInt_scal (fun y => sqrt (a ^ 2 - y ^ 2)) (- a) a (2 * s_load s / PI / a ^ 2) _ (semicircle a ltac:(lra))) as K.
      assert (V : scal (2 * s_load s / PI / a ^ 2) (PI * a ^ 2 / 2) = s_load s).
      { change (2 * s_load s / PI / a ^ 2 * (PI * a ^ 2 / 2) = s_load s). field. lra. }
      refine (eq_rect _ (fun q => is_RInt _ (- a) a q) K _ V).
  - rewrite IN by lra. rewrite P0. replace (a ^ 2 - 0 ^ 2) with (a ^ 2) by ring. now rewrite sqrt_pow2 by lra.
  - intro x. split; [unfold line_pressure; ring|].
    destruct (Rle_lt_dec a (Rabs x)) as [X|X].
    + assert (X' : a <= x \/ x <= - a) by (unfold Rabs in X; destruct (Rcase_abs x); lra).
      rewrite (OUT x X'). split; [lra|]. tauto.
    + apply Rabs_lt_between in X. rewrite IN by lra.
      assert (S0 : 0 < a ^ 2 - x ^ 2) by (replace (a ^ 2 - x ^ 2) with ((a - x) * (a + x)) by ring; apply Rmult_lt_0_compat; lra).
      assert (S1 : 0 < sqrt (a ^ 2 - x ^ 2)) by now apply sqrt_lt_R0.
      assert (S2 : sqrt (a ^ 2 - x ^ 2) <= a) by (rewrite <- (sqrt_pow2 a) at 2 by lra; apply sqrt_le_1_alt; pose proof (pow2_ge_0 x); lra).
      split; [split; [apply Rmult_le_pos; lra|rewrite P0; apply Rmult_le_compat_l; lra]|].
      split; intro Z; [apply Rmult_integral in Z; lra|].
      exfalso. apply Rabs_lt_between in X. lra.
Qed.

(** ** C99: the displacements fit *)
(** Inside of the contact the displacements of the two spheres close the gap between them exactly, outside a gap
    stays. *)
Theorem c99_displacement (s : system) (r1 r2 : radius) : physical s -> valid r1 -> valid r2 -> curv r1 + curv r2 = / s_r s ->
  exists f c, hertz_full [r1] [r2] [s_e1 s; s_e2 s] [s_v1 s; s_v2 s] (s_load s) 0 false = Ok f /\ f_contact f = Sphere c /\
    forall x y, let d := sqrt (x ^ 2 + y ^ 2) in
      let u := fst (sp_uz c) x y + snd (sp_uz c) x y in
      (d <= sp_radius c -> u = sp_deflection c - d ^ 2 / (2 * s_r s)) /\
      (sp_radius c < d -> sp_deflection c - d ^ 2 / (2 * s_r s) < u).
Proof.
  intros P V1 V2 C. eexists. eexists. split; [now apply sphere_result|]. split; [reflexivity|].
  intros x y d. cbn [full_sphere sp_uz sp_radius sp_deflection fst snd]. rewrite sphere_a_eq.
  pose proof (point_a_pos s) as A. pose proof PI_RGT_0 as Q. pose proof (e_star_pos s P) as E. pose proof (point_a_cube s P) as AC.
  pose proof (inv_e_star s P) as IE. pose proof P as (R0 & E1 & E2 & B1 & B2 & L). set (a := point_a s) in *.
  set (p := 3 * s_load s / (2 * PI * a ^ 2)).
  assert (PE : p / e_star s = 2 * a / (PI * s_r s)).
  { assert (LD : s_load s = 4 * e_star s * a ^ 3 / (3 * s_r s)) by (rewrite AC; field; lra). unfold p. rewrite LD. field. lra. }
  unfold sphere_uz. fold d. split; intro D.
  - rewrite (proj2 (Rleb_true d a) D).
    replace ((1 - s_v1 s ^ 2) * PI * p / (s_e1 s * 4 * a) * (2 * a ^ 2 - d ^ 2) + (1 - s_v2 s ^ 2) * PI * p / (s_e2 s * 4 * a) * (2 * a ^ 2 - d ^ 2))
      with (((1 - s_v1 s ^ 2) / s_e1 s + (1 - s_v2 s ^ 2) / s_e2 s) * p * PI / (4 * a) * (2 * a ^ 2 - d ^ 2)) by (field; lra).
    rewrite <- IE. replace (/ e_star s * p) with (p / e_star s) by (unfold Rdiv; ring). rewrite PE. field. lra.
  - assert (B : Rleb d a = false) by (destruct (Rleb d a) eqn:B; [apply Rleb_true in B; lra|reflexivity]). rewrite B.
    set (g := (2 * a ^ 2 - d ^ 2) * asin (a / d) + d * a * sqrt (1 - a ^ 2 / d ^ 2)).
    replace ((1 - s_v1 s ^ 2) * p / (s_e1 s * 2 * a) * g + (1 - s_v2 s ^ 2) * p / (s_e2 s * 2 * a) * g)
      with (((1 - s_v1 s ^ 2) / s_e1 s + (1 - s_v2 s ^ 2) / s_e2 s) * p / (2 * a) * g) by (field; lra).
    rewrite <- IE. replace (/ e_star s * p) with (p / e_star s) by (unfold Rdiv; ring). rewrite PE.
    pose proof (outside_gap a d ltac:(lra)) as G. fold g in G.
    replace (a ^ 2 / s_r s - d ^ 2 / (2 * s_r s)) with (PI / 2 * (2 * a ^ 2 - d ^ 2) / (PI * s_r s)) by (field; lra).
    replace (2 * a / (PI * s_r s) / (2 * a) * g) with (g / (PI * s_r s)) by (field; lra).
    unfold Rdiv at 1 3. apply Rmult_lt_compat_r; [|exact G]. apply Rinv_0_lt_compat. now apply Rmult_lt_0_compat.
Qed.
End Full.

(** The cases are met: a sphere on a flat, a barrel on a flat. *)
Example c62_case : physical {| s_r := 1; s_e1 := 2; s_e2 := 3; s_v1 := 0.3; s_v2 := 0.25; s_load := 1 |} /\
  valid (Rad 1) /\ valid Flat /\ curv (Rad 1) + curv Flat = / 1.
Proof. unfold physical, valid, curv. cbn. repeat split; lra. Qed.
Example c97_accepted_case : curv (Rad 3) <= curv (Rad 1) /\ curv Flat <= curv Flat /\ curv (Rad 3) < curv (Rad 1) /\ Rabs 0 < PI / 4 /\
  1 + / 3 = curv (Rad 1) + curv (Rad 3) + curv Flat + curv Flat /\
  1 - / 3 = curvature_difference (curv (Rad 1) - curv (Rad 3)) (curv Flat - curv Flat) 0 /\ 0 <= / 3 /\ 1 <= 100000 * / 3.
Proof.
  pose proof PI_RGT_0. unfold curv, curvature_difference. rewrite Rabs_R0. repeat split; try lra.
  replace (sqrt _) with (sqrt ((1 - / 3) ^ 2)) by (f_equal; ring_simplify; lra). rewrite sqrt_pow2; lra.
Qed.
(** An oracle for which the elliptical contact is found, with axes in the ratio 2. *)
Definition case_k (w : option R) : result R :=
  match w with Some w => if Reqb w (PI / 3) then Ok (1 / 2) else Err ValueError | None => Err ValueError end.
Definition case_j (k : R) : R := 3 * k ^ 3.
Lemma case_root w k : case_k (Some w) = Ok k -> 0 < k <= 1 /\ 0 < w < PI /\ 0 < 1 /\ 0 < case_j k /\
  k ^ 3 / tan (w / 2) ^ 2 - case_j k / 1 = 0.
Proof.
  unfold case_k, case_j. destruct (Reqb w (PI / 3)) eqn:E; [|discriminate]. apply Reqb_true in E. intros [= <-].
  pose proof PI_RGT_0 as Q. subst w. repeat split; try lra.
  replace (PI / 3 / 2) with (PI / 6) by field. rewrite tan_PI6.
  assert (S : 0 < sqrt 3) by (apply sqrt_lt_R0; lra). assert (S2 : sqrt 3 ^ 2 = 3) by (apply pow2_sqrt; lra).
  replace ((1 / sqrt 3) ^ 2) with (/ sqrt 3 ^ 2) by (field; lra). rewrite S2. field.
Qed.
Lemma case_aux : aux_angle (Rad 1, Rad 3) (Flat, Flat) 0 = Some (PI / 3).
Proof.
  unfold aux_angle. cbn [fst snd curvature].
  replace (sqrt _ / _) with (1 / 2).
  - rewrite (proj2 (Rleb_true (Rabs (1 / 2)) 1)) by (rewrite Rabs_pos_eq; lra). f_equal. rewrite <- cos_PI3. apply acos_cos.
    pose proof PI_RGT_0. lra.
  - replace (_ + _ + (1 / 1 - 1 / 3) * (0 - 0) * cos (2 * 0)) with ((2 / 3) ^ 2) by (cbn [pow]; field). rewrite sqrt_pow2 by lra. field.
Qed.
Example c98_case : exists f c,
  HertzFullModel.hertz_full (fun _ => 1) case_j (fun _ => 1) case_k [Rad 1; Rad 3] [Flat; Flat] [2; 3] [0.3; 0.25] 1 0 false = Ok f /\
  f_contact f = Ellipse c.
Proof.
  destruct c97_accepted_case as (C1 & C2 & C3 & C4 & C5 & C6 & C7 & C8).
  destruct (c97_accepted (fun _ => 1) case_j (fun _ => 1) case_k (Rad 1) (Rad 3) Flat Flat 2 3 0.3 0.25 1 0 1 (/ 3)) as [_ H];
    [unfold valid; lra|unfold valid; lra|exact I|exact I|lra|exact C1|exact C2|now left|exact C4|exact C5|exact C6|exact C7|].
  specialize (H C8). cbv zeta in H. rewrite norm_zero, case_aux in H. destruct H as [_ H].
  destruct (H (1 / 2)) as (f & E & [[D _]|[_ [c D]]]).
  - unfold case_k. rewrite (proj2 (Reqb_true (PI / 3) (PI / 3))) by reflexivity. reflexivity.
  - discriminate.
  - exists f, c. split; [exact E|exact D].
Qed.

Print Assumptions c62_sphere.
Print Assumptions c62_line.
Print Assumptions c62_line_mean_refuted.
Print Assumptions c62_line_mises_refuted.
Print Assumptions c62_ellipse.
Print Assumptions c62_refused.
Print Assumptions c97_radii.
Print Assumptions c97_period.
Print Assumptions c97_sphere_refuted.
Print Assumptions c97_axes_refuted.
Print Assumptions c97_accepted.
Print Assumptions c97_auxiliary_refuted.
Print Assumptions c98_sphere.
Print Assumptions c98_ellipse.
Print Assumptions c98_ratio.
Print Assumptions c98_line.
Print Assumptions c99_displacement.
