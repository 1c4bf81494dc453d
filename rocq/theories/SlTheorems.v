(** Theorems about the Johnson SL distributions (C123). *)
From Coq Require Import Reals List Bool Arith Lra ClassicalEpsilon.
From Coquelicot Require Import Coquelicot.
From Verif Require Import Py SurfaceModel SlModel SlSpec SlProofs.
Import ListNotations.
Local Open Scope R_scope.

(** Below the location plus the scale the distribution function is right; quantiles are right everywhere. *)
Theorem c123_inside : forall Phi Quant a b loc scale x, normal Phi Quant -> 0 < b -> 0 < scale -> loc < x < loc + scale ->
  exists p, cdf (sl_gen Phi Quant) a b loc scale [x] = Ok [p] /\ distributed Phi a b loc scale x p.
Proof.
  intros Phi Quant a b loc scale x N Hb Hs Hx.
  assert (S0 : 0 < standard loc scale x < 1).
  { unfold standard. split; [ apply Rdiv_lt_0_compat; lra | ]. apply (Rmult_lt_reg_r scale); [ assumption | ]. unfold Rdiv. rewrite Rmult_assoc, Rinv_l by lra. lra. }
  eexists. split; [ apply cdf_inside, S0 | ]. exists (a + b * ln (standard loc scale x)).
  assert (E : x = number a b loc scale (a + b * ln (standard loc scale x))).
  { unfold number. replace ((a + b * ln (standard loc scale x) - a) / b) with (ln (standard loc scale x)) by (field; lra).
    rewrite exp_ln by lra. unfold standard. field. lra. }
  split; [ exact E | ]. split; [ | reflexivity ]. intros y. set (z := a + b * ln (standard loc scale x)) in *. rewrite E. unfold number.
  assert (M : forall u v, u <= v -> loc + scale * exp ((u - a) / b) <= loc + scale * exp ((v - a) / b)).
  { intros u v H. apply Rplus_le_compat_l, Rmult_le_compat_l; [ lra | ]. apply exp_mono. unfold Rdiv. apply Rmult_le_compat_r; [ left; apply Rinv_0_lt_compat; assumption | lra ]. }
  assert (L : forall u v, u < v -> loc + scale * exp ((u - a) / b) < loc + scale * exp ((v - a) / b)).
  { intros u v H. apply Rplus_lt_compat_l, Rmult_lt_compat_l; [ lra | ]. apply exp_increasing. unfold Rdiv. apply Rmult_lt_compat_r; [ apply Rinv_0_lt_compat; assumption | lra ]. }
  split; [ | apply M ]. intros H. destruct (Rle_lt_dec y z) as [H1 | H1]; [ exact H1 | ]. specialize (L _ _ H1). lra.
Qed.
Print Assumptions c123_inside.
Theorem c123_quantiles : forall Phi Quant a b loc scale z, normal Phi Quant ->
  ppf (sl_gen Phi Quant) a b loc scale (Phi z) = Ok (number a b loc scale z).
Proof. intros Phi Quant a b loc scale z (_ & Q). unfold ppf, number. cbn. rewrite Q. f_equal. ring. Qed.
Print Assumptions c123_quantiles.

(** Refuted: the distribution function is that of the numbers the quantiles give. Made from different normal numbers, with
    different probabilities, numbers from the location plus the scale on all have the value one; the function is the inverse
    of the quantiles only below. *)
Theorem c123_upper_refuted : forall Phi Quant a b loc scale y z, normal Phi Quant -> 0 < b -> 0 < scale -> a <= y -> y < z ->
  Phi y < Phi z /\
  cdf (sl_gen Phi Quant) a b loc scale [number a b loc scale y] = Ok [1] /\
  cdf (sl_gen Phi Quant) a b loc scale [number a b loc scale z] = Ok [1].
Proof.
  intros Phi Quant a b loc scale y z N Hb Hs Hy Hz. split; [ exact (Phi_increasing _ _ N _ _ Hz) | ].
  assert (G : forall t, a <= t -> cdf (sl_gen Phi Quant) a b loc scale [number a b loc scale t] = Ok [1]).
  { intros t Ht. apply cdf_above. rewrite standard_number by assumption. rewrite <- exp_0. apply exp_mono.
    apply Rmult_le_pos; [ lra | left; apply Rinv_0_lt_compat; assumption ]. }
  split; apply G; lra.
Qed.
Print Assumptions c123_upper_refuted.

(** Refuted: the density is the derivative of the distribution function. It is only where the square of the standardised
    number is the shape. *)
Definition value_at (r : result (list R)) : R := match r with Ok (v :: _) => v | _ => 0 end.
Theorem c123_density_refuted : forall Phi Quant a b loc scale x, normal Phi Quant -> 0 < scale -> loc < x < loc + scale ->
  exists p d, pdf (sl_gen Phi Quant) a b loc scale [x] = Ok [p] /\
    is_derive (fun t => value_at (cdf (sl_gen Phi Quant) a b loc scale [t])) x d /\
    (p = d <-> ((x - loc) / scale) ^ 2 = b).
Proof.
  intros Phi Quant a b loc scale x N Hs Hx.
  assert (S0 : forall t, loc < t < loc + scale -> 0 < standard loc scale t < 1).
  { intros t Ht. unfold standard. split; [ apply Rdiv_lt_0_compat; lra | ]. apply (Rmult_lt_reg_r scale); [ assumption | ]. unfold Rdiv. rewrite Rmult_assoc, Rinv_l by lra. lra. }
  pose proof (S0 x Hx) as Sx.
  eexists _, _. split; [ apply pdf_inside; lra | ]. split.
  - eapply is_derive_ext_loc; [ | exact (standard_inside_derive Phi Quant a b loc scale x N Hs (proj1 Sx)) ].
    assert (P : 0 < Rmin (x - loc) (loc + scale - x)) by (apply Rmin_pos; lra).
    exists (mkposreal _ P). intros t Ht. change (Rabs (t - x) < Rmin (x - loc) (loc + scale - x)) in Ht.
    pose proof (Rmin_l (x - loc) (loc + scale - x)). pose proof (Rmin_r (x - loc) (loc + scale - x)).
    apply Rabs_def2 in Ht. rewrite cdf_inside by (apply S0; lra). reflexivity.
  - change ((x - loc) / scale) with (standard loc scale x). set (y := standard loc scale x) in *. pose proof (phi_pos (a + b * ln y)) as P.
    set (f := phi (a + b * ln y)) in *. split; intros H.
    + assert (A : y * f / scale * (scale * y / f) = y ^ 2) by (field; split; lra).
      assert (B : b / (y * scale) * f * (scale * y / f) = b) by (field; repeat split; lra). rewrite <- A, H. exact B.
    + rewrite <- H. field. split; lra.
Qed.
Print Assumptions c123_density_refuted.

(** Refuted: the functions can be evaluated at several points. Two points inside raise. *)
Theorem c123_several_refuted : forall Phi Quant a b loc scale x y, 0 < scale -> loc < x < loc + scale -> loc < y < loc + scale ->
  cdf (sl_gen Phi Quant) a b loc scale [x; y] = Err TypeError /\ pdf (sl_gen Phi Quant) a b loc scale [x; y] = Err TypeError.
Proof.
  intros Phi Quant a b loc scale x y Hs Hx Hy.
  assert (S0 : forall t, loc < t < loc + scale -> 0 < standard loc scale t < 1).
  { intros t Ht. unfold standard. split; [ apply Rdiv_lt_0_compat; lra | ]. apply (Rmult_lt_reg_r scale); [ assumption | ]. unfold Rdiv. rewrite Rmult_assoc, Rinv_l by lra. lra. }
  pose proof (S0 x Hx). pose proof (S0 y Hy). unfold cdf, pdf, fill. cbn [argcheck sl_gen map filter existsb].
  rewrite !open_true, !closed_true by lra. split; reflexivity.
Qed.
Print Assumptions c123_several_refuted.

(** Refuted: a negative second shape is refused. The distribution function decreases. *)
Theorem c123_shape_refuted : forall Phi Quant a b loc scale x y, normal Phi Quant -> b < 0 -> 0 < scale ->
  loc < x -> x < y -> y < loc + scale ->
  exists p q, cdf (sl_gen Phi Quant) a b loc scale [x] = Ok [p] /\ cdf (sl_gen Phi Quant) a b loc scale [y] = Ok [q] /\ q < p.
Proof.
  intros Phi Quant a b loc scale x y N Hb Hs Hx Hxy Hy.
  assert (S0 : forall t, loc < t < loc + scale -> 0 < standard loc scale t < 1).
  { intros t Ht. unfold standard. split; [ apply Rdiv_lt_0_compat; lra | ]. apply (Rmult_lt_reg_r scale); [ assumption | ]. unfold Rdiv. rewrite Rmult_assoc, Rinv_l by lra. lra. }
  eexists _, _. split; [ apply cdf_inside, S0; lra | ]. split; [ apply cdf_inside, S0; lra | ].
  apply (Phi_increasing Phi Quant N). apply Rplus_lt_compat_l.
  assert (ln (standard loc scale x) < ln (standard loc scale y)).
  { apply ln_increasing; [ apply S0; lra | ]. unfold standard, Rdiv. apply Rmult_lt_compat_r; [ apply Rinv_0_lt_compat; assumption | lra ]. }
  nra.
Qed.
Print Assumptions c123_shape_refuted.

(** Refuted: the second distribution can be used. Every call raises; its density is not that of its distribution function
    anywhere inside either. *)
Theorem c123_other_refuted : forall Phi Quant a b loc scale xs q,
  cdf (sl_gen2 Phi Quant) a b loc scale xs = Err TypeError /\
  pdf (sl_gen2 Phi Quant) a b loc scale xs = Err TypeError /\
  ppf (sl_gen2 Phi Quant) a b loc scale q = Err TypeError.
Proof. intros. repeat split. Qed.
Print Assumptions c123_other_refuted.
Theorem c123_other_density_refuted : forall Phi Quant a b x, normal Phi Quant -> b <> 0 -> 0 < x < 1 ->
  exists p d, pdf_ (sl_gen2 Phi Quant) [x] a b = Ok p /\
    is_derive (fun t => match cdf_ (sl_gen2 Phi Quant) [t] a b with Ok v => v | _ => 0 end) x d /\ p <> d.
Proof.
  intros Phi Quant a b x N Hb Hx.
  assert (S1 : forall t, standard 0 1 t = t) by (intros; unfold standard; field).
  eexists _, _. split; [ | split ].
  - cbn. unfold log_of. rewrite Rltb_t by lra. reflexivity.
  - eapply is_derive_ext_loc; [ | apply (standard_inside_derive Phi Quant a b 0 1 x N); [ lra | rewrite S1; lra ] ].
    exists (mkposreal x (proj1 Hx)). intros t Ht. change (Rabs (t - x) < x) in Ht. apply Rabs_def2 in Ht. rewrite S1. cbn. unfold log_of. rewrite Rltb_t by lra. reflexivity.
  - rewrite S1. pose proof (phi_pos (a + b * ln x)) as P. intros H.
    set (f := phi (a + b * ln x)) in *.
    assert (A : b * f * (x / (b * f)) = x) by (field; split; lra).
    assert (B : b / (x * 1) * f * (x / (b * f)) = 1) by (field; repeat split; lra). assert (H' : b * f = b / (x * 1) * f) by exact H.
    rewrite H' in A at 1. rewrite B in A. lra.
Qed.
Print Assumptions c123_other_density_refuted.

(** A normal distribution function and quantiles exist. *)
Example c123_normal : exists Phi Quant, normal Phi Quant.
Proof.
  set (f := fun x => exp (- x ^ 2 / 2) / sqrt (2 * PI)).
  assert (C : forall x, continuous f x).
  { intros x. apply (ex_derive_continuous f). unfold f. auto_derive. exact Logic.I. }
  set (Phi := fun x => / 2 + RInt f 0 x).
  assert (D : forall x, is_derive Phi x (f x)).
  { intros x. assert (D0 : is_derive (fun t => RInt f 0 t) x (f x)).
    { apply (is_derive_RInt f _ 0 x); [ | apply C ]. exists (mkposreal 1 Rlt_0_1). intros y _. apply (RInt_correct f), (ex_RInt_continuous f). intros; apply C. }
    pose proof (is_derive_plus (fun _ : R => / 2) (fun t => RInt f 0 t) x zero (f x) (is_derive_const (V := R_NormedModule) (/ 2) x) D0) as E.
    rewrite plus_zero_l in E. exact E. }
  assert (I : forall x y, x < y -> Phi x < Phi y).
  { intros x y H. apply (incr_function Phi m_infty p_infty f); try exact Logic.I; try assumption; try (intros t _ _; apply D); try (intros t _ _; apply phi_pos). }
  exists Phi, (fun q => epsilon (inhabits 0) (fun z => Phi z = q)). split; [ exact D | ].
  intros z. pose proof (epsilon_spec (inhabits 0) (fun t => Phi t = Phi z) (ex_intro _ z eq_refl)) as E. cbv beta in E.
  set (t := epsilon _ _) in *. destruct (Rtotal_order t z) as [H | [H | H]]; [ | exact H | ]; specialize (I _ _ H); lra.
Qed.

(** Several points of which one is inside: its values are those it has alone, the density of the others is zero and their
    probabilities are zero below and one above. *)
Theorem c123_one_inside : forall Phi Quant a b loc scale before x after, 0 < scale -> loc < x < loc + scale ->
  List.Forall (fun t => t < loc \/ loc + scale < t) (before ++ after) ->
  exists p c, pdf (sl_gen Phi Quant) a b loc scale [x] = Ok [p] /\ cdf (sl_gen Phi Quant) a b loc scale [x] = Ok [c] /\
    pdf (sl_gen Phi Quant) a b loc scale (before ++ [x] ++ after) = Ok (map (fun _ => 0) before ++ [p] ++ map (fun _ => 0) after) /\
    cdf (sl_gen Phi Quant) a b loc scale (before ++ [x] ++ after) =
      Ok (map (fun t => if Rlt_dec t loc then 0 else 1) before ++ [c] ++ map (fun t => if Rlt_dec t loc then 0 else 1) after).
Proof.
  intros Phi Quant a b loc scale l1 x l2 Hs Hx F.
  assert (Lo : forall t, t < loc -> standard loc scale t < 0).
  { intros t H. unfold standard. apply (Rmult_lt_reg_r scale); [assumption|]. unfold Rdiv. rewrite Rmult_assoc, Rinv_l by lra. lra. }
  assert (Up : forall t, loc + scale < t -> 1 < standard loc scale t).
  { intros t H. unfold standard. apply (Rmult_lt_reg_r scale); [assumption|]. unfold Rdiv. rewrite Rmult_assoc, Rinv_l by lra. lra. }
  assert (In0 : 0 < standard loc scale x < 1).
  { unfold standard. split; apply (Rmult_lt_reg_r scale); try assumption; unfold Rdiv; rewrite Rmult_assoc, Rinv_l by lra; lra. }
  apply Forall_app in F as [F1 F2].
  assert (G : forall inside out v l, (forall t, t < loc \/ loc + scale < t -> inside (standard loc scale t) = false) ->
    List.Forall (fun t => t < loc \/ loc + scale < t) l -> existsb inside (map (standard loc scale) l) = false /\ filter inside (map (standard loc scale) l) = [] /\
    map (fun y => if inside y then v else out y) (map (standard loc scale) l) = map (fun t => out (standard loc scale t) : R) l).
  { intros inside out v l Hi Fl. induction Fl as [|t l Ht _ IH]; [repeat split|]. destruct IH as (E1 & E2 & E3). cbn. rewrite (Hi t Ht), E1, E2, E3. repeat split. }
  assert (C : forall t, t < loc \/ loc + scale < t -> closed_support (standard loc scale t) = false).
  { intros t [H|H]; unfold closed_support; [rewrite Rltb_t by (apply Lo, H); reflexivity|rewrite (Rltb_t 1) by (apply Up, H); apply andb_false_r]. }
  assert (Op : forall t, t < loc \/ loc + scale < t -> open_support (standard loc scale t) = false).
  { intros t [H|H]; unfold open_support; [rewrite (Rltb_f 0) by (apply Rlt_le, Lo, H); reflexivity|rewrite (Rltb_f _ 1) by (apply Rlt_le, Up, H); apply andb_false_r]. }
  assert (E : forall inside (out : R -> R) (value : R), inside (standard loc scale x) = true ->
    (forall t, t < loc \/ loc + scale < t -> inside (standard loc scale t) = false) ->
    fill out inside (Ok value) (map (standard loc scale) (l1 ++ [x] ++ l2)) = Ok (map (fun t => out (standard loc scale t)) l1 ++ [value] ++ map (fun t => out (standard loc scale t)) l2)
    /\ filter inside (map (standard loc scale) (l1 ++ [x] ++ l2)) = [standard loc scale x] /\ fill out inside (Ok value) [standard loc scale x] = Ok [value]).
  { intros inside out value T N. unfold fill. rewrite !map_app, existsb_app, filter_app. cbn [map app existsb filter]. rewrite T.
    destruct (G inside out value l1 N F1) as (A1 & A2 & A3). destruct (G inside out value l2 N F2) as (B1 & B2 & B3). rewrite A1, A2, B2.
    cbn [orb bind app]. rewrite map_app, A3. cbn [map]. rewrite T, B3. now repeat split. }
  assert (L : log_of [standard loc scale x] = Ok (ln (standard loc scale x))) by (apply log_one; lra).
  destruct (E closed_support (fun _ => 0) (hd 0 [standard loc scale x] * phi (a + b * ln (standard loc scale x)) / scale) ltac:(apply closed_true; lra) C) as (P1 & P2 & P3).
  destruct (E open_support (fun y => if Rltb y 1 then 0 else 1) (Phi (a + b * ln (standard loc scale x))) ltac:(now apply open_true) Op) as (Q1 & Q2 & Q3).
  eexists _, _. unfold pdf, cdf. cbn [argcheck sl_gen pdf_ cdf_]. rewrite P2, Q2. cbn [map filter]. rewrite (closed_true (standard loc scale x)), (open_true _ In0) by lra.
  rewrite L. cbn [bind]. split; [exact P3|]. split; [exact Q3|]. split; [exact P1|]. rewrite Q1. f_equal.
  assert (M : forall l, List.Forall (fun t => t < loc \/ loc + scale < t) l -> map (fun t => if Rltb (standard loc scale t) 1 then 0 else 1) l = map (fun t => if Rlt_dec t loc then 0 else 1) l).
  { induction 1 as [|t l H _ IH]; [reflexivity|]. cbn [map]. rewrite IH. f_equal. destruct (Rlt_dec t loc) as [Ht|Ht].
    - rewrite Rltb_t; [reflexivity|]. specialize (Lo t Ht). lra.
    - destruct H as [H|H]; [contradiction|]. rewrite Rltb_f; [reflexivity|]. apply Rlt_le, Up, H. }
  now rewrite (M l1 F1), (M l2 F2).
Qed.
Print Assumptions c123_one_inside.

(** At the location the density can't be found, the probability is zero. *)
Theorem c123_location : forall Phi Quant a b loc scale, 0 < scale ->
  pdf (sl_gen Phi Quant) a b loc scale [loc] = Err ValueError /\ cdf (sl_gen Phi Quant) a b loc scale [loc] = Ok [0].
Proof.
  intros Phi Quant a b loc scale H. assert (E : standard loc scale loc = 0) by (unfold standard; field; lra).
  unfold pdf, cdf, fill. cbn [argcheck sl_gen map filter existsb pdf_ cdf_]. rewrite E. unfold open_support. rewrite closed_true by lra. rewrite (Rltb_f 0 0) by lra.
  cbn [andb orb bind]. unfold log_of. rewrite (Rltb_f 0 0), (Rltb_t 0 1) by lra. split; reflexivity.
Qed.
Print Assumptions c123_location.
