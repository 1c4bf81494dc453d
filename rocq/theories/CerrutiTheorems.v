(** C125: tangential and coupling influence coefficients are the integrals over the cells. *)
From Coq Require Import String List Bool Arith ZArith Reals Lia Lra.
From Coquelicot Require Import Coquelicot.
From Verif Require Import Py SurfaceModel InfluenceModel InfluenceSpec InfluenceProofs ConvModel ConvSpec ConvProofs InfluenceTheorems
  CerrutiSpec CerrutiProofs.
Import ListNotations.
Local Open Scope R_scope.

Ltac get_entry E A B := let H := fresh in destruct (coeff_entry _ _ _ _ _ _ _ _ _ _ _ _ E A B) as (_ & _ & H);
  unfold entry, second_surface in H; cbn [String.eqb Ascii.eqb Bool.eqb smem existsb orb] in H; injection H as ->; rewrite Rplus_0_r.

(** Square cells: tangential loads in their own direction, tangential displacements in x by
    pressures, normal displacements by tangential loads in y. *)
Theorem c125_cells : forall n0 n1 h g v M a b,
  in_span n0 a -> in_span n1 b -> 0 < h ->
  (influence "xx" (n0, n1) (h, h) g v None None = Ok (Some M) -> cell_value (u_xx g v) h h a b (coeff M a b)) /\
  (influence "yy" (n0, n1) (h, h) g v None None = Ok (Some M) -> cell_value (u_yy g v) h h a b (coeff M a b)) /\
  (influence "xz" (n0, n1) (h, h) g v None None = Ok (Some M) -> cell_value (u_xz g v) h h a b (coeff M a b)) /\
  (influence "zy" (n0, n1) (h, h) g v None None = Ok (Some M) -> cell_value (u_zy g v) h h a b (coeff M a b)).
Proof.
  intros n0 n1 h g v M a b A B Hh. refine (Logic.conj _ (Logic.conj _ (Logic.conj _ _))); intros E; get_entry E A B.
  - apply cell_xx. exact Hh.
  - apply cell_yy. exact Hh.
  - replace ((2 * v - 1) / (4 * PI * g)) with (- ((1 - 2 * v) / (4 * PI * g))) by (unfold Rdiv; ring). apply cell_x. exact Hh.
  - apply cell_y. exact Hh.
Qed.
Print Assumptions c125_cells.

(** Displacements in one tangential direction by loads in the other, also for rectangular cells. *)
Theorem c125_rectangular : forall comp n0 n1 hx hy g v M a b, comp = "xy"%string \/ comp = "yx"%string ->
  influence comp (n0, n1) (hx, hy) g v None None = Ok (Some M) -> in_span n0 a -> in_span n1 b -> 0 < hx -> 0 < hy ->
  cell_value (u_xy g v) hx hy a b (coeff M a b).
Proof.
  intros comp n0 n1 hx hy g v M a b [-> | ->] E A B Hx Hy; get_entry E A B; apply cell_xy; assumption.
Qed.
Print Assumptions c125_rectangular.

(** The other two are the integrals with the wrong sign. *)
Theorem c125_opposite : forall n0 n1 h g v M a b,
  in_span n0 a -> in_span n1 b -> 0 < h ->
  (influence "zx" (n0, n1) (h, h) g v None None = Ok (Some M) -> cell_value (u_zx g v) h h a b (- coeff M a b)) /\
  (influence "yz" (n0, n1) (h, h) g v None None = Ok (Some M) -> cell_value (u_yz g v) h h a b (- coeff M a b)).
Proof.
  intros n0 n1 h g v M a b A B Hh. split; intros E; get_entry E A B.
  - replace (- ((2 * v - 1) / (4 * PI * g) * _)) with ((1 - 2 * v) / (4 * PI * g) *
      shape_xz h h (IZR b + 1 / 2) (IZR b - 1 / 2) (IZR a + 1 / 2) (IZR a - 1 / 2)) by (unfold Rdiv; ring).
    apply cell_x. exact Hh.
  - rewrite <- Ropp_mult_distr_l_reverse. apply cell_y. exact Hh.
Qed.
Print Assumptions c125_opposite.

Lemma near_span n d : (3 <= n)%nat -> (-1 <= d <= 1)%Z -> in_span n d.
Proof.
  intros H Hd. unfold in_span. assert (1 <= (n - 1) / 2)%nat by (apply Nat.div_le_lower_bound; lia).
  pose proof (Nat.mul_div_le (n - 1) 2). lia.
Qed.
Lemma coupling_neq g v : 0 < g -> v <> 1 / 2 -> (1 - 2 * v) / (4 * PI * g) <> 0.
Proof.
  intros Hg Hv. pose proof PI_RGT_0. assert (0 < 4 * PI * g) by nra.
  apply Rmult_integral_contrapositive_currified; [lra|]. apply Rinv_neq_0_compat. lra.
Qed.
(** For every compressible material they are not the integrals. *)
Theorem c125_sign_refuted : forall n0 n1 h g v, (3 <= n0)%nat -> (3 <= n1)%nat -> 0 < h -> 0 < g -> v <> 1 / 2 ->
  (exists M, influence "zx" (n0, n1) (h, h) g v None None = Ok (Some M) /\ ~ cell_value (u_zx g v) h h 0 1 (coeff M 0 1)) /\
  (exists M, influence "yz" (n0, n1) (h, h) g v None None = Ok (Some M) /\ ~ cell_value (u_yz g v) h h 1 0 (coeff M 1 0)).
Proof.
  intros n0 n1 h g v N0 N1 Hh Hg Hv. pose proof (coupling_neq g v Hg Hv) as Nc. pose proof (xz_neighbour h h Hh Hh) as P.
  split.
  - destruct (influence_some "zx" n0 n1 h h g v None None ltac:(eexists; reflexivity)) as [M E]. exists M. split; [exact E|].
    assert (A : in_span n0 0) by (apply near_span; lia). assert (B : in_span n1 1) by (apply near_span; lia).
    destruct (c125_opposite n0 n1 h g v M 0 1 A B Hh) as [O _]. specialize (O E). intros C.
    destruct O as (_ & O & _), C as (_ & C & _). specialize (O ltac:(lia)). specialize (C ltac:(lia)).
    rewrite <- O in C. revert C. get_entry E A B. fold (xz h h 1 0). intros C.
    apply Nc. apply (Rmult_eq_reg_r (xz h h 1 0)); [|lra]. replace (2 * v - 1) with (- (1 - 2 * v)) in C by ring.
    unfold Rdiv in *. lra.
  - destruct (influence_some "yz" n0 n1 h h g v None None ltac:(eexists; reflexivity)) as [M E]. exists M. split; [exact E|].
    assert (A : in_span n0 1) by (apply near_span; lia). assert (B : in_span n1 0) by (apply near_span; lia).
    destruct (c125_opposite n0 n1 h g v M 1 0 A B Hh) as [_ O]. specialize (O E). intros C.
    destruct O as (O & _ & _), C as (C & _ & _). specialize (O ltac:(lia)). specialize (C ltac:(lia)).
    rewrite <- O in C. revert C. get_entry E A B. rewrite shape_zy_swap. fold (xz h h 1 0). intros C.
    apply Nc. apply (Rmult_eq_reg_r (xz h h 1 0)); [|lra]. lra.
Qed.
Print Assumptions c125_sign_refuted.

(** Rectangular cells: the coupling coefficient grows with the length of the cells without bound,
    the displacement does not. *)
Theorem c125_rectangular_refuted : forall n0 n1 hx g v, (3 <= n0)%nat -> (3 <= n1)%nat -> 0 < hx -> 0 < g -> v <> 1 / 2 ->
  exists bound, forall hy, bound < hy -> exists M, influence "xz" (n0, n1) (hx, hy) g v None None = Ok (Some M) /\
    ~ cell_value (u_xz g v) hx hy 0 1 (coeff M 0 1).
Proof.
  intros n0 n1 hx g v N0 N1 Hx Hg Hv. pose proof (coupling_neq g v Hg Hv) as Nc.
  assert (L : 0 < ln 5) by (rewrite <- ln_1; apply ln_increasing; lra). pose proof PI_RGT_0 as HP.
  exists (2 * (hx * PI) / ln 5). intros hy Hy.
  assert (Hy0 : 0 < hy).
  { assert (0 < 2 * (hx * PI) / ln 5) by (apply Rdiv_lt_0_compat; [nra|exact L]). lra. }
  assert (Hyc : hx * PI < hy / 2 * ln 5).
  { apply (Rmult_lt_compat_r (ln 5)) in Hy; [|exact L]. replace (2 * (hx * PI) / ln 5 * ln 5) with (2 * (hx * PI)) in Hy by (field; lra). lra. }
  destruct (influence_some "xz" n0 n1 hx hy g v None None ltac:(eexists; reflexivity)) as [M E]. exists M. split; [exact E|].
  assert (A : in_span n0 0) by (apply near_span; lia). assert (B : in_span n1 1) by (apply near_span; lia).
  get_entry E A B. fold (xz hx hy 1 0). intros (_ & C & _). specialize (C ltac:(lia)).
  pose proof (neighbour_bound (- ((1 - 2 * v) / (4 * PI * g))) hx hy Hx Hy0) as Q.
  change (over' (fun x y => - ((1 - 2 * v) / (4 * PI * g)) * (x / dist x y ^ 2))) with (over' (u_xz g v)) in Q.
  rewrite <- C in Q. replace ((2 * v - 1) / (4 * PI * g)) with (- ((1 - 2 * v) / (4 * PI * g))) in Q by (unfold Rdiv; ring).
  rewrite Rabs_mult in Q. pose proof (xz_grows hx hy Hx) as G.
  rewrite (Rabs_right (xz hx hy 1 0)) in Q by nra.
  assert (0 < Rabs (- ((1 - 2 * v) / (4 * PI * g)))) by (apply Rabs_pos_lt; lra).
  apply Rmult_le_reg_l in Q; [lra|assumption].
Qed.
Print Assumptions c125_rectangular_refuted.

(** There are such matrices, with index differences off the centre. *)
Example c125_case : forall comp, In comp ["xx"; "yy"; "xz"; "zx"; "zy"; "yz"; "xy"; "yx"]%string ->
  (exists M, influence comp (5, 4)%nat (1, 1) 80 (3 / 10) None None = Ok (Some M)) /\ in_span 5 (-2) /\ in_span 4 2.
Proof.
  intros comp H. split; [|unfold in_span; cbn; lia]. apply influence_some.
  repeat (destruct H as [<- |H]; [eexists; reflexivity|]). destruct H.
Qed.
