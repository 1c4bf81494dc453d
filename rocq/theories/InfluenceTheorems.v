(** C36: influence coefficients; C74: reciprocity of the normal displacements; C75: the coupling
    of normal and tangential directions; C76: the integral over the cell. *)
From Coq Require Import String List Bool Arith ZArith Reals Lia Lra.
From Coquelicot Require Import Coquelicot.
From Verif Require Import Py SurfaceModel InfluenceModel InfluenceSpec InfluenceProofs ConvModel ConvSpec ConvProofs ConvTheorems.
Import ListNotations.
Local Open Scope R_scope.

(** The list of index differences has zero exactly once, at the centre of the convolution. *)
Theorem c36_centre : forall s i, (0 < s)%nat -> (offset s i = 0%Z <-> i = ((s - 1) / 2)%nat).
Proof. intros s i H. rewrite offset_spec by exact H. lia. Qed.
Print Assumptions c36_centre.

Lemma entry_some comp hx hy g v s a b a' b' : entry comp hx hy g v s a b = None -> entry comp hx hy g v s a' b' = None.
Proof.
  unfold entry. destruct (comp =? "zz")%string; [discriminate|]. destruct (comp =? "xx")%string; [discriminate|].
  destruct (comp =? "yy")%string; [discriminate|]. destruct (smem comp _); [discriminate|].
  destruct (smem comp _); [discriminate|]. destruct (smem comp _); [discriminate|]. reflexivity.
Qed.
Lemma coeff_entry comp n0 n1 hx hy g v g2 v2 M a b :
  influence comp (n0, n1) (hx, hy) g v g2 v2 = Ok (Some M) -> in_span n0 a -> in_span n1 b ->
  rows M = n0 /\ cols M = n1 /\ Some (coeff M a b) = entry comp hx hy g v (second_surface g2 v2) b a.
Proof.
  intros E A B. unfold influence in E. cbn [fst snd] in E.
  destruct (entry comp hx hy g v (second_surface g2 v2) 0 0) as [x|] eqn:E0; [|discriminate]. injection E as <-.
  split; [reflexivity|]. split; [reflexivity|]. unfold coeff, in_span in *. cbn [rows cols at_].
  destruct (Z.leb_spec 0 (a + Z.of_nat ((n0 - 1) / 2))); [|lia].
  destruct (Z.ltb_spec (a + Z.of_nat ((n0 - 1) / 2)) (Z.of_nat n0)); [|lia].
  destruct (Z.leb_spec 0 (b + Z.of_nat ((n1 - 1) / 2))); [|lia].
  destruct (Z.ltb_spec (b + Z.of_nat ((n1 - 1) / 2)) (Z.of_nat n1)); [|lia]. cbn [andb].
  rewrite !offset_spec by lia. rewrite !Z2Nat.id by lia.
  replace (a + Z.of_nat ((n0 - 1) / 2) - Z.of_nat ((n0 - 1) / 2))%Z with a by lia.
  replace (b + Z.of_nat ((n1 - 1) / 2) - Z.of_nat ((n1 - 1) / 2))%Z with b by lia.
  destruct (entry comp hx hy g v (second_surface g2 v2) b a) eqn:E1; [reflexivity|].
  rewrite (entry_some _ _ _ _ _ _ _ _ 0 0 E1) in E0. discriminate.
Qed.
Lemma influence_some comp n0 n1 hx hy g v g2 v2 : (exists x, entry comp hx hy g v (second_surface g2 v2) 0 0 = Some x) ->
  exists M, influence comp (n0, n1) (hx, hy) g v g2 v2 = Ok (Some M).
Proof. intros [x E]. unfold influence. cbn [fst snd]. rewrite E. eexists. reflexivity. Qed.

(** The coefficient of an index difference does not depend on the span. *)
Theorem c36_any_span : forall comp n0 n1 n0' n1' hx hy g v g2 v2 M M' a b,
  influence comp (n0, n1) (hx, hy) g v g2 v2 = Ok (Some M) -> influence comp (n0', n1') (hx, hy) g v g2 v2 = Ok (Some M') ->
  in_span n0 a -> in_span n1 b -> in_span n0' a -> in_span n1' b -> coeff M a b = coeff M' a b.
Proof.
  intros comp n0 n1 n0' n1' hx hy g v g2 v2 M M' a b E E' A B A' B'.
  destruct (coeff_entry _ _ _ _ _ _ _ _ _ _ _ _ E A B) as (_ & _ & H).
  destruct (coeff_entry _ _ _ _ _ _ _ _ _ _ _ _ E' A' B') as (_ & _ & H'). congruence.
Qed.
Print Assumptions c36_any_span.

(** The normal coefficient depends only on the absolute index differences. *)
Theorem c36_symmetric : forall n0 n1 hx hy g v g2 v2 M a b a' b',
  influence "zz" (n0, n1) (hx, hy) g v g2 v2 = Ok (Some M) ->
  in_span n0 a -> in_span n1 b -> in_span n0 a' -> in_span n1 b' ->
  Z.abs a = Z.abs a' -> Z.abs b = Z.abs b' -> coeff M a b = coeff M a' b'.
Proof.
  intros n0 n1 hx hy g v g2 v2 M a b a' b' E A B A' B' Ha Hb.
  destruct (coeff_entry _ _ _ _ _ _ _ _ _ _ _ _ E A B) as (_ & _ & H).
  destruct (coeff_entry _ _ _ _ _ _ _ _ _ _ _ _ E A' B') as (_ & _ & H').
  unfold entry in H, H'. cbn [String.eqb Ascii.eqb Bool.eqb] in H, H'. injection H as ->. injection H' as ->.
  change (shape_zz hx hy (IZR b + 1 / 2) (IZR b - 1 / 2) (IZR a + 1 / 2) (IZR a - 1 / 2)) with (zz hx hy b a).
  change (shape_zz hx hy (IZR b' + 1 / 2) (IZR b' - 1 / 2) (IZR a' + 1 / 2) (IZR a' - 1 / 2)) with (zz hx hy b' a').
  rewrite (zz_abs hx hy b a b' a') by assumption. reflexivity.
Qed.
Print Assumptions c36_symmetric.

(** Normal coefficients are positive for every material: pressure moves every point of the
    surface in its direction. *)
Theorem c36_positive : forall n0 n1 hx hy g v g2 v2 M a b,
  influence "zz" (n0, n1) (hx, hy) g v g2 v2 = Ok (Some M) -> in_span n0 a -> in_span n1 b ->
  0 < hx -> 0 < hy -> 0 < g -> v < 1 ->
  (forall x y, g2 = Some x -> v2 = Some y -> 0 < x /\ y < 1) -> 0 < coeff M a b.
Proof.
  intros n0 n1 hx hy g v g2 v2 M a b E A B Hx Hy Hg Hv H2.
  destruct (coeff_entry _ _ _ _ _ _ _ _ _ _ _ _ E A B) as (_ & _ & H).
  unfold entry in H. cbn [String.eqb Ascii.eqb Bool.eqb] in H. injection H as ->.
  pose proof PI_RGT_0 as Pi.
  apply Rmult_lt_0_compat; [|apply (zz_positive hx hy b a); assumption].
  assert (P : forall g v, 0 < g -> v < 1 -> 0 < (1 - v) / (2 * PI * g)).
  { intros. apply Rdiv_lt_0_compat; [lra|]. apply Rmult_lt_0_compat; lra. }
  pose proof (P g v Hg Hv). destruct g2 as [x|], v2 as [y|]; cbn [second_surface]; try lra.
  destruct (H2 x y eq_refl eq_refl). pose proof (P x y). apply Rplus_lt_0_compat; auto.
Qed.
Print Assumptions c36_positive.

(** The matrix for two bodies is the sum of the matrices of both bodies. *)
Theorem c36_additive : forall comp n0 n1 hx hy g v g' v' M M1 M2 a b,
  comp <> "xx"%string -> comp <> "yy"%string ->
  influence comp (n0, n1) (hx, hy) g v (Some g') (Some v') = Ok (Some M) ->
  influence comp (n0, n1) (hx, hy) g v None None = Ok (Some M1) ->
  influence comp (n0, n1) (hx, hy) g' v' None None = Ok (Some M2) ->
  in_span n0 a -> in_span n1 b -> coeff M a b = coeff M1 a b + coeff M2 a b.
Proof.
  intros comp n0 n1 hx hy g v g' v' M M1 M2 a b Nx Ny E E1 E2 A B.
  destruct (coeff_entry _ _ _ _ _ _ _ _ _ _ _ _ E A B) as (_ & _ & H).
  destruct (coeff_entry _ _ _ _ _ _ _ _ _ _ _ _ E1 A B) as (_ & _ & H1).
  destruct (coeff_entry _ _ _ _ _ _ _ _ _ _ _ _ E2 A B) as (_ & _ & H2).
  unfold entry, second_surface in *.
  destruct (String.eqb_spec comp "xx"); [contradiction|]. destruct (String.eqb_spec comp "yy"); [contradiction|].
  destruct (comp =? "zz")%string; [|destruct (smem comp ["xz"; "zx"]%string);
    [|destruct (smem comp ["yx"; "xy"]%string); [|destruct (smem comp ["zy"; "yz"]%string); [|discriminate]]]];
  injection H as ->; injection H1 as ->; injection H2 as ->; ring.
Qed.
Print Assumptions c36_additive.

(** For xx and yy only when the Poisson's ratios agree. *)
Theorem c36_additive_tangential : forall comp n0 n1 hx hy g v g' v' M M1 M2 a b,
  comp = "xx"%string \/ comp = "yy"%string -> v = v' ->
  influence comp (n0, n1) (hx, hy) g v (Some g') (Some v') = Ok (Some M) ->
  influence comp (n0, n1) (hx, hy) g v None None = Ok (Some M1) ->
  influence comp (n0, n1) (hx, hy) g' v' None None = Ok (Some M2) ->
  in_span n0 a -> in_span n1 b -> coeff M a b = coeff M1 a b + coeff M2 a b.
Proof.
  intros comp n0 n1 hx hy g v g' v' M M1 M2 a b C <- E E1 E2 A B.
  destruct (coeff_entry _ _ _ _ _ _ _ _ _ _ _ _ E A B) as (_ & _ & H).
  destruct (coeff_entry _ _ _ _ _ _ _ _ _ _ _ _ E1 A B) as (_ & _ & H1).
  destruct (coeff_entry _ _ _ _ _ _ _ _ _ _ _ _ E2 A B) as (_ & _ & H2).
  unfold entry, second_surface in *.
  destruct C as [->| ->]; cbn [String.eqb Ascii.eqb Bool.eqb] in *; injection H as ->; injection H1 as ->; injection H2 as ->; ring.
Qed.
Print Assumptions c36_additive_tangential.

Lemma self_log : 0 < ln ((1 / 2 + sqrt ((1 / 2) ^ 2 + (1 / 2) ^ 2)) / (- (1 / 2) + sqrt ((1 / 2) ^ 2 + (- (1 / 2)) ^ 2))).
Proof.
  pose proof (phi_pos (1 / 2) (- (1 / 2)) (1 / 2) ltac:(lra) ltac:(lra)) as P. unfold phi, ldiff in P.
  rewrite ln_div by (apply plus_sqrt_pos; lra). lra.
Qed.
(** Otherwise the combined xx and yy matrices use the Poisson's ratio of the first body for
    both: the coefficient of the loaded point differs from the sum for all different ratios. *)
Theorem c36_additive_refuted : forall comp n0 n1 hx hy g v g' v',
  comp = "xx"%string \/ comp = "yy"%string -> (0 < n0)%nat -> (0 < n1)%nat -> 0 < hx -> 0 < hy -> 0 < g -> 0 < g' -> v <> v' ->
  exists M M1 M2, influence comp (n0, n1) (hx, hy) g v (Some g') (Some v') = Ok (Some M) /\
    influence comp (n0, n1) (hx, hy) g v None None = Ok (Some M1) /\
    influence comp (n0, n1) (hx, hy) g' v' None None = Ok (Some M2) /\
    coeff M 0 0 <> coeff M1 0 0 + coeff M2 0 0.
Proof.
  intros comp n0 n1 hx hy g v g' v' C N0 N1 Hx Hy Hg Hg' Hv.
  assert (S : forall g v g2 v2, exists x, entry comp hx hy g v (second_surface g2 v2) 0 0 = Some x).
  { intros. unfold entry. destruct C as [->| ->]; cbn [String.eqb Ascii.eqb Bool.eqb]; eexists; reflexivity. }
  destruct (influence_some comp n0 n1 hx hy g v (Some g') (Some v') (S _ _ _ _)) as [M E].
  destruct (influence_some comp n0 n1 hx hy g v None None (S _ _ _ _)) as [M1 E1].
  destruct (influence_some comp n0 n1 hx hy g' v' None None (S _ _ _ _)) as [M2 E2].
  exists M, M1, M2. split; [exact E|]. split; [exact E1|]. split; [exact E2|].
  assert (A : in_span n0 0) by (unfold in_span; pose proof (Nat.div_le_upper_bound (n0 - 1) 2 (n0 - 1) ltac:(lia) ltac:(lia)); lia).
  assert (B : in_span n1 0) by (unfold in_span; pose proof (Nat.div_le_upper_bound (n1 - 1) 2 (n1 - 1) ltac:(lia) ltac:(lia)); lia).
  destruct (coeff_entry _ _ _ _ _ _ _ _ _ _ _ _ E A B) as (_ & _ & H).
  destruct (coeff_entry _ _ _ _ _ _ _ _ _ _ _ _ E1 A B) as (_ & _ & H1).
  destruct (coeff_entry _ _ _ _ _ _ _ _ _ _ _ _ E2 A B) as (_ & _ & H2).
  pose proof PI_RGT_0 as Pi. pose proof self_log as L.
  assert (L' : ln ((- (1 / 2) + sqrt ((- (1 / 2)) ^ 2 + (- (1 / 2)) ^ 2)) / (1 / 2 + sqrt ((- (1 / 2)) ^ 2 + (1 / 2) ^ 2))) =
    - ln ((1 / 2 + sqrt ((1 / 2) ^ 2 + (1 / 2) ^ 2)) / (- (1 / 2) + sqrt ((1 / 2) ^ 2 + (- (1 / 2)) ^ 2)))).
  { rewrite !neg_sq. rewrite <- ln_Rinv.
    - f_equal. pose proof (plus_sqrt_pos (1 / 2) (1 / 2) ltac:(lra)). pose proof (plus_sqrt_pos (1 / 2) (- (1 / 2)) ltac:(lra)) as Q.
      rewrite neg_sq in Q. field. split; lra.
    - pose proof (plus_sqrt_pos (1 / 2) (- (1 / 2)) ltac:(lra)) as Q. rewrite neg_sq in Q.
      apply Rdiv_lt_0_compat; [apply plus_sqrt_pos; lra|exact Q]. }
  assert (L2 : ln ((1 / 2 + sqrt ((1 / 2) ^ 2 + (1 / 2) ^ 2)) / (- (1 / 2) + sqrt ((- (1 / 2)) ^ 2 + (1 / 2) ^ 2))) =
    ln ((1 / 2 + sqrt ((1 / 2) ^ 2 + (1 / 2) ^ 2)) / (- (1 / 2) + sqrt ((1 / 2) ^ 2 + (- (1 / 2)) ^ 2)))).
  { rewrite !neg_sq. reflexivity. }
  assert (L3 : ln ((- (1 / 2) + sqrt ((- (1 / 2)) ^ 2 + (- (1 / 2)) ^ 2)) / (1 / 2 + sqrt ((1 / 2) ^ 2 + (- (1 / 2)) ^ 2))) =
    - ln ((1 / 2 + sqrt ((1 / 2) ^ 2 + (1 / 2) ^ 2)) / (- (1 / 2) + sqrt ((1 / 2) ^ 2 + (- (1 / 2)) ^ 2)))).
  { rewrite <- L', !neg_sq. reflexivity. }
  unfold entry, second_surface in *.
  destruct C as [->| ->]; cbn [String.eqb Ascii.eqb Bool.eqb] in *; injection H as ->; injection H1 as ->; injection H2 as ->;
  unfold shape_xx, shape_yy;
  replace (IZR 0 + 1 / 2) with (1 / 2) by lra; replace (IZR 0 - 1 / 2) with (- (1 / 2)) by lra;
  set (l := ln ((1 / 2 + sqrt ((1 / 2) ^ 2 + (1 / 2) ^ 2)) / (- (1 / 2) + sqrt ((1 / 2) ^ 2 + (- (1 / 2)) ^ 2)))) in *;
  rewrite L', L2, L3; intros F; apply Hv.
  - assert (D : hx * l / (2 * PI * g') * (v - v') = 0).
    { apply Rminus_diag_eq in F. rewrite <- Ropp_0, <- F. field. lra. }
    apply Rmult_integral in D. destruct D as [D|D]; [|lra]. exfalso. revert D. apply Rgt_not_eq.
    apply Rdiv_lt_0_compat; [apply Rmult_lt_0_compat; lra|apply Rmult_lt_0_compat; lra].
  - assert (D : hy * l / (2 * PI * g') * (v - v') = 0).
    { apply Rminus_diag_eq in F. rewrite <- Ropp_0, <- F. field. lra. }
    apply Rmult_integral in D. destruct D as [D|D]; [|lra]. exfalso. revert D. apply Rgt_not_eq.
    apply Rdiv_lt_0_compat; [apply Rmult_lt_0_compat; lra|apply Rmult_lt_0_compat; lra].
Qed.
Print Assumptions c36_additive_refuted.

(** Giving only one parameter of the second body is not rejected: the other body is left out. *)
Theorem c36_check_refuted : forall comp span hs g v x,
  influence comp span hs g v (Some x) None = influence comp span hs g v None None /\
  influence comp span hs g v None (Some x) = influence comp span hs g v None None.
Proof. intros. split; reflexivity. Qed.
Print Assumptions c36_check_refuted.

(** C74: the displacement of A by a load at B is the displacement of B by the same load at A,
    for all pairs of points of a grid covered by the span. *)
Theorem c74_reciprocal : forall cuda fast nl0 nl1 n0 n1 hx hy g v g2 v2 M f a b a' b' x la lb,
  (forall q, (q <= fast q)%nat) ->
  influence "zz" (n0, n1) (hx, hy) g v g2 v2 = Ok (Some M) ->
  (2 * nl0 - 1 <= n0)%nat -> (2 * nl1 - 1 <= n1)%nat ->
  plan_convolve cuda fast nl0 nl1 M None (Flag false) = Ok f ->
  (a < nl0)%nat -> (b < nl1)%nat -> (a' < nl0)%nat -> (b' < nl1)%nat ->
  rows la = nl0 -> cols la = nl1 -> at_ la a b = x -> (forall i j, (i, j) <> (a, b) -> at_ la i j = 0) ->
  rows lb = nl0 -> cols lb = nl1 -> at_ lb a' b' = x -> (forall i j, (i, j) <> (a', b') -> at_ lb i j = 0) ->
  exists u w, run_full f (Full la) = Ok (Full u) /\ run_full f (Full lb) = Ok (Full w) /\ at_ u a' b' = at_ w a b.
Proof.
  intros cuda fast nl0 nl1 n0 n1 hx hy g v g2 v2 M f a b a' b' x la lb F E S0 S1 P Ha Hb Ha' Hb' R1 C1 X1 Z1 R2 C2 X2 Z2.
  destruct (c34_point_load cuda fast nl0 nl1 M a b x f la F P R1 C1 Ha Hb X1 Z1) as (u & U & V).
  destruct (c34_point_load cuda fast nl0 nl1 M a' b' x f lb F P R2 C2 Ha' Hb' X2 Z2) as (w & W & Y).
  exists u, w. split; [exact U|]. split; [exact W|]. rewrite V, Y by assumption. f_equal.
  assert (I : forall nl n p q, (2 * nl - 1 <= n)%nat -> (p < nl)%nat -> (q < nl)%nat -> in_span n (Z.of_nat p - Z.of_nat q)).
  { intros nl n p q H Hp Hq. unfold in_span.
    assert (nl - 1 <= (n - 1) / 2)%nat by (apply Nat.div_le_lower_bound; lia).
    pose proof (Nat.mul_div_le (n - 1) 2). lia. }
  apply (c36_symmetric n0 n1 hx hy g v g2 v2 M); try assumption; try lia; eapply I; eassumption.
Qed.
Print Assumptions c74_reciprocal.

(** C75: the tangential displacement by a pressure and the normal displacement by a traction are
    given by the same odd coefficient, so the load at A and the response at B cannot be
    exchanged: reciprocity would need the coefficients of opposite differences to be equal. *)
Theorem c75_coupling_odd : forall comp n0 n1 hx hy g v g2 v2 M a b,
  comp = "xz"%string \/ comp = "zx"%string ->
  influence comp (n0, n1) (hx, hy) g v g2 v2 = Ok (Some M) ->
  in_span n0 a -> in_span n1 b -> in_span n0 (- a) -> in_span n1 (- b) -> coeff M (- a) (- b) = - coeff M a b.
Proof.
  intros comp n0 n1 hx hy g v g2 v2 M a b C E A B A' B'.
  destruct (coeff_entry _ _ _ _ _ _ _ _ _ _ _ _ E A B) as (_ & _ & H).
  destruct (coeff_entry _ _ _ _ _ _ _ _ _ _ _ _ E A' B') as (_ & _ & H').
  unfold entry in *.
  destruct C as [->| ->]; cbn [String.eqb Ascii.eqb Bool.eqb smem existsb orb] in *; injection H as ->; injection H' as ->;
  fold (xz hx hy b a) (xz hx hy (- b) (- a)); rewrite xz_odd, xz_opp_y; ring.
Qed.
Print Assumptions c75_coupling_odd.

Theorem c75_reciprocal_refuted : forall n0 n1 hx hy g v,
  (3 <= n0)%nat -> (3 <= n1)%nat -> 0 < hx -> 0 < hy -> 0 < g -> v <> 1 / 2 ->
  exists Mxz Mzx, influence "xz" (n0, n1) (hx, hy) g v None None = Ok (Some Mxz) /\
    influence "zx" (n0, n1) (hx, hy) g v None None = Ok (Some Mzx) /\ coeff Mxz 0 1 <> coeff Mzx 0 (-1).
Proof.
  intros n0 n1 hx hy g v N0 N1 Hx Hy Hg Hv.
  destruct (influence_some "xz" n0 n1 hx hy g v None None ltac:(eexists; reflexivity)) as [M E].
  destruct (influence_some "zx" n0 n1 hx hy g v None None ltac:(eexists; reflexivity)) as [M' E'].
  exists M, M'. split; [exact E|]. split; [exact E'|].
  assert (I : forall n d, (3 <= n)%nat -> (-1 <= d <= 1)%Z -> in_span n d).
  { intros n d H Hd. unfold in_span. assert (1 <= (n - 1) / 2)%nat by (apply Nat.div_le_lower_bound; lia).
    pose proof (Nat.mul_div_le (n - 1) 2). lia. }
  destruct (coeff_entry _ _ _ _ _ _ _ _ _ _ _ _ E (I n0 0%Z N0 ltac:(lia)) (I n1 1%Z N1 ltac:(lia))) as (_ & _ & H).
  destruct (coeff_entry _ _ _ _ _ _ _ _ _ _ _ _ E' (I n0 0%Z N0 ltac:(lia)) (I n1 (-1)%Z N1 ltac:(lia))) as (_ & _ & H').
  unfold entry, second_surface in *. cbn [String.eqb Ascii.eqb Bool.eqb smem existsb orb] in *. injection H as ->. injection H' as ->.
  fold (xz hx hy 1 0) (xz hx hy (-1) 0). change (xz hx hy (-1) 0) with (xz hx hy (- (1)) 0). rewrite xz_odd.
  pose proof (xz_neighbour hx hy Hx Hy) as P. pose proof PI_RGT_0 as Pi. intros F.
  assert (D : ((2 * v - 1) / (4 * PI * g) + 0) * xz hx hy 1 0 = 0) by lra.
  apply Rmult_integral in D. destruct D as [D|D]; [|lra]. rewrite Rplus_0_r in D.
  apply Rmult_integral in D. destruct D as [D|D]; [lra|].
  apply Rinv_neq_0_compat in D; [exact D|]. apply Rmult_integral_contrapositive_currified; lra.
Qed.
Print Assumptions c75_reciprocal_refuted.

(** C76: for square cells each normal coefficient is the displacement by unit pressure on the
    cell: (1 - v) / (2 pi G) times the integral of 1 / distance over the cell. *)
Theorem c76_cell_integral : forall n0 n1 h g v M a b,
  influence "zz" (n0, n1) (h, h) g v None None = Ok (Some M) -> in_span n0 a -> in_span n1 b -> 0 < h ->
  let x0 := h * (IZR b - 1 / 2) in let x1 := h * (IZR b + 1 / 2) in
  let y0 := h * (IZR a - 1 / 2) in let y1 := h * (IZR a + 1 / 2) in
  (a <> 0%Z -> coeff M a b = (1 - v) / (2 * PI * g) * integral x0 x1 y0 y1) /\
  (b <> 0%Z -> coeff M a b = (1 - v) / (2 * PI * g) * integral' x0 x1 y0 y1) /\
  (a = 0%Z -> b = 0%Z ->
    exists c, coeff M a b = (1 - v) / (2 * PI * g) * c /\
      filterlim (fun e => integral x0 x1 y0 (- e) + integral x0 x1 e y1) (at_right 0) (locally c)).
Proof.
  intros n0 n1 h g v M a b E A B Hh x0 x1 y0 y1.
  destruct (coeff_entry _ _ _ _ _ _ _ _ _ _ _ _ E A B) as (_ & _ & H).
  unfold entry, second_surface in H. cbn [String.eqb Ascii.eqb Bool.eqb] in H. injection H as ->. rewrite Rplus_0_r.
  assert (Sg : forall x, x <> 0 -> h * x <> 0) by (intros x Hx; apply Rmult_integral_contrapositive_currified; lra).
  destruct (half_neq a) as [A1 A2], (half_neq b) as [B1 B2].
  assert (Sd : forall d, (d <> 0)%Z -> (0 < h * (IZR d - 1 / 2) /\ 0 < h * (IZR d + 1 / 2)) \/ (h * (IZR d - 1 / 2) < 0 /\ h * (IZR d + 1 / 2) < 0)).
  { intros d Hd. destruct (half_sign d Hd) as [[P Q]|[P Q]]; [left|right]; nra. }
  split; [|split].
  - intros Ha. f_equal. unfold integral, x0, x1, y0, y1. rewrite cell_integral by auto.
    rewrite outer_scale, zz_square, zz_outer by assumption. reflexivity.
  - intros Hb. f_equal. unfold integral', x0, x1, y0, y1.
    rewrite (RInt_ext _ (fun x => RInt (fun y => / sqrt (y ^ 2 + x ^ 2)) (h * (IZR a - 1 / 2)) (h * (IZR a + 1 / 2)))).
    2:{ intros x _. apply RInt_ext. intros y _. rewrite Rplus_comm. reflexivity. }
    rewrite cell_integral by auto. rewrite outer_scale, zz_swap, zz_square, zz_outer by assumption. reflexivity.
  - intros -> ->. eexists. split; [reflexivity|]. subst x0 x1 y0 y1.
    replace (h * (IZR 0 - 1 / 2)) with (- (h / 2)) by (simpl; field). replace (h * (IZR 0 + 1 / 2)) with (h / 2) by (simpl; field).
    replace (IZR 0 + 1 / 2) with (1 / 2) by lra. replace (IZR 0 - 1 / 2) with (- (1 / 2)) by lra.
    apply self_integral_scaled. exact Hh.
Qed.
Print Assumptions c76_cell_integral.

(** Not so for rectangular cells: the coefficient of every stretched enough cell next to the
    load in y is larger than the integral over the cell. *)
Theorem c76_rectangular_refuted : forall n0 n1 hx g v, (3 <= n0)%nat -> (3 <= n1)%nat -> 0 < hx -> 0 < g -> v < 1 ->
  exists bound, forall hy, bound < hy -> exists M, influence "zz" (n0, n1) (hx, hy) g v None None = Ok (Some M) /\
    (1 - v) / (2 * PI * g) * integral (- (hx / 2)) (hx / 2) (hy / 2) (hy * 3 / 2) < coeff M 1 0.
Proof.
  intros n0 n1 hx g v N0 N1 Hx Hg Hv.
  set (c := phi (1 / 2) (- (1 / 2)) (3 / 2) - phi (1 / 2) (- (1 / 2)) (1 / 2)).
  assert (Hc : 0 < c) by (unfold c; pose proof (phi_increasing (1 / 2) (- (1 / 2)) (1 / 2) (3 / 2)); lra).
  exists (Rmax 0 (2 * hx / c)). intros hy Hy.
  assert (Hy0 : 0 < hy) by (pose proof (Rmax_l 0 (2 * hx / c)); lra).
  assert (Hyc : 2 * hx < hy * c).
  { apply (Rmult_lt_reg_r (/ c)); [apply Rinv_0_lt_compat; exact Hc|].
    replace (hy * c * / c) with hy by (field; lra). pose proof (Rmax_r 0 (2 * hx / c)). unfold Rdiv in *. lra. }
  destruct (influence_some "zz" n0 n1 hx hy g v None None ltac:(eexists; reflexivity)) as [M E]. exists M. split; [exact E|].
  assert (I : forall n d, (3 <= n)%nat -> (-1 <= d <= 1)%Z -> in_span n d).
  { intros n d H Hd. unfold in_span. assert (1 <= (n - 1) / 2)%nat by (apply Nat.div_le_lower_bound; lia).
    pose proof (Nat.mul_div_le (n - 1) 2). lia. }
  destruct (coeff_entry _ _ _ _ _ _ _ _ _ _ _ _ E (I n0 1%Z N0 ltac:(lia)) (I n1 0%Z N1 ltac:(lia))) as (_ & _ & H).
  unfold entry, second_surface in H. cbn [String.eqb Ascii.eqb Bool.eqb] in H. injection H as ->. rewrite Rplus_0_r.
  pose proof PI_RGT_0 as Pi.
  apply Rmult_lt_compat_l; [apply Rdiv_lt_0_compat; [lra|apply Rmult_lt_0_compat; lra]|].
  unfold integral. rewrite cell_integral by lra.
  pose proof (cell_bound (hx / 2) (- (hx / 2)) (hy / 2) (hy * 3 / 2) ltac:(lra) ltac:(lra) ltac:(lra) ltac:(lra) ltac:(lra)) as Bd.
  replace ((hy * 3 / 2 - hy / 2) * ((hx / 2 - - (hx / 2)) / (hy / 2))) with (2 * hx) in Bd by (field; lra).
  destruct (half_neq 0), (half_neq 1). rewrite zz_phi by assumption.
  replace (IZR 0 + 1 / 2) with (1 / 2) by lra. replace (IZR 0 - 1 / 2) with (- (1 / 2)) by lra.
  replace (IZR 1 + 1 / 2) with (3 / 2) by lra. replace (IZR 1 - 1 / 2) with (1 / 2) by lra. fold c.
  pose proof (phi_pos (3 / 2) (1 / 2) (1 / 2) ltac:(lra) ltac:(lra)) as P. rewrite phi_opp.
  assert (0 < hx * (phi (3 / 2) (1 / 2) (1 / 2) - - phi (3 / 2) (1 / 2) (1 / 2))) by (apply Rmult_lt_0_compat; lra). lra.
Qed.
Print Assumptions c76_rectangular_refuted.

(** Every component of every material exists, and the hypotheses on spans are met. *)
Example c36_case : exists M, influence "zz" (6%nat, 5%nat) (1, 1) 80 (3 / 10) (Some 70) (Some (1 / 4)) = Ok (Some M) /\
  in_span 6 3 /\ in_span 6 (-2) /\ in_span 5 (-2) /\ ~ in_span 6 (-3).
Proof.
  destruct (influence_some "zz" 6 5 1 1 80 (3 / 10) (Some 70) (Some (1 / 4)) ltac:(eexists; reflexivity)) as [M E].
  exists M. split; [exact E|]. unfold in_span. cbn. lia.
Qed.
