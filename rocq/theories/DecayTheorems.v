(** C126: displacements decrease with the distance from the load. *)
From Coq Require Import String List Bool Arith ZArith Reals Lia Lra.
From Coquelicot Require Import Coquelicot.
From Verif Require Import Py SurfaceModel InfluenceModel InfluenceSpec InfluenceProofs ConvModel ConvSpec ConvProofs ConvTheorems InfluenceTheorems
  CerrutiSpec CerrutiProofs DecaySpec DecayProofs.
Import ListNotations.
Local Open Scope R_scope.

Definition stiff (g v : R) (g2 v2 : option R) : R :=
  (1 - v) / (2 * PI * g) + match g2, v2 with Some g', Some v' => (1 - v') / (2 * PI * g') | _, _ => 0 end.
Lemma coeff_zz n0 n1 h g v g2 v2 M a b : influence "zz" (n0, n1) (h, h) g v g2 v2 = Ok (Some M) -> in_span n0 a -> in_span n1 b ->
  coeff M a b = stiff g v g2 v2 * (h * zz 1 1 b a).
Proof.
  intros E A B. destruct (coeff_entry _ _ _ _ _ _ _ _ _ _ _ _ E A B) as (_ & _ & H).
  unfold entry in H. cbn [String.eqb Ascii.eqb Bool.eqb] in H. injection H as ->. unfold stiff, second_surface, zz.
  rewrite zz_square. destruct g2, v2; reflexivity.
Qed.
Lemma stiff_pos g v g2 v2 : 0 < g -> v < 1 -> (forall x y, g2 = Some x -> v2 = Some y -> 0 < x /\ y < 1) -> 0 < stiff g v g2 v2.
Proof.
  intros Hg Hv H. unfold stiff. pose proof PI_RGT_0.
  assert (P : forall x y, 0 < x -> y < 1 -> 0 < (1 - y) / (2 * PI * x)) by (intros; apply Rdiv_lt_0_compat; nra).
  specialize (P g v Hg Hv) as P1. destruct g2 as [x|], v2 as [y|]; try lra. destruct (H x y eq_refl eq_refl).
  specialize (P x y ltac:(assumption) ltac:(assumption)). lra.
Qed.

(** Further away on either axis is less, for one or two bodies: under the load it is largest. *)
Theorem c126_decay : forall n0 n1 h g v g2 v2 M a b a' b',
  influence "zz" (n0, n1) (h, h) g v g2 v2 = Ok (Some M) ->
  in_span n0 a -> in_span n1 b -> in_span n0 a' -> in_span n1 b' ->
  0 < h -> 0 < g -> v < 1 -> (forall x y, g2 = Some x -> v2 = Some y -> 0 < x /\ y < 1) ->
  (Z.abs a <= Z.abs a')%Z -> (Z.abs b <= Z.abs b')%Z -> (Z.abs a <> Z.abs a' \/ Z.abs b <> Z.abs b') ->
  coeff M a' b' < coeff M a b.
Proof.
  intros n0 n1 h g v g2 v2 M a b a' b' E A B A' B' Hh Hg Hv H2 La Lb N.
  rewrite !(coeff_zz _ _ _ _ _ _ _ _ _ _ E) by assumption. apply Rmult_lt_compat_l; [apply stiff_pos; assumption|].
  apply Rmult_lt_compat_l; [exact Hh|]. apply zz_decay; tauto.
Qed.
Print Assumptions c126_decay.

(** Every cell but that of the load acts like a point load somewhere inside of it. *)
Theorem c126_point_load : forall n0 n1 h g v M a b,
  influence "zz" (n0, n1) (h, h) g v None None = Ok (Some M) -> in_span n0 a -> in_span n1 b -> 0 < h ->
  (a <> 0 \/ b <> 0)%Z ->
  exists x y, inside_cell h a b x y /\ coeff M a b = (1 - v) / (2 * PI * g) * (h ^ 2 / dist x y).
Proof.
  intros n0 n1 h g v M a b E A B Hh N. rewrite (coeff_zz _ _ _ _ _ _ _ _ _ _ E A B).
  destruct (zz_point b a ltac:(tauto)) as (x & y & I & ->). exists (h * x), (h * y). split.
  - unfold inside_cell in *. repeat split; apply Rmult_lt_compat_l; lra.
  - unfold stiff. rewrite Rplus_0_r. f_equal. unfold dist. replace ((h * x) ^ 2 + (h * y) ^ 2) with (h ^ 2 * (x ^ 2 + y ^ 2)) by ring.
    rewrite sqrt_mult by nra. rewrite sqrt_pow2 by lra.
    assert (0 < sqrt (x ^ 2 + y ^ 2)).
    { apply sqrt_lt_R0. unfold inside_cell in I. destruct N as [N|N]; destruct (half_sign _ N); nra. }
    field. lra.
Qed.
Print Assumptions c126_point_load.

(** The cell of the load. *)
Theorem c126_centre : forall n0 n1 h g v M,
  influence "zz" (n0, n1) (h, h) g v None None = Ok (Some M) -> (0 < n0)%nat -> (0 < n1)%nat ->
  coeff M 0 0 = (1 - v) / (2 * PI * g) * (4 * h * ln (1 + sqrt 2)).
Proof.
  intros n0 n1 h g v M E N0 N1. rewrite (coeff_zz _ _ _ _ _ _ _ _ _ _ E).
  - rewrite zz_centre. unfold stiff. rewrite Rplus_0_r. f_equal. ring.
  - unfold in_span. assert ((n0 - 1) / 2 < n0)%nat by (apply Nat.div_lt_upper_bound; lia). lia.
  - unfold in_span. assert ((n1 - 1) / 2 < n1)%nat by (apply Nat.div_lt_upper_bound; lia). lia.
Qed.
Print Assumptions c126_centre.

(** The computed displacements by a load on one point are positive everywhere and decrease away from it. *)
Theorem c126_single_load : forall cuda fast nl0 nl1 n0 n1 h g v g2 v2 M f a b x loads,
  (forall q, (q <= fast q)%nat) -> influence "zz" (n0, n1) (h, h) g v g2 v2 = Ok (Some M) ->
  (2 * nl0 - 1 <= n0)%nat -> (2 * nl1 - 1 <= n1)%nat ->
  0 < h -> 0 < g -> v < 1 -> (forall x y, g2 = Some x -> v2 = Some y -> 0 < x /\ y < 1) ->
  plan_convolve cuda fast nl0 nl1 M None (Flag false) = Ok f ->
  (a < nl0)%nat -> (b < nl1)%nat -> rows loads = nl0 -> cols loads = nl1 ->
  0 < x -> at_ loads a b = x -> (forall i j, (i, j) <> (a, b) -> at_ loads i j = 0) ->
  exists u, run_full f (Full loads) = Ok (Full u) /\
    forall i j i' j', (i < nl0)%nat -> (j < nl1)%nat -> (i' < nl0)%nat -> (j' < nl1)%nat ->
      0 < at_ u i j /\
      let da := Z.abs (Z.of_nat i - Z.of_nat a) in let db := Z.abs (Z.of_nat j - Z.of_nat b) in
      let da' := Z.abs (Z.of_nat i' - Z.of_nat a) in let db' := Z.abs (Z.of_nat j' - Z.of_nat b) in
      (da <= da')%Z -> (db <= db')%Z -> (da < da' \/ db < db')%Z -> at_ u i' j' < at_ u i j.
Proof.
  intros cuda fast nl0 nl1 n0 n1 h g v g2 v2 M f a b x loads F E S0 S1 Hh Hg Hv H2 P Ha Hb R C Hx X Z.
  destruct (c34_point_load cuda fast nl0 nl1 M a b x f loads F P R C Ha Hb X Z) as (u & U & V).
  exists u. split; [exact U|]. intros i j i' j' Hi Hj Hi' Hj'. rewrite !V by assumption.
  assert (I : forall nl n p q, (2 * nl - 1 <= n)%nat -> (p < nl)%nat -> (q < nl)%nat -> in_span n (Z.of_nat p - Z.of_nat q)).
  { intros nl n p q H Hp Hq. unfold in_span.
    assert (nl - 1 <= (n - 1) / 2)%nat by (apply Nat.div_le_lower_bound; lia).
    pose proof (Nat.mul_div_le (n - 1) 2). lia. }
  split.
  - apply Rmult_lt_0_compat; [exact Hx|].
    apply (c36_positive n0 n1 h h g v g2 v2 M); try assumption; eapply I; eassumption.
  - cbv zeta. intros D1 D2 D3. apply Rmult_lt_compat_l; [exact Hx|].
    apply (c126_decay _ _ _ _ _ _ _ _ _ _ _ _ E); try assumption; try (eapply I; eassumption). lia.
Qed.
Print Assumptions c126_single_load.

Lemma total_le n f g : (forall i, (i < n)%nat -> f i <= g i) -> total n f <= total n g.
Proof. induction n as [|n IH]; intros H; cbn [total]; [lra|]. pose proof (H n ltac:(lia)). specialize (IH ltac:(intros; apply H; lia)). lra. Qed.
Lemma total_lt n k f g : (k < n)%nat -> (forall i, (i < n)%nat -> f i <= g i) -> f k < g k -> total n f < total n g.
Proof.
  induction n as [|n IH]; intros Hk H S; [lia|]. cbn [total]. destruct (Nat.eq_dec k n) as [-> |N].
  - pose proof (total_le n f g ltac:(intros; apply H; lia)). lra.
  - pose proof (H n ltac:(lia)). specialize (IH ltac:(lia) ltac:(intros; apply H; lia) S). lra.
Qed.
(** More load displaces more. *)
Theorem c126_more_load : forall cuda fast nl0 nl1 n0 n1 hx hy g v g2 v2 M f la lb,
  (forall q, (q <= fast q)%nat) -> influence "zz" (n0, n1) (hx, hy) g v g2 v2 = Ok (Some M) ->
  (2 * nl0 - 1 <= n0)%nat -> (2 * nl1 - 1 <= n1)%nat ->
  0 < hx -> 0 < hy -> 0 < g -> v < 1 -> (forall x y, g2 = Some x -> v2 = Some y -> 0 < x /\ y < 1) ->
  plan_convolve cuda fast nl0 nl1 M None (Flag false) = Ok f ->
  rows la = nl0 -> cols la = nl1 -> rows lb = nl0 -> cols lb = nl1 ->
  (forall i j, (i < nl0)%nat -> (j < nl1)%nat -> at_ la i j <= at_ lb i j) ->
  (exists i j, (i < nl0)%nat /\ (j < nl1)%nat /\ at_ la i j < at_ lb i j) ->
  exists ua ub, run_full f (Full la) = Ok (Full ua) /\ run_full f (Full lb) = Ok (Full ub) /\
    forall i j, (i < nl0)%nat -> (j < nl1)%nat -> at_ ua i j < at_ ub i j.
Proof.
  intros cuda fast nl0 nl1 n0 n1 hx hy g v g2 v2 M f la lb F E S0 S1 Hx Hy Hg Hv H2 P R1 C1 R2 C2 L (p & q & Hp & Hq & St).
  destruct (c34_non_periodic cuda fast nl0 nl1 M F) as (f' & P' & Q). rewrite P in P'. injection P' as <-.
  destruct (Q la R1 C1) as (ua & UA & _ & _ & VA). destruct (Q lb R2 C2) as (ub & UB & _ & _ & VB).
  exists ua, ub. split; [exact UA|]. split; [exact UB|]. intros i j Hi Hj. rewrite VA, VB by assumption.
  assert (I : forall nl n p q, (2 * nl - 1 <= n)%nat -> (p < nl)%nat -> (q < nl)%nat -> in_span n (Z.of_nat p - Z.of_nat q)).
  { intros nl n p' q' H Hp' Hq'. unfold in_span.
    assert (nl - 1 <= (n - 1) / 2)%nat by (apply Nat.div_le_lower_bound; lia).
    pose proof (Nat.mul_div_le (n - 1) 2). lia. }
  assert (K : forall i' j', (i' < nl0)%nat -> (j' < nl1)%nat -> 0 < coeff M (Z.of_nat i - Z.of_nat i') (Z.of_nat j - Z.of_nat j')).
  { intros i' j' Hi' Hj'. apply (c36_positive n0 n1 hx hy g v g2 v2 M); try assumption; eapply I; eassumption. }
  unfold total2. apply (total_lt nl0 p); [exact Hp| |].
  - intros i' Hi'. apply total_le. intros j' Hj'. apply Rmult_le_compat_r; [left; apply K; assumption|apply L; assumption].
  - apply (total_lt nl1 q); [exact Hq| |].
    + intros j' Hj'. apply Rmult_le_compat_r; [left; apply K; assumption|apply L; assumption].
    + apply Rmult_lt_compat_r; [apply K; assumption|exact St].
Qed.
Print Assumptions c126_more_load.

(** A matrix for steel on rubber with two different cells off the centre. *)
Example c126_case : exists M, influence "zz" (5, 4)%nat (1 / 1000, 1 / 1000) 80 (3 / 10) (Some (1 / 10)) (Some (49 / 100)) = Ok (Some M) /\
  coeff M (-2) 2 < coeff M 1 (-1).
Proof.
  destruct (influence_some "zz" 5 4 (1 / 1000) (1 / 1000) 80 (3 / 10) (Some (1 / 10)) (Some (49 / 100)) ltac:(eexists; reflexivity)) as [M E].
  exists M. split; [exact E|]. apply (c126_decay _ _ _ _ _ _ _ _ _ _ _ _ E); try (unfold in_span; cbn; lia); try lra; try lia.
  intros x y Ex Ey. injection Ex as <-. injection Ey as <-. lra.
Qed.

(** A load on one point of a 3 by 4 grid. *)
Example c126_single_case : exists M f u,
  influence "zz" (5, 7)%nat (1, 1) 80 (3 / 10) None None = Ok (Some M) /\
  plan_convolve false (fun q => q) 3 4 M None (Flag false) = Ok f /\
  run_full f (Full (Grid 3 4 (fun i j => if andb (i =? 1)%nat (j =? 2)%nat then 5 else 0))) = Ok (Full u) /\
  0 < at_ u 0 0 < at_ u 1 2.
Proof.
  destruct (influence_some "zz" 5 7 1 1 80 (3 / 10) None None ltac:(eexists; reflexivity)) as [M E].
  destruct (c34_non_periodic false (fun q => q) 3 4 M ltac:(lia)) as (f & P & _).
  set (loads := Grid 3 4 (fun i j => if andb (i =? 1)%nat (j =? 2)%nat then 5 else 0)).
  destruct (c126_single_load false (fun q => q) 3 4 5 7 1 80 (3 / 10) None None M f 1 2 5 loads) as (u & U & V);
    try assumption; try lia; try lra; try reflexivity; try discriminate.
  - intros i j N. unfold loads. cbn [at_]. destruct (Nat.eqb_spec i 1), (Nat.eqb_spec j 2); cbn [andb]; try reflexivity. congruence.
  - exists M, f, u. split; [exact E|]. split; [exact P|]. split; [exact U|].
    destruct (V 0 0 0 0)%nat as [V1 _]; try lia. destruct (V 1 2 0 0)%nat as [_ V2]; try lia. split; [exact V1|]. apply V2; lia.
Qed.
