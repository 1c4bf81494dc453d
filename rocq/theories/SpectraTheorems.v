(** Theorems on the spectra of surfaces, C109. *)
From Coq Require Import Reals List Bool Arith ZArith Lia Lra.
From Verif Require Import Py SurfaceModel ConvModel ConvSpec ConvProofs DftProofs FilterProofs SpectraModel SpectraSpec SpectraProofs.
Import ListNotations.
Local Open Scope R_scope.
Add Ring cplx_ring_sp : cplx_ring.

Definition spline_type := nat -> (nat -> R) -> nat -> (nat -> R) -> (nat -> nat -> R) -> R -> R -> R.
Lemma made (spline : spline_type) s p : profile s = Some p -> (4 <= rows p)%nat -> (4 <= cols p)%nat ->
  exists a, new_acf spline (profile s) (spacing s) = Ok a /\ original a = acf_array p /\ method a = spline (rows p) (acf_points (rows p) (spacing s)) (cols p) (acf_points (cols p) (spacing s)) (at_ (acf_array p)).
Proof. intros P N M. rewrite P. cbn [new_acf]. rewrite (proj2 (Nat.ltb_lt 3 (rows p))), (proj2 (Nat.ltb_lt 3 (cols p))) by lia. eexists. split; [reflexivity|]. split; reflexivity. Qed.

(** C109: the autocorrelation of a surface, for every state of it: entry (i, j) is the mean product of the heights a lag apart
    (missing pairs count as zero), with no lag in the middle; there it is the mean square of the heights, which is not
    exceeded anywhere; lags and their opposites have the same value. *)
Theorem c109_acf (spline : spline_type) : forall s p, profile s = Some p -> (4 <= rows p)%nat -> (4 <= cols p)%nat ->
  exists s' a, op_run spline s [GetAcf] = Ok s' /\ acf s' = Some a /\ rows (original a) = rows p /\ cols (original a) = cols p /\
    (forall i j, (i < rows p)%nat -> (j < cols p)%nat -> at_ (original a) i j = autocovariance p (lag (rows p) i) (lag (cols p) j)) /\
    at_ (original a) (rows p / 2) (cols p / 2) = mean_square p /\
    (forall i j, (i < rows p)%nat -> (j < cols p)%nat -> Rabs (at_ (original a) i j) <= mean_square p) /\
    (forall i j i' j', (i < rows p)%nat -> (j < cols p)%nat -> (i' < rows p)%nat -> (j' < cols p)%nat -> (i + i' = 2 * (rows p / 2))%nat -> (j + j' = 2 * (cols p / 2))%nat -> at_ (original a) i j = at_ (original a) i' j').
Proof.
  intros s p P N M. destruct (made spline s p P N M) as (a & A & O & _). cbn [op_run op_step get_acf]. unfold get_acf. rewrite A. cbn [bind]. exists (Spectral (heights s) (inverted s) (spacing s) (fft s) (Some a) (psd s)), a. split; [reflexivity|]. split; [reflexivity|]. rewrite O. split; [reflexivity|]. split; [reflexivity|].
  assert (V := acf_is p). split; [intros; now apply V|]. split; [|split].
  - rewrite V by (apply half_lt; lia). rewrite !lag_middle. apply cov_zero.
  - intros i j I J. rewrite V by assumption. apply cov_bound; lia.
  - intros i j i' j' I J I' J' SI SJ. rewrite !V by assumption. rewrite <- cov_sym. f_equal; unfold lag; lia.
Qed.
Print Assumptions c109_acf.

(** C109: turning the surface over changes nothing in it. *)
Theorem c109_inverted : forall g sp b f f' k i j, (i < rows g)%nat -> (j < cols g)%nat ->
  forall p q, profile (Spectral (Some g) b sp f k f') = Some p -> profile (Spectral (Some g) (negb b) sp f k f') = Some q ->
  at_ (acf_array p) i j = at_ (acf_array q) i j.
Proof.
  intros g sp b f f' k i j I J.
  assert (X : at_ (acf_array (Grid (rows g) (cols g) (fun i j => -1 * at_ g i j))) i j = at_ (acf_array g) i j).
  { rewrite !acf_is by (cbn; assumption). unfold autocovariance. cbn [rows cols]. f_equal. apply pairs_ext. intros a a' _ _. apply pairs_ext. intros b' b'' _ _. cbn [at_]. ring. }
  intros p q P Q. destruct b; cbn in P, Q; inversion P; inversion Q; subst; [exact X|symmetry; exact X].
Qed.
Print Assumptions c109_inverted.

(** C109: called at the origin the autocorrelation is the mean square, for odd numbers of points. *)
Theorem c109_origin (spline : spline_type) : through spline -> forall s p, profile s = Some p -> (4 <= rows p)%nat -> (4 <= cols p)%nat ->
  exists s' a, op_run spline s [GetAcf] = Ok s' /\ acf s' = Some a /\
  (Nat.even (rows p) = false -> Nat.even (cols p) = false -> method a 0 0 = mean_square p) /\
  forall di dj : Z, (- Z.of_nat (rows p / 2) <= di < Z.of_nat (rows p) - Z.of_nat (rows p / 2))%Z -> (- Z.of_nat (cols p / 2) <= dj < Z.of_nat (cols p) - Z.of_nat (cols p / 2))%Z ->
    method a (spacing s * (IZR di + if Nat.even (rows p) then / 2 else 0)) (spacing s * (IZR dj + if Nat.even (cols p) then / 2 else 0)) = autocovariance p di dj.
Proof.
  intros T s p P N M. destruct (made spline s p P N M) as (a & A & O & MT). cbn [op_run op_step]. unfold get_acf. rewrite A. cbn [bind]. exists (Spectral (heights s) (inverted s) (spacing s) (fft s) (Some a) (psd s)), a. split; [reflexivity|]. split; [reflexivity|].
  assert (G : forall di dj : Z, (- Z.of_nat (rows p / 2) <= di < Z.of_nat (rows p) - Z.of_nat (rows p / 2))%Z -> (- Z.of_nat (cols p / 2) <= dj < Z.of_nat (cols p) - Z.of_nat (cols p / 2))%Z ->
    method a (spacing s * (IZR di + if Nat.even (rows p) then / 2 else 0)) (spacing s * (IZR dj + if Nat.even (cols p) then / 2 else 0)) = autocovariance p di dj).
  { intros di dj I J. rewrite MT.
    assert (PT : forall n d, (4 <= n)%nat -> (- Z.of_nat (n / 2) <= d)%Z -> spacing s * (IZR d + if Nat.even n then / 2 else 0) = acf_points n (spacing s) (Z.to_nat (d + Z.of_nat (n / 2)))).
    { intros n d L D. rewrite points_are by lia. f_equal. rewrite INR_IZR_INZ, Z2Nat.id by lia. rewrite plus_IZR, <- INR_IZR_INZ, half_INR. destruct (Nat.even n); field. }
    rewrite (PT (rows p) di), (PT (cols p) dj) by (try assumption; lia). rewrite T by lia. rewrite acf_is by lia. f_equal; unfold lag; lia. }
  split; [|exact G]. intros E1 E2. pose proof (half_lt (rows p) ltac:(lia)). pose proof (half_lt (cols p) ltac:(lia)). specialize (G 0%Z 0%Z ltac:(lia) ltac:(lia)). rewrite E1, E2 in G. rewrite !Rplus_0_r, !Rmult_0_r in G. rewrite G. apply cov_zero.
Qed.
Print Assumptions c109_origin.
(** For an even number of points it is not: the mean square is half a spacing away, and a lag of zero is never asked for. *)
Theorem c109_origin_refuted (spline : spline_type) : through spline -> forall s p, profile s = Some p -> (4 <= rows p)%nat -> (4 <= cols p)%nat -> Nat.even (rows p) = true -> Nat.even (cols p) = true ->
  exists s' a, op_run spline s [GetAcf] = Ok s' /\ acf s' = Some a /\ method a (spacing s / 2) (spacing s / 2) = mean_square p.
Proof.
  intros T s p P N M E1 E2. destruct (c109_origin spline T s p P N M) as (s' & a & A & B & _ & G). exists s', a. split; [exact A|]. split; [exact B|].
  pose proof (half_lt (rows p) ltac:(lia)). pose proof (half_lt (cols p) ltac:(lia)). specialize (G 0%Z 0%Z ltac:(lia) ltac:(lia)). rewrite E1, E2, cov_zero in G. rewrite <- G. f_equal; unfold Rdiv; f_equal; lra.
Qed.
Print Assumptions c109_origin_refuted.

(** C109: what is asked for is that of the profile as it is, whatever was done before; the density is the transform of the
    autocorrelation. *)
Theorem c109_fresh (spline : spline_type) : forall s p, profile s = Some p ->
  (exists s', op_run spline s [GetFft] = Ok s' /\ fft s' = Some (fft2 (rows p) (cols p) (fun i j => creal (at_ p i j)))) /\
  ((4 <= rows p)%nat -> (4 <= cols p)%nat -> exists s' d, op_run spline s [GetAcf; GetPsd] = Ok s' /\ psd s' = Some d /\
    forall k l, d k l = fft2 (rows p) (cols p) (fun i j => creal (autocovariance p (lag (rows p) i) (lag (cols p) j))) k l).
Proof.
  intros s p P. split; [cbn [op_run op_step]; unfold get_fft; rewrite P; cbn [bind]; eexists; split; reflexivity|]. intros N M. destruct (made spline s p P N M) as (a & A & O & _). cbn [op_run op_step]. unfold get_acf. rewrite A. cbn [bind get_psd acf]. eexists _, _. split; [reflexivity|]. split; [reflexivity|].
  intros k l. unfold fft_of. rewrite O. cbn [acf_array rows cols]. apply fft2_ext. intros i j I J. f_equal. now apply (acf_is p).
Qed.
Print Assumptions c109_fresh.
(** Asking for one of them leaves the profile and the others as they are; the density needs an autocorrelation, which is found if there is none. *)
Theorem c109_kept (spline : spline_type) : forall s s' o, In o [GetFft; GetAcf; GetPsd] -> op_run spline s [o] = Ok s' ->
  profile s' = profile s /\ spacing s' = spacing s /\ (o <> GetFft -> fft s' = fft s) /\ (o <> GetPsd -> psd s' = psd s) /\
  (o = GetFft -> acf s' = acf s) /\ (o = GetPsd -> (forall a, acf s = Some a -> acf s' = Some a) /\ (acf s = None -> exists s1, op_run spline s [GetAcf] = Ok s1 /\ acf s' = acf s1)).
Proof.
  intros s s' o I H. cbn [op_run op_step] in H. destruct I as [<-|[<-|[<-|[]]]]; cbn [op_step] in H.
  - unfold get_fft in H. destruct (profile s) as [p|] eqn:P; [|discriminate]. cbn [bind] in H. injection H as <-. rewrite <- P. repeat split; try reflexivity; intros; congruence.
  - unfold get_acf in H. destruct (new_acf spline (profile s) (spacing s)) as [a|]; [|discriminate]. cbn [bind] in H. injection H as <-. repeat split; try reflexivity; intros; congruence.
  - unfold get_psd in H. destruct (acf s) as [a|] eqn:A.
    + cbn [bind] in H. injection H as <-. cbn. repeat split; try reflexivity; intros; congruence.
    + cbn [op_run op_step]. unfold get_acf in *. destruct (new_acf spline (profile s) (spacing s)) as [a|]; [|discriminate]. cbn [bind] in *. injection H as <-. cbn. repeat split; try reflexivity; try (intros; congruence). intros _. eexists. split; reflexivity.
Qed.
Print Assumptions c109_kept.

(** But the density is not found again when the profile has changed, or is gone: it stays that of the old one. *)
Theorem c109_stale_refuted (spline : spline_type) : forall s p o, profile s = Some p -> (4 <= rows p)%nat -> (4 <= cols p)%nat -> (exists q, o = SetProfile q) \/ o = DeleteProfile ->
  exists s' d, op_run spline s [GetAcf; o; GetPsd] = Ok s' /\ psd s' = Some d /\
    (forall k l, d k l = fft2 (rows p) (cols p) (fun i j => creal (autocovariance p (lag (rows p) i) (lag (cols p) j))) k l) /\ (o = DeleteProfile -> profile s' = None).
Proof.
  intros s p o P N M D. destruct (made spline s p P N M) as (a & A & O & _). cbn [op_run op_step]. unfold get_acf. rewrite A. cbn [bind].
  destruct D as [(q & ->)| ->]; cbn [op_step bind get_psd acf]; eexists _, _; (split; [reflexivity|]); (split; [reflexivity|]); (split; [|try discriminate; reflexivity]);
  intros k l; unfold fft_of; rewrite O; cbn [acf_array rows cols]; apply fft2_ext; intros i j I J; f_equal; now apply (acf_is p).
Qed.
Print Assumptions c109_stale_refuted.

Lemma fft_sum n m x : (0 < n)%nat -> (0 < m)%nat -> csum n (fun k => csum m (fun l => fft2 n m x k l)) = cmul (creal (INR n * INR m)) (x 0%nat 0%nat).
Proof.
  intros N M. rewrite <- (inversion2 n m x 0 0) by assumption. unfold ifft2. assert (P : INR n * INR m <> 0) by (apply Rgt_not_eq, Rmult_lt_0_compat; now apply lt_0_INR).
  assert (R0 : forall q k, root q (- Z.of_nat (k * 0)) = c1). { intros q k. rewrite Nat.mul_0_r. unfold root, cis, c1. cbn [Z.of_nat Z.opp]. replace (- (2 * PI * 0 / INR q)) with 0 by (unfold Rdiv; ring). now rewrite cos_0, sin_0. }
  assert (K : forall a z, a <> 0 -> cmul (creal a) (cmul (creal (/ a)) z) = z) by (intros a [u v] A; unfold cmul, creal; cbn [fst snd]; f_equal; field; exact A).
  rewrite K by exact P. apply csum_ext. intros k _. apply csum_ext. intros l _. rewrite !R0. ring.
Qed.
Lemma spike_square n m h : (0 < n)%nat -> (0 < m)%nat -> h <> 0 -> 0 < mean_square (spike n m h).
Proof.
  intros N M H. unfold mean_square. cbn [rows cols spike at_]. apply Rdiv_lt_0_compat; [|apply Rmult_lt_0_compat; now apply lt_0_INR].
  rewrite (total2_ext n m _ (fun i j => (if Nat.eqb i 0 && Nat.eqb j 0 then 1 else 0) * h ^ 2)) by (intros i j _ _; destruct (_ && _); ring).
  rewrite (total2_single n m 0 0 (fun _ _ => h ^ 2)) by assumption. nra.
Qed.
(** The density does not add up to the mean square: it adds up to the value at the largest lag, which is zero for a surface
    with a single spike. *)
Theorem c109_psd_total_refuted (spline : spline_type) : forall s p, profile s = Some p -> (4 <= rows p)%nat -> (4 <= cols p)%nat ->
  exists s' d, op_run spline s [GetAcf; GetPsd] = Ok s' /\ psd s' = Some d /\
    csum (rows p) (fun k => csum (cols p) (fun l => d k l)) = creal (INR (rows p) * INR (cols p) * autocovariance p (- Z.of_nat (rows p / 2)) (- Z.of_nat (cols p / 2))) /\
    forall h, h <> 0 -> p = spike (rows p) (cols p) h -> 0 < mean_square p /\ csum (rows p) (fun k => csum (cols p) (fun l => d k l)) = c0.
Proof.
  intros s p P N M. destruct (c109_fresh spline s p P) as (_ & F). destruct (F N M) as (s' & d & A & B & G). exists s', d. split; [exact A|]. split; [exact B|].
  assert (SM : csum (rows p) (fun k => csum (cols p) (fun l => d k l)) = creal (INR (rows p) * INR (cols p) * autocovariance p (- Z.of_nat (rows p / 2)) (- Z.of_nat (cols p / 2)))).
  { rewrite (csum_ext (rows p) _ (fun k => csum (cols p) (fun l => fft2 (rows p) (cols p) (fun i j => creal (autocovariance p (lag (rows p) i) (lag (cols p) j))) k l))) by (intros k _; apply csum_ext; intros l _; apply G).
    rewrite fft_sum by lia. unfold lag. cbn [Z.of_nat Z.sub Z.add]. unfold cmul, creal. cbn [fst snd]. f_equal; ring. }
  split; [exact SM|]. intros h H E. set (n := rows p) in *. set (m := cols p) in *.
  assert (V : forall i j, at_ p i j = if Nat.eqb i 0 && Nat.eqb j 0 then h else 0) by (intros; rewrite E; reflexivity).
  assert (PI : 0 < INR n * INR m) by (apply Rmult_lt_0_compat; apply lt_0_INR; lia). split.
  - rewrite E. apply spike_square; try assumption; lia.
  - rewrite SM. replace (autocovariance p (- Z.of_nat (n / 2)) (- Z.of_nat (m / 2))) with 0; [unfold creal, c0; f_equal; ring|]. symmetry. rewrite cov_sym. unfold autocovariance. fold n m. replace (pairs n (Z.of_nat (n / 2)) _) with 0; [unfold Rdiv; ring|]. symmetry.
    assert (H2 : (1 <= n / 2)%nat) by (apply Nat.div_le_lower_bound; lia). pose proof (half_lt n ltac:(lia)). rewrite pairs_right by lia. etransitivity; [|apply (total_zero (n - n / 2))]. apply total_ext. intros a _.
    unfold pairs. etransitivity; [|apply (total_zero m)]. apply total_ext. intros b _. rewrite (V (a + n / 2)%nat). rewrite (proj2 (Nat.eqb_neq (a + n / 2) 0)) by lia. cbn [andb]. destruct (_ && _); ring.
Qed.
Print Assumptions c109_psd_total_refuted.

(** Nor is it a density: for a surface with a single spike it is negative at the first frequency, or not even real. *)
Theorem c109_psd_negative_refuted (spline : spline_type) : forall s n m h, profile s = Some (spike n m h) -> (4 <= n)%nat -> (4 <= m)%nat -> h <> 0 ->
  exists s' d, op_run spline s [GetAcf; GetPsd] = Ok s' /\ psd s' = Some d /\ fst (d 1%nat 0%nat) < 0.
Proof.
  intros s n m h P N M H. destruct (c109_fresh spline s _ P) as (_ & F). cbn [spike rows cols] in F. destruct (F N M) as (s' & d & A & B & G). exists s', d. split; [exact A|]. split; [exact B|]. rewrite G.
  pose proof (half_lt n ltac:(lia)) as HN. pose proof (half_lt m ltac:(lia)) as HM. set (p := spike n m h) in *.
  assert (PI0 : 0 < INR n * INR m) by (apply Rmult_lt_0_compat; apply lt_0_INR; lia).
  assert (C : forall di dj, (di <> 0 \/ dj <> 0)%Z -> autocovariance p di dj = 0).
  { intros di dj D. unfold autocovariance. cbn [rows cols p spike at_]. match goal with |- ?x / _ = 0 => assert (Z : x = 0); [|rewrite Z; unfold Rdiv; ring] end.
    unfold pairs at 1. etransitivity; [|apply (total_zero n)]. apply total_ext. intros a _. destruct (_ && _) eqn:X; [|reflexivity]. unfold pairs. etransitivity; [|apply (total_zero m)]. apply total_ext. intros b _. destruct (Z.leb 0 (Z.of_nat b + dj) && _) eqn:Y; [|reflexivity].
    apply andb_true_iff in X, Y. destruct X as [X _], Y as [Y _]. apply Z.leb_le in X, Y. destruct (Nat.eqb_spec a 0), (Nat.eqb_spec b 0); cbn [andb]; try ring. subst a b. destruct (Nat.eqb_spec (Z.to_nat (Z.of_nat 0 + di)) 0), (Nat.eqb_spec (Z.to_nat (Z.of_nat 0 + dj)) 0); cbn [andb]; try ring. lia. }
  rewrite (fft_single n m (fun i j => autocovariance p (lag n i) (lag m j)) (n / 2) (m / 2)) by (try assumption; intros a b A' B' X; apply C; unfold lag; destruct (Nat.eq_dec a (n / 2)), (Nat.eq_dec b (m / 2)); try lia; subst; now elim X).
  rewrite !lag_middle, cov_zero. assert (MS : 0 < mean_square p) by (apply spike_square; try assumption; lia).
  rewrite Nat.mul_0_l, Nat.mul_1_l. unfold root, cis, cmul, creal. cbn [fst snd]. replace (- (2 * PI * IZR (Z.of_nat 0) / INR m)) with 0 by (cbn; unfold Rdiv; ring). rewrite cos_0, sin_0. rewrite <- INR_IZR_INZ. rewrite cos_neg.
  assert (CN : cos (2 * PI * INR (n / 2) / INR n) < 0).
  { assert (PN : 4 <= INR n) by (replace 4 with (INR 4) by (cbn; ring); apply le_INR; lia). rewrite half_INR. pose proof PI_RGT_0. destruct (Nat.even n).
    - replace (2 * PI * (INR n / 2) / INR n) with PI by (field; lra). rewrite cos_PI. lra.
    - replace (2 * PI * ((INR n - 1) / 2) / INR n) with (PI - PI / INR n) by (field; lra). rewrite cos_minus, cos_PI, sin_PI.
      assert (0 < PI / INR n < PI / 2). { split; [apply Rdiv_lt_0_compat; lra|]. unfold Rdiv. apply Rmult_lt_compat_l; [lra|]. apply Rinv_lt_contravar; lra. }
      assert (0 < cos (PI / INR n)) by (apply cos_gt_0; lra). lra. }
  nra.
Qed.
Print Assumptions c109_psd_negative_refuted.

(** The example of the documentation, a surface of two by two points, fails; so do all with fewer than four. *)
Theorem c109_small_refuted (spline : spline_type) : forall s p, profile s = Some p -> (rows p < 4 \/ cols p < 4)%nat -> acf s = None ->
  op_run spline s [GetAcf] = Err ValueError /\ op_run spline s [GetPsd] = Err ValueError.
Proof.
  intros s p P L A. cbn [op_run op_step]. unfold get_psd. rewrite A. unfold get_acf. rewrite P. cbn [new_acf]. destruct (Nat.ltb_spec 3 (rows p)), (Nat.ltb_spec 3 (cols p)); cbn [andb bind]; try (split; reflexivity). lia.
Qed.
Print Assumptions c109_small_refuted.

(** A surface of four by five points: the hypotheses are met after a history. *)
Example c109_case : exists s p, op_run (fun _ _ _ _ _ _ _ => 0) (new_surface 1) [SetProfile (spike 3 3 1); Invert true; SetProfile (Grid 4 5 (fun i j => INR (i + j))); Invert false] = Ok s /\
  profile s = Some p /\ (4 <= rows p)%nat /\ (4 <= cols p)%nat /\ at_ p 3 4 = 7 /\ profile (Spectral (Some (spike 4 4 2)) false 1 None None None) = Some (spike 4 4 2).
Proof. eexists _, _. split; [reflexivity|]. split; [reflexivity|]. cbn. repeat split; try lia; lra. Qed.
