(** C30 to C33. *)
From Coq Require Import List Bool Arith ZArith Lia Reals Lra.
From Verif Require Import Py SurfaceModel SurfaceProofs GapModel GapSpec GapProofs.
Import ListNotations.
Local Open Scope R_scope.

(** C30. Whenever a gap is returned its smallest value is minus the interference, for all
    surfaces, off sets and interpolation functions, periodic or not. *)
Theorem c30_smallest_gap : forall interp s1 s2 h off periodic g p1 p2,
  get_gap interp s1 s2 h off periodic = Ok (g, p1, p2) -> smallest g (- h).
Proof.
  intros interp s1 s2 h off periodic g p1 p2 H.
  assert (S : forall g0 g1, settle g0 h = Ok g1 -> smallest g1 (- h)).
  { intros g0 g1 E. destruct (settle_ok _ _ _ E) as (_ & _ & _ & _ & _ & X). exact X. }
  destruct s2 as [|d2|f|], s1 as [d1|]; cbn in H; try discriminate.
  - destruct periodic.
    + unfold gap_periodic in H. destruct (sample _ _ _ _ _) as [sub2|]; cbn in H; [|discriminate].
      destruct (broadcast _ _ _) as [g0|]; cbn in H; [|discriminate]. destruct (values g0); [discriminate|].
      destruct (settle g0 h) as [g1|] eqn:E; cbn in H; [|discriminate]. injection H as <- _ _. eapply S; eauto.
    + unfold gap_plain in H. destruct (_ || _); [discriminate|]. cbv zeta in H.
      destruct (sample _ _ _ _ _) as [sub2|]; cbn in H; [|discriminate].
      destruct (broadcast _ _ _) as [g0|]; cbn in H; [|discriminate]. destruct (values g0); [discriminate|].
      destruct (settle g0 h) as [g1|] eqn:E; cbn in H; [|discriminate]. injection H as <- _ _. eapply S; eauto.
  - unfold gap_analytic in H. destruct (settle _ _) as [g1|] eqn:E; cbn in H; [|discriminate]. injection H as <- _ _. eapply S; eauto.
Qed.
Print Assumptions c30_smallest_gap.

(** Another interference gives the same points and the gap moved by the difference. *)
Theorem c30_interference_shifts : forall interp s1 s2 h h' off periodic g p1 p2,
  get_gap interp s1 s2 h off periodic = Ok (g, p1, p2) ->
  exists g', get_gap interp s1 s2 h' off periodic = Ok (g', p1, p2) /\
    rows g' = rows g /\ cols g' = cols g /\ forall i j, at_ g' i j = at_ g i j + (h - h').
Proof.
  intros interp s1 s2 h h' off periodic g p1 p2 H.
  destruct s2 as [|d2|f|], s1 as [d1|]; cbn in H |- *; try discriminate.
  - destruct periodic.
    + unfold gap_periodic in *. destruct (sample _ _ _ _ _) as [sub2|]; cbn in *; [|discriminate].
      destruct (broadcast _ _ _) as [g0|]; cbn in *; [|discriminate]. destruct (values g0); [discriminate|].
      destruct (settle g0 h) as [g1|] eqn:E; cbn in *; [|discriminate]. injection H as <- <- <-.
      destruct (settle_shift _ _ h' _ E) as (g2 & -> & R). exists g2. split; [reflexivity|exact R].
    + unfold gap_plain in *. destruct (_ || _); [discriminate|]. cbv zeta in *.
      destruct (sample _ _ _ _ _) as [sub2|]; cbn in *; [|discriminate].
      destruct (broadcast _ _ _) as [g0|]; cbn in *; [|discriminate]. destruct (values g0); [discriminate|].
      destruct (settle g0 h) as [g1|] eqn:E; cbn in *; [|discriminate]. injection H as <- <- <-.
      destruct (settle_shift _ _ h' _ E) as (g2 & -> & R). exists g2. split; [reflexivity|exact R].
  - unfold gap_analytic in *. destruct (settle _ _) as [g1|] eqn:E; cbn in *; [|discriminate]. injection H as <- <- <-.
    destruct (settle_shift _ _ h' _ E) as (g2 & -> & R). exists g2. split; [reflexivity|exact R].
Qed.
Print Assumptions c30_interference_shifts.

(** C31. Not periodic: with an off set of whole grid points the gap covers the overlap; point i
    of the first surface faces point i + k of the second; the gap is a constant minus the sum
    of both heights. *)
Theorem c31_plain : forall s1 s2 h k0 k1,
  regular s1 -> regular s2 -> d_gs s2 = d_gs s1 ->
  (rows (d_prof s1) <= rows (d_prof s2))%nat -> (cols (d_prof s1) <= cols (d_prof s2))%nat ->
  (0 < overlap_size (rows (d_prof s1)) (rows (d_prof s2)) k0)%nat ->
  (0 < overlap_size (cols (d_prof s1)) (cols (d_prof s2)) k1)%nat ->
  exists g p1 p2 c,
    get_gap nearest_mode (Some s1) (Discrete s2) h (IZR k0 * d_gs s1, IZR k1 * d_gs s1) false = Ok (g, p1, p2) /\
    rows g = overlap_size (rows (d_prof s1)) (rows (d_prof s2)) k0 /\
    cols g = overlap_size (cols (d_prof s1)) (cols (d_prof s2)) k1 /\
    forall i j, (i < rows g)%nat -> (j < cols g)%nat ->
      at_ g i j = c - (at_ (d_prof s2) (Z.to_nat (Z.of_nat (overlap_first k0 + i) + k0)) (Z.to_nat (Z.of_nat (overlap_first k1 + j) + k1)) +
                       at_ (d_prof s1) (overlap_first k0 + i) (overlap_first k1 + j)).
Proof.
  intros s1 s2 h k0 k1 A B C D E F G.
  destruct (gap_plain_aligned s1 s2 h k0 k1 A B C D E F G) as (g & p1 & p2 & c & H1 & H2 & H3 & _ & H4).
  exists g, p1, p2, c. auto.
Qed.
Print Assumptions c31_plain.

(** Periodic: the gap covers the whole first surface; point i faces point (i - k) mod n of
    the second surface. *)
Theorem c31_periodic : forall s1 s2 h k0 k1,
  regular s1 -> regular s2 -> d_gs s2 = d_gs s1 ->
  (0 < rows (d_prof s1))%nat -> (0 < cols (d_prof s1))%nat -> (0 < rows (d_prof s2))%nat -> (0 < cols (d_prof s2))%nat ->
  (Z.of_nat (rows (d_prof s1)) < 2 ^ 52)%Z -> (Z.of_nat (cols (d_prof s1)) < 2 ^ 52)%Z ->
  exists g p1 p2 c,
    get_gap nearest_mode (Some s1) (Discrete s2) h (IZR k0 * d_gs s1, IZR k1 * d_gs s1) true = Ok (g, p1, p2) /\
    rows g = rows (d_prof s1) /\ cols g = cols (d_prof s1) /\
    forall i j, (i < rows g)%nat -> (j < cols g)%nat ->
      at_ g i j = c - (at_ (d_prof s2) (Z.to_nat ((Z.of_nat i - k0) mod Z.of_nat (rows (d_prof s2))))
                                       (Z.to_nat ((Z.of_nat j - k1) mod Z.of_nat (cols (d_prof s2)))) +
                       at_ (d_prof s1) i j).
Proof.
  intros s1 s2 h k0 k1 A B C D E F G I J.
  destruct (gap_periodic_aligned s1 s2 h k0 k1 A B C D E F G I J) as (g & p1 & p2 & c & H1 & H2 & H3 & _ & H4).
  exists g, p1, p2, c. auto.
Qed.
Print Assumptions c31_periodic.

(** Analytical second surface: it is moved by the off set, as in the periodic case. *)
Theorem c31_analytic : forall interp s1 f h o0 o1 periodic,
  (0 < rows (d_prof s1))%nat -> (0 < cols (d_prof s1))%nat ->
  exists g p1 p2 c, get_gap interp (Some s1) (Analytical f) h (o0, o1) periodic = Ok (g, p1, p2) /\
    rows g = rows (d_prof s1) /\ cols g = cols (d_prof s1) /\
    forall i j, at_ g i j = c - (f (INR i * d_gs s1 - o0) (INR j * d_gs s1 - o1) + at_ (d_prof s1) i j).
Proof.
  intros interp s1 f h o0 o1 periodic Hr Hc. cbn. unfold gap_analytic.
  destruct (settle_total (Grid (rows (d_prof s1)) (cols (d_prof s1))
    (fun i j => - f (fst (own_points s1 i j) - o0) (snd (own_points s1 i j) - o1) - at_ (d_prof s1) i j)) h) as (g' & E); [exact Hr|exact Hc|].
  cbn [fst snd]. rewrite E. cbn [bind]. destruct (settle_ok _ _ _ E) as (m & _ & R & C & V & _).
  exists g'. eexists. eexists. exists (- (m + h)). split; [reflexivity|]. split; [exact R|]. split; [exact C|].
  intros i j. rewrite V. unfold own_points. cbn. lra.
Qed.
Print Assumptions c31_analytic.

(** Periodic off sets that differ by whole extents of the second surface give the same gap,
    for all real off sets and interpolation functions. *)
Theorem c31_whole_extents : forall interp s1 s2 h o0 o1 (n m : Z),
  0 < fst (d_extent s2) -> 0 < snd (d_extent s2) ->
  match get_gap interp (Some s1) (Discrete s2) h (o0, o1) true,
        get_gap interp (Some s1) (Discrete s2) h (o0 + IZR n * fst (d_extent s2), o1 + IZR m * snd (d_extent s2)) true with
  | Ok (g, _, _), Ok (g', _, _) => rows g = rows g' /\ cols g = cols g' /\ forall i j, at_ g i j = at_ g' i j
  | Err e, Err e' => e = e'
  | _, _ => False
  end.
Proof.
  intros interp s1 s2 h o0 o1 n m H0 H1. cbn. unfold gap_periodic. cbn [fst snd].
  set (P := fun i j => _). set (Q := fun i j => (remainder (fst (own_points s1 i j) - (o0 + IZR n * fst (d_extent s2)) + _) _, _)).
  assert (E : forall i j, Q i j = P i j).
  { intros i j. unfold Q, P. f_equal.
    - rewrite <- (remainder_add _ _ n H0). f_equal. lra.
    - rewrite <- (remainder_add _ _ m H1). f_equal. lra. }
  unfold sample.
  assert (F : forall l, forallb (fun p => match interp s2 (fst (P (fst p) (snd p))) (snd (P (fst p) (snd p))) with Ok _ => true | Err _ => false end) l =
                        forallb (fun p => match interp s2 (fst (Q (fst p) (snd p))) (snd (Q (fst p) (snd p))) with Ok _ => true | Err _ => false end) l).
  { induction l as [|p l IH]; [reflexivity|]. cbn [forallb]. now rewrite IH, E. }
  rewrite F. destruct (forallb _ _); [|reflexivity]. cbn [bind]. unfold broadcast. cbn [rows cols].
  destruct (bdim _ _); [|reflexivity]. destruct (bdim _ _); [|reflexivity]. cbn [bind].
  set (g1 := Grid _ _ _). set (g2 := Grid _ _ _).
  assert (V : forall i j, at_ g1 i j = at_ g2 i j) by (intros; unfold g1, g2; cbn [at_]; now rewrite E).
  assert (W : values g1 = values g2). { unfold values. apply map_ext. intros [i j]. apply V. }
  clearbody P Q. unfold settle. rewrite W. destruct (values g2); [reflexivity|]. cbn.
  repeat split. intros i j. rewrite E. reflexivity.
Qed.
Print Assumptions c31_whole_extents.

(** The conventions contradict each other: the same off set gives different gaps at the same
    point of the first surface in periodic and not periodic mode. *)
Theorem c31_same_sign_refuted : exists s1 s2 h off g p1 p2 g' p1' p2',
  get_gap nearest_mode (Some s1) (Discrete s2) h off false = Ok (g, p1, p2) /\
  get_gap nearest_mode (Some s1) (Discrete s2) h off true = Ok (g', p1', p2') /\
  p1 0%nat 0%nat = p1' 0%nat 0%nat /\ at_ g 0 0 <> at_ g' 0 0.
Proof.
  set (s1 := DSurf (Grid 3 1 (fun _ _ => 0)) 1 (INR 3 * 1, INR 1 * 1)).
  set (s2 := DSurf (Grid 3 1 (fun i _ => if Nat.eqb i 2 then 5 else 0)) 1 (INR 3 * 1, INR 1 * 1)).
  assert (R1 : regular s1) by (split; cbn; [lra|reflexivity]). assert (R2 : regular s2) by (split; cbn; [lra|reflexivity]).
  destruct (gap_plain_aligned s1 s2 0 1 0) as (g & p1 & p2 & c & E & Rg & Cg & [_ S] & V); try assumption; try reflexivity; try (cbn; lia).
  destruct (gap_periodic_aligned s1 s2 0 1 0) as (g' & p1' & p2' & c' & E' & Rg' & Cg' & [(i & j & Hi & Hj & M) S'] & V'); try assumption; try reflexivity; try (cbn; lia).
  exists s1, s2, 0, (IZR 1 * d_gs s1, IZR 0 * d_gs s1), g, p1, p2, g', p1', p2'.
  split; [exact E|]. split; [exact E'|].
  cbn in Rg, Cg, Rg', Cg'. change (overlap_size 3 3 1) with 2%nat in Rg. change (overlap_size 1 1 0) with 1%nat in Cg.
  split.
  - unfold gap_plain in E. cbv zeta in E. destruct (_ || _); [discriminate|]. destruct (sample _ _ _ _ _); [|discriminate]. cbn [bind] in E.
    destruct (broadcast _ _ _) as [g0|]; [|discriminate]. cbn [bind] in E. destruct (values g0); [discriminate|].
    destruct (settle _ _); [|discriminate]. cbn [bind] in E. injection E as _ <- _.
    unfold gap_periodic in E'. destruct (sample _ _ _ _ _); [|discriminate]. cbn [bind] in E'.
    destruct (broadcast _ _ _) as [g0'|]; [|discriminate]. cbn [bind] in E'. destruct (values g0'); [discriminate|].
    destruct (settle g0' _); [|discriminate]. cbn [bind] in E'. injection E' as _ <- _.
    unfold own_points. cbn. rewrite !Rmax_right by lra. apply f_equal2; lra.
  - pose proof (V 0%nat 0%nat ltac:(lia) ltac:(lia)) as V00. pose proof (V 1%nat 0%nat ltac:(lia) ltac:(lia)) as V10.
    pose proof (V' 0%nat 0%nat ltac:(lia) ltac:(lia)) as W0. pose proof (V' 1%nat 0%nat ltac:(lia) ltac:(lia)) as W1.
    pose proof (S 1%nat 0%nat ltac:(lia) ltac:(lia)) as S1. pose proof (S' 0%nat 0%nat ltac:(lia) ltac:(lia)) as S0.
    rewrite V' in M by assumption. rewrite Rg' in Hi. rewrite Cg' in Hj. clear V V' E E'. cbn in *.
    assert (j = 0)%nat by lia. subst j. assert (i = 0 \/ i = 1 \/ i = 2)%nat as [->|[->| ->]] by lia; cbn in M;
      change (Pos.to_nat 2 =? 2)%nat with true in *; change (Pos.to_nat 1 =? 2)%nat with false in *; cbn in *; lra.
Qed.
Print Assumptions c31_same_sign_refuted.

Example c30_case : exists g p1 p2,
  get_gap nearest_mode (Some (DSurf (Grid 3 2 (fun i j => INR i)) 2 (6, 4))) (Analytical (fun y x => y * x)) 7 (1, 1) false = Ok (g, p1, p2) /\
  smallest g (-7).
Proof.
  destruct (c31_analytic nearest_mode (DSurf (Grid 3 2 (fun i j => INR i)) 2 (6, 4)) (fun y x => y * x) 7 1 1 false) as (g & p1 & p2 & c & E & _);
    [cbn; lia|cbn; lia|]. exists g, p1, p2. split; [exact E|]. exact (c30_smallest_gap _ _ _ _ _ _ _ _ _ E).
Qed.

(** C32. With an off set of whole grid points the gap exists and has one point for every pair of
    facing points. *)
Theorem c32_whole_points : forall s1 s2 h k0 k1,
  regular s1 -> regular s2 -> d_gs s2 = d_gs s1 ->
  (rows (d_prof s1) <= rows (d_prof s2))%nat -> (cols (d_prof s1) <= cols (d_prof s2))%nat ->
  (0 < overlap_size (rows (d_prof s1)) (rows (d_prof s2)) k0)%nat ->
  (0 < overlap_size (cols (d_prof s1)) (cols (d_prof s2)) k1)%nat ->
  exists g p1 p2,
    get_gap nearest_mode (Some s1) (Discrete s2) h (IZR k0 * d_gs s1, IZR k1 * d_gs s1) false = Ok (g, p1, p2) /\ rows g = overlap_size (rows (d_prof s1)) (rows (d_prof s2)) k0 /\ cols g = overlap_size (cols (d_prof s1)) (cols (d_prof s2)) k1.
Proof.
  intros s1 s2 h k0 k1 A B C D E F G. destruct (c31_plain s1 s2 h k0 k1 A B C D E F G) as (g & p1 & p2 & c & H1 & H2 & H3 & _).
  exists g, p1, p2. auto.
Qed.
Print Assumptions c32_whole_points.
(** With a fractional off set they do not fit: for surfaces of equal shape with 3 or more rows every off set
    strictly between zero and one grid spacing raises, whatever the interpolation mode. *)
Theorem c32_fractional_refuted : forall interp s1 s2 h t,
  regular s1 -> regular s2 -> d_gs s2 = d_gs s1 -> rows (d_prof s2) = rows (d_prof s1) -> cols (d_prof s2) = cols (d_prof s1) ->
  (3 <= rows (d_prof s1))%nat -> 0 < t < 1 ->
  exists e, get_gap interp (Some s1) (Discrete s2) h (t * d_gs s1, 0) false = Err e.
Proof.
  intros interp s1 s2 h t [G1 X1] [G2 X2] Eg Er Ec Hr Ht. cbn. unfold gap_plain. rewrite X1, X2. cbn [fst snd].
  rewrite Eg, Er, Ec. set (n := rows (d_prof s1)) in *. set (gs := d_gs s1) in *.
  destruct (_ || _); [eauto|]. cbv zeta. destruct (sample _ _ _ _ _) as [sub2|] eqn:ES; cbn [bind]; [|eauto].
  assert (R2 : rows sub2 = n).
  { unfold sample in ES. destruct (forallb _ _); [|discriminate]. injection ES as <-. cbn.
    assert (0 < t * gs) by (apply Rmult_lt_0_compat; lra). rewrite Rmax_right, Rmin_right by lra. unfold arange_len.
    replace ((INR n * gs - t * gs - 0) / gs) with (INR n - t) by (field; lra).
    assert (rceil (INR n - t) = Z.of_nat n) as ->; [|lia]. unfold rceil.
    rewrite (Int_part_unique _ (- Z.of_nat n)); [lia|]. rewrite opp_IZR, <- INR_IZR_INZ. lra. }
  assert (S1 : slice_bound (trunc (Rmin (INR n * gs) (INR n * gs - t * gs) / gs)) n = (n - 1)%nat).
  { assert (0 < t * gs) by (apply Rmult_lt_0_compat; lra). rewrite Rmin_right by lra.
    replace ((INR n * gs - t * gs) / gs) with (INR n - t) by (field; lra).
    rewrite (trunc_nat _ (n - 1)).
    - rewrite slice_bound_in by lia. lia.
    - rewrite minus_INR by lia. cbn. lra. }
  assert (S0 : slice_bound (trunc (Rmax (- (t * gs)) 0 / gs)) n = 0%nat).
  { assert (0 < t * gs) by (apply Rmult_lt_0_compat; lra). rewrite Rmax_right by lra.
    replace (0 / gs) with 0 by (field; lra). rewrite (trunc_IZR 0). reflexivity. }
  rewrite S1, S0. unfold broadcast. cbn [rows cols]. rewrite R2. unfold bdim at 1.
  destruct (Nat.eqb_spec n (n - 1 - 0)); [lia|]. destruct (Nat.eqb_spec n 1); [lia|]. destruct (Nat.eqb_spec (n - 1 - 0) 1); [lia|].
  cbn. eauto.
Qed.
Print Assumptions c32_fractional_refuted.

(** With 2 rows the only remaining row of the first surface is silently used twice. *)
Theorem c32_silent_refuted : forall s1 s2 h t,
  regular s1 -> regular s2 -> d_gs s2 = d_gs s1 -> rows (d_prof s2) = rows (d_prof s1) -> cols (d_prof s2) = cols (d_prof s1) ->
  rows (d_prof s1) = 2%nat -> (0 < cols (d_prof s1))%nat -> 0 < t < 1 ->
  exists g p1 p2 c, get_gap nearest_mode (Some s1) (Discrete s2) h (t * d_gs s1, 0) false = Ok (g, p1, p2) /\
    rows g = 2%nat /\ cols g = cols (d_prof s1) /\
    forall j, (j < cols g)%nat -> at_ g 0 j = c - (at_ (d_prof s2) 0 j + at_ (d_prof s1) 0 j) /\
                                  at_ g 1 j = c - (at_ (d_prof s2) 1 j + at_ (d_prof s1) 0 j).
Proof.
  intros s1 s2 h t [G1 X1] [G2 X2] Eg Er Ec Hr Hc Ht. cbn. unfold gap_plain. rewrite X1, X2. cbn [fst snd].
  rewrite Eg, Er, Ec. set (gs := d_gs s1) in *. set (m := cols (d_prof s1)) in *.
  assert (Tp : 0 < t * gs) by (apply Rmult_lt_0_compat; lra). assert (Tg : t * gs < 1 * gs) by (apply Rmult_lt_compat_r; lra).
  assert (Rltb (INR (rows (d_prof s1)) * gs) (INR (rows (d_prof s1)) * gs) = false) as -> by (apply Rltb_false; lra).
  assert (Rltb (INR m * gs) (INR m * gs) = false) as -> by (apply Rltb_false; lra). cbn [orb]. rewrite Hr.
  destruct (plain_direction m m 0 gs G1 (le_n _)) as (B1 & B2 & B3 & B4).
  { unfold overlap_size. lia. }
  cbv zeta in *. replace (IZR 0 * gs) with 0 in * by lra.
  assert (Om : overlap_size m m 0 = m) by (unfold overlap_size; lia). rewrite Om in *. change (overlap_first 0) with 0%nat in *.
  rewrite B1, B2. replace (slice_bound (trunc (Rmin (INR m * gs) (INR m * gs - 0) / gs)) m) with m by lia.
  replace (Rmax (- (t * gs)) 0) with 0 by (rewrite Rmax_right; lra).
  replace (Rmin (INR 2 * gs) (INR 2 * gs - t * gs)) with (2 * gs - t * gs) by (cbn; rewrite Rmin_right; lra).
  assert (A1 : arange_len 0 (2 * gs - t * gs) gs = 2%nat).
  { unfold arange_len. replace ((2 * gs - t * gs - 0) / gs) with (2 - t) by (field; lra). unfold rceil.
    rewrite (Int_part_unique _ (-2)); [reflexivity|]. lra. }
  assert (A2 : slice_bound (trunc (0 / gs)) 2 = 0%nat) by (replace (0 / gs) with 0 by (field; lra); rewrite (trunc_IZR 0); reflexivity).
  assert (A3 : slice_bound (trunc ((2 * gs - t * gs) / gs)) 2 = 1%nat).
  { replace ((2 * gs - t * gs) / gs) with (2 - t) by (field; lra). rewrite (trunc_nat _ 1) by (cbn; lra). reflexivity. }
  rewrite A1, A2, A3. set (p2 := fun i j : nat => _).
  assert (V : forall i j, (i < 2)%nat -> (j < m)%nat -> nearest_mode s2 (fst (p2 i j)) (snd (p2 i j)) = Ok (at_ (d_prof s2) i j)).
  { intros i j Hi Hj. unfold nearest_mode, nearest, p2. cbn [fst snd]. rewrite Eg, Er, Ec. fold gs m.
    replace ((0 + INR i * gs + t * gs) / gs) with (INR i + t) by (field; lra). rewrite (trunc_nat _ i) by lra.
    rewrite npindex_in by lia. rewrite Nat2Z.id. destruct (B4 j Hj) as [-> _]. f_equal. f_equal. lia. }
  destruct (sample_ok nearest_mode s2 2 m p2) as (sub2 & -> & R2 & C2 & V2). { intros i j Hi Hj. rewrite V by assumption. eauto. }
  cbn [bind]. unfold broadcast. cbn [rows cols at_]. rewrite R2, C2. cbn [bdim Nat.eqb Nat.sub]. unfold bdim. rewrite Nat.sub_0_r, Nat.eqb_refl. cbn [bind].
  set (g := Grid 2 m _). destruct (values_nonempty g) as (x & l & EV); [cbn; lia|exact Hc|]. rewrite EV.
  destruct (settle_total g h) as (g' & E'); [cbn; lia|exact Hc|]. rewrite E'. cbn [bind].
  destruct (settle_ok _ _ _ E') as (mm & _ & Rg & Cg & Vg & _). exists g'. eexists. exists p2, (- (mm + h)). split; [reflexivity|].
  split; [exact Rg|]. split; [exact Cg|]. intros j Hj. rewrite Cg in Hj. cbn in Hj. rewrite !Vg. unfold g. cbn [at_ bidx Nat.eqb].
  assert (J : bidx m j = j) by (unfold bidx; destruct (Nat.eqb_spec m 1); lia). rewrite J.
  pose proof (V2 0%nat j ltac:(lia) Hj) as W0. pose proof (V2 1%nat j ltac:(lia) Hj) as W1. rewrite V in W0, W1 by lia.
  injection W0 as W0. injection W1 as W1. rewrite <- W0, <- W1. cbn. lra.
Qed.
Print Assumptions c32_silent_refuted.

Example c31_case :
  let s1 := DSurf (Grid 3 2 (fun i j => INR i)) 2 (INR 3 * 2, INR 2 * 2) in
  let s2 := DSurf (Grid 5 4 (fun i j => INR j)) 2 (INR 5 * 2, INR 4 * 2) in
  regular s1 /\ regular s2 /\ overlap_size 3 5 (-1) = 2%nat /\ overlap_size 3 5 1 = 3%nat /\ overlap_size 2 4 3 = 1%nat /\ overlap_size 2 4 4 = 0%nat.
Proof. cbv zeta. repeat split; cbn; try lra; reflexivity. Qed.

(** C33. Converting a height and converting back gives it again, for all positive spacings,
    every non zero Young's modulus, every Poisson's ratio other than 1 and -1 and any load. *)
Theorem c33_round_trip : forall h E v load gx gy, 0 < gx -> (forall b, gy = Some b -> 0 < b) -> E <> 0 -> v ^ 2 <> 1 ->
  nd_height (nd_height h E v load gx gy false false) E v load gx gy true false = h /\
  nd_height (nd_height h E v load gx gy true false) E v load gx gy false false = h.
Proof.
  intros h E v load gx gy Hx Hy HE Hv. unfold nd_height.
  destruct (uz_split E v load gx gy Hx) as (k & Hk & Ek). { destruct gy; cbn; auto. }
  assert (L : load_or_one load <> 0). { unfold load_or_one. destruct load as [l|]; [|lra]. destruct (Reqb l 0) eqn:R; [lra|]. now apply Reqb_false. }
  assert (U : uz E v load gx gy <> 0).
  { rewrite Ek. apply Rmult_integral_contrapositive. split; [lra|]. apply Rmult_integral_contrapositive. split; [exact L|].
    apply Rmult_integral_contrapositive. split; [lra|]. now apply Rinv_neq_0_compat. }
  split; field; exact U.
Qed.
Print Assumptions c33_round_trip.
(** The conversion is strictly increasing for a positive modulus, |v| < 1 and a load that is
    positive or not given. *)
Theorem c33_monotone : forall h h' E v load gx gy, 0 < gx -> (forall b, gy = Some b -> 0 < b) -> 0 < E -> -1 < v < 1 ->
  (forall l, load = Some l -> 0 <= l) -> h < h' ->
  nd_height h E v load gx gy false false < nd_height h' E v load gx gy false false /\
  nd_height h E v load gx gy true false < nd_height h' E v load gx gy true false.
Proof.
  intros h h' E v load gx gy Hx Hy HE Hv Hl Hh. unfold nd_height.
  destruct (uz_split E v load gx gy Hx) as (k & Hk & Ek). { destruct gy; cbn; auto. }
  assert (L : 0 < load_or_one load).
  { unfold load_or_one. destruct load as [l|]; [|lra]. destruct (Reqb l 0) eqn:R; [lra|]. apply Reqb_false in R. specialize (Hl l eq_refl). lra. }
  assert (V : 0 < 1 - v ^ 2) by nra.
  assert (U : 0 < uz E v load gx gy).
  { rewrite Ek. apply Rmult_lt_0_compat; [exact Hk|]. apply Rmult_lt_0_compat; [exact L|]. now apply Rdiv_lt_0_compat. }
  split.
  - unfold Rdiv. apply Rmult_lt_compat_r; [|exact Hh]. now apply Rinv_0_lt_compat.
  - now apply Rmult_lt_compat_r.
Qed.
Print Assumptions c33_monotone.
(** The scale is the displacement under the load: it is linear in the load, except that no load
    and a load of zero count as one. *)
Theorem c33_scale : forall E v gx gy l, l <> 0 ->
  nd_height 0 E v (Some l) gx gy false true = l * nd_height 0 E v None gx gy false true /\
  nd_height 0 E v (Some 0) gx gy false true = nd_height 0 E v None gx gy false true.
Proof.
  intros E v gx gy l Hl. unfold nd_height, uz, load_or_one. assert (Reqb l 0 = false) as -> by (now apply Reqb_false).
  assert (Reqb 0 0 = true) as -> by (now apply Reqb_true). split; [|reflexivity]. unfold Rdiv. ring.
Qed.
Print Assumptions c33_scale.
Example c33_case : nd_height (nd_height 3 200 (3 / 10) None 1 None false false) 200 (3 / 10) None 1 None true false = 3.
Proof. apply c33_round_trip; try lra. intros b H. discriminate. Qed.
