(** Theorems about grids in double precision (C122). *)
From Coq Require Import List Bool Arith ZArith Reals Lia Lra.
From Flocq Require Import Core.
From Verif Require Import Py SurfaceModel RoundModel RoundSpec RoundProofs.
Import ListNotations.
Local Open Scope R_scope.

(** The rounding of the model is a nearest double precision number. *)
Theorem c122_rounding : forall x, double (fl x) /\ forall y, double y -> Rabs (fl x - x) <= Rabs (y - x).
Proof.
  intros x. split; [ apply double_fmt, fmt_fl | ]. intros y Hy. apply double_fmt in Hy.
  pose proof prec53. destruct (round_N_pt radix2 (FLX_exp 53) (fun z => negb (Z.even z)) x) as [_ N]. apply N, Hy.
Qed.
Print Assumptions c122_rounding.

(** Spacings with few digits are harmless: the gap of two surfaces on one grid is that of their points, periodic or not,
    interpolators are made, and setting the spacing to its value keeps the shape. *)
Theorem c122_few_digits : forall s1 s2, step s2 = step s1 ->
  rows (heights s2) = rows (heights s1) -> cols (heights s2) = cols (heights s1) ->
  (0 < Z.of_nat (rows (heights s1)) <= 2 ^ 31)%Z -> (0 < Z.of_nat (cols (heights s1)) <= 2 ^ 31)%Z ->
  fits (rows (heights s1)) (step s1) -> fits (cols (heights s1)) (step s1) ->
  pointwise fl (heights s1) (heights s2) (fgap_plain s1 s2 (0, 0)) /\
  pointwise fl (heights s1) (heights s2) (fgap_periodic s1 s2 (0, 0)) /\
  finterpolator s1 = Ok tt /\
  let s := (Z.of_nat (rows (heights s1)), Z.of_nat (cols (heights s1))) in
  f_shape (fset_spacing (fset_spacing (FGeom None (Some s) None) (step s1)) (step s1)) = Some s.
Proof.
  intros s1 s2 Hs Hr Hc Br Bc Fr Fc. pose proof (fits_pos _ _ Fr) as Hh. pose proof (fits_double (rows (heights s1)) _ ltac:(lia) Fr) as Hd.
  assert (Q : forall n, fits n (step s1) -> (Z.of_nat n <= 2 ^ 31)%Z -> quot n (step s1) = INR n).
  { intros n F B. apply (fits_quot n); [ assumption | lia | assumption ]. }
  split; [ | split; [ | split ]].
  - destruct (plain_found s1 s2 Hh Hd Hs Hr Hc) as (d & E & R1 & C1 & A); try lia; [ apply Q; [ assumption | lia ] .. | ].
    exists d. split; [ exact E | ]. split; [ exact R1 | ]. split; [ exact C1 | ]. intros i j Hi Hj. apply A; [ assumption .. | | ].
    + unfold row_of. rewrite (fits_quot (rows (heights s1)) _ i Fr ltac:(lia) ltac:(lia)), INR_IZR_INZ, Ztrunc_IZR. apply index_in, Hi.
    + unfold row_of. rewrite (fits_quot (cols (heights s1)) _ j Fc ltac:(lia) ltac:(lia)), INR_IZR_INZ, Ztrunc_IZR. apply index_in, Hj.
  - destruct (periodic_found s1 s2 Hs Hr Hc ltac:(lia) ltac:(lia)) as (d & E & R1 & C1 & A).
    { intros i Hi. destruct (row2_of_in (step s1) _ i Hh (proj2 Br) Hi) as (k & K & _). exists k. exact K. }
    { intros i Hi. destruct (row2_of_in (step s1) _ i Hh (proj2 Bc) Hi) as (k & K & _). exists k. exact K. }
    exists d. split; [ exact E | ]. split; [ exact R1 | ]. split; [ exact C1 | ]. intros i j Hi Hj. apply A; [ assumption .. | | ].
    + unfold row2_of. rewrite point2_fits by (try assumption; lia). apply index_in, Hi.
    + unfold row2_of. rewrite point2_fits by (try assumption; lia). apply index_in, Hj.
  - unfold finterpolator. rewrite !arange_len_extent.
    rewrite (proj2 (quot_same (rows (heights s1)) _ ltac:(lia) (Q _ Fr (proj2 Br)))), (proj2 (quot_same (cols (heights s1)) _ ltac:(lia) (Q _ Fc (proj2 Bc)))).
    rewrite !Nat2Z.id, !Nat.eqb_refl. reflexivity.
  - cbv zeta. unfold fset_spacing. cbn [f_extent f_shape]. unfold fpoints, fscale. cbn [fst snd].
    assert (I : forall n, fits n (step s1) -> (0 < Z.of_nat n <= 2 ^ 31)%Z -> int_div (fl (IZR (Z.of_nat n) * step s1)) (step s1) = Z.of_nat n).
    { intros n F B. rewrite <- INR_IZR_INZ. change (Ztrunc (quot n (step s1)) = Z.of_nat n). apply quot_same; [ lia | apply Q; [ assumption | lia ] ]. }
    rewrite !I by assumption. reflexivity.
Qed.
Print Assumptions c122_few_digits.
(** Three thousand points a quarter apart. *)
Example c122_few_digits_case : fits 3000 (/ 4).
Proof. exists 1%Z, (-2)%Z. split; [ simpl; lra | lia ]. Qed.

(** Off sets by whole numbers of spacings with few digits: the overlapping points, point by point; with periods the second
    surface is rolled. (The two directions are opposite: see C19.) *)
Theorem c122_shifted : forall s1 s2 k l, step s2 = step s1 ->
  (rows (heights s1) <= rows (heights s2))%nat -> (cols (heights s1) <= cols (heights s2))%nat ->
  (Z.of_nat (rows (heights s2)) <= 2 ^ 31)%Z -> (Z.of_nat (cols (heights s2)) <= 2 ^ 31)%Z ->
  fits (rows (heights s2)) (step s1) -> fits (cols (heights s2)) (step s1) ->
  (- Z.of_nat (rows (heights s1)) < k < Z.of_nat (rows (heights s2)))%Z ->
  (- Z.of_nat (cols (heights s1)) < l < Z.of_nat (cols (heights s2)))%Z ->
  (0 < rows (heights s1))%nat -> (0 < cols (heights s1))%nat ->
  shifted fl (heights s1) (heights s2) k l (fgap_plain s1 s2 (IZR k * step s1, IZR l * step s1)).
Proof.
  intros s1 s2 k l Hs Lr Lc Br Bc Fr Fc [K1 K2] [L1 L2] Pr Pc. pose proof (fits_pos _ _ Fr) as Hh.
  set (h := step s1) in *. set (m1 := rows (heights s1)) in *. set (m2 := rows (heights s2)) in *.
  set (n1 := cols (heights s1)) in *. set (n2 := cols (heights s2)) in *.
  unfold fgap_plain. cbn [fst snd]. rewrite Hs. fold h m1 m2 n1 n2. cbv zeta. unfold Rltb.
  destruct (Rlt_dec (fextent m2 h) (fextent m1 h)); [ pose proof (fextent_mono m1 m2 h Hh Lr); lra | ].
  destruct (Rlt_dec (fextent n2 h) (fextent n1 h)); [ pose proof (fextent_mono n1 n2 h Hh Lc); lra | ]. cbn [orb].
  rewrite (axis_lo h m2 k Fr), (axis_lo h n2 l Fc), (axis_hi h m1 m2 k Fr Lr K2), (axis_hi h n1 n2 l Fc Lc L2).
  destruct (axis_slice h m1 m2 k Fr Br Lr K1 K2) as [-> ->]. destruct (axis_slice h n1 n2 l Fc Bc Lc L1 L2) as [-> ->].
  rewrite (axis_len h m1 m2 k Fr Br Lr K1 K2), (axis_len h n1 n2 l Fc Bc Lc L1 L2).
  pose proof (axis_index h m1 m2 k Fr Br Lr K1 K2) as Ir. pose proof (axis_index h n1 n2 l Fc Bc Lc L1 L2) as Ic.
  set (a := Z.max (- k) 0) in *. set (b := Z.min (Z.of_nat m1) (Z.of_nat m2 - k)) in *.
  set (c := Z.max (- l) 0) in *. set (d := Z.min (Z.of_nat n1) (Z.of_nat n2 - l)) in *.
  unfold fnearest. rewrite Hs. fold h m2 n2. cbv zeta.
  assert (T : forall N (f : nat -> option nat) (P : forall i, (Z.of_nat i < Z.of_nat N)%Z -> exists x, f i = Some x),
     forallb (fun i => match f i with Some _ => true | None => false end) (seq 0 N) = true).
  { intros N f P. apply forallb_forall. intros i Hi. apply in_seq in Hi. destruct (P i ltac:(lia)) as [x ->]. reflexivity. }
  rewrite (T (Z.to_nat (b - a)) (fun i => index (int_div (fl (farange (IZR a * h) h i + IZR k * h)) h) m2)).
  2:{ intros i Hi. eexists. apply Ir. lia. }
  rewrite (T (Z.to_nat (d - c)) (fun j => index (int_div (fl (farange (IZR c * h) h j + IZR l * h)) h) n2)).
  2:{ intros i Hi. eexists. apply Ic. lia. }
  cbn [andb orb].
  replace (Z.to_nat b - Z.to_nat a)%nat with (Z.to_nat (b - a)) by (unfold a, b in *; lia).
  replace (Z.to_nat d - Z.to_nat c)%nat with (Z.to_nat (d - c)) by (unfold c, d in *; lia).
  match goal with |- context [difference_of (Ok ?x) ?y] => destruct (difference_ok x y eq_refl eq_refl) as (g & -> & R1 & C1 & A) end;
    [ cbn [rows]; unfold a, b; lia | cbn [cols]; unfold c, d; lia | ].
  cbn [rows cols] in R1, C1. exists g. split; [ reflexivity | ]. fold m1 m2 n1 n2 a b c d.
  split; [ rewrite R1; unfold a, b; lia | ]. split; [ rewrite C1; unfold c, d; lia | ].
  intros i j Hi Hj. rewrite R1 in Hi. rewrite C1 in Hj. rewrite A by assumption. cbn [at_].
  rewrite Ir by lia. rewrite Ic by lia. do 3 f_equal; unfold a, c; lia.
Qed.
Print Assumptions c122_shifted.
Theorem c122_rolled : forall s1 s2 k l, step s2 = step s1 ->
  rows (heights s2) = rows (heights s1) -> cols (heights s2) = cols (heights s1) ->
  (0 < Z.of_nat (rows (heights s1)) <= 2 ^ 31)%Z -> (0 < Z.of_nat (cols (heights s1)) <= 2 ^ 31)%Z ->
  (Z.abs k <= 2 ^ 31)%Z -> (Z.abs l <= 2 ^ 31)%Z ->
  fits (rows (heights s1) + Z.to_nat (Z.abs k)) (step s1) -> fits (cols (heights s1) + Z.to_nat (Z.abs l)) (step s1) ->
  rolled fl (heights s1) (heights s2) k l (fgap_periodic s1 s2 (IZR k * step s1, IZR l * step s1)).
Proof.
  intros s1 s2 k l Hs Hr Hc Br Bc Bk Bl Fr Fc. pose proof (fits_pos _ _ Fr) as Hh.
  assert (X : forall n z i, fits (n + Z.to_nat (Z.abs z)) (step s1) -> (0 < Z.of_nat n <= 2 ^ 31)%Z -> (Z.abs z <= 2 ^ 31)%Z -> (i < n)%nat ->
    index (int_div (fremainder (fl (fl (flinspace (fl (step s1 * INR (n - 1))) n i - IZR z * step s1) + fl (eps * fextent n (step s1)))) (fextent n (step s1))) (step s1)) n =
    Some (Z.to_nat ((Z.of_nat i - z) mod Z.of_nat n))).
  { intros n z i F Bn Bz Hi. rewrite linspace_diff by assumption.
    assert (F1 : fits n (step s1)) by (destruct F as (m & e & -> & Hm & Hb); exists m, e; split; [ reflexivity | nia ]).
    assert (E : fextent n (step s1) = INR n * step s1) by (unfold fextent; rewrite Rmult_comm; apply (fits_exact n); [ exact F1 | lia ]).
    rewrite E.
    assert (E1 : fl (IZR (Z.of_nat i - z) * step s1) = IZR (Z.of_nat i - z) * step s1) by (apply (fits_Z (n + Z.to_nat (Z.abs z))); [ exact F | lia ]).
    assert (E2 : fl (eps * (INR n * step s1)) = eps * (INR n * step s1)).
    { rewrite (Rmult_comm eps). unfold eps. rewrite fl_scale, (fits_exact n) by (try exact F1; lia). reflexivity. }
    rewrite (remainder_index (step s1) n (Z.of_nat i - z) eps F1 ltac:(lia) ltac:(lia) ltac:(lia) E1 E2 eps_small).
    pose proof (Z.mod_pos_bound (Z.of_nat i - z) (Z.of_nat n) ltac:(lia)) as M.
    rewrite <- (Z2Nat.id ((Z.of_nat i - z) mod Z.of_nat n)) at 1 by lia. apply index_in. lia. }
  unfold fgap_periodic, fnearest. cbn [fst snd]. cbv zeta. rewrite Hs, Hr, Hc.
  assert (T : forall N (f : nat -> option nat) (P : forall i, (i < N)%nat -> exists x, f i = Some x),
     forallb (fun i : nat => match f i with Some _ => true | None => false end) (seq 0 N) = true).
  { intros N f P. apply forallb_forall. intros i Hi. apply in_seq in Hi. destruct (P i ltac:(lia)) as [x ->]. reflexivity. }
  pose proof (fun i => X (rows (heights s1)) k i Fr Br Bk) as Xr. pose proof (fun i => X (cols (heights s1)) l i Fc Bc Bl) as Xc.
  pose proof (T (rows (heights s1)) _ (fun i Hi => ex_intro _ _ (Xr i Hi))) as Tr.
  pose proof (T (cols (heights s1)) _ (fun i Hi => ex_intro _ _ (Xc i Hi))) as Tc. rewrite Tr, Tc. cbn [andb orb].
  match goal with |- context [difference_of (Ok ?a) ?b] => destruct (difference_ok a b eq_refl eq_refl ltac:(lia) ltac:(lia)) as (d & -> & R1 & C1 & A) end.
  exists d. split; [ reflexivity | ]. split; [ exact R1 | ]. split; [ exact C1 | ].
  intros i j Hi Hj. rewrite (A i j Hi Hj). cbn [at_]. rewrite Hr, Hc, Xr, Xc by assumption. reflexivity.
Qed.
Print Assumptions c122_rolled.
(** Three rows of the one above the first three of the other, a quarter apart, one row further. *)
Example c122_shifted_case : let s := FSurf (Grid 3 2 (fun i j => INR (i + j))) (/ 4) in
  shifted fl (heights s) (heights s) 1 0 (fgap_plain s s (IZR 1 * step s, IZR 0 * step s)) /\
  rolled fl (heights s) (heights s) 1 0 (fgap_periodic s s (IZR 1 * step s, IZR 0 * step s)).
Proof.
  intros s. assert (F : forall n, (Z.of_nat n < 2 ^ 40)%Z -> fits n (step s)).
  { intros n Hn. exists 1%Z, (-2)%Z. split; [ cbn [step s]; simpl; lra | lia ]. }
  split; [ apply c122_shifted | apply c122_rolled ]; try reflexivity; try apply F; cbn; lia.
Qed.

(** Any spacing: setting it to its value loses at most one point of a side, interpolators have at most one node too many. *)
Theorem c122_off_by_one : forall h n, 0 < h -> (0 < Z.of_nat n <= 2 ^ 31)%Z ->
  (exists k, f_shape (fset_spacing (fset_spacing (FGeom None (Some (Z.of_nat n, Z.of_nat n)) None) h) h) = Some (k, k) /\
             (k = Z.of_nat n \/ k = Z.of_nat n - 1)%Z) /\
  (farange_len 0 (fextent n h) h = n \/ farange_len 0 (fextent n h) h = S n).
Proof.
  intros h n Hh Hn. split.
  - exists (Ztrunc (quot n h)). split.
    + unfold fset_spacing. cbn [f_extent f_shape]. unfold fpoints, fscale. cbn [fst snd]. rewrite <- INR_IZR_INZ. reflexivity.
    + destruct (index_near n h Hh (proj2 Hn)) as [H | [_ H]]; [ left | right ]; exact H.
  - rewrite arange_len_extent. destruct (Rtotal_order (quot n h) (INR n)) as [H | [H | H]].
    + left. rewrite (proj2 (quot_low n h Hh (proj2 Hn) H)). apply Nat2Z.id.
    + left. rewrite (proj2 (quot_same n h ltac:(lia) H)). apply Nat2Z.id.
    + right. rewrite (proj2 (quot_high n h Hh (proj2 Hn) H)). lia.
Qed.
Print Assumptions c122_off_by_one.

(** Any spacing: without periods the gap of two surfaces on one grid is found exactly when both sides divided by the
    spacing give the numbers of points. *)
Theorem c122_found : forall s1 s2, 0 < step s1 -> double (step s1) -> step s2 = step s1 ->
  rows (heights s2) = rows (heights s1) -> cols (heights s2) = cols (heights s1) ->
  (0 < Z.of_nat (rows (heights s1)) <= 2 ^ 31)%Z -> (0 < Z.of_nat (cols (heights s1)) <= 2 ^ 31)%Z ->
  let exactly n := fl (fl (INR n * step s1) / step s1) = INR n in
  ((exists d, fgap_plain s1 s2 (0, 0) = Ok d) <-> exactly (rows (heights s1)) /\ exactly (cols (heights s1))).
Proof.
  intros s1 s2 Hh Hd Hs Hr Hc Br Bc exactly. split.
  - intros [d E]. fold (quot (rows (heights s1)) (step s1)) (quot (cols (heights s1)) (step s1)) in *. unfold exactly.
    change (quot (rows (heights s1)) (step s1) = INR (rows (heights s1)) /\ quot (cols (heights s1)) (step s1) = INR (cols (heights s1))).
    destruct (Rlt_le_dec (INR (rows (heights s1))) (quot (rows (heights s1)) (step s1))) as [H | H];
    destruct (Rlt_le_dec (INR (cols (heights s1))) (quot (cols (heights s1)) (step s1))) as [H' | H'];
      try (rewrite plain_high in E by (try assumption; try lia; auto); discriminate).
    destruct (Rle_lt_or_eq_dec _ _ H) as [L | L].
    { rewrite plain_low in E by (try assumption; try lia; auto). discriminate. }
    destruct (Rle_lt_or_eq_dec _ _ H') as [L' | L'].
    { rewrite plain_low in E by (try assumption; try lia; auto). discriminate. }
    split; assumption.
  - intros [Er Ec]. destruct (plain_found s1 s2 Hh Hd Hs Hr Hc) as (d & E & _); try lia; try assumption. exists d. exact E.
Qed.
Print Assumptions c122_found.

(** Any spacing: a gap that is found has the shape of the first surface, and each of its heights is that of a point of
    the second surface with the same row or the one before, and the same column or the one before. With periods it is
    always found. *)
Theorem c122_near : forall s1 s2, 0 < step s1 -> double (step s1) -> step s2 = step s1 ->
  rows (heights s2) = rows (heights s1) -> cols (heights s2) = cols (heights s1) ->
  (0 < Z.of_nat (rows (heights s1)) <= 2 ^ 31)%Z -> (0 < Z.of_nat (cols (heights s1)) <= 2 ^ 31)%Z ->
  (forall d, fgap_plain s1 s2 (0, 0) = Ok d -> near_heights fl (heights s1) (heights s2) d) /\
  (exists d, fgap_periodic s1 s2 (0, 0) = Ok d /\ near_heights fl (heights s1) (heights s2) d).
Proof.
  intros s1 s2 Hh Hd Hs Hr Hc Br Bc. split.
  - intros d E. pose proof (proj1 (c122_found s1 s2 Hh Hd Hs Hr Hc Br Bc) (ex_intro _ d E)) as [Er Ec].
    destruct (plain_found s1 s2 Hh Hd Hs Hr Hc) as (d' & E' & R1 & C1 & A); try lia; try assumption.
    rewrite E in E'. injection E' as <-. split; [ exact R1 | ]. split; [ exact C1 | ]. intros i j Hi Hj.
    destruct (row_of_in (step s1) _ i Hh (proj2 Br) Hi) as (a & Ka & Na). destruct (row_of_in (step s1) _ j Hh (proj2 Bc) Hj) as (b & Kb & Nb).
    exists a, b. split; [ exact Na | ]. split; [ exact Nb | ]. apply A; assumption.
  - destruct (periodic_found s1 s2 Hs Hr Hc ltac:(lia) ltac:(lia)) as (d & E & R1 & C1 & A).
    { intros i Hi. destruct (row2_of_in (step s1) _ i Hh (proj2 Br) Hi) as (k & K & _). exists k. exact K. }
    { intros i Hi. destruct (row2_of_in (step s1) _ i Hh (proj2 Bc) Hi) as (k & K & _). exists k. exact K. }
    exists d. split; [ exact E | ]. split; [ exact R1 | ]. split; [ exact C1 | ]. intros i j Hi Hj.
    destruct (row2_of_in (step s1) _ i Hh (proj2 Br) Hi) as (a & Ka & Na). destruct (row2_of_in (step s1) _ j Hh (proj2 Bc) Hj) as (b & Kb & Nb).
    exists a, b. split; [ exact Na | ]. split; [ exact Nb | ]. apply A; assumption.
Qed.
Print Assumptions c122_near.

(** An interpolator is made exactly when neither quotient is above the number of points. *)
Theorem c122_interpolator : forall s, 0 < step s ->
  (0 < Z.of_nat (rows (heights s)) <= 2 ^ 31)%Z -> (0 < Z.of_nat (cols (heights s)) <= 2 ^ 31)%Z ->
  let above n := INR n < fl (fl (INR n * step s) / step s) in
  (above (rows (heights s)) \/ above (cols (heights s)) -> finterpolator s = Err ValueError) /\
  (~ (above (rows (heights s)) \/ above (cols (heights s))) -> finterpolator s = Ok tt).
Proof.
  intros s Hh Br Bc above. unfold finterpolator. rewrite !arange_len_extent.
  assert (L : forall n, (0 < Z.of_nat n <= 2 ^ 31)%Z -> ~ above n -> Nat.eqb (Z.to_nat (Zceil (quot n (step s)))) n = true).
  { intros n B N. apply Nat.eqb_eq. destruct (Rtotal_order (quot n (step s)) (INR n)) as [H | [H | H]].
    - rewrite (proj2 (quot_low n _ Hh (proj2 B) H)). apply Nat2Z.id.
    - rewrite (proj2 (quot_same n _ ltac:(lia) H)). apply Nat2Z.id.
    - contradiction. }
  assert (U : forall n, (0 < Z.of_nat n <= 2 ^ 31)%Z -> above n -> Nat.eqb (Z.to_nat (Zceil (quot n (step s)))) n = false).
  { intros n B N. apply Nat.eqb_neq. rewrite (proj2 (quot_high n _ Hh (proj2 B) N)). lia. }
  split; [ intros [A | A] | intros A ].
  - rewrite (U _ Br A). reflexivity.
  - rewrite (U _ Bc A), andb_false_r. reflexivity.
  - rewrite !L by tauto. reflexivity.
Qed.
Print Assumptions c122_interpolator.

(** Refuted: equal surfaces on one grid touch everywhere. A hundredth of any unit, 29 rows: the two sides of the
    subtraction have 29 and 28 rows. 7 rows: the second surface is asked for an eighth. *)
Theorem c122_gap_refuted : forall k s1 s2, step s1 = hundredth * bpow radix2 k -> step s2 = step s1 ->
  rows (heights s2) = rows (heights s1) -> cols (heights s1) = 1%nat -> cols (heights s2) = 1%nat ->
  (rows (heights s1) = 29%nat -> fgap_plain s1 s2 (0, 0) = Err ValueError) /\
  (rows (heights s1) = 7%nat -> fgap_plain s1 s2 (0, 0) = Err IndexError).
Proof.
  intros k s1 s2 Hk Hs Hr Hc1 Hc2. destruct (hundredth_double k) as [Hd Hh]. rewrite <- Hk in Hd, Hh.
  assert (Q1 : quot 1 (step s1) = INR 1) by (apply quot_small; [ assumption .. | lia ]).
  split; intros Hr1.
  - apply plain_low; rewrite ?Hr, ?Hc1, ?Hc2, ?Hr1, ?Q1; try assumption; try lia; try apply Rle_refl; rewrite Hk.
    + left. apply hundredth_low_29.
    + left. apply hundredth_low_29.
  - apply plain_high; rewrite ?Hr, ?Hc1, ?Hc2, ?Hr1; try assumption; try lia. rewrite Hk. left. apply hundredth_high_7.
Qed.
Print Assumptions c122_gap_refuted.
Example c122_gap_refuted_case : fgap_plain (FSurf (Grid 29 1 (fun _ _ => 0)) hundredth) (FSurf (Grid 29 1 (fun _ _ => 0)) hundredth) (0, 0) = Err ValueError.
Proof.
  assert (E : hundredth = hundredth * bpow radix2 0) by (simpl; ring).
  apply (c122_gap_refuted 0 (FSurf (Grid 29 1 (fun _ _ => 0)) hundredth) (FSurf (Grid 29 1 (fun _ _ => 0)) hundredth)); try reflexivity. exact E.
Qed.

(** Refuted: where a gap is found, it is that of the points. 30 rows a hundredth apart: the last but one row of the second
    surface stands for its last. *)
Theorem c122_heights_refuted : forall k s1 s2, step s1 = hundredth * bpow radix2 k -> step s2 = step s1 ->
  rows (heights s1) = 30%nat -> rows (heights s2) = 30%nat -> cols (heights s1) = 1%nat -> cols (heights s2) = 1%nat ->
  exists d, fgap_plain s1 s2 (0, 0) = Ok d /\ at_ d 29 0 = fl (- at_ (heights s2) 28 0 - at_ (heights s1) 29 0).
Proof.
  intros k s1 s2 Hk Hs Hr1 Hr2 Hc1 Hc2. destruct (hundredth_double k) as [Hd Hh]. rewrite <- Hk in Hd, Hh.
  destruct (plain_found s1 s2 Hh Hd Hs) as (d & E & R1 & C1 & A); rewrite ?Hr1, ?Hr2, ?Hc1, ?Hc2; try lia; try reflexivity.
  - rewrite Hk. apply hundredth_same_30.
  - apply quot_small; [ assumption .. | lia ].
  - exists d. split; [ exact E | ]. apply A; rewrite ?Hr1, ?Hc1; try lia.
    + unfold row_of. rewrite Hk, (proj1 (quot_low 29 _ (proj2 (hundredth_double k)) ltac:(lia) (hundredth_low_29 k))). reflexivity.
    + unfold row_of. rewrite (quot_small 0 _ Hh Hd) by lia. simpl INR. rewrite Ztrunc_IZR. reflexivity.
Qed.
Print Assumptions c122_heights_refuted.
(** A step at the last row of two equal and opposite surfaces: a gap where they fit. *)
Example c122_heights_refuted_case : exists s1 s2 d, fgap_plain s1 s2 (0, 0) = Ok d /\
  at_ (heights s2) 29 0 = - at_ (heights s1) 29 0 /\ at_ d 29 0 <> 0.
Proof.
  assert (E : hundredth = hundredth * bpow radix2 0) by (simpl; ring).
  set (s1 := FSurf (Grid 30 1 (fun i _ => if Nat.eqb i 29 then 1 else 0)) hundredth).
  set (s2 := FSurf (Grid 30 1 (fun i _ => if Nat.eqb i 29 then -1 else 0)) hundredth).
  destruct (c122_heights_refuted 0 s1 s2 E eq_refl eq_refl eq_refl eq_refl eq_refl) as (d & G & A).
  exists s1, s2, d. split; [ exact G | ]. split; [ cbn; lra | ]. rewrite A. cbn.
  replace (- 0 - 1) with (IZR (-1)) by lra. rewrite fl_id; [ lra | apply fmt_Z; lia ].
Qed.

(** Refuted: with periods it is that of the points. 116 rows 0.29 of any unit apart: row 113 stands for row 114. *)
Theorem c122_periodic_refuted : forall k s1 s2, step s1 = d029 * bpow radix2 k -> step s2 = step s1 ->
  rows (heights s1) = 116%nat -> rows (heights s2) = 116%nat -> cols (heights s1) = 1%nat -> cols (heights s2) = 1%nat ->
  exists d, fgap_periodic s1 s2 (0, 0) = Ok d /\ at_ d 114 0 = fl (- at_ (heights s2) 113 0 - at_ (heights s1) 114 0).
Proof.
  intros k s1 s2 Hk Hs Hr1 Hr2 Hc1 Hc2.
  assert (Hh : 0 < step s1) by (rewrite Hk; unfold d029; repeat apply Rmult_lt_0_compat; try apply bpow_gt_0; lra).
  destruct (periodic_found s1 s2 Hs) as (d & E & R1 & C1 & A); rewrite ?Hr1, ?Hr2, ?Hc1, ?Hc2; try lia; try reflexivity.
  { intros i Hi. destruct (row2_of_in (step s1) 116 i Hh ltac:(lia) Hi) as (a & K & _). exists a. exact K. }
  { intros i Hi. destruct (row2_of_in (step s1) 1 i Hh ltac:(lia) Hi) as (a & K & _). exists a. exact K. }
  exists d. split; [ exact E | ]. apply A; rewrite ?Hr1, ?Hc1; try lia.
  - unfold row2_of. rewrite Hk, d029_114. reflexivity.
  - destruct (row2_of_in (step s1) 1 0 Hh ltac:(lia) ltac:(lia)) as (a & K & [-> | N]); [ exact K | lia ].
Qed.
Print Assumptions c122_periodic_refuted.

(** Refuted: setting the spacing to the value it has changes nothing. A hundredth of any unit: 117 points, then 116, then 115. *)
Theorem c122_spacing_refuted : forall k, let h := hundredth * bpow radix2 k in
  let g := fset_spacing (FGeom None (Some (117, 117)%Z) None) h in
  f_shape g = Some (117, 117)%Z /\ f_shape (fset_spacing g h) = Some (116, 116)%Z /\
  f_shape (fset_spacing (fset_spacing g h) h) = Some (115, 115)%Z.
Proof.
  intros k h g. destruct (hundredth_double k) as [Hd Hh].
  assert (A : int_div (fl (117 * h)) h = 116%Z).
  { replace 117 with (INR 117) by (rewrite INR_IZR_INZ; reflexivity). apply (quot_low 117 h Hh ltac:(lia) (hundredth_low_117 k)). }
  assert (B : int_div (fl (116 * h)) h = 115%Z).
  { replace 116 with (INR 116) by (rewrite INR_IZR_INZ; reflexivity). apply (quot_low 116 h Hh ltac:(lia) (hundredth_low_116 k)). }
  unfold g, fset_spacing. cbn [f_extent f_shape]. unfold fpoints, fscale. cbn [fst snd].
  rewrite A. cbn [fst snd]. rewrite B. auto.
Qed.
Print Assumptions c122_spacing_refuted.

(** Refuted: an extent of 0.3 with a spacing of 0.1, in any unit, is three points 0.1 apart. It is two, 0.15 apart. *)
Theorem c122_extent_refuted : forall k, let h := tenth * bpow radix2 k in let e := three_tenth * bpow radix2 k in
  fset_extent (fset_spacing (FGeom None None None) h) (e, e) = FGeom (Some (e, e)) (Some (2, 2)%Z) (Some (e / 2)).
Proof.
  intros k h e. unfold fset_spacing, fset_extent. cbn [f_extent f_shape f_spacing]. unfold fpoints, fscale. cbn [fst snd].
  assert (A : int_div e h = 2%Z) by (apply three_tenths_points). rewrite A.
  assert (F : fmt e) by (unfold e, three_tenth; apply fmt_bpow, fmt_bpow, fmt_Z; lia).
  assert (G : fl (e / 2) = e / 2).
  { replace (e / 2) with (e * bpow radix2 (-1)) by (change (bpow radix2 (-1)) with (/ 2); reflexivity). apply fl_id, fmt_bpow, F. }
  rewrite G. replace (2 * (e / 2)) with e by field. rewrite (fl_id e F). reflexivity.
Qed.
Print Assumptions c122_extent_refuted.

(** Refuted: a surface can be interpolated. 7 rows a hundredth of any unit apart: eight nodes for seven rows. *)
Theorem c122_interpolator_refuted : forall k s, step s = hundredth * bpow radix2 k -> rows (heights s) = 7%nat ->
  finterpolator s = Err ValueError.
Proof.
  intros k s Hk Hr. destruct (hundredth_double k) as [Hd Hh]. rewrite <- Hk in Hh. unfold finterpolator.
  rewrite arange_len_extent, Hr, (proj2 (quot_high 7 _ Hh ltac:(lia) (eq_ind_r (fun h => INR 7 < quot 7 h) (hundredth_high_7 k) Hk))). reflexivity.
Qed.
Print Assumptions c122_interpolator_refuted.
