(** C32: parts of a grid spacing in an off set. *)
From Coq Require Import List Bool Arith ZArith Lia Reals Lra FunctionalExtensionality.
From Verif Require Import Py SurfaceModel SurfaceProofs GapModel GapSpec GapProofs.
Import ListNotations.
Local Open Scope R_scope.

Lemma fraction_direction n e2 k t gs : 0 < gs -> INR n * gs <= e2 -> (k < n)%nat -> 0 <= t < 1 ->
  let o := - ((INR k + t) * gs) in
  Rmax (- o) 0 = (INR k + t) * gs /\ Rmin (INR n * gs) (e2 - o) = INR n * gs /\ arange_len ((INR k + t) * gs) (INR n * gs) gs = (n - k)%nat /\
  slice_bound (trunc ((INR k + t) * gs / gs)) n = k /\ slice_bound (trunc (INR n * gs / gs)) n = n.
Proof.
  intros G E K T o. pose proof (pos_INR k) as Pk. assert (Po : 0 <= (INR k + t) * gs) by (apply Rmult_le_pos; lra).
  split; [unfold o; rewrite Ropp_involutive; apply Rmax_left; exact Po|]. split; [apply Rmin_left; unfold o; lra|]. split; [|split].
  - unfold arange_len. replace ((INR n * gs - (INR k + t) * gs) / gs) with (INR n - INR k - t) by (field; lra).
    unfold rceil. rewrite (Int_part_unique _ (- Z.of_nat (n - k))); [lia|]. rewrite opp_IZR, <- INR_IZR_INZ, minus_INR by lia. lra.
  - replace ((INR k + t) * gs / gs) with (INR k + t) by (field; lra). rewrite (trunc_nat _ k) by lra. rewrite slice_bound_in by lia. lia.
  - replace (INR n * gs / gs) with (IZR (Z.of_nat n)) by (rewrite <- INR_IZR_INZ; field; lra). rewrite trunc_IZR, slice_bound_in by lia. apply Nat2Z.id.
Qed.
Lemma plain_fraction interp s1 s2 h o1 k : regular s1 -> fst (d_extent s1) <= fst (d_extent s2) -> (k < rows (d_prof s1))%nat ->
  exists r : result (grid * (nat -> nat -> R) * (nat -> nat -> R * R)), forall t, 0 <= t < 1 ->
    gap_plain interp s1 s2 h (- ((INR k + t) * d_gs s1), o1) =
    bind r (fun x => Ok (fst (fst x), (fun i j => ((INR k + t) * d_gs s1 + INR i * d_gs s1, snd (fst x) i j)), snd x)).
Proof.
  intros [G X] E K. rewrite X in E. cbn [fst] in E. set (gs := d_gs s1) in *. set (n := rows (d_prof s1)) in *. set (m := cols (d_prof s1)) in *.
  set (xlo := Rmax (- o1) 0). set (xhi := Rmin (INR m * gs) (snd (d_extent s2) - o1)).
  set (x0 := slice_bound (trunc (xlo / gs)) m). set (x1 := slice_bound (trunc (xhi / gs)) m). set (p2 := fun i j : nat => (INR i * gs, xlo + INR j * gs + o1)).
  exists (if Rltb (snd (d_extent s2)) (INR m * gs) then Err ValueError else
    bind (sample interp s2 (n - k) (arange_len xlo xhi gs) p2) (fun sub2 =>
    bind (broadcast (fun b a => - b - a) sub2 (Grid (n - k) (x1 - x0) (fun i j => at_ (d_prof s1) (k + i) (x0 + j)))) (fun g =>
    match values g with [] => Err ValueError | _ => bind (settle g h) (fun g' => Ok (g', (fun _ j => xlo + INR j * gs), p2)) end))).
  intros t T. destruct (fraction_direction n _ k t gs G E K T) as (A1 & A2 & A3 & A4 & A5).
  unfold gap_plain. rewrite X. cbn [fst snd]. fold gs n m. assert (F : Rltb (fst (d_extent s2)) (INR n * gs) = false) by (apply Rltb_false; lra). rewrite F. cbn [orb].
  destruct (Rltb (snd (d_extent s2)) (INR m * gs)); [reflexivity|]. cbv zeta. rewrite A1, A2, A3, A4, A5. fold xlo xhi x0 x1.
  assert (P : (fun i j : nat => ((INR k + t) * gs + INR i * gs + - ((INR k + t) * gs), xlo + INR j * gs + o1)) = p2).
  { apply functional_extensionality. intros i. apply functional_extensionality. intros j. unfold p2. f_equal. ring. }
  cbn [fst snd] in *. rewrite P. destruct (sample interp s2 (n - k) _ p2) as [sub2|]; cbn [bind]; [|reflexivity].
  destruct (broadcast _ sub2 _) as [g|]; cbn [bind]; [|reflexivity]. destruct (values g); [reflexivity|]. destruct (settle g h); reflexivity.
Qed.
(** Refuted: an off set that is not a whole number of points counts. If the second surface is moved by k points and a part of a spacing in the negative direction, the gap is exactly that of k
    points, for any interpolation and any off set in the other direction; only the points that are given back for the first surface are moved by the part. *)
Theorem c32_part_ignored_refuted : forall interp s1 s2 h k t o1, regular s1 -> fst (d_extent s1) <= fst (d_extent s2) -> (k < rows (d_prof s1))%nat -> 0 <= t < 1 ->
  let gap o := get_gap interp (Some s1) (Discrete s2) h (o, o1) false in
  (forall g p1 p2, gap (- (INR k * d_gs s1)) = Ok (g, p1, p2) ->
     exists p1', gap (- ((INR k + t) * d_gs s1)) = Ok (g, p1', p2) /\ forall i j, p1' i j = (fst (p1 i j) + t * d_gs s1, snd (p1 i j))) /\
  (forall e, gap (- (INR k * d_gs s1)) = Err e -> gap (- ((INR k + t) * d_gs s1)) = Err e).
Proof.
  intros interp s1 s2 h k t o1 Rg E K T. cbn [get_gap]. destruct (plain_fraction interp s1 s2 h o1 k Rg E K) as (r & H).
  pose proof (H 0 ltac:(lra)) as H0. rewrite Rplus_0_r in H0. rewrite H0, (H t T). destruct r as [[[g q] p2]|e]; cbn [bind fst snd].
  - split; [|discriminate]. intros g' p1 p2' Q. injection Q as <- <- <-. eexists. split; [reflexivity|]. intros i j. cbn [fst snd]. f_equal. ring.
  - split; [discriminate|]. intros e' Q. exact Q.
Qed.
Print Assumptions c32_part_ignored_refuted.
Example c32_part_ignored_case : let s1 := DSurf (Grid 3 2 (fun i j => INR i)) 2 (INR 3 * 2, INR 2 * 2) in let s2 := DSurf (Grid 5 4 (fun i j => INR j)) 2 (INR 5 * 2, INR 4 * 2) in
  regular s1 /\ fst (d_extent s1) <= fst (d_extent s2) /\ exists g p1 p2, get_gap nearest_mode (Some s1) (Discrete s2) 1 (- (INR 1 * d_gs s1), 0) false = Ok (g, p1, p2).
Proof.
  intros s1 s2. assert (A : regular s1) by (split; [cbn; lra|reflexivity]). assert (B : regular s2) by (split; [cbn; lra|reflexivity]). split; [exact A|]. split; [cbn; lra|].
  destruct (gap_plain_aligned s1 s2 1 (-1) 0 A B eq_refl ltac:(cbn; lia) ltac:(cbn; lia) ltac:(cbn; lia) ltac:(cbn; lia)) as (g & p1 & p2 & c & H & _).
  exists g, p1, p2. rewrite <- H. cbn [get_gap]. f_equal. cbn. f_equal; ring.
Qed.
