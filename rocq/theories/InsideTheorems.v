(** C32: a surface which stays over the other one. *)
From Coq Require Import List Bool Arith ZArith Lia Reals Lra.
From Verif Require Import Py SurfaceModel SurfaceProofs GapModel GapSpec GapProofs.
Import ListNotations.
Local Open Scope R_scope.

(** Along one direction: the first surface, of size [e1], lies within the second, of size [e2]. *)
Definition within (e1 e2 o : R) : Prop := 0 <= o /\ e1 + o <= e2.

Lemma whole_direction n e2 o gs : 0 < gs -> within (INR n * gs) e2 o ->
  Rltb e2 (INR n * gs) = false /\ Rmax (- o) 0 = 0 /\ Rmin (INR n * gs) (e2 - o) = INR n * gs /\
  arange_len 0 (INR n * gs) gs = n /\ slice_bound (trunc (0 / gs)) n = 0%nat /\ slice_bound (trunc (INR n * gs / gs)) n = n.
Proof.
  intros G [O W]. assert (Q : INR n * gs / gs = IZR (Z.of_nat n)) by (rewrite <- INR_IZR_INZ; field; lra).
  split; [apply Rltb_false; lra|]. split; [apply Rmax_right; lra|]. split; [apply Rmin_left; lra|]. split; [|split].
  - unfold arange_len. rewrite Rminus_0_r, Q, rceil_IZR. apply Nat2Z.id.
  - replace (0 / gs) with 0 by (field; lra). rewrite (trunc_IZR 0). apply slice_bound_in. lia.
  - rewrite Q, trunc_IZR, slice_bound_in by lia. apply Nat2Z.id.
Qed.
(** Not periodic, with any off set, fractional or not, for which the first surface lies within the second in both directions, any spacing of the second surface and any interpolation
    that gives a height at each of the points: the gap covers the whole first surface. Point i of it faces the place moved by the off set; the gap is a constant minus the sum of the
    height there and the height of the point, and its smallest value is minus the interference. *)
Theorem c32_within : forall interp s1 s2 h o0 o1 (z2 : R -> R -> R),
  regular s1 -> (0 < rows (d_prof s1))%nat -> (0 < cols (d_prof s1))%nat ->
  within (fst (d_extent s1)) (fst (d_extent s2)) o0 -> within (snd (d_extent s1)) (snd (d_extent s2)) o1 ->
  (forall i j, (i < rows (d_prof s1))%nat -> (j < cols (d_prof s1))%nat ->
     let y := INR i * d_gs s1 + o0 in let x := INR j * d_gs s1 + o1 in interp s2 y x = Ok (z2 y x)) ->
  exists g p1 p2 c, get_gap interp (Some s1) (Discrete s2) h (o0, o1) false = Ok (g, p1, p2) /\
    rows g = rows (d_prof s1) /\ cols g = cols (d_prof s1) /\ smallest g (- h) /\
    (forall i j, p1 i j = (INR i * d_gs s1, INR j * d_gs s1) /\ p2 i j = (INR i * d_gs s1 + o0, INR j * d_gs s1 + o1)) /\
    forall i j, (i < rows g)%nat -> (j < cols g)%nat ->
      at_ g i j = c - (z2 (INR i * d_gs s1 + o0) (INR j * d_gs s1 + o1) + at_ (d_prof s1) i j).
Proof.
  intros interp s1 s2 h o0 o1 z2 [G X] Pr Pc W0 W1 I. cbn [get_gap]. unfold gap_plain. rewrite X in *. cbn [fst snd] in *.
  set (n := rows (d_prof s1)) in *. set (m := cols (d_prof s1)) in *. set (gs := d_gs s1) in *.
  destruct (whole_direction n _ o0 gs G W0) as (A1 & A2 & A3 & A4 & A5 & A6). destruct (whole_direction m _ o1 gs G W1) as (B1 & B2 & B3 & B4 & B5 & B6).
  rewrite A1, B1. cbn [orb]. cbv zeta. rewrite A2, A3, B2, B3, A4, B4, A5, B5, A6, B6. rewrite !Nat.sub_0_r. set (p2 := fun i j : nat => (0 + INR i * gs + o0, 0 + INR j * gs + o1)). 
  assert (V : forall i j, (i < n)%nat -> (j < m)%nat -> interp s2 (fst (p2 i j)) (snd (p2 i j)) = Ok (z2 (INR i * gs + o0) (INR j * gs + o1))).
  { intros i j Hi Hj. unfold p2. cbn [fst snd]. rewrite !Rplus_0_l. apply I; assumption. }
  destruct (sample_ok interp s2 n m p2) as (sub2 & E2 & R2 & C2 & V2). { intros i j Hi Hj. rewrite V by assumption. eauto. }
  cbn [fst snd]. fold p2. rewrite E2. cbn [bind]. unfold broadcast. cbn [rows cols at_]. rewrite R2, C2. unfold bdim. rewrite !Nat.eqb_refl. cbn [bind].
  match goal with |- context [values ?x] => set (g := x) end. destruct (values_nonempty g) as (x & l & EV); [exact Pr|exact Pc|]. rewrite EV.
  destruct (settle_total g h) as (g' & E'); [exact Pr|exact Pc|]. rewrite E'. cbn [bind].
  destruct (settle_ok _ _ _ E') as (mm & _ & Rg & Cg & Vg & Sm). exists g'. do 2 eexists. exists (- (mm + h)). split; [reflexivity|].
  split; [exact Rg|]. split; [exact Cg|]. split; [exact Sm|]. split; [intros i j; cbn; unfold p2; rewrite !Rplus_0_l; split; reflexivity|].
  intros i j Hi Hj. rewrite Rg in Hi. rewrite Cg in Hj. cbn in Hi, Hj. rewrite Vg. unfold g. cbn [at_].
  assert (B : forall k q, (q < k)%nat -> bidx k q = q) by (intros k q L; unfold bidx; destruct (Nat.eqb_spec k 1); lia). rewrite !B by assumption. rewrite !Nat.add_0_l.
  pose proof (V2 i j Hi Hj) as Q. rewrite V in Q by assumption. injection Q as Q. rewrite <- Q. ring.
Qed.
Print Assumptions c32_within.
(** A surface of two by two points with spacing 2 and half a point from the corner of one with 9 by 9 points and spacing 1. *)
Example c32_within_case : let s1 := DSurf (Grid 2 2 (fun i j => INR i)) 2 (INR 2 * 2, INR 2 * 2) in let s2 := DSurf (Grid 9 9 (fun i j => INR j)) 1 (9, 9) in
  regular s1 /\ within (fst (d_extent s1)) (fst (d_extent s2)) (1 / 2) /\
  forall i j, (i < 2)%nat -> (j < 2)%nat -> exists v, nearest_mode s2 (INR i * 2 + 1 / 2) (INR j * 2 + 1 / 2) = Ok v.
Proof.
  cbv zeta. unfold regular, within. cbn [d_gs d_extent d_prof rows cols fst snd]. split; [split; [lra|reflexivity]|]. split; [cbn; lra|]. intros i j Hi Hj.
  unfold nearest_mode, nearest. cbn [d_gs d_prof rows cols]. assert (T : forall k, trunc ((INR k * 2 + 1 / 2) / 1) = Z.of_nat (2 * k)).
  { intros k. rewrite (trunc_nat _ (2 * k)); [reflexivity|]. rewrite mult_INR. cbn [INR]. lra. }
  rewrite !T, !npindex_in by lia. eauto.
Qed.
