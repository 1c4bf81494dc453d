(** Proofs about gaps. *)
From Coq Require Import List Bool Arith ZArith Lia Reals Lra.
From Verif Require Import Py SurfaceModel SurfaceProofs GapModel GapSpec.
Import ListNotations.
Local Open Scope R_scope.

(** ** Integers *)
Lemma Int_part_IZR z : Int_part (IZR z) = z.
Proof. unfold Int_part. assert (up (IZR z) = (z + 1)%Z) as ->; [|lia]. symmetry. apply tech_up; rewrite plus_IZR; lra. Qed.
Lemma Int_part_unique x z : IZR z <= x < IZR z + 1 -> Int_part x = z.
Proof. intros H. unfold Int_part. assert (up x = (z + 1)%Z) as ->; [|lia]. symmetry. apply tech_up; rewrite plus_IZR; lra. Qed.
Lemma Int_part_bounds x : IZR (Int_part x) <= x < IZR (Int_part x) + 1.
Proof. destruct (base_Int_part x). lra. Qed.
Lemma trunc_IZR z : trunc (IZR z) = z.
Proof. unfold trunc. destruct (Rltb _ _); rewrite ?Int_part_IZR; [|reflexivity]. rewrite <- opp_IZR, Int_part_IZR. lia. Qed.
Lemma rceil_IZR z : rceil (IZR z) = z.
Proof. unfold rceil. rewrite <- opp_IZR, Int_part_IZR. lia. Qed.
Lemma div_IZR z g : 0 < g -> IZR z * g / g = IZR z.
Proof. intros. field. lra. Qed.
Lemma Rmax_mul a b g : 0 < g -> Rmax (IZR a * g) (IZR b * g) = IZR (Z.max a b) * g.
Proof.
  intros H. destruct (Z.max_spec a b) as [[L ->]|[L ->]].
  - apply Rmax_right. apply Rmult_le_compat_r; [lra|]. apply IZR_le. lia.
  - apply Rmax_left. apply Rmult_le_compat_r; [lra|]. now apply IZR_le.
Qed.
Lemma Rmin_mul a b g : 0 < g -> Rmin (IZR a * g) (IZR b * g) = IZR (Z.min a b) * g.
Proof.
  intros H. destruct (Z.min_spec a b) as [[L ->]|[L ->]].
  - apply Rmin_left. apply Rmult_le_compat_r; [lra|]. apply IZR_le. lia.
  - apply Rmin_right. apply Rmult_le_compat_r; [lra|]. now apply IZR_le.
Qed.
Lemma npindex_in n z : (0 <= z < Z.of_nat n)%Z -> npindex n z = Some (Z.to_nat z).
Proof.
  intros H. unfold npindex. assert (Z.leb 0 z = true) as -> by (apply Z.leb_le; lia).
  assert (Z.ltb z (Z.of_nat n) = true) as -> by (apply Z.ltb_lt; lia). reflexivity.
Qed.
Lemma slice_bound_in z n : (0 <= z <= Z.of_nat n)%Z -> slice_bound z n = Z.to_nat z.
Proof. intros H. unfold slice_bound. destruct (Z.ltb_spec z 0); lia. Qed.

(** ** Minimum *)
Lemma in_cells r c i j : In (i, j) (cells r c) <-> (i < r)%nat /\ (j < c)%nat.
Proof.
  unfold cells. rewrite in_flat_map. split.
  - intros (a & Ha & H). apply in_map_iff in H as (b & E & Hb). injection E as <- <-. apply in_seq in Ha, Hb. lia.
  - intros [Hi Hj]. exists i. split; [apply in_seq; lia|]. apply in_map_iff. exists j. split; [reflexivity|apply in_seq; lia].
Qed.
Lemma fold_min_spec l : forall x, In (fold_left Rmin l x) (x :: l) /\ forall y, In y (x :: l) -> fold_left Rmin l x <= y.
Proof.
  induction l as [|a l IH]; intros x; cbn [fold_left].
  - split; [now left|]. intros y [->|[]]; lra.
  - destruct (IH (Rmin x a)) as [I1 I2]. split.
    + destruct I1 as [E|E]; [|now right; right]. destruct (Rmin_case x a (fun r => r = x \/ r = a)) as [E'|E']; auto;
        rewrite <- E; rewrite E'; [now left|now right; left].
    + intros y Hy. assert (L : fold_left Rmin l (Rmin x a) <= Rmin x a) by (apply I2; now left).
      destruct Hy as [->|[->|Hy]].
      * apply Rle_trans with (1 := L). apply Rmin_l.
      * apply Rle_trans with (1 := L). apply Rmin_r.
      * apply I2. now right.
Qed.
Lemma py_min_ok l m : py_min l = Ok m -> In m l /\ forall y, In y l -> m <= y.
Proof. destruct l as [|x l]; [discriminate|]. intros H. injection H as <-. apply fold_min_spec. Qed.
Lemma in_values g v : In v (values g) <-> exists i j, (i < rows g)%nat /\ (j < cols g)%nat /\ at_ g i j = v.
Proof.
  unfold values. rewrite in_map_iff. split.
  - intros ([i j] & E & H). apply in_cells in H as [Hi Hj]. eauto.
  - intros (i & j & Hi & Hj & E). exists (i, j). split; [exact E|]. now apply in_cells.
Qed.
Lemma settle_ok g h g' : settle g h = Ok g' -> exists m, py_min (values g) = Ok m /\
  rows g' = rows g /\ cols g' = cols g /\ (forall i j, at_ g' i j = at_ g i j - (m + h)) /\ smallest g' (- h).
Proof.
  unfold settle. destruct (py_min (values g)) as [m|] eqn:E; cbn; [|discriminate]. intros H. injection H as <-.
  exists m. cbn. repeat split; auto.
  - apply py_min_ok in E as [E _]. apply in_values in E as (i & j & Hi & Hj & E). exists i, j. cbn. rewrite E. repeat split; auto. lra.
  - cbn. intros i j Hi Hj. apply py_min_ok in E as [_ E]. assert (m <= at_ g i j) by (apply E, in_values; eauto). lra.
Qed.
Lemma settle_total g h : (0 < rows g)%nat -> (0 < cols g)%nat -> exists g', settle g h = Ok g'.
Proof.
  intros Hr Hc. unfold settle. destruct (values g) as [|x l] eqn:E; [|cbn; eauto].
  exfalso. assert (In (at_ g 0 0) (values g)) by (apply in_values; exists 0%nat, 0%nat; auto). rewrite E in H. destruct H.
Qed.
Lemma values_nonempty g : (0 < rows g)%nat -> (0 < cols g)%nat -> exists x l, values g = x :: l.
Proof.
  intros Hr Hc. destruct (values g) as [|x l] eqn:E; [|eauto].
  exfalso. assert (In (at_ g 0 0) (values g)) by (apply in_values; exists 0%nat, 0%nat; auto). rewrite E in H. destruct H.
Qed.
Lemma settle_shift g h h' g1 : settle g h = Ok g1 -> exists g2, settle g h' = Ok g2 /\
  rows g2 = rows g1 /\ cols g2 = cols g1 /\ forall i j, at_ g2 i j = at_ g1 i j + (h - h').
Proof.
  unfold settle. destruct (py_min (values g)) as [m|]; cbn; [|discriminate]. intros H. injection H as <-.
  eexists. split; [reflexivity|]. cbn. repeat split; auto. intros. lra.
Qed.

(** ** Sampling *)
Lemma sample_ok interp d r c pts :
  (forall i j, (i < r)%nat -> (j < c)%nat -> exists v, interp d (fst (pts i j)) (snd (pts i j)) = Ok v) ->
  exists g, sample interp d r c pts = Ok g /\ rows g = r /\ cols g = c /\
    forall i j, (i < r)%nat -> (j < c)%nat -> interp d (fst (pts i j)) (snd (pts i j)) = Ok (at_ g i j).
Proof.
  intros H. unfold sample. destruct (forallb _ _) eqn:F.
  - eexists. split; [reflexivity|]. cbn. repeat split; auto. intros i j Hi Hj. destruct (H i j Hi Hj) as (v & E). now rewrite E.
  - exfalso. rewrite <- not_true_iff_false in F. apply F. apply forallb_forall. intros [i j] Hin. apply in_cells in Hin as [Hi Hj].
    cbn. destruct (H i j Hi Hj) as (v & E). now rewrite E.
Qed.
Lemma broadcast_same op a b : rows a = rows b -> cols a = cols b ->
  exists g, broadcast op a b = Ok g /\ rows g = rows a /\ cols g = cols a /\
    forall i j, (i < rows a)%nat -> (j < cols a)%nat -> at_ g i j = op (at_ a i j) (at_ b i j).
Proof.
  intros Hr Hc. unfold broadcast, bdim. rewrite <- Hr, <- Hc, !Nat.eqb_refl. eexists. split; [reflexivity|]. cbn.
  repeat split; auto. intros i j Hi Hj. unfold bidx. rewrite <- ?Hr, <- ?Hc.
  destruct (Nat.eqb_spec (rows a) 1), (Nat.eqb_spec (cols a) 1); f_equal; f_equal; lia.
Qed.

(** One direction of two regular surfaces with an off set of [k] points. *)
Lemma plain_direction n1 n2 k g : 0 < g -> (n1 <= n2)%nat -> (0 < overlap_size n1 n2 k)%nat ->
  let lo := Rmax (- (IZR k * g)) 0 in let hi := Rmin (INR n1 * g) (INR n2 * g - IZR k * g) in
  arange_len lo hi g = overlap_size n1 n2 k /\
  slice_bound (trunc (lo / g)) n1 = overlap_first k /\
  (slice_bound (trunc (hi / g)) n1 - overlap_first k)%nat = overlap_size n1 n2 k /\
  forall i, (i < overlap_size n1 n2 k)%nat ->
    npindex n2 (trunc ((lo + INR i * g + IZR k * g) / g)) = Some (Z.to_nat (Z.of_nat (overlap_first k + i) + k)) /\
    (overlap_first k + i < n1)%nat /\ (0 <= Z.of_nat (overlap_first k + i) + k < Z.of_nat n2)%Z.
Proof.
  intros Hg Hn Hs lo hi. unfold overlap_size, overlap_first in *.
  assert (Elo : lo = IZR (Z.max (- k) 0) * g).
  { unfold lo. rewrite <- Rmax_mul by exact Hg. f_equal; rewrite ?opp_IZR; lra. }
  assert (Ehi : hi = IZR (Z.min (Z.of_nat n1) (Z.of_nat n2 - k)) * g).
  { unfold hi. rewrite <- Rmin_mul by exact Hg. rewrite minus_IZR, <- !INR_IZR_INZ. f_equal; lra. }
  rewrite Elo, Ehi. unfold arange_len.
  replace ((IZR (Z.min (Z.of_nat n1) (Z.of_nat n2 - k)) * g - IZR (Z.max (- k) 0) * g) / g)
    with (IZR (Z.min (Z.of_nat n1) (Z.of_nat n2 - k) - Z.max (- k) 0)) by (rewrite minus_IZR; field; lra).
  rewrite rceil_IZR, !div_IZR, !trunc_IZR by exact Hg. rewrite !slice_bound_in by lia.
  split; [reflexivity|]. split; [lia|]. split; [lia|]. intros i Hi. split; [|lia].
  replace ((IZR (Z.max (- k) 0) * g + INR i * g + IZR k * g) / g) with (IZR (Z.max (- k) 0 + Z.of_nat i + k))
    by (rewrite !plus_IZR, <- INR_IZR_INZ; field; lra).
  rewrite trunc_IZR, npindex_in by lia. f_equal. lia.
Qed.

Lemma gap_plain_aligned s1 s2 h k0 k1 :
  regular s1 -> regular s2 -> d_gs s2 = d_gs s1 ->
  (rows (d_prof s1) <= rows (d_prof s2))%nat -> (cols (d_prof s1) <= cols (d_prof s2))%nat ->
  (0 < overlap_size (rows (d_prof s1)) (rows (d_prof s2)) k0)%nat ->
  (0 < overlap_size (cols (d_prof s1)) (cols (d_prof s2)) k1)%nat ->
  exists g p1 p2 c, gap_plain nearest_mode s1 s2 h (IZR k0 * d_gs s1, IZR k1 * d_gs s1) = Ok (g, p1, p2) /\
    rows g = overlap_size (rows (d_prof s1)) (rows (d_prof s2)) k0 /\
    cols g = overlap_size (cols (d_prof s1)) (cols (d_prof s2)) k1 /\
    smallest g (- h) /\
    forall i j, (i < rows g)%nat -> (j < cols g)%nat ->
      at_ g i j = c - (at_ (d_prof s2) (Z.to_nat (Z.of_nat (overlap_first k0 + i) + k0)) (Z.to_nat (Z.of_nat (overlap_first k1 + j) + k1)) +
                       at_ (d_prof s1) (overlap_first k0 + i) (overlap_first k1 + j)).
Proof.
  intros [G1 X1] [G2 X2] Eg Lr Lc Sr Sc.
  destruct (plain_direction _ _ k0 (d_gs s1) G1 Lr Sr) as (A1 & A2 & A3 & A4).
  destruct (plain_direction _ _ k1 (d_gs s1) G1 Lc Sc) as (B1 & B2 & B3 & B4). cbv zeta in *.
  unfold gap_plain. rewrite X1, X2. cbn [fst snd]. rewrite Eg in *.
  assert (C1 : Rltb (INR (rows (d_prof s2)) * d_gs s1) (INR (rows (d_prof s1)) * d_gs s1) = false).
  { apply Rltb_false. apply Rmult_le_compat_r; [lra|]. now apply le_INR. }
  assert (C2 : Rltb (INR (cols (d_prof s2)) * d_gs s1) (INR (cols (d_prof s1)) * d_gs s1) = false).
  { apply Rltb_false. apply Rmult_le_compat_r; [lra|]. now apply le_INR. }
  rewrite C1, C2. cbn [orb]. rewrite A1, B1, A2, B2, A3, B3.
  set (p2 := fun i j : nat => _).
  set (sub1 := Grid _ _ _).
  destruct (sample_ok nearest_mode s2 (overlap_size (rows (d_prof s1)) (rows (d_prof s2)) k0)
    (overlap_size (cols (d_prof s1)) (cols (d_prof s2)) k1) p2) as (sub2 & ES & R2 & C2' & V2).
  { intros i j Hi Hj. unfold nearest_mode, nearest, p2. cbn [fst snd]. rewrite Eg.
    destruct (A4 i Hi) as [-> _]. destruct (B4 j Hj) as [-> _]. eauto. }
  rewrite ES. cbn [bind].
  destruct (broadcast_same (fun b a => - b - a) sub2 sub1) as (g & EB & Rg & Cg & Vg).
  { rewrite R2. reflexivity. } { rewrite C2'. reflexivity. }
  rewrite EB. cbn [bind]. destruct (values_nonempty g) as (x & l & EV); [lia|lia|]. rewrite EV, <- ?EV.
  destruct (settle_total g h) as (g' & E'); [lia|lia|]. rewrite E'. cbn [bind].
  destruct (settle_ok _ _ _ E') as (m & _ & Rg' & Cg' & Vg' & Sm).
  exists g'. eexists. exists p2, (- (m + h)). split; [reflexivity|]. split; [lia|]. split; [lia|]. split; [exact Sm|].
  intros i j Hi Hj. rewrite Vg', Vg by lia. rewrite Rg', Rg, R2 in Hi. rewrite Cg', Cg, C2' in Hj.
  specialize (V2 i j Hi Hj). unfold nearest_mode, nearest, p2 in V2. cbn [fst snd] in V2. rewrite Eg in V2.
  destruct (A4 i Hi) as [Ea _]. destruct (B4 j Hj) as [Eb _]. rewrite Ea, Eb in V2. injection V2 as V2. rewrite <- V2.
  unfold sub1. cbn [at_]. lra.
Qed.

(** ** Periodic *)
Lemma remainder_unique x m (q : Z) : 0 < m -> IZR q * m <= x < (IZR q + 1) * m -> remainder x m = x - IZR q * m.
Proof.
  intros Hm H. unfold remainder. rewrite (Int_part_unique (x / m) q); [lra|].
  split.
  - apply Rmult_le_reg_r with m; [exact Hm|]. replace (x / m * m) with x by (field; lra). lra.
  - apply Rmult_lt_reg_r with m; [exact Hm|]. replace (x / m * m) with x by (field; lra). lra.
Qed.
Lemma remainder_bounds x m : 0 < m -> 0 <= remainder x m < m.
Proof.
  intros Hm. unfold remainder. pose proof (Int_part_bounds (x / m)) as [A B].
  assert (E : x = x / m * m) by (field; lra). split.
  - apply Rmult_le_compat_r with (r := m) in A; lra.
  - apply Rmult_lt_compat_r with (r := m) in B; lra.
Qed.
Lemma remainder_add x m (z : Z) : 0 < m -> remainder (x + IZR z * m) m = remainder x m.
Proof.
  intros Hm. unfold remainder. replace ((x + IZR z * m) / m) with (x / m + IZR z) by (field; lra).
  assert (E : Int_part (x / m + IZR z) = (Int_part (x / m) + z)%Z).
  { apply Int_part_unique. rewrite plus_IZR. pose proof (Int_part_bounds (x / m)). lra. }
  rewrite E, plus_IZR. lra.
Qed.
Lemma eps_pos : 0 < eps.
Proof. unfold eps. apply Rinv_0_lt_compat. apply pow_lt. lra. Qed.
Lemma periodic_direction n1 n2 (i : nat) k g : 0 < g -> (i < n1)%nat -> (0 < n2)%nat -> (Z.of_nat n1 < 2 ^ 52)%Z ->
  npindex n2 (trunc (remainder (INR i * g - IZR k * g + eps * (INR n1 * g)) (INR n2 * g) / g)) =
  Some (Z.to_nat ((Z.of_nat i - k) mod Z.of_nat n2)).
Proof.
  intros Hg Hi Hn Hb. set (z := (Z.of_nat i - k)%Z). set (m := (z mod Z.of_nat n2)%Z). set (q := (z / Z.of_nat n2)%Z).
  assert (Em : (z = Z.of_nat n2 * q + m)%Z) by (apply Z.div_mod; lia).
  assert (Bm : (0 <= m < Z.of_nat n2)%Z) by (apply Z.mod_pos_bound; lia).
  assert (Be : 0 < eps * INR n1 < 1).
  { split.
    - apply Rmult_lt_0_compat; [apply eps_pos|]. apply lt_0_INR. lia.
    - unfold eps. apply Rmult_lt_reg_l with (2 ^ 52); [apply pow_lt; lra|]. rewrite <- Rmult_assoc, Rinv_r, Rmult_1_l, Rmult_1_r by (apply pow_nonzero; lra).
      rewrite INR_IZR_INZ. apply Rlt_le_trans with (IZR (2 ^ 52)); [now apply IZR_lt|]. rewrite <- pow_IZR with (n := 52%nat). cbn [Z.of_nat]. lra. }
  assert (Ex : INR i * g - IZR k * g + eps * (INR n1 * g) = IZR q * (INR n2 * g) + (IZR m + eps * INR n1) * g).
  { assert (E : INR i - IZR k = INR n2 * IZR q + IZR m).
    { rewrite !INR_IZR_INZ, <- minus_IZR, <- mult_IZR, <- plus_IZR. f_equal. exact Em. }
    replace (INR i * g - IZR k * g) with ((INR i - IZR k) * g) by lra. rewrite E. lra. }
  assert (M1 : IZR m + 1 <= INR n2). { rewrite INR_IZR_INZ, <- plus_IZR. apply IZR_le. lia. }
  assert (M0 : 0 <= IZR m) by (apply IZR_le; lia).
  assert (N0 : 0 < INR n2 * g). { apply Rmult_lt_0_compat; [|lra]. apply lt_0_INR. lia. }
  assert (P1 : 0 <= (IZR m + eps * INR n1) * g) by (apply Rmult_le_pos; lra).
  assert (P2 : (IZR m + eps * INR n1) * g < INR n2 * g) by (apply Rmult_lt_compat_r; lra).
  rewrite (remainder_unique _ _ q N0) by (rewrite Ex; lra). rewrite Ex.
  replace ((IZR q * (INR n2 * g) + (IZR m + eps * INR n1) * g - IZR q * (INR n2 * g)) / g) with (IZR m + eps * INR n1) by (field; lra).
  rewrite (trunc_unique _ m) by lra. rewrite npindex_in by lia. reflexivity.
Qed.

Lemma gap_periodic_aligned s1 s2 h k0 k1 :
  regular s1 -> regular s2 -> d_gs s2 = d_gs s1 ->
  (0 < rows (d_prof s1))%nat -> (0 < cols (d_prof s1))%nat -> (0 < rows (d_prof s2))%nat -> (0 < cols (d_prof s2))%nat ->
  (Z.of_nat (rows (d_prof s1)) < 2 ^ 52)%Z -> (Z.of_nat (cols (d_prof s1)) < 2 ^ 52)%Z ->
  exists g p1 p2 c, gap_periodic nearest_mode s1 s2 h (IZR k0 * d_gs s1, IZR k1 * d_gs s1) = Ok (g, p1, p2) /\
    rows g = rows (d_prof s1) /\ cols g = cols (d_prof s1) /\ smallest g (- h) /\
    forall i j, (i < rows g)%nat -> (j < cols g)%nat ->
      at_ g i j = c - (at_ (d_prof s2) (Z.to_nat ((Z.of_nat i - k0) mod Z.of_nat (rows (d_prof s2))))
                                       (Z.to_nat ((Z.of_nat j - k1) mod Z.of_nat (cols (d_prof s2)))) +
                       at_ (d_prof s1) i j).
Proof.
  intros [G1 X1] [G2 X2] Eg R1 C1 R2 C2 B1 B2. unfold gap_periodic. rewrite X1, X2. cbn [fst snd]. rewrite Eg in *.
  set (p2 := fun i j : nat => _). set (p1 := own_points s1) in *.
  assert (V : forall i j, (i < rows (d_prof s1))%nat -> (j < cols (d_prof s1))%nat ->
    nearest_mode s2 (fst (p2 i j)) (snd (p2 i j)) =
    Ok (at_ (d_prof s2) (Z.to_nat ((Z.of_nat i - k0) mod Z.of_nat (rows (d_prof s2))))
                        (Z.to_nat ((Z.of_nat j - k1) mod Z.of_nat (cols (d_prof s2)))))).
  { intros i j Hi Hj. unfold nearest_mode, nearest, p2, p1, own_points. cbn [fst snd]. rewrite Eg.
    rewrite !periodic_direction by assumption. reflexivity. }
  destruct (sample_ok nearest_mode s2 (rows (d_prof s1)) (cols (d_prof s1)) p2) as (sub2 & ES & Rs & Cs & V2).
  { intros i j Hi Hj. rewrite V by assumption. eauto. }
  rewrite ES. cbn [bind].
  destruct (broadcast_same (fun b a => - b - a) sub2 (d_prof s1) Rs Cs) as (g & EB & Rg & Cg & Vg).
  rewrite EB. cbn [bind]. destruct (values_nonempty g) as (x & l & EV); [lia|lia|]. rewrite EV.
  destruct (settle_total g h) as (g' & E'); [lia|lia|]. rewrite E'. cbn [bind].
  destruct (settle_ok _ _ _ E') as (m & _ & Rg' & Cg' & Vg' & Sm).
  exists g', p1, p2, (- (m + h)). split; [reflexivity|]. split; [lia|]. split; [lia|]. split; [exact Sm|].
  intros i j Hi Hj. rewrite Vg', Vg by lia. rewrite Rg', Rg, Rs in Hi. rewrite Cg', Cg, Cs in Hj.
  specialize (V2 i j Hi Hj). rewrite V in V2 by assumption. injection V2 as <-. lra.
Qed.

(** ** Non dimensional height *)
Lemma log_term_pos a b : 0 < a -> 0 < b -> 0 < a * ln ((b + sqrt (a ^ 2 + b ^ 2)) / (sqrt (a ^ 2 + b ^ 2) - b)).
Proof.
  intros Ha Hb. set (c := sqrt (a ^ 2 + b ^ 2)).
  assert (P : 0 < a ^ 2) by (apply pow_lt; lra).
  assert (C : b < c). { unfold c. rewrite <- (sqrt_pow2 b) at 1 by lra. apply sqrt_lt_1_alt. split; [apply pow2_ge_0|lra]. }
  apply Rmult_lt_0_compat; [exact Ha|]. rewrite <- ln_1. apply ln_increasing; [lra|].
  apply Rmult_lt_reg_r with (c - b); [lra|]. unfold Rdiv. rewrite Rmult_assoc, Rinv_l; lra.
Qed.
Definition side (gs_x : R) (gs_y : option R) : R := match gs_y with None => gs_x | Some b => b end.
Lemma uz_split E v load gx gy : 0 < gx -> 0 < side gx gy ->
  exists k, 0 < k /\ uz E v load gx gy = k * (load_or_one load * ((1 - v ^ 2) / E)).
Proof.
  intros Hx Hy. unfold uz. fold (side gx gy). set (b := side gx gy) in *.
  pose proof (log_term_pos gx b Hx Hy) as L1. pose proof (log_term_pos b gx Hy Hx) as L2. rewrite (Rplus_comm (b ^ 2)) in L2.
  set (c := sqrt (gx ^ 2 + b ^ 2)) in *.
  set (A := gx * ln ((b + c) / (c - b))) in *. set (B := b * ln ((gx + c) / (c - gx))) in *.
  exists ((2 * A + 2 * B) / PI / gx / b). split.
  - pose proof PI_RGT_0. repeat apply Rdiv_lt_0_compat; lra.
  - replace (2 * gx * ln ((b + c) / (c - b)) + 2 * b * ln ((gx + c) / (c - gx))) with (2 * A + 2 * B) by (unfold A, B; lra).
    unfold Rdiv. ring.
Qed.
