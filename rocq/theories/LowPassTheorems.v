(** C129: the low pass filter of profiles. *)
From Coq Require Import Reals List Bool Arith ZArith String Lia Lra.
From Verif Require Import Py SurfaceModel SurfaceProofs Flt SolverProofs RoughModel RoughSpec RoughProofs TextureProofs LowPassSpec.
Import ListNotations.
Local Open Scope R_scope.

Lemma sum_to_swap m n (f : nat -> nat -> R) : sum_to m (fun a => sum_to n (fun b => f a b)) = sum_to n (fun b => sum_to m (fun a => f a b)).
Proof. induction m as [|m IH]; cbn [sum_to]; [symmetry; apply sum_to_zero|]. rewrite IH, <- sum_to_plus. reflexivity. Qed.
Lemma sum_to_one n k (f : nat -> R) : sum_to n (fun i => if Nat.eqb i k then f i else 0) = if Nat.ltb k n then f k else 0.
Proof.
  induction n as [|n IH]; [reflexivity|]. cbn [sum_to]. rewrite IH. destruct (Nat.eqb_spec n k) as [->|Ne].
  - rewrite Nat.ltb_irrefl. assert (E : Nat.ltb k (S k) = true) by (apply Nat.ltb_lt; lia). rewrite E. ring.
  - destruct (Nat.ltb_spec k n), (Nat.ltb_spec k (S n)); try lia; ring.
Qed.
Lemma sum_to_none n (f : nat -> R) : (forall i, (i < n)%nat -> f i = 0) -> sum_to n f = 0.
Proof. intros H. rewrite (sum_to_ext n f (fun _ => 0) H). apply sum_to_zero. Qed.
(** A sum of products with indices that add up to [n], over either index. *)
Lemma turned n r c (f : nat -> nat -> R) :
  sum_to c (fun a => if Nat.leb a n && Nat.ltb (n - a) r then f (n - a)%nat a else 0) = sum_to r (fun k => if Nat.leb k n && Nat.ltb (n - k) c then f k (n - k)%nat else 0).
Proof.
  transitivity (sum_to c (fun a => sum_to r (fun k => if Nat.eqb (a + k) n then f k a else 0))).
  - apply sum_to_ext. intros a _. destruct (Nat.leb_spec a n) as [L|L]; cbn [andb].
    + rewrite <- (sum_to_one r (n - a) (fun k => f k a)). apply sum_to_ext. intros k _. destruct (Nat.eqb_spec k (n - a)), (Nat.eqb_spec (a + k) n); try lia; reflexivity.
    + symmetry. apply sum_to_none. intros k _. destruct (Nat.eqb_spec (a + k) n); [lia|reflexivity].
  - rewrite sum_to_swap. apply sum_to_ext. intros k _. destruct (Nat.leb_spec k n) as [L|L]; cbn [andb].
    + rewrite <- (sum_to_one c (n - k) (fun a => f k a)). apply sum_to_ext. intros a _. destruct (Nat.eqb_spec a (n - k)), (Nat.eqb_spec (a + k) n); try lia; reflexivity.
    + apply sum_to_none. intros a _. destruct (Nat.eqb_spec (a + k) n); [lia|reflexivity].
Qed.

(** For finite heights: the result has the shape of the profile, and each height is the sum of all heights times what
    the filter answers to each. *)
Theorem c129_sum : forall w p cut g z, g <> 0 -> heights_are p everywhere z ->
  exists f, low_pass w p cut (Some g) = Ok f /\ nrows f = nrows p /\ ncols f = ncols p /\
    forall i j, h_at f i j = Fin (sum_to (nrows p) (fun a => sum_to (ncols p) (fun b => z a b * actual (j1 w) (cut * g) (nrows p) (ncols p) i j a b))).
Proof.
  intros w p cut g z Hg H. unfold low_pass. assert (E : Reqb g 0 = false) by (unfold Reqb; destruct (Req_EM_T g 0); [contradiction|reflexivity]). rewrite E.
  eexists. split; [reflexivity|]. split; [reflexivity|]. split; [reflexivity|]. intros i j. cbn [h_at].
  assert (K : cut * 2 * PI / (2 * PI / g) = cut * g) by (field; split; [exact Hg|apply PI_neq0]). rewrite K. set (k := cut * g).
  set (r := nrows p) in *. set (c := ncols p) in *. set (m := (i + (c - 1) / 2)%nat). set (n := (j + (r - 1) / 2)%nat).
  set (q := fun a b => (if Nat.leb a m && Nat.ltb (m - a) r then if Nat.leb b n && Nat.ltb (n - b) c then z (m - a)%nat (n - b)%nat * kernel w k a b else 0 else 0)).
  rewrite (map_ext_in _ (fun ab => Fin (fst_snd q ab))).
  2: { intros [a b] I. apply in_points in I. cbn [fst snd]. unfold fst_snd, q, shifted. cbn [fst snd]. fold r c m n.
       destruct (Nat.leb_spec a m); cbn [andb]; [|cbn; f_equal; ring]. destruct (Nat.ltb_spec (m - a) r); cbn [andb]; [|cbn; f_equal; ring].
       destruct (Nat.leb_spec b n); cbn [andb]; [|cbn; f_equal; ring]. destruct (Nat.ltb_spec (n - b) c); cbn [andb]; [|cbn; f_equal; ring].
       rewrite (H (m - a)%nat (n - b)%nat) by (try reflexivity; assumption). reflexivity. }
  rewrite <- map_map, fsum_fin. f_equal.
  transitivity (sum_to c (fun a => sum_to r (fun b => q a b))).
  { pose proof (total_over c r everywhere q) as T. replace (filter (fst_snd everywhere) (points c r)) with (points c r) in T; [exact T|].
    symmetry. generalize (points c r). induction l as [|x l IH]; [reflexivity|]. cbn. rewrite IH. reflexivity. }
  transitivity (sum_to c (fun a => if Nat.leb a m && Nat.ltb (m - a) r then sum_to c (fun b => if Nat.leb b n && Nat.ltb (n - b) r then z (m - a)%nat b * kernel w k a (n - b) else 0) else 0)).
  { apply sum_to_ext. intros a _. unfold q. destruct (Nat.leb a m && Nat.ltb (m - a) r); [|apply sum_to_zero].
    apply (turned n c r (fun x b => z (m - a)%nat x * kernel w k a b)). }
  rewrite (turned m r c (fun x a => sum_to c (fun b => if Nat.leb b n && Nat.ltb (n - b) r then z x b * kernel w k a (n - b) else 0))).
  apply sum_to_ext. intros a Ha. destruct (Nat.leb_spec a m) as [L1|L1]; cbn [andb].
  2: { symmetry. apply sum_to_none. intros b _. unfold actual.
       replace (0 <=? Z.of_nat i - Z.of_nat a + Z.of_nat ((c - 1) / 2))%Z with false by (symmetry; apply Z.leb_gt; unfold m in L1; lia). cbn [andb]. ring. }
  destruct (Nat.ltb_spec (m - a) c) as [L2|L2].
  2: { symmetry. apply sum_to_none. intros b _. unfold actual.
       replace (Z.of_nat i - Z.of_nat a + Z.of_nat ((c - 1) / 2) <? Z.of_nat c)%Z with false by (symmetry; apply Z.ltb_ge; unfold m in L1, L2; lia). rewrite andb_false_r. cbn [andb]. ring. }
  apply sum_to_ext. intros b Hb. unfold actual.
  replace (0 <=? Z.of_nat i - Z.of_nat a + Z.of_nat ((c - 1) / 2))%Z with true by (symmetry; apply Z.leb_le; unfold m in L1; lia).
  replace (Z.of_nat i - Z.of_nat a + Z.of_nat ((c - 1) / 2) <? Z.of_nat c)%Z with true by (symmetry; apply Z.ltb_lt; unfold m in L1, L2; lia). cbn [andb].
  destruct (Nat.leb_spec b n) as [L3|L3]; cbn [andb].
  2: { replace (0 <=? Z.of_nat j - Z.of_nat b + Z.of_nat ((r - 1) / 2))%Z with false by (symmetry; apply Z.leb_gt; unfold n in L3; lia). cbn [andb]. ring. }
  replace (0 <=? Z.of_nat j - Z.of_nat b + Z.of_nat ((r - 1) / 2))%Z with true by (symmetry; apply Z.leb_le; unfold n in L3; lia). cbn [andb].
  destruct (Nat.ltb_spec (n - b) r) as [L4|L4].
  2: { replace (Z.of_nat j - Z.of_nat b + Z.of_nat ((r - 1) / 2) <? Z.of_nat r)%Z with false by (symmetry; apply Z.ltb_ge; unfold n in L3, L4; lia). ring. }
  replace (Z.of_nat j - Z.of_nat b + Z.of_nat ((r - 1) / 2) <? Z.of_nat r)%Z with true by (symmetry; apply Z.ltb_lt; unfold n in L3, L4; lia).
  unfold kernel, answer. cbv zeta. rewrite !INR_IZR_INZ.
  replace (Z.of_nat (n - b + 1)) with (Z.of_nat j - Z.of_nat b + Z.of_nat ((r - 1) / 2) + 1)%Z by (unfold n in *; lia).
  replace (Z.of_nat (m - a + 1)) with (Z.of_nat i - Z.of_nat a + Z.of_nat ((c - 1) / 2) + 1)%Z by (unfold m in *; lia). reflexivity.
Qed.
Print Assumptions c129_sum.

(** Superposition: filtering a sum of multiples of two profiles gives the sum of the multiples of the filtered ones. *)
Theorem c129_linear : forall w p q s x y cut g z z' f f' h, g <> 0 -> nrows q = nrows p -> ncols q = ncols p -> nrows s = nrows p -> ncols s = ncols p ->
  heights_are p everywhere z -> heights_are q everywhere z' -> heights_are s everywhere (fun i j => x * z i j + y * z' i j) ->
  low_pass w p cut (Some g) = Ok f -> low_pass w q cut (Some g) = Ok f' -> low_pass w s cut (Some g) = Ok h ->
  exists u u', heights_are f everywhere u /\ heights_are f' everywhere u' /\ heights_are h everywhere (fun i j => x * u i j + y * u' i j).
Proof.
  intros w p q s x y cut g z z' f f' h Hg R1 C1 R2 C2 H1 H2 H3 E1 E2 E3.
  destruct (c129_sum w p cut g z Hg H1) as (F1 & G1 & _ & _ & V1). destruct (c129_sum w q cut g z' Hg H2) as (F2 & G2 & _ & _ & V2).
  destruct (c129_sum w s cut g _ Hg H3) as (F3 & G3 & _ & _ & V3). rewrite E1 in G1. rewrite E2 in G2. rewrite E3 in G3. injection G1 as <-. injection G2 as <-. injection G3 as <-.
  rewrite R1, C1 in V2. rewrite R2, C2 in V3.
  eexists. eexists. split; [intros i j _ _ _; apply V1|]. split; [intros i j _ _ _; apply V2|]. intros i j _ _ _. rewrite V3. f_equal. cbv beta.
  rewrite <- !sum_to_scal, <- sum_to_plus. apply sum_to_ext. intros a _. rewrite <- !sum_to_scal, <- sum_to_plus. apply sum_to_ext. intros b _. ring.
Qed.
Print Assumptions c129_linear.

(** Without a grid spacing there is an error, with a spacing of zero a division by it. *)
Theorem c129_spacing : forall w p cut, low_pass w p cut None = Err ValueError /\ low_pass w p cut (Some 0) = Err ZeroDivisionError.
Proof. intros. split; [reflexivity|]. unfold low_pass. assert (E : Reqb 0 0 = true) by (unfold Reqb; destruct (Req_EM_T 0 0); [reflexivity|lra]). rewrite E. reflexivity. Qed.
Print Assumptions c129_spacing.

Lemma peak_sum r c a b A (f : nat -> nat -> R) : (a < r)%nat -> (b < c)%nat -> sum_to r (fun i => sum_to c (fun j => peak_at a b A i j * f i j)) = A * f a b.
Proof.
  intros Ha Hb. transitivity (sum_to r (fun i => if Nat.eqb i a then sum_to c (fun j => if Nat.eqb j b then A * f i j else 0) else 0)).
  - apply sum_to_ext. intros i _. unfold peak_at. destruct (Nat.eqb i a); cbn [andb].
    + apply sum_to_ext. intros j _. destruct (Nat.eqb j b); ring.
    + apply sum_to_none. intros; ring.
  - rewrite (sum_to_one r a (fun i => sum_to c (fun j => if Nat.eqb j b then A * f i j else 0))). apply Nat.ltb_lt in Ha, Hb. rewrite Ha, (sum_to_one c b (fun j => A * f a j)), Hb. reflexivity.
Qed.
(** A peak should be spread evenly around its place. On a square profile with an odd number of points and a peak in its middle the
    filter answers at every point by its distance to the point (-1, -1), outside of the first corner, not by the distance to the peak. *)
Theorem c129_peak_refuted : forall w p n A cut g, g <> 0 -> nrows p = (2 * n + 1)%nat -> ncols p = (2 * n + 1)%nat ->
  heights_are p everywhere (peak_at n n A) ->
  exists f, low_pass w p cut (Some g) = Ok f /\ forall i j, (i < 2 * n + 1)%nat -> (j < 2 * n + 1)%nat ->
    h_at f i j = Fin (A * answer (j1 w) (cut * g) (sqrt (INR (j + 1) ^ 2 + INR (i + 1) ^ 2))).
Proof.
  intros w p n A cut g Hg R C H. destruct (c129_sum w p cut g _ Hg H) as (f & E & _ & _ & V). exists f. split; [exact E|]. intros i j Hi Hj. rewrite V, R, C, peak_sum by lia.
  f_equal. f_equal. unfold actual. replace ((2 * n + 1 - 1) / 2)%nat with n by (replace (2 * n + 1 - 1)%nat with (n * 2)%nat by lia; rewrite Nat.div_mul; lia).
  replace (Z.of_nat i - Z.of_nat n + Z.of_nat n)%Z with (Z.of_nat i) by lia. replace (Z.of_nat j - Z.of_nat n + Z.of_nat n)%Z with (Z.of_nat j) by lia.
  replace (0 <=? Z.of_nat i)%Z with true by (symmetry; apply Z.leb_le; lia). replace (0 <=? Z.of_nat j)%Z with true by (symmetry; apply Z.leb_le; lia).
  replace (Z.of_nat i <? Z.of_nat (2 * n + 1))%Z with true by (symmetry; apply Z.ltb_lt; lia). replace (Z.of_nat j <? Z.of_nat (2 * n + 1))%Z with true by (symmetry; apply Z.ltb_lt; lia).
  cbn [andb]. rewrite !INR_IZR_INZ. do 3 f_equal; f_equal; f_equal; lia.
Qed.
Print Assumptions c129_peak_refuted.
(** A peak of 2 in the middle of three by three points. *)
Example c129_case : let p := Arr false 3 3 (fun i j => Fin (peak_at 1 1 2 i j)) in
  nrows p = (2 * 1 + 1)%nat /\ ncols p = (2 * 1 + 1)%nat /\ heights_are p everywhere (peak_at 1 1 2) /\ h_at p 1 1 = Fin 2.
Proof. cbn. split; [reflexivity|]. split; [reflexivity|]. split; [intros i j _ _ _; reflexivity|reflexivity]. Qed.
