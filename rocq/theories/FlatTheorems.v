(** C129: the filter on a flat profile. *)
From Coq Require Import Reals List Bool Arith ZArith String Lia Lra.
From Verif Require Import Py SurfaceModel SurfaceProofs Flt SolverProofs RoughModel RoughSpec RoughProofs RoughTheorems LowPassSpec LowPassTheorems FilteredTheorems.
Import ListNotations.
Local Open Scope R_scope.

Lemma sum_to_two m n (f : nat -> R) : sum_to (m + n) f = sum_to m f + sum_to n (fun a => f (m + a)%nat).
Proof. induction n as [|n IH]; [rewrite Nat.add_0_r; cbn [sum_to]; ring|]. rewrite Nat.add_succ_r. cbn [sum_to]. rewrite IH. ring. Qed.
Lemma sum_to_pos n (f : nat -> R) : (forall i, (i < n)%nat -> 0 <= f i) -> 0 <= sum_to n f.
Proof. induction n as [|n IH]; cbn [sum_to]; intros H; [lra|]. assert (0 <= f n) by (apply H; lia). assert (0 <= sum_to n f) by (apply IH; intros; apply H; lia). lra. Qed.
Lemma sum_to_spos n (f : nat -> R) : (1 <= n)%nat -> (forall i, (i < n)%nat -> 0 < f i) -> 0 < sum_to n f.
Proof.
  destruct n as [|n]; intros N H; [lia|]. cbn [sum_to]. assert (0 < f n) by (apply H; lia). assert (0 <= sum_to n f) by (apply sum_to_pos; intros; left; apply H; lia). lra.
Qed.
Lemma sum_to_under n (f g : nat -> R) : (forall i, (i < n)%nat -> f i <= g i) -> sum_to n f <= sum_to n g.
Proof. induction n as [|n IH]; cbn [sum_to]; intros H; [lra|]. assert (f n <= g n) by (apply H; lia). assert (sum_to n f <= sum_to n g) by (apply IH; intros; apply H; lia). lra. Qed.

Section Kernel.
Variable j1 : R -> R.
Variable k : R.
Variable n : nat.
Let s := (2 * n + 1)%nat.
Hypothesis P : forall d, 0 < d -> d <= 2 * INR s -> 0 < answer j1 k d.
Let e (x y : nat) : R := answer j1 k (sqrt (INR (y + 1) ^ 2 + INR (x + 1) ^ 2)).
Lemma e_pos x y : (x < s)%nat -> (y < s)%nat -> 0 < e x y.
Proof.
  intros X Y. unfold e. assert (1 <= INR (x + 1)) by (rewrite plus_INR; pose proof (pos_INR x); cbn; lra). assert (1 <= INR (y + 1)) by (rewrite plus_INR; pose proof (pos_INR y); cbn; lra).
  assert (INR (x + 1) <= INR s) by (apply le_INR; lia). assert (INR (y + 1) <= INR s) by (apply le_INR; lia). apply P; [apply sqrt_lt_R0; nra|].
  rewrite <- (sqrt_Rsqr (2 * INR s)) by (pose proof (pos_INR s); lra). apply sqrt_le_1; [nra|apply Rle_0_sqr|]. unfold Rsqr. nra.
Qed.
Lemma actual_e i j a b : actual j1 k s s i j a b = if (Nat.leb a (i + n) && Nat.ltb (i + n - a) s && (Nat.leb b (j + n) && Nat.ltb (j + n - b) s)) then e (i + n - a) (j + n - b) else 0.
Proof.
  unfold actual. assert (H : ((s - 1) / 2)%nat = n) by (unfold s; replace (2 * n + 1 - 1)%nat with (n * 2)%nat by lia; apply Nat.div_mul; lia). rewrite H. cbv zeta.
  destruct (Nat.leb_spec a (i + n)), (Nat.ltb_spec (i + n - a) s), (Nat.leb_spec b (j + n)), (Nat.ltb_spec (j + n - b) s); cbn [andb];
  destruct (Z.leb_spec 0 (Z.of_nat i - Z.of_nat a + Z.of_nat n)), (Z.ltb_spec (Z.of_nat i - Z.of_nat a + Z.of_nat n) (Z.of_nat s)), (Z.leb_spec 0 (Z.of_nat j - Z.of_nat b + Z.of_nat n)), (Z.ltb_spec (Z.of_nat j - Z.of_nat b + Z.of_nat n) (Z.of_nat s));
  cbn [andb]; try reflexivity; try lia. unfold e. rewrite !INR_IZR_INZ.
  replace (Z.of_nat (j + n - b + 1)) with (Z.of_nat j - Z.of_nat b + Z.of_nat n + 1)%Z by lia. replace (Z.of_nat (i + n - a + 1)) with (Z.of_nat i - Z.of_nat a + Z.of_nat n + 1)%Z by lia. reflexivity.
Qed.
(** The corner gets the answers of the nearer quarter only, the middle all of them. *)
Lemma corner_below : (1 <= n)%nat -> sum_to s (fun a => sum_to s (fun b => actual j1 k s s 0 0 a b)) < sum_to s (fun a => sum_to s (fun b => actual j1 k s s n n a b)).
Proof.
  intros N.
  assert (C : sum_to s (fun a => sum_to s (fun b => actual j1 k s s 0 0 a b)) = sum_to (n + 1) (fun a => sum_to (n + 1) (fun b => e (n - a) (n - b)))).
  { replace s with ((n + 1) + n)%nat at 1 by (unfold s; lia). rewrite sum_to_two. rewrite (sum_to_none n (fun a => sum_to s _)).
    - rewrite Rplus_0_r. apply sum_to_ext. intros a Ha. replace s with ((n + 1) + n)%nat at 1 by (unfold s; lia). rewrite sum_to_two, (sum_to_none n).
      + rewrite Rplus_0_r. apply sum_to_ext. intros b Hb. rewrite actual_e. rewrite (proj2 (Nat.leb_le a (0 + n))), (proj2 (Nat.ltb_lt _ s)), (proj2 (Nat.leb_le b (0 + n))), (proj2 (Nat.ltb_lt _ s)) by (unfold s; lia). reflexivity.
      + intros b Hb. rewrite actual_e. rewrite (proj2 (Nat.leb_gt (n + 1 + b) (0 + n))) by lia. rewrite andb_false_r. reflexivity.
    - intros a Ha. apply sum_to_none. intros b Hb. rewrite actual_e. rewrite (proj2 (Nat.leb_gt (n + 1 + a) (0 + n))) by lia. reflexivity. }
  assert (M : sum_to s (fun a => sum_to s (fun b => actual j1 k s s n n a b)) = sum_to s (fun a => sum_to s (fun b => e (n + n - a) (n + n - b)))).
  { apply sum_to_ext. intros a Ha. apply sum_to_ext. intros b Hb. rewrite actual_e.
    rewrite (proj2 (Nat.leb_le a (n + n))), (proj2 (Nat.ltb_lt _ s)), (proj2 (Nat.leb_le b (n + n))), (proj2 (Nat.ltb_lt _ s)) by (unfold s in *; lia). reflexivity. }
  rewrite C, M. replace s with (n + (n + 1))%nat at 1 by (unfold s; lia). rewrite (sum_to_two n (n + 1)).
  assert (0 < sum_to n (fun a => sum_to s (fun b => e (n + n - a) (n + n - b)))).
  { apply sum_to_spos; [exact N|]. intros a Ha. apply sum_to_spos; [unfold s; lia|]. intros b Hb. apply e_pos; unfold s in *; lia. }
  assert (sum_to (n + 1) (fun a => sum_to (n + 1) (fun b => e (n - a) (n - b))) <= sum_to (n + 1) (fun a => sum_to s (fun b => e (n + n - (n + a)) (n + n - b)))).
  { apply sum_to_under. intros a Ha. cbv beta. replace s with (n + (n + 1))%nat at 1 by (unfold s; lia). rewrite (sum_to_two n (n + 1)).
    assert (0 <= sum_to n (fun b => e (n + n - (n + a)) (n + n - b))) by (apply sum_to_pos; intros b Hb; left; apply e_pos; unfold s in *; lia).
    assert (E : sum_to (n + 1) (fun b => e (n - a) (n - b)) = sum_to (n + 1) (fun b => e (n + n - (n + a)) (n + n - (n + b)))).
    { apply sum_to_ext. intros b Hb. replace (n + n - (n + a))%nat with (n - a)%nat by lia. replace (n + n - (n + b))%nat with (n - b)%nat by lia. reflexivity. }
    cbv beta in *. lra. }
  lra.
Qed.
End Kernel.

(** Refuted: the filter keeps a flat profile flat. With a cut off at which the answer is positive over the profile a square profile of one positive height, with an odd number of points in both directions, comes out higher in the middle than in the first corner. *)
Theorem c129_flat_refuted : forall w p n A cut g, g <> 0 -> (1 <= n)%nat -> 0 < A -> nrows p = (2 * n + 1)%nat -> ncols p = (2 * n + 1)%nat -> heights_are p everywhere (fun _ _ => A) ->
  (forall d, 0 < d -> d <= 2 * INR (2 * n + 1) -> 0 < answer (j1 w) (cut * g) d) ->
  exists f x y, low_pass w p cut (Some g) = Ok f /\ h_at f 0 0 = Fin x /\ h_at f n n = Fin y /\ x < y.
Proof.
  intros w p n A cut g G N PA R C H P. destruct (c129_sum w p cut g _ G H) as (f & E & _ & _ & V). rewrite R, C in V. exists f. eexists. eexists. split; [exact E|]. split; [apply V|]. split; [apply V|].
  assert (Q : forall i j, sum_to (2 * n + 1) (fun a => sum_to (2 * n + 1) (fun b => A * actual (j1 w) (cut * g) (2 * n + 1) (2 * n + 1) i j a b)) =
    A * sum_to (2 * n + 1) (fun a => sum_to (2 * n + 1) (fun b => actual (j1 w) (cut * g) (2 * n + 1) (2 * n + 1) i j a b))).
  { intros i j. rewrite <- sum_to_scal. apply sum_to_ext. intros a _. apply sum_to_scal. }
  rewrite !Q. apply Rmult_lt_compat_l; [exact PA|]. apply corner_below; assumption.
Qed.
Print Assumptions c129_flat_refuted.
Example c129_flat_case : let p := Arr false 3 3 (fun _ _ => Fin 2) in heights_are p everywhere (fun _ _ => 2) /\
  forall d, 0 < d -> d <= 2 * INR (2 * 1 + 1) -> 0 < answer (j1 series_world) (/ 20 * 1) d.
Proof.
  intros p. split; [intros i j _ _ _; reflexivity|]. intros d A B. rewrite series_answer by exact A. cbn in B. assert (d ^ 2 <= 36) by nra. pose proof PI_4.
  pose proof PI_RGT_0 as Q. replace (PI * (/ 20 * 1) ^ 2 - PI ^ 3 * (/ 20 * 1) ^ 4 / 2 * d ^ 2) with (PI / 400 * (1 - PI ^ 2 / 800 * d ^ 2)) by field.
  apply Rmult_lt_0_compat; [lra|]. assert (PI ^ 2 <= 16) by nra. assert (PI ^ 2 * d ^ 2 <= 16 * 36) by (apply Rmult_le_compat; nra). lra.
Qed.
