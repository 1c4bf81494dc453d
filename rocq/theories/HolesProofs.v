(** Lemmas on the border of holes. *)
From Coq Require Import Reals List Bool Arith Lia Lra.
From Verif Require Import Py SurfaceModel SurfaceProofs HolesModel HolesSpec.
Import ListNotations.
Local Open Scope R_scope.

Lemma count_app a b : count (a ++ b) = (count a + count b)%nat.
Proof. unfold count. now rewrite filter_app, app_length. Qed.
Lemma count_all l : (forall b, In b l -> b = true) -> count l = List.length l.
Proof. induction l as [|x l IH]; intro H; [reflexivity|]. unfold count in *. cbn. rewrite (H x) by now left. cbn. rewrite IH; [reflexivity|]. intros b I. apply H. now right. Qed.
Lemma count_le l : (count l <= List.length l)%nat.
Proof. induction l as [|x l IH]; [reflexivity|]. unfold count in *. cbn. destruct x; cbn; lia. Qed.
Lemma holes_count f n : holes_in f n = count (map f (seq 0 n)).
Proof. induction n as [|n IH]; [reflexivity|]. cbn [holes_in]. rewrite seq_S, map_app, count_app, IH. f_equal. cbn. unfold count. destruct (f n); reflexivity. Qed.
Lemma col_as_row m rows j a b : col_part m rows j a b = row_part (fun j i => m i j) rows j a b.
Proof. reflexivity. Qed.
Lemma part_length m n i a b : List.length (row_part m n i a b) = (n - b - a)%nat.
Proof. unfold row_part. now rewrite map_length, seq_length. Qed.

(** A line of holes, not empty. *)
Lemma full_line t m n i a b : t < 1 -> (a + b < n)%nat -> (forall j, (j < n)%nat -> m i j = true) -> too_many t (row_part m n i a b) = true.
Proof.
  intros T L H. unfold too_many. pose proof (part_length m n i a b) as PL. destruct (row_part m n i a b) as [|x l] eqn:E; [cbn in PL; lia|]. rewrite <- E, count_all.
  - assert (P : 0 < INR (List.length (row_part m n i a b))) by (apply lt_0_INR; rewrite part_length; lia). apply Rltb_true. unfold Rdiv. rewrite Rinv_r by lra. exact T.
  - intros y I. unfold row_part in I. apply in_map_iff in I. destruct I as (j & <- & I). apply in_seq in I. apply H. lia.
Qed.
(** A line with few holes stays so when holes are cut off its ends. *)
Lemma fine_line t m n i a b : t < 1 -> (a + b <= n)%nat -> INR (holes_in (m i) n) <= t * INR n -> (forall j, (j < n)%nat -> (j < a \/ n - b <= j)%nat -> m i j = true) -> too_many t (row_part m n i a b) = false.
Proof.
  intros T L F H. unfold too_many. pose proof (part_length m n i a b) as PL. destruct (row_part m n i a b) as [|x l] eqn:E; [reflexivity|]. rewrite <- E. apply not_true_is_false. intro X. apply Rltb_true in X.
  assert (LN : (0 < n - b - a)%nat) by (rewrite <- PL; cbn; lia). assert (LP : 0 < INR (List.length (row_part m n i a b))) by (apply lt_0_INR; rewrite part_length; exact LN).
  assert (C : holes_in (m i) n = (a + count (row_part m n i a b) + b)%nat).
  { rewrite holes_count. replace n with (a + (n - b - a) + b)%nat at 1 by lia. rewrite !seq_app, !map_app, !count_app. cbn [Nat.add]. f_equal; [f_equal|].
    - rewrite count_all; [now rewrite map_length, seq_length|]. intros y I. apply in_map_iff in I. destruct I as (j & <- & I). apply in_seq in I. apply H; lia.
    - rewrite count_all; [now rewrite map_length, seq_length|]. intros y I. apply in_map_iff in I. destruct I as (j & <- & I). apply in_seq in I. apply H; lia. }
  apply (Rmult_lt_compat_r _ _ _ LP) in X. unfold Rdiv in X. rewrite Rmult_assoc, Rinv_l, Rmult_1_r in X by lra. rewrite part_length in X. rewrite C in F. replace n with ((n - b - a) + (a + b))%nat in F at 2 by lia.
  rewrite !plus_INR in F. assert (0 <= INR a + INR b) by (pose proof (pos_INR a); pose proof (pos_INR b); lra). nra.
Qed.

Section Exact.
Variable m : nat -> nat -> bool.
Variables rows cols p0 p1 p2 p3 : nat.
Variable t : R.
Hypothesis T : t < 1.
Hypothesis B : bordered m rows cols p0 p1 p2 p3.
Hypothesis E : edges_fine m rows cols p0 p1 p2 p3 t.

Lemma row_out i a b : (i < rows)%nat -> (i < p0 \/ rows - p1 <= i)%nat -> (a + b < cols)%nat -> too_many t (row_part m cols i a b) = true.
Proof. intros I O L. destruct B as (_ & _ & H). apply full_line; [exact T|exact L|]. intros j J. apply H; lia. Qed.
Lemma col_out j a b : (j < cols)%nat -> (j < p2 \/ cols - p3 <= j)%nat -> (a + b < rows)%nat -> too_many t (col_part m rows j a b) = true.
Proof. intros J O L. destruct B as (_ & _ & H). rewrite col_as_row. apply full_line; [exact T|exact L|]. intros i I. apply H; lia. Qed.
Lemma row_edge i a b : (i < rows)%nat -> row_fine m cols t i -> (a <= p2)%nat -> (b <= p3)%nat -> too_many t (row_part m cols i a b) = false.
Proof. intros I F A B'. destruct B as (_ & X & H). apply fine_line; [exact T|lia|exact F|]. intros j J K. apply H; lia. Qed.
Lemma col_edge j a b : (j < cols)%nat -> col_fine m rows t j -> (a <= p0)%nat -> (b <= p1)%nat -> too_many t (col_part m rows j a b) = false.
Proof. intros J F A B'. destruct B as (X & _ & H). rewrite col_as_row. apply fine_line; [exact T|lia|exact F|]. intros i I K. apply H; lia. Qed.

(** The state after [n] passes. *)
Definition passed (n : nat) : cut := Cut (Nat.min n p0) (Nat.min n p1) (Nat.min n p2) (Nat.min n p3) (Nat.ltb p0 n) (Nat.ltb p1 n) (Nat.ltb p2 n) (Nat.ltb p3 n).
Lemma min_next n p (c : bool) g : c = Nat.ltb n p -> (if c then (S (Nat.min n p), g) else (Nat.min n p, true)) = (Nat.min (S n) p, if Nat.ltb p (S n) then true else g).
Proof.
  intros ->. destruct (Nat.ltb_spec n p).
  - rewrite (proj2 (Nat.ltb_ge p (S n))) by lia. f_equal. lia.
  - rewrite (proj2 (Nat.ltb_lt p (S n))) by lia. f_equal. lia.
Qed.
Lemma flag_next n p : (if Nat.ltb p (S n) then true else Nat.ltb p n) = Nat.ltb p (S n).
Proof. destruct (Nat.ltb_spec p (S n)), (Nat.ltb_spec p n); try reflexivity; lia. Qed.
Lemma shrink_passed n : shrink m rows cols t (passed n) = Ok (passed (S n)).
Proof.
  destruct B as (R0 & C0 & _). destruct E as (E0 & E1 & E2 & E3). unfold shrink. cbn [passed sr er sc ec g0 g1 g2 g3].
  rewrite (proj2 (Nat.ltb_lt (Nat.min n p0) rows)), (proj2 (Nat.ltb_lt (Nat.min n p1) rows)), (proj2 (Nat.ltb_lt (Nat.min n p2) cols)), (proj2 (Nat.ltb_lt (Nat.min n p3) cols)) by lia.
  rewrite (min_next n p0); cycle 1.
  { destruct (Nat.ltb_spec n p0); [apply row_out; lia|]. replace (Nat.min n p0) with p0 by lia. apply row_edge; try lia. exact E0. }
  cbn [bind]. rewrite (min_next n p1); cycle 1.
  { destruct (Nat.ltb_spec n p1); [apply row_out; lia|]. replace (Nat.min n p1) with p1 by lia. apply row_edge; try lia. exact E1. }
  cbn [bind]. rewrite (min_next n p2); cycle 1.
  { destruct (Nat.ltb_spec n p2); [apply col_out; lia|]. replace (Nat.min n p2) with p2 by lia. apply col_edge; try lia. exact E2. }
  cbn [bind]. rewrite (min_next n p3); cycle 1.
  { destruct (Nat.ltb_spec n p3); [apply col_out; lia|]. replace (Nat.min n p3) with p3 by lia. apply col_edge; try lia. exact E3. }
  cbn [bind]. rewrite !flag_next. reflexivity.
Qed.
Lemma shrink_all : forall fuel n, (Nat.max (Nat.max p0 p1) (Nat.max p2 p3) < fuel + n)%nat -> (forall k, (k < n)%nat -> all_good (passed k) = false) -> exists g, shrink_loop m rows cols t fuel (passed n) = Ok (Some g) /\ g = Cut p0 p1 p2 p3 true true true true.
Proof.
  assert (AG : forall n, all_good (passed n) = true <-> (Nat.max (Nat.max p0 p1) (Nat.max p2 p3) < n)%nat).
  { intro n. unfold all_good. cbn [passed g0 g1 g2 g3]. rewrite !andb_true_iff, !Nat.ltb_lt. lia. }
  induction fuel as [|fuel IH]; intros n L K.
  - assert (A : all_good (passed n) = true) by (apply AG; lia). cbn [shrink_loop]. rewrite A. eexists. split; [reflexivity|]. unfold passed. rewrite !(proj2 (Nat.ltb_lt _ _)) by lia. f_equal; lia.
  - cbn [shrink_loop]. destruct (all_good (passed n)) eqn:A.
    + eexists. split; [reflexivity|]. apply AG in A. unfold passed. rewrite !(proj2 (Nat.ltb_lt _ _)) by lia. f_equal; lia.
    + rewrite shrink_passed. cbn [bind]. apply IH; [lia|]. intros k Kn. destruct (Nat.eq_dec k n) as [->|]; [exact A|]. apply K. lia.
Qed.
Lemma grow_done : grow m rows cols t (Cut p0 p1 p2 p3 true true true true) = Cut p0 p1 p2 p3 false false false false.
Proof.
  destruct B as (R0 & C0 & _). unfold grow. cbn [sr er sc ec g0 g1 g2 g3].
  assert (X0 : Nat.ltb 0 p0 && negb (too_many t (row_part m cols (p0 - 1) p2 p3)) = false) by (destruct (Nat.ltb_spec 0 p0); [|reflexivity]; rewrite row_out by lia; reflexivity).
  assert (X1 : Nat.ltb 0 p1 && negb (too_many t (row_part m cols (rows - p1) p2 p3)) = false) by (destruct (Nat.ltb_spec 0 p1); [|reflexivity]; rewrite row_out by lia; reflexivity).
  assert (X2 : Nat.ltb 0 p2 && negb (too_many t (col_part m rows (p2 - 1) p0 p1)) = false) by (destruct (Nat.ltb_spec 0 p2); [|reflexivity]; rewrite col_out by lia; reflexivity).
  assert (X3 : Nat.ltb 0 p3 && negb (too_many t (col_part m rows (cols - p3) p0 p1)) = false) by (destruct (Nat.ltb_spec 0 p3); [|reflexivity]; rewrite col_out by lia; reflexivity).
  rewrite X0, X1, X2, X3. reflexivity.
Qed.
Lemma border_exact : border m rows cols t = Ok (Some (Cut p0 p1 p2 p3 false false false false)).
Proof.
  unfold border. destruct (shrink_all (S (Nat.max rows cols)) 0) as (g & S0 & G).
  - destruct B as (R0 & C0 & _). lia.
  - intros k K. lia.
  - change (passed 0) with (Cut 0 0 0 0 false false false false) in S0. cbv zeta. rewrite S0. cbn [bind]. f_equal. rewrite G. cbn [grow_loop any_good g0 orb]. rewrite grow_done. destruct (Nat.max rows cols); reflexivity.
Qed.
End Exact.

(** ** Lines removed too many are taken back *)
Lemma clean_line t m n i a b : 0 <= t -> (forall j, (a <= j < n - b)%nat -> m i j = false) -> too_many t (row_part m n i a b) = false.
Proof.
  intros T H. unfold too_many. destruct (row_part m n i a b) as [|x l] eqn:E; [reflexivity|]. rewrite <- E.
  assert (C : count (row_part m n i a b) = 0%nat).
  { unfold row_part. assert (G : forall k c, (forall j, (c <= j < c + k)%nat -> m i j = false) -> count (map (fun j => m i j) (seq c k)) = 0%nat).
    { induction k as [|k IH]; intros c X; [reflexivity|]. cbn [seq map]. unfold count in *. cbn [filter]. rewrite X by lia. apply IH. intros j J. apply X. lia. }
    apply G. intros j J. apply H. lia. }
  rewrite C. change (INR 0) with 0. unfold Rdiv. rewrite Rmult_0_l. apply not_true_is_false. intro X. apply Rltb_true in X. lra.
Qed.
Section Regrow.
Variable m : nat -> nat -> bool.
Variables rows cols p0 p1 p2 p3 n : nat.
Variable t : R.
Hypothesis T0 : 0 <= t.
Hypothesis T : t < 1.
Hypothesis B : bordered m rows cols p0 p1 p2 p3.
Hypothesis F : frame_clean m rows cols p0 p1 p2 p3 (S n).
Hypothesis P : (p0 <= n /\ p1 <= n /\ p2 <= n /\ p3 <= n)%nat.
Hypothesis D : (n + n < rows /\ n + n < cols)%nat.
Lemma rout i a b : (i < rows)%nat -> (i < p0 \/ rows - p1 <= i)%nat -> (a + b < cols)%nat -> too_many t (row_part m cols i a b) = true.
Proof. intros I O L. destruct B as (_ & _ & H). apply full_line; [exact T|exact L|]. intros j J. apply H; lia. Qed.
Lemma cout j a b : (j < cols)%nat -> (j < p2 \/ cols - p3 <= j)%nat -> (a + b < rows)%nat -> too_many t (col_part m rows j a b) = true.
Proof. intros J O L. destruct B as (_ & _ & H). rewrite col_as_row. apply full_line; [exact T|exact L|]. intros i I. apply H; lia. Qed.
Lemma rin i a b : (p0 <= i < rows - p1)%nat -> (i <= n \/ rows - S n <= i)%nat -> (p2 <= a)%nat -> (p3 <= b)%nat -> too_many t (row_part m cols i a b) = false.
Proof. intros I O A B'. apply clean_line; [exact T0|]. intros j J. apply F; lia. Qed.
Lemma cin j a b : (p2 <= j < cols - p3)%nat -> (j <= n \/ cols - S n <= j)%nat -> (p0 <= a)%nat -> (p1 <= b)%nat -> too_many t (col_part m rows j a b) = false.
Proof. intros J O A B'. rewrite col_as_row. apply clean_line; [exact T0|]. intros i I. apply F; lia. Qed.

(** Side [s] with flag [g] of a border of [p] after [k] passes. *)
Definition going (k p s : nat) (g : bool) : Prop := (Nat.min k p <= s)%nat /\ (s <= k)%nat /\ (s <= n)%nat /\ (g = true -> (p <= s)%nat) /\ (n < k -> g = true)%nat.
Definition going_all (k : nat) (c : cut) : Prop := going k p0 (sr c) (g0 c) /\ going k p1 (er c) (g1 c) /\ going k p2 (sc c) (g2 c) /\ going k p3 (ec c) (g3 c).
Lemma going_next k p s g (b : bool) : (p <= n)%nat -> going k p s g -> ((s < p)%nat -> b = true) -> ((n <= k)%nat -> b = false) -> exists s' g', (if b then (S s, g) else (s, true)) = (s', g') /\ going (S k) p s' g'.
Proof.
  unfold going. intros Pn (A1 & A2 & A3 & A4 & A5) H1 H2. destruct b.
  - exists (S s), g. split; [reflexivity|]. assert (K : (k < n)%nat) by (destruct (Nat.le_gt_cases n k) as [X|X]; [specialize (H2 X); discriminate|exact X]). repeat split; try lia. intro G. specialize (A4 G). lia.
  - exists s, true. split; [reflexivity|]. assert (p <= s)%nat by (destruct (Nat.le_gt_cases p s) as [X|X]; [exact X|specialize (H1 X); discriminate]). repeat split; try lia.
Qed.
Lemma shrink_going k c : (k <= n)%nat -> going_all k c -> exists c', shrink m rows cols t c = Ok c' /\ going_all (S k) c'.
Proof.
  intros K (G0 & G1 & G2 & G3). destruct P as (P0 & P1 & P2 & P3), D as (D1 & D2). unfold shrink.
  pose proof G0 as (X0 & Y0 & Z0 & _). pose proof G1 as (X1 & Y1 & Z1 & _). pose proof G2 as (X2 & Y2 & Z2 & _). pose proof G3 as (X3 & Y3 & Z3 & _).
  rewrite (proj2 (Nat.ltb_lt (sr c) rows)), (proj2 (Nat.ltb_lt (er c) rows)), (proj2 (Nat.ltb_lt (sc c) cols)), (proj2 (Nat.ltb_lt (ec c) cols)) by lia. cbn [bind].
  destruct (going_next k p0 (sr c) (g0 c) (too_many t (row_part m cols (sr c) (sc c) (ec c))) P0 G0) as (sr' & g0' & -> & H0); [intro L; apply rout; lia|intro L; apply rin; lia|]. cbn [bind].
  destruct (going_next k p1 (er c) (g1 c) (too_many t (row_part m cols (rows - 1 - er c) (sc c) (ec c))) P1 G1) as (er' & g1' & -> & H1); [intro L; apply rout; lia|intro L; apply rin; lia|]. cbn [bind].
  pose proof H0 as (U0 & _ & V0 & _). pose proof H1 as (U1 & _ & V1 & _).
  destruct (going_next k p2 (sc c) (g2 c) (too_many t (col_part m rows (sc c) sr' er')) P2 G2) as (sc' & g2' & -> & H2); [intro L; apply cout; lia|intro L; apply cin; lia|]. cbn [bind].
  destruct (going_next k p3 (ec c) (g3 c) (too_many t (col_part m rows (cols - 1 - ec c) sr' er')) P3 G3) as (ec' & g3' & -> & H3); [intro L; apply cout; lia|intro L; apply cin; lia|]. cbn [bind].
  eexists. split; [reflexivity|]. split; [exact H0|]. split; [exact H1|]. split; [exact H2|exact H3].
Qed.
Lemma shrink_over : forall fuel k c, (n < fuel + k)%nat -> (k <= S n)%nat -> going_all k c ->
  exists c', shrink_loop m rows cols t fuel c = Ok (Some c') /\ (p0 <= sr c' <= n)%nat /\ (p1 <= er c' <= n)%nat /\ (p2 <= sc c' <= n)%nat /\ (p3 <= ec c' <= n)%nat /\ c' = Cut (sr c') (er c') (sc c') (ec c') true true true true.
Proof.
  induction fuel as [|fuel IH]; intros k c L K G; cbn [shrink_loop]; destruct (all_good c) eqn:A.
  1, 3: exists c; split; [reflexivity|]; unfold all_good in A; rewrite !andb_true_iff in A; destruct A as (((A0 & A1) & A2) & A3); destruct G as ((_ & _ & X0 & Y0 & _) & (_ & _ & X1 & Y1 & _) & (_ & _ & X2 & Y2 & _) & (_ & _ & X3 & Y3 & _)); specialize (Y0 A0); specialize (Y1 A1); specialize (Y2 A2); specialize (Y3 A3); repeat split; try lia; destruct c; cbn in *; congruence.
  - exfalso. destruct G as ((_ & _ & _ & _ & Y0) & (_ & _ & _ & _ & Y1) & (_ & _ & _ & _ & Y2) & (_ & _ & _ & _ & Y3)). unfold all_good in A. rewrite Y0, Y1, Y2, Y3 in A by lia. discriminate.
  - assert (K' : (k <= n)%nat). { destruct (Nat.le_gt_cases k n) as [X|X]; [exact X|]. exfalso. destruct G as ((_ & _ & _ & _ & Y0) & (_ & _ & _ & _ & Y1) & (_ & _ & _ & _ & Y2) & (_ & _ & _ & _ & Y3)). unfold all_good in A. rewrite Y0, Y1, Y2, Y3 in A by lia. discriminate. }
    destruct (shrink_going k c K' G) as (c1 & E & G1). rewrite E. cbn [bind]. apply (IH (S k)); [lia|lia|exact G1].
Qed.
(** Side [s] on the way back, which started from [s0]. *)
Definition back (k p s0 s : nat) (g : bool) : Prop := s = Nat.max p (s0 - k) /\ g = Nat.leb (p + k) s0.
Lemma back_next k p s0 s g (b : bool) : (p <= s0)%nat -> back k p s0 s g -> (s = p -> Nat.ltb 0 s && negb b = false) -> ((p < s)%nat -> b = false) -> exists s' g', (if Nat.ltb 0 s && negb b then ((s - 1)%nat, g) else (s, false)) = (s', g') /\ back (S k) p s0 s' g'.
Proof.
  intros L (-> & ->) H1 H2. destruct (Nat.eq_dec (Nat.max p (s0 - k)) p) as [X|X].
  - rewrite (H1 X). do 2 eexists. split; [reflexivity|]. split; [lia|]. symmetry. apply Nat.leb_gt. lia.
  - rewrite H2 by lia. rewrite (proj2 (Nat.ltb_lt _ _)) by lia. cbn [andb negb]. do 2 eexists. split; [reflexivity|]. split; [lia|]. destruct (Nat.leb_spec (p + k) s0), (Nat.leb_spec (p + S k) s0); try reflexivity; lia.
Qed.
Lemma back_bounds k p s0 s g : (p <= s0 <= n)%nat -> back k p s0 s g -> (p <= s <= n)%nat.
Proof. intros L (-> & _). lia. Qed.
Section Way.
Variables s0 s1 s2 s3 : nat.
Hypothesis A0 : (p0 <= s0 <= n)%nat.
Hypothesis A1 : (p1 <= s1 <= n)%nat.
Hypothesis A2 : (p2 <= s2 <= n)%nat.
Hypothesis A3 : (p3 <= s3 <= n)%nat.
Definition back_all (k : nat) (c : cut) : Prop := back k p0 s0 (sr c) (g0 c) /\ back k p1 s1 (er c) (g1 c) /\ back k p2 s2 (sc c) (g2 c) /\ back k p3 s3 (ec c) (g3 c).
Lemma grow_back k c : back_all k c -> back_all (S k) (grow m rows cols t c).
Proof.
  intros (G0 & G1 & G2 & G3). destruct P as (P0 & P1 & P2 & P3), D as (D1 & D2). unfold grow.
  pose proof (back_bounds _ _ _ _ _ A0 G0) as X0. pose proof (back_bounds _ _ _ _ _ A1 G1) as X1. pose proof (back_bounds _ _ _ _ _ A2 G2) as X2. pose proof (back_bounds _ _ _ _ _ A3 G3) as X3.
  destruct (back_next k p0 s0 (sr c) (g0 c) (too_many t (row_part m cols (sr c - 1) (sc c) (ec c))) (proj1 A0) G0) as (sr' & g0' & -> & H0).
  { intro Y. destruct (Nat.ltb_spec 0 (sr c)); [|reflexivity]. rewrite rout by lia. reflexivity. }
  { intro Y. apply rin; lia. }
  destruct (back_next k p1 s1 (er c) (g1 c) (too_many t (row_part m cols (rows - er c) (sc c) (ec c))) (proj1 A1) G1) as (er' & g1' & -> & H1).
  { intro Y. destruct (Nat.ltb_spec 0 (er c)); [|reflexivity]. rewrite rout by lia. reflexivity. }
  { intro Y. apply rin; lia. }
  pose proof (back_bounds _ _ _ _ _ A0 H0) as U0. pose proof (back_bounds _ _ _ _ _ A1 H1) as U1.
  destruct (back_next k p2 s2 (sc c) (g2 c) (too_many t (col_part m rows (sc c - 1) sr' er')) (proj1 A2) G2) as (sc' & g2' & -> & H2).
  { intro Y. destruct (Nat.ltb_spec 0 (sc c)); [|reflexivity]. rewrite cout by lia. reflexivity. }
  { intro Y. apply cin; lia. }
  destruct (back_next k p3 s3 (ec c) (g3 c) (too_many t (col_part m rows (cols - ec c) sr' er')) (proj1 A3) G3) as (ec' & g3' & -> & H3).
  { intro Y. destruct (Nat.ltb_spec 0 (ec c)); [|reflexivity]. rewrite cout by lia. reflexivity. }
  { intro Y. apply cin; lia. }
  split; [exact H0|]. split; [exact H1|]. split; [exact H2|exact H3].
Qed.
Lemma grow_over : forall fuel k c, (n < fuel + k)%nat -> back_all k c -> grow_loop m rows cols t fuel c = Some (Cut p0 p1 p2 p3 false false false false).
Proof.
  assert (Z : forall k c, back_all k c -> any_good c = false -> c = Cut p0 p1 p2 p3 false false false false).
  { intros k c ((X0 & Y0) & (X1 & Y1) & (X2 & Y2) & (X3 & Y3)) A. unfold any_good in A. rewrite !orb_false_iff in A. destruct A as (((E0 & E1) & E2) & E3). rewrite E0 in Y0. rewrite E1 in Y1. rewrite E2 in Y2. rewrite E3 in Y3. symmetry in Y0, Y1, Y2, Y3. apply Nat.leb_gt in Y0, Y1, Y2, Y3. destruct c; cbn in *. subst. f_equal; lia. }
  induction fuel as [|fuel IH]; intros k c L G; cbn [grow_loop]; destruct (any_good c) eqn:A.
  - exfalso. destruct G as ((_ & Y0) & (_ & Y1) & (_ & Y2) & (_ & Y3)). unfold any_good in A. rewrite Y0, Y1, Y2, Y3 in A. rewrite !(proj2 (Nat.leb_gt _ _)) in A by lia. discriminate.
  - f_equal. now apply (Z k).
  - apply (IH (S k)); [lia|]. now apply grow_back.
  - f_equal. now apply (Z k).
Qed.
End Way.
Lemma border_regrown : border m rows cols t = Ok (Some (Cut p0 p1 p2 p3 false false false false)).
Proof.
  destruct D as (D1 & D2). unfold border. destruct (shrink_over (S (Nat.max rows cols)) 0 (Cut 0 0 0 0 false false false false)) as (c & E & I0 & I1 & I2 & I3 & C); [lia|lia| |].
  { unfold going_all, going. cbn. repeat split; try lia; discriminate. }
  cbv zeta. rewrite E. cbn [bind]. f_equal. apply (grow_over (sr c) (er c) (sc c) (ec c)) with (k := 0%nat); try assumption; [lia|].
  assert (X : forall p s, (p <= s)%nat -> back 0 p s s true) by (intros p s L; split; [lia|symmetry; apply Nat.leb_le; lia]).
  rewrite C. unfold back_all. cbn [sr er sc ec g0 g1 g2 g3]. repeat split; try lia; symmetry; apply Nat.leb_le; lia.
Qed.
End Regrow.

(** ** The loops end *)
Section Ends.
Variable m : nat -> nat -> bool.
Variables rows cols : nat.
Variable t : R.
Definition behind (n : nat) (c : cut) : Prop :=
  (g0 c = false -> sr c = n) /\ (g1 c = false -> er c = n) /\ (g2 c = false -> sc c = n) /\ (g3 c = false -> ec c = n) /\ (sr c <= rows /\ er c <= rows /\ sc c <= cols /\ ec c <= cols)%nat.
Lemma shrink_behind n c c' : behind n c -> shrink m rows cols t c = Ok c' -> behind (S n) c'.
Proof.
  intros (A0 & A1 & A2 & A3 & A4) H. unfold shrink in H. destruct (Nat.ltb_spec (sr c) rows); [|discriminate]. cbn [bind] in H.
  destruct (too_many t (row_part m cols (sr c) (sc c) (ec c))); destruct (Nat.ltb_spec (er c) rows); try discriminate; cbn [bind] in H;
  destruct (too_many t (row_part m cols (rows - 1 - er c) (sc c) (ec c))); destruct (Nat.ltb_spec (sc c) cols); try discriminate; cbn [bind] in H;
  match type of H with context [col_part m rows (sc c) ?a ?b] => destruct (too_many t (col_part m rows (sc c) a b)) end; destruct (Nat.ltb_spec (ec c) cols); try discriminate; cbn [bind] in H;
  match type of H with context [col_part m rows ?j ?a ?b] => destruct (too_many t (col_part m rows j a b)) end; inversion H; subst c'; unfold behind; cbn; repeat split; try discriminate; try lia; intro X; try (rewrite A0 by exact X; reflexivity); try (rewrite A1 by exact X; reflexivity); try (rewrite A2 by exact X; reflexivity); try (rewrite A3 by exact X; reflexivity).
Qed.
Lemma shrink_loop_ends : forall fuel n c, behind n c -> (Nat.max rows cols < fuel + n)%nat -> shrink_loop m rows cols t fuel c <> Ok None /\ forall c', shrink_loop m rows cols t fuel c = Ok (Some c') -> (sr c' <= rows /\ er c' <= rows /\ sc c' <= cols /\ ec c' <= cols)%nat.
Proof.
  induction fuel as [|fuel IH]; intros n c I L; cbn [shrink_loop].
  - destruct (all_good c) eqn:A; [split; [discriminate|intros c' H; inversion H; subst; apply I]|]. exfalso. destruct I as (A0 & A1 & A2 & A3 & A4). unfold all_good in A. destruct (g0 c); [|specialize (A0 eq_refl); lia]. destruct (g1 c); [|specialize (A1 eq_refl); lia]. destruct (g2 c); [|specialize (A2 eq_refl); lia]. destruct (g3 c); [discriminate|specialize (A3 eq_refl); lia].
  - destruct (all_good c) eqn:A; [split; [discriminate|intros c' H; inversion H; subst; apply I]|]. destruct (shrink m rows cols t c) as [c1|e] eqn:Sh; cbn [bind]; [|split; discriminate]. apply (IH (S n)); [now apply (shrink_behind n c)|lia].
Qed.
Definition ahead (top n : nat) (c : cut) : Prop :=
  (g0 c = true -> sr c + n <= top)%nat /\ (g1 c = true -> er c + n <= top)%nat /\ (g2 c = true -> sc c + n <= top)%nat /\ (g3 c = true -> ec c + n <= top)%nat.
Lemma grow_ahead top n c : ahead top n c -> ahead top (S n) (grow m rows cols t c).
Proof.
  intros (A0 & A1 & A2 & A3). unfold grow.
  destruct (Nat.ltb 0 (sr c) && _) eqn:B0; (destruct (Nat.ltb 0 (er c) && _) eqn:B1); (match goal with |- context [Nat.ltb 0 (sc c) && ?b] => destruct (Nat.ltb 0 (sc c) && b) eqn:B2 end);
  (match goal with |- context [Nat.ltb 0 (ec c) && ?b] => destruct (Nat.ltb 0 (ec c) && b) eqn:B3 end);
  repeat match goal with H : _ && _ = true |- _ => apply andb_true_iff in H; destruct H as [H _]; apply Nat.ltb_lt in H end;
  unfold ahead; cbn; repeat split; try discriminate; intro X; try (specialize (A0 X); lia); try (specialize (A1 X); lia); try (specialize (A2 X); lia); try (specialize (A3 X); lia).
Qed.
Lemma grow_loop_ends top : forall fuel n c, ahead top n c -> (top < fuel + n)%nat -> grow_loop m rows cols t fuel c <> None.
Proof.
  induction fuel as [|fuel IH]; intros n c I L; cbn [grow_loop].
  - destruct (any_good c) eqn:A; [|discriminate]. exfalso. destruct I as (A0 & A1 & A2 & A3). unfold any_good in A. destruct (g0 c); [specialize (A0 eq_refl); lia|]. destruct (g1 c); [specialize (A1 eq_refl); lia|]. destruct (g2 c); [specialize (A2 eq_refl); lia|]. destruct (g3 c); [specialize (A3 eq_refl); lia|discriminate].
  - destruct (any_good c); [|discriminate]. apply (IH (S n)); [now apply grow_ahead|lia].
Qed.
Lemma border_ends : border m rows cols t <> Ok None.
Proof.
  unfold border. assert (I : behind 0 (Cut 0 0 0 0 false false false false)) by (unfold behind; cbn; repeat split; lia). destruct (shrink_loop_ends (S (Nat.max rows cols)) 0 _ I ltac:(lia)) as [N Bd]. cbv zeta.
  destruct (shrink_loop _ _ _ _ _ _) as [[c|]|e]; cbn [bind]; [|contradiction|discriminate]. specialize (Bd c eq_refl). intro X. assert (X' : grow_loop m rows cols t (S (Nat.max rows cols)) c = None) by congruence. revert X'. apply (grow_loop_ends (Nat.max rows cols) _ 0); [|lia]. unfold ahead. repeat split; intros; lia.
Qed.

(** ** Nothing but holes *)
Hypothesis T : t < 1.
Hypothesis All : forall i j, (i < rows)%nat -> (j < cols)%nat -> m i j = true.
Lemma row_all i a b : (i < rows)%nat -> too_many t (row_part m cols i a b) = Nat.ltb (a + b) cols.
Proof.
  intro I. destruct (Nat.ltb_spec (a + b) cols); [apply full_line; auto|]. unfold too_many. pose proof (part_length m cols i a b). destruct (row_part m cols i a b); [reflexivity|cbn in *; lia].
Qed.
Lemma col_all j a b : (j < cols)%nat -> too_many t (col_part m rows j a b) = Nat.ltb (a + b) rows.
Proof.
  intro J. rewrite col_as_row. destruct (Nat.ltb_spec (a + b) rows); [apply full_line; auto|]. unfold too_many. pose proof (part_length (fun j i => m i j) rows j a b). destruct (row_part _ rows j a b); [reflexivity|cbn in *; lia].
Qed.
Definition one_left (c : cut) : Prop :=
  (sr c + er c < rows \/ sc c + ec c < cols)%nat /\ (g0 c = true \/ g1 c = true -> cols <= sc c + ec c)%nat /\ (g2 c = true \/ g3 c = true -> rows <= sr c + er c)%nat.
Lemma shrink_one_left c c' : one_left c -> shrink m rows cols t c = Ok c' -> one_left c'.
Proof.
  intros (A0 & A1 & A2) H. unfold shrink in H. destruct (Nat.ltb_spec (sr c) rows); [|discriminate]. rewrite row_all in H by lia. cbn [bind] in H.
  destruct (Nat.ltb_spec (sc c + ec c) cols) as [L|L]; (destruct (Nat.ltb_spec (er c) rows); [|discriminate]); rewrite row_all in H by lia; [rewrite (proj2 (Nat.ltb_lt (sc c + ec c) cols)) in H by lia|rewrite (proj2 (Nat.ltb_ge (sc c + ec c) cols)) in H by lia]; cbn [bind] in H;
  (destruct (Nat.ltb_spec (sc c) cols); [|discriminate]); rewrite col_all in H by lia; (destruct (Nat.ltb_spec (ec c) cols); [|cbn in H; repeat match type of H with context [if ?b then _ else _] => destruct b end; discriminate]); rewrite col_all in H by lia;
  match type of H with context [Nat.ltb (?a + ?b) rows] => destruct (Nat.ltb_spec (a + b) rows) as [K|K] end; cbn [bind] in H; inversion H; subst c'; unfold one_left; cbn; repeat split; try lia; intros [X|X]; try discriminate; try (specialize (A1 (or_introl X))); try (specialize (A1 (or_intror X))); try (specialize (A2 (or_introl X))); try (specialize (A2 (or_intror X))); lia.
Qed.
Lemma shrink_error c e : shrink m rows cols t c = Err e -> e = IndexError.
Proof.
  unfold shrink. repeat (match goal with |- context [if Nat.ltb ?a ?b then _ else _] => destruct (Nat.ltb a b) end; cbn [bind]; [|congruence]; match goal with |- context [if too_many t ?l then _ else _] => destruct (too_many t l) end; cbn [bind]); discriminate.
Qed.
Lemma all_loop : forall fuel c, one_left c -> forall r, shrink_loop m rows cols t fuel c = r -> r = Ok None \/ r = Err IndexError.
Proof.
  induction fuel as [|fuel IH]; intros c I r <-; cbn [shrink_loop].
  - destruct (all_good c) eqn:A; [|now left]. exfalso. destruct I as (A0 & A1 & A2). unfold all_good in A. rewrite !andb_true_iff in A. destruct A as (((X & _) & Y) & _). specialize (A1 (or_introl X)). specialize (A2 (or_introl Y)). lia.
  - destruct (all_good c) eqn:A. { exfalso. destruct I as (A0 & A1 & A2). unfold all_good in A. rewrite !andb_true_iff in A. destruct A as (((X & _) & Y) & _). specialize (A1 (or_introl X)). specialize (A2 (or_introl Y)). lia. }
    destruct (shrink m rows cols t c) as [c1|e] eqn:Sh; cbn [bind]; [|right; now rewrite (shrink_error _ _ Sh)]. apply (IH c1); [now apply (shrink_one_left c)|reflexivity].
Qed.
Lemma border_all : border m rows cols t = Err IndexError.
Proof.
  pose proof border_ends as N. unfold border in *. cbv zeta in *.
  assert (D : (0 < rows /\ 0 < cols \/ rows = 0 \/ cols = 0)%nat) by lia.
  destruct (shrink_loop m rows cols t (S (Nat.max rows cols)) (Cut 0 0 0 0 false false false false)) as [[c|]|e] eqn:Sl; cbn [bind] in *.
  - exfalso. destruct D as [(R0 & C0)|[Z|Z]].
    + apply all_loop in Sl; [destruct Sl; discriminate|]. unfold one_left. cbn. repeat split; try lia; intros [X|X]; discriminate.
    + cbn [shrink_loop all_good g0 andb] in Sl. unfold shrink in Sl. cbn [sr] in Sl. rewrite (proj2 (Nat.ltb_ge 0 rows)) in Sl by lia. discriminate.
    + cbn [shrink_loop all_good g0 andb] in Sl. unfold shrink in Sl. cbn [sr er sc ec g0 g1] in Sl. rewrite (proj2 (Nat.ltb_ge 0 cols)) in Sl by lia. destruct (Nat.ltb 0 rows); cbn [bind] in Sl; [|discriminate]. repeat match type of Sl with context [if too_many t ?l then _ else _] => destruct (too_many t l) end; cbn [bind] in Sl; discriminate.
  - now elim N.
  - f_equal. clear N. revert Sl. generalize (Cut 0 0 0 0 false false false false). generalize (S (Nat.max rows cols)). induction n as [|n IH]; intros c Sl; cbn [shrink_loop] in Sl.
    + destruct (all_good c); discriminate.
    + destruct (all_good c); [discriminate|]. destruct (shrink m rows cols t c) as [c1|e1] eqn:Sh; cbn [bind] in Sl; [now apply (IH c1)|]. inversion Sl; subst e1. now apply (shrink_error c).
Qed.
End Ends.
