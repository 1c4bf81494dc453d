(** Lemmas for TextureTheorems.v. *)
From Coq Require Import Reals List Bool Arith ZArith String Lia Lra.
From Verif Require Import Py SurfaceModel SurfaceProofs Flt SolverProofs RoughModel RoughSpec RoughProofs TextureSpec.
From Verif Require ConvModel ConvProofs.
Import ListNotations.
Local Open Scope R_scope.

(** ** Sums of cosines *)
Lemma csum_parts n f : fst (ConvModel.csum n f) = sum_to n (fun k => fst (f k)) /\ snd (ConvModel.csum n f) = sum_to n (fun k => snd (f k)).
Proof. induction n as [|n [I1 I2]]; cbn; [auto|]. rewrite I1, I2. auto. Qed.
Definition divides (n : nat) (k : Z) : bool := (k mod Z.of_nat n =? 0)%Z.
Lemma line_sum n k phi : (0 < n)%nat -> sum_to n (fun a => cos (2 * PI * (IZR k * INR a / INR n) + phi)) = if divides n k then INR n * cos phi else 0.
Proof.
  intros Hn. pose proof (ConvProofs.orthogonal n k Hn) as O. destruct (csum_parts n (fun a => ConvModel.root n (Z.of_nat a * k))) as (E1 & E2). rewrite O in E1, E2. clear O.
  assert (X : forall a, - (2 * PI * IZR (Z.of_nat a * k) / INR n) = - (2 * PI * (IZR k * INR a / INR n))).
  { intros a. rewrite mult_IZR, <- INR_IZR_INZ. unfold Rdiv. ring. }
  rewrite (sum_to_ext n _ (fun a => cos phi * cos (2 * PI * (IZR k * INR a / INR n)) + - sin phi * sin (2 * PI * (IZR k * INR a / INR n)))) by (intros; rewrite cos_plus; ring).
  rewrite sum_to_plus, !sum_to_scal.
  rewrite (sum_to_ext n (fun a => fst _) (fun a => cos (2 * PI * (IZR k * INR a / INR n)))) in E1 by (intros; unfold ConvModel.root, ConvModel.cis; cbn [fst]; rewrite X; apply cos_neg).
  rewrite (sum_to_ext n (fun a => snd _) (fun a => -1 * sin (2 * PI * (IZR k * INR a / INR n)))) in E2 by (intros; unfold ConvModel.root, ConvModel.cis; cbn [snd]; rewrite X, sin_neg; ring).
  rewrite sum_to_scal in E2. rewrite <- E1. assert (Z : sum_to n (fun a => sin (2 * PI * (IZR k * INR a / INR n))) = 0).
  { unfold divides in *. destruct (k mod Z.of_nat n =? 0)%Z; cbn in E2; lra. }
  rewrite Z. unfold divides. destruct (k mod Z.of_nat n =? 0)%Z; cbn; ring.
Qed.
Definition both_divide (r c : nat) (k l : Z) : bool := divides r k && divides c l.
Lemma plane_sum r c k l phi : (0 < r)%nat -> (0 < c)%nat ->
  sum_to r (fun a => sum_to c (fun b => cos (2 * PI * (IZR k * INR a / INR r + IZR l * INR b / INR c) + phi))) =
  if both_divide r c k l then INR r * INR c * cos phi else 0.
Proof.
  intros Hr Hc. rewrite (sum_to_ext r _ (fun a => (if divides c l then INR c else 0) * cos (2 * PI * (IZR k * INR a / INR r) + phi))).
  - rewrite sum_to_scal, line_sum by exact Hr. unfold both_divide. destruct (divides r k), (divides c l); cbn; ring.
  - intros a _. rewrite (sum_to_ext c _ (fun b => cos (2 * PI * (IZR l * INR b / INR c) + (2 * PI * (IZR k * INR a / INR r) + phi)))) by (intros; f_equal; ring).
    rewrite line_sum by exact Hc. destruct (divides c l); ring.
Qed.

(** ** The power of a wave *)
Lemma fourier_fin f p z s t : heights_are p everywhere z -> fourier f p s t =
  Fin (sum_to (nrows p) (fun a => sum_to (ncols p) (fun b => z a b * f (2 * PI * (INR (s * a) / INR (nrows p) + INR (t * b) / INR (ncols p)))))).
Proof.
  intros H. unfold fourier.
  set (q := fun a b => z a b * f (2 * PI * (INR (s * a) / INR (nrows p) + INR (t * b) / INR (ncols p)))).
  rewrite (map_ext_in _ (fun ab => Fin (fst_snd q ab))).
  - rewrite <- map_map, fsum_fin. f_equal. pose proof (total_over (nrows p) (ncols p) everywhere q) as T.
    replace (filter (fst_snd everywhere) (points (nrows p) (ncols p))) with (points (nrows p) (ncols p)) in T; [exact T|].
    symmetry. generalize (points (nrows p) (ncols p)). induction l as [|x l IH]; [reflexivity|]. cbn. rewrite IH. reflexivity.
  - intros [a b] I. apply in_points in I. unfold entry. cbn [fst snd]. rewrite (H a b) by (try reflexivity; tauto). reflexivity.
Qed.
Section Wave.
Variables (p : arr) (A phi : R) (u v : nat).
Hypothesis (Hr : (0 < nrows p)%nat) (Hc : (0 < ncols p)%nat) (W : is_wave p A phi u v).
Notation r := (nrows p). Notation c := (ncols p).
Definition plus_at (s t : nat) : bool := both_divide r c (Z.of_nat u + Z.of_nat s) (Z.of_nat v + Z.of_nat t).
Definition minus_at (s t : nat) : bool := both_divide r c (Z.of_nat u - Z.of_nat s) (Z.of_nat v - Z.of_nat t).
Definition peak (b : bool) (x : R) : R := if b then INR r * INR c * x else 0.
Lemma fourier_wave (f : R -> R) (g : bool) s t : (forall x y, cos x * f y = / 2 * (cos (x + y - (if g then PI / 2 else 0)) + (if g then -1 else 1) * cos (x - y - (if g then PI / 2 else 0)))) ->
  fourier f p s t = Fin (A / 2 * (peak (plus_at s t) (cos (phi - (if g then PI / 2 else 0))) + (if g then -1 else 1) * peak (minus_at s t) (cos (phi - (if g then PI / 2 else 0))))).
Proof.
  intros F. rewrite (fourier_fin f p _ s t W). f_equal. unfold peak, plus_at, minus_at. rewrite <- !plane_sum by assumption.
  rewrite <- !sum_to_scal. rewrite <- sum_to_plus. rewrite <- sum_to_scal. apply sum_to_ext. intros a _.
  rewrite <- !sum_to_scal. rewrite <- sum_to_plus. rewrite <- sum_to_scal. apply sum_to_ext. intros b _.
  rewrite Rmult_assoc, F. rewrite !plus_IZR, !minus_IZR, <- !INR_IZR_INZ, !mult_INR. unfold Rdiv.
  match goal with |- A * (/ 2 * (cos ?x + ?s * cos ?y)) = A * / 2 * (cos ?x' + ?s * cos ?y') => replace x' with x by ring; replace y' with y by ring end. ring.
Qed.
Lemma power_wave area s t : 0 < area -> plus_at s t && minus_at s t = false ->
  power p area s t = Fin (if plus_at s t || minus_at s t then (A / 2 * (INR r * INR c)) ^ 2 / area else 0).
Proof.
  intros Ha X. unfold power. rewrite (fourier_wave cos false s t), (fourier_wave sin true s t).
  - cbn [fmul fadd fdiv]. assert (Rn : Reqb area 0 = false) by (unfold Reqb; destruct (Req_EM_T area 0); [lra|reflexivity]). rewrite Rn. f_equal.
    pose proof (sin2_cos2 phi) as S. unfold Rsqr in S. rewrite Rminus_0_r. replace (cos (phi - PI / 2)) with (sin phi) by (rewrite cos_minus, cos_PI2, sin_PI2; ring).
    destruct (plus_at s t), (minus_at s t); try discriminate X; cbn [orb peak]; unfold peak.
    + replace ((A / 2 * (INR r * INR c)) ^ 2 / area) with ((A / 2 * (INR r * INR c)) ^ 2 * (sin phi * sin phi + cos phi * cos phi) / area) by (rewrite S; unfold Rdiv; ring). unfold Rdiv. ring.
    + replace ((A / 2 * (INR r * INR c)) ^ 2 / area) with ((A / 2 * (INR r * INR c)) ^ 2 * (sin phi * sin phi + cos phi * cos phi) / area) by (rewrite S; unfold Rdiv; ring). unfold Rdiv. ring.
    + unfold Rdiv. ring.
  - intros x y. replace (x + y - PI / 2) with (- (PI / 2 - (x + y))) by ring. replace (x - y - PI / 2) with (- (PI / 2 - (x - y))) by ring.
    rewrite !cos_neg, !cos_shift, sin_plus, sin_minus. field.
  - intros x y. rewrite !Rminus_0_r, cos_plus, cos_minus. field.
Qed.
End Wave.

(** ** The first of the largest *)
Lemma argmax_stays f K : forall l best, f best = Fin K -> (forall x, In x l -> exists y, f x = Fin y /\ y <= K) -> argmax f best l = best.
Proof.
  induction l as [|q l IH]; intros best E H; [reflexivity|]. cbn [argmax]. rewrite E. cbn [is_nan]. destruct (H q (or_introl eq_refl)) as (y & Ey & Ly).
  rewrite Ey. cbn [is_nan orb fltb]. assert (F : Rltb K y = false) by (apply Rltb_false; lra). rewrite F. apply IH; [exact E|]. intros x I. apply H. right. exact I.
Qed.
Lemma argmax_first f K x : 0 < K -> forall l1 l2 best, f best = Fin 0 -> (forall y, In y l1 -> f y = Fin 0) -> f x = Fin K ->
  (forall q, In q l2 -> exists y, f q = Fin y /\ y <= K) -> argmax f best (l1 ++ x :: l2) = x.
Proof.
  intros HK. induction l1 as [|q l1 IH]; intros l2 best Eb H1 Ex H2; cbn [argmax app].
  - rewrite Eb, Ex. cbn [is_nan orb fltb]. assert (F : Rltb 0 K = true) by (apply Rltb_true; lra). rewrite F. apply (argmax_stays f K); assumption.
  - rewrite Eb, (H1 q (or_introl eq_refl)). cbn [is_nan orb fltb]. assert (F : Rltb 0 0 = false) by (apply Rltb_false; lra). rewrite F. apply IH; auto. intros y I. apply H1. right. exact I.
Qed.
Lemma points_split r c u v : (u < r)%nat -> (v < c)%nat -> exists l1 l2, points r c = (l1 ++ (u, v) :: l2)%list /\
  forall s t, In (s, t) l1 -> (s < u)%nat \/ (s = u /\ (t < v)%nat).
Proof.
  intros Hu Hv. exists (points u c ++ map (fun j => (u, j)) (seq 0 v))%list, (map (fun j => (u, j)) (seq (S v) (c - S v)) ++ list_prod (seq (S u) (r - S u)) (seq 0 c))%list.
  split.
  - unfold points. replace r with (u + S (r - S u))%nat at 1 by lia. rewrite seq_app. cbn [seq Nat.add]. rewrite list_prod_app. cbn [list_prod].
    rewrite <- !app_assoc. f_equal. replace c with (v + S (c - S v))%nat at 1 by lia. rewrite seq_app, map_app. cbn [seq Nat.add map]. rewrite <- app_assoc. reflexivity.
  - intros s t I. apply in_app_or in I. destruct I as [I|I].
    + apply in_points in I. lia.
    + apply in_map_iff in I. destruct I as (j & E & I). injection E as <- <-. apply in_seq in I. right. lia.
Qed.
Lemma divides_small n k : (0 < k)%Z -> (k < Z.of_nat n)%Z -> divides n k = false.
Proof. intros H1 H2. unfold divides. rewrite Z.mod_small by lia. apply Z.eqb_neq. lia. Qed.
Lemma divides_minus n a b : (a < n)%nat -> (b < n)%nat -> divides n (Z.of_nat a - Z.of_nat b) = Nat.eqb a b.
Proof.
  intros Ha Hb. unfold divides. destruct (Nat.eqb_spec a b) as [->|Ne]; [rewrite Z.sub_diag; reflexivity|].
  apply Z.eqb_neq. intros E. apply Z.mod_divide in E; [|lia]. destruct E as (k & E). assert (k = 0 \/ k >= 1 \/ k <= -1)%Z by lia. nia.
Qed.

Lemma wave_largest p A phi u v area : is_wave p A phi u v -> A <> 0 -> 0 < area -> (u < nrows p)%nat -> (v < ncols p)%nat ->
  (0 < 2 * u < nrows p)%nat \/ (u = 0 /\ 0 < 2 * v < ncols p)%nat ->
  exists q l, points (nrows p) (ncols p) = q :: l /\ argmax (fun st => power p area (fst st) (snd st)) q l = (u, v).
Proof.
  intros W Ha Har Hu Hv Half. set (r := nrows p) in *. set (c := ncols p) in *.
  assert (X : forall s t, (s < r)%nat -> (t < c)%nat -> minus_at p u v s t = true -> s = u /\ t = v).
  { intros s t Hs Ht M. unfold minus_at, both_divide in M. apply andb_true_iff in M. destruct M as [M1 M2]. fold r c in M1, M2.
    rewrite divides_minus in M1, M2 by assumption. apply Nat.eqb_eq in M1, M2. auto. }
  assert (Y : forall s t, (s < u)%nat \/ (s = u /\ (t <= v)%nat) -> plus_at p u v s t = false).
  { intros s t Hst. unfold plus_at, both_divide. fold r c. destruct Half as [Half|[U0 Half]].
    - rewrite (divides_small r) by lia. reflexivity.
    - rewrite (divides_small c) by lia. apply andb_false_r. }
  assert (P : forall s t, (s < r)%nat -> (t < c)%nat -> power p area s t = Fin (if plus_at p u v s t || minus_at p u v s t then (A / 2 * (INR r * INR c)) ^ 2 / area else 0)).
  { intros s t Hs Ht. apply (power_wave p A phi u v); try assumption; try (fold r c; lia). destruct (minus_at p u v s t) eqn:M; [|apply andb_false_r].
    destruct (X s t Hs Ht M) as [-> ->]. rewrite Y by lia. reflexivity. }
  set (K := (A / 2 * (INR r * INR c)) ^ 2 / area) in *.
  assert (HK : 0 < K).
  { unfold K. apply Rdiv_lt_0_compat; [|exact Har]. assert (0 < INR r) by (apply lt_0_INR; lia). assert (0 < INR c) by (apply lt_0_INR; lia).
    rewrite <- Rsqr_pow2. apply Rsqr_pos_lt. apply Rmult_integral_contrapositive_currified; [lra|]. apply Rmult_integral_contrapositive_currified; lra. }
  assert (Puv : power p area u v = Fin K).
  { rewrite P by assumption. assert (M : minus_at p u v u v = true) by (unfold minus_at, both_divide; fold r c; rewrite !divides_minus, !Nat.eqb_refl by assumption; reflexivity).
    rewrite M, orb_true_r. reflexivity. }
  destruct (points_split r c u v Hu Hv) as (l1 & l2 & E & B).
  assert (Z : forall st, In st l1 -> power p area (fst st) (snd st) = Fin 0).
  { intros [s t] I. specialize (B s t I). cbn [fst snd]. assert (J : In (s, t) (points r c)) by (rewrite E; apply in_or_app; left; exact I). apply in_points in J.
    rewrite P by tauto. rewrite Y by lia. destruct (minus_at p u v s t) eqn:M; [|reflexivity]. destruct (X s t) as [-> ->]; try tauto. lia. }
  assert (Z2 : forall st, In st l2 -> exists y, power p area (fst st) (snd st) = Fin y /\ y <= K).
  { intros [s t] I. cbn [fst snd]. assert (J : In (s, t) (points r c)) by (rewrite E; apply in_or_app; right; right; exact I). apply in_points in J.
    rewrite P by tauto. eexists. split; [reflexivity|]. destruct (_ || _); lra. }
  destruct l1 as [|q l1].
  - exists (u, v), l2. split; [exact E|]. apply (argmax_stays _ K); [exact Puv|exact Z2].
  - exists q, (l1 ++ (u, v) :: l2)%list. split; [exact E|]. apply (argmax_first _ K); try assumption; [apply Z; left; reflexivity|intros y I; apply Z; right; exact I].
Qed.
