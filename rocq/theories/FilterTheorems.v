(** Random surfaces made by a filter: C63, C64, the filter part of C65, and C101. *)
From Coq Require Import Reals List Bool Arith Lia Lra ClassicalEpsilon.
From Verif Require Import Py SurfaceModel SurfaceProofs ConvModel ConvSpec ConvProofs FilterModel FilterSpec FilterProofs.
Import ListNotations.
Local Open Scope R_scope.

(** ** C63: the autocorrelation of a filter *)
(** Both estimates are the autocorrelation of the filter at all lags in its shape. *)
Theorem c63_estimates : forall a,
  same_shape (acf_estimate a) a /\ same_shape (acf_estimate_fft a) a /\
  forall p q, (p < rows a)%nat -> (q < cols a)%nat ->
    at_ (acf_estimate a) p q = autocorrelation a p q /\ at_ (acf_estimate_fft a) p q = autocorrelation a p q.
Proof.
  intro a. split; [split; reflexivity|]. split; [split; reflexivity|]. intros p q P Q. split; [apply estimate_direct|now apply estimate_fft].
Qed.
Print Assumptions c63_estimates.
Example c63_estimates_case : autocorrelation (Grid 1 3 (fun _ j => INR j)) 0 1 = 2.
Proof. unfold autocorrelation, total2. cbn -[INR]. rewrite !S_INR. cbn [INR]. ring. Qed.

(** At zero lag it is the sum of squares, and no other lag is larger in magnitude. *)
Theorem c63_zero_lag : forall a,
  (forall p q, (p < rows a)%nat -> (q < cols a)%nat -> Rabs (at_ (acf_estimate_fft a) p q) <= at_ (acf_estimate_fft a) 0 0) /\
  ((0 < rows a)%nat -> (0 < cols a)%nat -> at_ (acf_estimate_fft a) 0 0 = total2 (rows a) (cols a) (fun k l => at_ a k l ^ 2)).
Proof.
  intro a. split.
  - intros p q P Q. rewrite !estimate_fft by lia. apply autocorrelation_bound.
  - intros. rewrite estimate_fft by lia. apply autocorrelation_zero.
Qed.
Print Assumptions c63_zero_lag.

(** The mirrored filter: one middle row, each other row on both sides of it. *)
Theorem c63_mirror : forall a, (0 < rows a)%nat ->
  cols (mirror a) = cols a /\ symmetric_rows (rows a) (mirror a) /\
  forall i j, (i < rows a)%nat -> at_ (mirror a) (rows a - 1 + i) j = at_ a i j.
Proof.
  intros a R0. split; [reflexivity|]. split; [split; [reflexivity|]|].
  - intros i j I. cbn [mirror at_]. destruct (Nat.leb_spec (rows a - 1) (2 * rows a - 2 - i)), (Nat.leb_spec (rows a - 1) i); try (f_equal; lia); lia.
  - intros i j I. cbn [mirror at_]. rewrite (proj2 (Nat.leb_le _ _)) by lia. f_equal. lia.
Qed.
Print Assumptions c63_mirror.
Example c63_mirror_case : map (fun i => at_ (mirror (Grid 3 1 (fun i _ => INR i))) i 0) (seq 0 5) = [INR 2; INR 1; INR 0; INR 1; INR 2].
Proof. reflexivity. Qed.

(** The filter returned, for every minimiser: its shape, and its symmetry if that was asked for. *)
Theorem c63_result_shape : forall minimise a spacing n m symmetric, (0 < n)%nat ->
  let f := linear_transform minimise a spacing n m symmetric in
  cols f = m /\ if symmetric : bool then symmetric_rows n f else rows f = n.
Proof.
  intros minimise a s n m sym N f. unfold f, linear_transform. destruct sym; cbn [cols rows reshape mirror]; [|now split]. split; [reflexivity|].
  match goal with |- symmetric_rows n (mirror ?b) => exact (proj1 (proj2 (c63_mirror b N))) end.
Qed.
Print Assumptions c63_result_shape.

(** The target of a function: the function at the multiples of the grid spacing, [x] along the columns. *)
Theorem c63_target : forall f spacing n m,
  let t := target_array (FunAcf f) spacing n m in
  rows t = n /\ cols t = m /\ forall i j, at_ t i j = f (spacing * INR j) (spacing * INR i).
Proof. now intros. Qed.
Print Assumptions c63_target.

(** The target of an array or surface is the transpose of the target of the function with the same values: [x] goes
    along the rows. So it does not even have the shape of the filter if that is not square. *)
Theorem c63_target_array_refuted : forall f spacing n m,
  let t := target_array (FunAcf f) spacing n m in
  let t' := target_array (SplineAcf f) spacing n m in
  (rows t' = cols t /\ cols t' = rows t) /\
  (forall i j, at_ t' i j = at_ t j i) /\ (n <> m -> ~ same_shape t' (Grid n m (fun _ _ => 0))).
Proof. intros f s n m t t'. split; [now split|]. split; [reflexivity|]. intros NM [E _]. cbn in E. congruence. Qed.
Print Assumptions c63_target_array_refuted.

(** The first guess has the power of the target. *)
Theorem c63_start : forall f spacing n m, (0 < n)%nat -> (0 < m)%nat -> 0 < f 0 0 ->
  autocorrelation (initial_guess (target_array (FunAcf f) spacing n m)) 0 0 = f 0 0.
Proof.
  intros f s n m N M F. rewrite guess_power; cbn [target_array acf_call rows cols at_ INR]; rewrite ?Rmult_0_r; try assumption. reflexivity.
Qed.
Print Assumptions c63_start.
(** A symmetric fit starts between a quarter and a half of the power of the target, one that isn't at the power of the
    target: the filters of a minimiser that returns its start. *)
Theorem c63_start_fit : forall f spacing n m, (0 < n)%nat -> (0 < m)%nat -> 0 < f 0 0 ->
  let start symmetric := linear_transform (fun _ _ x => x) (FunAcf f) spacing n m symmetric in
  autocorrelation (start false) 0 0 = f 0 0 /\ f 0 0 / 4 <= autocorrelation (start true) 0 0 <= f 0 0 / 2.
Proof.
  intros f s n m N M F start. pose proof (c63_start f s n m N M F) as P. set (g := initial_guess (target_array (FunAcf f) s n m)) in *.
  split.
  - rewrite <- P. apply autocorrelation_ext; [reflexivity|reflexivity|]. intros i j I J. apply (reshape_flatten g i j); assumption.
  - unfold start, linear_transform. change (rows (target_array (FunAcf f) s n m)) with n. fold g. cbv zeta.
    set (h := reshape n m (map (fun x => x / 2) (flatten g))).
    assert (H : forall i j, (i < n)%nat -> (j < m)%nat -> at_ h i j = at_ g i j / 2).
    { intros i j I J. cbn [h reshape at_]. replace 0 with (0 / 2) at 1 by field. rewrite (map_nth (fun x => x / 2)). f_equal. apply (reshape_flatten g i j); assumption. }
    assert (PG : total2 n m (fun i j => at_ h i j ^ 2) = f 0 0 / 4).
    { rewrite <- P, autocorrelation_zero. change (rows g) with n. change (cols g) with m. transitivity (/ 4 * total2 n m (fun k l => at_ g k l ^ 2)); [|field].
      rewrite <- total2_scal. apply total2_ext. intros i j I J. rewrite H by assumption. field. }
    rewrite autocorrelation_zero. change (rows (mirror h)) with (2 * n - 1)%nat. change (cols (mirror h)) with m.
    replace (2 * n - 1)%nat with ((n - 1) + n)%nat by lia. unfold total2 in *. rewrite total_split.
    assert (E2 : total n (fun i => total m (fun l => at_ (mirror h) (n - 1 + i) l ^ 2)) = f 0 0 / 4).
    { rewrite <- PG. change (total2 n m (fun i l => at_ (mirror h) (n - 1 + i) l ^ 2) = total2 n m (fun i j => at_ h i j ^ 2)). apply total2_ext. intros i j I J.
      f_equal. exact (proj2 (proj2 (c63_mirror h N)) i j I). }
    rewrite E2. set (r := fun i => total m (fun j => at_ h i j ^ 2)) in *.
    assert (R0 : forall i, 0 <= r i) by (intro i; apply total_nonneg; intros; apply pow2_ge_0).
    assert (E1 : total (n - 1) (fun i => total m (fun l => at_ (mirror h) i l ^ 2)) = total (n - 1) (fun i => r (i + 1)%nat)).
    { rewrite (total_back (n - 1) (fun i => r (i + 1)%nat)). change (total2 (n - 1) m (fun i l => at_ (mirror h) i l ^ 2) = total2 (n - 1) m (fun i j => at_ h (n - 1 - 1 - i + 1) j ^ 2)).
      apply total2_ext. intros i j I J. cbn [mirror at_]. change (rows h) with n. destruct (Nat.leb_spec (n - 1) i); [lia|]. do 2 f_equal. lia. }
    rewrite E1. assert (L := total_moved n 1 r (fun i _ => R0 i)). assert (L0 : 0 <= total (n - 1) (fun i => r (i + 1)%nat)) by (apply total_nonneg; intros; apply R0). rewrite PG in L. lra.
Qed.
Print Assumptions c63_start_fit.
(** The exponential autocorrelation is the square of [sigma] at no distance, a tenth of it (to two digits) at the given
    lengths, and is smaller further away. *)
Theorem c63_exponential : forall sigma bx by', 0 < bx -> 0 < by' ->
  exp_acf sigma bx by' 0 0 = sigma ^ 2 /\ exp_acf sigma bx by' bx 0 = sigma ^ 2 * exp (-2.3) /\ exp_acf sigma bx by' 0 by' = sigma ^ 2 * exp (-2.3) /\
  (forall x y x' y', sigma <> 0 -> x ^ 2 <= x' ^ 2 -> y ^ 2 <= y' ^ 2 -> x ^ 2 + y ^ 2 < x' ^ 2 + y' ^ 2 -> exp_acf sigma bx by' x' y' < exp_acf sigma bx by' x y).
Proof.
  intros g b c B C. unfold exp_acf. split; [|split; [|split]].
  - replace (0 / b) with 0 by (field; lra). replace (0 / c) with 0 by (field; lra). replace (0 ^ 2 + 0 ^ 2) with 0 by ring. rewrite sqrt_0, Rmult_0_r, exp_0. ring.
  - replace (b / b) with 1 by (field; lra). replace (0 / c) with 0 by (field; lra). replace (1 ^ 2 + 0 ^ 2) with 1 by ring. rewrite sqrt_1, Rmult_1_r. reflexivity.
  - replace (c / c) with 1 by (field; lra). replace (0 / b) with 0 by (field; lra). replace (0 ^ 2 + 1 ^ 2) with 1 by ring. rewrite sqrt_1, Rmult_1_r. reflexivity.
  - intros x y x' y' G X Y S. apply Rmult_lt_compat_l; [rewrite <- Rsqr_pow2; apply Rsqr_pos_lt; exact G|]. apply exp_increasing.
    assert (Q : forall u v, (u / v) ^ 2 = u ^ 2 * (/ v) ^ 2) by (intros; unfold Rdiv; ring). rewrite !Q.
    assert (IB : 0 < (/ b) ^ 2) by (apply pow_lt; apply Rinv_0_lt_compat; exact B). assert (IC : 0 < (/ c) ^ 2) by (apply pow_lt; apply Rinv_0_lt_compat; exact C).
    pose proof (pow2_ge_0 x). pose proof (pow2_ge_0 y). pose proof (pow2_ge_0 x'). pose proof (pow2_ge_0 y').
    assert (L : sqrt (x ^ 2 * (/ b) ^ 2 + y ^ 2 * (/ c) ^ 2) < sqrt (x' ^ 2 * (/ b) ^ 2 + y' ^ 2 * (/ c) ^ 2)); [|lra].
    apply sqrt_lt_1.
    + apply Rplus_le_le_0_compat; apply Rmult_le_pos; lra.
    + apply Rplus_le_le_0_compat; apply Rmult_le_pos; lra.
    + assert (x ^ 2 < x' ^ 2 \/ y ^ 2 < y' ^ 2) as [D|D] by (destruct X; [left; assumption|right; lra]).
      * apply Rplus_lt_le_compat; [apply Rmult_lt_compat_r|apply Rmult_le_compat_r]; lra.
      * apply Rplus_le_lt_compat; [apply Rmult_le_compat_r|apply Rmult_lt_compat_r]; lra.
Qed.
Print Assumptions c63_exponential.
Example c63_start_case : 0 < exp_acf 2 0.1 0.2 0 0.
Proof. unfold exp_acf. apply Rmult_lt_0_compat; [lra|apply exp_pos]. Qed.

(** If some filter (some symmetric filter, for a symmetric fit) has the target as its autocorrelation, then a minimiser
    which finds a zero of the objective makes a filter with exactly the wanted autocorrelation. *)
Theorem c63_perfect_fit : forall minimise f spacing n m symmetric, finds_zero minimise -> (0 < n)%nat ->
  (exists b, cols b = m /\ (if symmetric : bool then symmetric_rows n b else rows b = n) /\
     forall p q, (p < n)%nat -> (q < m)%nat -> autocorrelation b p q = f (spacing * INR q) (spacing * INR p)) ->
  forall p q, (p < n)%nat -> (q < m)%nat ->
    autocorrelation (linear_transform minimise (FunAcf f) spacing n m symmetric) p q = f (spacing * INR q) (spacing * INR p).
Proof.
  intros minimise f s n m sym Z N (b & Cb & Rb & B). unfold linear_transform. set (t := target_array (FunAcf f) s n m).
  change (rows t) with n. change (cols t) with m.
  assert (T : forall v, same_shape t (reshape n m v)) by (now split).
  destruct sym.
  - set (v := minimise _ _ _). destruct Rb as [Rb Sb].
    assert (V : min_fun_symmetric t (reshape n m v) = 0).
    { apply (Z (fun v => min_fun_symmetric t (reshape n m v))). set (h := Grid n m (fun i j => at_ b (n - 1 + i) j)). exists (flatten h). rewrite min_sym_misfit by apply T.
      apply misfit_zero. intros p q P Q. cbn [t target_array acf_call at_ rows cols] in *. rewrite <- B by assumption. apply autocorrelation_ext.
      - cbn [mirror rows reshape]. lia.
      - now rewrite Cb.
      - intros i j I J. cbn [mirror rows cols reshape] in I, J. cbn [mirror at_ reshape rows]. pose proof (reshape_flatten h) as RF. cbn [h rows cols reshape at_] in RF.
        destruct (Nat.leb_spec (n - 1) i).
        + rewrite RF by lia. f_equal. lia.
        + rewrite RF by lia. rewrite <- (Sb i j) by lia. f_equal. lia. }
    rewrite min_sym_misfit in V by apply T. intros p q P Q. exact (proj1 (misfit_zero _ _) V p q P Q).
  - set (v := minimise _ _ _).
    assert (V : min_fun t (reshape n m v) = 0).
    { apply (Z (fun v => min_fun t (reshape n m v))). exists (flatten b). rewrite min_fun_misfit by apply T. apply misfit_zero. intros p q P Q. cbn [t target_array acf_call at_ rows cols] in *.
      rewrite <- B by assumption. apply autocorrelation_ext; [now rewrite Rb|now rewrite Cb|]. rewrite <- Rb, <- Cb. intros i j I J. cbn [reshape rows cols] in I, J.
      now apply reshape_flatten. }
    rewrite min_fun_misfit in V by apply T. intros p q P Q. exact (proj1 (misfit_zero _ _) V p q P Q).
Qed.
Print Assumptions c63_perfect_fit.
Example c63_perfect_fit_case : (exists minimise, finds_zero minimise) /\
  (exists b, cols b = 2%nat /\ symmetric_rows 2 b /\
     forall p q, (p < 2)%nat -> (q < 2)%nat -> autocorrelation b p q = (fun x y => (2 - x) * (3 - y)) (1 * INR q) (1 * INR p)).
Proof.
  split.
  - exists (fun obj _ _ => match excluded_middle_informative (exists v, obj v = 0) with
                           | left H => proj1_sig (constructive_indefinite_description _ H) | right _ => [] end).
    intros obj grad x0 H. destruct (excluded_middle_informative _) as [K|K]; [|contradiction]. apply (proj2_sig (constructive_indefinite_description _ K)).
  - exists (Grid 3 2 (fun _ _ => 1)). split; [reflexivity|]. split; [now split|]. intros p q P Q. unfold autocorrelation, total2.
    destruct p as [|[|p]]; [| |lia]; destruct q as [|[|q]]; try lia; cbn; lra.
Qed.

(** The FIR method uses the square root of the spectrum, not its inverse transform, as the filter. For an uncorrelated
    target all coefficients are one, and neighbours in the surface are strongly correlated. *)
Theorem c63_fir_refuted : forall spacing n m, (0 < n)%nat -> (1 < m)%nat -> 0 < spacing ->
  let f x y := if Reqb x 0 && Reqb y 0 then 1 else 0 in
  (forall i j, (i < n)%nat -> (j < m)%nat -> fir_filter (FunAcf f) spacing n m i j = (1, 0)) /\
  autocorrelation (Grid n m (fun i j => fst (fir_filter (FunAcf f) spacing n m i j))) 0 1 = INR n * INR (m - 1) /\
  INR n * INR (m - 1) <> f (spacing * INR 1) (spacing * INR 0).
Proof.
  intros s n m N M S f.
  assert (F : forall i j, fir_filter (FunAcf f) s n m i j = (1, 0)).
  { intros i j. unfold fir_filter. cbn [target_array acf_call rows cols at_].
    assert (E : fft2 n m (fun k l => creal (f (s * INR l) (s * INR k))) i j = c1).
    { unfold fft2.
      transitivity (csum n (fun a => if Nat.eqb a 0 then c1 else c0)); [|now rewrite (csum_single n 0 (fun _ => c1))].
      apply csum_ext. intros a A.
      transitivity (csum m (fun b => if Nat.eqb b 0 then (if Nat.eqb a 0 then c1 else c0) else c0)); [|now rewrite (csum_single m 0 (fun _ => if Nat.eqb a 0 then c1 else c0)) by lia].
      apply csum_ext. intros b B. unfold f.
      assert (Z : forall k, Reqb (s * INR k) 0 = Nat.eqb k 0).
      { intro k. destruct (Nat.eqb_spec k 0) as [->|K].
        - apply Reqb_true. cbn. ring.
        - apply Reqb_false. assert (0 < INR k) by (apply lt_0_INR; lia). nra. }
      rewrite !Z. destruct (Nat.eqb_spec b 0) as [->|B0]; cbn [andb].
      - destruct (Nat.eqb_spec a 0) as [->|A0].
        + rewrite !Nat.mul_0_r. cbn [Z.of_nat]. rewrite !root_0. unfold creal, cmul, c1. cbn [fst snd]. f_equal; ring.
        + unfold creal, cmul, c0. cbn [fst snd]. f_equal; ring.
      - unfold creal, cmul, c0. cbn [fst snd]. f_equal; ring. }
    rewrite E. unfold csqrt, c1. cbn [fst snd]. replace (1 ^ 2 + 0 ^ 2) with 1 by ring. rewrite sqrt_1. replace ((1 + 1) / 2) with 1 by field. replace ((1 - 1) / 2) with 0 by field.
    rewrite sqrt_1, sqrt_0. destruct (Rltb 0 0); f_equal; ring. }
  split; [now intros|]. split.
  - unfold autocorrelation. cbn [rows cols at_]. rewrite (total2_ext _ _ _ (fun _ _ => 1)) by (intros; rewrite !F; cbn; ring).
    rewrite Nat.sub_0_r. unfold total2.
    assert (O : forall k, total k (fun _ => 1) = INR k) by (induction k as [|k IH]; [reflexivity|]; cbn [total]; rewrite IH, S_INR; reflexivity).
    rewrite O. rewrite (total_ext n _ (fun _ => INR (m - 1) * 1)) by (intros; ring). rewrite total_scal, O. ring.
  - unfold f. rewrite (proj2 (Reqb_false (s * INR 1) 0)) by (cbn; lra). cbn [andb].
    assert (0 < INR n) by now apply lt_0_INR. assert (0 < INR (m - 1)) by (apply lt_0_INR; lia). nra.
Qed.
Print Assumptions c63_fir_refuted.

(** ** C64: the gradient *)
Theorem c64_gradient : forall t a i j, same_shape t a -> (i < rows a)%nat -> (j < cols a)%nat ->
  same_shape (get_grad t a) a /\
  derivable_pt_lim (fun x => min_fun t (set_entry a i j x)) (at_ a i j) (at_ (get_grad t a) i j).
Proof.
  intros t a i j S I J. split; [split; reflexivity|]. apply (deriv_ext (fun x => misfit t (set_entry a i j x))).
  - intro y. symmetry. apply min_fun_misfit. exact S.
  - now apply gradient.
Qed.
Print Assumptions c64_gradient.
Theorem c64_gradient_symmetric : forall t a i j, same_shape t a -> (i < rows a)%nat -> (j < cols a)%nat ->
  same_shape (get_grad_symmetric t a) a /\
  derivable_pt_lim (fun x => min_fun_symmetric t (set_entry a i j x)) (at_ a i j) (at_ (get_grad_symmetric t a) i j).
Proof.
  intros t a i j S I J. split; [split; reflexivity|]. apply (deriv_ext (fun x => misfit t (mirror (set_entry a i j x)))).
  - intro y. symmetry. apply min_sym_misfit. exact S.
  - now apply gradient_symmetric.
Qed.
Print Assumptions c64_gradient_symmetric.
(** The objectives are the squared distance of the autocorrelation of the filter (of the mirrored filter) from the target. *)
Theorem c64_objective : forall t a, same_shape t a ->
  min_fun t a = misfit t a /\ min_fun_symmetric t a = misfit t (mirror a).
Proof. intros t a S. split; [now apply min_fun_misfit|now apply min_sym_misfit]. Qed.
Print Assumptions c64_objective.
Example c64_case : let a := Grid 2 3 (fun i j => INR (i + j)) in same_shape (Grid 2 3 (fun _ _ => 1)) a /\ (1 < rows a)%nat /\ (2 < cols a)%nat.
Proof. cbn. repeat split; lia. Qed.

(** ** C65: realisations of a filter *)
Theorem c65_shape : forall f n m periodic noise, (0 < rows f)%nat -> (0 < cols f)%nat -> (0 < n)%nat -> (0 < m)%nat ->
  rows (discretise f n m periodic noise) = n /\ cols (discretise f n m periodic noise) = m.
Proof. intros f n m per w R0 C0 N M. destruct per; cbn; lia. Qed.
Print Assumptions c65_shape.
(** Each height is the sum of the noise in a window of the shape of the filter, with the coefficients as weights. *)
Theorem c65_window : forall f n m noise i j, (0 < rows f)%nat -> (0 < cols f)%nat -> (i < n)%nat -> (j < m)%nat ->
  at_ (discretise f n m false noise) i j =
  total2 (rows f) (cols f) (fun k l => at_ f k l * noise (i + (rows f - 1) - k)%nat (j + (cols f - 1) - l)%nat).
Proof. exact discretise_window. Qed.
Print Assumptions c65_window.
(** The periodic realisation is the same with the noise continued periodically; shifting the noise cyclically shifts
    the surface cyclically, so that there is no seam. *)
Theorem c65_periodic : forall f n m noise i j, (0 < rows f)%nat -> (0 < cols f)%nat -> (i < n)%nat -> (j < m)%nat ->
  at_ (discretise f n m true noise) i j =
  at_ (discretise f n m false (fun i j => noise (Nat.modulo i n) (Nat.modulo j m))) i j.
Proof. intros. now rewrite discretise_wrap, discretise_window. Qed.
Print Assumptions c65_periodic.
Theorem c65_no_seam : forall f n m noise s t i j, (0 < rows f)%nat -> (0 < cols f)%nat -> (i < n)%nat -> (j < m)%nat ->
  at_ (discretise f n m true (fun a b => noise (Nat.modulo (a + s) n) (Nat.modulo (b + t) m))) i j =
  at_ (discretise f n m true noise) (Nat.modulo (i + s) n) (Nat.modulo (j + t) m).
Proof.
  intros f n m w s t i j R0 C0 I J. rewrite !discretise_wrap by (try apply Nat.mod_upper_bound; lia).
  apply total2_ext. intros k l K L. f_equal.
  assert (H : forall n i s k r, (i < n)%nat -> (k < r)%nat ->
    Nat.modulo (Nat.modulo (i + (r - 1) - k) n + s) n = Nat.modulo (Nat.modulo (i + s) n + (r - 1) - k) n).
  { clear. intros n i s k r I K. rewrite Nat.add_mod_idemp_l by lia.
    replace (Nat.modulo (i + s) n + (r - 1) - k)%nat with (Nat.modulo (i + s) n + (r - 1 - k))%nat by lia.
    rewrite Nat.add_mod_idemp_l by lia. f_equal. lia. }
  now rewrite !(H _ _ _ _ _ I K), !(H _ _ _ _ _ J L).
Qed.
Print Assumptions c65_no_seam.
Example c65_case : let f := Grid 2 2 (fun i j => INR (1 + i + 2 * j)) in (0 < rows f)%nat /\ (0 < cols f)%nat /\
  at_ (discretise f 3 3 true (fun i j => INR (i + j))) 2 2 = 26.
Proof. intro f. split; [cbn; lia|]. split; [cbn; lia|]. rewrite discretise_wrap by (cbn; lia). unfold total2. cbn -[INR]. rewrite ?S_INR. cbn [INR]. lra. Qed.

(** Over white noise the mean product of two heights is the autocorrelation of the filter at their distance. *)
Theorem c65_autocorrelation : forall E f n m i j p q, mean_value E -> white E (n + rows f - 1) (m + cols f - 1) ->
  (0 < rows f)%nat -> (0 < cols f)%nat -> (i + p < n)%nat -> (j + q < m)%nat ->
  E (fun w => at_ (discretise f n m false w) i j * at_ (discretise f n m false w) (i + p) (j + q)) = autocorrelation f p q.
Proof. intros. now apply realised. Qed.
Print Assumptions c65_autocorrelation.
(** With a perfectly fitted filter the surface has the wanted autocorrelation at all lags in the shape of the filter. *)
Theorem c65_target_reached : forall minimise g spacing r c symmetric E n m i j p q, finds_zero minimise -> (0 < r)%nat -> (0 < c)%nat ->
  (exists b, cols b = c /\ (if symmetric : bool then symmetric_rows r b else rows b = r) /\
     forall p q, (p < r)%nat -> (q < c)%nat -> autocorrelation b p q = g (spacing * INR q) (spacing * INR p)) ->
  let f := linear_transform minimise (FunAcf g) spacing r c symmetric in
  mean_value E -> white E (n + rows f - 1) (m + cols f - 1) -> (p < r)%nat -> (q < c)%nat -> (i + p < n)%nat -> (j + q < m)%nat ->
  E (fun w => at_ (discretise f n m false w) i j * at_ (discretise f n m false w) (i + p) (j + q)) = g (spacing * INR q) (spacing * INR p).
Proof.
  intros minimise g s r c sym E n m i j p q Z R0 C0 B f HE W P Q I J.
  destruct (c63_result_shape minimise (FunAcf g) s r c sym R0) as [Cf Rf].
  rewrite (realised E HE); [now apply c63_perfect_fit| | |assumption|assumption|assumption]; unfold f.
  - destruct sym; [destruct Rf as [-> _]; lia|rewrite Rf; assumption].
  - rewrite Cf. exact C0.
Qed.
Print Assumptions c65_target_reached.

(** A mean value with white noise: the sum over the noises with a single one. *)
Example c65_white_exists : forall r c, exists E, mean_value E /\ white E r c.
Proof.
  intros r c. exists (fun f => f (fun _ _ => 0) * (1 - total2 r c (fun _ _ => 1)) + total2 r c (fun a b => f (fun i j => if Nat.eqb i a && Nat.eqb j b then 1 else 0))).
  split; [split; [|split]|].
  - intros f g H. rewrite H. f_equal. apply total2_ext. intros. apply H.
  - intros f g. rewrite total2_add. ring.
  - intros k f. rewrite total2_scal. ring.
  - intros i j k l I J K L. rewrite Rmult_0_l, Rmult_0_l, Rplus_0_l.
    rewrite (total2_ext r c _ (fun a b => (if Nat.eqb a i && Nat.eqb b j then 1 else 0) * (if Nat.eqb k a && Nat.eqb l b then 1 else 0))).
    + rewrite (total2_single r c i j (fun a b => if Nat.eqb k a && Nat.eqb l b then 1 else 0)) by assumption.
      now rewrite (Nat.eqb_sym k i), (Nat.eqb_sym l j).
    + intros a b A B. now rewrite (Nat.eqb_sym i a), (Nat.eqb_sym j b).
Qed.

(** ** C101: the moments asked of the noise *)
Theorem c101_skew : forall alpha skew, 0 < total (List.length alpha) (fun i => nth i alpha 0 ^ 2) ->
  total (List.length alpha) (fun i => nth i alpha 0 ^ 3) <> 0 ->
  sum_skew alpha (noise_skew alpha skew) = skew.
Proof.
  intros al k P Q. unfold sum_skew, noise_skew. rewrite !rsum_total.
  rewrite (total_ext _ (fun i => nth i al 0 ^ 2 * nth i al 0) (fun i => nth i al 0 ^ 3)) by (intros; ring).
  set (s := Rpower _ (3 / 2)). assert (0 < s) by apply exp_pos. field. split; lra.
Qed.
Print Assumptions c101_skew.
(** The kurtosis of the surface: the sum over pairs counts the squares too, and three is added in the end. *)
Theorem c101_kurtosis : forall alpha kurtosis, let q := List.length alpha in
  0 < total q (fun i => nth i alpha 0 ^ 2) ->
  sum_kurtosis alpha (noise_kurtosis alpha kurtosis) =
  kurtosis + 3 * (nth (q - 1) alpha 0 ^ 4 - total (q - 1) (fun i => nth i alpha 0 ^ 4)) / total q (fun i => nth i alpha 0 ^ 2) ^ 2.
Proof.
  intros al k q P. assert (Q : (0 < q)%nat). { destruct q; [cbn in P; lra|lia]. }
  assert (P4 : 0 < total q (fun i => nth i al 0 ^ 4)).
  { assert (N : 0 <= total q (fun i => nth i al 0 ^ 4)) by (apply total_nonneg; intros; replace (nth i al 0 ^ 4) with ((nth i al 0 ^ 2) ^ 2) by ring; apply pow2_ge_0).
    destruct N as [N|N]; [exact N|]. exfalso.
    assert (Z : forall i, (i < q)%nat -> nth i al 0 ^ 4 = 0).
    { apply total_null; [|now symmetry]. intros. replace (nth i al 0 ^ 4) with ((nth i al 0 ^ 2) ^ 2) by ring. apply pow2_ge_0. }
    rewrite (total_ext q _ (fun _ => 0)), total_zero in P; [lra|]. intros i I. specialize (Z i I). nra. }
  unfold sum_kurtosis, noise_kurtosis. cbv zeta beta. fold q. rewrite rsum_total, (rsum_total (q - 1)), (rsum_total q (fun i => (nth i al 0 ^ 2) ^ 2)).
  rewrite (total_ext (q - 1) (fun i => rsum (q - i) (fun d => nth i al 0 ^ 2 * nth (i + d) al 0 ^ 2)) (fun i => total (q - i) (fun d => nth i al 0 ^ 2 * nth (i + d) al 0 ^ 2)))
    by (intros; apply rsum_total).
  rewrite (kurtosis_terms q (fun i => nth i al 0 ^ 2) Q).
  rewrite (total_ext q (fun i => (nth i al 0 ^ 2) ^ 2) (fun i => nth i al 0 ^ 4)) by (intros; ring).
  rewrite (total_ext (q - 1) (fun i => (nth i al 0 ^ 2) ^ 2) (fun i => nth i al 0 ^ 4)) by (intros; ring).
  assert (L : total q (fun i => nth i al 0 ^ 4) = total (q - 1) (fun i => nth i al 0 ^ 4) + nth (q - 1) al 0 ^ 4).
  { replace q with (S (q - 1)) at 1 by lia. reflexivity. }
  set (x := total (q - 1) _) in *. set (y := nth (q - 1) al 0 ^ 4) in *. set (s := total q (fun i => nth i al 0 ^ 2)) in *.
  set (z := total q (fun j => total j _)). set (w := total q (fun i => nth i al 0 ^ 4)) in *. rewrite L.
  assert (w = x + y) by exact L. field. lra.
Qed.
Print Assumptions c101_kurtosis.
(** So the surface neither has the kurtosis asked for, unless the last coefficient happens to balance the others, nor
    has it as excess kurtosis, unless all but the last coefficient are zero. *)
Theorem c101_kurtosis_refuted : forall alpha kurtosis, let q := List.length alpha in
  0 < total q (fun i => nth i alpha 0 ^ 2) ->
  (sum_kurtosis alpha (noise_kurtosis alpha kurtosis) = kurtosis <-> nth (q - 1) alpha 0 ^ 4 = total (q - 1) (fun i => nth i alpha 0 ^ 4)) /\
  (sum_kurtosis alpha (noise_kurtosis alpha kurtosis) = kurtosis + 3 <-> forall i, (i < q - 1)%nat -> nth i alpha 0 = 0).
Proof.
  intros al k q P. rewrite c101_kurtosis by exact P. fold q. set (s := total q (fun i => nth i al 0 ^ 2)) in *. set (x := total (q - 1) _). set (y := nth (q - 1) al 0 ^ 4).
  assert (Q : (0 < q)%nat). { unfold s in P. destruct q; [cbn in P; lra|lia]. }
  assert (S2 : 0 < s ^ 2) by now apply pow_lt. split.
  - split; intro H.
    + assert (Z : 3 * (y - x) / s ^ 2 = 0) by lra. assert (3 * (y - x) = 0); [|lra].
      replace (3 * (y - x)) with (3 * (y - x) / s ^ 2 * s ^ 2) by (field; lra). rewrite Z. ring.
    + rewrite H. field. lra.
  - assert (X0 : 0 <= x). { apply total_nonneg. intros. replace (nth i al 0 ^ 4) with ((nth i al 0 ^ 2) ^ 2) by ring. apply pow2_ge_0. }
    assert (SL : s = total (q - 1) (fun i => nth i al 0 ^ 2) + nth (q - 1) al 0 ^ 2). { unfold s. replace q with (S (q - 1)) at 1 by lia. reflexivity. }
    set (u := total (q - 1) (fun i => nth i al 0 ^ 2)) in *. assert (U0 : 0 <= u) by (apply total_nonneg; intros; apply pow2_ge_0).
    assert (Y : y = (nth (q - 1) al 0 ^ 2) ^ 2) by (unfold y; ring). set (v := nth (q - 1) al 0 ^ 2) in *. assert (V0 : 0 <= v) by apply pow2_ge_0.
    split; intro H.
    + assert (Z : 3 * (y - x) / s ^ 2 = 3) by lra.
      assert (D : y - x = s ^ 2). { assert (3 * (y - x) = 3 * s ^ 2); [|lra]. rewrite <- Z at 2. field. lra. }
      assert (U : u = 0). { rewrite Y, SL in D. nra. }
      intros i I. assert (T := total_null (q - 1) (fun i => nth i al 0 ^ 2) (fun _ _ => pow2_ge_0 _) U i I). cbn beta in T. nra.
    + assert (U : u = 0). { unfold u. rewrite (total_ext _ _ (fun _ => 0)); [apply total_zero|]. intros i I. rewrite H by exact I. ring. }
      assert (X : x = 0). { unfold x. rewrite (total_ext _ _ (fun _ => 0)); [apply total_zero|]. intros i I. rewrite H by exact I. ring. }
      rewrite X, Y, SL, U. assert (0 < v) by lra. field. lra.
Qed.
Print Assumptions c101_kurtosis_refuted.
Example c101_case : let alpha := [1; 2; 1] in 0 < total (List.length alpha) (fun i => nth i alpha 0 ^ 2) /\
  total (List.length alpha) (fun i => nth i alpha 0 ^ 3) <> 0 /\
  nth 2 alpha 0 ^ 4 <> total 2 (fun i => nth i alpha 0 ^ 4) /\ nth 0 alpha 0 <> 0.
Proof. cbn. repeat split; lra. Qed.
