(** Theorems on fractal surfaces (C66, C102). *)
From Coq Require Import Reals List Bool Arith ZArith Lia Lra.
From Verif Require Import Py SurfaceModel SurfaceProofs ConvModel ConvSpec ConvProofs DftProofs FilterProofs PerezSpec PerezProofs FractalModel FractalSpec FractalProofs.
Import ListNotations.
Local Open Scope R_scope.

(** ** C66: the spectrum is conjugate symmetric *)

(** For every array of even size: the result has the same size, is even (magnitudes) or odd (phases) under negation of
    the frequency, keeps the values of the second half, and is zero where a frequency is its own opposite. *)
Theorem c66_symmetric (a : grid) (neg : bool) : Nat.Even (rows a) -> Nat.Even (cols a) -> (0 < rows a)%nat -> (0 < cols a)%nat ->
  let b := conj_sym a neg in
  rows b = rows a /\ cols b = cols a /\ even_centred (if neg then -1 else 1) b /\
  (forall i j, (i < rows a)%nat -> (j < cols a)%nat ->
     (own_opposite (rows a) (cols a) i j = true -> at_ b i j = 0) /\
     (own_opposite (rows a) (cols a) i j = false ->
        (cols a / 2 < j)%nat \/ (j = 0 \/ j = cols a / 2)%nat /\ (i <= rows a / 2)%nat -> at_ b i j = at_ a i j)).
Proof.
  intros [p RP] [q CQ] P0 Q0 b. assert (P : (0 < p)%nat) by lia. assert (Q : (0 < q)%nat) by lia.
  split; [reflexivity|]. split; [reflexivity|]. split; [exact (conj_sym_even a neg p q RP CQ P Q)|].
  intros i j I J. unfold b. rewrite (conj_sym_at a neg p q i j RP CQ P Q) by lia. unfold own_opposite. rewrite RP, CQ, !half_even. split; intro E; rewrite E; [reflexivity|].
  intro H. replace (_ || _) with false; [reflexivity|]. symmetry. apply orb_false_intro.
  - destruct (Nat.ltb_spec 0 j), (Nat.ltb_spec j q); try reflexivity. lia.
  - destruct H as [H|[H H']]; [rewrite (proj2 (Nat.eqb_neq j 0)), (proj2 (Nat.eqb_neq j q)) by lia; cbn [orb]; apply andb_false_r|].
    rewrite (proj2 (Nat.ltb_ge p i)) by lia. reflexivity.
Qed.
Print Assumptions c66_symmetric.

(** The coefficients handed to the inverse transform are conjugate symmetric and the inverse transform is real, so that
    nothing is lost when its imaginary part is dropped: for every even size and every matrix of random numbers. *)
Theorem c66_real (sigma hurst qr d : R) (n m : nat) (random : nat -> nat -> R) :
  Nat.Even n -> Nat.Even m -> (0 < n)%nat -> (0 < m)%nat -> 0 < d ->
  let w := coefficients sigma hurst qr d m n random in
  (forall k l, (k < n)%nat -> (l < m)%nat -> w (minus_freq n k) (minus_freq m l) = (fst (w k l), - snd (w k l))) /\
  (forall i j, (i < n)%nat -> (j < m)%nat -> snd (ifft2 n m w i j) = 0).
Proof.
  intros [p ->] [q ->] P0 Q0 D w. assert (P : (0 < p)%nat) by lia. assert (Q : (0 < q)%nat) by lia. split.
  - intros k l K L. exact (w_conj sigma hurst qr d p q P Q random k l K L).
  - intros i j I J. unfold w. rewrite (z_real sigma hurst qr d p q P Q random i j I J). reflexivity.
Qed.
Print Assumptions c66_real.

(** A case: 4 by 6 points; the value at (1, 4) is copied to (3, 2), with the other sign if asked for. *)
Example c66_case (x : nat -> nat -> R) : let a := Grid 4 6 x in
  at_ (conj_sym a false) 1 4 = x 1%nat 4%nat /\ at_ (conj_sym a false) 3 2 = x 1%nat 4%nat /\
  at_ (conj_sym a true) 3 2 = - x 1%nat 4%nat /\ at_ (conj_sym a true) 2 3 = 0.
Proof. cbn. repeat split; ring. Qed.

(** ** C102: what the generated surface is like *)

Lemma even_size_even s : exists p, even_size s = (2 * p)%nat /\ (s <= even_size s <= s + 1)%nat.
Proof.
  unfold even_size. destruct (Nat.Even_or_Odd s) as [[p E]|[p E]]; subst s.
  - exists p. rewrite Nat.mul_comm, Nat.mod_mul by lia. lia.
  - exists (p + 1)%nat. replace ((2 * p + 1) mod 2)%nat with 1%nat; [lia|]. rewrite Nat.add_comm, Nat.mul_comm, Nat.mod_add by lia. reflexivity.
Qed.

Lemma generated s has_profile return_new s0 s1 d random z : generate s has_profile return_new (Some (s0, s1)) (Some d) random = Ok z ->
  Grid (even_size s1) (even_size s0) (fun i j => fst (ifft2 (even_size s1) (even_size s0)
    (coefficients (sigma_ s) (hurst_ s) (roll_off_ s) d (even_size s0) (even_size s1) random) i j)) = z.
Proof.
  assert (I : forall (x y : grid), Ok x = Ok y -> x = y) by (intros; congruence).
  unfold generate. destruct (_ && _); [discriminate|]. apply I.
Qed.

(** The surface asked for with a shape does not have that shape: odd sizes are rounded up, and rows and columns are
    exchanged. *)
Theorem c102_shape_refuted (sigma hurst qr d : R) (s0 s1 : nat) (s : fractal) (z : grid) (random : nat -> nat -> R) :
  new_fractal sigma hurst qr = Ok s -> generate s false false (Some (s0, s1)) (Some d) random = Ok z ->
  (exists p q, rows z = 2 * p /\ cols z = 2 * q /\ s1 <= rows z <= s1 + 1 /\ s0 <= cols z <= s0 + 1)%nat /\
  ((rows z, cols z) = (s0, s1) <-> s0 = s1 /\ Nat.Even s0).
Proof.
  intros N G. apply generated in G. subst z. cbn [rows cols].
  destruct (even_size_even s0) as (a & A1 & A2). destruct (even_size_even s1) as (b & B1 & B2). split.
  - exists b, a. repeat split; lia.
  - split.
    + intro E. injection E as E1 E2. split; [lia|]. exists b. lia.
    + intros [<- [c C]]. f_equal; lia.
Qed.
Print Assumptions c102_shape_refuted.

(** Nothing is generated without a shape and a spacing, or over an existing profile, or for a Hurst exponent outside [0, 1]. *)
Theorem c102_refused (sigma hurst qr : R) (s : fractal) (has_profile return_new : bool) (shape : option (nat * nat)) (spacing : option R) (random : nat -> nat -> R) :
  (new_fractal sigma hurst qr = Err ValueError <-> ~ 0 <= hurst <= 1) /\
  (generate s has_profile return_new shape spacing random = Err ValueError <->
     (has_profile = true /\ return_new = false) \/ shape = None \/ spacing = None).
Proof.
  split.
  - unfold new_fractal. destruct (Rltb 1 hurst) eqn:A; [apply Rltb_true in A|apply Rltb_false in A; destruct (Rltb hurst 0) eqn:B; [apply Rltb_true in B|apply Rltb_false in B]]; cbn [orb];
      split; intro H; try reflexivity; try discriminate; try lra.
  - unfold generate. destruct has_profile, return_new, shape as [[s0 s1]|], spacing as [d|]; cbn [andb negb]; split; intro H; auto; try discriminate;
      destruct H as [[H1 H2]|[H|H]]; discriminate.
Qed.
Print Assumptions c102_refused.

(** The mean height is zero. *)
Theorem c102_mean (s : fractal) (has_profile return_new : bool) (s0 s1 : nat) (d : R) (random : nat -> nat -> R) (z : grid) :
  (0 < s0)%nat -> (0 < s1)%nat -> 0 < d -> generate s has_profile return_new (Some (s0, s1)) (Some d) random = Ok z -> mean_height z = 0.
Proof.
  intros S0 S1 D G. apply generated in G. subst z.
  destruct (even_size_even s0) as (q & A1 & A2). destruct (even_size_even s1) as (p & B1 & B2). unfold mean_height. cbn [rows cols at_].
  rewrite A1, B1 in *. assert (P : (0 < p)%nat) by lia. assert (Q : (0 < q)%nat) by lia.
  pose proof (z_mean (sigma_ s) (hurst_ s) (roll_off_ s) d p q P Q D random) as Z. unfold total2 in *. cbv beta in Z |- *.
  change (total (2 * p) (fun i => total (2 * q) (fun j => fst (ifft2 (2 * p) (2 * q) (coefficients (sigma_ s) (hurst_ s) (roll_off_ s) d (2 * q) (2 * p) random) i j))) / (INR (2 * p) * INR (2 * q)) = 0).
  rewrite Z. unfold Rdiv. ring.
Qed.
Print Assumptions c102_mean.

(** The magnitude of each Fourier coefficient is the self affine one, whatever random numbers are drawn, except for the
    frequencies which are their own opposite, where it is zero. *)
Theorem c102_spectrum (s : fractal) (has_profile return_new : bool) (s0 s1 : nat) (d : R) (random : nat -> nat -> R) (z : grid) :
  (2 < s0)%nat -> (2 < s1)%nat -> 0 < d -> generate s has_profile return_new (Some (s0, s1)) (Some d) random = Ok z ->
  forall k l, (k < rows z)%nat -> (l < cols z)%nat ->
  let wanted := density (hurst_ s) (roll_off_ s) d (rows z) (cols z) in
  spectrum z k l = if own_opposite (rows z) (cols z) k l then 0
    else Rabs (sigma_ s) * (INR (rows z) * INR (cols z)) * sqrt (wanted k l / total2 (rows z) (cols z) wanted).
Proof.
  intros S0 S1 D G k l K L wanted. apply generated in G. subst z. subst wanted.
  destruct (even_size_even s0) as (q & A1 & A2). destruct (even_size_even s1) as (p & B1 & B2). cbn [rows cols] in *.
  rewrite A1, B1 in *. assert (P : (0 < p)%nat) by lia. assert (Q : (0 < q)%nat) by lia. assert (P1 : (1 < p)%nat) by lia. assert (Q1 : (1 < q)%nat) by lia.
  set (h := hurst_ s). set (qr := roll_off_ s). set (sg := sigma_ s). rewrite spectrum_fft by (cbn [rows cols]; lia). cbn [rows cols at_].
  pose proof (z_fft sg h qr d p q P Q random k l K L) as Z. cbv beta zeta in Z. pose proof (w_norm sg h qr d p q P Q D random k l K L) as W. cbv beta zeta in W.
  rewrite Z, W. clear Z W.
  destruct (own_opposite _ _ k l) eqn:OO; [apply sqrt_0|]. rewrite raw_sum, raw_density by assumption.
  assert (S := sum_pos h qr d p q P Q). cbv zeta in S. rewrite raw_sum in S by assumption. set (T := total2 _ _ _) in *. set (x := density _ _ _ _ _ k l).
  assert (X : 0 <= x). { unfold x. rewrite <- raw_density by assumption. apply (raw_nonneg h qr d p q). }
  destruct (nm_pos p q P Q) as [N M]. set (nm := INR (2 * p) * INR (2 * q)). assert (NM : 0 < nm) by now apply Rmult_lt_0_compat.
  transitivity (sqrt (Rsqr sg) * sqrt (Rsqr nm) * sqrt (x / T)); [|rewrite sqrt_Rsqr_abs, sqrt_Rsqr by lra; reflexivity].
  rewrite <- !sqrt_mult_alt.
  - f_equal. unfold Rsqr. field. lra.
  - apply Rmult_le_pos; apply Rle_0_sqr.
  - apply Rle_0_sqr.
Qed.
Print Assumptions c102_spectrum.

(** The mean square height is the one asked for less the part at the frequencies which are their own opposite. *)
Theorem c102_rms (s : fractal) (has_profile return_new : bool) (s0 s1 : nat) (d : R) (random : nat -> nat -> R) (z : grid) :
  (2 < s0)%nat -> (2 < s1)%nat -> 0 < d -> generate s has_profile return_new (Some (s0, s1)) (Some d) random = Ok z ->
  let wanted := density (hurst_ s) (roll_off_ s) d (rows z) (cols z) in
  let lost k l := if own_opposite (rows z) (cols z) k l then wanted k l else 0 in
  variance z = sigma_ s ^ 2 * (1 - total2 (rows z) (cols z) lost / total2 (rows z) (cols z) wanted).
Proof.
  intros S0 S1 D G wanted lost. unfold variance. rewrite (c102_mean s has_profile return_new s0 s1 d random z ltac:(lia) ltac:(lia) D G).
  apply generated in G. subst z. subst lost wanted.
  destruct (even_size_even s0) as (q & A1 & A2). destruct (even_size_even s1) as (p & B1 & B2). cbn [rows cols at_] in *.
  rewrite A1, B1 in *. assert (P : (0 < p)%nat) by lia. assert (Q : (0 < q)%nat) by lia. assert (P1 : (1 < p)%nat) by lia. assert (Q1 : (1 < q)%nat) by lia.
  set (h := hurst_ s). set (qr := roll_off_ s). set (sg := sigma_ s).
  pose proof (z_square sg h qr d p q P Q D random) as Z. cbv beta zeta in Z.
  assert (S := sum_pos h qr d p q P Q). cbv zeta in S. rewrite raw_sum in S, Z by assumption.
  destruct (nm_pos p q P Q) as [N M]. set (nm := INR (2 * p) * INR (2 * q)) in *. assert (NM : 0 < nm) by now apply Rmult_lt_0_compat.
  set (ww := density h qr d (2 * p) (2 * q)) in *.
  assert (E : total2 (2 * p) (2 * q) (fun k l => if own_opposite (2 * p) (2 * q) k l then 0 else at_ (raw_psd h qr d (2 * q) (2 * p)) (ishift (2 * p) k) (ishift (2 * q) l))
    + total2 (2 * p) (2 * q) (fun k l => if own_opposite (2 * p) (2 * q) k l then ww k l else 0) = total2 (2 * p) (2 * q) ww).
  { rewrite <- total2_add. apply total2_ext. intros k l K L. rewrite raw_density by assumption. fold ww. destruct (own_opposite _ _ _ _); ring. }
  apply (Rmult_eq_reg_r (nm * nm)); [|apply Rgt_not_eq; now apply Rmult_lt_0_compat].
  rewrite (total2_ext (2 * p) (2 * q) _ (fun i j => fst (ifft2 (2 * p) (2 * q) (coefficients sg h qr d (2 * q) (2 * p) random) i j) ^ 2)).
  - replace (total2 _ _ _ / nm * (nm * nm)) with (total2 (2 * p) (2 * q) (fun i j => fst (ifft2 (2 * p) (2 * q) (coefficients sg h qr d (2 * q) (2 * p) random) i j) ^ 2) * nm) by (field; lra).
    rewrite Z. set (kept := total2 _ _ (fun k l => if own_opposite _ _ k l then 0 else _)) in *. set (lost := total2 _ _ (fun k l => if own_opposite _ _ k l then ww k l else 0)) in *.
    replace kept with (total2 (2 * p) (2 * q) ww - lost) by lra. field. lra.
  - intros. f_equal. apply Rminus_0_r.
Qed.
Print Assumptions c102_rms.

(** So the surface never has the root mean square height asked for. *)
Theorem c102_rms_refuted (s : fractal) (has_profile return_new : bool) (s0 s1 : nat) (d : R) (random : nat -> nat -> R) (z : grid) :
  sigma_ s <> 0 -> (2 < s0)%nat -> (2 < s1)%nat -> 0 < d -> generate s has_profile return_new (Some (s0, s1)) (Some d) random = Ok z ->
  variance z < sigma_ s ^ 2.
Proof.
  intros SG S0 S1 D G. rewrite (c102_rms _ _ _ _ _ _ _ _ S0 S1 D G).
  apply generated in G. subst z. cbn [rows cols].
  destruct (even_size_even s0) as (q & A1 & A2). destruct (even_size_even s1) as (p & B1 & B2).
  rewrite A1, B1 in *. assert (P : (0 < p)%nat) by lia. assert (Q : (0 < q)%nat) by lia. assert (P1 : (1 < p)%nat) by lia. assert (Q1 : (1 < q)%nat) by lia.
  set (h := hurst_ s). set (qr := roll_off_ s). set (sg := sigma_ s) in *.
  assert (S := sum_pos h qr d p q P Q). cbv zeta in S. rewrite raw_sum in S by assumption. set (T := total2 _ _ (density _ _ _ _ _)) in *. set (lost := total2 _ _ _).
  assert (LP : 0 < lost).
  { apply Rlt_le_trans with (density h qr d (2 * p) (2 * q) p 0).
    - rewrite <- raw_density by (assumption || lia). apply (raw_pos h qr d p q). left. rewrite ishift_cases by lia. rewrite Nat.ltb_irrefl. lia.
    - rewrite <- (total2_single (2 * p) (2 * q) p 0 (density h qr d (2 * p) (2 * q))) by lia. apply total2_le. intros k l K L.
      assert (NN : 0 <= density h qr d (2 * p) (2 * q) k l). { rewrite <- raw_density by assumption. apply (raw_nonneg h qr d p q). }
      destruct (Nat.eqb_spec k p) as [->|], (Nat.eqb_spec l 0) as [->|]; cbn [andb]; try (destruct (own_opposite _ _ _ _); lra).
      unfold own_opposite. rewrite half_even, Nat.eqb_refl, orb_true_r. cbn [Nat.eqb orb andb]. lra. }
  assert (0 < sg ^ 2). { assert (X := Rsqr_pos_lt sg SG). unfold Rsqr in X. nra. } assert (0 < lost / T) by now apply Rdiv_lt_0_compat. nra.
Qed.
Print Assumptions c102_rms_refuted.

(** A case: a surface of 3 by 5 points is generated with 6 rows and 4 columns, a root mean square height below 2 but with some roughness. *)
Example c102_case (random : nat -> nat -> R) : exists s z,
  new_fractal 2 (1 / 2) 0 = Ok s /\ generate s false false (Some (3, 5)%nat) (Some 1) random = Ok z /\
  rows z = 6%nat /\ cols z = 4%nat /\ variance z < 4 /\ 0 < spectrum z 0 1.
Proof.
  exists (Fractal 2 (1 / 2) 0).
  assert (N : new_fractal 2 (1 / 2) 0 = Ok (Fractal 2 (1 / 2) 0)).
  { unfold new_fractal. destruct (Rltb 1 (1 / 2)) eqn:A; [apply Rltb_true in A; lra|]. destruct (Rltb (1 / 2) 0) eqn:B; [apply Rltb_true in B; lra|]. reflexivity. }
  eexists. split; [exact N|]. split; [reflexivity|]. split; [reflexivity|]. split; [reflexivity|].
  match goal with |- variance ?z < _ /\ _ => set (zz := z) end.
  assert (G : generate (Fractal 2 (1 / 2) 0) false false (Some (3, 5)%nat) (Some 1) random = Ok zz) by reflexivity. split.
  - replace 4 with (2 ^ 2) by ring. exact (c102_rms_refuted (Fractal 2 (1 / 2) 0) false false 3 5 1 random zz ltac:(cbn [sigma_]; lra) ltac:(lia) ltac:(lia) ltac:(lra) G).
  - rewrite (c102_spectrum (Fractal 2 (1 / 2) 0) false false 3 5 1 random zz ltac:(lia) ltac:(lia) ltac:(lra) G) by (cbn [rows cols zz]; unfold even_size; cbn; lia).
    change (rows zz) with (2 * 3)%nat. change (cols zz) with (2 * 2)%nat. cbn [sigma_ hurst_ roll_off_]. change (own_opposite (2 * 3) (2 * 2) 0 1) with false. cbn iota.
    apply Rmult_lt_0_compat; [apply Rmult_lt_0_compat; [rewrite Rabs_right; lra|apply Rmult_lt_0_compat; apply lt_0_INR; lia]|].
    apply sqrt_lt_R0. rewrite <- raw_sum, <- raw_density by (lia || lra). apply Rdiv_lt_0_compat; [|apply (sum_pos (1 / 2) 0 1 3 2); lia].
    apply (raw_pos (1 / 2) 0 1 3 2). right. rewrite ishift_cases by lia. cbn. lia.
Qed.
