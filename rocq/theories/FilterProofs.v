(** Lemmas on random surfaces made by a filter. *)
From Coq Require Import Reals List Bool Arith Lia Lra Psatz.
From Verif Require Import Py SurfaceModel ConvModel ConvSpec ConvProofs FilterModel FilterSpec.
Import ListNotations.
Local Open Scope R_scope.

Lemma total2_ext m n f g : (forall i j, (i < m)%nat -> (j < n)%nat -> f i j = g i j) -> total2 m n f = total2 m n g.
Proof. intro H. apply total_ext. intros i I. apply total_ext. intros j J. now apply H. Qed.
Lemma total2_scal m n c f : total2 m n (fun i j => c * f i j) = c * total2 m n f.
Proof. unfold total2. rewrite <- total_scal. apply total_ext. intros. apply total_scal. Qed.
Lemma total2_add m n f g : total2 m n (fun i j => f i j + g i j) = total2 m n f + total2 m n g.
Proof. unfold total2. rewrite <- total_add. apply total_ext. intros. apply total_add. Qed.
Lemma total2_le m n f g : (forall i j, (i < m)%nat -> (j < n)%nat -> f i j <= g i j) -> total2 m n f <= total2 m n g.
Proof.
  assert (T : forall n f g, (forall i, (i < n)%nat -> f i <= g i) -> total n f <= total n g).
  { clear. induction n as [|n IH]; intros f g H; cbn; [lra|]. apply Rplus_le_compat; [apply IH; auto|apply H; lia]. }
  intro H. apply T. intros i I. apply T. intros j J. now apply H.
Qed.
Lemma total2_swap m n r c f : total2 m n (fun i j => total2 r c (fun k l => f i j k l)) = total2 r c (fun k l => total2 m n (fun i j => f i j k l)).
Proof.
  unfold total2.
  transitivity (total m (fun i => total r (fun k => total n (fun j => total c (fun l => f i j k l))))).
  { apply total_ext. intros i _. apply total_swap. }
  rewrite total_swap. apply total_ext. intros k _.
  transitivity (total m (fun i => total c (fun l => total n (fun j => f i j k l)))).
  { apply total_ext. intros i _. apply total_swap. }
  apply total_swap.
Qed.
Lemma total_split p r f : total (p + r) f = total p f + total r (fun i => f (p + i)%nat).
Proof.
  induction r as [|r IH]; [rewrite Nat.add_0_r; cbn; ring|]. rewrite Nat.add_succ_r. cbn. rewrite IH. ring.
Qed.
(** Sums over a part of the indices. *)
Lemma total_cut n k f : (k <= n)%nat -> total k f = total n (fun i => if Nat.ltb i k then f i else 0).
Proof.
  intro H. replace n with (k + (n - k))%nat by lia. rewrite total_split.
  rewrite (total_ext (n - k) _ (fun _ => 0)), total_zero, Rplus_0_r.
  - apply total_ext. intros i I. apply Nat.ltb_lt in I. now rewrite I.
  - intros i _. replace (k + i <? k)%nat with false; [reflexivity|]. symmetry. apply Nat.ltb_ge. lia.
Qed.
Lemma total_move n p f : (p <= n)%nat -> total (n - p) (fun k => f (k + p)%nat) = total n (fun k => if Nat.leb p k then f k else 0).
Proof.
  intro H. replace n with (p + (n - p))%nat at 2 by lia. rewrite total_split.
  rewrite (total_ext p _ (fun _ => 0)), total_zero, Rplus_0_l.
  - apply total_ext. intros i _. replace (p <=? p + i)%nat with true by (symmetry; apply Nat.leb_le; lia). f_equal. lia.
  - intros i I. replace (p <=? i)%nat with false; [reflexivity|]. symmetry. apply Nat.leb_gt. lia.
Qed.
Lemma total_back n f : total n f = total n (fun i => f (n - 1 - i)%nat).
Proof.
  induction n as [|n IH]; [reflexivity|]. replace (S n) with (1 + n)%nat at 2 by lia. rewrite total_split. cbn [total].
  rewrite Rplus_comm. f_equal.
  - rewrite Rplus_0_l. f_equal. lia.
  - rewrite IH. apply total_ext. intros i I. f_equal. lia.
Qed.

(** ** The estimate *)
Lemma estimate_direct a p q : at_ (acf_estimate a) p q = autocorrelation a p q.
Proof.
  unfold acf_estimate, autocorrelation, total2. cbn [at_]. rewrite rsum_total. apply total_ext. intros k _. apply rsum_total.
Qed.
Lemma same_offset n : (0 < n)%nat -> ((n + (n - 1) - 1) / 2 = n - 1)%nat.
Proof. intro H. replace (n + (n - 1) - 1)%nat with ((n - 1) * 2)%nat by lia. now apply Nat.div_mul. Qed.
Lemma estimate_fft a p q : (p < rows a)%nat -> (q < cols a)%nat -> at_ (acf_estimate_fft a) p q = autocorrelation a p q.
Proof.
  intros P Q. unfold acf_estimate_fft, fftconvolve_same. cbn [at_]. unfold full_conv. rewrite rsum_total.
  cbn [pad_after flip rows cols]. rewrite !same_offset by lia. unfold autocorrelation, total2.
  transitivity (total (rows a - p) (fun k => total (cols a) (fun l => if Nat.leb q l then at_ a k (l - q) * at_ a (k + p) l else 0))).
  - transitivity (total (rows a) (fun k => if Nat.leb p k then total (cols a) (fun l => if Nat.leb q l then at_ a (k - p) (l - q) * at_ a k l else 0) else 0)).
    + apply total_ext. intros k K. rewrite rsum_total. destruct (Nat.leb_spec p k).
      * apply total_ext. intros l L. rewrite (proj2 (Nat.leb_le k (p + (rows a - 1)))), (proj2 (Nat.leb_le l (q + (cols a - 1)))) by lia. cbn [andb].
        unfold pad at 1. rewrite (proj2 (Nat.ltb_lt _ _) K), (proj2 (Nat.ltb_lt _ _) L). cbn [andb].
        unfold pad at 1. cbn [rows cols at_]. destruct (Nat.leb_spec q l).
        -- rewrite (proj2 (Nat.ltb_lt _ (rows a + (rows a - 1)))), (proj2 (Nat.ltb_lt _ (cols a + (cols a - 1)))) by lia. cbn [andb].
           unfold pad_after. cbn [at_]. unfold pad. cbn [rows cols at_ flip]. rewrite (proj2 (Nat.ltb_lt _ (rows a))), (proj2 (Nat.ltb_lt _ (cols a))) by lia. cbn [andb].
           rewrite Rmult_comm. f_equal. f_equal; lia.
        -- assert (Z : at_ (pad_after (flip a) (rows a - 1) (cols a - 1)) (p + (rows a - 1) - k) (q + (cols a - 1) - l) = 0).
           { unfold pad_after, pad. cbn [at_ flip cols]. rewrite (proj2 (Nat.ltb_ge (q + (cols a - 1) - l) (cols a))) by lia. now rewrite andb_false_r. }
           rewrite Z. destruct (_ && _); ring.
      * rewrite (total_ext (cols a) _ (fun _ => 0)); [apply total_zero|]. intros l L.
        assert (Z : pad (pad_after (flip a) (rows a - 1) (cols a - 1)) (p + (rows a - 1) - k) (q + (cols a - 1) - l) = 0).
        { unfold pad at 1. destruct (_ && _); [|reflexivity]. unfold pad_after, pad. cbn [at_ flip rows].
          rewrite (proj2 (Nat.ltb_ge (p + (rows a - 1) - k) (rows a))) by lia. reflexivity. }
        destruct (_ && _); [|reflexivity]. rewrite Z. ring.
    + rewrite <- (total_move (rows a) p (fun k => total (cols a) (fun l => if Nat.leb q l then at_ a (k - p) (l - q) * at_ a k l else 0))) by lia.
      apply total_ext. intros k _. now replace (k + p - p)%nat with k by lia.
  - apply total_ext. intros k K.
    rewrite <- (total_move (cols a) q (fun l => at_ a k (l - q) * at_ a (k + p) l)) by lia.
    apply total_ext. intros l _. f_equal. f_equal. lia.
Qed.
Lemma total_nonneg n f : (forall i, (i < n)%nat -> 0 <= f i) -> 0 <= total n f.
Proof. induction n as [|n IH]; intro H; cbn; [lra|]. apply Rplus_le_le_0_compat; [apply IH; auto|apply H; lia]. Qed.
Lemma total_le n f g : (forall i, (i < n)%nat -> f i <= g i) -> total n f <= total n g.
Proof. induction n as [|n IH]; intro H; cbn; [lra|]. apply Rplus_le_compat; [apply IH; auto|apply H; lia]. Qed.
Lemma total_part n p f : (forall i, (i < n)%nat -> 0 <= f i) -> total (n - p) f <= total n f.
Proof.
  intro H. rewrite (total_cut n (n - p)) by lia. apply total_le. intros i I. destruct (Nat.ltb _ _); [lra|now apply H].
Qed.
Lemma total_moved n p f : (forall i, (i < n)%nat -> 0 <= f i) -> total (n - p) (fun k => f (k + p)%nat) <= total n f.
Proof.
  intro H. destruct (le_lt_dec p n) as [P|P].
  - rewrite total_move by exact P. apply total_le. intros i I. destruct (Nat.leb _ _); [lra|now apply H].
  - replace (n - p)%nat with 0%nat by lia. now apply total_nonneg.
Qed.
Lemma autocorrelation_zero a : autocorrelation a 0 0 = total2 (rows a) (cols a) (fun k l => at_ a k l ^ 2).
Proof. unfold autocorrelation. rewrite !Nat.sub_0_r. apply total2_ext. intros. rewrite !Nat.add_0_r. ring. Qed.
Lemma autocorrelation_bound a p q : Rabs (autocorrelation a p q) <= autocorrelation a 0 0.
Proof.
  rewrite autocorrelation_zero.
  set (S1 := total2 (rows a - p) (cols a - q) (fun k l => at_ a k l ^ 2)).
  set (S2 := total2 (rows a - p) (cols a - q) (fun k l => at_ a (k + p) (l + q) ^ 2)).
  set (S := total2 (rows a) (cols a) (fun k l => at_ a k l ^ 2)).
  assert (B1 : S1 <= S).
  { apply Rle_trans with (total (rows a - p) (fun k => total (cols a) (fun l => at_ a k l ^ 2))).
    - apply total_le. intros. apply total_part. intros. apply pow2_ge_0.
    - apply (total_part (rows a) p (fun k => total (cols a) (fun l => at_ a k l ^ 2))). intros. apply total_nonneg. intros. apply pow2_ge_0. }
  assert (B2 : S2 <= S).
  { apply Rle_trans with (total (rows a - p) (fun k => total (cols a) (fun l => at_ a (k + p) l ^ 2))).
    - apply total_le. intros i I. apply (total_moved (cols a) q (fun l => at_ a (i + p) l ^ 2)). intros. apply pow2_ge_0.
    - apply (total_moved (rows a) p (fun k => total (cols a) (fun l => at_ a k l ^ 2))). intros. apply total_nonneg. intros. apply pow2_ge_0. }
  assert (U : autocorrelation a p q <= / 2 * S1 + / 2 * S2).
  { unfold S1, S2. rewrite <- !total2_scal, <- total2_add. apply total2_le. intros i j _ _.
    pose proof (pow2_ge_0 (at_ a i j - at_ a (i + p) (j + q))). lra. }
  assert (L : - 1 * autocorrelation a p q <= / 2 * S1 + / 2 * S2).
  { unfold S1, S2, autocorrelation. rewrite <- !total2_scal, <- total2_add. apply total2_le. intros i j _ _.
    pose proof (pow2_ge_0 (at_ a i j + at_ a (i + p) (j + q))). lra. }
  apply Rabs_le. lra.
Qed.

(** ** The gradient *)
Lemma deriv_ext f g x d : (forall y, f y = g y) -> derivable_pt_lim f x d -> derivable_pt_lim g x d.
Proof. intros E H eps P. destruct (H eps P) as [delta D]. exists delta. intros h N A. rewrite <- !E. now apply D. Qed.
Lemma deriv_total n (f : nat -> R -> R) d x : (forall i, (i < n)%nat -> derivable_pt_lim (f i) x (d i)) ->
  derivable_pt_lim (fun y => total n (fun i => f i y)) x (total n d).
Proof.
  induction n as [|n IH]; intro H; cbn [total]; [apply derivable_pt_lim_const|].
  apply (derivable_pt_lim_plus (fun y => total n (fun i => f i y)) (f n)); [apply IH; auto|apply H; lia].
Qed.
Lemma deriv_total2 m n (f : nat -> nat -> R -> R) d x : (forall i j, (i < m)%nat -> (j < n)%nat -> derivable_pt_lim (f i j) x (d i j)) ->
  derivable_pt_lim (fun y => total2 m n (fun i j => f i j y)) x (total2 m n d).
Proof. intro H. apply (deriv_total m (fun i y => total n (fun j => f i j y))). intros i I. apply deriv_total. intros j J. now apply H. Qed.
Lemma deriv_square f x d : derivable_pt_lim f x d -> derivable_pt_lim (fun y => f y ^ 2) x (2 * f x * d).
Proof.
  intro H. apply (deriv_ext (fun y => f y * f y)); [intro; ring|]. replace (2 * f x * d) with (d * f x + f x * d) by ring.
  now apply derivable_pt_lim_mult.
Qed.

(** The weight of an entry of the filter in the derivative of the misfit. *)
Definition weight (n m n1 : nat) (D b : nat -> nat -> R) (k l : nat) : R :=
  2 * (total (Nat.min (n - k) n1) (fun p => total (m - l) (fun q => D p q * - b (k + p)%nat (l + q)%nat))
     + total (Nat.min (k + 1) n1) (fun p => total (l + 1) (fun q => D p q * - b (k - p)%nat (l - q)%nat))).
Lemma weight_sum n m n1 D b d : (n1 <= n)%nat ->
  total2 n1 m (fun p q => 2 * D p q * - total2 (n - p) (m - q) (fun k l => d k l * b (k + p)%nat (l + q)%nat + b k l * d (k + p)%nat (l + q)%nat)) =
  total2 n m (fun k l => d k l * weight n m n1 D b k l).
Proof.
  intro N.
  set (X1 := fun p q k l => if Nat.ltb k (n - p) && Nat.ltb l (m - q) then -2 * D p q * (d k l * b (k + p)%nat (l + q)%nat) else 0).
  set (X2 := fun p q k l => if Nat.leb p k && Nat.leb q l then -2 * D p q * (d k l * b (k - p)%nat (l - q)%nat) else 0).
  transitivity (total2 n1 m (fun p q => total2 n m (fun k l => X1 p q k l + X2 p q k l))).
  - apply total2_ext. intros p q P Q. rewrite (total2_add n m (X1 p q) (X2 p q)).
    replace (2 * D p q * - total2 (n - p) (m - q) (fun k l => d k l * b (k + p)%nat (l + q)%nat + b k l * d (k + p)%nat (l + q)%nat))
      with (-2 * D p q * total2 (n - p) (m - q) (fun k l => d k l * b (k + p)%nat (l + q)%nat) + -2 * D p q * total2 (n - p) (m - q) (fun k l => d (k + p)%nat (l + q)%nat * b k l)).
    2:{ rewrite total2_add. rewrite (total2_ext _ _ (fun k l => d (k + p)%nat (l + q)%nat * b k l) (fun k l => b k l * d (k + p)%nat (l + q)%nat)) by (intros; ring). ring. }
    f_equal.
    + rewrite <- total2_scal. unfold total2. rewrite (total_cut n (n - p)) by lia. apply total_ext. intros k K. unfold X1.
      destruct (Nat.ltb k (n - p)); cbn [andb]; [|now rewrite total_zero].
      rewrite (total_cut m (m - q)) by lia. apply total_ext. intros l L. reflexivity.
    + rewrite <- total2_scal. unfold total2.
      transitivity (total (n - p) (fun k => total m (fun l => X2 p q (k + p)%nat l))).
      * apply total_ext. intros k K. unfold X2. rewrite (proj2 (Nat.leb_le p (k + p))) by lia. cbn [andb].
        rewrite <- (total_move m q (fun l => -2 * D p q * (d (k + p)%nat l * b (k + p - p)%nat (l - q)%nat))) by lia.
        apply total_ext. intros l L. now replace (k + p - p)%nat with k by lia; replace (l + q - q)%nat with l by lia.
      * rewrite (total_move n p (fun k => total m (fun l => X2 p q k l))) by lia. apply total_ext. intros k K.
        unfold X2. destruct (Nat.leb p k); [reflexivity|]. cbn [andb]. now rewrite total_zero.
  - rewrite total2_swap. apply total2_ext. intros k l K L. rewrite total2_add. unfold weight.
    rewrite Rmult_plus_distr_l, Rmult_plus_distr_l. f_equal.
    + rewrite (total_cut n1 (Nat.min (n - k) n1)) by lia. rewrite <- total_scal, <- total_scal. apply total_ext. intros p P. unfold X1.
      destruct (Nat.ltb_spec p (Nat.min (n - k) n1)) as [Y|Y].
      * rewrite (proj2 (Nat.ltb_lt k (n - p))) by lia. cbn [andb]. rewrite (total_cut m (m - l)) by lia. rewrite <- !total_scal.
        apply total_ext. intros q Q. destruct (Nat.ltb_spec l (m - q)), (Nat.ltb_spec q (m - l)); try lia; ring.
      * rewrite (proj2 (Nat.ltb_ge k (n - p))) by lia. cbn [andb]. rewrite total_zero. ring.
    + rewrite (total_cut n1 (Nat.min (k + 1) n1)) by lia. rewrite <- total_scal, <- total_scal. apply total_ext. intros p P. unfold X2.
      destruct (Nat.ltb_spec p (Nat.min (k + 1) n1)) as [Y|Y].
      * rewrite (proj2 (Nat.leb_le p k)) by lia. cbn [andb]. rewrite (total_cut m (l + 1)) by lia. rewrite <- !total_scal.
        apply total_ext. intros q Q. destruct (Nat.leb_spec q l), (Nat.ltb_spec q (l + 1)); try lia; ring.
      * rewrite (proj2 (Nat.leb_gt p k)) by lia. cbn [andb]. rewrite total_zero. ring.
Qed.
(** The derivative of the misfit along a curve of filters. *)
Lemma misfit_deriv n m n1 (t : nat -> nat -> R) (beta : R -> nat -> nat -> R) (d : nat -> nat -> R) x : (n1 <= n)%nat ->
  (forall k l, (k < n)%nat -> (l < m)%nat -> derivable_pt_lim (fun y => beta y k l) x (d k l)) ->
  derivable_pt_lim (fun y => total2 n1 m (fun p q => (t p q - autocorrelation (Grid n m (beta y)) p q) ^ 2)) x
    (total2 n m (fun k l => d k l * weight n m n1 (fun p q => t p q - autocorrelation (Grid n m (beta x)) p q) (beta x) k l)).
Proof.
  intros N H. rewrite <- weight_sum by exact N. apply (deriv_total2 n1 m (fun p q y => (t p q - autocorrelation (Grid n m (beta y)) p q) ^ 2)).
  intros p q P Q. apply (deriv_square (fun y => t p q - autocorrelation (Grid n m (beta y)) p q)).
  replace (- total2 (n - p) (m - q) _) with (0 - total2 (n - p) (m - q) (fun k l => d k l * beta x (k + p)%nat (l + q)%nat + beta x k l * d (k + p)%nat (l + q)%nat)) by ring.
  apply (derivable_pt_lim_minus (fun _ => t p q) (fun y => autocorrelation (Grid n m (beta y)) p q)); [apply derivable_pt_lim_const|].
  unfold autocorrelation. cbn [rows cols at_].
  apply (deriv_total2 (n - p) (m - q) (fun k l y => beta y k l * beta y (k + p)%nat (l + q)%nat)). intros k l K L.
  apply (derivable_pt_lim_mult (fun y => beta y k l) (fun y => beta y (k + p)%nat (l + q)%nat)); apply H; lia.
Qed.

Lemma grad_weight a t est i j : (rows t <= rows a)%nat ->
  (forall p q, (p < rows a)%nat -> (q < cols a)%nat -> at_ est p q = autocorrelation a p q) -> (i < rows a)%nat -> (j < cols a)%nat ->
  at_ (grad_min_fun a t est) i j = weight (rows a) (cols a) (rows t) (fun p q => at_ t p q - autocorrelation a p q) (at_ a) i j.
Proof.
  intros N E I J. unfold grad_min_fun, weight. cbn [at_]. rewrite !rsum_total. f_equal. f_equal.
  - replace (rows a - S i + 1)%nat with (rows a - i)%nat by lia. apply total_ext. intros p P. rewrite rsum_total.
    replace (cols a - S j + 1)%nat with (cols a - j)%nat by lia. apply total_ext. intros q Q. rewrite E by lia.
    f_equal. f_equal. f_equal; lia.
  - replace (S i) with (i + 1)%nat by lia. apply total_ext. intros p P. rewrite rsum_total. replace (S j) with (j + 1)%nat by lia.
    apply total_ext. intros q Q. rewrite E by lia. f_equal. f_equal. f_equal; lia.
Qed.
Lemma total2_single m n i j f : (i < m)%nat -> (j < n)%nat ->
  total2 m n (fun k l => (if Nat.eqb k i && Nat.eqb l j then 1 else 0) * f k l) = f i j.
Proof.
  intros I J. unfold total2. rewrite (total_single m i).
  - rewrite (total_single n j); [rewrite !Nat.eqb_refl; cbn; ring|exact J|]. intros l L N.
    rewrite (proj2 (Nat.eqb_neq l j) N), andb_false_r. ring.
  - exact I.
  - intros k K N. rewrite (proj2 (Nat.eqb_neq k i) N). cbn [andb]. rewrite (total_ext n _ (fun _ => 0)); [apply total_zero|]. intros. ring.
Qed.
Lemma min_fun_misfit t a : same_shape t a -> min_fun t a = misfit t a.
Proof.
  intros [R C]. unfold min_fun, misfit, total2. rewrite rsum_total. apply total_ext. intros p P. rewrite rsum_total.
  apply total_ext. intros q Q. rewrite estimate_fft by congruence. reflexivity.
Qed.
Lemma min_sym_misfit t a : same_shape t a -> min_fun_symmetric t a = misfit t (mirror a).
Proof.
  intros [R C]. unfold min_fun_symmetric, misfit, total2. rewrite rsum_total. apply total_ext. intros p P. rewrite rsum_total.
  apply total_ext. intros q Q. rewrite estimate_fft by (cbn [mirror rows cols]; lia). reflexivity.
Qed.
Lemma misfit_ext t a b : rows a = rows b -> cols a = cols b -> (forall i j, (i < rows a)%nat -> (j < cols a)%nat -> at_ a i j = at_ b i j) ->
  misfit t a = misfit t b.
Proof.
  intros R C H. unfold misfit. apply total2_ext. intros p q _ _. f_equal. f_equal. unfold autocorrelation. rewrite <- R, <- C.
  apply total2_ext. intros k l K L. rewrite !H by lia. reflexivity.
Qed.
Lemma weight_ext n m n1 D D' b b' k l : (k < n)%nat -> (l < m)%nat -> (n1 <= n)%nat ->
  (forall p q, (p < n1)%nat -> (q < m)%nat -> D p q = D' p q) -> (forall i j, (i < n)%nat -> (j < m)%nat -> b i j = b' i j) ->
  weight n m n1 D b k l = weight n m n1 D' b' k l.
Proof.
  intros K L N HD HB. unfold weight. f_equal. f_equal; apply total_ext; intros p P; apply total_ext; intros q Q; rewrite HD, HB by lia; reflexivity.
Qed.
Lemma gradient t a i j : same_shape t a -> (i < rows a)%nat -> (j < cols a)%nat ->
  derivable_pt_lim (fun x => misfit t (set_entry a i j x)) (at_ a i j) (at_ (get_grad t a) i j).
Proof.
  intros [R C] I J. unfold get_grad. rewrite grad_weight; [|lia|intros; now apply estimate_fft|exact I|exact J].
  set (beta := fun y k l => if Nat.eqb k i && Nat.eqb l j then y else at_ a k l).
  assert (B : forall k l, beta (at_ a i j) k l = at_ a k l).
  { intros k l. unfold beta. destruct (Nat.eqb_spec k i) as [->|]; [|reflexivity]. destruct (Nat.eqb_spec l j) as [->|]; reflexivity. }
  pose proof (misfit_deriv (rows a) (cols a) (rows t) (at_ t) beta (fun k l => if Nat.eqb k i && Nat.eqb l j then 1 else 0) (at_ a i j) ltac:(lia)) as H.
  cbv beta in H. rewrite (total2_single (rows a) (cols a) i j (weight (rows a) (cols a) (rows t) _ (beta (at_ a i j)))) in H by assumption.
  rewrite (weight_ext _ _ _ _ (fun p q => at_ t p q - autocorrelation a p q) _ (at_ a)) in H; [|exact I|exact J|lia| |intros; apply B].
  - apply (deriv_ext (fun y => total2 (rows t) (cols a) (fun p q => (at_ t p q - autocorrelation (Grid (rows a) (cols a) (beta y)) p q) ^ 2))).
    { intro y. unfold misfit. rewrite C. reflexivity. } apply H.
    intros k l _ _. unfold beta. destruct (Nat.eqb k i && Nat.eqb l j); [apply derivable_pt_lim_id|apply derivable_pt_lim_const].
  - intros p q _ _. f_equal. unfold autocorrelation. cbn [rows cols at_]. apply total2_ext. intros. now rewrite !B.
Qed.
Lemma gradient_symmetric t a i j : same_shape t a -> (i < rows a)%nat -> (j < cols a)%nat ->
  derivable_pt_lim (fun x => misfit t (mirror (set_entry a i j x))) (at_ a i j) (at_ (get_grad_symmetric t a) i j).
Proof.
  intros [R C] I J. set (n := rows a) in *.
  set (N := (2 * n - 1)%nat).
  set (hit := fun k l => if Nat.leb (n - 1) k then Nat.eqb (k - (n - 1)) i && Nat.eqb l j else Nat.eqb (n - 1 - k) i && Nat.eqb l j).
  set (beta := fun y k l => if hit k l then y else at_ (mirror a) k l).
  assert (BM : forall y k l, at_ (mirror (set_entry a i j y)) k l = beta y k l).
  { intros y k l. unfold beta, hit, mirror. cbn [at_ set_entry rows]. fold n. destruct (Nat.leb (n - 1) k); reflexivity. }
  assert (B : forall k l, beta (at_ a i j) k l = at_ (mirror a) k l).
  { intros k l. unfold beta, hit, mirror. cbn [at_]. fold n. destruct (Nat.leb (n - 1) k).
    - destruct (Nat.eqb_spec (k - (n - 1)) i) as [->|]; [|reflexivity]. destruct (Nat.eqb_spec l j) as [->|]; reflexivity.
    - destruct (Nat.eqb_spec (n - 1 - k) i) as [->|]; [|reflexivity]. destruct (Nat.eqb_spec l j) as [->|]; reflexivity. }
  pose proof (misfit_deriv N (cols a) (rows t) (at_ t) beta (fun k l => if hit k l then 1 else 0) (at_ a i j) ltac:(unfold N; lia)) as H.
  set (W := weight N (cols a) (rows t) (fun p q => at_ t p q - autocorrelation (mirror a) p q) (at_ (mirror a))).
  assert (WE : forall k l, (k < N)%nat -> (l < cols a)%nat ->
    weight N (cols a) (rows t) (fun p q => at_ t p q - autocorrelation (Grid N (cols a) (beta (at_ a i j))) p q) (beta (at_ a i j)) k l = W k l).
  { intros k l K L. apply weight_ext; [exact K|exact L|unfold N; lia| |intros; apply B].
    intros p q _ _. f_equal. unfold autocorrelation. cbn [rows cols at_ mirror]. fold n N. apply total2_ext. intros. now rewrite !B. }
  cbv beta in H. rewrite (total2_ext N (cols a) _ (fun k l => (if hit k l then 1 else 0) * W k l)) in H by (intros; now rewrite WE).
  assert (G : at_ (get_grad_symmetric t a) i j = total2 N (cols a) (fun k l => (if hit k l then 1 else 0) * W k l)).
  { assert (GW : forall k, (k < N)%nat -> at_ (grad_min_fun (mirror a) t (acf_estimate_fft (mirror a))) k j = W k j).
    { intros k K. rewrite grad_weight; [reflexivity|cbn [mirror rows]; lia|intros; now apply estimate_fft|exact K|exact J]. }
    unfold total2, N. replace (2 * n - 1)%nat with (n - 1 + n)%nat by lia. rewrite total_split.
    assert (T2 : total n (fun k => total (cols a) (fun l => (if hit (n - 1 + k)%nat l then 1 else 0) * W (n - 1 + k)%nat l)) = W (n - 1 + i)%nat j).
    { rewrite <- (total2_single n (cols a) i j (fun k l => W (n - 1 + k)%nat l)) by assumption. apply total2_ext. intros k l K L. unfold hit.
      rewrite (proj2 (Nat.leb_le (n - 1) (n - 1 + k))) by lia. now replace (n - 1 + k - (n - 1))%nat with k by lia. }
    rewrite T2. unfold get_grad_symmetric. cbn [at_]. fold n. destruct i as [|r].
    - rewrite GW by (unfold N; lia). rewrite (total_ext (n - 1) _ (fun _ => 0)), total_zero; [rewrite Nat.add_0_r; ring|].
      intros k K. rewrite (total_ext (cols a) _ (fun _ => 0)); [apply total_zero|]. intros l L. unfold hit.
      rewrite (proj2 (Nat.leb_gt (n - 1) k)) by lia. rewrite (proj2 (Nat.eqb_neq (n - 1 - k) 0)) by lia. cbn [andb]. ring.
    - rewrite !GW by (unfold N; lia). rewrite Rplus_comm. f_equal.
      rewrite <- (total2_single (n - 1) (cols a) (n - 1 - 1 - r)%nat j W) by lia. apply total2_ext. intros k l K L. unfold hit.
      rewrite (proj2 (Nat.leb_gt (n - 1) k)) by lia. f_equal. replace (Nat.eqb (n - 1 - k) (S r)) with (Nat.eqb k (n - 1 - 1 - r)); [reflexivity|].
      destruct (Nat.eqb_spec k (n - 1 - 1 - r)), (Nat.eqb_spec (n - 1 - k) (S r)); lia. }
  rewrite G. apply (deriv_ext (fun x => total2 (rows t) (cols a) (fun p q => (at_ t p q - autocorrelation (Grid N (cols a) (beta x)) p q) ^ 2))).
  - intro y. unfold misfit. rewrite C. apply total2_ext. intros p q _ _. f_equal. f_equal. unfold autocorrelation. cbn [mirror rows cols at_ set_entry]. fold n N.
    apply total2_ext. intros k l _ _. rewrite <- !BM. reflexivity.
  - apply H. intros k l _ _. unfold beta. destruct (hit k l); [apply derivable_pt_lim_id|apply derivable_pt_lim_const].
Qed.

(** ** Realisations *)
Lemma slide n top r F : (top < n)%nat -> (r <= top + 1)%nat ->
  total n (fun p => if Nat.leb p top && Nat.ltb (top - p) r then F p else 0) = total r (fun k => F (top - k)%nat).
Proof.
  intros T R.
  transitivity (total (top + 1) (fun p => if Nat.ltb (top - p) r then F p else 0)).
  - rewrite (total_cut n (top + 1)) by lia. apply total_ext. intros p P.
    destruct (Nat.leb_spec p top), (Nat.ltb_spec p (top + 1)); try lia; reflexivity.
  - rewrite total_back. rewrite (total_cut (top + 1) r) by lia. apply total_ext. intros p P.
    replace (top - (top + 1 - 1 - p))%nat with p by lia. now replace (top + 1 - 1 - p)%nat with (top - p)%nat by lia.
Qed.
Lemma conv_window a b i j : (0 < rows b)%nat -> (0 < cols b)%nat -> (i + (rows b - 1) < rows a)%nat -> (j + (cols b - 1) < cols a)%nat ->
  full_conv a b (i + (rows b - 1)) (j + (cols b - 1)) =
  total2 (rows b) (cols b) (fun k l => at_ b k l * at_ a (i + (rows b - 1) - k) (j + (cols b - 1) - l)).
Proof.
  intros R0 C0 I J. set (p0 := (i + (rows b - 1))%nat) in *. set (q0 := (j + (cols b - 1))%nat) in *. unfold full_conv. rewrite rsum_total.
  transitivity (total (rows a) (fun p => if Nat.leb p p0 && Nat.ltb (p0 - p) (rows b)
    then total (cols b) (fun l => at_ b (p0 - p) l * at_ a p (q0 - l)) else 0)).
  - apply total_ext. intros p P. rewrite rsum_total. destruct (Nat.leb p p0) eqn:L1; cbn [andb].
    + destruct (Nat.ltb (p0 - p) (rows b)) eqn:L2.
      * transitivity (total (cols a) (fun q => if Nat.leb q q0 && Nat.ltb (q0 - q) (cols b) then at_ b (p0 - p) (q0 - q) * at_ a p q else 0)).
        -- apply total_ext. intros q Q. destruct (Nat.leb q q0); cbn [andb]; [|reflexivity]. unfold pad.
           rewrite (proj2 (Nat.ltb_lt p (rows a)) P), (proj2 (Nat.ltb_lt q (cols a)) Q), L2. cbn [andb]. destruct (Nat.ltb (q0 - q) (cols b)); ring.
        -- rewrite (slide (cols a) q0 (cols b) (fun q => at_ b (p0 - p) (q0 - q) * at_ a p q)) by (unfold q0 in *; lia). apply total_ext. intros l L.
           now replace (q0 - (q0 - l))%nat with l by (unfold q0; lia).
      * rewrite (total_ext (cols a) _ (fun _ => 0)); [apply total_zero|]. intros q Q. unfold pad at 2. rewrite L2. cbn [andb]. destruct (Nat.leb q q0); ring.
    + apply total_zero.
  - rewrite (slide (rows a) p0 (rows b) (fun p => total (cols b) (fun l => at_ b (p0 - p) l * at_ a p (q0 - l)))) by (unfold p0 in *; lia).
    apply total_ext. intros k K. now replace (p0 - (p0 - k))%nat with k by (unfold p0; lia).
Qed.
Lemma discretise_window f n m noise i j : (0 < rows f)%nat -> (0 < cols f)%nat -> (i < n)%nat -> (j < m)%nat ->
  at_ (discretise f n m false noise) i j =
  total2 (rows f) (cols f) (fun k l => at_ f k l * noise (i + (rows f - 1) - k)%nat (j + (cols f - 1) - l)%nat).
Proof.
  intros R C I J. unfold discretise, noise_shape, fftconvolve_valid. cbn [at_]. rewrite conv_window by (cbn [rows cols]; lia). reflexivity.
Qed.
Lemma discretise_wrap f n m noise i j : (0 < rows f)%nat -> (0 < cols f)%nat -> (i < n)%nat -> (j < m)%nat ->
  at_ (discretise f n m true noise) i j =
  total2 (rows f) (cols f) (fun k l => at_ f k l * noise (Nat.modulo (i + (rows f - 1) - k) n) (Nat.modulo (j + (cols f - 1) - l) m)).
Proof.
  intros R C I J. unfold discretise, noise_shape, fftconvolve_valid. cbn [at_]. rewrite conv_window by (cbn [wrap_after rows cols]; lia). reflexivity.
Qed.

Section Mean.
Variable E : ((nat -> nat -> R) -> R) -> R.
Hypothesis HE : mean_value E.
Lemma mean_total n g : E (fun w => total n (fun i => g i w)) = total n (fun i => E (g i)).
Proof.
  destruct HE as (X & A & S). induction n as [|n IH]; cbn [total].
  - transitivity (E (fun w => 0 * (fun _ => 0) w)); [apply X; intro; ring|]. rewrite S. ring.
  - rewrite (A (fun w => total n (fun i => g i w)) (g n)), IH. reflexivity.
Qed.
Lemma mean_total2 m n c g : E (fun w => total2 m n (fun i j => c i j * g i j w)) = total2 m n (fun i j => c i j * E (g i j)).
Proof.
  destruct HE as (X & A & S). unfold total2. rewrite (mean_total m (fun i w => total n (fun j => c i j * g i j w))). apply total_ext. intros i _.
  rewrite (mean_total n (fun j w => c i j * g i j w)). apply total_ext. intros j _. apply S.
Qed.
Lemma realised f n m i j p q : (0 < rows f)%nat -> (0 < cols f)%nat -> (i + p < n)%nat -> (j + q < m)%nat ->
  white E (n + rows f - 1) (m + cols f - 1) ->
  E (fun w => at_ (discretise f n m false w) i j * at_ (discretise f n m false w) (i + p) (j + q)) = autocorrelation f p q.
Proof.
  intros R0 C0 I J W. destruct HE as (X & A & S). set (r := rows f) in *. set (c := cols f) in *.
  set (wa := fun k l (w : nat -> nat -> R) => w (i + (r - 1) - k)%nat (j + (c - 1) - l)%nat).
  set (wb := fun k l (w : nat -> nat -> R) => w (i + p + (r - 1) - k)%nat (j + q + (c - 1) - l)%nat).
  transitivity (E (fun w => total2 r c (fun k l => at_ f k l * total2 r c (fun k' l' => at_ f k' l' * (wa k l w * wb k' l' w))))).
  { apply X. intro w. rewrite !discretise_window by lia. fold r c. rewrite Rmult_comm, <- total2_scal. apply total2_ext. intros k l _ _.
    rewrite <- Rmult_assoc, (Rmult_comm _ (at_ f k l)), Rmult_assoc. f_equal. rewrite Rmult_comm, <- total2_scal. apply total2_ext. intros k' l' _ _.
    unfold wa, wb. ring. }
  rewrite (mean_total2 r c (at_ f) (fun k l w => total2 r c (fun k' l' => at_ f k' l' * (wa k l w * wb k' l' w)))).
  transitivity (total2 r c (fun k l => at_ f k l * total2 r c (fun k' l' => (if Nat.eqb k' (k + p) && Nat.eqb l' (l + q) then 1 else 0) * at_ f k' l'))).
  { apply total2_ext. intros k l K L. f_equal. rewrite (mean_total2 r c (at_ f) (fun k' l' w => wa k l w * wb k' l' w)).
    apply total2_ext. intros k' l' K' L'. rewrite Rmult_comm. f_equal. unfold wa, wb. rewrite W by lia.
    replace (Nat.eqb k' (k + p)) with (Nat.eqb (i + (r - 1) - k) (i + p + (r - 1) - k')).
    - replace (Nat.eqb l' (l + q)) with (Nat.eqb (j + (c - 1) - l) (j + q + (c - 1) - l')); [reflexivity|].
      destruct (Nat.eqb_spec l' (l + q)), (Nat.eqb_spec (j + (c - 1) - l) (j + q + (c - 1) - l')); lia.
    - destruct (Nat.eqb_spec k' (k + p)), (Nat.eqb_spec (i + (r - 1) - k) (i + p + (r - 1) - k')); lia. }
  unfold autocorrelation. fold r c. unfold total2 at 3. rewrite (total_cut r (r - p)) by lia. apply total_ext. intros k K.
  destruct (Nat.ltb_spec k (r - p)) as [KP|KP].
  - rewrite (total_cut c (c - q)) by lia. apply total_ext. intros l L. destruct (Nat.ltb_spec l (c - q)) as [LQ|LQ].
    + rewrite (total2_single r c (k + p) (l + q) (at_ f)) by lia. reflexivity.
    + rewrite (total2_ext r c _ (fun _ _ => 0 * 0)), total2_scal; [ring|]. intros k' l' K' L'. rewrite (proj2 (Nat.eqb_neq l' (l + q))) by lia.
      rewrite andb_false_r. ring.
  - rewrite (total_ext c _ (fun _ => 0)); [apply total_zero|]. intros l L.
    rewrite (total2_ext r c _ (fun _ _ => 0 * 0)), total2_scal; [ring|]. intros k' l' K' L'. rewrite (proj2 (Nat.eqb_neq k' (k + p))) by lia.
    cbn [andb]. ring.
Qed.
End Mean.

(** ** The start *)
Lemma guess_power t : (0 < rows t)%nat -> (0 < cols t)%nat -> 0 < at_ t 0 0 -> autocorrelation (initial_guess t) 0 0 = at_ t 0 0.
Proof.
  intros R0 C0 T. rewrite autocorrelation_zero. unfold initial_guess. cbn [rows cols at_].
  set (c := fun i j => at_ t i j / (INR (rows t - i) * INR (cols t - j))).
  set (q := total2 (rows t) (cols t) (fun i j => c i j ^ 2)).
  assert (Q : rsum (rows t) (fun i => rsum (cols t) (fun j => c i j ^ 2)) = q).
  { unfold q, total2. rewrite rsum_total. apply total_ext. intros. apply rsum_total. }
  change (total2 (rows t) (cols t) (fun k l => (c k l * Rpower (at_ t 0 0 / rsum (rows t) (fun i => rsum (cols t) (fun j => c i j ^ 2))) 0.5) ^ 2) = at_ t 0 0).
  rewrite Q.
  assert (QP : 0 < q).
  { assert (CP : 0 < c 0%nat 0%nat). { unfold c. rewrite !Nat.sub_0_r. apply Rdiv_lt_0_compat; [exact T|]. apply Rmult_lt_0_compat; now apply lt_0_INR. }
    unfold q, total2. apply Rlt_le_trans with (total 1 (fun i => total (cols t) (fun j => c i j ^ 2))).
    - cbn [total]. rewrite Rplus_0_l. apply Rlt_le_trans with (total 1 (fun j => c 0%nat j ^ 2)).
      + cbn [total]. rewrite Rplus_0_l. now apply pow_lt.
      + pose proof (total_part (cols t) (cols t - 1) (fun j => c 0%nat j ^ 2)) as H.
        replace (cols t - (cols t - 1))%nat with 1%nat in H by lia. apply H. intros. apply pow2_ge_0.
    - pose proof (total_part (rows t) (rows t - 1) (fun i => total (cols t) (fun j => c i j ^ 2))) as H.
      replace (rows t - (rows t - 1))%nat with 1%nat in H by lia. apply H.
      intros. apply total_nonneg. intros. apply pow2_ge_0. }
  assert (S : 0 < at_ t 0 0 / q) by now apply Rdiv_lt_0_compat.
  rewrite (total2_ext _ _ _ (fun k l => at_ t 0 0 / q * c k l ^ 2)).
  - rewrite total2_scal. fold q. field. lra.
  - intros k l _ _. rewrite Rpow_mult_distr. rewrite Rmult_comm. f_equal.
    replace (Rpower (at_ t 0 0 / q) 0.5 ^ 2) with (Rpower (at_ t 0 0 / q) 0.5 * Rpower (at_ t 0 0 / q) 0.5) by ring.
    rewrite <- Rpower_plus. replace (0.5 + 0.5) with 1 by lra. now apply Rpower_1.
Qed.

(** ** Moments *)
Lemma kurtosis_terms q b : (0 < q)%nat ->
  total (q - 1) (fun i => total (q - i) (fun d => b i * b (i + d)%nat)) =
  total q (fun j => total j (fun i => b i * b j)) + total (q - 1) (fun i => b i ^ 2).
Proof.
  intro Q.
  transitivity (total q (fun i => total q (fun j => if Nat.ltb i j then b i * b j else 0)) + total (q - 1) (fun i => b i ^ 2)).
  - transitivity (total (q - 1) (fun i => total q (fun j => if Nat.ltb i j then b i * b j else 0)) + total (q - 1) (fun i => b i ^ 2)).
    + rewrite <- total_add. apply total_ext. intros i I. replace (q - i)%nat with (1 + (q - i - 1))%nat by lia. rewrite total_split.
      cbn [total]. rewrite Nat.add_0_r, Rplus_0_l, Rplus_comm. f_equal; [|ring].
      transitivity (total (q - (i + 1)) (fun j => b i * b (j + (i + 1))%nat)).
      * replace (q - (i + 1))%nat with (q - i - 1)%nat by lia. apply total_ext. intros. f_equal. f_equal. lia.
      * rewrite (total_move q (i + 1) (fun j => b i * b j)) by lia. apply total_ext. intros j J.
        destruct (Nat.leb_spec (i + 1) j), (Nat.ltb_spec i j); try lia; reflexivity.
    + f_equal. symmetry. apply total_more; [lia|]. intros i I1 I2. rewrite (total_ext q _ (fun _ => 0)); [apply total_zero|].
      intros j J. rewrite (proj2 (Nat.ltb_ge i j)) by lia. reflexivity.
  - f_equal. rewrite total_swap. apply total_ext. intros j J. symmetry. rewrite (total_cut q j) by lia. reflexivity.
Qed.
Lemma square_terms q b : total q b ^ 2 = total q (fun i => b i ^ 2) + 2 * total q (fun j => total j (fun i => b i * b j)).
Proof.
  induction q as [|q IH]; cbn [total]; [ring|].
  replace ((total q b + b q) ^ 2) with (total q b ^ 2 + 2 * (b q * total q b) + b q ^ 2) by ring. rewrite IH.
  rewrite (total_ext q (fun i => b i * b q) (fun i => b q * b i)) by (intros; ring). rewrite total_scal. ring.
Qed.

(** ** Perfect fits *)
Lemma flat_cell m n g i j : (i < m)%nat -> (j < n)%nat ->
  nth (i * n + j) (flat_map (fun i => map (fun j => g i j) (seq 0 n)) (seq 0 m)) 0 = g i j.
Proof.
  assert (G : forall k s i, (i < k)%nat -> (j < n)%nat -> nth (i * n + j) (flat_map (fun i => map (fun j => g i j) (seq 0 n)) (seq s k)) 0 = g (s + i)%nat j).
  { induction k as [|k IH]; intros s i0 I J; [lia|]. cbn [seq flat_map]. destruct i0 as [|i0].
    - rewrite app_nth1 by (rewrite map_length, seq_length; lia). cbn [Nat.mul Nat.add]. rewrite nth_indep with (d' := g s 0%nat) by (rewrite map_length, seq_length; lia).
      rewrite map_nth with (f := fun j => g s j), seq_nth by lia. now rewrite Nat.add_0_r, Nat.add_0_l.
    - rewrite app_nth2 by (rewrite map_length, seq_length; lia). rewrite map_length, seq_length.
      replace (S i0 * n + j - n)%nat with (i0 * n + j)%nat by lia. rewrite IH by lia. f_equal. lia. }
  intros I J. exact (G m 0%nat i I J).
Qed.
Lemma reshape_flatten g : forall i j, (i < rows g)%nat -> (j < cols g)%nat -> at_ (reshape (rows g) (cols g) (flatten g)) i j = at_ g i j.
Proof. intros i j I J. apply (flat_cell (rows g) (cols g) (at_ g) i j I J). Qed.
Lemma total_null n f : (forall i, (i < n)%nat -> 0 <= f i) -> total n f = 0 -> forall i, (i < n)%nat -> f i = 0.
Proof.
  induction n as [|n IH]; intros P T i I; [lia|]. cbn [total] in T.
  pose proof (total_nonneg n f ltac:(intros; apply P; lia)). pose proof (P n ltac:(lia)).
  destruct (Nat.eq_dec i n) as [->|NE]; [lra|]. apply IH; [intros; apply P; lia|lra|lia].
Qed.
Lemma misfit_zero t a : misfit t a = 0 <-> forall p q, (p < rows t)%nat -> (q < cols t)%nat -> autocorrelation a p q = at_ t p q.
Proof.
  split.
  - intros M p q P Q.
    assert (S1 := total_null (rows t) _ (fun i _ => total_nonneg (cols t) (fun j => (at_ t i j - autocorrelation a i j) ^ 2) (fun _ _ => pow2_ge_0 _)) M p P).
    assert (S2 := total_null (cols t) (fun j => (at_ t p j - autocorrelation a p j) ^ 2) (fun _ _ => pow2_ge_0 _) S1 q Q). cbn beta in S2. nra.
  - intro H. unfold misfit. rewrite (total2_ext _ _ _ (fun _ _ => 0 * 0)), total2_scal; [ring|]. intros p q P Q. rewrite H by assumption. ring.
Qed.
Lemma autocorrelation_ext a b p q : rows a = rows b -> cols a = cols b -> (forall i j, (i < rows a)%nat -> (j < cols a)%nat -> at_ a i j = at_ b i j) ->
  autocorrelation a p q = autocorrelation b p q.
Proof.
  intros R C H. unfold autocorrelation. rewrite <- R, <- C. apply total2_ext. intros k l K L. now rewrite !H by lia.
Qed.
