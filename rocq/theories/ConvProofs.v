(** Proofs about convolutions. *)
From Coq Require Import String List Bool Arith ZArith Reals Lia Lra Ring FinFun.
From Verif Require Import Py SurfaceModel ConvModel ConvSpec.
Import ListNotations.
Local Open Scope R_scope.

(** ** Complex arithmetic *)
Definition copp (a : cplx) : cplx := (- fst a, - snd a).
Definition csub (a b : cplx) : cplx := cadd a (copp b).
Lemma cplx_eq (a b : cplx) : fst a = fst b -> snd a = snd b -> a = b.
Proof. destruct a, b; cbn; intros -> ->; reflexivity. Qed.
Lemma cplx_ring : ring_theory c0 c1 cadd cmul csub copp (@eq cplx).
Proof. constructor; intros; apply cplx_eq; unfold csub, cadd, cmul, copp, c0, c1; cbn [fst snd]; ring. Qed.
Add Ring cplx_ring : cplx_ring.

Lemma creal_mul a b : creal (a * b) = cmul (creal a) (creal b).
Proof. apply cplx_eq; cbn; ring. Qed.
Lemma creal_add a b : creal (a + b) = cadd (creal a) (creal b).
Proof. apply cplx_eq; cbn; ring. Qed.
Lemma conj_mul a b : conj (cmul a b) = cmul (conj a) (conj b).
Proof. apply cplx_eq; cbn; ring. Qed.
Lemma conj_add a b : conj (cadd a b) = cadd (conj a) (conj b).
Proof. apply cplx_eq; cbn; ring. Qed.
Lemma conj_real a : conj (creal a) = creal a.
Proof. apply cplx_eq; cbn; ring. Qed.

(** ** Sums *)
Lemma csum_ext n f g : (forall i, (i < n)%nat -> f i = g i) -> csum n f = csum n g.
Proof. induction n as [|n IH]; intros H; [reflexivity|]. cbn. rewrite IH, H by (intros; try apply H; lia). reflexivity. Qed.
Lemma csum_add n f g : csum n (fun i => cadd (f i) (g i)) = cadd (csum n f) (csum n g).
Proof. induction n as [|n IH]; cbn [csum]; [ring|]. rewrite IH. ring. Qed.
Lemma csum_scal n c f : csum n (fun i => cmul c (f i)) = cmul c (csum n f).
Proof. induction n as [|n IH]; cbn [csum]; [ring|]. rewrite IH. ring. Qed.
Lemma csum_scal_r n c f : csum n (fun i => cmul (f i) c) = cmul (csum n f) c.
Proof. induction n as [|n IH]; cbn [csum]; [ring|]. rewrite IH. ring. Qed.
Lemma csum_zero n : csum n (fun _ => c0) = c0.
Proof. induction n as [|n IH]; cbn [csum]; [ring|]. rewrite IH. ring. Qed.
Lemma csum_one n : csum n (fun _ => c1) = creal (INR n).
Proof. induction n as [|n IH]; [reflexivity|]. cbn [csum]. rewrite IH, S_INR. apply cplx_eq; cbn; ring. Qed.
Lemma csum_swap m n f : csum m (fun i => csum n (fun j => f i j)) = csum n (fun j => csum m (fun i => f i j)).
Proof.
  induction m as [|m IH]; cbn [csum]; [symmetry; apply csum_zero|].
  rewrite IH, <- csum_add. reflexivity.
Qed.
Lemma csum_single n k c : (k < n)%nat -> csum n (fun i => if Nat.eqb i k then c i else c0) = c k.
Proof.
  induction n as [|n IH]; intros H; [lia|]. cbn [csum]. destruct (Nat.eqb_spec n k) as [->|E].
  - rewrite (csum_ext k _ (fun _ => c0)); [rewrite csum_zero; ring|].
    intros i Hi. destruct (Nat.eqb_spec i k); [lia|reflexivity].
  - rewrite IH by lia. ring.
Qed.
Lemma csum_first n f : csum (S n) f = cadd (f O) (csum n (fun i => f (S i))).
Proof. induction n as [|n IH]; [cbn; apply cplx_eq; cbn; ring|]. cbn [csum] in *. rewrite IH. ring. Qed.
Lemma csum_conj n f : conj (csum n f) = csum n (fun i => conj (f i)).
Proof. induction n as [|n IH]; [apply cplx_eq; cbn; ring|]. cbn [csum]. rewrite conj_add, IH. reflexivity. Qed.

(** Indices modulo the size. *)
Definition zmod (n : nat) (z : Z) : nat := Z.to_nat (z mod Z.of_nat n).
Lemma zmod_lt n z : (0 < n)%nat -> (zmod n z < n)%nat.
Proof. intros H. unfold zmod. pose proof (Z.mod_pos_bound z (Z.of_nat n)). lia. Qed.
Lemma zmod_of n z : (0 < n)%nat -> Z.of_nat (zmod n z) = (z mod Z.of_nat n)%Z.
Proof. intros H. unfold zmod. pose proof (Z.mod_pos_bound z (Z.of_nat n)). lia. Qed.
Lemma zmod_small n i : (i < n)%nat -> zmod n (Z.of_nat i) = i.
Proof. intros H. unfold zmod. rewrite Z.mod_small by lia. lia. Qed.
Lemma zmod_cong n a b k : (0 < n)%nat -> (a = b + k * Z.of_nat n)%Z -> zmod n a = zmod n b.
Proof. intros H ->. unfold zmod. rewrite Z.mod_add by lia. reflexivity. Qed.
Lemma zmod_spec n z : (0 < n)%nat -> exists k, (Z.of_nat (zmod n z) = z + k * Z.of_nat n)%Z.
Proof. intros H. rewrite zmod_of by exact H. exists (- (z / Z.of_nat n))%Z. pose proof (Z.div_mod z (Z.of_nat n)). lia. Qed.
Lemma zmod_unique n z k i : (i < n)%nat -> (Z.of_nat i = z + k * Z.of_nat n)%Z -> zmod n z = i.
Proof. intros H E. rewrite <- (zmod_small n i H). apply (zmod_cong _ _ _ (- k)); lia. Qed.

Lemma csum_shift1 n f : (0 < n)%nat -> csum n (fun i => f (zmod n (Z.of_nat i - 1))) = csum n f.
Proof.
  destruct n as [|n]; [lia|]. intros _. rewrite csum_first. cbn [csum].
  rewrite (zmod_unique (S n) _ 1 n) by lia.
  rewrite (csum_ext n (fun i => f (zmod (S n) (Z.of_nat (S i) - 1))) f); [ring|].
  intros i Hi. f_equal. apply (zmod_unique _ _ 0); lia.
Qed.
Lemma csum_shift_nat n f (a : nat) : (0 < n)%nat -> csum n (fun i => f (zmod n (Z.of_nat i - Z.of_nat a))) = csum n f.
Proof.
  intros Hn. induction a as [|a IH].
  - apply csum_ext. intros i Hi. f_equal. apply (zmod_unique _ _ 0); lia.
  - rewrite <- IH. rewrite <- (csum_shift1 n (fun i => f (zmod n (Z.of_nat i - Z.of_nat a)))) by exact Hn.
    apply csum_ext. intros i Hi. cbn beta. f_equal. destruct (zmod_spec n (Z.of_nat i - 1) Hn) as [k E].
    apply (zmod_cong _ _ _ (- k) Hn). lia.
Qed.
Lemma csum_shift n f (a : Z) : (0 < n)%nat -> csum n (fun i => f (zmod n (Z.of_nat i - a))) = csum n f.
Proof.
  intros Hn. rewrite <- (csum_shift_nat n f (zmod n a) Hn). apply csum_ext. intros i Hi. f_equal.
  destruct (zmod_spec n a Hn) as [k E]. apply (zmod_cong _ _ _ k Hn). lia.
Qed.

(** ** Roots of unity *)
Lemma root_add n a b : cmul (root n a) (root n b) = root n (a + b).
Proof.
  unfold root, cis. rewrite plus_IZR.
  replace (- (2 * PI * (IZR a + IZR b) / INR n)) with (- (2 * PI * IZR a / INR n) + - (2 * PI * IZR b / INR n))
    by (unfold Rdiv; ring).
  rewrite cos_plus, sin_plus. apply cplx_eq; cbn [fst snd cmul]; ring.
Qed.
Lemma root_0 n : root n 0 = c1.
Proof.
  unfold root, cis. replace (- (2 * PI * IZR 0 / INR n)) with 0 by (unfold Rdiv; ring).
  rewrite cos_0, sin_0. reflexivity.
Qed.
Lemma root_conj n a : conj (root n a) = root n (- a).
Proof.
  unfold root, cis, conj. cbn [fst snd]. rewrite opp_IZR.
  replace (- (2 * PI * - IZR a / INR n)) with (- - (2 * PI * IZR a / INR n)) by (unfold Rdiv; ring).
  rewrite Ropp_involutive, cos_neg, sin_neg, Ropp_involutive. reflexivity.
Qed.
Lemma trig_nat (k : nat) : cos (2 * PI * INR k) = 1 /\ sin (2 * PI * INR k) = 0.
Proof.
  split.
  - replace (2 * PI * INR k) with (0 + 2 * INR k * PI) by ring. rewrite cos_period. apply cos_0.
  - replace (2 * PI * INR k) with (0 + 2 * INR k * PI) by ring. rewrite sin_period. apply sin_0.
Qed.
Lemma trig_int (k : Z) : cos (2 * PI * IZR k) = 1 /\ sin (2 * PI * IZR k) = 0.
Proof.
  destruct (Z_le_gt_dec 0 k) as [H|H].
  - rewrite <- (Z2Nat.id k H), <- INR_IZR_INZ. apply trig_nat.
  - destruct (trig_nat (Z.to_nat (- k))) as [A B].
    rewrite INR_IZR_INZ, Z2Nat.id, opp_IZR in A, B by lia.
    replace (2 * PI * - IZR k) with (- (2 * PI * IZR k)) in A, B by ring.
    rewrite cos_neg in A. rewrite sin_neg in B. split; lra.
Qed.
Lemma root_full n k : (0 < n)%nat -> root n (k * Z.of_nat n) = c1.
Proof.
  intros Hn. unfold root, cis. rewrite mult_IZR, <- INR_IZR_INZ.
  assert (INR n <> 0) by (apply not_0_INR; lia).
  replace (- (2 * PI * (IZR k * INR n) / INR n)) with (- (2 * PI * IZR k)) by (field; assumption).
  rewrite cos_neg, sin_neg. destruct (trig_int k) as [-> ->]. apply cplx_eq; cbn; ring.
Qed.
Lemma root_cong n a b k : (0 < n)%nat -> (a = b + k * Z.of_nat n)%Z -> root n a = root n b.
Proof. intros Hn ->. rewrite <- root_add, root_full by exact Hn. ring. Qed.

Lemma root_neq n d : (0 < n)%nat -> (d mod Z.of_nat n <> 0)%Z -> root n d <> c1.
Proof.
  intros Hn Hd E.
  assert (E' : root n (d mod Z.of_nat n) = c1).
  { rewrite <- E. apply (root_cong _ _ _ (- (d / Z.of_nat n)) Hn). pose proof (Z.div_mod d (Z.of_nat n)). lia. }
  clear E. pose proof (Z.mod_pos_bound d (Z.of_nat n) ltac:(lia)) as B.
  set (r := (d mod Z.of_nat n)%Z) in *. unfold root, cis in E'. apply (f_equal fst) in E'. cbn in E'.
  rewrite cos_neg in E'.
  assert (Hn' : 0 < INR n) by (apply lt_0_INR; exact Hn).
  assert (Hr : 0 < IZR r) by (apply (IZR_lt 0); lia).
  assert (Hr' : IZR r < INR n) by (rewrite INR_IZR_INZ; apply IZR_lt; lia).
  set (x := PI * IZR r / INR n) in *.
  replace (2 * PI * IZR r / INR n) with (2 * x) in E' by (unfold x; field; lra).
  rewrite cos_2a_sin in E'.
  assert (0 < x).
  { unfold x. apply Rdiv_lt_0_compat; [|exact Hn']. apply Rmult_lt_0_compat; [apply PI_RGT_0|exact Hr]. }
  assert (x < PI).
  { unfold x. apply (Rmult_lt_reg_r (INR n)); [exact Hn'|].
    replace (PI * IZR r / INR n * INR n) with (PI * IZR r) by (field; lra).
    apply Rmult_lt_compat_l; [apply PI_RGT_0|exact Hr']. }
  pose proof (sin_gt_0 x). nra.
Qed.

Lemma cmul_zero a b : cmul a b = c0 -> a <> c0 -> b = c0.
Proof.
  destruct a as [p q], b as [x y]. unfold cmul, c0. cbn [fst snd]. intros H N. injection H as H1 H2.
  assert (D : p * p + q * q <> 0).
  { intros E. apply N. assert (p = 0) by nra. assert (q = 0) by nra. subst. reflexivity. }
  assert (X : (p * p + q * q) * x = 0).
  { replace ((p * p + q * q) * x) with (p * (p * x - q * y) + q * (p * y + q * x)) by ring. rewrite H1, H2. ring. }
  assert (Y : (p * p + q * q) * y = 0).
  { replace ((p * p + q * q) * y) with (p * (p * y + q * x) - q * (p * x - q * y)) by ring. rewrite H1, H2. ring. }
  apply cplx_eq; cbn; [destruct (Rmult_integral _ _ X)|destruct (Rmult_integral _ _ Y)]; tauto.
Qed.

(** The geometric sum. *)
Lemma geometric n d m : cmul (csub (root n d) c1) (csum m (fun k => root n (Z.of_nat k * d))) = csub (root n (Z.of_nat m * d)) c1.
Proof.
  induction m as [|m IH].
  - cbn [csum]. change (Z.of_nat 0 * d)%Z with 0%Z. rewrite root_0. ring.
  - cbn [csum]. replace (Z.of_nat (S m) * d)%Z with (Z.of_nat m * d + d)%Z by lia. rewrite <- root_add.
    transitivity (cadd (cmul (csub (root n d) c1) (csum m (fun k => root n (Z.of_nat k * d))))
                       (cmul (csub (root n d) c1) (root n (Z.of_nat m * d)))); [ring|].
    rewrite IH. ring.
Qed.
Lemma orthogonal n d : (0 < n)%nat -> csum n (fun k => root n (Z.of_nat k * d)) =
  if (d mod Z.of_nat n =? 0)%Z then creal (INR n) else c0.
Proof.
  intros Hn. destruct (Z.eqb_spec (d mod Z.of_nat n) 0) as [E|E].
  - rewrite <- csum_one. apply csum_ext. intros k _.
    rewrite <- (root_full n (Z.of_nat k * (d / Z.of_nat n)) Hn). f_equal.
    pose proof (Z.div_mod d (Z.of_nat n)). nia.
  - apply (cmul_zero (csub (root n d) c1)).
    + rewrite geometric, (Z.mul_comm (Z.of_nat n) d), root_full by exact Hn. ring.
    + intros E0. apply (root_neq n d Hn E). transitivity (cadd (csub (root n d) c1) c1); [ring|]. rewrite E0. ring.
Qed.
Lemma orthogonal_index n a i : (i < n)%nat -> (a < n)%nat ->
  csum n (fun k => cmul (root n (Z.of_nat (k * a))) (root n (- Z.of_nat (k * i)))) =
  if Nat.eqb a i then creal (INR n) else c0.
Proof.
  intros Hi Ha.
  rewrite (csum_ext n _ (fun k => root n (Z.of_nat k * (Z.of_nat a - Z.of_nat i)))).
  - rewrite orthogonal by lia. destruct (Nat.eqb_spec a i) as [->|E].
    + rewrite Z.sub_diag, Z.mod_0_l by lia. reflexivity.
    + destruct (Z.eqb_spec ((Z.of_nat a - Z.of_nat i) mod Z.of_nat n) 0) as [E'|]; [|reflexivity].
      exfalso. apply Z.mod_divide in E'; [|lia]. destruct E' as [k E'].
      assert (C : (k = 0 \/ 1 <= k \/ k <= -1)%Z) by lia. destruct C as [->|[C|C]]; [lia|nia|nia].
  - intros k _. rewrite root_add. f_equal. lia.
Qed.

(** ** Transforms *)
Lemma fft2_ext m n x y k l : (forall i j, (i < m)%nat -> (j < n)%nat -> x i j = y i j) -> fft2 m n x k l = fft2 m n y k l.
Proof. intros H. unfold fft2. apply csum_ext. intros i Hi. apply csum_ext. intros j Hj. rewrite H by assumption. reflexivity. Qed.
Lemma ifft2_ext m n x y k l : (forall i j, (i < m)%nat -> (j < n)%nat -> x i j = y i j) -> ifft2 m n x k l = ifft2 m n y k l.
Proof. intros H. unfold ifft2. f_equal. apply csum_ext. intros i Hi. apply csum_ext. intros j Hj. rewrite H by assumption. reflexivity. Qed.

Lemma csum4 m n (f : nat -> nat -> nat -> nat -> cplx) :
  csum m (fun k => csum n (fun l => csum m (fun a => csum n (fun b => f k l a b)))) =
  csum m (fun a => csum n (fun b => csum m (fun k => csum n (fun l => f k l a b)))).
Proof.
  rewrite (csum_ext m _ (fun k => csum m (fun a => csum n (fun b => csum n (fun l => f k l a b))))).
  - rewrite csum_swap. apply csum_ext. intros a _. apply csum_swap.
  - intros k _. rewrite csum_swap. apply csum_ext. intros a _. apply csum_swap.
Qed.

Lemma inversion2 m n z i j : (i < m)%nat -> (j < n)%nat -> ifft2 m n (fft2 m n z) i j = z i j.
Proof.
  intros Hi Hj. unfold ifft2, fft2.
  rewrite (csum_ext m _ (fun k => csum n (fun l => csum m (fun a => csum n (fun b =>
    cmul (z a b) (cmul (cmul (root m (Z.of_nat (k * a))) (root m (- Z.of_nat (k * i))))
                       (cmul (root n (Z.of_nat (l * b))) (root n (- Z.of_nat (l * j)))))))))).
  2:{ intros k _. apply csum_ext. intros l _. rewrite <- csum_scal_r. apply csum_ext. intros a _.
      rewrite <- csum_scal_r. apply csum_ext. intros b _. ring. }
  rewrite csum4.
  rewrite (csum_ext m _ (fun a => if Nat.eqb a i then csum n (fun b => if Nat.eqb b j then
     cmul (z a b) (cmul (creal (INR m)) (creal (INR n))) else c0) else c0)).
  - rewrite (csum_single m i _ Hi), (csum_single n j _ Hj).
    assert (INR m <> 0) by (apply not_0_INR; lia). assert (INR n <> 0) by (apply not_0_INR; lia).
    apply cplx_eq; unfold cmul, creal; cbn [fst snd]; field; split; assumption.
  - intros a Ha. transitivity (csum n (fun b => cmul (z a b) (cmul
      (csum m (fun k => cmul (root m (Z.of_nat (k * a))) (root m (- Z.of_nat (k * i)))))
      (csum n (fun l => cmul (root n (Z.of_nat (l * b))) (root n (- Z.of_nat (l * j)))))))).
    + apply csum_ext. intros b Hb. rewrite <- csum_scal_r, <- csum_scal.
      apply csum_ext. intros k _. rewrite <- !csum_scal. apply csum_ext. intros l _. reflexivity.
    + rewrite orthogonal_index by assumption. destruct (Nat.eqb a i).
      * apply csum_ext. intros b Hb. rewrite orthogonal_index by assumption. destruct (Nat.eqb b j); ring.
      * transitivity (csum n (fun _ => c0)); [|apply csum_zero]. apply csum_ext. intros b Hb. ring.
Qed.

(** Cyclic convolution. *)
Definition cconv (m n : nat) (x y : nat -> nat -> cplx) (i j : nat) : cplx :=
  csum m (fun a => csum n (fun b => cmul (x a b) (y (zmod m (Z.of_nat i - Z.of_nat a)) (zmod n (Z.of_nat j - Z.of_nat b))))).

Lemma root_shift n k i a : (0 < n)%nat ->
  root n (Z.of_nat (k * i)) = cmul (root n (Z.of_nat (k * a))) (root n (Z.of_nat (k * zmod n (Z.of_nat i - Z.of_nat a)))).
Proof.
  intros Hn. rewrite root_add. destruct (zmod_spec n (Z.of_nat i - Z.of_nat a) Hn) as [q E].
  apply (root_cong _ _ _ (- (Z.of_nat k * q)) Hn). rewrite !Nat2Z.inj_mul, E. ring.
Qed.

Lemma fft2_conv m n x y k l : (0 < m)%nat -> (0 < n)%nat ->
  fft2 m n (cconv m n x y) k l = cmul (fft2 m n x k l) (fft2 m n y k l).
Proof.
  intros Hm Hn.
  transitivity (csum m (fun i => csum n (fun j => csum m (fun a => csum n (fun b =>
     cmul (cmul (x a b) (cmul (root m (Z.of_nat (k * a))) (root n (Z.of_nat (l * b)))))
       (cmul (y (zmod m (Z.of_nat i - Z.of_nat a)) (zmod n (Z.of_nat j - Z.of_nat b)))
         (cmul (root m (Z.of_nat (k * zmod m (Z.of_nat i - Z.of_nat a))))
               (root n (Z.of_nat (l * zmod n (Z.of_nat j - Z.of_nat b))))))))))).
  { unfold fft2, cconv. apply csum_ext. intros i _. apply csum_ext. intros j _.
    rewrite <- csum_scal_r. apply csum_ext. intros a _. rewrite <- csum_scal_r. apply csum_ext. intros b _.
    rewrite (root_shift m k i a Hm), (root_shift n l j b Hn). ring. }
  rewrite csum4. unfold fft2 at 1. rewrite <- csum_scal_r. apply csum_ext. intros a _.
  rewrite <- csum_scal_r. apply csum_ext. intros b _.
  set (F i j := cmul (y i j) (cmul (root m (Z.of_nat (k * i))) (root n (Z.of_nat (l * j))))).
  transitivity (csum m (fun i => csum n (fun j => cmul (cmul (x a b) (cmul (root m (Z.of_nat (k * a))) (root n (Z.of_nat (l * b)))))
     (F (zmod m (Z.of_nat i - Z.of_nat a)) (zmod n (Z.of_nat j - Z.of_nat b)))))); [reflexivity|].
  rewrite (csum_ext m _ (fun i => cmul (cmul (x a b) (cmul (root m (Z.of_nat (k * a))) (root n (Z.of_nat (l * b)))))
     (csum n (F (zmod m (Z.of_nat i - Z.of_nat a)))))).
  - rewrite csum_scal. f_equal.
    exact (csum_shift m (fun i => csum n (F i)) (Z.of_nat a) Hm).
  - intros i _. rewrite csum_scal. f_equal. exact (csum_shift n (F _) (Z.of_nat b) Hn).
Qed.

Theorem convolution m n x y i j : (i < m)%nat -> (j < n)%nat ->
  ifft2 m n (fun k l => cmul (fft2 m n x k l) (fft2 m n y k l)) i j = cconv m n x y i j.
Proof.
  intros Hi Hj. rewrite <- (inversion2 m n (cconv m n x y) i j Hi Hj).
  apply ifft2_ext. intros k l Hk Hl. symmetry. apply fft2_conv; lia.
Qed.

(** The half spectrum. *)
Lemma fft2_conj m n (x : nat -> nat -> R) k l : (k < m)%nat -> (l < n)%nat ->
  conj (rfft2 m n x (Nat.modulo (m - k) m) (n - l)) = rfft2 m n x k l.
Proof.
  intros Hk Hl. unfold rfft2, fft2. rewrite csum_conj. apply csum_ext. intros i _. rewrite csum_conj.
  apply csum_ext. intros j _. rewrite !conj_mul, conj_real, !root_conj. f_equal. f_equal.
  - destruct (Nat.eq_dec k 0) as [->|E].
    + rewrite Nat.sub_0_r, Nat.mod_same by lia. f_equal; lia.
    + rewrite Nat.mod_small by lia. apply (root_cong _ _ _ (- Z.of_nat i)); [lia|]. nia.
  - apply (root_cong _ _ _ (- Z.of_nat j)); [lia|]. nia.
Qed.
Lemma irfft2_mul m n (x y : nat -> nat -> R) c i j :
  irfft2 m n (fun k l => cmul (rfft2 m n x k l) (cmul (rfft2 m n y k l) (creal c))) i j =
  fst (ifft2 m n (fun k l => cmul (rfft2 m n x k l) (cmul (rfft2 m n y k l) (creal c))) i j).
Proof.
  unfold irfft2. f_equal. apply ifft2_ext. intros k l Hk Hl. destruct (Nat.leb l (n / 2)); [reflexivity|].
  rewrite !conj_mul, conj_real, !fft2_conj by assumption. reflexivity.
Qed.
Lemma ifft2_scal m n x c i j : ifft2 m n (fun k l => cmul (x k l) c) i j = cmul (ifft2 m n x i j) c.
Proof.
  unfold ifft2.
  transitivity (cmul (creal (/ (INR m * INR n))) (cmul (csum m (fun k => csum n (fun l =>
    cmul (x k l) (cmul (root m (- Z.of_nat (k * i))) (root n (- Z.of_nat (l * j))))))) c)); [|ring].
  f_equal. rewrite <- csum_scal_r. apply csum_ext. intros k _. rewrite <- csum_scal_r. apply csum_ext.
  intros l _. ring.
Qed.

(** ** Real sums *)
Lemma total_ext n f g : (forall i, (i < n)%nat -> f i = g i) -> total n f = total n g.
Proof. induction n as [|n IH]; intros H; [reflexivity|]. cbn. rewrite IH, H by (intros; try apply H; lia). reflexivity. Qed.
Lemma total_add n f g : total n (fun i => f i + g i) = total n f + total n g.
Proof. induction n as [|n IH]; cbn; [lra|]. rewrite IH. lra. Qed.
Lemma total_scal n c f : total n (fun i => c * f i) = c * total n f.
Proof. induction n as [|n IH]; cbn; [lra|]. rewrite IH. lra. Qed.
Lemma total_zero n : total n (fun _ => 0) = 0.
Proof. induction n as [|n IH]; cbn; [lra|]. rewrite IH. lra. Qed.
Lemma total_single n k f : (k < n)%nat -> (forall i, (i < n)%nat -> i <> k -> f i = 0) -> total n f = f k.
Proof.
  induction n as [|n IH]; intros H Z; [lia|]. cbn. destruct (Nat.eq_dec n k) as [->|E].
  - rewrite (total_ext k f (fun _ => 0)); [rewrite total_zero; lra|]. intros i Hi. apply Z; lia.
  - rewrite IH by (try lia; intros; apply Z; lia). rewrite (Z n) by lia. lra.
Qed.
Lemma total_more n m f : (n <= m)%nat -> (forall i, (n <= i)%nat -> (i < m)%nat -> f i = 0) -> total m f = total n f.
Proof.
  induction m as [|m IH]; intros H Z; [replace n with O by lia; reflexivity|].
  destruct (Nat.eq_dec n (S m)) as [->|E]; [reflexivity|]. cbn.
  rewrite IH by (try lia; intros; apply Z; lia). rewrite Z by lia. lra.
Qed.
Lemma total_swap m n f : total m (fun i => total n (fun j => f i j)) = total n (fun j => total m (fun i => f i j)).
Proof. induction m as [|m IH]; cbn; [symmetry; apply total_zero|]. rewrite IH, <- total_add. reflexivity. Qed.
Lemma rsum_total n f : rsum n f = total n f.
Proof. induction n as [|n IH]; cbn; [|rewrite IH]; reflexivity. Qed.
Lemma csum_real n f : csum n (fun i => creal (f i)) = creal (total n f).
Proof. induction n as [|n IH]; [reflexivity|]. cbn [csum total]. rewrite IH, creal_add. reflexivity. Qed.
Lemma total_csum n f : total n f = fst (csum n (fun i => creal (f i))).
Proof. rewrite csum_real. reflexivity. Qed.
Lemma total_shift n f (a : Z) : (0 < n)%nat -> total n (fun i => f (zmod n (Z.of_nat i - a))) = total n f.
Proof. intros H. rewrite !total_csum. f_equal. exact (csum_shift n (fun i => creal (f i)) a H). Qed.

(** ** One application *)
Definition rconv (m n : nat) (x y : nat -> nat -> R) (i j : nat) : R :=
  total m (fun a => total n (fun b => x a b * y (zmod m (Z.of_nat i - Z.of_nat a)) (zmod n (Z.of_nat j - Z.of_nat b)))).
Lemma cconv_real m n x y i j :
  cconv m n (fun i j => creal (x i j)) (fun i j => creal (y i j)) i j = creal (rconv m n x y i j).
Proof.
  unfold cconv, rconv. rewrite <- csum_real. apply csum_ext. intros a _. rewrite <- csum_real.
  apply csum_ext. intros b _. symmetry. apply creal_mul.
Qed.

Lemma apply_cuda_spec m n im loads i j : (i < m)%nat -> (j < n)%nat ->
  at_ (apply_cuda m n im loads) i j = rconv m n (pad loads) (centred m n im) i j.
Proof.
  intros Hi Hj. unfold apply_cuda. cbn [at_].
  rewrite (ifft2_ext m n _ (fun k l => cmul (cmul (fft2 m n (fun i j => creal (pad loads i j)) k l)
     (fft2 m n (fun i j => creal (centred m n im i j)) k l)) (creal (1 / sqrt (INR m * INR n))))) by (intros; ring).
  rewrite ifft2_scal, convolution, cconv_real by assumption.
  assert (0 < INR m * INR n) by (apply Rmult_lt_0_compat; apply lt_0_INR; lia).
  pose proof (sqrt_lt_R0 _ H). unfold cmul, creal. cbn [fst snd]. field. lra.
Qed.
Lemma apply_fftw_cuda m n im loads i j :
  at_ (apply_fftw m n im loads) i j = at_ (apply_cuda m n im loads) i j.
Proof. unfold apply_fftw, apply_cuda. cbn [at_]. rewrite irfft2_mul. reflexivity. Qed.

(** *** Each axis *)
(** The coefficient of one axis of the rolled and padded influence matrix. *)
Definition axis_coeff (p : bool) (n m ni : nat) (i a : nat) : option nat :=
  let z := (difference p n i a + Z.of_nat ((ni - 1) / 2))%Z in
  if (0 <=? z)%Z && (z <? Z.of_nat ni)%Z then Some (Z.to_nat z) else None.

Lemma pad_roll (im : grid) m n z w : (0 < m)%nat -> (0 < n)%nat ->
  centred m n im (zmod m z) (zmod n w) =
  pad im (zmod m (z + Z.of_nat ((rows im - 1) / 2))) (zmod n (w + Z.of_nat ((cols im - 1) / 2))).
Proof.
  intros Hm Hn. unfold centred, roll.
  assert (A : forall q x s, (0 < q)%nat -> Nat.modulo (zmod q x + s) q = zmod q (x + Z.of_nat s)).
  { intros q x s Hq. rewrite <- (zmod_small q (Nat.modulo (zmod q x + s) q)) by (apply Nat.mod_upper_bound; lia).
    rewrite Nat2Z.inj_mod. destruct (zmod_spec q x Hq) as [k E].
    unfold zmod at 1. rewrite Z.mod_mod by lia. fold (zmod q (Z.of_nat (zmod q x + s))).
    apply (zmod_cong _ _ _ k Hq). lia. }
  rewrite !A by assumption. reflexivity.
Qed.

(** The transform size of an axis makes the index difference of that axis count. *)
Lemma axis_ok fast p nl ni m i a : axis_size fast p nl ni = Ok m -> (forall q, (q <= fast q)%nat) ->
  (i < nl)%nat -> (a < nl)%nat -> (0 < ni)%nat ->
  let z := (difference p nl i a + Z.of_nat ((ni - 1) / 2))%Z in
  let c := zmod m (Z.of_nat i - Z.of_nat a + Z.of_nat ((ni - 1) / 2)) in
  (i < m)%nat /\ (nl <= m)%nat /\
  (((0 <= z < Z.of_nat ni)%Z /\ Z.of_nat c = z) \/ (~ (0 <= z < Z.of_nat ni)%Z /\ (ni <= c)%nat)).
Proof.
  intros E F Hi Ha Hn. unfold axis_size in E. destruct p.
  - destruct (Nat.eqb_spec nl ni); [|discriminate]. injection E as <-. subst ni. cbn zeta.
    unfold difference, wrap. split; [exact Hi|]. split; [lia|]. left.
    replace ((Z.of_nat i - Z.of_nat a + Z.of_nat ((nl - 1) / 2)) mod Z.of_nat nl -
      Z.of_nat ((nl - 1) / 2) + Z.of_nat ((nl - 1) / 2))%Z
      with ((Z.of_nat i - Z.of_nat a + Z.of_nat ((nl - 1) / 2)) mod Z.of_nat nl)%Z by lia.
    split; [apply Z.mod_pos_bound; lia|]. apply zmod_of. lia.
  - injection E as <-. specialize (F (Nat.max nl ni)). set (m := fast (Nat.max nl ni)) in *. clearbody m.
    cbn zeta. unfold difference. replace (m + (m + 0))%nat with (2 * m)%nat by lia.
    assert (D : ((ni - 1) / 2 <= ni - 1)%nat) by (apply Nat.div_le_upper_bound; lia).
    set (s := ((ni - 1) / 2)%nat) in *. clearbody s.
    split; [lia|]. split; [lia|].
    destruct (Z_le_gt_dec 0 (Z.of_nat i - Z.of_nat a + Z.of_nat s)) as [H|H].
    + assert (C : zmod (2 * m) (Z.of_nat i - Z.of_nat a + Z.of_nat s) = (i + s - a)%nat) by (apply (zmod_unique _ _ 0); lia).
      rewrite C. destruct (Z_lt_ge_dec (Z.of_nat i - Z.of_nat a + Z.of_nat s) (Z.of_nat ni)); [left|right]; lia.
    + assert (C : zmod (2 * m) (Z.of_nat i - Z.of_nat a + Z.of_nat s) = (2 * m + i + s - a)%nat) by (apply (zmod_unique _ _ 1); lia).
      rewrite C. right. lia.
Qed.

Lemma conv_super fast p0 p1 im loads m n i j :
  axis_size fast p0 (rows loads) (rows im) = Ok m -> axis_size fast p1 (cols loads) (cols im) = Ok n ->
  (forall q, (q <= fast q)%nat) -> (i < rows loads)%nat -> (j < cols loads)%nat ->
  rconv m n (pad loads) (centred m n im) i j = superposed p0 p1 im loads i j.
Proof.
  intros E0 E1 F Hi Hj.
  assert (Lm : (rows loads <= m)%nat).
  { unfold axis_size in E0. destruct p0; [destruct (Nat.eqb _ _); [|discriminate]|]; injection E0 as <-; [lia|].
    specialize (F (Nat.max (rows loads) (rows im))). lia. }
  assert (Ln : (cols loads <= n)%nat).
  { unfold axis_size in E1. destruct p1; [destruct (Nat.eqb _ _); [|discriminate]|]; injection E1 as <-; [lia|].
    specialize (F (Nat.max (cols loads) (cols im))). lia. }
  unfold rconv, superposed, total2.
  rewrite (total_more (rows loads) m); [|exact Lm|].
  2:{ intros a Ha _. rewrite <- (total_zero n). apply total_ext. intros b _. unfold pad.
      destruct (Nat.ltb_spec a (rows loads)); [lia|]. cbn. ring. }
  apply total_ext. intros a Ha.
  rewrite (total_more (cols loads) n); [|exact Ln|].
  2:{ intros b Hb _. unfold pad. destruct (Nat.ltb_spec b (cols loads)); [lia|]. rewrite andb_false_r. ring. }
  apply total_ext. intros b Hb. unfold pad at 1.
  destruct (Nat.ltb_spec a (rows loads)); [|lia]. destruct (Nat.ltb_spec b (cols loads)); [|lia]. cbn [andb]. f_equal.
  rewrite pad_roll by lia.
  destruct (Nat.eq_dec (rows im) 0) as [Z0|Z0].
  { unfold pad, coeff. destruct (Nat.ltb_spec (zmod m (Z.of_nat i - Z.of_nat a + Z.of_nat ((rows im - 1) / 2))) (rows im)); [lia|].
    cbn [andb]. rewrite Z0. destruct (Z.leb_spec 0 (difference p0 (rows loads) i a + Z.of_nat ((0 - 1) / 2))); [|reflexivity].
    destruct (Z.ltb_spec (difference p0 (rows loads) i a + Z.of_nat ((0 - 1) / 2)) (Z.of_nat 0)); [lia|]. reflexivity. }
  destruct (Nat.eq_dec (cols im) 0) as [Z1|Z1].
  { unfold pad, coeff. destruct (Nat.ltb_spec (zmod n (Z.of_nat j - Z.of_nat b + Z.of_nat ((cols im - 1) / 2))) (cols im)); [lia|].
    rewrite andb_false_r. rewrite Z1. destruct (Z.leb_spec 0 (difference p1 (cols loads) j b + Z.of_nat ((0 - 1) / 2)));
    [|rewrite andb_false_r; reflexivity].
    destruct (Z.ltb_spec (difference p1 (cols loads) j b + Z.of_nat ((0 - 1) / 2)) (Z.of_nat 0)); [lia|]. rewrite andb_false_r. reflexivity. }
  destruct (axis_ok fast p0 _ _ m i a E0 F Hi Ha ltac:(lia)) as (_ & _ & A).
  destruct (axis_ok fast p1 _ _ n j b E1 F Hj Hb ltac:(lia)) as (_ & _ & B).
  unfold coeff, pad. cbn zeta in A, B.
  set (c := zmod m _) in *. set (d := zmod n _) in *. set (z := (difference p0 _ _ _ + _)%Z) in *.
  set (w := (difference p1 _ _ _ + _)%Z) in *. clearbody c d z w.
  destruct A as [[A A']|[A A']], B as [[B B']|[B B']];
  repeat match goal with
  | |- context [(Nat.ltb ?x ?y)] => destruct (Nat.ltb_spec x y); try lia
  | |- context [(?x <=? ?y)%Z] => destruct (Z.leb_spec x y); try lia
  | |- context [(?x <? ?y)%Z] => destruct (Z.ltb_spec x y); try lia
  end; cbn [andb]; try reflexivity.
  f_equal; lia.
Qed.

Lemma apply_spec (cuda : bool) fast p0 p1 im loads m n i j :
  axis_size fast p0 (rows loads) (rows im) = Ok m -> axis_size fast p1 (cols loads) (cols im) = Ok n ->
  (forall q, (q <= fast q)%nat) -> (i < rows loads)%nat -> (j < cols loads)%nat ->
  at_ (if cuda then apply_cuda m n im loads else apply_fftw m n im loads) i j = superposed p0 p1 im loads i j.
Proof.
  intros E0 E1 F Hi Hj.
  assert (Lm : (i < m)%nat).
  { unfold axis_size in E0. destruct p0; [destruct (Nat.eqb _ _); [|discriminate]|]; injection E0 as <-; [lia|].
    specialize (F (Nat.max (rows loads) (rows im))). lia. }
  assert (Ln : (j < n)%nat).
  { unfold axis_size in E1. destruct p1; [destruct (Nat.eqb _ _); [|discriminate]|]; injection E1 as <-; [lia|].
    specialize (F (Nat.max (cols loads) (cols im))). lia. }
  rewrite <- (conv_super fast p0 p1 im loads m n i j) by assumption.
  destruct cuda; [|rewrite apply_fftw_cuda]; apply apply_cuda_spec; assumption.
Qed.

(** ** Domains *)
Lemma NoDup_app {A} (l k : list A) : NoDup l -> NoDup k -> (forall x, In x l -> ~ In x k) -> NoDup (l ++ k).
Proof.
  intros N K H. induction N as [|x l Hx N IH]; [exact K|]. cbn. constructor.
  - rewrite in_app_iff. intros [I|I]; [exact (Hx I)|exact (H x (or_introl eq_refl) I)].
  - apply IH. intros y Hy. apply H. right. exact Hy.
Qed.
Lemma positions_nodup m n : NoDup (positions m n).
Proof.
  unfold positions. generalize 0%nat at 2 as s. induction m as [|m IH]; intros s; cbn [seq flat_map]; [constructor|].
  apply NoDup_app.
  - apply Injective_map_NoDup; [intros a b E; congruence|apply seq_NoDup].
  - apply IH.
  - intros [a b] H1 H2. apply in_map_iff in H1. destruct H1 as (y & E & _). injection E as <- <-.
    apply in_flat_map in H2. destruct H2 as (x & Hx & Hy). apply in_map_iff in Hy. destruct Hy as (z & E & _).
    injection E as -> ->. apply in_seq in Hx. lia.
Qed.
Lemma positions_in m n i j : In (i, j) (positions m n) <-> (i < m)%nat /\ (j < n)%nat.
Proof.
  unfold positions. rewrite in_flat_map. split.
  - intros (x & Hx & Hy). apply in_map_iff in Hy. destruct Hy as (y & E & Hy). injection E as -> ->.
    apply in_seq in Hx. apply in_seq in Hy. lia.
  - intros [H1 H2]. exists i. split; [apply in_seq; lia|]. apply in_map_iff. exists j. split; [reflexivity|apply in_seq; lia].
Qed.
Lemma assign_map ps v : NoDup ps -> List.length v = List.length ps ->
  map (fun p => assign ps v (fst p) (snd p)) ps = v.
Proof.
  intros N. revert v. induction N as [|[a b] l H N IH]; intros [|x v] L; try discriminate; [reflexivity|].
  cbn [map assign fst snd]. rewrite !Nat.eqb_refl. cbn [andb]. f_equal.
  transitivity (map (fun p => assign l v (fst p) (snd p)) l); [|apply IH; injection L; auto]. apply map_ext_in. intros [c d] Hin. cbn [fst snd].
  destruct (Nat.eqb_spec a c) as [->|]; [|reflexivity]. destruct (Nat.eqb_spec b d) as [->|]; [contradiction|reflexivity].
Qed.
Lemma assign_out ps v i j : ~ In (i, j) ps -> assign ps v i j = 0.
Proof.
  revert v. induction ps as [|[a b] l IH]; intros v H; [reflexivity|]. destruct v as [|x v]; [reflexivity|].
  cbn [assign fst snd]. destruct (Nat.eqb_spec a i) as [->|]; cbn [andb].
  - destruct (Nat.eqb_spec b j) as [->|]; [exfalso; apply H; left; reflexivity|apply IH; intros K; apply H; right; exact K].
  - apply IH. intros K. apply H. right. exact K.
Qed.
Lemma fill_spec m n d v : List.length v = domain_size m n d ->
  exists g, fill m n d v = Ok g /\ rows g = m /\ cols g = n /\ inside d g = v /\
    forall i j, d i j = false -> at_ g i j = 0.
Proof.
  intros L. unfold fill. change (domain_size m n d) with (List.length (chosen m n d)) in L.
  rewrite L, Nat.eqb_refl. cbn [orb].
  assert (V : match v with [x] => repeat x (List.length (chosen m n d)) | _ => v end = v).
  { destruct v as [|x [|y v]]; try reflexivity. cbn in L. rewrite <- L. reflexivity. }
  rewrite V. eexists. split; [reflexivity|]. split; [reflexivity|]. split; [reflexivity|]. split.
  - unfold inside. cbn [rows cols at_]. apply (assign_map (chosen m n d) v); [|exact L].
    unfold chosen. apply NoDup_filter. apply positions_nodup.
  - intros i j H. cbn [at_]. apply assign_out. unfold chosen. intros K. apply filter_In in K. cbn in K. destruct K. congruence.
Qed.
Lemma select_inside g d : select g d = inside d g.
Proof. reflexivity. Qed.

(** ** Loads of several directions *)
Lemma fftconvolve_spec a b i j : (i < rows a)%nat -> (j < cols a)%nat ->
  at_ (fftconvolve_same a b) i j = superposed false false b a i j.
Proof.
  intros Hi Hj. unfold fftconvolve_same, full_conv, superposed, total2. cbn [at_].
  rewrite rsum_total. apply total_ext. intros p Hp. rewrite rsum_total. apply total_ext. intros q Hq.
  unfold pad, coeff, difference. destruct (Nat.ltb_spec p (rows a)); [|lia]. destruct (Nat.ltb_spec q (cols a)); [|lia].
  cbn [andb]. set (s := ((rows b - 1) / 2)%nat). set (t := ((cols b - 1) / 2)%nat). clearbody s t.
  repeat match goal with
  | |- context [(Nat.leb ?x ?y)] => destruct (Nat.leb_spec x y)
  | |- context [(Nat.ltb ?x ?y)] => destruct (Nat.ltb_spec x y)
  | |- context [(?x <=? ?y)%Z] => destruct (Z.leb_spec x y)
  | |- context [(?x <? ?y)%Z] => destruct (Z.ltb_spec x y)
  end; cbn [andb]; try lia; try ring.
  f_equal. f_equal; lia.
Qed.

(** The sum of the responses to all components of one displacement direction. *)
Definition responses (loads : vec3) (comps : list (dirn * dirn * grid)) (d : dirn) (i j : nat) : R :=
  fold_right (fun c acc => match c with (dis, ld, im) =>
    (if dir_eqb d dis then match get loads ld with Some g => superposed false false im g i j | None => 0 end else 0) + acc end) 0 comps.
Lemma solve_im_spec loads m n comps acc :
  (forall d g, get loads d = Some g -> rows g = m /\ cols g = n) ->
  (forall c, In c comps -> get loads (snd (fst c)) <> None) ->
  (forall d, rows (acc d) = m /\ cols (acc d) = n) ->
  exists u, solve_im loads comps acc = Ok u /\ forall d, rows (u d) = m /\ cols (u d) = n /\
    forall i j, (i < m)%nat -> (j < n)%nat -> at_ (u d) i j = at_ (acc d) i j + responses loads comps d i j.
Proof.
  intros S. revert acc. induction comps as [|[[dis ld] im] l IH]; intros acc H A.
  - exists acc. split; [reflexivity|]. intros d. destruct (A d). split; [assumption|]. split; [assumption|]. intros. cbn. lra.
  - cbn [solve_im]. pose proof (H (dis, ld, im) (or_introl eq_refl)) as G. cbn [fst snd] in G.
    destruct (get loads ld) as [g|] eqn:E; [|contradiction]. clear G. destruct (S ld g E) as [R1 R2].
    destruct (A dis) as [A1 A2]. rewrite R1, R2, A1, A2, !Nat.eqb_refl. cbn [andb].
    edestruct IH as (u & U & V).
    3:{ exists u. split; [exact U|]. intros d. destruct (V d) as (V1 & V2 & V3). split; [exact V1|]. split; [exact V2|].
        intros i j Hi Hj. rewrite V3 by assumption. cbn [responses fold_right]. rewrite E. fold (responses loads l d i j).
        destruct (dir_eqb d dis); [|lra]. cbn [gplus at_]. rewrite fftconvolve_spec by lia. lra. }
    + intros c Hc. apply H. right. exact Hc.
    + intros d. cbn beta. destruct (dir_eqb d dis); cbn [gplus rows cols]; apply A.
Qed.
