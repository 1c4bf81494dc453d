(** More lemmas on discrete Fourier transforms: the other inversion, conjugates, Parseval. *)
From Coq Require Import Reals List Bool Arith ZArith Lia Lra.
From Verif Require Import Py SurfaceModel ConvModel ConvSpec ConvProofs.
Import ListNotations.
Local Open Scope R_scope.
Add Ring cplx_ring_dft : cplx_ring.

Definition opp (n k : nat) : nat := Nat.modulo (n - k) n.
Lemma opp_lt n k : (k < n)%nat -> (opp n k < n)%nat.
Proof. intro. apply Nat.mod_upper_bound. lia. Qed.
Lemma opp_opp n k : (k < n)%nat -> opp n (opp n k) = k.
Proof.
  intro K. unfold opp. destruct (Nat.eq_dec k 0) as [->|E].
  - rewrite Nat.sub_0_r, Nat.mod_same, Nat.sub_0_r, Nat.mod_same by lia. reflexivity.
  - rewrite (Nat.mod_small (n - k)) by lia. rewrite Nat.mod_small by lia. lia.
Qed.
Lemma opp_0 n : (0 < n)%nat -> opp n 0 = 0%nat.
Proof. intro. unfold opp. rewrite Nat.sub_0_r. apply Nat.mod_same. lia. Qed.
Lemma root_opp n k i : (k < n)%nat -> root n (Z.of_nat (opp n k * i)) = root n (- Z.of_nat (k * i)).
Proof.
  intro K. unfold opp. destruct (Nat.eq_dec k 0) as [->|E].
  - rewrite Nat.sub_0_r, Nat.mod_same by lia. reflexivity.
  - rewrite Nat.mod_small by lia. apply (root_cong _ _ _ (Z.of_nat i)); [lia|]. nia.
Qed.
Lemma fft2_conj_any m n x k l : (k < m)%nat -> (l < n)%nat ->
  fft2 m n (fun i j => conj (x i j)) k l = conj (fft2 m n x (opp m k) (opp n l)).
Proof.
  intros K L. unfold fft2. rewrite csum_conj. apply csum_ext. intros i _. rewrite csum_conj. apply csum_ext. intros j _.
  rewrite !conj_mul, !root_opp by assumption. rewrite !root_conj, !Z.opp_involutive. reflexivity.
Qed.
Lemma fft2_ifft2 m n z k l : (k < m)%nat -> (l < n)%nat -> fft2 m n (ifft2 m n z) k l = z k l.
Proof.
  intros Hi Hj.
  (* the inverse transform is a transform with the conjugate, scaled *)
  assert (I : forall z i j, ifft2 m n z i j = conj (cmul (creal (/ (INR m * INR n))) (fft2 m n (fun a b => conj (z a b)) i j))).
  { clear. intros z i j. unfold ifft2, fft2. rewrite conj_mul, conj_real. f_equal. rewrite csum_conj. apply csum_ext. intros k _.
    rewrite csum_conj. apply csum_ext. intros l _. rewrite !conj_mul, !root_conj. rewrite (Nat.mul_comm i k), (Nat.mul_comm j l). f_equal.
    unfold conj. destruct (z k l). cbn [fst snd]. f_equal. ring. }
  assert (CC : forall a, conj (conj a) = a) by (intros [a b]; unfold conj; cbn [fst snd]; f_equal; ring).
  rewrite (fft2_ext m n _ (fun i j => conj (cmul (creal (/ (INR m * INR n))) (fft2 m n (fun a b => conj (z a b)) i j)))) by (intros; apply I).
  set (y := fft2 m n (fun a b => conj (z a b))).
  assert (E := inversion2 m n (fun a b => conj (z a b)) k l Hi Hj). fold y in E. rewrite I in E. cbv beta in E.
  rewrite <- (CC (z k l)), <- E, CC. unfold fft2. rewrite <- csum_scal. apply csum_ext. intros i _. rewrite <- csum_scal. apply csum_ext. intros j _.
  rewrite conj_mul, conj_real. ring.
Qed.
(** The transform of the real part. *)
Lemma conj_conj a : conj (conj a) = a.
Proof. destruct a as [x y]. unfold conj. cbn [fst snd]. f_equal. ring. Qed.
Lemma fft2_lin m n a x y k l : fft2 m n (fun i j => cmul a (cadd (x i j) (y i j))) k l = cmul a (cadd (fft2 m n x k l) (fft2 m n y k l)).
Proof.
  unfold fft2. rewrite <- csum_add, <- csum_scal. apply csum_ext. intros i _. rewrite <- csum_add, <- csum_scal. apply csum_ext. intros j _. ring.
Qed.
Lemma fft2_real_part m n w k l : (k < m)%nat -> (l < n)%nat ->
  fft2 m n (fun i j => creal (fst (ifft2 m n w i j))) k l = cmul (creal (/ 2)) (cadd (w k l) (conj (w (opp m k) (opp n l)))).
Proof.
  intros K L.
  rewrite (fft2_ext m n _ (fun i j => cmul (creal (/ 2)) (cadd (ifft2 m n w i j) (conj (ifft2 m n w i j))))).
  - rewrite fft2_lin, fft2_conj_any by assumption. rewrite !fft2_ifft2 by (try apply opp_lt; assumption). reflexivity.
  - intros i j _ _. destruct (ifft2 m n w i j) as [x y]. unfold creal, cmul, cadd, conj. cbn [fst snd]. f_equal; field.
Qed.
(** Parseval *)
Definition cnorm2 (z : cplx) : R := fst z ^ 2 + snd z ^ 2.
Lemma cnorm2_conj z : cmul z (conj z) = creal (cnorm2 z).
Proof. destruct z as [x y]. unfold cmul, conj, creal, cnorm2. cbn [fst snd]. f_equal; ring. Qed.
Lemma csum_total n f : csum n (fun i => creal (f i)) = creal (total n f).
Proof. apply csum_real. Qed.
Lemma parseval m n x : (0 < m)%nat -> (0 < n)%nat ->
  total2 m n (fun i j => x i j ^ 2) * (INR m * INR n) = total2 m n (fun k l => cnorm2 (fft2 m n (fun i j => creal (x i j)) k l)).
Proof.
  intros M N. set (X := fft2 m n (fun i j => creal (x i j))).
  assert (MN : INR m <> 0 /\ INR n <> 0) by (split; apply not_0_INR; lia).
  assert (E : creal (total2 m n (fun k l => cnorm2 (X k l))) = cmul (creal (INR m * INR n)) (creal (total2 m n (fun i j => x i j ^ 2)))).
  2:{ apply (f_equal fst) in E. unfold creal, cmul in E. cbn [fst snd] in E. lra. }
  unfold total2. rewrite <- !csum_total.
  transitivity (csum m (fun k => csum n (fun l => cmul (X k l) (conj (X k l))))).
  { apply csum_ext. intros k _. rewrite <- csum_total. apply csum_ext. intros l _. symmetry. apply cnorm2_conj. }
  transitivity (csum m (fun k => csum n (fun l => csum m (fun i => csum n (fun j =>
     cmul (creal (x i j)) (cmul (X k l) (cmul (root m (- Z.of_nat (k * i))) (root n (- Z.of_nat (l * j)))))))))).
  { apply csum_ext. intros k _. apply csum_ext. intros l _. unfold X at 2. unfold fft2. rewrite csum_conj, <- csum_scal. apply csum_ext. intros i _.
    rewrite csum_conj, <- csum_scal. apply csum_ext. intros j _. rewrite !conj_mul, conj_real, !root_conj. ring. }
  rewrite csum4. rewrite <- csum_scal. apply csum_ext. intros i I. rewrite <- csum_total, <- csum_scal. apply csum_ext. intros j J.
  transitivity (cmul (creal (x i j)) (csum m (fun k => csum n (fun l => cmul (X k l) (cmul (root m (- Z.of_nat (k * i))) (root n (- Z.of_nat (l * j)))))))).
  { rewrite <- csum_scal. apply csum_ext. intros k _. rewrite <- csum_scal. reflexivity. }
  assert (V := inversion2 m n (fun i j => creal (x i j)) i j I J). fold X in V. cbv beta in V. unfold ifft2 in V. set (s := csum m _) in *.
  assert (SV : s = cmul (creal (INR m * INR n)) (creal (x i j))).
  { rewrite <- V. unfold cmul, creal. destruct s as [s1 s2]. cbn [fst snd]. f_equal; field; tauto. }
  rewrite SV. unfold cmul, creal. cbn [fst snd]. f_equal; ring.
Qed.
