(** Lemmas on fractal surfaces. *)
From Coq Require Import Reals List Bool Arith ZArith Lia Lra.
From Verif Require Import Py SurfaceModel SurfaceProofs GapProofs ConvModel ConvSpec ConvProofs DftProofs FilterProofs PerezSpec PerezProofs FractalModel FractalSpec.
Import ListNotations.
Local Open Scope R_scope.

(** ** Symmetry *)
Lemma half_even h : (2 * h / 2 = h)%nat.
Proof. rewrite Nat.mul_comm. apply Nat.div_mul. lia. Qed.
Lemma half_min a b : (0 < a)%nat -> (0 < b)%nat -> forall i, (i < 2 * a)%nat -> (minus_freq (2 * a) i < 2 * a)%nat.
Proof. intros A B i I. unfold minus_freq. destruct (Nat.eqb_spec i 0); lia. Qed.
Ltac cases :=
  repeat (match goal with
  | |- context [Nat.eqb ?x ?y] => destruct (Nat.eqb_spec x y)
  | |- context [Nat.leb ?x ?y] => destruct (Nat.leb_spec x y)
  | |- context [Nat.ltb ?x ?y] => destruct (Nat.ltb_spec x y)
  end; try lia; cbn [andb]).
Lemma conj_sym_at a (neg : bool) p q i j : rows a = (2 * p)%nat -> cols a = (2 * q)%nat -> (0 < p)%nat -> (0 < q)%nat -> (i < 2 * p)%nat -> (j < 2 * q)%nat ->
  let mult := if neg then -1 else 1 in
  at_ (conj_sym a neg) i j =
    if (Nat.eqb i 0 || Nat.eqb i p) && (Nat.eqb j 0 || Nat.eqb j q) then 0
    else if Nat.ltb 0 j && Nat.ltb j q || Nat.ltb p i && (Nat.eqb j 0 || Nat.eqb j q) then mult * at_ a (minus_freq (2 * p) i) (minus_freq (2 * q) j)
    else at_ a i j.
Proof.
  intros R C P Q I J mult. unfold conj_sym. cbn [rows cols at_] in *. rewrite R, C. rewrite !half_even. fold mult. unfold minus_freq.
  destruct (Nat.eq_dec i 0) as [I0|I0], (Nat.eq_dec i p) as [I1|I1], (Nat.eq_dec j 0) as [J0|J0], (Nat.eq_dec j q) as [J1|J1], (lt_dec j q), (lt_dec p i); try lia;
  repeat match goal with
  | |- context [Nat.eqb ?x ?y] => first [rewrite (proj2 (Nat.eqb_eq x y)) by lia | rewrite (proj2 (Nat.eqb_neq x y)) by lia]
  | |- context [Nat.leb ?x ?y] => first [rewrite (proj2 (Nat.leb_le x y)) by lia | rewrite (proj2 (Nat.leb_gt x y)) by lia]
  | |- context [Nat.ltb ?x ?y] => first [rewrite (proj2 (Nat.ltb_lt x y)) by lia | rewrite (proj2 (Nat.ltb_ge x y)) by lia]
  end; cbn [andb orb]; rewrite ?Rmult_0_r; try reflexivity; subst; try reflexivity; f_equal; f_equal; lia.
Qed.

Lemma minus_twice n i : (i < n)%nat -> minus_freq n (minus_freq n i) = i.
Proof. intro I. unfold minus_freq. destruct (Nat.eqb_spec i 0) as [->|E]; [reflexivity|]. rewrite (proj2 (Nat.eqb_neq (n - i) 0)) by lia. lia. Qed.
Lemma minus_lt n i : (i < n)%nat -> (minus_freq n i < n)%nat.
Proof. intro I. unfold minus_freq. destruct (Nat.eqb_spec i 0); lia. Qed.
Lemma conj_sym_even a (neg : bool) p q : rows a = (2 * p)%nat -> cols a = (2 * q)%nat -> (0 < p)%nat -> (0 < q)%nat ->
  even_centred (if neg then -1 else 1) (conj_sym a neg).
Proof.
  intros R C P Q i j I J. change (rows (conj_sym a neg)) with (rows a) in *. change (cols (conj_sym a neg)) with (cols a) in *. rewrite R, C in *.
  rewrite (conj_sym_at a neg p q i j R C P Q I J). rewrite (conj_sym_at a neg p q _ _ R C P Q (minus_lt _ _ I) (minus_lt _ _ J)).
  set (mult := if neg then -1 else 1).
  assert (MM : forall x, x = mult * (mult * x)) by (intro; unfold mult; destruct neg; ring).
  rewrite !minus_twice by assumption.
  unfold minus_freq. destruct (Nat.eq_dec i 0) as [I0|I0], (Nat.eq_dec i p) as [I1|I1], (Nat.eq_dec j 0) as [J0|J0], (Nat.eq_dec j q) as [J1|J1], (lt_dec j q), (lt_dec p i); try lia;
  repeat match goal with
  | |- context [Nat.eqb ?x ?y] => first [rewrite (proj2 (Nat.eqb_eq x y)) by lia | rewrite (proj2 (Nat.eqb_neq x y)) by lia]
  | |- context [Nat.ltb ?x ?y] => first [rewrite (proj2 (Nat.ltb_lt x y)) by lia | rewrite (proj2 (Nat.ltb_ge x y)) by lia]
  end; cbn [andb orb]; rewrite ?Rmult_0_r; try reflexivity; apply MM.
Qed.
Lemma conj_sym_keeps a p q i j : rows a = (2 * p)%nat -> cols a = (2 * q)%nat -> (0 < p)%nat -> (0 < q)%nat -> (i < 2 * p)%nat -> (j < 2 * q)%nat ->
  even_centred 1 a ->
  at_ (conj_sym a false) i j = if (Nat.eqb i 0 || Nat.eqb i p) && (Nat.eqb j 0 || Nat.eqb j q) then 0 else at_ a i j.
Proof.
  intros R C P Q I J E. rewrite (conj_sym_at a false p q i j R C P Q I J). destruct (_ && _); [reflexivity|]. destruct (_ || _); [|reflexivity].
  rewrite <- R, <- C, E by lia. ring.
Qed.

(** ** Wave numbers *)
Fixpoint smooth (p : R) (l : list R) : Prop := match l with [] => True | x :: l' => Rabs (x - p) < PI /\ smooth x l' end.
Fixpoint final (p : R) (l : list R) : R := match l with [] => p | x :: l' => final x l' end.
Lemma unwrap_smooth l1 : forall p t l2, smooth p l1 -> unwrap_from p t (l1 ++ l2) = map (fun x => x + t) l1 ++ unwrap_from (final p l1) t l2.
Proof.
  induction l1 as [|x l1 IH]; intros p t l2 S; [reflexivity|]. destruct S as [S1 S2]. cbn [app unwrap_from map].
  replace (correction (x - p)) with 0 by (unfold correction; rewrite (proj2 (Rltb_true _ _) S1); reflexivity).
  rewrite Rplus_0_r. f_equal. now rewrite IH by assumption.
Qed.
Lemma smooth_run (f : nat -> R) k s : (forall i, Rabs (f (S i) - f i) < PI) -> smooth (f s) (map f (seq (S s) k)).
Proof. intro H. revert s. induction k as [|k IH]; intro s; cbn [seq map smooth]; [exact I|]. split; [apply H|apply IH]. Qed.
Lemma last_run (f : nat -> R) k s : final (f s) (map f (seq (S s) k)) = f (s + k)%nat.
Proof.
  revert s. induction k as [|k IH]; intro s; [cbn; now rewrite Nat.add_0_r|]. cbn [seq map final].
  rewrite IH. f_equal. lia.
Qed.
Lemma jump h : (1 < h)%nat -> correction (- (2 * PI) + PI / INR h) = 2 * PI.
Proof.
  intro H. assert (P := PI_RGT_0). assert (HR : 2 <= INR h) by (replace 2 with (INR 2) by reflexivity; apply le_INR; lia).
  assert (Q : 0 < PI / INR h <= PI / 2).
  { split; [apply Rdiv_lt_0_compat; lra|]. unfold Rdiv. apply Rmult_le_compat_l; [lra|]. apply Rinv_le_contravar; lra. }
  set (d := PI / INR h) in *. unfold correction. rewrite (proj2 (Rltb_false _ _)) by (rewrite Rabs_left; lra).
  assert (F : floor_mod (- (2 * PI) + d + PI) (2 * PI) = d + PI).
  { unfold floor_mod. replace (Int_part ((- (2 * PI) + d + PI) / (2 * PI))) with (-1)%Z; [ring|].
    symmetry. apply Int_part_unique. replace ((- (2 * PI) + d + PI) / (2 * PI)) with (-1 + (d + PI) / (2 * PI)) by (field; lra).
    assert (0 <= (d + PI) / (2 * PI) < 1). { split; [apply Rlt_le, Rdiv_lt_0_compat; lra|]. apply Rmult_lt_reg_r with (2 * PI); [lra|]. unfold Rdiv. rewrite Rmult_assoc, Rinv_l by lra. lra. }
    lra. }
  rewrite F. rewrite (proj2 (Reqb_false _ _)) by lra. cbn [andb]. lra.
Qed.
Lemma wave_list h d : (1 < h)%nat -> d <> 0 ->
  wave_numbers (2 * h) d = map (fun i => PI * (INR i - INR h) / (INR h * d)) (seq 0 (2 * h)).
Proof.
  intros H D. assert (HR : 0 < INR h) by (apply lt_0_INR; lia). assert (P := PI_RGT_0). unfold wave_numbers, fftshift. rewrite map_length, seq_length.
  replace ((2 * h + 1) / 2)%nat with h by (rewrite Nat.add_comm, Nat.mul_comm, Nat.div_add by lia; reflexivity).
  assert (SQ : seq 0 (2 * h) = seq 0 h ++ seq h h) by (replace (2 * h)%nat with (h + h)%nat by lia; apply seq_app).
  rewrite SQ, !map_app.
  set (f := fun k => 2 * PI / INR (2 * h) * INR k). set (fm := fun q => q - 2 * PI).
  assert (L : List.length (map f (seq 0 h)) = h) by (now rewrite map_length, seq_length).
  rewrite skipn_app, skipn_all2 by lia. rewrite firstn_app, firstn_all2 by lia. rewrite L, Nat.sub_diag. cbn [skipn firstn app]. rewrite app_nil_r, !map_map.
  set (F := fun k => fm (f k)).
  assert (STEP : forall i, F (S i) - F i = PI / INR h).
  { intro i. unfold F, f, fm. rewrite S_INR, mult_INR. cbn [INR]. field. lra. }
  assert (SM : forall i, Rabs (F (S i) - F i) < PI).
  { intro i. rewrite STEP. assert (2 <= INR h) by (replace 2 with (INR 2) by reflexivity; apply le_INR; lia).
    rewrite Rabs_pos_eq by (apply Rlt_le, Rdiv_lt_0_compat; lra). apply Rmult_lt_reg_r with (INR h); [lra|]. unfold Rdiv. rewrite Rmult_assoc, Rinv_l by lra. nra. }
  assert (U : unwrap (map F (seq h h) ++ map F (seq 0 h)) = map F (seq h h) ++ map (fun x => F x + 2 * PI) (seq 0 h)).
  { destruct h as [|k]; [lia|]. change (seq (S k) (S k)) with (S k :: seq (S (S k)) k). cbn [map app unwrap].
    f_equal. rewrite (unwrap_smooth (map F (seq (S (S k)) k)) (F (S k)) 0) by (apply smooth_run; exact SM).
    rewrite last_run. rewrite map_map. f_equal; [apply map_ext; intro; ring|].
    change (seq 0 (S k)) with (0%nat :: seq 1 k). cbn [map unwrap_from].
    assert (J : F 0%nat - F (S k + k)%nat = - (2 * PI) + PI / INR (S k)).
    { unfold F, f, fm. replace (INR (S k + k)) with (2 * INR (S k) - 1) by (rewrite plus_INR, S_INR; ring).
      replace (INR (2 * S k)) with (2 * INR (S k)) by (rewrite (mult_INR 2); cbn [INR]; ring). change (INR 0) with 0. field. lra. }
    rewrite J, jump by lia. rewrite Rplus_0_l. f_equal. rewrite <- (app_nil_r (map F (seq 1 k))). rewrite unwrap_smooth by (apply smooth_run; exact SM).
    cbn [unwrap_from]. rewrite app_nil_r, map_map. reflexivity. }
  rewrite U, map_app, !map_map.
  assert (SH : forall (g : nat -> R), map g (seq h h) = map (fun i => g (h + i)%nat) (seq 0 h)).
  { intro g. rewrite <- (map_map (fun i => (h + i)%nat) g). f_equal. clear. generalize h at 1 3 as s. 
    assert (G : forall k b s, seq (s + b) k = map (fun i => (s + i)%nat) (seq b k)).
    { induction k as [|k IH]; intros b s; [reflexivity|]. cbn [seq map]. f_equal. rewrite <- IH. f_equal. lia. }
    intro s. rewrite <- (Nat.add_0_r s) at 1. apply G. }
  rewrite !SH. f_equal; apply map_ext_in; intros i _; unfold F, f, fm; rewrite ?plus_INR, mult_INR; cbn [INR]; field; lra.
Qed.

Lemma ishift_cases p k : (k < 2 * p)%nat -> ishift (2 * p) k = if Nat.ltb k p then (k + p)%nat else (k - p)%nat.
Proof.
  intro K. unfold ishift. rewrite half_even. destruct (Nat.ltb_spec k p); [apply Nat.mod_small; lia|].
  replace (k + p)%nat with (k - p + 1 * (2 * p))%nat by lia. rewrite Nat.mod_add by lia. apply Nat.mod_small. lia.
Qed.
Lemma ishift_lt p k : (k < 2 * p)%nat -> (ishift (2 * p) k < 2 * p)%nat.
Proof. intro. unfold ishift. apply Nat.mod_upper_bound. lia. Qed.
Lemma ishift_minus p k : (k < 2 * p)%nat -> ishift (2 * p) (minus_freq (2 * p) k) = minus_freq (2 * p) (ishift (2 * p) k).
Proof.
  intro K. rewrite !ishift_cases by (try apply minus_lt; assumption). unfold minus_freq.
  destruct (Nat.eqb_spec k 0), (Nat.ltb_spec k p); cases.
Qed.
Lemma ishift_sum p f : (0 < p)%nat -> total (2 * p) (fun k => f (ishift (2 * p) k)) = total (2 * p) f.
Proof.
  intro P. rewrite <- (total_shift (2 * p) f (- Z.of_nat p)) by lia. apply total_ext. intros k K. f_equal. rewrite ishift_cases by exact K.
  symmetry. destruct (Nat.ltb_spec k p); [apply (zmod_unique _ _ 0); lia|apply (zmod_unique _ _ (-1)); lia].
Qed.
Lemma nth_wave h d k : (1 < h)%nat -> 0 < d -> (k < 2 * h)%nat -> nth (ishift (2 * h) k) (wave_numbers (2 * h) d) 0 = wave (2 * h) d k.
Proof.
  intros H D K. assert (HR : 0 < INR h) by (apply lt_0_INR; lia). rewrite wave_list by (try assumption; lra). set (g := fun i => _).
  rewrite nth_indep with (d' := g 0%nat) by (rewrite map_length, seq_length; now apply ishift_lt). rewrite (map_nth g), seq_nth by now apply ishift_lt.
  unfold g, wave. cbn [Nat.add]. rewrite half_even, ishift_cases by exact K. rewrite mult_INR. cbn [INR].
  destruct (Nat.ltb_spec k h); [rewrite plus_INR|rewrite minus_INR by lia]; field; lra.
Qed.
Lemma wave_sq p d i : (0 < p)%nat -> d <> 0 -> (i < 2 * p)%nat ->
  nth (minus_freq (2 * p) i) (wave_numbers (2 * p) d) 0 ^ 2 = nth i (wave_numbers (2 * p) d) 0 ^ 2.
Proof.
  intros P D I. destruct (Nat.eq_dec p 1) as [->|P1].
  - f_equal. f_equal. unfold minus_freq. destruct (Nat.eqb_spec i 0); lia.
  - rewrite wave_list by (try assumption; lia). set (g := fun i => _).
    assert (N : forall i, (i < 2 * p)%nat -> nth i (map g (seq 0 (2 * p))) 0 = g i).
    { intros k K. rewrite nth_indep with (d' := g 0%nat) by (now rewrite map_length, seq_length). now rewrite (map_nth g), seq_nth. }
    rewrite !N by (try apply minus_lt; assumption). unfold minus_freq. destruct (Nat.eqb_spec i 0) as [->|I0]; [reflexivity|].
    unfold g. rewrite minus_INR, mult_INR by lia. cbn [INR]. assert (0 < INR p) by (apply lt_0_INR; lia). field. split; lra.
Qed.
Lemma minus_half p i : (i < 2 * p)%nat -> Nat.eqb (minus_freq (2 * p) i) p = Nat.eqb i p.
Proof. intro I. unfold minus_freq. destruct (Nat.eqb_spec i 0); cases; reflexivity. Qed.

Section Fractals.
Variables sigma hurst qr d : R.
Variables p q : nat.
Hypothesis P : (0 < p)%nat.
Hypothesis Q : (0 < q)%nat.
Hypothesis D : 0 < d.
Let n := (2 * p)%nat.
Let m := (2 * q)%nat.
Let raw := raw_psd hurst qr d m n.
Let sum := total2 n m (at_ raw).

Lemma raw_even i j : (i < n)%nat -> (j < m)%nat -> at_ raw (minus_freq n i) (minus_freq m j) = at_ raw i j.
Proof.
  intros I J. unfold raw, raw_psd. cbn [at_]. unfold n, m in *. rewrite !half_even, !minus_half by assumption.
  rewrite !wave_sq by (try assumption; lra). reflexivity.
Qed.
Lemma raw_centre : at_ raw p q = 0.
Proof. unfold raw, raw_psd. cbn [at_]. unfold n, m. rewrite !half_even, !Nat.eqb_refl. reflexivity. Qed.
Lemma raw_pos i j : (i <> p \/ j <> q) -> 0 < at_ raw i j.
Proof.
  intro N. unfold raw, raw_psd. cbn [at_]. unfold n, m. rewrite !half_even.
  replace (Nat.eqb i p && Nat.eqb j q) with false by (destruct N as [N|N]; apply Nat.eqb_neq in N; rewrite N, ?andb_false_r; reflexivity).
  destruct (Rltb _ _); apply exp_pos.
Qed.
Lemma raw_nonneg i j : 0 <= at_ raw i j.
Proof.
  destruct (Nat.eq_dec i p) as [->|E]; [destruct (Nat.eq_dec j q) as [->|E]|].
  - rewrite raw_centre. lra.
  - apply Rlt_le, raw_pos. now right.
  - apply Rlt_le, raw_pos. now left.
Qed.
Lemma sum_pos : 0 < sum.
Proof.
  unfold sum, total2. apply Rlt_le_trans with (at_ raw 0 0).
  - apply raw_pos. left. lia.
  - apply Rle_trans with (total m (at_ raw 0)).
    + pose proof (total_part m (m - 1) (at_ raw 0)) as H. replace (m - (m - 1))%nat with 1%nat in H by (unfold m; lia). cbn [total] in H.
      rewrite Rplus_0_l in H. apply H. intros. apply raw_nonneg.
    + pose proof (total_part n (n - 1) (fun i => total m (at_ raw i))) as H. replace (n - (n - 1))%nat with 1%nat in H by (unfold n; lia). cbn [total] in H.
      rewrite Rplus_0_l in H. apply H. intros. apply total_nonneg. intros. apply raw_nonneg.
Qed.
Lemma nm_pos : 0 < INR n /\ 0 < INR m.
Proof. split; apply lt_0_INR; unfold n, m; lia. Qed.
Let pre := Grid n m (fun i j => sqrt (at_ (scaled_psd sigma hurst qr d m n) i j / (d ^ 2 / (INR n * INR m * (2 * PI) ^ 2)))).
Lemma pre_at i j : at_ pre i j = sqrt (at_ raw i j * (sigma ^ 2 * (INR n * INR m) ^ 2 / sum)).
Proof.
  unfold pre. cbn [at_]. f_equal. unfold scaled_psd. cbn [at_]. fold raw.
  replace (rsum n (fun i => rsum m (fun j => at_ raw i j))) with sum.
  2:{ transitivity (total n (fun i => rsum m (fun j => at_ raw i j))); [apply total_ext; intros; symmetry; apply rsum_total|symmetry; apply rsum_total]. }
  assert (S := sum_pos). destruct nm_pos as [N M]. assert (PP := PI_RGT_0). set (x := sum * (2 * PI) ^ 2 / (INR m * d) / (INR n * d)).
  assert (X : 0 < x). { unfold x. repeat apply Rdiv_lt_0_compat; try (apply Rmult_lt_0_compat; try assumption; apply pow_lt; lra); now apply Rmult_lt_0_compat. }
  assert (SX : sqrt x <> 0) by (apply Rgt_not_eq; now apply sqrt_lt_R0).
  replace ((sigma / sqrt x) ^ 2) with (sigma ^ 2 / sqrt x ^ 2) by (field; exact SX). rewrite pow2_sqrt by lra. unfold x. field. repeat split; lra.
Qed.
Lemma pre_even : even_centred 1 pre.
Proof.
  intros i j I J. change (rows pre) with n in *. change (cols pre) with m in *. rewrite !pre_at, raw_even by assumption. ring.
Qed.
Lemma magnitude_at i j : (i < n)%nat -> (j < m)%nat ->
  at_ (magnitudes sigma hurst qr d m n) i j =
  if (Nat.eqb i 0 || Nat.eqb i p) && (Nat.eqb j 0 || Nat.eqb j q) then 0 else sqrt (at_ raw i j * (sigma ^ 2 * (INR n * INR m) ^ 2 / sum)).
Proof.
  intros I J. unfold magnitudes. fold pre. rewrite (conj_sym_keeps pre p q i j eq_refl eq_refl P Q I J pre_even). now rewrite pre_at.
Qed.

Variable random : nat -> nat -> R.
Let w := coefficients sigma hurst qr d m n random.
Lemma w_conj k l : (k < n)%nat -> (l < m)%nat -> w (minus_freq n k) (minus_freq m l) = conj (w k l).
Proof.
  intros K L. unfold w, coefficients. cbv zeta.
  assert (IK : ishift n (minus_freq n k) = minus_freq n (ishift n k)) by now apply ishift_minus.
  assert (JL : ishift m (minus_freq m l) = minus_freq m (ishift m l)) by now apply ishift_minus.
  rewrite IK, JL. assert (I : (ishift n k < n)%nat) by now apply ishift_lt. assert (J : (ishift m l < m)%nat) by now apply ishift_lt.
  set (i := ishift n k) in *. set (j := ishift m l) in *.
  assert (E1 : at_ (magnitudes sigma hurst qr d m n) (minus_freq n i) (minus_freq m j) = at_ (magnitudes sigma hurst qr d m n) i j).
  { etransitivity; [exact (conj_sym_even pre false p q eq_refl eq_refl P Q i j I J)|apply Rmult_1_l]. }
  assert (E2 : at_ (phases random m n) (minus_freq n i) (minus_freq m j) = - at_ (phases random m n) i j).
  { etransitivity; [exact (conj_sym_even (Grid n m (fun i j => - PI + 2 * PI * random i j)) true p q eq_refl eq_refl P Q i j I J)|].
    unfold phases. ring. }
  rewrite E1, E2, cos_neg, sin_neg. unfold conj. cbn [fst snd]. f_equal; ring.
Qed.
Let z i j := fst (ifft2 n m w i j).
Lemma z_fft k l : (k < n)%nat -> (l < m)%nat -> fft2 n m (fun i j => creal (z i j)) k l = w k l.
Proof.
  intros K L. unfold z. rewrite fft2_real_part by assumption. rewrite !opp_minus, w_conj, conj_conj by assumption.
  destruct (w k l) as [x y]. unfold cmul, cadd, creal. cbn [fst snd]. f_equal; field.
Qed.
Lemma z_real i j : (i < n)%nat -> (j < m)%nat -> ifft2 n m w i j = creal (z i j).
Proof.
  intros I J. rewrite <- (inversion2 n m (fun i j => creal (z i j)) i j I J). apply ifft2_ext. intros k l K L. symmetry. now apply z_fft.
Qed.
Lemma w_norm k l : (k < n)%nat -> (l < m)%nat ->
  cnorm2 (w k l) = if own_opposite n m k l then 0 else at_ raw (ishift n k) (ishift m l) * (sigma ^ 2 * (INR n * INR m) ^ 2 / sum).
Proof.
  intros K L. unfold w, coefficients, cnorm2. cbn [fst snd]. set (i := ishift n k). set (j := ishift m l). set (t := at_ (phases _ _ _) i j).
  rewrite magnitude_at by (now apply ishift_lt).
  assert (O : (Nat.eqb i 0 || Nat.eqb i p) && (Nat.eqb j 0 || Nat.eqb j q) = own_opposite n m k l).
  { unfold own_opposite, i, j, n, m. rewrite !half_even, !ishift_cases by assumption. unfold n, m in K, L.
    f_equal; [destruct (Nat.ltb_spec k p)|destruct (Nat.ltb_spec l q)]; cases; reflexivity. }
  rewrite O. destruct (own_opposite n m k l); [ring|].
  set (x := at_ raw i j * _). assert (X : 0 <= x).
  { unfold x. apply Rmult_le_pos; [apply raw_nonneg|]. unfold Rdiv. apply Rmult_le_pos; [apply Rmult_le_pos; apply pow2_ge_0|]. left. apply Rinv_0_lt_compat, sum_pos. }
  replace ((sqrt x * cos t) ^ 2 + (sqrt x * sin t) ^ 2) with (sqrt x ^ 2 * (Rsqr (sin t) + Rsqr (cos t))) by (unfold Rsqr; ring).
  rewrite sin2_cos2, pow2_sqrt by exact X. ring.
Qed.
Lemma z_mean : total2 n m z = 0.
Proof.
  assert (E := z_fft 0 0 ltac:(unfold n; lia) ltac:(unfold m; lia)). rewrite fft_parts in E by (unfold n, m; lia). apply (f_equal fst) in E. cbn [fst] in E.
  rewrite <- (total2_ext n m (fun i j => z i j * cos (2 * PI * (INR (0 * i) / INR n + INR (0 * j) / INR m)))).
  - rewrite E. assert (W := w_norm 0 0 ltac:(unfold n; lia) ltac:(unfold m; lia)). unfold own_opposite in W. cbn [Nat.eqb orb andb] in W. unfold cnorm2 in W. nra.
  - intros i j _ _. cbn [Nat.mul INR]. unfold Rdiv. rewrite !Rmult_0_l, Rplus_0_l, Rmult_0_r, cos_0. ring.
Qed.
Lemma z_square : total2 n m (fun i j => z i j ^ 2) * (INR n * INR m) =
  sigma ^ 2 * (INR n * INR m) ^ 2 / sum * total2 n m (fun k l => if own_opposite n m k l then 0 else at_ raw (ishift n k) (ishift m l)).
Proof.
  rewrite parseval by (unfold n, m; lia). rewrite <- total2_scal. apply total2_ext. intros k l K L. rewrite z_fft, w_norm by assumption.
  destruct (own_opposite n m k l); ring.
Qed.
End Fractals.

Lemma raw_density hurst qr d p q k l : (1 < p)%nat -> (1 < q)%nat -> 0 < d -> (k < 2 * p)%nat -> (l < 2 * q)%nat ->
  at_ (raw_psd hurst qr d (2 * q) (2 * p)) (ishift (2 * p) k) (ishift (2 * q) l) = density hurst qr d (2 * p) (2 * q) k l.
Proof.
  intros P Q D K L. unfold raw_psd, density. cbn [at_]. rewrite !half_even.
  assert (E1 : Nat.eqb (ishift (2 * p) k) p = Nat.eqb k 0). { rewrite ishift_cases by exact K. destruct (Nat.ltb_spec k p); cases; reflexivity. }
  assert (E2 : Nat.eqb (ishift (2 * q) l) q = Nat.eqb l 0). { rewrite ishift_cases by exact L. destruct (Nat.ltb_spec l q); cases; reflexivity. }
  rewrite E1, E2, !nth_wave by (try assumption). destruct (Nat.eqb k 0 && Nat.eqb l 0) eqn:Z; [reflexivity|]. unfold self_affine.
  set (x := wave (2 * q) d l). set (y := wave (2 * p) d k).
  assert (NZ : 0 < y ^ 2 + x ^ 2).
  { assert (W : forall h i, (0 < h)%nat -> (i < 2 * h)%nat -> i <> 0%nat -> wave (2 * h) d i <> 0).
    { clear - D. intros h i H I I0. assert (0 < INR h) by now apply lt_0_INR. assert (PP := PI_RGT_0). unfold wave. rewrite half_even, mult_INR. cbn [INR].
      assert (HI : INR i < 2 * INR h). { replace 2 with (INR 2) by reflexivity. rewrite <- mult_INR. now apply lt_INR. }
      assert (0 < INR i) by (apply lt_0_INR; lia). apply Rmult_integral_contrapositive_currified.
      - apply Rmult_integral_contrapositive_currified; [lra|]. destruct (Nat.ltb i h); lra.
      - apply Rinv_neq_0_compat. apply Rgt_not_eq. apply Rmult_lt_0_compat; lra. }
    assert (S := fun u (H : u <> 0) => Rsqr_pos_lt u H). unfold Rsqr in S. pose proof (pow2_ge_0 x). pose proof (pow2_ge_0 y).
    destruct (Nat.eqb_spec k 0) as [K0|K0]; [destruct (Nat.eqb_spec l 0) as [L0|L0]; [discriminate|]|].
    - specialize (S x (W q l ltac:(lia) L L0)). nra.
    - specialize (S y (W p k ltac:(lia) K K0)). nra. }
  rewrite (Rplus_comm (x ^ 2)).
  replace (Rpower (y ^ 2 + x ^ 2) 0.5) with (sqrt (y ^ 2 + x ^ 2)) by (rewrite <- Rpower_sqrt by exact NZ; f_equal; lra).
  set (u := sqrt _). destruct (Rltb u qr) eqn:LT.
  - apply Rltb_true in LT. rewrite Rmax_right by lra. reflexivity.
  - apply Rltb_false in LT. rewrite Rmax_left by lra. reflexivity.
Qed.
Lemma raw_sum hurst qr d p q : (1 < p)%nat -> (1 < q)%nat -> 0 < d ->
  total2 (2 * p) (2 * q) (at_ (raw_psd hurst qr d (2 * q) (2 * p))) = total2 (2 * p) (2 * q) (density hurst qr d (2 * p) (2 * q)).
Proof.
  intros P Q D. unfold total2.
  rewrite <- (ishift_sum p (fun i => total (2 * q) (at_ (raw_psd hurst qr d (2 * q) (2 * p)) i))) by lia.
  apply total_ext. intros k K. rewrite <- (ishift_sum q) by lia. apply total_ext. intros l L. now apply raw_density.
Qed.
