(** Lemmas on the Johnson fits. *)
From Coq Require Import Reals List Bool Arith Lia Lra Psatz.
From Verif Require Import Py SurfaceModel SurfaceProofs JohnsonModel JohnsonSpec.
Import ListNotations.
Local Open Scope R_scope.

(** ** Hyperbolic functions *)
Lemma cosh_sinh x : cosh x ^ 2 - sinh x ^ 2 = 1.
Proof. unfold cosh, sinh. assert (E : exp x * exp (- x) = 1) by (rewrite <- exp_plus, Rplus_opp_r; apply exp_0). nra. Qed.
Lemma cosh_pos x : 0 < cosh x.
Proof. unfold cosh. pose proof (exp_pos x). pose proof (exp_pos (- x)). lra. Qed.
Lemma sinh_add x y : sinh (x + y) = sinh x * cosh y + cosh x * sinh y.
Proof. unfold sinh, cosh. rewrite Ropp_plus_distr, !exp_plus. field. Qed.
Lemma cosh_add x y : cosh (x + y) = cosh x * cosh y + sinh x * sinh y.
Proof. unfold sinh, cosh. rewrite Ropp_plus_distr, !exp_plus. field. Qed.
Lemma sinh_neg x : sinh (- x) = - sinh x.
Proof. unfold sinh. rewrite Ropp_involutive. field. Qed.
Lemma cosh_neg x : cosh (- x) = cosh x.
Proof. unfold cosh. rewrite Ropp_involutive. field. Qed.
Lemma exp_cosh x : exp x = cosh x + sinh x.
Proof. unfold cosh, sinh. field. Qed.
Lemma arccosh_spec x : 1 < x -> cosh (arccosh x) = x /\ 0 < arccosh x.
Proof.
  intro X. unfold arccosh. assert (Q : 0 <= x ^ 2 - 1) by nra. pose proof (sqrt_pos (x ^ 2 - 1)) as SP. pose proof (pow2_sqrt _ Q) as S2. set (r := sqrt (x ^ 2 - 1)) in *.
  split.
  - unfold cosh. rewrite exp_Ropp, exp_ln by lra. apply (Rmult_eq_reg_r (2 * (x + r))); [|lra]. field_simplify; [|lra]. nra.
  - rewrite <- ln_1. apply ln_increasing; lra.
Qed.
Lemma sinh_pos x : 0 < x -> 0 < sinh x.
Proof. intro X. unfold sinh. assert (exp (- x) < exp x) by (apply exp_increasing; lra). lra. Qed.
Lemma square_eq a b : 0 <= a -> 0 <= b -> a ^ 2 = b ^ 2 -> a = b.
Proof. intros. nra. Qed.
(** Half an angle. *)
Lemma half_angle x : 0 < x -> 0 < sinh (x / 2) /\ 0 < cosh (x / 2) /\ 2 * sinh (x / 2) ^ 2 = cosh x - 1 /\ 2 * cosh (x / 2) ^ 2 = cosh x + 1.
Proof.
  intro X. split; [apply sinh_pos; lra|]. split; [apply cosh_pos|]. pose proof (cosh_sinh (x / 2)). pose proof (cosh_add (x / 2) (x / 2)) as E.
  replace (x / 2 + x / 2) with x in E by field. nra.
Qed.
Lemma triple x : sinh (3 * x) = sinh x * (4 * cosh x ^ 2 - 1) /\ cosh (3 * x) = cosh x * (4 * cosh x ^ 2 - 3).
Proof.
  replace (3 * x) with (x + (x + x)) by ring. rewrite !sinh_add, !cosh_add, sinh_add. pose proof (cosh_sinh x).
  replace (cosh x ^ 2) with (1 + sinh x ^ 2) by lra. set (s := sinh x) in *. set (c := cosh x) in *. split.
  - replace (s * (c * c + s * s) + c * (s * c + c * s)) with (s * (3 * c ^ 2 + s ^ 2)) by ring. replace (c ^ 2) with (1 + s ^ 2) by lra. ring.
  - replace (c * (c * c + s * s) + s * (s * c + c * s)) with (c * (c ^ 2 + 3 * s ^ 2)) by ring. replace (c ^ 2) with (1 + s ^ 2) by lra. ring.
Qed.

(** ** The unbounded fit *)
Section SU.
Variables p a b q0 : R.
Hypothesis P : 0 < p.
Hypothesis A : 0 < a.
Hypothesis B : 0 < b.
Hypothesis AB : 1 < a * b.
Let c := arccosh (0.5 * (a + b)).
Let g := arcsinh ((b - a) / (2 * sqrt (a * b - 1))).
Let lam := 2 * p * sqrt (a * b - 1) / ((a + b - 2) * sqrt (a + b + 2)).
Let xi := q0 + p * (b - a) / (2 * (a + b - 2)).
Lemma su_sum : 2 < a + b.
Proof. apply Rnot_le_lt. intro H. pose proof (pow2_ge_0 (a - b)). assert ((a + b) * (a + b) <= 2 * 2) by (apply Rmult_le_compat; lra). nra. Qed.
Lemma su_c : cosh c = (a + b) / 2 /\ 0 < c.
Proof. pose proof su_sum. destruct (arccosh_spec (0.5 * (a + b))) as [H1 H2]; [lra|]. split; [|exact H2]. unfold c. lra. Qed.
Lemma su_root : 0 < sqrt (a * b - 1) /\ sqrt (a * b - 1) ^ 2 = a * b - 1.
Proof. split; [apply sqrt_lt_R0; lra|apply pow2_sqrt; lra]. Qed.
Lemma su_half : 0 < sinh (c / 2) /\ 0 < cosh (c / 2) /\ 4 * sinh (c / 2) ^ 2 = a + b - 2 /\ 4 * cosh (c / 2) ^ 2 = a + b + 2.
Proof. destruct su_c as [C1 C2]. destruct (half_angle c C2) as (H1 & H2 & H3 & H4). repeat split; lra. Qed.
Lemma su_g : sinh g = (b - a) / (2 * sqrt (a * b - 1)) /\ cosh g = 2 * sinh (c / 2) * cosh (c / 2) / sqrt (a * b - 1).
Proof.
  assert (G : sinh g = (b - a) / (2 * sqrt (a * b - 1))) by apply sinh_arcsinh. split; [exact G|].
  destruct su_root as [R1 R2]. destruct su_half as (H1 & H2 & H3 & H4). set (r := sqrt (a * b - 1)) in *. set (s := sinh (c / 2)) in *. set (k := cosh (c / 2)) in *.
  apply square_eq; [left; apply cosh_pos|left; apply Rdiv_lt_0_compat; [apply Rmult_lt_0_compat; [apply Rmult_lt_0_compat|]; lra|lra]|].
  pose proof (cosh_sinh g) as E. rewrite G in E. replace (cosh g ^ 2) with (1 + ((b - a) / (2 * r)) ^ 2) by lra.
  apply (Rmult_eq_reg_r (4 * r ^ 2)); [|apply Rgt_not_eq; nra].
  replace ((1 + ((b - a) / (2 * r)) ^ 2) * (4 * r ^ 2)) with (4 * r ^ 2 + (b - a) ^ 2) by (field; lra).
  replace ((2 * s * k / r) ^ 2 * (4 * r ^ 2)) with ((4 * s ^ 2) * (4 * k ^ 2)) by (field; lra). rewrite H3, H4, R2. ring.
Qed.
Lemma su_lam : lam = p * sqrt (a * b - 1) / (4 * sinh (c / 2) ^ 2 * cosh (c / 2)) /\ 0 < lam.
Proof.
  destruct su_root as [R1 R2]. destruct su_half as (H1 & H2 & H3 & H4).
  assert (K : sqrt (a + b + 2) = 2 * cosh (c / 2)). { apply square_eq; [apply sqrt_pos|lra|]. rewrite pow2_sqrt by lra. lra. }
  assert (E : lam = p * sqrt (a * b - 1) / (4 * sinh (c / 2) ^ 2 * cosh (c / 2))).
  { unfold lam. rewrite K, <- H3. field. split; lra. }
  split; [exact E|]. rewrite E. apply Rdiv_lt_0_compat; [now apply Rmult_lt_0_compat|]. apply Rmult_lt_0_compat; [|lra]. nra.
Qed.
Lemma su_at (t : R) : xi + lam * sinh (t - g) =
  q0 + p * (b - a) / (2 * (a + b - 2)) + p * (sinh t * (2 * sinh (c / 2) * cosh (c / 2)) - cosh t * (b - a) / 2) / (4 * sinh (c / 2) ^ 2 * cosh (c / 2)).
Proof.
  unfold xi. destruct su_lam as [-> _]. destruct su_root as [R1 R2]. destruct su_half as (H1 & H2 & H3 & H4). pose proof su_sum.
  replace (t - g) with (t + - g) by ring. rewrite sinh_add, cosh_neg, sinh_neg. destruct su_g as [-> ->]. field. repeat split; lra.
Qed.
Lemma su_inner : xi + lam * sinh (c / 2 - g) = q0 + p / 2 /\ xi + lam * sinh (- (c / 2) - g) = q0 - p / 2.
Proof.
  rewrite !su_at, sinh_neg, cosh_neg. destruct su_half as (H1 & H2 & H3 & H4). set (s := sinh (c / 2)) in *. set (k := cosh (c / 2)) in *. rewrite <- H3.
  split; field; repeat split; lra.
Qed.
Lemma su_outer : xi + lam * sinh (3 * (c / 2) - g) = q0 + p / 2 + p * a /\ xi + lam * sinh (- (3 * (c / 2)) - g) = q0 - p / 2 - p * b.
Proof.
  rewrite !su_at, sinh_neg, cosh_neg. destruct (triple (c / 2)) as [-> ->]. destruct su_half as (H1 & H2 & H3 & H4).
  set (s := sinh (c / 2)) in *. set (k := cosh (c / 2)) in *. 
  replace (4 * k ^ 2 - 1) with (a + b + 1) by lra. replace (4 * k ^ 2 - 3) with (a + b - 1) by lra. rewrite <- H3.
  assert (SS : 0 < s ^ 2) by nra.
  replace a with (4 * s ^ 2 + 2 - b) by lra. split; field; split; lra.
Qed.
End SU.

(** ** The bounded fit *)
Section SB.
Variables p a b q0 : R.
Hypothesis P : 0 < p.
Hypothesis A : 0 < a.
Hypothesis B : 0 < b.
Hypothesis AB : 1 < a * b.
Let k := (1 + a) * (1 + b).
Let h := arccosh (0.5 * sqrt k).
Let d := a * b - 1.
Let g := arcsinh ((b - a) * sqrt (k - 4) / (2 * d)).
Let lam := p * sqrt ((k - 2) ^ 2 - 4) / d.
Let xi := q0 - 0.5 * lam + p * (b - a) / (2 * d).
Lemma sb_sum : 2 < a + b.
Proof. apply Rnot_le_lt. intro H. pose proof (pow2_ge_0 (a - b)). assert ((a + b) * (a + b) <= 2 * 2) by (apply Rmult_le_compat; lra). nra. Qed.
Lemma sb_k : 4 < k.
Proof. pose proof sb_sum. unfold k. nra. Qed.
Lemma sb_h : 0 < h /\ 0 < cosh h /\ 0 < sinh h /\ 4 * cosh h ^ 2 = k /\ 4 * sinh h ^ 2 = k - 4.
Proof.
  pose proof sb_k. assert (S2 : sqrt k ^ 2 = k) by (apply pow2_sqrt; lra). pose proof (sqrt_pos k) as SP.
  destruct (arccosh_spec (0.5 * sqrt k)) as [H1 H2]; [nra|]. fold h in H1, H2. pose proof (cosh_sinh h) as CS. split; [exact H2|]. split; [apply cosh_pos|].
  split; [now apply sinh_pos|]. assert (C4 : 4 * cosh h ^ 2 = k) by (rewrite H1; lra). split; [exact C4|lra].
Qed.
Lemma sb_g : sinh g = (b - a) * sinh h / d /\ cosh g = cosh h * (a + b - 2) / d.
Proof.
  destruct sb_h as (H0 & H1 & H2 & H3 & H4). pose proof sb_sum. assert (D : 0 < d) by (unfold d; lra).
  assert (K : sqrt (k - 4) = 2 * sinh h). { apply square_eq; [apply sqrt_pos|lra|]. rewrite pow2_sqrt by (pose proof sb_k; lra). lra. }
  assert (G : sinh g = (b - a) * sinh h / d). { unfold g. rewrite sinh_arcsinh, K. field. lra. }
  split; [exact G|]. pose proof (cosh_sinh g) as E. rewrite G in E.
  apply square_eq; [left; apply cosh_pos|left; apply Rdiv_lt_0_compat; [apply Rmult_lt_0_compat; lra|exact D]|].
  replace (cosh g ^ 2) with (1 + ((b - a) * sinh h / d) ^ 2) by lra. apply (Rmult_eq_reg_r (4 * d ^ 2)); [|apply Rgt_not_eq; nra].
  replace ((1 + ((b - a) * sinh h / d) ^ 2) * (4 * d ^ 2)) with (4 * d ^ 2 + (b - a) ^ 2 * (4 * sinh h ^ 2)) by (field; lra).
  replace ((cosh h * (a + b - 2) / d) ^ 2 * (4 * d ^ 2)) with ((4 * cosh h ^ 2) * (a + b - 2) ^ 2) by (field; lra).
  rewrite H3, H4. unfold k, d. ring.
Qed.
Lemma sb_lam : lam = 4 * p * cosh h * sinh h / d /\ 0 < lam.
Proof.
  destruct sb_h as (H0 & H1 & H2 & H3 & H4). pose proof sb_k. assert (D : 0 < d) by (unfold d; lra).
  assert (CS : 0 < cosh h * sinh h) by now apply Rmult_lt_0_compat.
  assert (K : sqrt ((k - 2) ^ 2 - 4) = 4 * cosh h * sinh h).
  { apply square_eq; [apply sqrt_pos|lra|]. rewrite pow2_sqrt by nra. replace ((4 * cosh h * sinh h) ^ 2) with ((4 * cosh h ^ 2) * (4 * sinh h ^ 2)) by ring. rewrite H3, H4. ring. }
  assert (E : lam = 4 * p * cosh h * sinh h / d) by (unfold lam; rewrite K; field; lra).
  split; [exact E|]. rewrite E. apply Rdiv_lt_0_compat; [|exact D]. replace (4 * p * cosh h * sinh h) with (4 * p * (cosh h * sinh h)) by ring. apply Rmult_lt_0_compat; lra.
Qed.
Lemma logistic y : / (1 + exp (- y)) = / 2 + / 2 * (sinh y / (1 + cosh y)).
Proof.
  pose proof (exp_pos y). unfold sinh, cosh. rewrite exp_Ropp. set (e := exp y) in *. clearbody e. field. repeat split; try lra; apply Rgt_not_eq; nra.
Qed.
(** To have the value [q0 + x] at [t] it is enough that a product holds. *)
Lemma sb_at t x : sinh (t - g) * (4 * cosh h * sinh h) = (2 * x * d / p - (b - a)) * (1 + cosh (t - g)) ->
  xi + lam * / (1 + exp (- (t - g))) = q0 + x.
Proof.
  intro E. rewrite logistic. unfold xi. destruct sb_lam as [-> _]. destruct sb_h as (H0 & H1 & H2 & H3 & H4). assert (D : 0 < d) by (unfold d; lra).
  pose proof (cosh_pos (t - g)) as CP. set (y := t - g) in *.
  replace 0.5 with (/ 2) by lra.
  replace (q0 - / 2 * (4 * p * cosh h * sinh h / d) + p * (b - a) / (2 * d) + 4 * p * cosh h * sinh h / d * (/ 2 + / 2 * (sinh y / (1 + cosh y))))
    with (q0 + p / (2 * d) * ((b - a) + sinh y * (4 * cosh h * sinh h) / (1 + cosh y))) by (field; repeat split; lra).
  rewrite E. field. repeat split; lra.
Qed.
Lemma sb_points : xi + lam * / (1 + exp (- (h - g))) = q0 + p / 2 /\ xi + lam * / (1 + exp (- (- h - g))) = q0 - p / 2 /\
  xi + lam * / (1 + exp (- (3 * h - g))) = q0 + p / 2 + p / a /\ xi + lam * / (1 + exp (- (- (3 * h) - g))) = q0 - p / 2 - p / b.
Proof.
  replace (q0 - p / 2) with (q0 + - (p / 2)) by ring. replace (q0 + - (p / 2) - p / b) with (q0 + (- (p / 2) - p / b)) by ring.
  replace (q0 + p / 2 + p / a) with (q0 + (p / 2 + p / a)) by ring.
  destruct sb_h as (H0 & H1 & H2 & H3 & H4). assert (D : 0 < d) by (unfold d; lra). destruct sb_g as [SG CG].
  destruct (triple h) as [T1 T2].
  assert (DD : d = a * b - 1) by reflexivity.
  set (s := sinh h) in *. set (c := cosh h) in *. 
  assert (C2 : c ^ 2 = (1 + a) * (1 + b) / 4) by (unfold k in H3; lra). assert (S2 : s ^ 2 = (1 + a) * (1 + b) / 4 - 1) by (unfold k in H4; lra).
  repeat split; apply sb_at; fold s c.
  - replace (h - g) with (h + - g) by ring. rewrite sinh_add, cosh_add, sinh_neg, cosh_neg, SG, CG. fold s c.
    apply (Rmult_eq_reg_r d); [|lra].
    match goal with |- ?l = ?r => replace l with (4 * c ^ 2 * s ^ 2 * ((a + b - 2) - (b - a))) by (field; repeat split; lra);
      replace r with ((d - (b - a)) * (d + c ^ 2 * (a + b - 2) - s ^ 2 * (b - a))) by (field; repeat split; lra) end. rewrite C2, S2, DD. field.
  - replace (- h - g) with (- h + - g) by ring. rewrite sinh_add, cosh_add, !sinh_neg, !cosh_neg, SG, CG. fold s c.
    apply (Rmult_eq_reg_r d); [|lra].
    match goal with |- ?l = ?r => replace l with (- 4 * c ^ 2 * s ^ 2 * ((a + b - 2) + (b - a))) by (field; repeat split; lra);
      replace r with ((- d - (b - a)) * (d + c ^ 2 * (a + b - 2) + s ^ 2 * (b - a))) by (field; repeat split; lra) end. rewrite C2, S2, DD. field.
  - replace (3 * h - g) with (3 * h + - g) by ring. rewrite sinh_add, cosh_add, !sinh_neg, !cosh_neg, T1, T2, SG, CG. fold s c.
    apply (Rmult_eq_reg_r d); [|lra].
    match goal with |- ?l = ?r => replace l with (4 * c ^ 2 * s ^ 2 * ((4 * c ^ 2 - 1) * (a + b - 2) - (4 * c ^ 2 - 3) * (b - a))) by (field; repeat split; lra);
      replace r with ((d * (1 + 2 / a) - (b - a)) * (d + c ^ 2 * (4 * c ^ 2 - 3) * (a + b - 2) - s ^ 2 * (4 * c ^ 2 - 1) * (b - a))) by (field; repeat split; lra) end. rewrite C2, S2, DD. field. lra.
  - replace (- (3 * h) - g) with (- (3 * h) + - g) by ring. rewrite sinh_add, cosh_add, !sinh_neg, !cosh_neg, T1, T2, SG, CG. fold s c.
    apply (Rmult_eq_reg_r d); [|lra].
    match goal with |- ?l = ?r => replace l with (- 4 * c ^ 2 * s ^ 2 * ((4 * c ^ 2 - 1) * (a + b - 2) + (4 * c ^ 2 - 3) * (b - a))) by (field; repeat split; lra);
      replace r with ((- d * (1 + 2 / b) - (b - a)) * (d + c ^ 2 * (4 * c ^ 2 - 3) * (a + b - 2) + s ^ 2 * (4 * c ^ 2 - 1) * (b - a))) by (field; repeat split; lra) end. rewrite C2, S2, DD. field. repeat split; lra.
Qed.
End SB.

(** ** Moments of sums of exponentials *)
Lemma value_app f g z : value (f ++ g) z = value f z + value g z.
Proof. unfold value. induction f as [|t f IH]; cbn [app fold_right]; [ring|]. rewrite IH. ring. Qed.
Lemma value_cons c s f z : value ((c, s) :: f) z = c * exp (s * z) + value f z.
Proof. reflexivity. Qed.
Lemma value_shift c s g z : value (map (fun b => (c * fst b, s + snd b)) g) z = c * exp (s * z) * value g z.
Proof.
  unfold value. induction g as [|[e t] g IG]; cbn [map fold_right fst snd] in *; [ring|]. rewrite IG, Rmult_plus_distr_r, exp_plus. ring.
Qed.
Lemma value_times f g z : value (times f g) z = value f z * value g z.
Proof.
  induction f as [|[c s] f IH]; [cbn; ring|]. cbn [times flat_map fst snd]. rewrite value_app. fold (times f g). rewrite IH, value_shift, value_cons. ring.
Qed.
Lemma value_power f k z : value (power f k) z = value f z ^ k.
Proof. induction k as [|k IH]; [unfold value; cbn [power fold_right fst snd]; rewrite Rmult_0_l, exp_0; ring|]. cbn [power pow]. rewrite value_times, IH. reflexivity. Qed.

Definition ex (f : expsum) (t : R) : R := fold_right (fun x a => fst x * exp ((snd x + t) ^ 2 / 2) + a) 0 f.
Lemma expect_ex f : expect f = ex f 0.
Proof. unfold expect, ex. induction f as [|x f IH]; cbn [fold_right]; [reflexivity|]. rewrite IH, Rplus_0_r. reflexivity. Qed.
Lemma ex_app f g t : ex (f ++ g) t = ex f t + ex g t.
Proof. unfold ex. induction f as [|x f IH]; cbn [app fold_right]; [ring|]. rewrite IH. ring. Qed.
Lemma ex_shift c s g t : ex (map (fun b => (c * fst b, s + snd b)) g) t = c * ex g (s + t).
Proof.
  unfold ex. induction g as [|[e u] g IG]; cbn [map fold_right fst snd] in *; [ring|]. rewrite IG. replace (s + u + t) with (u + (s + t)) by ring. ring.
Qed.
Lemma ex_times c s f g t : ex (times ((c, s) :: f) g) t = c * ex g (s + t) + ex (times f g) t.
Proof. cbn [times flat_map fst snd]. rewrite ex_app, ex_shift. reflexivity. Qed.


Section Two.
(** A constant and exponentials of [s] and [-s]. *)
Variables u loc k1 k2 s : R.
Let f := (- u, 0) :: (loc, 0) :: (k1, s) :: (k2, - s) :: nil.
Let mm k (j : Z) := ex (power f k) (IZR j * s).
Lemma mm_step k j : mm (S k) j = (loc - u) * mm k j + k1 * mm k (j + 1) + k2 * mm k (j - 1).
Proof.
  unfold mm. cbn [power]. unfold f at 1. rewrite !ex_times, plus_IZR, minus_IZR. replace (0 + IZR j * s) with (IZR j * s) by ring.
  replace (s + IZR j * s) with ((IZR j + 1) * s) by ring. replace (- s + IZR j * s) with ((IZR j - 1) * s) by ring.
  cbn [times flat_map]. replace (ex [] (IZR j * s)) with 0 by reflexivity. ring.
Qed.
Lemma mm_base j : mm 0 j = exp ((IZR j * s) ^ 2 / 2).
Proof. unfold mm, ex. cbn [power fold_right fst snd]. rewrite Rplus_0_l. ring. Qed.
Lemma mm_pow (n : nat) j : (j * j = Z.of_nat n)%Z -> mm 0 j = exp (s ^ 2 / 2) ^ n.
Proof.
  intro N. rewrite mm_base. replace ((IZR j * s) ^ 2 / 2) with (INR n * (s ^ 2 / 2)) by (rewrite INR_IZR_INZ, <- N, mult_IZR; field).
  clear. induction n as [|n IH]; [cbn [INR pow]; rewrite Rmult_0_l; apply exp_0|]. rewrite S_INR, Rmult_plus_distr_r, exp_plus, IH, Rmult_1_l. cbn [pow]. ring.
Qed.
Lemma mm_power k : expect (power f k) = mm k 0.
Proof. rewrite expect_ex. unfold mm. now rewrite Rmult_0_l. Qed.
Hypothesis U : u = loc + (k1 + k2) * exp (s ^ 2 / 2).
Ltac finish := rewrite ?(mm_pow 0 0), ?(mm_pow 1 1), ?(mm_pow 1 (-1)), ?(mm_pow 4 2), ?(mm_pow 4 (-2)), ?(mm_pow 9 3), ?(mm_pow 9 (-3)), ?(mm_pow 16 4), ?(mm_pow 16 (-4)) by reflexivity; ring.
Ltac steps := rewrite mm_power; repeat (rewrite !mm_step; cbn [Z.add Z.sub Z.opp Z.pos_sub Pos.add Pos.succ Pos.pred_double]); rewrite U; finish.
Let w := exp (s ^ 2 / 2).
Lemma central_2 : expect (power f 2) = (k1 ^ 2 + k2 ^ 2) * w ^ 2 * (w ^ 2 - 1) + 2 * (k1 * k2) * (1 - w ^ 2).
Proof. unfold w. steps. Qed.
Lemma central_3_one : k2 = 0 -> expect (power f 3) = k1 ^ 3 * w ^ 3 * (w ^ 2 - 1) ^ 2 * (w ^ 2 + 2).
Proof. intro K. unfold w. rewrite mm_power. repeat (rewrite !mm_step; cbn [Z.add Z.sub Z.opp Z.pos_sub Pos.add Pos.succ Pos.pred_double]). rewrite U, K. finish. Qed.
Lemma central_4_one : k2 = 0 -> expect (power f 4) = k1 ^ 4 * w ^ 4 * (w ^ 2 - 1) ^ 2 * (w ^ 8 + 2 * w ^ 6 + 3 * w ^ 4 - 3).
Proof. intro K. unfold w. rewrite mm_power. repeat (rewrite !mm_step; cbn [Z.add Z.sub Z.opp Z.pos_sub Pos.add Pos.succ Pos.pred_double]). rewrite U, K. finish. Qed.
Lemma central_3_even : k2 = - k1 -> expect (power f 3) = 0.
Proof. intro K. unfold w. rewrite mm_power. repeat (rewrite !mm_step; cbn [Z.add Z.sub Z.opp Z.pos_sub Pos.add Pos.succ Pos.pred_double]). rewrite U, K. finish. Qed.
Lemma central_4_even : k2 = - k1 -> expect (power f 4) = k1 ^ 4 * (2 * w ^ 16 - 8 * w ^ 4 + 6).
Proof. intro K. unfold w. rewrite mm_power. repeat (rewrite !mm_step; cbn [Z.add Z.sub Z.opp Z.pos_sub Pos.add Pos.succ Pos.pred_double]). rewrite U, K. finish. Qed.
Lemma central_3 : expect (power f 3) = w * (w ^ 2 - 1) ^ 2 * ((k1 ^ 3 + k2 ^ 3) * w ^ 2 * (w ^ 2 + 2) - 3 * (k1 * k2) * (k1 + k2)).
Proof. unfold w. steps. Qed.
Lemma central_4 : expect (power f 4) = (w ^ 2 - 1) ^ 2 * ((k1 ^ 4 + k2 ^ 4) * w ^ 4 * (w ^ 8 + 2 * w ^ 6 + 3 * w ^ 4 - 3)
  - 4 * (k1 * k2) * (k1 ^ 2 + k2 ^ 2) * w ^ 4 * (w ^ 2 + 2) + 6 * (k1 * k2) ^ 2 * (2 * w ^ 2 + 1)).
Proof. unfold w. steps. Qed.
End Two.
Lemma less_mean_two loc k1 k2 s : let f := (loc, 0) :: (k1, s) :: (k2, - s) :: nil in
  expect f = loc + (k1 + k2) * exp (s ^ 2 / 2) /\ less_mean f = (- expect f, 0) :: f.
Proof.
  split; [|reflexivity]. unfold f, expect. cbn [fold_right fst snd]. replace (0 ^ 2 / 2) with 0 by field. rewrite exp_0. replace ((- s) ^ 2) with (s ^ 2) by ring. ring.
Qed.

(** ** The log normal curve *)
Definition omega_of (root_beta_1 : R) : R :=
  let x := 0.5 * root_beta_1 ^ 2 + 1 in
  let y := root_beta_1 * sqrt (0.25 * root_beta_1 ^ 2 + 1) in
  Rpower (x + y) (1 / 3) + Rpower (x - y) (1 / 3) - 1.
Lemma cube_third x : 0 < x -> Rpower x (1 / 3) ^ 3 = x.
Proof.
  intro X. rewrite <- Rpower_pow by apply exp_pos. rewrite Rpower_mult. replace (1 / 3 * INR 3) with 1 by (cbn [INR]; field). now apply Rpower_1.
Qed.
Lemma omega_facts r : (omega_of r - 1) * (omega_of r + 2) ^ 2 = r ^ 2 /\ 1 <= omega_of r /\ (r <> 0 -> 1 < omega_of r).
Proof.
  unfold omega_of. set (x := 0.5 * r ^ 2 + 1). set (y := r * sqrt (0.25 * r ^ 2 + 1)).
  assert (R2 := pow2_ge_0 r). assert (Y2 : y ^ 2 = r ^ 2 * (0.25 * r ^ 2 + 1)). { unfold y. rewrite Rpow_mult_distr, pow2_sqrt by lra. reflexivity. }
  assert (XY : (x + y) * (x - y) = 1). { replace ((x + y) * (x - y)) with (x ^ 2 - y ^ 2) by ring. rewrite Y2. unfold x. lra. }
  assert (X : 0 < x) by (unfold x; lra). assert (0 < x + y /\ 0 < x - y) as [XP XM] by (split; nra).
  set (t := Rpower (x + y) (1 / 3)). set (v := Rpower (x - y) (1 / 3)).
  assert (T : 0 < t) by apply exp_pos. assert (V : 0 < v) by apply exp_pos.
  assert (T3 : t ^ 3 = x + y) by now apply cube_third. assert (V3 : v ^ 3 = x - y) by now apply cube_third.
  assert (TV : t * v = 1). { unfold t, v. rewrite Rpower_mult_distr by assumption. rewrite XY. unfold Rpower. rewrite ln_1, Rmult_0_r. apply exp_0. }
  assert (EQ : (t + v - 1 - 1) * (t + v - 1 + 2) ^ 2 = r ^ 2).
  { replace ((t + v - 1 - 1) * (t + v - 1 + 2) ^ 2) with (t ^ 3 + v ^ 3 + 3 * (t * v) * (t + v) - 3 * (t + v) - 2) by ring. rewrite T3, V3, TV. unfold x. lra. }
  split; [exact EQ|]. assert (GE : 2 <= t + v) by nra. split; [lra|]. intro N. destruct (Req_dec (t + v) 2) as [E|E]; [|lra].
  exfalso. apply N. rewrite E in EQ. assert (r * r = 0) by lra. apply Rmult_integral in H. tauto.
Qed.
