(** Lemmas on the Hertz solvers. *)
From Coq Require Import Reals List Bool Lra Lia.
From Verif Require Import Py SurfaceModel Flt SurfaceProofs HertzModel HertzSpec.
Import ListNotations.
Local Open Scope R_scope.

(** Partial operations. *)
Lemma pdiv_ok a b : b <> 0 -> pdiv a b = Ok (a / b).
Proof. intro N. unfold pdiv. now rewrite (proj2 (Reqb_false b 0) N). Qed.
Lemma odiv_ok a b : b <> 0 -> odiv a b = Some (a / b).
Proof. intro N. unfold odiv. now rewrite (proj2 (Reqb_false b 0) N). Qed.
Lemma odiv_none a : odiv a 0 = None.
Proof. unfold odiv. now rewrite (proj2 (Reqb_true 0 0) eq_refl). Qed.
Lemma fsqrt_ok x : 0 <= x -> fsqrt (Fin x) = Fin (sqrt x).
Proof. intro P. unfold fsqrt. now rewrite (proj2 (Rltb_false x 0)) by lra. Qed.

(** Cube roots. *)
Lemma cube_root_cube x : 0 < x -> Rpower x (1 / 3) ^ 3 = x.
Proof.
  intro P. rewrite <- Rpower_pow by apply exp_pos. rewrite Rpower_mult.
  replace (1 / 3 * INR 3) with 1 by (simpl; field). now apply Rpower_1.
Qed.
Lemma cube_inj x y : 0 <= x -> 0 <= y -> x ^ 3 = y ^ 3 -> x = y.
Proof.
  intros X Y E. destruct (Rtotal_order x y) as [L|[L|L]]; [|assumption|]; exfalso.
  - assert (x ^ 2 <= y ^ 2) by (apply pow_incr; lra). assert (0 < y ^ 2) by (apply pow_lt; lra). nra.
  - assert (y ^ 2 <= x ^ 2) by (apply pow_incr; lra). assert (0 < x ^ 2) by (apply pow_lt; lra). nra.
Qed.
Lemma cube_root_unique x y : 0 < y -> y ^ 3 = x -> Rpower x (1 / 3) = y.
Proof.
  intros P E. assert (0 < x) by (subst; now apply pow_lt).
  apply cube_inj; [left; apply exp_pos|lra|]. now rewrite cube_root_cube.
Qed.
Lemma ocbrt_pos x y : 0 < y -> y ^ 3 = x -> ocbrt x = Some y.
Proof.
  intros P E. unfold ocbrt. assert (0 < x) by (subst; now apply pow_lt).
  rewrite (proj2 (Rltb_true 0 x)) by assumption. now rewrite (cube_root_unique x y).
Qed.
Lemma ocbrt_inv x y : ocbrt x = Some y -> 0 <= y /\ y ^ 3 = x.
Proof.
  unfold ocbrt. destruct (Rltb 0 x) eqn:L.
  - apply Rltb_true in L. intros [= <-]. split; [left; apply exp_pos|now apply cube_root_cube].
  - destruct (Reqb x 0) eqn:Q; [|discriminate]. apply Reqb_true in Q. intros [= <-]. split; [lra|]. rewrite Q. ring.
Qed.

(** Maximum of the roots. *)
Section Roots.
Variable solve : (R -> option R) -> list R.
Hypothesis EX : exact solve.
Lemma fold_max_in t : forall x, In (fold_left Rmax t x) (x :: t).
Proof.
  induction t as [|y t IH]; intro x; cbn [fold_left]; [now left|].
  destruct (IH (Rmax x y)) as [H|H]; [|right; now right].
  rewrite <- H. unfold Rmax. destruct (Rle_dec x y); cbn; auto.
Qed.
Lemma fold_max_ge t : forall x y, In y (x :: t) -> y <= fold_left Rmax t x.
Proof.
  induction t as [|z t IH]; intros x y I; cbn [fold_left].
  - destruct I as [->|[]]. lra.
  - destruct I as [->|[->|I]].
    + apply Rle_trans with (Rmax y z); [apply Rmax_l|]. apply IH. now left.
    + apply Rle_trans with (Rmax x y); [apply Rmax_r|]. apply IH. now left.
    + apply IH. now right.
Qed.
Lemma max_root_ok f l x : (forall y, f y = Some 0 <-> In y l) -> In x l -> (forall y, In y l -> y <= x) ->
  max_root solve f = Ok x.
Proof.
  intros F I M. pose proof (EX f l F) as S. unfold max_root. destruct (solve f) as [|a t] eqn:E.
  - exfalso. apply (proj2 (S x)). now apply F.
  - f_equal. apply Rle_antisym.
    + apply M. apply F. apply S. apply fold_max_in.
    + apply fold_max_ge. apply S. now apply F.
Qed.
Lemma max_root_none f : (forall y, f y <> Some 0) -> max_root solve f = Err ValueError.
Proof.
  intro F. assert (S : forall x, In x (solve f) <-> f x = Some 0).
  { apply (EX f []). intro x. split; [intro H; now apply F in H|easy]. }
  unfold max_root. destruct (solve f) as [|a t]; [reflexivity|]. exfalso. apply (F a). apply S. now left.
Qed.
Lemma max_root_one f x : (forall y, f y = Some 0 <-> y = x) -> max_root solve f = Ok x.
Proof.
  intro F. apply (max_root_ok f [x]).
  - intro y. rewrite F. cbn. split; [intros ->; now left|intros [->|[]]; reflexivity].
  - now left.
  - intros y [->|[]]. lra.
Qed.
Lemma max_root_two f x : 0 <= x -> (forall y, f y = Some 0 <-> y = x \/ y = - x) -> max_root solve f = Ok x.
Proof.
  intros P F. apply (max_root_ok f [x; - x]).
  - intro y. rewrite F. cbn. intuition.
  - now left.
  - intros y [->|[<-|[]]]; lra.
Qed.
End Roots.

(** The reduced modulus. *)
Lemma compliance_pos e v : 0 < e -> 0 <= v < 1 -> 0 < (1 - v ^ 2) / e.
Proof. intros E V. apply Rdiv_lt_0_compat; nra. Qed.
Lemma e_star_pos s : physical s -> 0 < e_star s.
Proof.
  intros (P & E1 & E2 & V1 & V2 & L). unfold e_star. apply Rinv_0_lt_compat.
  pose proof (compliance_pos _ _ E1 V1). pose proof (compliance_pos _ _ E2 V2). lra.
Qed.
Lemma reduced_ok s : physical s -> reduced (s_e1 s) (s_e2 s) (s_v1 s) (s_v2 s) = Ok (e_star s).
Proof.
  intros P. pose proof P as (R0 & E1 & E2 & V1 & V2 & L). unfold reduced.
  rewrite pdiv_ok by lra. cbn [bind]. rewrite pdiv_ok by lra. cbn [bind].
  pose proof (compliance_pos _ _ E1 V1). pose proof (compliance_pos _ _ E2 V2).
  rewrite pdiv_ok by lra. unfold e_star. f_equal. unfold Rdiv. ring.
Qed.
Lemma inv_e_star s : physical s -> / e_star s = (1 - s_v1 s ^ 2) / s_e1 s + (1 - s_v2 s ^ 2) / s_e2 s.
Proof. intro P. unfold e_star. apply Rinv_inv. Qed.

(** Line contacts in closed form. *)
Lemma line_a_pos s : physical s -> 0 < line_a s.
Proof.
  intro P. pose proof (e_star_pos s P). pose proof PI_RGT_0. destruct P as (R0 & E1 & E2 & V1 & V2 & L).
  apply sqrt_lt_R0. apply Rdiv_lt_0_compat; [|now apply Rmult_lt_0_compat].
  apply Rmult_lt_0_compat; lra.
Qed.
Lemma line_a_sq s : physical s -> line_a s ^ 2 = 4 * s_load s * s_r s / (PI * e_star s).
Proof.
  intro P. pose proof (e_star_pos s P). pose proof PI_RGT_0. destruct P as (R0 & E1 & E2 & V1 & V2 & L).
  unfold line_a. rewrite pow2_sqrt; [reflexivity|]. left. apply Rdiv_lt_0_compat; [|now apply Rmult_lt_0_compat].
  apply Rmult_lt_0_compat; lra.
Qed.
Lemma line_p_pos s : physical s -> 0 < line_p s.
Proof.
  intro P. pose proof (line_a_pos s P). pose proof PI_RGT_0. destruct P as (R0 & E1 & E2 & V1 & V2 & L).
  unfold line_p. apply Rdiv_lt_0_compat; [lra|]. now apply Rmult_lt_0_compat.
Qed.
Lemma line_p_sq s : physical s -> line_p s ^ 2 = s_load s * e_star s / (PI * s_r s).
Proof.
  intro P. pose proof (e_star_pos s P) as E. pose proof (line_a_pos s P) as A. pose proof PI_RGT_0 as Q.
  pose proof (line_a_sq s P) as S. destruct P as (R0 & E1 & E2 & V1 & V2 & L).
  unfold line_p. replace ((2 * s_load s / (PI * line_a s)) ^ 2) with (4 * s_load s ^ 2 / (PI ^ 2 * line_a s ^ 2)) by (field; lra).
  rewrite S. field. lra.
Qed.
Lemma line_c_mises s : physical s -> exists c, line_c (s_v1 s) = Ok c /\ fdiv (Fin (line_p s)) (Fin c) = Fin (line_mises s).
Proof.
  intro P. destruct P as (R0 & E1 & E2 & V1 & V2 & L). unfold line_c, line_mises, Rleb.
  destruct (Rle_dec (s_v1 s) 0.1938) as [H|H].
  - replace (1 + 4 * (s_v1 s - 1) * s_v1 s) with ((1 - 2 * s_v1 s) ^ 2) by ring.
    rewrite sqrt_pow2 by lra. rewrite pdiv_ok by lra. eexists. split; [reflexivity|].
    unfold fdiv. rewrite (proj2 (Reqb_false _ 0)).
    + f_equal. field. lra.
    + unfold Rdiv. rewrite Rmult_1_l. apply Rinv_neq_0_compat. lra.
  - eexists. split; [reflexivity|]. unfold fdiv. rewrite (proj2 (Reqb_false _ 0)); [reflexivity|].
    assert (0 < 1.164 + 2.975 * s_v1 s - 2.906 * s_v1 s ^ 2); [|lra].
    assert (s_v1 s ^ 2 <= s_v1 s) by nra. lra.
Qed.

Lemma fill_line_ok s : physical s -> fill_line (all_given s) = Ok (line_solution s).
Proof.
  intro P. pose proof (e_star_pos s P) as E. pose proof PI_RGT_0 as Q.
  pose proof P as (R0 & E1 & E2 & V1 & V2 & L).
  unfold fill_line, reduced_of. cbn [all_given g_r g_e1 g_e2 g_v1 g_v2 g_load val bind].
  rewrite reduced_ok by exact P. cbn [bind]. destruct (line_c_mises s P) as (c & C & M). rewrite C. cbn [bind].
  rewrite !pdiv_ok by lra. cbn [bind].
  assert (W : fsqrt (Fin (4 * s_load s * s_r s / e_star s / PI)) = Fin (line_a s)).
  { rewrite fsqrt_ok.
    - unfold line_a. do 2 f_equal. field. lra.
    - replace (4 * s_load s * s_r s / e_star s / PI) with (line_a s ^ 2); [apply pow2_ge_0|].
      rewrite line_a_sq by exact P. field. lra. }
  assert (PR : fsqrt (Fin (s_load s * e_star s / PI / s_r s)) = Fin (line_p s)).
  { replace (s_load s * e_star s / PI / s_r s) with (line_p s ^ 2) by (rewrite line_p_sq by exact P; field; lra).
    rewrite fsqrt_ok by apply pow2_ge_0. rewrite sqrt_pow2; [reflexivity|]. left. now apply line_p_pos. }
  rewrite W, PR, M. unfold line_solution. f_equal. cbn [fmul]. do 2 f_equal. ring.
Qed.

(** Point contacts in closed form. *)
Lemma third : / 3 = 1 / 3. Proof. field. Qed.
Lemma point_a_pos s : 0 < point_a s. Proof. apply exp_pos. Qed.
Lemma point_a_cube s : physical s -> point_a s ^ 3 = 3 * s_load s * s_r s / (4 * e_star s).
Proof.
  intro P. pose proof (e_star_pos s P). destruct P as (R0 & E1 & E2 & V1 & V2 & L).
  unfold point_a. rewrite third. apply cube_root_cube. apply Rdiv_lt_0_compat; [|lra].
  apply Rmult_lt_0_compat; lra.
Qed.
Lemma point_p_pos s : physical s -> 0 < point_p s.
Proof.
  intro P. pose proof (point_a_pos s) as A. pose proof PI_RGT_0. destruct P as (R0 & E1 & E2 & V1 & V2 & L).
  unfold point_p. apply Rdiv_lt_0_compat; [lra|]. apply Rmult_lt_0_compat; [lra|].
  apply Rmult_lt_0_compat; [assumption|]. now apply pow_lt.
Qed.
Lemma point_p_cube s : physical s -> point_p s ^ 3 = 6 * s_load s * e_star s ^ 2 / PI ^ 3 / s_r s ^ 2.
Proof.
  intro P. pose proof (e_star_pos s P) as E. pose proof (point_a_pos s) as A. pose proof PI_RGT_0 as Q.
  pose proof (point_a_cube s P) as S. destruct P as (R0 & E1 & E2 & V1 & V2 & L).
  unfold point_p. replace ((3 * s_load s / (2 * (PI * point_a s ^ 2))) ^ 3) with
    (27 * s_load s ^ 3 / (8 * PI ^ 3 * (point_a s ^ 3) ^ 2)) by (field; lra).
  rewrite S. field. lra.
Qed.
Lemma point_d_cube s : physical s -> (point_a s ^ 2 / s_r s) ^ 3 = 9 * s_load s ^ 2 / 16 / s_r s / e_star s ^ 2.
Proof.
  intro P. pose proof (e_star_pos s P) as E. pose proof (point_a_cube s P) as S.
  destruct P as (R0 & E1 & E2 & V1 & V2 & L).
  replace ((point_a s ^ 2 / s_r s) ^ 3) with ((point_a s ^ 3) ^ 2 / s_r s ^ 3) by (field; lra).
  rewrite S. field. lra.
Qed.
Lemma fcbrt_ok x y : 0 < y -> y ^ 3 = x -> fcbrt x = Fin y.
Proof. intros P E. unfold fcbrt. now rewrite (ocbrt_pos x y). Qed.

Lemma fill_point_ok s : physical s -> fill_point (all_given s) = Ok (point_solution s).
Proof.
  intro P. pose proof (e_star_pos s P) as E. pose proof PI_RGT_0 as Q.
  pose proof P as (R0 & E1 & E2 & V1 & V2 & L).
  unfold fill_point, reduced_of. cbn [all_given g_r g_e1 g_e2 g_v1 g_v2 g_load val bind].
  rewrite reduced_ok by exact P. cbn [bind].
  rewrite !pdiv_ok by (try (apply pow_nonzero); lra). cbn [bind].
  rewrite (fcbrt_ok _ (point_a s)) by (try apply point_a_pos; rewrite point_a_cube by exact P; field; lra).
  rewrite (fcbrt_ok _ (point_p s)) by (try (now apply point_p_pos); rewrite point_p_cube by exact P; field; lra).
  unfold point_solution. f_equal. cbn [fmul]. unfold fdiv.
  rewrite (proj2 (Reqb_false 3 0)) by lra. rewrite (proj2 (Reqb_false (s_r s) 0)) by lra.
  f_equal; try reflexivity; f_equal; field; lra.
Qed.

(** The unknowns of the equations. *)
Ltac phys P := pose proof (e_star_pos _ P); pose proof PI_RGT_0; destruct P as (? & ? & ? & ? & ? & ?).
Lemma some0 a : Some a = Some 0 <-> a = 0.
Proof. split; [now intros [= ->]|now intros ->]. Qed.
Lemma factor k x y : k <> 0 -> (k * (x - y) = 0 <-> x = y).
Proof.
  intro K. split; [|intros ->; ring]. intro H. apply Rmult_integral in H. destruct H; [contradiction|lra].
Qed.
Lemma factor2 k x y : k <> 0 -> (k * (x ^ 2 - y ^ 2) = 0 <-> x = y \/ x = - y).
Proof.
  intro K. split.
  - intro H. apply Rmult_integral in H. destruct H as [H|H]; [contradiction|].
    replace (x ^ 2 - y ^ 2) with ((x - y) * (x + y)) in H by ring. apply Rmult_integral in H. destruct H; [left|right]; lra.
  - intros [->| ->]; ring.
Qed.
Lemma quot_nz a b : a <> 0 -> b <> 0 -> a / b <> 0.
Proof. intros A B. unfold Rdiv. apply Rmult_integral_contrapositive_currified; [exact A|now apply Rinv_neq_0_compat]. Qed.
Ltac nz := match goal with
  | |- _ / _ <> 0 => apply quot_nz; nz
  | |- _ * _ <> 0 => apply Rmult_integral_contrapositive_currified; nz
  | |- _ ^ _ <> 0 => apply pow_nonzero; nz
  | |- _ => lra
  end.

(** Line contacts. *)
Lemma line_shear_sq s : physical s -> (0.3 * line_p s) ^ 2 = 0.3 ^ 2 * s_load s * e_star s / (PI * s_r s).
Proof. intro P. pose proof (line_p_sq s P) as S. rewrite Rpow_mult_distr, S. phys P. field. lra. Qed.

Lemma line_eq_e q s x : physical s ->
  match q with
  | LPressure => line_pressure_eq (line_p s) (s_load s) (s_r s) x
  | LShear => line_shear_eq (0.3 * line_p s) (s_load s) (s_r s) x
  | LWidth => line_width_eq (line_a s) (s_load s) (s_r s) x
  end = Some 0 <-> x = e_star s.
Proof.
  intro P. destruct q.
  - unfold line_pressure_eq. rewrite line_p_sq by exact P. phys P. rewrite odiv_ok by lra. cbn [obind]. rewrite some0.
    replace (s_load s * x / PI / s_r s - s_load s * e_star s / (PI * s_r s)) with (s_load s / (PI * s_r s) * (x - e_star s)) by (field; lra).
    apply factor. nz.
  - unfold line_shear_eq. rewrite line_shear_sq by exact P. phys P. rewrite odiv_ok by lra. cbn [obind]. rewrite some0.
    replace (0.3 ^ 2 * s_load s * x / PI / s_r s - 0.3 ^ 2 * s_load s * e_star s / (PI * s_r s)) with (0.3 ^ 2 * s_load s / (PI * s_r s) * (x - e_star s)) by (field; lra).
    apply factor. nz.
  - unfold line_width_eq. rewrite line_a_sq by exact P. phys P. destruct (Req_dec x 0) as [->|N].
    + rewrite odiv_none. cbn. split; [discriminate|lra].
    + rewrite odiv_ok by exact N. cbn [obind]. rewrite some0.
      replace (4 * s_load s * s_r s / PI / x - 4 * s_load s * s_r s / (PI * e_star s)) with (- (4 * s_load s * s_r s / (PI * x * e_star s)) * (x - e_star s)) by (field; lra).
      apply factor. apply Ropp_neq_0_compat. nz.
Qed.
Lemma line_eq_r q s x : physical s ->
  match q with
  | LPressure => line_pressure_eq (line_p s) (s_load s) x (e_star s)
  | LShear => line_shear_eq (0.3 * line_p s) (s_load s) x (e_star s)
  | LWidth => line_width_eq (line_a s) (s_load s) x (e_star s)
  end = Some 0 <-> x = s_r s.
Proof.
  intro P. destruct q.
  - unfold line_pressure_eq. rewrite line_p_sq by exact P. phys P. destruct (Req_dec x 0) as [->|N].
    + rewrite odiv_none. cbn. split; [discriminate|lra].
    + rewrite odiv_ok by exact N. cbn [obind]. rewrite some0.
      replace (s_load s * e_star s / PI / x - s_load s * e_star s / (PI * s_r s)) with (- (s_load s * e_star s / (PI * s_r s * x)) * (x - s_r s)) by (field; lra).
      apply factor. apply Ropp_neq_0_compat. nz.
  - unfold line_shear_eq. rewrite line_shear_sq by exact P. phys P. destruct (Req_dec x 0) as [->|N].
    + rewrite odiv_none. cbn. split; [discriminate|lra].
    + rewrite odiv_ok by exact N. cbn [obind]. rewrite some0.
      replace (0.3 ^ 2 * s_load s * e_star s / PI / x - 0.3 ^ 2 * s_load s * e_star s / (PI * s_r s)) with (- (0.3 ^ 2 * s_load s * e_star s / (PI * s_r s * x)) * (x - s_r s)) by (field; lra).
      apply factor. apply Ropp_neq_0_compat. nz.
  - unfold line_width_eq. rewrite line_a_sq by exact P. phys P. rewrite odiv_ok by lra. cbn [obind]. rewrite some0.
    replace (4 * s_load s * x / PI / e_star s - 4 * s_load s * s_r s / (PI * e_star s)) with (4 * s_load s / (PI * e_star s) * (x - s_r s)) by (field; lra).
    apply factor. nz.
Qed.
Lemma line_eq_l q s x : physical s ->
  match q with
  | LPressure => line_pressure_eq (line_p s) x (s_r s) (e_star s)
  | LShear => line_shear_eq (0.3 * line_p s) x (s_r s) (e_star s)
  | LWidth => line_width_eq (line_a s) x (s_r s) (e_star s)
  end = Some 0 <-> x = s_load s.
Proof.
  intro P. destruct q.
  - unfold line_pressure_eq. rewrite line_p_sq by exact P. phys P. rewrite odiv_ok by lra. cbn [obind]. rewrite some0.
    replace (x * e_star s / PI / s_r s - s_load s * e_star s / (PI * s_r s)) with (e_star s / (PI * s_r s) * (x - s_load s)) by (field; lra).
    apply factor. nz.
  - unfold line_shear_eq. rewrite line_shear_sq by exact P. phys P. rewrite odiv_ok by lra. cbn [obind]. rewrite some0.
    replace (0.3 ^ 2 * x * e_star s / PI / s_r s - 0.3 ^ 2 * s_load s * e_star s / (PI * s_r s)) with (0.3 ^ 2 * e_star s / (PI * s_r s) * (x - s_load s)) by (field; lra).
    apply factor. nz.
  - unfold line_width_eq. rewrite line_a_sq by exact P. phys P. rewrite odiv_ok by lra. cbn [obind]. rewrite some0.
    replace (4 * x * s_r s / PI / e_star s - 4 * s_load s * s_r s / (PI * e_star s)) with (4 * s_r s / (PI * e_star s) * (x - s_load s)) by (field; lra).
    apply factor. nz.
Qed.

(** Point contacts. *)
Lemma point_base l r e : odiv (6 * l * e ^ 2 / PI ^ 3) (r ^ 2) = if Reqb r 0 then None else Some (6 * l * e ^ 2 / PI ^ 3 / r ^ 2).
Proof.
  destruct (Reqb r 0) eqn:Q.
  - apply Reqb_true in Q. subst. replace (0 ^ 2) with 0 by ring. apply odiv_none.
  - apply Reqb_false in Q. apply odiv_ok. now apply pow_nonzero.
Qed.
(** Being a root of the equations with a cube root is being a root of the equation of the pressure. *)
Lemma root_pressure k b p q : 0 < p -> k <> 0 -> q = p ^ 3 ->
  (obind (ocbrt b) (fun y => Some (k * y - k * p)) = Some 0 <-> Some (b - q) = Some 0).
Proof.
  intros P K Q. destruct (ocbrt b) as [y|] eqn:E; cbn [obind].
  - apply ocbrt_inv in E. destruct E as [Y E]. rewrite !some0. subst. split.
    + intro H. replace (k * y - k * p) with (k * (y - p)) in H by ring. apply factor in H; [|exact K]. subst. ring.
    + intro H. assert (y = p) by (apply cube_inj; lra). subst. ring.
  - split; [discriminate|]. rewrite some0. intro H. assert (b = p ^ 3) by lra. rewrite (ocbrt_pos b p) in E by easy. discriminate.
Qed.
Lemma point_shear_pressure s l r e : physical s ->
  (point_shear_eq (0.46 * point_p s) l r e = Some 0 <-> point_pressure_eq (point_p s) l r e = Some 0).
Proof.
  intro P. unfold point_shear_eq, point_pressure_eq. destruct (odiv _ _) as [b|]; cbn [obind]; [|reflexivity].
  apply root_pressure; [now apply point_p_pos|lra|reflexivity].
Qed.
Lemma point_tensile_pressure v s l r e : physical s -> v <> 1 / 2 ->
  (point_tensile_eq v ((1 - 2 * v) * point_p s / 3) l r e = Some 0 <-> point_pressure_eq (point_p s) l r e = Some 0).
Proof.
  intros P V. unfold point_tensile_eq, point_pressure_eq. destruct (odiv _ _) as [b|]; cbn [obind]; [|reflexivity].
  rewrite <- (root_pressure ((1 - 2 * v) / 3) b (point_p s)) by (try (now apply point_p_pos); try reflexivity; lra).
  destruct (ocbrt b); cbn [obind]; [|reflexivity]. rewrite !some0. split; intro H; lra.
Qed.

Lemma pressure_e s x : physical s -> (point_pressure_eq (point_p s) (s_load s) (s_r s) x = Some 0 <-> x = e_star s \/ x = - e_star s).
Proof.
  intro P. unfold point_pressure_eq. rewrite point_base, point_p_cube by exact P. phys P.
  rewrite (proj2 (Reqb_false (s_r s) 0)) by lra. cbn [obind]. rewrite some0.
  replace (6 * s_load s * x ^ 2 / PI ^ 3 / s_r s ^ 2 - 6 * s_load s * e_star s ^ 2 / PI ^ 3 / s_r s ^ 2) with
    (6 * s_load s / (PI ^ 3 * s_r s ^ 2) * (x ^ 2 - e_star s ^ 2)) by (field; lra).
  apply factor2. nz.
Qed.
Lemma pressure_r s x : physical s -> (point_pressure_eq (point_p s) (s_load s) x (e_star s) = Some 0 <-> x = s_r s \/ x = - s_r s).
Proof.
  intro P. unfold point_pressure_eq. rewrite point_base, point_p_cube by exact P. phys P.
  destruct (Reqb x 0) eqn:Q.
  - apply Reqb_true in Q. cbn. split; [discriminate|intros [H'|H']; lra].
  - apply Reqb_false in Q. cbn [obind]. rewrite some0.
    replace (6 * s_load s * e_star s ^ 2 / PI ^ 3 / x ^ 2 - 6 * s_load s * e_star s ^ 2 / PI ^ 3 / s_r s ^ 2) with
      (- (6 * s_load s * e_star s ^ 2 / (PI ^ 3 * s_r s ^ 2 * x ^ 2)) * (x ^ 2 - s_r s ^ 2)) by (field; lra).
    apply factor2. apply Ropp_neq_0_compat. nz.
Qed.
Lemma pressure_l s x : physical s -> (point_pressure_eq (point_p s) x (s_r s) (e_star s) = Some 0 <-> x = s_load s).
Proof.
  intro P. unfold point_pressure_eq. rewrite point_base, point_p_cube by exact P. phys P.
  rewrite (proj2 (Reqb_false (s_r s) 0)) by lra. cbn [obind]. rewrite some0.
  replace (6 * x * e_star s ^ 2 / PI ^ 3 / s_r s ^ 2 - 6 * s_load s * e_star s ^ 2 / PI ^ 3 / s_r s ^ 2) with
    (6 * e_star s ^ 2 / (PI ^ 3 * s_r s ^ 2) * (x - s_load s)) by (field; lra).
  apply factor. nz.
Qed.
Lemma radius_e s x : physical s -> (point_radius_eq (point_a s) (s_load s) (s_r s) x = Some 0 <-> x = e_star s).
Proof.
  intro P. unfold point_radius_eq. rewrite point_a_cube by exact P. phys P. destruct (Req_dec x 0) as [->|N].
  - rewrite odiv_none. cbn. split; [discriminate|lra].
  - rewrite odiv_ok by exact N. cbn [obind]. rewrite some0.
    replace (3 * s_load s * s_r s / 4 / x - 3 * s_load s * s_r s / (4 * e_star s)) with
      (- (3 * s_load s * s_r s / (4 * e_star s * x)) * (x - e_star s)) by (field; lra).
    apply factor. apply Ropp_neq_0_compat. nz.
Qed.
Lemma radius_r s x : physical s -> (point_radius_eq (point_a s) (s_load s) x (e_star s) = Some 0 <-> x = s_r s).
Proof.
  intro P. unfold point_radius_eq. rewrite point_a_cube by exact P. phys P.
  rewrite odiv_ok by lra. cbn [obind]. rewrite some0.
  replace (3 * s_load s * x / 4 / e_star s - 3 * s_load s * s_r s / (4 * e_star s)) with
    (3 * s_load s / (4 * e_star s) * (x - s_r s)) by (field; lra).
  apply factor. nz.
Qed.
Lemma radius_l s x : physical s -> (point_radius_eq (point_a s) x (s_r s) (e_star s) = Some 0 <-> x = s_load s).
Proof.
  intro P. unfold point_radius_eq. rewrite point_a_cube by exact P. phys P.
  rewrite odiv_ok by lra. cbn [obind]. rewrite some0.
  replace (3 * x * s_r s / 4 / e_star s - 3 * s_load s * s_r s / (4 * e_star s)) with
    (3 * s_r s / (4 * e_star s) * (x - s_load s)) by (field; lra).
  apply factor. nz.
Qed.
Lemma disp_e s x : physical s -> (point_disp_eq (point_a s ^ 2 / s_r s) (s_load s) (s_r s) x = Some 0 <-> x = e_star s \/ x = - e_star s).
Proof.
  intro P. unfold point_disp_eq. rewrite point_d_cube by exact P. phys P.
  rewrite odiv_ok by lra. cbn [obind]. destruct (Req_dec x 0) as [->|N].
  - replace (0 ^ 2) with 0 by ring. rewrite odiv_none. cbn. split; [discriminate|intros [H'|H']; lra].
  - rewrite odiv_ok by now apply pow_nonzero. cbn [obind]. rewrite some0.
    replace (9 * s_load s ^ 2 / 16 / s_r s / x ^ 2 - 9 * s_load s ^ 2 / 16 / s_r s / e_star s ^ 2) with
      (- (9 * s_load s ^ 2 / (16 * s_r s * e_star s ^ 2 * x ^ 2)) * (x ^ 2 - e_star s ^ 2)) by (field; lra).
    apply factor2. apply Ropp_neq_0_compat. nz.
Qed.
Lemma disp_r s x : physical s -> (point_disp_eq (point_a s ^ 2 / s_r s) (s_load s) x (e_star s) = Some 0 <-> x = s_r s).
Proof.
  intro P. unfold point_disp_eq. rewrite point_d_cube by exact P. phys P. destruct (Req_dec x 0) as [->|N].
  - rewrite odiv_none. cbn. split; [discriminate|lra].
  - rewrite odiv_ok by exact N. cbn [obind]. rewrite odiv_ok by (apply pow_nonzero; lra). cbn [obind]. rewrite some0.
    replace (9 * s_load s ^ 2 / 16 / x / e_star s ^ 2 - 9 * s_load s ^ 2 / 16 / s_r s / e_star s ^ 2) with
      (- (9 * s_load s ^ 2 / (16 * s_r s * e_star s ^ 2 * x)) * (x - s_r s)) by (field; lra).
    apply factor. apply Ropp_neq_0_compat. nz.
Qed.
Lemma disp_l s x : physical s -> (point_disp_eq (point_a s ^ 2 / s_r s) x (s_r s) (e_star s) = Some 0 <-> x = s_load s \/ x = - s_load s).
Proof.
  intro P. unfold point_disp_eq. rewrite point_d_cube by exact P. phys P.
  rewrite odiv_ok by lra. cbn [obind]. rewrite odiv_ok by (apply pow_nonzero; lra). cbn [obind]. rewrite some0.
  replace (9 * x ^ 2 / 16 / s_r s / e_star s ^ 2 - 9 * s_load s ^ 2 / 16 / s_r s / e_star s ^ 2) with
    (9 / (16 * s_r s * e_star s ^ 2) * (x ^ 2 - s_load s ^ 2)) by (field; lra).
  apply factor2. nz.
Qed.

(** The materials. *)
Section Materials.
Variable solve : (R -> option R) -> list R.
Hypothesis EX : exact solve.
Lemma sort_ok h s : physical s -> findable h s -> h <> HLoad -> h <> HRadius ->
  sort_materials solve (hide h s) (e_star s) = Ok (Full (all_given s)).
Proof.
  intros P F N1 N2. pose proof (inv_e_star s P) as I. pose proof (e_star_pos s P) as E.
  destruct s as [r e1 e2 v1 v2 ld]. pose proof P as (R0 & E1 & E2 & V1 & V2 & L). cbn [s_r s_e1 s_e2 s_v1 s_v2 s_load] in *.
  assert (Q1 : 0 < 1 - v1 ^ 2) by nra. assert (Q2 : 0 < 1 - v2 ^ 2) by nra.
  set (e := e_star _) in *.
  assert (I' : 1 / e = (1 - v1 ^ 2) / e1 + (1 - v2 ^ 2) / e2) by (rewrite <- I; unfold Rdiv; ring).
  destruct h; try contradiction; unfold sort_materials, mats_none; cbn [hide all_given g_r g_e1 g_e2 g_v1 g_v2 g_load
    s_r s_e1 s_e2 s_v1 s_v2 s_load filter missing List.length]; rewrite ?(pdiv_ok 1 e) by lra; cbn [bind].
  - rewrite (max_root_one solve EX _ e1); [reflexivity|]. intro y. unfold material_eq.
    destruct (Req_dec y 0) as [->|N]; [rewrite odiv_none; cbn; split; [discriminate|lra]|].
    rewrite !odiv_ok by lra. cbn [obind]. rewrite some0, I'.
    replace ((1 - v1 ^ 2) / y + (1 - v2 ^ 2) / e2 - ((1 - v1 ^ 2) / e1 + (1 - v2 ^ 2) / e2)) with
      (- ((1 - v1 ^ 2) / (y * e1)) * (y - e1)) by (field; lra).
    apply factor. apply Ropp_neq_0_compat. nz.
  - rewrite (max_root_one solve EX _ e2); [reflexivity|]. intro y. unfold material_eq.
    rewrite odiv_ok by lra. cbn [obind].
    destruct (Req_dec y 0) as [->|N]; [rewrite odiv_none; cbn; split; [discriminate|lra]|].
    rewrite !odiv_ok by lra. cbn [obind]. rewrite some0, I'.
    replace ((1 - v1 ^ 2) / e1 + (1 - v2 ^ 2) / y - ((1 - v1 ^ 2) / e1 + (1 - v2 ^ 2) / e2)) with
      (- ((1 - v2 ^ 2) / (y * e2)) * (y - e2)) by (field; lra).
    apply factor. apply Ropp_neq_0_compat. nz.
  - rewrite (max_root_two solve EX _ v1); [reflexivity|lra|]. intro y. unfold material_eq.
    rewrite !odiv_ok by lra. cbn [obind]. rewrite some0, I'.
    replace ((1 - y ^ 2) / e1 + (1 - v2 ^ 2) / e2 - ((1 - v1 ^ 2) / e1 + (1 - v2 ^ 2) / e2)) with
      (- (1 / e1) * (y ^ 2 - v1 ^ 2)) by (field; lra).
    apply factor2. apply Ropp_neq_0_compat. nz.
  - rewrite (max_root_two solve EX _ v2); [reflexivity|lra|]. intro y. unfold material_eq.
    rewrite !odiv_ok by lra. cbn [obind]. rewrite some0, I'.
    replace ((1 - v1 ^ 2) / e1 + (1 - y ^ 2) / e2 - ((1 - v1 ^ 2) / e1 + (1 - v2 ^ 2) / e2)) with
      (- (1 / e2) * (y ^ 2 - v2 ^ 2)) by (field; lra).
    apply factor2. apply Ropp_neq_0_compat. nz.
  - specialize (F eq_refl). cbn in F. subst e2.
    assert (X : e * (2 - v1 ^ 2 - v2 ^ 2) = e1).
    { assert (Y : 2 - v1 ^ 2 - v2 ^ 2 = e1 * / e) by (rewrite I; field; lra). rewrite Y. field. lra. }
    rewrite X. reflexivity.
Qed.
End Materials.

(** The unknown that belongs to a hidden quantity. *)
Definition unknown_of (h : hidden) : unknown :=
  match h with HLoad => UL | HRadius => UR | _ => UE end.
Lemma find_ok h s : physical s ->
  find_unknown (hide h s) = Ok (unknown_of h, match unknown_of h with UE => None | _ => Some (e_star s) end).
Proof.
  intro P. pose proof (reduced_ok s P) as RD. unfold find_unknown, mats_none, reduced_of.
  destruct h; cbn; try reflexivity; now rewrite RD.
Qed.
