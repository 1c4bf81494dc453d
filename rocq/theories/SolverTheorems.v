(** C37, C38 and C78: the iterative solvers. *)
From Coq Require Import List Bool Arith ZArith Reals Lia Lra.
From Verif Require Import Py SurfaceModel SurfaceProofs Flt SolverModel SolverSpec SolverProofs CgProofs.
Import ListNotations.
Local Open Scope R_scope.

(** ** C37 *)
(** Whatever the operator, the right hand side, the tolerance and the start are, also with
    infinities and not a number: the solver returns after at most max_it + 1 passes. *)
Theorem c37_stops : forall n f b tol max_it x0 mn mp k_inn,
  let limit := match max_it with Some m => m | None => Z.of_nat n end in
  exists res, forall fuel, (Z.to_nat (Z.max 1 (limit + 1)) <= fuel)%nat ->
    bccg fuel n f b tol max_it x0 mn mp k_inn = Some res.
Proof.
  intros n f b tol max_it x0 mn mp k_inn limit. unfold bccg. fold limit.
  destruct (loop_stops n f b tol limit mp k_inn (Z.to_nat (Z.max 1 (limit + 1))) (bccg_init n f b x0 mn mp)) as (res & H); [lia|cbn [it bccg_init]; lia|].
  exists res. intros fuel F. replace fuel with (Z.to_nat (Z.max 1 (limit + 1)) + (fuel - Z.to_nat (Z.max 1 (limit + 1))))%nat by lia. apply H.
Qed.
Print Assumptions c37_stops.

(** Every returned load is a number between 0 and the maximum pressure (up to 1e-14), or not a
    number, converged or not. *)
Theorem c37_bounds : forall fuel n f b tol max_it x0 mn mp k_inn v failed,
  (k_inn <= 1)%Z -> bccg fuel n f b tol max_it x0 mn mp k_inn = Some (v, failed) ->
  forall i, non_negative (mp i) ->
    v i = NaN \/ (fleb (Fin (- / 10 ^ 14)) (v i) = true /\ fleb (v i) (fmul (mp i) (Fin (1 + / 10 ^ 14))) = true).
Proof.
  intros fuel n f b tol max_it x0 mn mp k_inn v failed K H i M.
  unfold bccg in H. eapply loop_bounds; [exact K| |exact H|exact M]. cbn. lia.
Qed.
Print Assumptions c37_bounds.

(** A result without failure, for an operator that is a matrix and for every k_inn: all loads are
    numbers within the bounds; the last update was below the tolerance; the residual is
    orthogonal to the last update; nodes held at zero have no overlap left and nodes held at the
    maximum no gap. *)
Theorem c37_converged : forall fuel n f b tol max_it x0 mp k_inn A bb t v,
  is_matrix n f A -> numbers n b bb -> (forall i, (i < n)%nat -> non_negative (mp i)) -> tol = Fin t ->
  bccg fuel n f b tol max_it x0 (Fin 0) mp k_inn = Some (v, false) ->
  let limit := match max_it with Some m => m | None => Z.of_nat n end in
  exists k s x y,
    state_after k n f b tol limit mp k_inn (bccg_init n f b x0 (Fin 0) mp) = Some s /\
    bccg_step n f b tol limit mp k_inn s = inr (v, false) /\
    numbers n v x /\ numbers n (bx s) y /\
    length2 n (fun i => x i - y i) < t * length2 n x /\
    sum n (fun i => (times n A x i - bb i) * (x i - y i)) = 0 /\
    forall i, (i < n)%nat ->
      (- / 10 ^ 14 <= x i /\ fltb (Fin (x i)) (fmul (mp i) (Fin (1 + / 10 ^ 14))) = true) /\
      (msk_0 s i = true -> x i = 0 /\ y i = 0 /\ - / 10 ^ 14 <= times n A x i - bb i) /\
      (msk_max s i = true -> mp i = Fin (x i) /\ y i = x i /\ times n A x i - bb i <= / 10 ^ 14).
Proof.
  intros fuel n f b tol max_it x0 mp k_inn A bb t v HA Hb Hm T H limit. unfold bccg in H. fold limit in H.
  destruct (converged_loop n f b tol limit mp k_inn A bb HA Hb Hm t fuel _ v (init_consistent n f b mp A bb HA Hb Hm x0) T H) as (k & s & S & C & E).
  destruct (converged_step n f b tol limit mp k_inn A bb HA Hb Hm s v t C T E) as (x & y & R).
  exists k, s, x, y. split; [exact S|]. split; [exact E|]. exact R.
Qed.
Print Assumptions c37_converged.

(** A dot product with zeros. *)
Lemma dot_zeros : forall n a b, (forall i, (i < n)%nat -> a i = Fin 0) -> dot n a b = Fin 0 \/ dot n a b = NaN.
Proof.
  induction n; intros a b H; [left; reflexivity|]. cbn [dot]. rewrite (H n) by lia.
  assert (Z : signed_inf 0 = NaN) by (unfold signed_inf; destruct (Rltb 0 0) eqn:E; [apply Rltb_true in E; lra|reflexivity]).
  destruct (IHn a b) as [->| ->]; [intros; apply H; lia| |right; apply fadd_nan_l].
  destruct (b n) as [x| | |]; cbn; rewrite ?Ropp_0, ?Z; cbn; auto. left. f_equal. ring.
Qed.
Lemma zero_over : forall c, c = Fin 0 \/ c = NaN -> fdiv (Fin 0) c = NaN /\ fdiv NaN c = NaN.
Proof.
  intros c [->| ->]; split; try reflexivity. cbn. destruct (Reqb 0 0) eqn:E; [|apply Reqb_false in E; lra].
  unfold signed_inf. destruct (Rltb 0 0) eqn:F; [apply Rltb_true in F; lra|reflexivity].
Qed.

(** Refuted: a start that already is the exact solution within the bounds. The step length is
    0 / 0, every load is lost and the failure flag is set, for every matrix, tolerance, limit. *)
Theorem c37_exact_start_refuted : forall fuel n f b tol max_it x0 mn mp k_inn A bb x m v failed,
  (1 <= n)%nat -> is_matrix n f A -> numbers n b bb -> numbers n x0 x -> mn = Fin m ->
  (forall i, (i < n)%nat -> m <= x i /\ at_most (x i) (mp i)) ->
  (forall i, (i < n)%nat -> times n A x i = bb i) ->
  bccg fuel n f b tol max_it x0 mn mp k_inn = Some (v, failed) ->
  failed = true /\ forall i, (i < n)%nat -> v i = NaN.
Proof.
  intros fuel n f b tol max_it x0 mn mp k_inn A bb x m v failed N HA Hb Hx -> Hin Sol H. unfold bccg in H.
  eapply alpha_nan_loop; [exact N| |exact H]. clear H.
  intros r p q alpha upd x1 x2 outer prj_0 prj_max g m0 mm changed free Q.
  destruct Q as [Pr Pp Pq Pa _ _ _ _ _ _ _ _ _ _ _]. cbn [it bccg_init] in Pp. cbv zeta in Pp. cbn [it] in Pp.
  assert (X : numbers n (fun i => fmin (fmax (x0 i) (Fin m)) (mp i)) x).
  { intros i Hi. rewrite (Hx i Hi). destruct (Hin i Hi) as [L U]. cbn. destruct (Rltb (x i) m) eqn:E; [apply Rltb_true in E; lra|].
    destruct (mp i) as [y| | |]; cbn in U |- *; try contradiction; [|reflexivity].
    destruct (Rltb y (x i)) eqn:F; [apply Rltb_true in F; lra|reflexivity]. }
  assert (R : forall i, (i < n)%nat -> r i = Fin 0).
  { intros i Hi. rewrite Pr. destruct (_ || _); [reflexivity|]. cbn [bccg_init bg]. cbv zeta. cbn [bg].
    rewrite (HA _ x X i Hi), (Hb i Hi). cbn. f_equal. fold (times n A x i). rewrite (Sol i Hi). ring. }
  assert (P : forall i, (i < n)%nat -> p i = Fin 0).
  { intros i Hi. rewrite Pp. destruct (_ || _); [reflexivity|]. cbn. apply R. exact Hi. }
  rewrite Pa. destruct (zero_over (dot n p q) (dot_zeros n p q P)) as [Z1 Z2].
  destruct (dot_zeros n r p R) as [->| ->]; assumption.
Qed.
Print Assumptions c37_exact_start_refuted.

(** Refuted: inner iterations. With k_inn of two or more, a start without loads and one node
    that is not in contact, all loads are lost and the failure flag is set. *)
Theorem c37_inner_refuted : forall fuel n f b tol max_it x0 mp k_inn A bb v failed,
  (1 < k_inn)%Z -> is_matrix n f A -> numbers n b bb -> numbers n x0 (fun _ => 0) ->
  (forall i, (i < n)%nat -> non_negative (mp i)) -> (exists i, (i < n)%nat /\ bb i <= 0) ->
  bccg fuel n f b tol max_it x0 (Fin 0) mp k_inn = Some (v, failed) ->
  failed = true /\ forall i, (i < n)%nat -> v i = NaN.
Proof.
  intros fuel n f b tol max_it x0 mp k_inn A bb v failed K HA Hb Hx Hm (i & Hi & Bi) H. unfold bccg in H.
  eapply alpha_nan_loop; [lia| |exact H]. clear H.
  intros r p q alpha upd x1 x2 outer prj_0 prj_max g m0 mm changed free Q.
  destruct Q as [Pr Pp Pq Pa _ _ _ _ _ _ _ _ _ _ _].
  assert (X : numbers n (fun i => fmin (fmax (x0 i) (Fin 0)) (mp i)) (fun _ => 0)).
  { intros k Hk. rewrite (Hx k Hk). specialize (Hm k Hk). cbn. destruct (Rltb 0 0) eqn:E; [apply Rltb_true in E; lra|].
    destruct (mp k) as [y| | |]; cbn in Hm |- *; try contradiction; [|reflexivity].
    destruct (Rltb y 0) eqn:F; [apply Rltb_true in F; lra|reflexivity]. }
  assert (B : msk_0 (bccg_init n f b x0 (Fin 0) mp) i = true).
  { cbn [bccg_init msk_0]. cbv zeta. cbn [msk_0]. rewrite (X i Hi), (HA _ _ X i Hi), (Hb i Hi). cbn.
    rewrite (sum_ext n _ (fun _ => 0)) by (intros; ring). rewrite sum_zero. apply andb_true_iff. split; apply Rleb_true; lra. }
  rewrite Pa, (dot_nan n p q i Hi); [apply fdiv_nan_r|]. rewrite Pq, B.
  replace (it_inn (bccg_init n f b x0 (Fin 0) mp) + 1 <? k_inn)%Z with true by (symmetry; cbn; apply Z.ltb_lt; lia).
  apply fmul_nan_r.
Qed.
Print Assumptions c37_inner_refuted.

(** Refuted: with inner iterations a failed result is not projected, so loads of any negative
    size are returned. *)
Theorem c37_unprojected_refuted : forall c tol, c < 0 -> tol <= 1 ->
  exists f b x0 v, is_matrix 1 f (fun _ _ => 1) /\ bccg 1 1 f b (Fin tol) (Some 0%Z) x0 (Fin 0) (fun _ => PInf) 2 = Some (v, true) /\
    v 0%nat = Fin c.
Proof.
  intros c tol C T.
  destruct (step_pass 1 (fun v => v) (fun _ => Fin c) (Fin tol) 0 (fun _ => PInf) 2
    (bccg_init 1 (fun v => v) (fun _ => Fin c) (fun _ => Fin 1) (Fin 0) (fun _ => PInf)))
    as (r & p & q & alpha & upd & x1 & x2 & outer & prj_0 & prj_max & g & m0 & mm & changed & free & Q).
  destruct Q as [Pr Pp Pq Pa Px1 Pu Po P0 Pm Px2 _ _ _ _ Pres].
  assert (I : msk_0 (bccg_init 1 (fun v => v) (fun _ => Fin c) (fun _ => Fin 1) (Fin 0) (fun _ => PInf)) 0 = false).
  { cbn. destruct (Rltb 1 0) eqn:E; [apply Rltb_true in E; lra|]. cbn. destruct (Rleb 1 0) eqn:F; [apply Rleb_true in F; lra|reflexivity]. }
  assert (J : msk_max (bccg_init 1 (fun v => v) (fun _ => Fin c) (fun _ => Fin 1) (Fin 0) (fun _ => PInf)) 0 = false).
  { cbn. destruct (Rltb 1 0) eqn:E; [apply Rltb_true in E; lra|]. reflexivity. }
  assert (B : bx (bccg_init 1 (fun v => v) (fun _ => Fin c) (fun _ => Fin 1) (Fin 0) (fun _ => PInf)) 0%nat = Fin 1).
  { cbn. destruct (Rltb 1 0) eqn:E; [apply Rltb_true in E; lra|]. reflexivity. }
  assert (G : bg (bccg_init 1 (fun v => v) (fun _ => Fin c) (fun _ => Fin 1) (Fin 0) (fun _ => PInf)) 0%nat = Fin (1 - c)).
  { cbn. destruct (Rltb 1 0) eqn:E; [apply Rltb_true in E; lra|]. reflexivity. }
  assert (F : n_free (bccg_init 1 (fun v => v) (fun _ => Fin c) (fun _ => Fin 1) (Fin 0) (fun _ => PInf)) = 1%Z).
  { change (1 - (Z.of_nat (0 + if msk_0 (bccg_init 1 (fun v => v) (fun _ => Fin c) (fun _ => Fin 1) (Fin 0) (fun _ => PInf)) 0 then 1 else 0) +
      Z.of_nat (0 + if msk_max (bccg_init 1 (fun v => v) (fun _ => Fin c) (fun _ => Fin 1) (Fin 0) (fun _ => PInf)) 0 then 1 else 0)) = 1)%Z.
    rewrite I, J. reflexivity. }
  assert (It : it (bccg_init 1 (fun v => v) (fun _ => Fin c) (fun _ => Fin 1) (Fin 0) (fun _ => PInf)) = 0%Z) by reflexivity.
  assert (In : it_inn (bccg_init 1 (fun v => v) (fun _ => Fin c) (fun _ => Fin 1) (Fin 0) (fun _ => PInf)) = 0%Z) by reflexivity.
  exists (fun v => v), (fun _ => Fin c), (fun _ => Fin 1), x2. unfold bccg. cbn [bccg_loop].
  set (s0 := bccg_init 1 (fun v => v) (fun _ => Fin c) (fun _ => Fin 1) (Fin 0) (fun _ => PInf)) in *.
  split; [|split].
  - intros v x H i Hi. assert (i = 0)%nat by lia. subst. rewrite (H 0%nat Hi). f_equal. cbn. ring.
  - rewrite Pres, It. destruct (free =? 0)%Z; reflexivity.
  - assert (R0 : r 0%nat = Fin (- (1 - c))) by (rewrite Pr, I, J, G; reflexivity).
    assert (Q0 : p 0%nat = Fin (- (1 - c))) by (rewrite Pp, I, J, It; cbn; exact R0).
    assert (Q1 : q 0%nat = Fin (- (1 - c))) by (rewrite Pq, I, J, In; cbn; exact Q0).
    assert (A1 : alpha = Fin 1).
    { rewrite Pa. cbn [dot]. rewrite R0, Q0, Q1. cbn. destruct (Reqb _ 0) eqn:E; [apply Reqb_true in E; nra|].
      f_equal. field. nra. }
    assert (X : fadd (bx s0 0%nat) (fmul alpha (p 0%nat)) = Fin c) by (rewrite B, A1, Q0; cbn; f_equal; ring).
    assert (O : outer = false).
    { rewrite Po, In. cbn [Z.leb Z.add Z.compare orb]. replace (2 <=? 0 + 1)%Z with false by reflexivity. cbn [orb].
      destruct (fltb upd (Fin tol)) eqn:E; [|reflexivity]. exfalso. rewrite Pu in E.
      rewrite (norm_numbers 1 (fun i => fadd (bx s0 i) (fmul alpha (p i))) (fun _ => c)) in E by (intros i Hi; replace i with 0%nat by lia; exact X).
      rewrite (norm_numbers 1 (fun i => fsub (fadd (bx s0 i) (fmul alpha (p i))) (bx s0 i)) (fun _ => c - 1)) in E
        by (intros i Hi; replace i with 0%nat by lia; rewrite X, B; reflexivity).
      apply upd_small in E; try apply sqrt_pos. unfold length2 in E. cbn in E. rewrite !Rplus_0_l in E.
      assert (S1 : sqrt ((c - 1) * (c - 1)) = 1 - c) by (replace ((c - 1) * (c - 1)) with ((1 - c) * (1 - c)) by ring; apply sqrt_square; lra).
      assert (S2 : sqrt (c * c) = - c) by (replace (c * c) with ((- c) * (- c)) by ring; apply sqrt_square; lra).
      rewrite S1, S2 in E. nra. }
    rewrite Px2, Pm, O. cbn [andb]. rewrite Px1, P0, O. cbn [andb]. exact X.
Qed.
Print Assumptions c37_unprojected_refuted.


(** The first pass for one node and the operator "times a": the exact solution is reached. *)
Section OneNode.
Variables (a c x0 tol : R) (limit : Z).
Hypothesis Ha : 0 < a.
Hypothesis Hc : 0 < c.
Hypothesis Hx : 0 <= x0.
Hypothesis Hne : x0 * a <> c.
Let f := fun (v : vec) i => fmul (Fin a) (v i).
Let b : vec := fun _ => Fin c.
Let mp : vec := fun _ => PInf.
Let s0 := bccg_init 1 f b (fun _ => Fin x0) (Fin 0) mp.
Lemma one_matrix : is_matrix 1 f (fun _ _ => a).
Proof. intros v x H i Hi. unfold f. rewrite (H i Hi). cbn. f_equal. replace i with 0%nat by lia. ring. Qed.
Lemma small_one : (Rltb 0 (1 + small)) = true.
Proof. apply Rltb_true. pose proof small_pos. lra. Qed.
Lemma one_start : bx s0 0%nat = Fin x0 /\ bg s0 0%nat = Fin (a * x0 - c) /\ msk_max s0 0 = false /\
  msk_0 s0 0 = Rleb x0 0 && Rleb 0 (a * x0 - c).
Proof.
  assert (E : Rltb x0 0 = false) by (apply Rltb_false; lra). cbn. rewrite E. cbn. auto.
Qed.
Lemma one_pass : msk_0 s0 0 = false -> exists s,
  bccg_step 1 f b (Fin tol) limit mp 1 s0 =
    (if (limit <? 1)%Z then inr (bx s, true) else if Rltb (Rabs (c / a - x0)) (tol * (c / a)) then inr (bx s, false) else inl s) /\
  bx s 0%nat = Fin (c / a) /\ bg s 0%nat = Fin 0 /\ msk_0 s 0 = false /\ msk_max s 0 = false /\ br s 0%nat = Fin (- (a * x0 - c)) /\
  rho s = Fin ((a * x0 - c) * (a * x0 - c)) /\ bp s 0%nat = Fin (- (a * x0 - c)) /\ it_inn s = 0%Z.
Proof.
  intros I. destruct one_start as (B & G & J & _).
  destruct (step_pass 1 f b (Fin tol) limit mp 1 s0)
    as (r & p & q & alpha & upd & x1 & x2 & outer & prj_0 & prj_max & g & m0 & mm & changed & free & Q).
  destruct Q as [Pr Pp Pq Pa Px1 Pu Po P0 Pm Px2 Pg Pm0 Pmm Pc Pres Pfree].
  assert (It : it s0 = 0%Z) by reflexivity. assert (In : it_inn s0 = 0%Z) by reflexivity.
  assert (F : n_free s0 = 1%Z).
  { change (1 - (Z.of_nat (0 + if msk_0 s0 0 then 1 else 0) + Z.of_nat (0 + if msk_max s0 0 then 1 else 0)) = 1)%Z. rewrite I, J. reflexivity. }
  pose proof small_pos as SP. assert (CA : 0 < c / a) by (apply Rmult_lt_0_compat; [lra|apply Rinv_0_lt_compat; lra]).
  assert (NZ : a * x0 - c <> 0) by (intros E; apply Hne; lra).
  assert (R0 : r 0%nat = Fin (- (a * x0 - c))) by (rewrite Pr, I, J, G; reflexivity).
  assert (Q0 : p 0%nat = Fin (- (a * x0 - c))) by (rewrite Pp, I, J, It; cbn; exact R0).
  assert (Q1 : q 0%nat = Fin (a * - (a * x0 - c))) by (rewrite Pq, In; unfold f; rewrite Q0; reflexivity).
  assert (A1 : alpha = Fin (/ a)).
  { rewrite Pa. cbn [dot]. rewrite R0, Q0, Q1. cbn. destruct (Reqb _ 0) eqn:E.
    - apply Reqb_true in E. exfalso. assert (0 < (a * x0 - c) * (a * x0 - c)) by nra. nra.
    - f_equal. field. split; [lra|exact NZ]. }
  assert (X : fadd (bx s0 0%nat) (fmul alpha (p 0%nat)) = Fin (c / a)) by (rewrite B, A1, Q0; cbn; f_equal; field; lra).
  assert (O : outer = true) by (rewrite Po, In; reflexivity). rewrite O in *. clear Po O.
  assert (N0 : prj_0 0%nat = false) by (rewrite P0, X; cbn; apply Rltb_false; lra).
  assert (X1 : x1 0%nat = Fin (c / a)) by (rewrite Px1, N0; exact X).
  assert (Nm : prj_max 0%nat = false) by (rewrite Pm, X1; unfold mp; cbn; unfold signed_inf; rewrite small_one; reflexivity).
  assert (X2 : x2 0%nat = Fin (c / a)) by (rewrite Px2, Nm; exact X1).
  assert (G1 : g 0%nat = Fin 0).
  { rewrite Pg. cbn [any orb]. rewrite N0, Nm. cbn [orb andb]. replace (1 <? 1)%Z with false by reflexivity.
    rewrite G, A1, Q1. cbn. f_equal. field. lra. }
  assert (M0 : m0 0%nat = false) by (rewrite Pm0, I, N0; reflexivity).
  assert (Mm : mm 0%nat = false) by (rewrite Pmm, J, Nm; reflexivity).
  assert (C0 : changed = false) by (rewrite Pc; cbn [any orb]; rewrite N0, Nm, M0, Mm; reflexivity).
  rewrite C0 in *. assert (U : fltb upd (Fin tol) = Rltb (Rabs (c / a - x0)) (tol * (c / a))).
  { rewrite Pu, F.
    rewrite (norm_numbers 1 (fun i => fadd (bx s0 i) (fmul alpha (p i))) (fun _ => c / a)) by (intros i Hi; replace i with 0%nat by lia; exact X).
    rewrite (norm_numbers 1 (fun i => fsub (fadd (bx s0 i) (fmul alpha (p i))) (bx s0 i)) (fun _ => c / a - x0))
      by (intros i Hi; replace i with 0%nat by lia; rewrite X, B; reflexivity).
    unfold length2. cbn [sum]. rewrite !Rplus_0_l. fold (Rsqr (c / a - x0)). fold (Rsqr (c / a)). rewrite !sqrt_Rsqr_abs, (Rabs_pos_eq (c / a)) by lra.
    unfold fsqrt. destruct (Rltb 1 0) eqn:E; [apply Rltb_true in E; lra|]. rewrite sqrt_1, !fin_div by lra.
    cbn [fltb]. destruct (Rltb (Rabs (c / a - x0)) (tol * (c / a))) eqn:H.
    - apply Rltb_true in H. apply Rltb_true. apply Rmult_lt_reg_r with (c / a); [exact CA|].
      replace (Rabs (c / a - x0) / 1 / (c / a / 1) * (c / a)) with (Rabs (c / a - x0)) by (field; lra). exact H.
    - apply Rltb_false in H. apply Rltb_false. apply Rmult_le_reg_r with (c / a); [exact CA|].
      replace (Rabs (c / a - x0) / 1 / (c / a / 1) * (c / a)) with (Rabs (c / a - x0)) by (field; lra). exact H. }
  rewrite (Pfree eq_refl), F, It in Pres. cbn [andb negb] in Pres. rewrite U in Pres.
  eexists (Bcg _ _ x2 g r p _ _ _ _). cbn [bx bg msk_0 msk_max br rho bp it_inn]. split; [exact Pres|].
  cbn beta. rewrite M0, Mm. cbn [dot]. rewrite R0. cbn. repeat split; auto. f_equal. ring.
Qed.
End OneNode.

(** Refuted: a single contact node. The first pass finds the exact load, but unless this update
    already was below the tolerance the second pass divides zero by zero and the result is not a
    number: with the start at zero and a tolerance up to one no such contact is ever solved. *)
Theorem c37_single_node_refuted : forall fuel a c tol max_it v failed, 0 < a -> 0 < c -> tol <= 1 -> (1 <= max_it)%Z ->
  bccg fuel 1 (fun v i => fmul (Fin a) (v i)) (fun _ => Fin c) (Fin tol) (Some max_it) (fun _ => Fin 0) (Fin 0) (fun _ => PInf) 1
    = Some (v, failed) -> failed = true /\ v 0%nat = NaN.
Proof.
  intros fuel a c tol max_it v failed Ha Hc T M H. unfold bccg in H. destruct fuel; [discriminate|]. cbn [bccg_loop] in H.
  assert (CA : 0 < c / a) by (apply Rmult_lt_0_compat; [lra|apply Rinv_0_lt_compat; lra]).
  destruct (one_pass a c 0 tol max_it Ha Hc ltac:(lra) ltac:(lra)) as (s & E & X & G & M0 & Mm & R1 & Rho & P1 & In).
  { destruct (one_start a c 0 ltac:(lra)) as (_ & _ & _ & ->). apply andb_false_iff. right. apply Rleb_false. lra. }
  rewrite E in H. destruct (max_it <? 1)%Z eqn:L; [apply Z.ltb_lt in L; lia|].
  destruct (Rltb (Rabs (c / a - 0)) (tol * (c / a))) eqn:U.
  { exfalso. apply Rltb_true in U. rewrite Rminus_0_r, Rabs_pos_eq in U by lra. nra. }
  assert (K : failed = true /\ forall i, (i < 1)%nat -> v i = NaN).
  { eapply alpha_nan_loop; [lia| |exact H]. intros r p q alpha upd x1 x2 outer prj_0 prj_max g m0 mm changed free Q.
    destruct Q as [Pr Pp Pq Pa _ _ _ _ _ _ _ _ _ _ _].
    assert (R : forall i, (i < 1)%nat -> r i = Fin 0).
    { intros i Hi. replace i with 0%nat by lia. rewrite Pr, M0, Mm, G. cbn. f_equal. ring. }
    assert (Be : fmax (fdiv (fsub (dot 1 r r) (dot 1 r (br s))) (rho s)) (Fin 0) = Fin 0).
    { cbn [dot]. rewrite (R 0%nat ltac:(lia)), R1, Rho. cbn. destruct (Reqb _ 0) eqn:Z; [apply Reqb_true in Z; nra|].
      unfold fmax. assert (Z0 : (0 + 0 * 0 + - (0 + 0 * - (a * 0 - c))) / ((a * 0 - c) * (a * 0 - c)) = 0) by (field; lra).
      rewrite Z0. cbn. destruct (Rltb 0 0); reflexivity. }
    assert (P : forall i, (i < 1)%nat -> p i = Fin 0).
    { intros i Hi. replace i with 0%nat by lia. rewrite Pp, M0, Mm. cbn [orb]. rewrite Be, (R 0%nat ltac:(lia)), P1.
      destruct (1 <? it s + 1)%Z; [cbn; f_equal; ring|reflexivity]. }
    rewrite Pa. destruct (zero_over (dot 1 p q) (dot_zeros 1 p q P)) as [Z1 Z2].
    destruct (dot_zeros 1 r p R) as [->| ->]; assumption. }
  destruct K as [K1 K2]. split; [exact K1|]. apply K2. lia.
Qed.
Print Assumptions c37_single_node_refuted.

(** A run that meets the hypotheses of [c37_converged] with a positive load. *)
Example c37_converged_case : exists v,
  bccg 1 1 (fun v i => fmul (Fin 2) (v i)) (fun _ => Fin 4) (Fin (1 / 2)) None (fun _ => Fin (5 / 2)) (Fin 0) (fun _ => PInf) 1 = Some (v, false) /\
  v 0%nat = Fin 2 /\ is_matrix 1 (fun v i => fmul (Fin 2) (v i)) (fun _ _ => 2) /\ non_negative PInf.
Proof.
  destruct (one_pass 2 4 (5 / 2) (1 / 2) 1 ltac:(lra) ltac:(lra) ltac:(lra) ltac:(lra)) as (s & E & X & _).
  { destruct (one_start 2 4 (5 / 2) ltac:(lra)) as (_ & _ & _ & ->). apply andb_false_iff. left. apply Rleb_false. lra. }
  exists (bx s). unfold bccg. cbn [bccg_loop]. change (Z.of_nat 1) with 1%Z. rewrite E. replace (1 <? 1)%Z with false by reflexivity.
  destruct (Rltb (Rabs (4 / 2 - 5 / 2)) (1 / 2 * (4 / 2))) eqn:U.
  - split; [reflexivity|]. split; [rewrite X; f_equal; field|]. split; [apply one_matrix|exact I].
  - exfalso. apply Rltb_false in U. rewrite Rabs_left in U by lra. lra.
Qed.

(** ** C78: the minimum pressure *)
(** Refuted: tension. Whatever the minimum pressure is, no load below -1e-14 is ever returned, so
    a solution with adhesive loads that the minimum allows is never found. *)
Theorem c78_tension_refuted : forall fuel n f b tol max_it x0 mn mp v failed A bb x,
  is_matrix n f A -> numbers n b bb -> (forall i, (i < n)%nat -> non_negative (mp i)) ->
  (* the solution: within the bounds, no residual, one tensile load *)
  (forall i, (i < n)%nat -> times n A x i = bb i /\ fleb mn (Fin (x i)) = true /\ at_most (x i) (mp i)) ->
  (exists i, (i < n)%nat /\ x i < - / 10 ^ 14) ->
  bccg fuel n f b tol max_it x0 mn mp 1 = Some (v, failed) -> ~ numbers n v x.
Proof.
  intros fuel n f b tol max_it x0 mn mp v failed A bb x HA Hb Hm Sol (i & Hi & T) H V.
  destruct (c37_bounds fuel n f b tol max_it x0 mn mp 1 v failed ltac:(lia) H i (Hm i Hi)) as [E|[E _]]; rewrite (V i Hi) in E; [discriminate|].
  cbn in E. apply Rleb_true in E. cbn in T, E. lra.
Qed.
Print Assumptions c78_tension_refuted.
Example c78_tension_case : is_matrix 1 (fun v i => fmul (Fin 1) (v i)) (fun _ _ => 1) /\ times 1 (fun _ _ => 1) (fun _ => -2) 0 = -2 /\
  fleb (Fin (-3)) (Fin (-2)) = true /\ at_most (-2) PInf /\ -2 < - / 10 ^ 14 /\
  exists res, bccg 2 1 (fun v i => fmul (Fin 1) (v i)) (fun _ => Fin (-2)) (Fin 1) None (fun _ => Fin 0) (Fin (-3)) (fun _ => PInf) 1 = Some res.
Proof.
  split; [apply one_matrix|]. split; [unfold times; cbn; ring|]. split; [cbn; apply Rleb_true; lra|]. split; [exact I|]. split; [cbn; lra|].
  destruct (c37_stops 1 (fun v i => fmul (Fin 1) (v i)) (fun _ => Fin (-2)) (Fin 1) None (fun _ => Fin 0) (Fin (-3)) (fun _ => PInf) 1) as (res & H).
  exists res. apply H. cbn. lia.
Qed.

(** ** C38 *)
(** The number of iterations is bounded for every operator, right hand side and tolerance. *)
Theorem c38_stops : forall given op disp max_it tol guess,
  exists res, forall fuel, (Z.to_nat (Z.max 1 (max_it + 1)) <= fuel)%nat ->
    solve_im_displacement fuel given op disp max_it tol guess = Some res.
Proof.
  intros given op disp max_it tol guess. set (k := Z.to_nat (Z.max 1 (max_it + 1))).
  set (dom := filter (fun i => negb (is_nan (disp i))) given).
  destruct (cg_stops k dom op tol max_it (cg_init dom op disp guess)) as ([l w] & H); [unfold k; lia|cbn [cg_init itnum]; unfold k; lia|].
  exists (CgResult l (op l) w l). intros fuel F. unfold solve_im_displacement. fold dom.
  replace fuel with (k + (fuel - k))%nat by lia. rewrite H. reflexivity.
Qed.
Print Assumptions c38_stops.

(** Points without a given displacement keep the load of the guess, and the displacements are
    those of the returned loads. *)
Theorem c38_free_points : forall fuel given op disp max_it tol guess res,
  solve_im_displacement fuel given op disp max_it tol guess = Some res ->
  full_displacement res = op (found res) /\
  forall i, ~ In i given \/ disp i = NaN -> found res i = guess i.
Proof.
  intros fuel given op disp max_it tol guess res H. unfold solve_im_displacement in H.
  destruct (cg_loop _ _ _ _ _ _) as [[l w]|] eqn:E; [|discriminate]. injection H as <-. cbn. split; [reflexivity|].
  intros i Hi. refine (loop_outside _ _ _ _ _ _ _ _ i _ E). rewrite filter_In. intros [A B]. destruct Hi as [Hi|Hi]; [contradiction|]. rewrite Hi in B. discriminate.
Qed.
Print Assumptions c38_free_points.

(** Loads found without a warning reproduce the given displacements to the tolerance, if they are
    numbers. *)
Theorem c38_solved : forall fuel N given op B disp d max_it t guess res x,
  is_matrix N op B -> NoDup given -> (forall i, In i given -> (i < N)%nat) ->
  (forall i, In i given -> disp i = Fin (d i) \/ disp i = NaN) ->
  solve_im_displacement fuel given op disp max_it (Fin t) guess = Some res ->
  warned res = false -> numbers N (found res) x ->
  exists u, numbers N (full_displacement res) u /\
    sqrt (sum_over (prescribed given disp) (fun i => (d i - u i) * (d i - u i))) < t.
Proof.
  intros fuel N given op B disp d max_it t guess res x HB ND Hin Hd H W X. unfold solve_im_displacement in H.
  fold (prescribed given disp) in H. set (dom := prescribed given disp) in *.
  destruct (cg_loop _ _ _ _ _ _) as [[l w]|] eqn:E; [|discriminate]. injection H as <-. cbn in W, X |- *. subst w.
  exists (times N B x). split; [exact (HB _ _ X)|].
  assert (Hdom : forall i, In i dom -> In i given /\ disp i = Fin (d i)).
  { intros i Hi. apply filter_In in Hi. destruct Hi as [A C]. split; [exact A|]. destruct (Hd i A) as [D|D]; [exact D|]. rewrite D in C. discriminate. }
  pose proof (loop_fits N dom op B d HB (NoDup_filter _ ND) (fun i Hi => Hin i (proj1 (Hdom i Hi))) fuel t max_it _ l x
    (init_fits N dom op B d HB (fun i Hi => Hin i (proj1 (Hdom i Hi))) disp guess (fun i Hi => proj2 (Hdom i Hi))) E X) as L.
  unfold length2 in L. rewrite sum_over_nth. exact L.
Qed.
Print Assumptions c38_solved.

(** A symmetric positive definite operator is solved in at most as many iterations as there are
    prescribed points (in exact arithmetic): no warning, loads that are numbers. *)
Theorem c38_finite_termination : forall N given op B disp d max_it t guess g fuel,
  is_matrix N op B -> NoDup given -> (forall i, In i given -> (i < N)%nat) ->
  (forall i, In i given -> disp i = Fin (d i) \/ disp i = NaN) ->
  symmetric_on (prescribed given disp) B -> positive_on (prescribed given disp) B ->
  numbers N guess g -> 0 < t -> (Z.of_nat (length (prescribed given disp)) <= max_it)%Z ->
  (length (prescribed given disp) + 1 <= fuel)%nat ->
  exists res x u, solve_im_displacement fuel given op disp max_it (Fin t) guess = Some res /\
    warned res = false /\ numbers N (found res) x /\ numbers N (full_displacement res) u /\
    sqrt (sum_over (prescribed given disp) (fun i => (d i - u i) * (d i - u i))) < t.
Proof.
  intros N given op B disp d max_it t guess g fuel HB ND Hin Hd Sym Pos Hg T MI F.
  set (dom := prescribed given disp) in *.
  assert (Hdom : forall i, In i dom -> In i given /\ disp i = Fin (d i)).
  { intros i Hi. apply filter_In in Hi. destruct Hi as [A C]. split; [exact A|]. destruct (Hd i A) as [D|D]; [exact D|]. rewrite D in C. discriminate. }
  assert (NDd : NoDup dom) by (apply NoDup_filter; exact ND).
  assert (Hind : forall i, In i dom -> (i < N)%nat) by (intros i Hi; apply Hin, Hdom; exact Hi).
  pose (r0 := fun k => d (nth k dom 0%nat) - times N B g (nth k dom 0%nat)).
  assert (R0 : numbers (length dom) (residual (cg_init dom op disp guess)) r0).
  { apply (init_fits N dom op B d HB Hind disp guess (fun i Hi => proj2 (Hdom i Hi))). exact Hg. }
  destruct (spd_loop N dom op B d HB NDd Hind Sym Pos t max_it T MI r0 fuel 0 (cg_init dom op disp guess) g) as (l & x & E & X); try assumption; try lia; try reflexivity.
  assert (S : solve_im_displacement fuel given op disp max_it (Fin t) guess = Some (CgResult l (op l) false l)).
  { unfold solve_im_displacement. fold (prescribed given disp). fold dom. rewrite E. reflexivity. }
  destruct (c38_solved fuel N given op B disp d max_it t guess _ x HB ND Hin Hd S eq_refl X) as (u & U1 & U2).
  exists (CgResult l (op l) false l), x, u. auto.
Qed.
Print Assumptions c38_finite_termination.
(** Two coupled points that meet the hypotheses. *)
Example c38_case : let B := fun i j : nat => if Nat.eqb i j then 2 else 1 in
  is_matrix 2 (fun v i => fadd (fmul (Fin (B i 0%nat)) (v 0%nat)) (fmul (Fin (B i 1%nat)) (v 1%nat))) B /\
  symmetric_on [0%nat; 1%nat] B /\ positive_on [0%nat; 1%nat] B /\ NoDup [0%nat; 1%nat] /\
  prescribed [0%nat; 1%nat] (fun _ => Fin 3) = [0%nat; 1%nat].
Proof.
  cbv zeta. repeat split.
  - intros v x H i Hi. rewrite (H 0%nat), (H 1%nat) by lia. cbn. f_equal. ring.
  - intros i j _ _. rewrite Nat.eqb_sym. reflexivity.
  - intros x (i & Hi & X). cbn. assert (x 0%nat <> 0 \/ x 1%nat <> 0) by (destruct Hi as [<-|[<-|[]]]; auto).
    assert (0 < x 0%nat * x 0%nat + x 1%nat * x 1%nat) by (destruct H; nra). nra.
  - repeat constructor; cbn; intuition lia.
Qed.

(** ** C40: the guess is an argument *)
(** Refuted: the array of the guess is changed by every call that has something to solve. *)
Theorem c40_guess_refuted : forall fuel N given op B disp d max_it t guess res g,
  is_matrix N op B -> NoDup given -> (forall i, In i given -> (i < N)%nat) ->
  (forall i, In i given -> disp i = Fin (d i) \/ disp i = NaN) -> numbers N guess g ->
  solve_im_displacement fuel given op disp max_it (Fin t) guess = Some res -> warned res = false ->
  t <= sqrt (sum_over (prescribed given disp) (fun i => (d i - times N B g i) * (d i - times N B g i))) ->
  exists i, (i < N)%nat /\ guess_after res i <> guess i.
Proof.
  intros fuel N given op B disp d max_it t guess res g HB ND Hin Hd Hg H W T.
  assert (E : guess_after res = found res).
  { unfold solve_im_displacement in H. destruct (cg_loop _ _ _ _ _ _) as [[l w]|]; [|discriminate]. injection H as <-. reflexivity. }
  rewrite E.
  assert (D : forall a b : flt, a = b \/ a <> b).
  { intros [x| | |] [y| | |]; try (right; discriminate); auto. destruct (Req_dec x y); [left; congruence|right; congruence]. }
  assert (C : forall m, (forall i, (i < m)%nat -> found res i = guess i) \/ exists i, (i < m)%nat /\ found res i <> guess i).
  { induction m; [left; intros; lia|]. destruct IHm as [A|(i & Hi & A)]; [|right; exists i; split; [lia|exact A]].
    destruct (D (found res m) (guess m)) as [Q|Q]; [left|right; exists m; split; [lia|exact Q]].
    intros i Hi. destruct (Nat.eq_dec i m) as [->|]; [exact Q|apply A; lia]. }
  destruct (C N) as [A|A]; [|exact A]. exfalso.
  assert (X : numbers N (found res) g) by (intros i Hi; rewrite (A i Hi); apply Hg; exact Hi).
  destruct (c38_solved fuel N given op B disp d max_it t guess res g HB ND Hin Hd H W X) as (u & U & L).
  destruct (c38_free_points _ _ _ _ _ _ _ _ H) as [F _].
  assert (UU : forall i, (i < N)%nat -> u i = times N B g i).
  { intros i Hi. pose proof (U i Hi) as U1. rewrite F, (HB _ _ X i Hi) in U1. injection U1 as <-. reflexivity. }
  assert (S : forall l, (forall i, In i l -> (i < N)%nat) -> sum_over l (fun i => (d i - u i) * (d i - u i)) =
    sum_over l (fun i => (d i - times N B g i) * (d i - times N B g i))).
  { induction l as [|i l]; intros Hl; [reflexivity|]. cbn [sum_over]. rewrite IHl, (UU i) by (intros; apply Hl; cbn; auto). reflexivity. }
  rewrite S in L; [lra|]. intros i Hi. apply filter_In in Hi. apply Hin. tauto.
Qed.
Print Assumptions c40_guess_refuted.
