(** C37: when the bound constrained solver is right, and when it is not. *)
From Coq Require Import List Bool Arith ZArith Reals Lia Lra.
From Verif Require Import Flt SurfaceModel SurfaceProofs SolverModel SolverSpec SolverProofs BoundSpec BoundProofs.
Import ListNotations.
Local Open Scope R_scope.

(** A run without failure whose last passes before the last one changed no bound: the loads
    solve the problem up to an error proportional to the tolerance and to the loads, with a factor
    that depends on the matrix only. *)
Theorem c37_residual : forall fuel n f b t max_it x0 mp A bb m L v,
  is_matrix n f A -> numbers n b bb -> (forall i, (i < n)%nat -> non_negative (mp i)) -> between n A m L ->
  bccg fuel n f b (Fin t) max_it x0 (Fin 0) mp 1 = Some (v, false) ->
  let limit := match max_it with Some m => m | None => Z.of_nat n end in
  let start := bccg_init n f b x0 (Fin 0) mp in
  exists k s x,
    state_after k n f b (Fin t) limit mp 1 start = Some s /\ bccg_step n f b (Fin t) limit mp 1 s = inr (v, false) /\ numbers n v x /\
    (settled n f b (Fin t) limit mp start k -> nearly_solves n A bb mp (L * (2 + L / m) * (t * length2 n x)) x).
Proof.
  intros fuel n f b t max_it x0 mp A bb m L v HA Hb Hm B H limit start. unfold bccg in H. fold limit start in H.
  pose proof (init_consistent n f b mp A bb HA Hb Hm x0) as C0. fold start in C0.
  destruct (converged_loop n f b (Fin t) limit mp 1 A bb HA Hb Hm t fuel start v C0 eq_refl H) as (k & s & S & C & E).
  destruct (converged_step n f b (Fin t) limit mp 1 A bb HA Hb Hm s v t C eq_refl E) as (x & y & X & Y & Up & _ & Pt).
  destruct (state_con n f b (Fin t) limit mp A bb HA Hb Hm k start s C0 eq_refl S) as [_ It].
  destruct (converged_straight n f b (Fin t) limit mp A bb HA Hb Hm m L B s v t C ltac:(lia) eq_refl E) as (N & x' & y' & d & a & X' & St & Lx).
  assert (Ex : forall i, (i < n)%nat -> x' i = x i) by (intros i Hi; pose proof (X i Hi); pose proof (X' i Hi); congruence).
  assert (Ey : forall i, (i < n)%nat -> y' i = y i) by (intros i Hi; pose proof (Y i Hi); pose proof (st_y _ _ _ _ _ _ _ St i Hi); congruence).
  exists k, s, x. split; [exact S|]. split; [exact E|]. split; [exact X|]. intros Se.
  split; [intros i Hi; apply (Pt i Hi)|]. exists (msk_0 s), (msk_max s).
  split; [intros i Hi Z; destruct (Pt i Hi) as (_ & P0 & _); specialize (P0 Z); tauto|].
  split; [intros i Hi Z; destruct (Pt i Hi) as (_ & _ & P1); specialize (P1 Z); tauto|].
  pose proof (st_w _ _ _ _ _ _ _ St) as W. destruct (L_above n A m L B d W) as [ML Pd]. assert (Mp : 0 < m) by apply B. assert (Lm : 0 < L / m) by (apply Rdiv_lt_0_compat; lra).
  assert (U : length2 n (fun i => a * d i) <= t * length2 n x).
  { rewrite (length2_ext n (fun i => a * d i) (fun i => x i - y i)); [lra|]. intros i Hi. rewrite <- (Ex i Hi), <- (Ey i Hi), (Lx i Hi). ring. }
  apply Rle_trans with (L * (2 + L / m) * length2 n (fun i => a * d i)).
  2:{ apply Rmult_le_compat_l; [apply Rmult_le_pos; lra|exact U]. }
  set (q := fun i => if msk_0 s i || msk_max s i then 0 else - (times n A x i - bb i)).
  rewrite (length2_ext n _ (fun i => -1 * q i)) by (intros i Hi; unfold q; destruct (msk_0 s i || msk_max s i); ring).
  rewrite length2_scale. replace (Rabs (-1)) with 1 by (rewrite Rabs_left; lra). rewrite Rmult_1_l.
  assert (Qr : forall i, (i < n)%nat -> q i = 0 \/ q i = left_at n A bb s y' i - a * times n A d i).
  { intros i Hi. unfold q, left_at, held. destruct (msk_0 s i || msk_max s i); [auto|]. right.
    rewrite (times_ext n A x (fun j => y' j + a * d j) i) by (intros j Hj; rewrite <- (Ex j Hj); apply Lx; exact Hj). rewrite times_line. ring. }
  destruct (Req_dec (sq n (left_at n A bb s y')) 0) as [Z|Z].
  - pose proof (sq_zero n _ Z) as Z'. assert (Az : a = 0).
    { pose proof (st_a _ _ _ _ _ _ _ St) as Al. cbn beta in Al. rewrite (sum_ext n (fun i => left_at n A bb s y' i * d i) (fun _ => 0)) in Al by (intros i Hi; rewrite (Z' i Hi); ring).
      rewrite sum_zero in Al. apply Rmult_integral in Al. tauto. }
    rewrite (length2_ext n q (fun _ => 0)).
    + unfold length2 at 1. rewrite (sum_ext n _ (fun _ => 0)) by (intros; ring). rewrite sum_zero, sqrt_0. apply Rmult_le_pos; [apply Rmult_le_pos; lra|apply length2_pos].
    + intros i Hi. destruct (Qr i Hi) as [->| ->]; [reflexivity|]. rewrite (Z' i Hi), Az. ring.
  - destruct (settled_direction n f b (Fin t) limit mp A bb HA Hb Hm m L B start k s x' y' d a C0 eq_refl N S Se St Lx Z) as [G Dl].
    apply (step_bounds n A m L B (left_at n A bb s y') d a q W); [exact (st_a _ _ _ _ _ _ _ St)|exact G|exact Dl|exact Qr].
Qed.
Print Assumptions c37_residual.

(** ** Passes on numbers *)
Lemma step_free n f b tol max_it mp k_inn s : exists r p q alpha upd x1 x2 outer prj_0 prj_max g m0 mm changed free,
  pass n f b tol max_it mp k_inn s (bccg_step n f b tol max_it mp k_inn s) r p q alpha upd x1 x2 outer prj_0 prj_max g m0 mm changed free /\
  (changed = true -> let rel := fun i => outer && ((m0 i && fltb (g i) (Fin (- small))) || (mm i && fltb (Fin small) (g i))) in
    free = (Z.of_nat n - Z.of_nat (count n (fun i => m0 i && negb (rel i))) - Z.of_nat (count n (fun i => mm i && negb (rel i))))%Z).
Proof.
  remember (bccg_step n f b tol max_it mp k_inn s) as res eqn:H. symmetry in H. cbv delta [bccg_step] in H. cbv beta in H.
  let1 H it'. let1 H inn. let1 H bound. let1 H r. let1 H rho'. let1 H p. let1 H q. let1 H alpha. let1 H x. let1 H root_free. let1 H rms_xk. let1 H rms_upd. let1 H upd. let1 H outer. let1 H prj_0. let1 H x1. let1 H prj_max. let1 H x2. let1 H m0. let1 H mm. let1 H moved. let1 H g. let1 H rel. let1 H m0'. let1 H mm'. let1 H changed. let1 H free.
  exists r, p, q, alpha, upd, x1, x2, outer, prj_0, prj_max, g, m0, mm, changed, free. split.
  - constructor; try reflexivity.
    + intros i. unfold p, put. change (msk_0 s i || msk_max s i) with (bound i). destruct (bound i); [reflexivity|].
      change (it s + 1)%Z with it'. destruct (1 <? it')%Z; reflexivity.
    + intros i. unfold q, put. change (it_inn s + 1)%Z with inn. destruct (inn <? k_inn)%Z; reflexivity.
    + symmetry. exact H.
    + intros E. unfold free. rewrite E. reflexivity.
  - intros E. unfold free. rewrite E. reflexivity.
Qed.
Lemma count_ext n m m' : (forall i, (i < n)%nat -> m i = m' i) -> count n m = count n m'.
Proof. induction n as [|n IH]; intros H; [reflexivity|]. cbn [count]. rewrite IH, H by (try lia; intros; apply H; lia). reflexivity. Qed.
Lemma count_none n : count n (fun _ => false) = 0%nat.
Proof. induction n as [|n IH]; [reflexivity|]. cbn [count]. rewrite IH. reflexivity. Qed.
Lemma any_ext n m m' : (forall i, (i < n)%nat -> m i = m' i) -> any n m = any n m'.
Proof. induction n as [|n IH]; intros H; [reflexivity|]. cbn [any]. rewrite IH, H by (try lia; intros; apply H; lia). reflexivity. Qed.
Lemma any_never n : any n (fun _ => false) = false.
Proof. induction n as [|n IH]; [reflexivity|]. cbn [any]. rewrite IH. reflexivity. Qed.

(** A state with numbers: loads [y], points [z] held at zero and, after a pass, its residual [r0] and its direction [d0]. *)
Record at_numbers (n : nat) (A : nat -> nat -> R) (bb y : nat -> R) (z : nat -> bool) (r0 d0 : nat -> R) (k : Z) (s : bcg) : Prop := {
  an_x : numbers n (bx s) y; an_g : numbers n (bg s) (fun i => times n A y i - bb i);
  an_0 : forall i, (i < n)%nat -> msk_0 s i = z i; an_max : forall i, (i < n)%nat -> msk_max s i = false;
  an_r : numbers n (br s) r0; an_p : numbers n (bp s) d0; an_rho : rho s = Fin (sum n (fun i => r0 i * r0 i));
  an_it : it s = k; an_inn : it_inn s = 0%Z; an_free : (0 < n_free s)%Z }.
Lemma number_pass n f A b bb t limit s y z r0 d0 k beta a x' prj :
  is_matrix n f A -> numbers n b bb -> at_numbers n A bb y z r0 d0 k s -> (1 <= n)%nat -> (0 <= k < limit)%Z -> 0 <= t ->
  let r := fun i => if z i then 0 else - (times n A y i - bb i) in
  let d := fun i => if z i then 0 else r i + beta * d0 i in
  let x := fun i => y i + a * d i in
  (k = 0%Z -> beta = 0) -> (k <> 0%Z -> 0 <= beta /\ 0 < sum n (fun i => r0 i * r0 i) /\
    beta * sum n (fun i => r0 i * r0 i) = sum n (fun i => r i * r i) - sum n (fun i => r i * r0 i)) ->
  0 < sum n (fun i => d i * times n A d i) -> a * sum n (fun i => d i * times n A d i) = sum n (fun i => r i * d i) ->
  (forall i, (i < n)%nat -> (prj i = true -> x i < - small) /\ (prj i = false -> - small <= x i) /\ x' i = (if prj i then 0 else x i) /\
    (z i || prj i = true -> - small <= times n A x' i - bb i)) ->
  0 < sum n (fun i => x i * x i) -> (count n (fun i => z i || prj i) < n)%nat ->
  (any n prj = true \/ t * t * sum n (fun i => x i * x i) <= a * a * sum n (fun i => d i * d i) ->
     exists s', bccg_step n f b (Fin t) limit (fun _ => PInf) 1 s = inl s' /\ at_numbers n A bb x' (fun i => z i || prj i) r d (k + 1) s') /\
  (any n prj = false -> a * a * sum n (fun i => d i * d i) < t * t * sum n (fun i => x i * x i) ->
     exists v, bccg_step n f b (Fin t) limit (fun _ => PInf) 1 s = inr (v, false) /\ numbers n v x).
Proof.
  intros HA Hb An N Hk Ht r d x B0 B1 Wd Ad Pj Xn Cn. pose proof small_pos as SP.
  destruct (step_free n f b (Fin t) limit (fun _ => PInf) 1 s) as (rv & p & q & alpha & upd & x1 & x2 & outer & prj_0 & prj_max & g & m0 & mm & changed & free & Q & Fr).
  destruct An as [Ax Ag A0 Am Ar Ap Arho Ait Ainn Afree]. destruct Q as [Pr Pp Pq Pa Px1 Pu Po P0 Pm Px2 Pg Pm0 Pmm Pc Pres Pfree].
  rewrite Ait, Ainn in *. change (0 + 1)%Z with 1%Z in *. change (1 <=? 1)%Z with true in *. change (1 <? 1)%Z with false in *. cbn [orb] in Po. subst outer.
  assert (Hd : forall i, (i < n)%nat -> msk_0 s i || msk_max s i = z i) by (intros i Hi; rewrite (A0 i Hi), (Am i Hi); apply orb_false_r).
  assert (Nr : numbers n rv r).
  { intros i Hi. rewrite Pr, (Hd i Hi). unfold r. destruct (z i); [reflexivity|]. rewrite (Ag i Hi). reflexivity. }
  assert (Np : numbers n p d).
  { intros i Hi. rewrite Pp, (Hd i Hi). unfold d. destruct (z i); [reflexivity|]. destruct (Z.eq_dec k 0) as [K|K].
    - replace (1 <? k + 1)%Z with false by (symmetry; apply Z.ltb_ge; lia). rewrite (B0 K), (Nr i Hi). f_equal. ring.
    - replace (1 <? k + 1)%Z with true by (symmetry; apply Z.ltb_lt; lia). destruct (B1 K) as (Bp & Rp & Be).
      rewrite (dot_numbers n rv rv _ _ Nr Nr), (dot_numbers n rv (br s) _ _ Nr Ar), Arho. cbn [fsub fadd fneg]. rewrite fin_div by lra.
      replace ((sum n (fun i => r i * r i) + - sum n (fun i => r i * r0 i)) / sum n (fun i => r0 i * r0 i)) with beta by (apply Rmult_eq_reg_r with (sum n (fun i => r0 i * r0 i)); [rewrite Be; field; lra|lra]).
      assert (Eb : fmax (Fin beta) (Fin 0) = Fin beta).
      { cbn. destruct (Rltb beta 0) eqn:E; [apply Rltb_true in E; lra|]. reflexivity. }
      rewrite Eb, (Nr i Hi), (Ap i Hi). reflexivity. }
  assert (Nq : numbers n q (times n A d)) by (intros i Hi; rewrite Pq; apply (HA p d Np i Hi)).
  assert (Ea : alpha = Fin a).
  { rewrite Pa, (dot_numbers n rv p _ _ Nr Np), (dot_numbers n p q _ _ Np Nq). rewrite fin_div by lra. f_equal.
    rewrite <- Ad. field. lra. }
  assert (Nx : numbers n (fun i => fadd (bx s i) (fmul alpha (p i))) x).
  { intros i Hi. cbv beta. rewrite (Ax i Hi), Ea, (Np i Hi). reflexivity. }
  assert (E0 : forall i, (i < n)%nat -> prj_0 i = prj i).
  { intros i Hi. rewrite P0, (Nx i Hi). cbn. destruct (Pj i Hi) as (T & F & _). destruct (prj i); [apply Rltb_true; auto|apply Rltb_false; auto]. }
  assert (Nx1 : numbers n x1 x').
  { intros i Hi. rewrite Px1, (E0 i Hi). destruct (Pj i Hi) as (_ & _ & E & _). rewrite E. destruct (prj i); [reflexivity|]. exact (Nx i Hi). }
  assert (E1 : forall i, (i < n)%nat -> prj_max i = false).
  { intros i Hi. rewrite Pm, (Nx1 i Hi). cbn. unfold signed_inf. destruct (Rltb 0 (1 + small)) eqn:E; [reflexivity|]. apply Rltb_false in E. lra. }
  assert (Nx2 : numbers n x2 x') by (intros i Hi; rewrite Px2, (E1 i Hi); exact (Nx1 i Hi)).
  assert (Am0 : any n prj_0 = any n prj) by (apply any_ext; exact E0).
  assert (Amm : any n prj_max = false) by (rewrite (any_ext n prj_max (fun _ => false) E1); apply any_never).
  rewrite Am0, Amm in *. cbn [andb orb] in *. rewrite orb_false_r in *.
  assert (Ng : numbers n g (fun i => times n A x' i - bb i)).
  { intros i Hi. rewrite Pg. destruct (any n prj) eqn:Aj; cbn [orb].
    - unfold fsub. rewrite (HA x2 x' Nx2 i Hi), (Hb i Hi). reflexivity.
    - rewrite (Ag i Hi), Ea, (Nq i Hi). cbn. f_equal. rewrite (times_ext n A x' x i); [unfold x; rewrite times_line; ring|].
      intros j Hj. destruct (Pj j Hj) as (_ & _ & E & _). rewrite E, (any_none _ _ Aj j Hj). reflexivity. }
  assert (Rel : forall i, (i < n)%nat -> (m0 i && fltb (g i) (Fin (- small))) || (mm i && fltb (Fin small) (g i)) = false).
  { intros i Hi. rewrite Pm0, Pmm, (A0 i Hi), (Am i Hi), (E0 i Hi), (E1 i Hi), (Ng i Hi). cbn [orb andb fltb]. rewrite orb_false_r. destruct (z i || prj i) eqn:Z; [|reflexivity].
    cbn [andb]. apply Rltb_false. apply (Pj i Hi). exact Z. }
  assert (Ch : changed = any n prj).
  { rewrite Pc. rewrite (any_ext n _ (fun _ => false) Rel), any_never. apply orb_false_r. }
  assert (M0 : forall i, (i < n)%nat -> m0 i && negb ((m0 i && fltb (g i) (Fin (- small))) || (mm i && fltb (Fin small) (g i))) = z i || prj i).
  { intros i Hi. rewrite (Rel i Hi), Pm0, (A0 i Hi), (E0 i Hi). apply andb_true_r. }
  assert (MM : forall i, (i < n)%nat -> mm i && negb ((m0 i && fltb (g i) (Fin (- small))) || (mm i && fltb (Fin small) (g i))) = false).
  { intros i Hi. rewrite (Rel i Hi), Pmm, (Am i Hi), (E1 i Hi). reflexivity. }
  assert (Fp : (0 < free)%Z).
  { destruct changed eqn:Cc.
    - cbn zeta in Fr. rewrite (Fr eq_refl). rewrite (count_ext n _ (fun i => z i || prj i) M0), (count_ext n _ (fun _ => false) MM), count_none. lia.
    - rewrite (Pfree eq_refl). exact Afree. }
  assert (Up : fltb upd (Fin t) = true <-> a * a * sum n (fun i => d i * d i) < t * t * sum n (fun i => x i * x i)).
  { rewrite Pu, (norm_numbers n _ _ Nx), (norm_numbers n _ (fun i => a * d i)).
    2:{ intros i Hi. rewrite (Nx i Hi), (Ax i Hi). cbn. unfold x. f_equal. ring. }
    rewrite length2_scale. unfold length2. set (dd := sum n (fun i => d i * d i)). set (xx := sum n (fun i => x i * x i)) in *.
    assert (D0 : 0 <= dd) by apply sum_squares_pos.
    assert (V : 0 < IZR (n_free s)) by (apply IZR_lt; exact Afree).
    cbn [fsqrt]. destruct (Rltb (IZR (n_free s)) 0) eqn:E; [apply Rltb_true in E; lra|]. apply sqrt_lt_R0 in V. set (w := sqrt (IZR _)) in *. clearbody w.
    rewrite !fin_div by lra. pose proof (sqrt_lt_R0 _ Xn) as Sx. rewrite fin_div by (apply Rgt_not_eq, Rdiv_lt_0_compat; lra). cbn [fltb]. rewrite Rltb_true.
    replace (Rabs a * sqrt dd / w / (sqrt xx / w)) with (Rabs a * sqrt dd / sqrt xx) by (field; lra).
    assert (Sq : (Rabs a * sqrt dd) * (Rabs a * sqrt dd) = a * a * dd).
    { replace (Rabs a * sqrt dd * (Rabs a * sqrt dd)) with ((Rabs a * Rabs a) * (sqrt dd * sqrt dd)) by ring. rewrite sqrt_sqrt by exact D0. rewrite <- Rabs_mult, Rabs_pos_eq by nra. reflexivity. }
    assert (St : t * sqrt xx * (t * sqrt xx) = t * t * xx).
    { replace (t * sqrt xx * (t * sqrt xx)) with (t * t * (sqrt xx * sqrt xx)) by ring. rewrite sqrt_sqrt by lra. reflexivity. }
    rewrite <- Sq, <- St. assert (0 <= Rabs a * sqrt dd) by (apply Rmult_le_pos; [apply Rabs_pos|apply sqrt_pos]). assert (0 <= t * sqrt xx) by (apply Rmult_le_pos; lra).
    transitivity (Rabs a * sqrt dd < t * sqrt xx).
    - split; intros Lt.
      + apply Rmult_lt_compat_r with (r := sqrt xx) in Lt; [|exact Sx]. unfold Rdiv in Lt. rewrite Rmult_assoc, Rinv_l in Lt by lra. lra.
      + apply Rmult_lt_reg_r with (sqrt xx); [exact Sx|]. unfold Rdiv. rewrite Rmult_assoc, Rinv_l by lra. lra.
    - split; intros Lt; [apply Rmult_le_0_lt_compat; assumption|]. apply Rsqr_incrst_0; assumption. }
  replace (free =? 0)%Z with false in Pres by (symmetry; apply Z.eqb_neq; lia). replace (limit <? k + 1)%Z with false in Pres by (symmetry; apply Z.ltb_ge; lia). rewrite Ch in Pres.
  split.
  - intros Go. assert (E : negb (any n prj) && fltb upd (Fin t) = false).
    { destruct Go as [->|Go]; [reflexivity|]. apply andb_false_iff. right. destruct (fltb upd (Fin t)) eqn:F; [|reflexivity]. apply Up in F || (destruct Up as [Up _]; specialize (Up eq_refl)); lra. }
    rewrite E in Pres. eexists. split; [exact Pres|]. constructor; cbn [bx bg msk_0 msk_max br bp rho it it_inn n_free]; try assumption; try reflexivity.
    rewrite (dot_numbers n rv rv _ _ Nr Nr). reflexivity.
  - intros Aj Lt. rewrite Aj, (proj2 Up Lt) in Pres. exists x2. split; [exact Pres|]. intros i Hi. rewrite (Nx2 i Hi). f_equal.
    destruct (Pj i Hi) as (_ & _ & E & _). rewrite E, (any_none _ _ Aj i Hi). reflexivity.
Qed.

(** ** A wrong solution *)
Lemma at_numbers_ext n A bb y z r0 d0 k s y' z' r0' d0' : at_numbers n A bb y z r0 d0 k s ->
  (forall i, (i < n)%nat -> y i = y' i /\ z i = z' i /\ r0 i = r0' i /\ d0 i = d0' i) -> at_numbers n A bb y' z' r0' d0' k s.
Proof.
  intros [Ax Ag A0 Am Ar Ap Arho Ait Ainn Afree] E. constructor; try assumption.
  - intros i Hi. rewrite (Ax i Hi). f_equal. apply (E i Hi).
  - intros i Hi. rewrite (Ag i Hi). f_equal. f_equal. apply times_ext. intros j Hj. apply (E j Hj).
  - intros i Hi. rewrite (A0 i Hi). apply (E i Hi).
  - intros i Hi. rewrite (Ar i Hi). f_equal. apply (E i Hi).
  - intros i Hi. rewrite (Ap i Hi). f_equal. apply (E i Hi).
  - rewrite Arho. f_equal. apply sum_ext. intros i Hi. destruct (E i Hi) as (_ & _ & -> & _). reflexivity.
Qed.
(** Three points in a row: a unit load displaces its point by one and the neighbours by a half. *)
Definition row_matrix (i j : nat) : R := nth j (nth i [[1; 1 / 2; 0]; [1 / 2; 1; 1 / 2]; [0; 1 / 2; 1]] []) 0.
Definition row_b (i : nat) : R := nth i [18; 12; 23] 0.
Lemma small_below : small < / 10 ^ 4.
Proof. unfold small. apply Rinv_lt_contravar; [apply Rmult_lt_0_compat; apply pow_lt; lra|]. apply Rlt_pow; [lra|lia]. Qed.
Ltac three i Hi := destruct i as [|[|[|i]]]; [| | |exfalso; lia]; clear Hi.
Ltac figures := unfold times, row_matrix, row_b; cbn [sum nth any count orb andb negb]; pose proof small_pos; pose proof small_below; try lra.

(** The bound constrained solver reports that it has converged with its default tolerance, one part in
    ten thousand, and the iteration limit of the number of points, although the loads are not near a solution: the exact
    loads are 18, 0 and 23. The last direction was conjugate to the one before a load was set to zero. *)
Theorem c37_wrong_convergence_refuted : forall fuel f b, (3 <= fuel)%nat -> is_matrix 3 f row_matrix -> numbers 3 b row_b ->
  exists v x, bccg fuel 3 f b (Fin (/ 10 ^ 4)) None (fun _ => Fin 0) (Fin 0) (fun _ => PInf) 1 = Some (v, false) /\ numbers 3 v x /\
    exactly_solves 3 row_matrix row_b (fun i => nth i [18; 0; 23] 0) /\ 23 < x 0%nat /\ 32 < x 2%nat /\
    5 < times 3 row_matrix x 0 - row_b 0%nat /\ 9 < times 3 row_matrix x 2 - row_b 2%nat.
Proof.
  intros fuel f b Hf HA Hb. destruct fuel as [|[|[|fuel]]]; [lia..|]. clear Hf. unfold bccg. set (s0 := bccg_init 3 f b (fun _ => Fin 0) (Fin 0) (fun _ => PInf)).
  assert (A0 : at_numbers 3 row_matrix row_b (fun _ => 0) (fun _ => false) (fun _ => 0) (fun _ => 0) 0 s0).
  { assert (X : forall i, bx s0 i = Fin 0) by (intros i; cbn; destruct (Rltb 0 0); reflexivity).
    assert (G : numbers 3 (bg s0) (fun i => times 3 row_matrix (fun _ => 0) i - row_b i)).
    { intros i Hi. change (bg s0 i) with (fsub (f (bx s0) i) (b i)). rewrite (HA (bx s0) (fun _ => 0)) by (try exact Hi; intros j _; apply X). rewrite (Hb i Hi). reflexivity. }
    assert (K0 : forall i, (i < 3)%nat -> msk_0 s0 i = false).
    { intros i Hi. change (msk_0 s0 i) with (fleb (bx s0 i) (Fin 0) && fleb (Fin 0) (bg s0 i)). rewrite (G i Hi). apply andb_false_iff. right. apply Rleb_false. three i Hi; figures. }
    assert (K1 : forall i, (i < 3)%nat -> msk_max s0 i = false) by (intros i _; change (msk_max s0 i) with (fleb PInf (bx s0 i) && fleb (bg s0 i) (Fin 0)); rewrite X; reflexivity).
    constructor; try assumption; try reflexivity; try (intros i _; first [apply X|reflexivity]).
    - cbn [sum]. cbn. f_equal. lra.
    - change (n_free s0) with (3 - (Z.of_nat (count 3 (msk_0 s0)) + Z.of_nat (count 3 (msk_max s0))))%Z.
      rewrite (count_ext 3 _ (fun _ => false) K0), (count_ext 3 _ (fun _ => false) K1). reflexivity. }
  destruct (number_pass 3 f row_matrix b row_b (/ 10 ^ 4) 3 s0 _ _ _ _ 0 0 (997 / 1489) (fun i => nth i [17946 / 1489; 11964 / 1489; 22931 / 1489] 0) (fun _ => false) HA Hb A0) as [P1 _]; try lia; try lra.
  { figures. } { figures. }
  { intros i Hi. three i Hi; figures; repeat split; intros; try discriminate; lra. }
  { figures. } { cbn; lia. }
  destruct P1 as (s1 & E1 & A1); [right; figures|].
  apply at_numbers_ext with (y' := fun i => nth i [17946 / 1489; 11964 / 1489; 22931 / 1489] 0) (z' := fun _ => false) (r0' := row_b) (d0' := row_b) in A1.
  2:{ intros i Hi. three i Hi; figures; repeat split; lra. }
  destruct (number_pass 3 f row_matrix b row_b (/ 10 ^ 4) 3 s1 _ _ _ _ (0 + 1) (994837 / 8868484) (5925249172 / 2081834703) (fun i => nth i [16212592 / 696033; 0; 68780516 / 2088099] 0) (fun i => Nat.eqb i 1) HA Hb A1) as [P2 _]; try lia; try lra.
  { intros _. figures; repeat split; lra. } { figures. } { figures. }
  { intros i Hi. three i Hi; figures; cbn [Nat.eqb]; repeat split; intros; try discriminate; lra. }
  { figures. } { cbn; lia. }
  destruct P2 as (s2 & E2 & A2); [left; reflexivity|].
  apply at_numbers_ext with (y' := fun i => nth i [16212592 / 696033; 0; 68780516 / 2088099] 0) (z' := fun i => Nat.eqb i 1) (r0' := fun i => nth i [2874 / 1489; -29069 / 2978; 5334 / 1489] 0) (d0' := fun i => nth i [17512305 / 4434242; -37314719 / 4434242; 54650555 / 8868484] 0) in A2.
  2:{ intros i Hi. three i Hi; figures; repeat split; lra. }
  destruct (number_pass 3 f row_matrix b row_b (/ 10 ^ 4) 3 s2 _ _ _ _ (0 + 1 + 1) (513466769022089877292 / 332664077165182660053) (1871891737996265054327103681545592579 / 982227378679733102553316227247000425424) (fun i => nth i [18590306842069724561224678892620655262156 / 798059745177283145824569434638187845657; 0; 26286877511766869212138434818539273619831 / 798059745177283145824569434638187845657] 0) (fun _ => false) HA Hb A2) as [_ P3]; try lia; try lra.
  { intros _. figures; cbn [Nat.eqb]; repeat split; lra. } { figures; cbn [Nat.eqb]; lra. } { figures; cbn [Nat.eqb]; lra. }
  { intros i Hi. three i Hi; figures; cbn [Nat.eqb]; repeat split; intros; try discriminate; lra. }
  { figures; cbn [Nat.eqb]; lra. } { cbn; lia. }
  destruct P3 as (v & E3 & V); [reflexivity|figures; cbn [Nat.eqb]; lra|].
  exists v. eexists. split; [cbn [bccg_loop]; change (Z.of_nat 3) with 3%Z; rewrite E1, E2, E3; reflexivity|]. split; [exact V|]. split.
  - intros i Hi. three i Hi; figures; repeat split; lra.
  - figures; cbn [Nat.eqb]; repeat split; lra.
Qed.
Print Assumptions c37_wrong_convergence_refuted.

(** ** A case of [c37_residual] *)
Definition pair_matrix (i j : nat) : R := nth j (nth i [[1; 1 / 2]; [1 / 2; 1]] []) 0.
Definition pair_b (i : nat) : R := nth i [5; 4] 0.
Definition as_number (a : flt) : R := match a with Fin x => x | _ => 0 end.
Definition pair_f (v : vec) : vec := fun i => Fin (times 2 pair_matrix (fun j => as_number (v j)) i).
Lemma pair_is_matrix : is_matrix 2 pair_f pair_matrix.
Proof. intros v x V i Hi. unfold pair_f. f_equal. apply sum_ext. intros j Hj. rewrite (V j Hj). reflexivity. Qed.
Lemma pair_between : between 2 pair_matrix (1 / 2) (3 / 2).
Proof.
  split; [lra|]. intros z. split.
  - unfold times, pair_matrix. cbn [sum nth]. pose proof (Rle_0_sqr (z 0%nat + z 1%nat)) as H. unfold Rsqr in H. nra.
  - unfold length2. rewrite <- (sqrt_square (3 / 2)) by lra. rewrite <- sqrt_mult by (try apply sum_squares_pos; lra). apply sqrt_le_1.
    + apply sum_squares_pos.
    + apply Rmult_le_pos; [lra|apply sum_squares_pos].
    + unfold times, pair_matrix. cbn [sum nth]. pose proof (Rle_0_sqr (z 0%nat - z 1%nat)) as H. unfold Rsqr in H. nra.
Qed.
Ltac two i Hi := destruct i as [|[|i]]; [| |exfalso; lia]; clear Hi.
Ltac figures2 := unfold times, pair_matrix, pair_b; cbn [sum nth any count orb andb negb]; pose proof small_pos; pose proof small_below; try lra.
Lemma pair_run f b : is_matrix 2 f pair_matrix -> numbers 2 b pair_b ->
  let start := bccg_init 2 f b (fun _ => Fin 0) (Fin 0) (fun _ => PInf) in
  exists s1 v, bccg_step 2 f b (Fin (1 / 4)) 2 (fun _ => PInf) 1 start = inl s1 /\ bccg_step 2 f b (Fin (1 / 4)) 2 (fun _ => PInf) 1 s1 = inr (v, false) /\
    quiet 2 (fun _ => PInf) start s1 /\ numbers 2 v (fun i => nth i [4; 2] 0).
Proof.
  intros HA Hb. cbv zeta. set (s0 := bccg_init 2 f b (fun _ => Fin 0) (Fin 0) (fun _ => PInf)).
  assert (A0 : at_numbers 2 pair_matrix pair_b (fun _ => 0) (fun _ => false) (fun _ => 0) (fun _ => 0) 0 s0).
  { assert (X : forall i, bx s0 i = Fin 0) by (intros i; cbn; destruct (Rltb 0 0); reflexivity).
    assert (G : numbers 2 (bg s0) (fun i => times 2 pair_matrix (fun _ => 0) i - pair_b i)).
    { intros i Hi. change (bg s0 i) with (fsub (f (bx s0) i) (b i)). rewrite (HA (bx s0) (fun _ => 0)) by (try exact Hi; intros j _; apply X). rewrite (Hb i Hi). reflexivity. }
    assert (K0 : forall i, (i < 2)%nat -> msk_0 s0 i = false).
    { intros i Hi. change (msk_0 s0 i) with (fleb (bx s0 i) (Fin 0) && fleb (Fin 0) (bg s0 i)). rewrite (G i Hi). apply andb_false_iff. right. apply Rleb_false. two i Hi; figures2. }
    assert (K1 : forall i, (i < 2)%nat -> msk_max s0 i = false) by (intros i _; change (msk_max s0 i) with (fleb PInf (bx s0 i) && fleb (bg s0 i) (Fin 0)); rewrite X; reflexivity).
    constructor; try assumption; try reflexivity; try (intros i _; first [apply X|reflexivity]).
    - cbn [sum]. cbn. f_equal. lra.
    - change (n_free s0) with (2 - (Z.of_nat (count 2 (msk_0 s0)) + Z.of_nat (count 2 (msk_max s0))))%Z.
      rewrite (count_ext 2 _ (fun _ => false) K0), (count_ext 2 _ (fun _ => false) K1). reflexivity. }
  destruct (number_pass 2 f pair_matrix b pair_b (1 / 4) 2 s0 _ _ _ _ 0 0 (41 / 61) (fun i => nth i [205 / 61; 164 / 61] 0) (fun _ => false) HA Hb A0) as [P1 _]; try lia; try lra.
  { figures2. } { figures2. }
  { intros i Hi. two i Hi; figures2; repeat split; intros; try discriminate; lra. }
  { figures2. } { cbn; lia. }
  destruct P1 as (s1 & E1 & A1); [right; figures2|].
  apply at_numbers_ext with (y' := fun i => nth i [205 / 61; 164 / 61] 0) (z' := fun _ => false) (r0' := pair_b) (d0' := pair_b) in A1.
  2:{ intros i Hi. two i Hi; figures2; repeat split; lra. }
  destruct (number_pass 2 f pair_matrix b pair_b (1 / 4) 2 s1 _ _ _ _ (0 + 1) (81 / 14884) (244 / 123) (fun i => nth i [4; 2] 0) (fun _ => false) HA Hb A1) as [_ P2]; try lia; try lra.
  { intros _. figures2; repeat split; lra. } { figures2. } { figures2. }
  { intros i Hi. two i Hi; figures2; repeat split; intros; try discriminate; lra. }
  { figures2. } { cbn; lia. }
  destruct P2 as (v & E2 & V); [reflexivity|figures2|].
  exists s1, v. split; [exact E1|]. split; [exact E2|]. split; [|intros i Hi; rewrite (V i Hi); f_equal; two i Hi; figures2].
  destruct A0 as [_ _ Z0 M0 _ _ _ _ _ _]. destruct A1 as [X1 _ Z1 M1 _ _ _ _ _ _]. intros i Hi. rewrite (Z0 i Hi), (M0 i Hi), (Z1 i Hi), (M1 i Hi), (X1 i Hi).
  split; [reflexivity|]. split; [reflexivity|]. intros _ _. split; [|discriminate]. intros E. injection E as E. revert E. two i Hi; figures2.
Qed.
Lemma pair_settled f b k s v : is_matrix 2 f pair_matrix -> numbers 2 b pair_b ->
  let start := bccg_init 2 f b (fun _ => Fin 0) (Fin 0) (fun _ => PInf) in
  state_after k 2 f b (Fin (1 / 4)) 2 (fun _ => PInf) 1 start = Some s -> bccg_step 2 f b (Fin (1 / 4)) 2 (fun _ => PInf) 1 s = inr (v, false) ->
  settled 2 f b (Fin (1 / 4)) 2 (fun _ => PInf) start k.
Proof.
  intros HA Hb start S E. destruct (pair_run f b HA Hb) as (s1 & w & E1 & E2 & Q & _). fold start in E1, Q.
  intros j u1 u2 Hj Hk S1 S2. destruct k as [|[|k]]; [lia| |cbn [state_after] in S; rewrite E1, E2 in S; discriminate].
  assert (j = 0%nat) by lia. subst j. cbn [state_after] in S1, S2. rewrite E1 in S2. injection S1 as <-. injection S2 as <-. exact Q.
Qed.
Example c37_residual_case : exists v k, bccg 3 2 pair_f (fun i => Fin (pair_b i)) (Fin (1 / 4)) None (fun _ => Fin 0) (Fin 0) (fun _ => PInf) 1 = Some (v, false) /\
  numbers 2 v (fun i => nth i [4; 2] 0) /\ (0 < k)%nat /\
  settled 2 pair_f (fun i => Fin (pair_b i)) (Fin (1 / 4)) 2 (fun _ => PInf) (bccg_init 2 pair_f (fun i => Fin (pair_b i)) (fun _ => Fin 0) (Fin 0) (fun _ => PInf)) k /\
  between 2 pair_matrix (1 / 2) (3 / 2).
Proof.
  assert (Hb : numbers 2 (fun i => Fin (pair_b i)) pair_b) by (intros i _; reflexivity).
  destruct (pair_run pair_f _ pair_is_matrix Hb) as (s1 & v & E1 & E2 & Q & V).
  exists v, 1%nat. split; [unfold bccg; cbn [bccg_loop]; change (Z.of_nat 2) with 2%Z; rewrite E1, E2; reflexivity|]. split; [exact V|]. split; [lia|].
  split; [|exact pair_between]. apply (pair_settled _ _ 1 s1 v pair_is_matrix Hb); [cbn [state_after]; rewrite E1; reflexivity|exact E2].
Qed.
