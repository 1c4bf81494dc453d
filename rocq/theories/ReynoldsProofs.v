From Coq Require Import String List Bool Arith ZArith Reals Lia Lra FunctionalExtensionality FinFun.
From Verif Require Import Py SurfaceModel SurfaceProofs TdmaModel TdmaSpec TdmaProofs ReynoldsModel ReynoldsSpec.
Import ListNotations.
Local Open Scope R_scope.

Lemma param_eqb_spec a b : reflect (a = b) (param_eqb a b).
Proof. destruct a, b; constructor; congruence. Qed.
Lemma pydiv_quotient a b : pydiv a b = quotient a b.
Proof.
  unfold pydiv, quotient. destruct (Reqb b 0) eqn:E; [apply Reqb_true in E|apply Reqb_false in E]; destruct (Req_EM_T b 0); congruence.
Qed.
(** The cached value is the formula for the present parameters. *)
Definition fresh (s : solver) : Prop := forall l, cache s = Some l -> lambda_of (vals s) = Ok l.
Lemma lambda_raw s : bind (need (vals s Speed)) (fun u => bind (need (vals s Viscosity)) (fun eta => bind (need (vals s Radius)) (fun r =>
            bind (need (vals s HalfWidth)) (fun a => bind (need (vals s HertzPressure)) (fun p =>
            pydiv (12 * u * eta * r ^ 2) (a ^ 3 * p)))))) = lambda_of (vals s).
Proof.
  unfold lambda_of, need. destruct (vals s Speed), (vals s Viscosity), (vals s Radius), (vals s HalfWidth), (vals s HertzPressure); cbn [bind]; try reflexivity.
  apply pydiv_quotient.
Qed.
Lemma lambda_fresh s : fresh s -> snd (lambda_bar s) = lambda_of (vals s) /\ fresh (fst (lambda_bar s)) /\ vals (fst (lambda_bar s)) = vals s
  /\ row_order (fst (lambda_bar s)) = row_order s /\ step (fst (lambda_bar s)) = step s /\ periodic (fst (lambda_bar s)) = periodic s.
Proof.
  intros F. unfold lambda_bar. destruct (cache s) eqn:C.
  - cbn. rewrite (F _ C). auto 10.
  - rewrite lambda_raw. destruct (lambda_of (vals s)) eqn:L; cbn; repeat split; auto. intros l H. cbn in H. injection H as <-. exact L.
Qed.
Lemma solve_vals s st m : fresh s -> vals (fst (solve s st m)) = vals s /\ fresh (fst (solve s st m)) /\ step (fst (solve s st m)) = step s
  /\ periodic (fst (solve s st m)) = periodic s.
Proof.
  intros F. destruct (lambda_fresh s F) as (L1 & L2 & L3 & L4 & L5 & L6). unfold solve.
  destruct (match previous st with Some x => x | None => (nd_gap st, nd_density st) end) as [pg pd].
  destruct (nd_grid_spacing s) as [dx|]; [|auto]. destruct (pydiv 1 dx); [|auto]. destruct (nd_time_step s); [|auto].
  destruct (lambda_bar s) as [s1 l]. cbn [fst snd] in *. destruct (bind l _) as [[lam limit]|]; cbn [fst]; auto.
Qed.
Lemma assign_fresh s p v : fresh s -> fresh (assign s p v).
Proof.
  intros F l H. unfold assign in *. cbn [cache vals] in *. destruct p; try discriminate H; apply F in H; unfold lambda_of in *; cbn [vals param_eqb] in *; exact H.
Qed.
Lemma run_op_fresh s o : fresh s -> fresh (run_op s o).
Proof.
  intros F. destruct o; cbn [run_op]; auto using assign_fresh.
  - apply lambda_fresh. exact F.
  - apply solve_vals. exact F.
Qed.
Lemma run_fresh l : forall s, fresh s -> fresh (run s l).
Proof. induction l as [|o l IH]; intros s F; [exact F|]. cbn. apply IH. apply run_op_fresh. exact F. Qed.
Lemma run_vals l : forall s, fresh s -> forall p, vals (run s l) p = last_assigned p (vals s p) l.
Proof.
  induction l as [|o l IH]; intros s F p; [reflexivity|]. cbn [run fold_left]. fold (run (run_op s o) l). rewrite IH by (apply run_op_fresh; exact F).
  destruct o; cbn [run_op last_assigned]; try reflexivity.
  - destruct (lambda_fresh s F) as (_ & _ & -> & _). reflexivity.
  - destruct (solve_vals s st max_pressure F) as (-> & _). reflexivity.
Qed.
Lemma make_fresh t g hp r a eta rho d per s : make t g hp r a eta rho d per = Ok s -> fresh s /\ row_order s = None /\ (step s = 1 \/ step s = -1)%Z /\ periodic s = per.
Proof.
  unfold make. cbn zeta. destruct (String.eqb d "forward"); [|destruct (String.eqb d "backward"); [|discriminate]];
    intros H; injection H as <-; cbn; repeat split; auto; intros l H; discriminate.
Qed.

(** ** Sweeps *)
Lemma clip_bounds m x : 0 <= m -> 0 <= clip m x <= m.
Proof. intros H. unfold clip. split; [apply Rmin_glb; [apply Rmax_r|exact H]|apply Rmin_r]. Qed.
Lemma clip_inside m x y : clip m x = y -> 0 < y < m -> x = y.
Proof.
  unfold clip. intros <- [H1 H2]. rewrite Rmin_left in H1 |- * by (destruct (Rle_dec (Rmax x 0) m); [assumption|rewrite Rmin_right in H2 by lra; lra]).
  unfold Rmax in *. destruct (Rle_dec x 0); lra.
Qed.
(** The columns of a list of rows. *)
Definition in_grid (l : nat) (rows : list Z) : Prop := forall r, In r rows -> (0 <= r < Z.of_nat l)%Z.
Lemma sweep_ok st c pg pd m rows : forall p, in_grid (len st) rows ->
  exists q, sweep st c pg pd m rows p = Ok q /\
    (forall i j, (interior st i = false \/ ~ In (Z.of_nat j) rows) -> q i j = p i j) /\
    (0 <= m -> forall i j, interior st i = true -> In (Z.of_nat j) rows -> 0 <= q i j <= m).
Proof.
  induction rows as [|r rows IH]; intros p G; cbn [sweep].
  - exists p. repeat split; auto; intros; cbn in *; contradiction.
  - pose proof (G r (or_introl eq_refl)) as Gr. destruct (Z.leb_spec (- Z.of_nat (len st)) r); [|lia]. destruct (Z.ltb_spec r (Z.of_nat (len st))); [|lia]. cbn [andb].
    destruct (Z.ltb_spec r 0); [lia|]. set (p1 := put_line st c pg pd p (Z.to_nat r) m).
    destruct (IH p1 ltac:(intros x Hx; apply G; right; exact Hx)) as (q & Q1 & Q2 & Q3). exists q. split; [exact Q1|]. split.
    + intros i j H2. rewrite Q2 by (destruct H2 as [H2|H2]; [left; exact H2|right; intros X; apply H2; right; exact X]).
      unfold p1, put_line. destruct H2 as [->|H2]; [reflexivity|]. destruct (Nat.eqb_spec j (Z.to_nat r)); [|rewrite andb_false_r; reflexivity].
      exfalso. apply H2. left. lia.
    + intros M i j I [E|E]; [|apply Q3; assumption].
      destruct (in_dec Z.eq_dec (Z.of_nat j) rows); [apply Q3; assumption|]. rewrite Q2 by (right; exact n).
      unfold p1, put_line. rewrite I. destruct (Nat.eqb_spec j (Z.to_nat r)); [|lia]. apply clip_bounds. exact M.
Qed.
Lemma interior_spec st i : interior st i = true <-> (0 < i)%nat /\ (i + 1 < width st)%nat.
Proof. unfold interior. rewrite andb_true_iff, !Nat.ltb_lt. tauto. Qed.

Lemma py_range_in a b st x : In x (py_range a b st) <-> if (st =? 1)%Z then (a <= x < b)%Z else (b < x <= a)%Z.
Proof.
  unfold py_range. destruct (st =? 1)%Z; rewrite in_map_iff; split.
  - intros (k & <- & H). apply in_seq in H. lia.
  - intros H. exists (Z.to_nat (x - a)). rewrite in_seq. lia.
  - intros (k & <- & H). apply in_seq in H. lia.
  - intros H. exists (Z.to_nat (a - x)). rewrite in_seq. lia.
Qed.
Lemma py_range_nodup a b st : NoDup (py_range a b st).
Proof.
  unfold py_range. destruct (st =? 1)%Z; apply Injective_map_NoDup; try apply seq_NoDup; intros x y; lia.
Qed.
Lemma order_in s l x : (step s = 1 \/ step s = -1)%Z ->
  In x (py_range (fst (find_order s l)) (snd (find_order s l)) (step s)) <->
  if periodic s then (0 <= x < Z.of_nat l)%Z else (0 < x < Z.of_nat l - 1)%Z.
Proof.
  intros S. rewrite py_range_in. unfold find_order. destruct S as [-> | ->]; cbn [Z.eqb]; destruct (periodic s); cbn [fst snd Pos.eqb]; lia.
Qed.

(** Everything [solve] computes before the sweep. *)
Lemma solve_inv s st m s' p' : fresh s -> solve s st m = (s', Ok p') ->
  exists dx dt lam limit pg pd,
    nd_spacing_of (vals s) = Ok dx /\ dx <> 0 /\ nd_time_of (vals s) = Ok dt /\ lambda_of (vals s) = Ok lam /\ lam <> 0 /\
    dimensionalise_gap s (47 / 10 ^ 11) true = Ok limit /\
    (pg, pd) = (match previous st with Some x => x | None => (nd_gap st, nd_density st) end) /\
    let order := match row_order s with Some o => o | None => find_order s (len st) end in
    row_order s' = Some order /\
    sweep st (Coeffs (get_epsilon st lam limit) (1 / dx) (if Reqb dt 0 then 0 else 1 / dt)) pg pd m (py_range (fst order) (snd order) (step s)) (nd_pressure st) = Ok p'.
Proof.
  intros F. destruct (lambda_fresh s F) as (L1 & L2 & L3 & L4 & L5 & L6). unfold solve.
  destruct (match previous st with Some x => x | None => (nd_gap st, nd_density st) end) as [pg pd] eqn:Pv.
  assert (N1 : nd_grid_spacing s = nd_spacing_of (vals s)).
  { unfold nd_grid_spacing, nd_spacing_of, need. destruct (vals s GridSpacing), (vals s HalfWidth); cbn [bind]; try reflexivity. apply pydiv_quotient. }
  assert (N2 : nd_time_step s = nd_time_of (vals s)).
  { unfold nd_time_step, nd_time_of, need. destruct (vals s TimeStep), (vals s Speed), (vals s HalfWidth); cbn [bind]; try reflexivity. apply pydiv_quotient. }
  rewrite N1, N2. destruct (nd_spacing_of (vals s)) as [dx|] eqn:E1; [|intros H; discriminate].
  destruct (pydiv 1 dx) as [rdx|] eqn:E2; [|discriminate]. destruct (nd_time_of (vals s)) as [dt|] eqn:E3; [|discriminate].
  assert (G : dimensionalise_gap (fst (lambda_bar s)) (47 / 10 ^ 11) true = dimensionalise_gap s (47 / 10 ^ 11) true).
  { unfold dimensionalise_gap. rewrite L3. reflexivity. }
  destruct (lambda_bar s) as [s1 l]. cbn [fst snd] in *. rewrite L1, G, L4, L5. destruct (lambda_of (vals s)) as [lam|]; cbn [bind]; [|discriminate].
  destruct (pydiv 1 lam) as [rl|] eqn:E4; cbn [bind]; [|discriminate]. destruct (dimensionalise_gap s (47 / 10 ^ 11) true) as [limit|] eqn:E5; cbn [bind]; [|discriminate].
  intros H. injection H as <- H. exists dx, dt, lam, limit, pg, pd.
  unfold pydiv in E2, E4. destruct (Reqb dx 0) eqn:Z1; [discriminate|]. destruct (Reqb lam 0) eqn:Z2; [discriminate|].
  apply Reqb_false in Z1. apply Reqb_false in Z2. injection E2 as <-. injection E4 as <-.
  assert (FO : find_order s1 (len st) = find_order s (len st)) by (unfold find_order; rewrite L5, L6; reflexivity).
  cbn [row_order]. rewrite FO in *. repeat split; auto.
Qed.

(** ** The line solution and the Reynolds equation *)
Lemma line_equation st c pg pd p row : (2 <= width st)%nat ->
  regular (width st) (fun x => tri_row (width st) (fun i => lower_all st c row (i - 1)%nat) (main_all st c row) (upper_all st c row) x) ->
  let x := line st c pg pd p row in
  x 0%nat = 0 /\ x (width st - 1)%nat = 0 /\
  forall i, interior st i = true -> a_at st c row i * x (i - 1)%nat + b_at st c row i * x i + c_at st c row i * x (i + 1)%nat = f_at st c pg pd p row i.
Proof.
  intros W Rg x. destruct (gtsv_regular _ _ _ _ (rhs_all st c pg pd p row) Rg) as (y & Y & S). 
  assert (E : x = y) by (unfold x, line, tdma; rewrite Y; reflexivity). rewrite E. clear x E Y.
  assert (B : forall i, (i < width st)%nat -> interior st i = false -> y i = 0).
  { intros i Hi I. specialize (S i Hi). unfold tri_row in S. unfold lower_all, main_all, upper_all, rhs_all in S. rewrite I in S.
    destruct (Nat.eqb_spec i 0), (Nat.eqb (i + 1) (width st)); try (replace (i - 1 + 1)%nat with i in S by lia; rewrite I in S); lra. }
  split; [apply B; [lia|reflexivity]|]. split.
  - apply B; [lia|]. unfold interior. destruct (Nat.ltb_spec (width st - 1 + 1) (width st)); [lia|apply andb_false_r].
  - intros i I. apply interior_spec in I as I2. specialize (S i ltac:(lia)). unfold tri_row, lower_all, main_all, upper_all, rhs_all in S.
    destruct (Nat.eqb_spec i 0); [lia|]. destruct (Nat.eqb_spec (i + 1) (width st)); [lia|]. replace (i - 1 + 1)%nat with i in S by lia. rewrite I in S. exact S.
Qed.
Lemma up_next st row : (row < len st)%nat -> row_up st row = next (len st) row.
Proof. intros H. unfold row_up, next. destruct (Nat.ltb_spec (row + 1) (len st)), (Nat.eqb_spec (row + 1) (len st)); lia. Qed.
(** If the line does not change the pressure, the Reynolds equation holds. *)
Lemma fixed_line st c pg pd p row i dx : (row < len st)%nat -> dx <> 0 -> recip_dx c = 1 / dx -> nd_density st i row <> 0 ->
  a_at st c row i * p (i - 1)%nat row + b_at st c row i * p i row + c_at st c row i * p (i + 1)%nat row = f_at st c pg pd p row i <->
  reynolds_equation (len st) (epsilon c) p (nd_gap st) (nd_density st) pg pd dx (recip_dt c) i row.
Proof.
  intros Hr Hd Ed Hp. unfold reynolds_equation, flow, wedge, squeeze, mean, a_at, b_at, c_at, f_at, d3, d1, d2, d4, d5, q1, q2, weight.
  rewrite up_next by exact Hr. change (row_down st row) with (prior (len st) row). rewrite Ed.
  set (rdt := recip_dt c). set (k0 := ak 0). set (k1 := ak 1). set (k2 := ak 2).
  set (e0 := epsilon c i row). set (e1 := epsilon c (i - 1)%nat row). set (e2 := epsilon c (i + 1)%nat row). set (e3 := epsilon c i (prior (len st) row)). set (e4 := epsilon c i (next (len st) row)).
  set (p0 := p i row). set (p1 := p (i - 1)%nat row). set (p2 := p (i + 1)%nat row). set (p3 := p i (prior (len st) row)). set (p4 := p i (next (len st) row)).
  set (h := nd_gap st i row). set (h1 := nd_gap st (i - 1)%nat row). set (r := nd_density st i row) in *. set (r1 := nd_density st (i - 1)%nat row).
  set (hh := pg i row). set (rr := pd i row). clearbody rdt k0 k1 k2 e0 e1 e2 e3 e4 p0 p1 p2 p3 p4 h h1 r r1 hh rr.
  match goal with |- ?L = ?M <-> ?A = ?B => assert (E : L - M = A - B) by (field; split; assumption) end.
  split; intros; lra.
Qed.
(** In a sweep that changes nothing, every line is solved with the same pressure. *)
Lemma sweep_fixed st c pg pd m rows : forall p q, in_grid (len st) rows -> NoDup rows -> sweep st c pg pd m rows p = Ok q ->
  (forall i j, q i j = p i j) ->
  forall r, In r rows -> forall i, interior st i = true -> clip m (line st c pg pd p (Z.to_nat r) i) = p i (Z.to_nat r).
Proof.
  induction rows as [|r0 rows IH]; intros p q G N H E r I; [contradiction|]. inversion N as [|? ? N1 N2]. subst.
  pose proof (G r0 (or_introl eq_refl)) as Gr. cbn [sweep] in H.
  destruct (Z.leb_spec (- Z.of_nat (len st)) r0); [|lia]. destruct (Z.ltb_spec r0 (Z.of_nat (len st))); [|lia]. cbn [andb] in H.
  destruct (Z.ltb_spec r0 0); [lia|]. set (p1 := put_line st c pg pd p (Z.to_nat r0) m) in *.
  assert (G' : in_grid (len st) rows) by (intros y Hy; apply G; right; exact Hy).
  destruct (sweep_ok st c pg pd m rows p1 G') as (q' & Q1 & Q2 & _). rewrite H in Q1. injection Q1 as <-.
  assert (E1 : p1 = p).
  { extensionality i. extensionality j. destruct (in_dec Z.eq_dec (Z.of_nat j) rows) as [J|J].
    - unfold p1, put_line. destruct (Nat.eqb_spec j (Z.to_nat r0)); [|rewrite andb_false_r; reflexivity]. exfalso. apply N1. replace r0 with (Z.of_nat j) by lia. exact J.
    - rewrite <- (Q2 i j) by (right; exact J). apply E. }
  destruct I as [<-|I].
  - intros i Hi. pose proof (f_equal (fun f => f i (Z.to_nat r0)) E1) as E2. cbn beta in E2. etransitivity; [|exact E2]. unfold p1, put_line. rewrite Hi, Nat.eqb_refl. reflexivity.
  - rewrite E1 in H. apply (IH p q G' N2 H E r I).
Qed.

Lemma sweep_err st c pg pd m rows : forall p, (forall r, In r rows -> (0 <= r)%Z) -> (exists r, In r rows /\ (Z.of_nat (len st) <= r)%Z) ->
  sweep st c pg pd m rows p = Err IndexError.
Proof.
  induction rows as [|r rows IH]; intros p P (x & I & X); [contradiction|]. cbn [sweep]. destruct (Z.ltb_spec r (Z.of_nat (len st))).
  - pose proof (P r (or_introl eq_refl)). destruct (Z.leb_spec (- Z.of_nat (len st)) r); [|lia]. cbn [andb].
    apply IH; [intros y Y; apply P; right; exact Y|]. destruct I as [<-|I]; [lia|]. exists x. auto.
  - rewrite andb_false_r. reflexivity.
Qed.

(** The stored order is the one for grids of this length. *)
Definition ordered (n : nat) (s : solver) : Prop := row_order s = None \/ row_order s = Some (find_order s n).
Lemma run_op_ordered n s o : fresh s -> ordered n s -> same_length n o ->
  ordered n (run_op s o) /\ step (run_op s o) = step s /\ periodic (run_op s o) = periodic s.
Proof.
  intros F O S. destruct o; cbn [run_op same_length] in *; auto; try contradiction.
  - destruct (lambda_fresh s F) as (L1 & L2 & L3 & L4 & L5 & L6). unfold ordered, find_order in *. rewrite L4, L5, L6. auto.
  - destruct (solve_vals s st max_pressure F) as (_ & _ & V1 & V2). split; [|auto]. unfold ordered, find_order. rewrite V1, V2. fold (find_order s n).
    destruct (lambda_fresh s F) as (L1 & L2 & L3 & L4 & L5 & L6). unfold solve.
    destruct (match previous st with Some x => x | None => (nd_gap st, nd_density st) end) as [pg pd].
    destruct (nd_grid_spacing s) as [dx|]; [|exact O]. destruct (pydiv 1 dx); [|exact O]. destruct (nd_time_step s); [|exact O].
    destruct (lambda_bar s) as [s1 l]. cbn [fst snd] in *. destruct (bind l _) as [[lam limit]|]; cbn [fst row_order].
    + right. rewrite L4. assert (FO : find_order s1 (len st) = find_order s n) by (rewrite <- S; unfold find_order; rewrite L5, L6; reflexivity).
      rewrite FO. destruct O as [-> | ->]; reflexivity.
    + rewrite L4. exact O.
Qed.
Lemma run_ordered n l : forall s, fresh s -> ordered n s -> Forall (same_length n) l ->
  ordered n (run s l) /\ step (run s l) = step s /\ periodic (run s l) = periodic s.
Proof.
  induction l as [|o l IH]; intros s F O A; [auto|]. inversion A as [|? ? A1 A2]. subst. cbn [run fold_left]. fold (run (run_op s o) l).
  destruct (run_op_ordered n s o F O A1) as (B1 & B2 & B3). destruct (IH (run_op s o) (run_op_fresh s o F) B1 A2) as (C1 & C2 & C3). rewrite C2, C3. auto.
Qed.
Lemma ordered_order n s : ordered n s -> (match row_order s with Some o => o | None => find_order s n end) = find_order s n.
Proof. intros [-> | ->]; reflexivity. Qed.
Lemma order_grid s l : (step s = 1 \/ step s = -1)%Z -> in_grid l (py_range (fst (find_order s l)) (snd (find_order s l)) (step s)).
Proof. intros S r I. apply (order_in s l r S) in I. destruct (periodic s); lia. Qed.
Lemma epsilon_flow st lam limit : get_epsilon st lam limit = flow_factor st lam limit.
Proof.
  extensionality i. extensionality j. unfold get_epsilon, flow_factor. destruct (Rltb (nd_gap st i j) limit) eqn:E; [apply Rltb_true in E|apply Rltb_false in E]; destruct (Rlt_dec (nd_gap st i j) limit); try lra; try reflexivity.
  unfold Rdiv. rewrite Rinv_mult. ring.
Qed.
Lemma swept_row s st i j : (step s = 1 \/ step s = -1)%Z ->
  swept (periodic s) (width st) (len st) i j <->
  (j < len st)%nat /\ interior st i = true /\ In (Z.of_nat j) (py_range (fst (find_order s (len st))) (snd (find_order s (len st))) (step s)).
Proof.
  intros S. unfold swept. rewrite (order_in s (len st) _ S), interior_spec. destruct (periodic s); split; intros H; intuition (try lia; try discriminate).
Qed.
