(** C41 to C43, C81 and C82: the Reynolds solver. *)
From Coq Require Import String List Bool Arith ZArith Reals Lia Lra FunctionalExtensionality.
From Verif Require Import Py SurfaceModel SurfaceProofs TdmaModel TdmaSpec TdmaProofs InfluenceModel ReynoldsModel ReynoldsSpec ReynoldsProofs.
Import ListNotations.
Local Open Scope string_scope.
Local Open Scope R_scope.

(** ** C41 *)
(** After any history of assignments, reads, sweeps (also failed ones) and changes of the flag,
    the parameters are the last ones assigned, and the derived quantities are the formulas
    applied to them, or the error these formulas give. *)
Theorem c41_current : forall t g hp r a eta rho d per s0 ops,
  make t g hp r a eta rho d per = Ok s0 ->
  let start p := match p with TimeStep => Some t | GridSpacing => Some g | Radius => Some r | HertzPressure => Some hp
                 | HalfWidth => Some a | Viscosity => Some eta | Density => Some rho | Speed => None end in
  let now p := last_assigned p (start p) ops in
  let s := run s0 ops in
  (forall p, vals s p = now p) /\ snd (lambda_bar s) = lambda_of now /\ nd_grid_spacing s = nd_spacing_of now /\ nd_time_step s = nd_time_of now.
Proof.
  intros t g hp r a eta rho d per s0 ops M start now s. destruct (make_fresh _ _ _ _ _ _ _ _ _ _ M) as (F & _ & _).
  assert (V : forall p, vals s p = now p).
  { intros p. unfold s, now. rewrite run_vals by exact F. f_equal. unfold make in M. cbn zeta in M.
    destruct (String.eqb d "forward"); [|destruct (String.eqb d "backward"); [|discriminate]]; injection M as <-; destruct p; reflexivity. }
  assert (VE : vals s = now) by (extensionality p; apply V).
  split; [exact V|]. rewrite <- VE. split; [apply lambda_fresh; apply run_fresh; exact F|]. split.
  - unfold nd_grid_spacing, nd_spacing_of, need. destruct (vals s GridSpacing), (vals s HalfWidth); cbn [bind]; try reflexivity. apply pydiv_quotient.
  - unfold nd_time_step, nd_time_of, need. destruct (vals s TimeStep), (vals s Speed), (vals s HalfWidth); cbn [bind]; try reflexivity. apply pydiv_quotient.
Qed.
Print Assumptions c41_current.
Example c41_case : exists s0, make 1 2 3 4 5 6 7 "backward" false = Ok s0 /\
  snd (lambda_bar s0) = Err TypeError /\
  snd (lambda_bar (run s0 [Assign Speed (Some 2); ReadLambda; Assign Radius (Some 1)])) = Ok (12 * 2 * 6 * 1 ^ 2 / (5 ^ 3 * 3)).
Proof.
  destruct (make 1 2 3 4 5 6 7 "backward" false) as [s0|] eqn:M; [|discriminate M]. exists s0. split; [reflexivity|]. split; [injection M as <-; reflexivity|].
  destruct (c41_current _ _ _ _ _ _ _ _ _ s0 [Assign Speed (Some 2); ReadLambda; Assign Radius (Some 1)] M) as (_ & H & _). rewrite H.
  unfold lambda_of. cbn [last_assigned param_eqb]. unfold quotient. destruct (Req_EM_T (5 ^ 3 * 3) 0) as [E|]; [|reflexivity]. exfalso. lra.
Qed.

(** ** C42 *)
(** Making a quantity dimensional and back, in either order, gives it back when its scale is
    not zero. *)
Theorem c42_round_trip : forall s x,
  (forall p, vals s HertzPressure = Some p -> p <> 0 -> exists y z, dimensionalise_pressure s x false = Ok y /\ dimensionalise_pressure s y true = Ok x /\
     dimensionalise_pressure s x true = Ok z /\ dimensionalise_pressure s z false = Ok x) /\
  (forall p, vals s Viscosity = Some p -> p <> 0 -> exists y z, dimensionalise_viscosity s x false = Ok y /\ dimensionalise_viscosity s y true = Ok x /\
     dimensionalise_viscosity s x true = Ok z /\ dimensionalise_viscosity s z false = Ok x) /\
  (forall p, vals s Density = Some p -> p <> 0 -> exists y z, dimensionalise_density s x false = Ok y /\ dimensionalise_density s y true = Ok x /\
     dimensionalise_density s x true = Ok z /\ dimensionalise_density s z false = Ok x) /\
  (forall p, vals s HalfWidth = Some p -> p <> 0 -> exists y z, dimensionalise_length s x false = Ok y /\ dimensionalise_length s y true = Ok x /\
     dimensionalise_length s x true = Ok z /\ dimensionalise_length s z false = Ok x) /\
  (forall r a, vals s Radius = Some r -> vals s HalfWidth = Some a -> r <> 0 -> a <> 0 ->
     exists y z, dimensionalise_gap s x false = Ok y /\ dimensionalise_gap s y true = Ok x /\
     dimensionalise_gap s x true = Ok z /\ dimensionalise_gap s z false = Ok x).
Proof.
  assert (D : forall p, p <> 0 -> Reqb p 0 = false) by (intros p H; apply Reqb_false; exact H).
  intros s x. unfold dimensionalise_pressure, dimensionalise_viscosity, dimensionalise_density, dimensionalise_length, dimensionalise_gap, pydiv.
  repeat split; [intros p E H; rewrite E; cbn [need bind]; rewrite (D p H); exists (x * p), (x / p); repeat split; f_equal; field; exact H ..|].
  intros r a E1 E2 H1 H2. rewrite E1, E2. cbn [need bind]. rewrite (D r H1). rewrite (D (a ^ 2)) by (apply pow_nonzero; exact H2). cbn [bind].
  exists (a ^ 2 / r * x), (r / a ^ 2 * x). repeat split; f_equal; field; auto.
Qed.
Print Assumptions c42_round_trip.
(** The scales: pressure by the Hertz pressure, lengths by the half width, gaps by a^2 / r. The
    spacing is scaled like a length and the gap below which there is no flow like a gap. *)
Theorem c42_scales : forall s x p eta rho r a,
  vals s HertzPressure = Some p -> vals s Viscosity = Some eta -> vals s Density = Some rho -> vals s Radius = Some r -> vals s HalfWidth = Some a ->
  r <> 0 ->
  dimensionalise_pressure s x false = Ok (x * p) /\ dimensionalise_viscosity s x false = Ok (x * eta) /\
  dimensionalise_density s x false = Ok (x * rho) /\ dimensionalise_length s x false = Ok (x * a) /\
  dimensionalise_gap s x false = Ok (a ^ 2 / r * x) /\
  (forall g, vals s GridSpacing = Some g -> nd_grid_spacing s = dimensionalise_length s g true).
Proof.
  intros s x p eta rho r a E1 E2 E3 E4 E5 H. unfold dimensionalise_pressure, dimensionalise_viscosity, dimensionalise_density, dimensionalise_length, dimensionalise_gap, nd_grid_spacing.
  rewrite E1, E2, E3, E4, E5. cbn [need bind]. repeat split.
  - unfold pydiv. apply Reqb_false in H. rewrite H. reflexivity.
  - intros g ->. reflexivity.
Qed.
Print Assumptions c42_scales.
Example c42_case : let s := Solver (fun _ => Some 2) None None 1 false in
  dimensionalise_gap s 3 false = Ok (2 ^ 2 / 2 * 3) /\ dimensionalise_gap s 6 true = Ok (2 / 2 ^ 2 * 6).
Proof.
  cbn zeta. unfold dimensionalise_gap. cbn [vals need bind]. unfold pydiv.
  assert (E1 : Reqb 2 0 = false) by (apply Reqb_false; lra). assert (E2 : Reqb (2 ^ 2) 0 = false) by (apply Reqb_false; lra). rewrite E1, E2. split; reflexivity.
Qed.

(** ** C43 *)
(** A sweep over a grid of the length the object has been used with puts every point it solves
    for between zero and the maximum and leaves every other point as it was. *)
Theorem c43_bounds : forall t g hp r a eta rho d per s0 ops st m s' p',
  make t g hp r a eta rho d per = Ok s0 -> Forall (same_length (len st)) ops ->
  solve (run s0 ops) st m = (s', Ok p') -> 0 <= m ->
  forall i j, (j < len st)%nat ->
    (swept per (width st) (len st) i j -> 0 <= p' i j <= m) /\ (~ swept per (width st) (len st) i j -> p' i j = nd_pressure st i j).
Proof.
  intros t g hp r a eta rho d per s0 ops st m s' p' M A H Hm i j Hj. destruct (make_fresh _ _ _ _ _ _ _ _ _ _ M) as (F & RO & S & P).
  destruct (run_ordered (len st) ops s0 F (or_introl RO) A) as (O & S2 & P2). set (s := run s0 ops) in *. rewrite P in P2. rewrite <- S2 in S.
  assert (Fs : fresh s) by (apply run_fresh; exact F).
  destruct (solve_inv s st m s' p' Fs H) as (dx & dt & lam & limit & pg & pd & _ & _ & _ & _ & _ & _ & _ & _ & W). cbn zeta in W. rewrite (ordered_order _ _ O) in W.
  match type of W with sweep _ ?cc _ _ _ _ _ = _ => destruct (sweep_ok st cc pg pd m _ (nd_pressure st) (order_grid s (len st) S)) as (q & Q1 & Q2 & Q3) end. rewrite W in Q1. injection Q1 as <-.
  rewrite <- P2, (swept_row s st i j S). split.
  - intros (_ & I & J). apply Q3; assumption.
  - intros N. apply Q2. destruct (interior st i); [right; intros X; apply N; auto|left; reflexivity].
Qed.
Print Assumptions c43_bounds.
(** It succeeds whenever the parameters are given, the half width, the spacing, the Hertz
    pressure, the speed, the viscosity and the radius being different from zero. *)
Theorem c43_runs : forall t g hp r a eta rho d per s0 ops st m t' g' hp' r' a' eta' u',
  make t g hp r a eta rho d per = Ok s0 -> Forall (same_length (len st)) ops ->
  let s := run s0 ops in
  vals s TimeStep = Some t' -> vals s GridSpacing = Some g' -> vals s HertzPressure = Some hp' -> vals s Radius = Some r' ->
  vals s HalfWidth = Some a' -> vals s Viscosity = Some eta' -> vals s Speed = Some u' ->
  g' <> 0 -> hp' <> 0 -> r' <> 0 -> a' <> 0 -> eta' <> 0 -> u' <> 0 ->
  exists s' p', solve s st m = (s', Ok p').
Proof.
  intros t g hp r a eta rho d per s0 ops st m t' g' hp' r' a' eta' u' M A s V1 V2 V3 V4 V5 V6 V7 N1 N2 N3 N4 N5 N6.
  destruct (make_fresh _ _ _ _ _ _ _ _ _ _ M) as (F & RO & S & P).
  destruct (run_ordered (len st) ops s0 F (or_introl RO) A) as (O & S2 & P2). fold s in O, S2, P2. rewrite <- S2 in S.
  assert (Fs : fresh s) by (apply run_fresh; exact F). destruct (lambda_fresh s Fs) as (L1 & L2 & L3 & L4 & L5 & L6).
  assert (D : forall p, p <> 0 -> Reqb p 0 = false) by (intros p H; apply Reqb_false; exact H).
  assert (LV : lambda_of (vals s) = Ok (12 * u' * eta' * r' ^ 2 / (a' ^ 3 * hp'))).
  { unfold lambda_of. rewrite V7, V6, V4, V5, V3. unfold quotient. destruct (Req_EM_T (a' ^ 3 * hp') 0) as [E|]; [|reflexivity].
    apply Rmult_integral in E. destruct E as [E|E]; [|contradiction]. exfalso. apply (pow_nonzero a' 3); assumption. }
  assert (LN : 12 * u' * eta' * r' ^ 2 / (a' ^ 3 * hp') <> 0).
  { unfold Rdiv. repeat apply Rmult_integral_contrapositive_currified; try assumption; try lra; try (apply pow_nonzero; assumption).
    apply Rinv_neq_0_compat. apply Rmult_integral_contrapositive_currified; [apply pow_nonzero; assumption|assumption]. }
  assert (G : dimensionalise_gap (fst (lambda_bar s)) (47 / 10 ^ 11) true = Ok (r' / a' ^ 2 * (47 / 10 ^ 11))).
  { unfold dimensionalise_gap. rewrite L3, V4, V5. cbn [need bind]. unfold pydiv. rewrite D by (apply pow_nonzero; assumption). reflexivity. }
  unfold solve. destruct (match previous st with Some x => x | None => (nd_gap st, nd_density st) end) as [pg pd].
  unfold nd_grid_spacing, nd_time_step. rewrite V1, V2, V5, V7. cbn [need bind]. unfold pydiv at 1 3. rewrite (D a' N4).
  unfold pydiv at 1. rewrite D by (unfold Rdiv; apply Rmult_integral_contrapositive_currified; [assumption|apply Rinv_neq_0_compat; assumption]).
  destruct (lambda_bar s) as [s1 l]. cbn [fst snd] in *. rewrite L1, LV. cbn [bind]. unfold pydiv at 1. rewrite (D _ LN). cbn [bind]. rewrite G. cbn [bind].
  rewrite L4, L5. assert (FO : find_order s1 (len st) = find_order s (len st)) by (unfold find_order; rewrite L5, L6; reflexivity). rewrite FO, (ordered_order _ _ O).
  match goal with |- context [sweep _ ?cc _ _ _ _ _] => destruct (sweep_ok st cc pg pd m _ (nd_pressure st) (order_grid s (len st) S)) as (q & Q1 & _) end.
  eexists. exists q. rewrite Q1. reflexivity.
Qed.
Print Assumptions c43_runs.
Example c43_case : exists s0 s' p', make 0 1 1 1 1 1 1 "backward" false = Ok s0 /\
  solve (run s0 [Assign Speed (Some 1)]) (State 3 3 (fun _ _ => 1) (fun _ _ => 1) (fun _ _ => 1) (fun _ _ => 5) None) 2 = (s', Ok p') /\
  0 <= p' 1%nat 1%nat <= 2 /\ p' 0%nat 1%nat = 5.
Proof.
  destruct (make 0 1 1 1 1 1 1 "backward" false) as [s0|] eqn:M; [|discriminate M].
  set (st := State 3 3 (fun _ _ => 1) (fun _ _ => 1) (fun _ _ => 1) (fun _ _ => 5) None).
  assert (A : Forall (same_length (len st)) [Assign Speed (Some 1)]) by (repeat constructor).
  assert (V : forall p, exists x, vals (run s0 [Assign Speed (Some 1)]) p = Some x /\ (p <> TimeStep -> x = 1)).
  { intros p. injection M as <-. destruct p; cbn; eexists; (split; [reflexivity|]); intros; congruence || reflexivity. }
  assert (V2 : forall p, p <> TimeStep -> vals (run s0 [Assign Speed (Some 1)]) p = Some 1) by (intros p N; destruct (V p) as (x & X & Y); rewrite (Y N) in X; exact X).
  destruct (V TimeStep) as (t & T & _).
  destruct (c43_runs _ _ _ _ _ _ _ _ _ s0 _ st 2 t 1 1 1 1 1 1 M A) as (s' & p' & E); try exact T; try (apply V2; discriminate); try lra.
  exists s0, s', p'. split; [reflexivity|]. split; [exact E|]. 
  destruct (c43_bounds _ _ _ _ _ _ _ _ _ s0 _ st 2 s' p' M A E ltac:(lra) 1 1 ltac:(cbn; lia)) as (B1 & _).
  destruct (c43_bounds _ _ _ _ _ _ _ _ _ s0 _ st 2 s' p' M A E ltac:(lra) 0 1 ltac:(cbn; lia)) as (_ & B2).
  split; [apply B1; unfold swept; cbn; lia|apply B2; unfold swept; lia].
Qed.

(** ** C81 *)
(** The claim that a solver can be used for grids of different lengths is false: after a sweep
    over a shorter grid the columns beyond are never solved, whatever the state. *)
Theorem c81_longer_refuted : forall t g hp r a eta rho d per s0 ops st1 m1 s1 p1 st2 m2 s2 p2,
  make t g hp r a eta rho d per = Ok s0 -> Forall (same_length (len st1)) ops ->
  solve (run s0 ops) st1 m1 = (s1, Ok p1) -> solve s1 st2 m2 = (s2, Ok p2) ->
  forall i j, (len st1 <= j < len st2)%nat -> p2 i j = nd_pressure st2 i j.
Proof.
  intros t g hp r a eta rho d per s0 ops st1 m1 s1 p1 st2 m2 s2 p2 M A H1 H2 i j Hj. destruct (make_fresh _ _ _ _ _ _ _ _ _ _ M) as (F & RO & S & P).
  destruct (run_ordered (len st1) ops s0 F (or_introl RO) A) as (O & S2 & P2). set (s := run s0 ops) in *. rewrite P in P2. rewrite <- S2 in S.
  assert (Fs : fresh s) by (apply run_fresh; exact F). destruct (solve_vals s st1 m1 Fs) as (_ & F1 & E1 & E2). rewrite H1 in F1, E1, E2. cbn [fst] in *.
  destruct (solve_inv s st1 m1 s1 p1 Fs H1) as (? & ? & ? & ? & ? & ? & _ & _ & _ & _ & _ & _ & _ & R1 & _). rewrite (ordered_order _ _ O) in R1.
  destruct (solve_inv s1 st2 m2 s2 p2 F1 H2) as (? & ? & ? & ? & ? & ? & _ & _ & _ & _ & _ & _ & _ & _ & W). cbn zeta in W. rewrite R1, E1 in W.
  assert (G : in_grid (len st2) (py_range (fst (find_order s (len st1))) (snd (find_order s (len st1))) (step s))).
  { intros z X. apply (order_grid s (len st1) S) in X. lia. }
  match type of W with sweep _ ?cc ?x1 ?x2 _ _ _ = _ => destruct (sweep_ok st2 cc x1 x2 m2 _ (nd_pressure st2) G) as (q & Q1 & Q2 & _) end. rewrite W in Q1. injection Q1 as <-. apply Q2. right.
  intros X. apply (order_grid s (len st1) S) in X. lia.
Qed.
Print Assumptions c81_longer_refuted.
(** A sweep over a grid that is shorter by two or more columns always fails with an IndexError. *)
Theorem c81_shorter_refuted : forall t g hp r a eta rho d per s0 ops st1 m1 s1 p1 st2 m2,
  make t g hp r a eta rho d per = Ok s0 -> Forall (same_length (len st1)) ops ->
  solve (run s0 ops) st1 m1 = (s1, Ok p1) -> (len st2 + 2 <= len st1)%nat -> (2 < len st1)%nat ->
  snd (solve s1 st2 m2) = Err IndexError.
Proof.
  intros t g hp r a eta rho d per s0 ops st1 m1 s1 p1 st2 m2 M A H1 Hl Hl2. destruct (make_fresh _ _ _ _ _ _ _ _ _ _ M) as (F & RO & S & P).
  destruct (run_ordered (len st1) ops s0 F (or_introl RO) A) as (O & S2 & P2). set (s := run s0 ops) in *. rewrite P in P2. rewrite <- S2 in S.
  assert (Fs : fresh s) by (apply run_fresh; exact F). destruct (solve_vals s st1 m1 Fs) as (V1 & F1 & E1 & E2). rewrite H1 in V1, F1, E1, E2. cbn [fst] in *.
  destruct (solve_inv s st1 m1 s1 p1 Fs H1) as (dx & dt & lam & limit & pg & pd & A1 & A2 & A3 & A4 & A5 & A6 & _ & R1 & _). rewrite (ordered_order _ _ O) in R1.
  assert (X : sweep st2 (Coeffs (get_epsilon st2 lam limit) (1 / dx) (if Reqb dt 0 then 0 else 1 / dt))
                (fst (match previous st2 with Some x => x | None => (nd_gap st2, nd_density st2) end)) (snd (match previous st2 with Some x => x | None => (nd_gap st2, nd_density st2) end))
                m2 (py_range (fst (find_order s (len st1))) (snd (find_order s (len st1))) (step s)) (nd_pressure st2) = Err IndexError).
  { apply sweep_err.
    - intros x X. apply (order_grid s (len st1) S) in X. lia.
    - exists (Z.of_nat (len st1) - 2)%Z. split; [|lia]. apply (order_in s (len st1) _ S). destruct (periodic s); lia. }
  destruct (lambda_fresh s1 F1) as (L1 & L2 & L3 & L4 & L5 & L6). unfold solve.
  destruct (match previous st2 with Some x => x | None => (nd_gap st2, nd_density st2) end) as [pg2 pd2]. cbn [fst snd] in X.
  assert (N1 : nd_grid_spacing s1 = Ok dx).
  { rewrite <- A1, <- V1. unfold nd_grid_spacing, nd_spacing_of, need. destruct (vals s1 GridSpacing), (vals s1 HalfWidth); cbn [bind]; try reflexivity. apply pydiv_quotient. }
  assert (N2 : nd_time_step s1 = Ok dt).
  { rewrite <- A3, <- V1. unfold nd_time_step, nd_time_of, need. destruct (vals s1 TimeStep), (vals s1 Speed), (vals s1 HalfWidth); cbn [bind]; try reflexivity. apply pydiv_quotient. }
  rewrite N1, N2. apply Reqb_false in A2. apply Reqb_false in A5. unfold pydiv at 1. rewrite A2. rewrite V1 in L1, L3. rewrite A4 in L1. destruct (lambda_bar s1) as [s3 l]. cbn [fst snd] in *.
  subst l. cbn [bind]. unfold pydiv at 1. rewrite A5. cbn [bind].
  assert (G : dimensionalise_gap s3 (47 / 10 ^ 11) true = Ok limit) by (rewrite <- A6; unfold dimensionalise_gap; rewrite L3; reflexivity).
  rewrite G. cbn [bind snd]. rewrite L4, L5, R1, E1. exact X.
Qed.
Print Assumptions c81_shorter_refuted.
(** Switching the flag on after a first sweep has no effect: the border columns are never
    solved. *)
Theorem c81_periodic_refuted : forall t g hp r a eta rho d s0 ops st1 m1 s1 p1 st2 m2 s2 p2,
  make t g hp r a eta rho d false = Ok s0 -> Forall (same_length (len st1)) ops ->
  solve (run s0 ops) st1 m1 = (s1, Ok p1) -> len st2 = len st1 -> solve (run_op s1 (SetPeriodic true)) st2 m2 = (s2, Ok p2) ->
  forall i, p2 i 0%nat = nd_pressure st2 i 0%nat /\ p2 i (len st2 - 1)%nat = nd_pressure st2 i (len st2 - 1)%nat.
Proof.
  intros t g hp r a eta rho d s0 ops st1 m1 s1 p1 st2 m2 s2 p2 M A H1 Hl H2 i. destruct (make_fresh _ _ _ _ _ _ _ _ _ _ M) as (F & RO & S & P).
  destruct (run_ordered (len st1) ops s0 F (or_introl RO) A) as (O & S2 & P2). set (s := run s0 ops) in *. rewrite P in P2. rewrite <- S2 in S.
  assert (Fs : fresh s) by (apply run_fresh; exact F). destruct (solve_vals s st1 m1 Fs) as (_ & F1 & E1 & E2). rewrite H1 in F1, E1, E2. cbn [fst] in *.
  destruct (solve_inv s st1 m1 s1 p1 Fs H1) as (? & ? & ? & ? & ? & ? & _ & _ & _ & _ & _ & _ & _ & R1 & _). rewrite (ordered_order _ _ O) in R1.
  assert (F2 : fresh (run_op s1 (SetPeriodic true))) by (apply run_op_fresh; exact F1).
  destruct (solve_inv _ st2 m2 s2 p2 F2 H2) as (? & ? & ? & ? & ? & ? & _ & _ & _ & _ & _ & _ & _ & _ & W). cbn zeta in W. cbn [run_op row_order step] in W. rewrite R1, E1 in W.
  assert (G : in_grid (len st2) (py_range (fst (find_order s (len st1))) (snd (find_order s (len st1))) (step s))).
  { rewrite Hl. apply order_grid. exact S. }
  match type of W with sweep _ ?cc ?x1 ?x2 _ _ _ = _ => destruct (sweep_ok st2 cc x1 x2 m2 _ (nd_pressure st2) G) as (q & Q1 & Q2 & _) end. rewrite W in Q1. injection Q1 as <-.
  split; apply Q2; right; intros X; apply (order_in s (len st1) _ S) in X; rewrite P2 in X; lia.
Qed.
Print Assumptions c81_periodic_refuted.
(** With one length and one flag the columns solved are the same in every sweep. *)
Theorem c81_same_length : forall t g hp r a eta rho d per s0 ops st,
  make t g hp r a eta rho d per = Ok s0 -> Forall (same_length (len st)) ops ->
  forall m s' p', solve (run s0 ops) st m = (s', Ok p') ->
  exists o, row_order s' = Some o /\ NoDup (py_range (fst o) (snd o) (step s')) /\
    forall x, In x (py_range (fst o) (snd o) (step s')) <-> exists j, x = Z.of_nat j /\ (j < len st)%nat /\ (per = true \/ (0 < j /\ j + 1 < len st)%nat).
Proof.
  intros t g hp r a eta rho d per s0 ops st M A m s' p' H. destruct (make_fresh _ _ _ _ _ _ _ _ _ _ M) as (F & RO & S & P).
  destruct (run_ordered (len st) ops s0 F (or_introl RO) A) as (O & S2 & P2). set (s := run s0 ops) in *. rewrite P in P2. rewrite <- S2 in S.
  assert (Fs : fresh s) by (apply run_fresh; exact F). destruct (solve_vals s st m Fs) as (_ & F1 & E1 & E2). rewrite H in F1, E1, E2. cbn [fst] in *.
  destruct (solve_inv s st m s' p' Fs H) as (? & ? & ? & ? & ? & ? & _ & _ & _ & _ & _ & _ & _ & R1 & _). rewrite (ordered_order _ _ O) in R1.
  eexists. split; [exact R1|]. rewrite E1. split; [apply py_range_nodup|]. intros z. rewrite (order_in s (len st) z S), P2. destruct per; split.
  - intros X. exists (Z.to_nat z). repeat split; try lia; left; reflexivity.
  - intros (j & -> & J & _). lia.
  - intros X. exists (Z.to_nat z). repeat split; try lia; right; lia.
  - intros (j & -> & J & [K|K]); [discriminate|lia].
Qed.
Print Assumptions c81_same_length.

(** ** C82 *)
(** The three stencil values are the elastic coefficients of a load on a unit square, at the
    distances 0, 1 and 2 along the first axis. *)
Theorem c82_stencil : forall i, ak i = 2 / PI ^ 2 * shape_zz 1 1 (INR i + 1 / 2) (INR i - 1 / 2) (1 / 2) (- (1 / 2)).
Proof.
  intros i. unfold ak, shape_zz, stencil. cbn zeta. f_equal.
  rewrite !(Rplus_comm ((1 / 2) ^ 2)), !(Rplus_comm ((- (1 / 2)) ^ 2)). ring.
Qed.
Print Assumptions c82_stencil.
(** A pressure that a sweep does not change, that is strictly between the bounds where it is
    solved and zero on the border of the first axis, satisfies the discrete Reynolds equation at
    every point solved for, provided the systems for the lines are regular and no density is
    zero. *)
Theorem c82_fixed_point : forall t g hp r a eta rho d per s0 ops st m s' p' dx dt lam limit h0 rho0,
  make t g hp r a eta rho d per = Ok s0 -> Forall (same_length (len st)) ops -> let s := run s0 ops in
  nd_spacing_of (vals s) = Ok dx -> nd_time_of (vals s) = Ok dt -> lambda_of (vals s) = Ok lam -> dimensionalise_gap s (47 / 10 ^ 11) true = Ok limit ->
  (h0, rho0) = (match previous st with Some x => x | None => (nd_gap st, nd_density st) end) ->
  let rdt := if Req_EM_T dt 0 then 0 else 1 / dt in
  let c := Coeffs (flow_factor st lam limit) (1 / dx) rdt in
  (forall j, (j < len st)%nat -> regular (width st) (fun x => tri_row (width st) (fun i => lower_all st c j (i - 1)%nat) (main_all st c j) (upper_all st c j) x)) ->
  (forall i j, (i < width st)%nat -> (j < len st)%nat -> nd_density st i j <> 0) ->
  solve s st m = (s', Ok p') -> (forall i j, (i < width st)%nat -> (j < len st)%nat -> p' i j = nd_pressure st i j) ->
  (forall j, (j < len st)%nat -> nd_pressure st 0%nat j = 0 /\ nd_pressure st (width st - 1)%nat j = 0) ->
  (forall i j, swept per (width st) (len st) i j -> 0 < nd_pressure st i j < m) ->
  forall i j, swept per (width st) (len st) i j ->
    reynolds_equation (len st) (flow_factor st lam limit) (nd_pressure st) (nd_gap st) (nd_density st) h0 rho0 dx rdt i j.
Proof.
  intros t g hp r a eta rho d per s0 ops st m s' p' dx dt lam limit h0 rho0 M A s V1 V2 V3 V4 V5 rdt c Rg Nz H E B In0 i j Sw.
  destruct (make_fresh _ _ _ _ _ _ _ _ _ _ M) as (F & RO & S & P).
  destruct (run_ordered (len st) ops s0 F (or_introl RO) A) as (O & S2 & P2). fold s in O, S2, P2. rewrite P in P2. rewrite <- S2 in S.
  assert (Fs : fresh s) by (apply run_fresh; exact F).
  destruct (solve_inv s st m s' p' Fs H) as (dx' & dt' & lam' & limit' & pg & pd & A1 & A2 & A3 & A4 & A5 & A6 & A7 & _ & W). cbn zeta in W.
  rewrite V1 in A1. injection A1 as <-. rewrite V2 in A3. injection A3 as <-. rewrite V3 in A4. injection A4 as <-. rewrite V4 in A6. injection A6 as <-.
  rewrite <- V5 in A7. injection A7 as -> ->. rewrite (ordered_order _ _ O), epsilon_flow in W.
  assert (ER : (if Reqb dt 0 then 0 else 1 / dt) = rdt).
  { unfold rdt. destruct (Reqb dt 0) eqn:Z0; [apply Reqb_true in Z0|apply Reqb_false in Z0]; destruct (Req_EM_T dt 0); congruence. }
  rewrite ER in W. fold c in W. set (rows := py_range (fst (find_order s (len st))) (snd (find_order s (len st))) (step s)) in W.
  assert (G : in_grid (len st) rows) by (apply order_grid; exact S).
  assert (EQ : forall x y, p' x y = nd_pressure st x y).
  { intros x y. destruct (sweep_ok st c h0 rho0 m rows (nd_pressure st) G) as (q & Q1 & Q2 & _). rewrite W in Q1. injection Q1 as <-.
    destruct (Nat.lt_ge_cases x (width st)) as [Hx|Hx]; [destruct (Nat.lt_ge_cases y (len st)) as [Hy|Hy]; [apply E; assumption|]|]; apply Q2.
    - right. intros X. apply G in X. lia.
    - left. destruct (interior st x) eqn:I; [apply interior_spec in I; lia|reflexivity]. }
  pose proof (sweep_fixed st c h0 rho0 m rows (nd_pressure st) p' G (py_range_nodup _ _ _) W EQ) as FX.
  rewrite <- P2 in Sw, In0. pose proof (proj1 (swept_row s st i j S) Sw) as (Hj & Ii & Ij). fold rows in Ij.
  apply interior_spec in Ii as I2. apply (fixed_line st c h0 rho0 (nd_pressure st) j i dx Hj A2 eq_refl (Nz i j ltac:(lia) Hj)).
  destruct (line_equation st c h0 rho0 (nd_pressure st) j ltac:(lia) (Rg j Hj)) as (X0 & X1 & X2).
  set (x := line st c h0 rho0 (nd_pressure st) j) in *.
  assert (LX : forall k, (k < width st)%nat -> x k = nd_pressure st k j).
  { intros k Hk. destruct (interior st k) eqn:I.
    - specialize (FX (Z.of_nat j) Ij k I). rewrite Nat2Z.id in FX. fold x in FX. apply (clip_inside m); [exact FX|]. apply In0.
      apply (swept_row s st k j S). auto.
    - destruct (B j Hj) as (B1 & B2). destruct (Nat.eq_dec k 0) as [->|K0]; [congruence|]. replace k with (width st - 1)%nat; [congruence|].
      unfold interior in I. apply andb_false_iff in I. rewrite !Nat.ltb_ge in I. lia. }
  rewrite <- (LX i), <- (LX (i - 1)%nat), <- (LX (i + 1)%nat) by lia. apply X2. exact Ii.
Qed.
Print Assumptions c82_fixed_point.
(** A solution of the discrete Reynolds equation within the bounds is not changed by a sweep. *)
Theorem c82_solution_kept : forall t g hp r a eta rho d per s0 ops st m s' p' dx dt lam limit h0 rho0,
  make t g hp r a eta rho d per = Ok s0 -> Forall (same_length (len st)) ops -> let s := run s0 ops in
  nd_spacing_of (vals s) = Ok dx -> nd_time_of (vals s) = Ok dt -> lambda_of (vals s) = Ok lam -> dimensionalise_gap s (47 / 10 ^ 11) true = Ok limit ->
  (h0, rho0) = (match previous st with Some x => x | None => (nd_gap st, nd_density st) end) ->
  let rdt := if Req_EM_T dt 0 then 0 else 1 / dt in
  let c := Coeffs (flow_factor st lam limit) (1 / dx) rdt in
  (forall j, (j < len st)%nat -> regular (width st) (fun x => tri_row (width st) (fun i => lower_all st c j (i - 1)%nat) (main_all st c j) (upper_all st c j) x)) ->
  (forall i j, (i < width st)%nat -> (j < len st)%nat -> nd_density st i j <> 0) ->
  solve s st m = (s', Ok p') ->
  (forall j, (j < len st)%nat -> nd_pressure st 0%nat j = 0 /\ nd_pressure st (width st - 1)%nat j = 0) ->
  (forall i j, swept per (width st) (len st) i j -> 0 <= nd_pressure st i j <= m) ->
  (forall i j, swept per (width st) (len st) i j ->
    reynolds_equation (len st) (flow_factor st lam limit) (nd_pressure st) (nd_gap st) (nd_density st) h0 rho0 dx rdt i j) ->
  forall i j, p' i j = nd_pressure st i j.
Proof.
  intros t g hp r a eta rho d per s0 ops st m s' p' dx dt lam limit h0 rho0 M A s V1 V2 V3 V4 V5 rdt c Rg Nz H B In0 RE.
  destruct (make_fresh _ _ _ _ _ _ _ _ _ _ M) as (F & RO & S & P).
  destruct (run_ordered (len st) ops s0 F (or_introl RO) A) as (O & S2 & P2). fold s in O, S2, P2. rewrite P in P2. rewrite <- S2 in S.
  assert (Fs : fresh s) by (apply run_fresh; exact F).
  destruct (solve_inv s st m s' p' Fs H) as (dx' & dt' & lam' & limit' & pg & pd & A1 & A2 & A3 & A4 & A5 & A6 & A7 & _ & W). cbn zeta in W.
  rewrite V1 in A1. injection A1 as <-. rewrite V2 in A3. injection A3 as <-. rewrite V3 in A4. injection A4 as <-. rewrite V4 in A6. injection A6 as <-.
  rewrite <- V5 in A7. injection A7 as -> ->. rewrite (ordered_order _ _ O), epsilon_flow in W.
  assert (ER : (if Reqb dt 0 then 0 else 1 / dt) = rdt).
  { unfold rdt. destruct (Reqb dt 0) eqn:Z0; [apply Reqb_true in Z0|apply Reqb_false in Z0]; destruct (Req_EM_T dt 0); congruence. }
  rewrite ER in W. fold c in W. set (rows := py_range (fst (find_order s (len st))) (snd (find_order s (len st))) (step s)) in W.
  assert (G : in_grid (len st) rows) by (apply order_grid; exact S).
  assert (K : forall j, In (Z.of_nat j) rows -> put_line st c h0 rho0 (nd_pressure st) j m = nd_pressure st).
  { intros j J. extensionality i. extensionality y. unfold put_line. destruct (interior st i) eqn:I; [|reflexivity]. destruct (Nat.eqb_spec y j) as [->|]; [|reflexivity]. cbn [andb].
    assert (Hj : (j < len st)%nat) by (apply G in J; lia). apply interior_spec in I as I2.
    pose proof (line_equation st c h0 rho0 (nd_pressure st) j ltac:(lia) (Rg j Hj)) as (X0 & X1 & X2). set (x := line st c h0 rho0 (nd_pressure st) j) in *.
    assert (Z : forall k, (k < width st)%nat -> x k - nd_pressure st k j = 0).
    { apply (Rg j Hj (fun k => x k - nd_pressure st k j)). intros k Hk. unfold tri_row, lower_all, main_all, upper_all.
      destruct (interior st k) eqn:Ik.
      - apply interior_spec in Ik as Ik2. destruct (Nat.eqb_spec k 0); [lia|]. destruct (Nat.eqb_spec (k + 1) (width st)); [lia|]. replace (k - 1 + 1)%nat with k by lia. rewrite Ik.
        pose proof (X2 k Ik) as X3.
        assert (SW : swept per (width st) (len st) k j) by (rewrite <- P2; apply (swept_row s st k j S); auto).
        pose proof (proj2 (fixed_line st c h0 rho0 (nd_pressure st) j k dx Hj A2 eq_refl (Nz k j ltac:(lia) Hj)) (RE k j SW)) as X4. lra.
      - assert (x k - nd_pressure st k j = 0).
        { destruct (B j Hj) as (B1 & B2). destruct (Nat.eq_dec k 0) as [->|K0]; [lra|]. replace k with (width st - 1)%nat; [lra|].
          unfold interior in Ik. apply andb_false_iff in Ik. rewrite !Nat.ltb_ge in Ik. lia. }
        destruct (Nat.eqb_spec k 0); destruct (Nat.eqb_spec (k + 1) (width st)); try (replace (k - 1 + 1)%nat with k by lia; rewrite Ik); lra. }
    specialize (Z i ltac:(lia)). replace (x i) with (nd_pressure st i j) by lra.
    assert (SW : swept per (width st) (len st) i j) by (rewrite <- P2; apply (swept_row s st i j S); auto).
    specialize (In0 i j SW). unfold clip. rewrite Rmax_left by lra. apply Rmin_left. lra. }
  assert (L : forall rs, incl rs rows -> sweep st c h0 rho0 m rs (nd_pressure st) = Ok (nd_pressure st)).
  { induction rs as [|x rs IH]; intros I; [reflexivity|]. cbn [sweep]. pose proof (G x (I x (or_introl eq_refl))) as Gx.
    destruct (Z.leb_spec (- Z.of_nat (len st)) x); [|lia]. destruct (Z.ltb_spec x (Z.of_nat (len st))); [|lia]. cbn [andb]. destruct (Z.ltb_spec x 0); [lia|].
    rewrite K by (rewrite Z2Nat.id by lia; apply I; left; reflexivity). apply IH. intros y Y. apply I. right. exact Y. }
  rewrite (L rows (incl_refl _)) in W. injection W as <-. reflexivity.
Qed.
Print Assumptions c82_solution_kept.
(** The claim that the steady discrete equation conserves mass is false: the wedge term differs
    from the upwind difference of density times gap by the product of the two differences, so at
    every solution the mass flow balances only where that product is zero. *)
Theorem c82_mass_refuted : forall l e p h rho h0 rho0 dx i j, dx <> 0 -> rho i j <> 0 ->
  reynolds_equation l e p h rho h0 rho0 dx 0 i j ->
  rho i j * flow l e p rho dx i j - (rho i j * h i j - rho (i - 1)%nat j * h (i - 1)%nat j) / dx
  = (rho i j - rho (i - 1)%nat j) * (h i j - h (i - 1)%nat j) / dx.
Proof.
  intros l e p h rho h0 rho0 dx i j Hd Hr E. unfold reynolds_equation in E. rewrite E. unfold wedge, squeeze. field. auto.
Qed.
Print Assumptions c82_mass_refuted.
(** A grid of three by three points that meets all hypotheses: a gap that is [h] before the
    middle and 1 after it, and the pressure that solves the equation there. *)
Example c82_case : exists h, 1 < h /\
  let q := 12 * (h - 1) / ((1 + h ^ 3) / 2 + 3) in
  let st := State 3 3 (fun i _ => match i with 0%nat => h | _ => 1 end) (fun _ _ => 1) (fun _ _ => 1) (fun i j => if andb (Nat.eqb i 1) (Nat.eqb j 1) then q else 0) None in
  let limit := 47 / 10 ^ 11 in
  let c := Coeffs (flow_factor st 12 limit) (1 / 1) 0 in
  (forall j, (j < 3)%nat -> regular 3 (fun x => tri_row 3 (fun i => lower_all st c j (i - 1)%nat) (main_all st c j) (upper_all st c j) x)) /\
  0 < q < 12 * h /\ reynolds_equation 3 (flow_factor st 12 limit) (nd_pressure st) (nd_gap st) (nd_density st) (nd_gap st) (nd_density st) 1 0 1 1.
Proof.
  assert (X : exists h, 1 < h /\ ak 1 - ak 0 <> ((1 + h ^ 3) / 2 + 3) / 12).
  { destruct (Req_EM_T (ak 1 - ak 0) (((1 + 2 ^ 3) / 2 + 3) / 12)) as [E|E]; [exists 3|exists 2]; (split; [lra|]); [rewrite E; lra|exact E]. }
  destruct X as (h & H & N). exists h. split; [exact H|]. intros q st limit c.
  assert (L : limit < 1) by (unfold limit; lra).
  assert (H3 : 0 < h ^ 3) by (apply pow_lt; lra).
  assert (K : 0 < (1 + h ^ 3) / 2 + 3) by lra.
  assert (EF : forall i j, flow_factor st 12 limit i j = (match i with 0%nat => h ^ 3 | _ => 1 end) / 12).
  { intros i j. unfold flow_factor. cbn [nd_gap nd_density nd_viscosity st]. destruct i; (destruct (Rlt_dec _ limit); [lra|]); field. }
  split; [|split].
  - intros j Hj x Z.
    assert (Z0 : x 0%nat = 0).
    { pose proof (Z 0%nat ltac:(lia)) as W. unfold tri_row, main_all, upper_all, interior in W. cbn [Nat.eqb Nat.ltb Nat.leb Nat.add andb] in W. lra. }
    assert (Z2 : x 2%nat = 0).
    { pose proof (Z 2%nat ltac:(lia)) as W. unfold tri_row, main_all, lower_all, interior in W. cbn [width st Nat.eqb Nat.ltb Nat.leb Nat.add Nat.sub andb] in W. lra. }
    assert (Z1 : x 1%nat = 0).
    { pose proof (Z 1%nat ltac:(lia)) as W. unfold tri_row, main_all, lower_all, upper_all, interior in W. cbn [width st Nat.eqb Nat.ltb Nat.leb Nat.add Nat.sub andb] in W.
      rewrite Z0, Z2 in W. unfold b_at, d3, d1, d2, d4, d5, weight in W. cbn [epsilon recip_dx recip_dt c nd_density st Nat.add Nat.sub] in W. rewrite !EF in W.
      assert (W2 : (ak 1 - ak 0 - ((1 + h ^ 3) / 2 + 3) / 12) * x 1%nat = 0) by (etransitivity; [|exact W]; field).
      apply Rmult_integral in W2. destruct W2 as [W2|W2]; [exfalso; apply N; lra|exact W2]. }
    intros i Hi. destruct i as [|[|[|i]]]; try assumption; lia.
  - assert (Q : q * ((1 + h ^ 3) / 2 + 3) = 12 * (h - 1)) by (unfold q; field; lra). split.
    + unfold q. apply Rdiv_lt_0_compat; lra.
    + apply (Rmult_lt_reg_r ((1 + h ^ 3) / 2 + 3)); [lra|]. rewrite Q. nra.
  - unfold reynolds_equation, flow, wedge, squeeze, mean, prior, next. cbn [Nat.eqb Nat.add Nat.sub nd_pressure nd_gap nd_density st andb]. rewrite !EF. unfold q. field. lra.
Qed.
