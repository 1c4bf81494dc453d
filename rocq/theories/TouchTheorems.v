(** C119: a converged contact is a contact. *)
From Coq Require Import String List Bool Arith ZArith Reals Lia Lra.
From Verif Require Import Flt SurfaceModel SurfaceProofs SolverModel SolverSpec SolverProofs BoundSpec BoundProofs BoundTheorems ConvSpec ConvProofs TouchModel TouchSpec TouchProofs.
From Verif Require Import HeightModel StepModel HeightSpec StepSpec PyProofs HeightProofs StepProofs StepTheorems TouchHonest.
Import ListNotations.
Local Open Scope string_scope.
Local Open Scope R_scope.

(** After any history of the height optimisation function without prescribed contact nodes, an
    evaluation at a new interference that some point reaches and that does not fail: the results
    are a solution at this interference (see [contact_solution]), with the displacements of both bodies, and the value is
    the total load less the target. *)
Theorem c119_evaluation : forall c uc cl g load lim os h t f,
  well_formed c g -> tol_inner c = Fin t -> Forall free_op os ->
  let k := contact_config c uc cl g in
  let s := hrun k (new_opt k load None lim) os in
  ~ In h (heights s) -> (exists x, In x g /\ x < h) ->
  last_failed (fst (evaluate k s h)) = false ->
  snd (read_results k (fst (evaluate k s h))) = Ok f ->
  r_interference f = h /\ contact_solution c g h t (r_loads f) /\
  displaces c (r_loads f) (r_disp1 f) (r_disp2 f) (r_total_disp f) /\
  r_nodes f = map (fun x => if Rlt_dec 0 x then true else false) (r_loads f) /\
  r_total_load f = total (points c) (fun i => nth i (r_loads f) 0) * spacing c ^ 2 /\
  snd (evaluate k s h) = r_total_load f - load_in_force load os.
Proof.
  intros c uc cl g load lim os h t f W T Fo k s Hn (x & Hx & Hlt) F R.
  assert (N : nodes_set s = false).
  { apply free_nodes; [|exact Fo]. unfold new_opt. destruct lim as [[[? ?] ?]|]; [destruct (use_cache k)|]; reflexivity. }
  assert (Tc : existsb (fun b => b) (touching k h) = true).
  { apply existsb_exists. exists true. split; [|reflexivity]. apply in_map_iff. exists x. split; [apply HeightProofs.Rltb_true; exact Hlt|exact Hx]. }
  destruct (evaluate_fresh k s h N Hn Tc) as [Ho Hf]. destruct (Hf f R) as [H1 H2].
  pose proof (read_honest k _ f Ho F R) as Sf. destruct (free_solves c uc cl g t f W T Sf) as (Q1 & Q2 & Q3).
  split; [exact H1|]. rewrite H1 in Q1. split; [exact Q1|]. split; [exact Q2|]. split.
  - destruct Sf as (l & _ & ->). reflexivity.
  - split; [exact Q3|]. rewrite H2. unfold s. rewrite load_run. f_equal. unfold new_opt. destruct lim as [[[? ?] ?]|]; [destruct (use_cache k)|]; reflexivity.
Qed.
Print Assumptions c119_evaluation.

Lemma entries_solved c uc cl g t reported f s : well_formed c g -> tol_inner c = Fin t -> solved_free (contact_config c uc cl g) f ->
  (forall key v, In (key, v) (result_entries f reported ++ [("gap", SGrid (gap_entry g reported (r_total_disp f)))]) -> dget key s = Some v) ->
  solved_state c g t reported (r_interference f) s.
Proof.
  intros W T Sf E. destruct (free_solves c uc cl g t f W T Sf) as (Q1 & Q2 & Q3).
  exists (r_loads f), (r_disp1 f), (r_disp2 f), (r_total_disp f), (gap_entry g reported (r_total_disp f)).
  unfold holds_num, holds_grid. rewrite <- Q3. repeat (split; [first [apply E; cbn; tauto|exact Q1|exact Q2]|]).
  destruct Q2 as (_ & _ & L & _). destruct W as (Lg & _). split; [rewrite gap_entry_length; lia|].
  intros k Hk. apply gap_entry_nth; lia.
Qed.

(** A static step that reports convergence: the state is the solution at the reported
    interference, which is the prescribed one in interference control. *)
Theorem c119_static : forall c uc cl w st prev s g p1 p2 t,
  gap_at w (off_set st) = Ok (g, p1, p2) -> config w (adhesion st) g = contact_config c uc cl g ->
  well_formed c g -> tol_inner c = Fin t -> (load_controlled st = true -> In 0 g /\ stays_above w) ->
  static_contact w st prev = Ok s -> holds_flag s "converged" true ->
  exists h, solved_state c g t h h s.
Proof.
  intros c uc cl w st prev s g p1 p2 t G K W T L H Cv.
  destruct (static_honest w st prev s H Cv) as (g' & p1' & p2' & tt & f & G' & -> & Sf).
  - intros El. destruct (L El) as [L1 L2]. split; [|exact L2]. intros g' p1' p2' G'. rewrite G in G'. injection G' as <- _ _. rewrite K. exact L1.
  - rewrite G in G'. injection G' as <- _ _. rewrite K in Sf. exists (r_interference f). apply (entries_solved c uc cl); try assumption.
    intros key v Hin. cbn in Hin. repeat destruct Hin as [Hin|Hin]; try (injection Hin as <- <-; reflexivity). destruct Hin.
Qed.
Print Assumptions c119_static.

(** The same for every state of a quasi static step before the sub models; with a prescribed
    interference the reported interference is the one of the solution. *)
Theorem c119_quasi : forall c uc cl w n nt T ox oy i l rel adh unl fast imp up q prev q' states r k st t,
  new_quasi n nt T ox oy i l rel adh unl fast imp up = Ok q -> quasi_solve w q prev = (q', states, r) -> nth_error states k = Some st ->
  (forall off g p1 p2, gap_at w off = Ok (g, p1, p2) -> config w adh g = contact_config c uc cl g /\ well_formed c g /\ (i = None -> In 0 g)) ->
  tol_inner c = Fin t -> (i = None -> stays_above w) ->
  exists g pre reported h, sub_models w pre = Ok st /\ holds_grid pre "just_touching_gap" g /\ holds_num pre "interference" reported /\
    (holds_flag pre "converged" true -> solved_state c g t reported h pre /\ (i <> None -> reported = h)).
Proof.
  intros c uc cl w n nt T ox oy i l rel adh unl fast imp up q prev q' states r k st t N H E G Tt L.
  destruct (quasi_honest w n nt T ox oy i l rel adh unl fast imp up q prev q' states r k st N H E) as (off & g & p1 & p2 & new & f & h & conv & time & Gg & M & S1 & S2).
  - intros Hi. split; [|exact (L Hi)]. intros off g p1 p2 Hg. destruct (G off g p1 p2 Hg) as (K & _ & Z). rewrite K. exact (Z Hi).
  - exists g. eexists. exists h, (r_interference f). split; [exact M|]. split; [reflexivity|]. split; [reflexivity|].
    intros Cv. assert (conv = true) by (unfold holds_flag in Cv; cbn in Cv; now injection Cv as ->). subst conv.
    destruct (G off g p1 p2 Gg) as (K & W & _). specialize (S1 eq_refl). rewrite K in S1. split; [|intros Hi; apply S2; auto].
    apply (entries_solved c uc cl); try assumption.
    intros key v Hin. cbn in Hin. repeat destruct Hin as [Hin|Hin]; try (injection Hin as <- <-; reflexivity). destruct Hin.
Qed.
Print Assumptions c119_quasi.

(** No point has a pressure and a gap in a wrong combination: in a converged static state points
    where the undeformed surfaces do not overlap do not overlap afterwards either, up to 1e-14 times
    the influence of all points, if the coefficients are not negative. *)
Theorem c119_no_penetration : forall N C g h most p k, admissible N g h most p ->
  (forall i j, 0 <= C i j) -> (k < N)%nat -> h <= nth k g 0 ->
  - / 10 ^ 14 * total N (C k) <= left_over N C g h p k.
Proof.
  intros N C g h most p k (_ & B & _) P Hk Hg. unfold left_over, moved_by.
  assert (E : - / 10 ^ 14 * total N (C k) <= total N (fun l => C k l * nth l p 0)); [|lra].
  rewrite <- total_scal. assert (Le : forall n, (n <= N)%nat -> total n (fun l => - / 10 ^ 14 * C k l) <= total n (fun l => C k l * nth l p 0)).
  { induction n as [|n IH]; intros Hn; cbn [total]; [lra|]. specialize (IH ltac:(lia)). specialize (B n ltac:(lia)). specialize (P k n). nra. }
  apply Le. lia.
Qed.
Print Assumptions c119_no_penetration.

Lemma max_of_ge l x : In x l -> x <= max_of l.
Proof.
  destruct l as [|y l]; [intros []|]. cbn. assert (H : forall l y, y <= fold_left Rmax l y /\ forall x, In x l -> x <= fold_left Rmax l y).
  { clear. induction l as [|z l IH]; intros y; cbn; [split; [lra|intros x []]|]. destruct (IH (Rmax y z)) as [I1 I2]. pose proof (Rmax_l y z). pose proof (Rmax_r y z).
    split; [lra|]. intros x [<-|Hx]; [lra|apply I2; exact Hx]. }
  intros [<-|Hx]; [exact (proj1 (H _ _))|exact (proj2 (H _ _) _ Hx)].
Qed.
Lemma max_of_in l : l <> [] -> In (max_of l) l.
Proof.
  destruct l as [|y l]; [congruence|]. intros _. cbn. revert y. induction l as [|z l IH]; intros y; cbn; [auto|].
  destruct (IH (Rmax y z)) as [E|E]; [|auto]. rewrite <- E. unfold Rmax. destruct (Rle_dec y z); auto.
Qed.
Lemma ladd_nth a : forall b k, List.length a = List.length b -> nth k (ladd a b) 0 = nth k a 0 + nth k b 0.
Proof. induction a as [|x a IH]; intros [|y b] k H; try discriminate; destruct k; cbn; try lra. apply IH. cbn in H. lia. Qed.
Lemma ladd_length a : forall b, List.length a = List.length b -> List.length (ladd a b) = List.length b.
Proof. induction a as [|x a IH]; intros [|y b] H; try discriminate; cbn in *; [reflexivity|]. rewrite IH; lia. Qed.

Lemma nth_const (y : R) (g : list R) : forall k, (k < List.length g)%nat -> nth k (map (fun _ => y) g) 0 = y.
Proof. induction g as [|x g IH]; intros [|k] H; cbn in *; try lia; [reflexivity|apply IH; lia]. Qed.

(** The entry that is put into the cache for a finite maximum pressure: the maximum pressure on
    every point closes every gap, at this interference just, at every larger one with overlap left;
    if each point then is displaced it solves the contact problem without error. *)
Theorem c119_limit : forall c g l h p, well_formed c g -> limit c g = Some (l, h, p) ->
  exists y, most c = Fin y /\ List.length p = points c /\ (forall k, (k < points c)%nat -> nth k p 0 = y) /\
    l = total (points c) (fun k => nth k p 0) * spacing c ^ 2 /\
    (forall k h', (k < points c)%nat -> h <= h' -> left_over (points c) (both_bodies c) g h' p k <= 0) /\
    ((0 < points c)%nat -> exists k, (k < points c)%nat /\ left_over (points c) (both_bodies c) g h p k = 0) /\
    (forall h', 0 < y -> h <= h' -> (forall k, (k < points c)%nat -> 0 < moved_by (points c) (both_bodies c) p k) ->
       solves_contact (points c) (both_bodies c) g h' (most c) 0 p).
Proof.
  intros c g l h p W H. unfold limit in H. destruct (most c) as [y| | |] eqn:M; try discriminate. injection H as <- Eh <-.
  exists y. split; [reflexivity|]. set (p := map (fun _ => y) g) in *. set (N := points c).
  pose proof W as (Lg & _ & R1 & R2 & _ & _ & _ & Y). rewrite M in Y.
  assert (Lp : List.length p = N) by (unfold p; rewrite map_length; exact Lg). split; [exact Lp|].
  assert (P : forall k, (k < N)%nat -> nth k p 0 = y).
  { intros k Hk. apply nth_const. unfold N in Hk. lia. }
  split; [exact P|].
  assert (Tn : forall n, (n <= N)%nat -> total n (fun k => nth k p 0) = y * INR n).
  { induction n as [|n IH]; intros Hn; [cbn; lra|]. cbn [total]. rewrite IH, P by lia. rewrite S_INR. ring. }
  split; [rewrite Tn by lia; rewrite Lg; reflexivity|].
  destruct (convolved_moved c (total_im c) p (proj1 (contact_usable c g W)) Lp) as [Lc Cc]. fold N in Lc, Cc.
  assert (Mv : forall k, moved_by N (body c (total_im c)) p k = moved_by N (both_bodies c) p k).
  { intros k. apply total_ext. intros j _. rewrite body_total by assumption. reflexivity. }
  assert (Le : List.length (convolved c (total_im c) p) = List.length g) by (rewrite Lc; symmetry; exact Lg).
  assert (A : forall k, (k < N)%nat -> nth k g 0 + moved_by N (both_bodies c) p k <= h).
  { intros k Hk. rewrite <- Mv, <- (Cc k Hk), <- Eh, Rplus_comm, <- ladd_nth by exact Le. apply max_of_ge, nth_In. rewrite ladd_length by exact Le. unfold N in Hk. lia. }
  assert (B : forall k h', (k < N)%nat -> h <= h' -> left_over N (both_bodies c) g h' p k <= 0).
  { intros k h' Hk Hh. unfold left_over. specialize (A k Hk). lra. }
  split; [exact B|]. split.
  - intros Np. assert (E : In h (ladd (convolved c (total_im c) p) g)).
    { rewrite <- Eh. apply max_of_in. intros E. apply (f_equal (@List.length R)) in E. rewrite ladd_length in E by exact Le. cbn in E. unfold N in *. lia. }
    apply (In_nth _ _ 0) in E as (k & Hk & E). rewrite ladd_length in Hk by exact Le. assert (Hk' : (k < N)%nat) by (unfold N; lia).
    exists k. split; [exact Hk'|]. rewrite ladd_nth in E by exact Le. rewrite (Cc k Hk'), Mv in E. unfold left_over. lra.
  - intros h' Hy Hh Pm. assert (0 < / 10 ^ 14) by (apply Rinv_0_lt_compat, pow_lt; lra).
    assert (Ov : forall k, (k < N)%nat -> nth k g 0 < h') by (intros k Hk; specialize (A k Hk); specialize (Pm k Hk); lra).
    split.
    { split; [exact Lp|]. split; [intros k Hk; rewrite P by exact Hk; lra|]. split; [intros k Hk Hg; specialize (Ov k Hk); lra|].
      intros k z Hk _ E. injection E as <-. rewrite P by exact Hk. nra. }
    exists (fun _ => false), (fun _ => true). split; [discriminate|]. split.
    { intros k Hk _ _. rewrite (P k Hk). split; [reflexivity|]. specialize (B k h' Hk Hh). lra. }
    unfold size. rewrite (total_ext N _ (fun _ => 0)); [rewrite total_zero, sqrt_0; lra|].
    intros k _. destruct (Rlt_dec (nth k g 0) h'); cbn; ring.
Qed.
Print Assumptions c119_limit.

(** ** Cases *)
(** Three points in a row; both bodies are displaced by 1/2 at a point with unit
    pressure and by 1/4 at its neighbours. *)
Definition row_im : grid := Grid 1 3 (fun _ j => nth j [1 / 4; 1 / 2; 1 / 4] 0).
Definition row (t : R) : setup := Setup false (fun q => q) 1 3 row_im row_im false false (Fin t) None (Some 0) PInf 1.
Definition row_gap : list R := [0; 1; 7].
Lemma row_well t g : List.length g = 3%nat -> well_formed (row t) g.
Proof.
  intros L. split; [exact L|]. split; [intros q; cbn; lia|]. split; [reflexivity|]. split; [reflexivity|]. split; [discriminate|]. split; [discriminate|].
  split; [|exact I]. intros a E. injection E as <-. lra.
Qed.
Lemma row_body t i j : (i < 3)%nat -> (j < 3)%nat -> body (row t) (total_im (row t)) i j = row_matrix i j.
Proof.
  intros Hi Hj. three i Hi; three j Hj; unfold body, influence, coeff, row_matrix; cbn; change (Pos.to_nat 2) with 2%nat; change (Pos.to_nat 1) with 1%nat; cbn; lra.
Qed.
Lemma row_between t : between 3 (both_bodies (row t)) (1 / 4) 2.
Proof.
  assert (E : forall z i, (i < 3)%nat -> times 3 (both_bodies (row t)) z i = times 3 row_matrix z i).
  { intros z i Hi. apply sum_ext. intros j Hj. rewrite <- (row_body t i j Hi Hj), body_total by reflexivity. reflexivity. }
  split; [lra|]. intros z. rewrite (sum_ext 3 (fun i => z i * times 3 (both_bodies (row t)) z i) (fun i => z i * times 3 row_matrix z i)) by (intros i Hi; rewrite E by exact Hi; reflexivity).
  rewrite (length2_ext 3 _ _ (E z)). split.
  - unfold times, row_matrix. cbn [sum nth]. pose proof (Rle_0_sqr (z 0%nat + 2 / 3 * z 1%nat)) as H. pose proof (Rle_0_sqr (z 2%nat + 2 / 3 * z 1%nat)) as H'. pose proof (Rle_0_sqr (z 1%nat)). unfold Rsqr in *. nra.
  - unfold length2. rewrite <- (sqrt_square 2) by lra. rewrite <- sqrt_mult by (try apply sum_squares_pos; lra). apply sqrt_le_1.
    + apply sum_squares_pos.
    + apply Rmult_le_pos; [lra|apply sum_squares_pos].
    + unfold times, row_matrix. cbn [sum nth]. pose proof (Rle_0_sqr (z 0%nat - z 1%nat)). pose proof (Rle_0_sqr (z 1%nat - z 2%nat)). pose proof (Rle_0_sqr (z 0%nat - z 2%nat)).
      pose proof (Rle_0_sqr (z 0%nat)). pose proof (Rle_0_sqr (z 1%nat)). pose proof (Rle_0_sqr (z 2%nat)). unfold Rsqr in *. lra.
Qed.
Lemma is_matrix_ext n f A A' : is_matrix n f A -> (forall i j, (i < n)%nat -> (j < n)%nat -> A i j = A' i j) -> is_matrix n f A'.
Proof. intros M E v x V i Hi. rewrite (M v x V i Hi). f_equal. apply sum_ext. intros j Hj. rewrite E by assumption. reflexivity. Qed.
Lemma row_touching a b c h uc cl t (x y z : bool) : HeightModel.Rltb a h = x -> HeightModel.Rltb b h = y -> HeightModel.Rltb c h = z ->
  touching (contact_config (row t) uc cl [a; b; c]) h = [x; y; z].
Proof. intros <- <- <-. reflexivity. Qed.
Lemma row_solved uc cl : free_solution (contact_config (row (1 / 4)) uc cl row_gap) 5 = ([4; 2], false) /\ settled_at (row (1 / 4)) row_gap 5.
Proof.
  assert (T1 : HeightModel.Rltb 0 5 = true) by (apply HeightProofs.Rltb_true; lra). assert (T2 : HeightModel.Rltb 1 5 = true) by (apply HeightProofs.Rltb_true; lra).
  assert (T3 : HeightModel.Rltb 7 5 = false) by (apply HeightProofs.Rltb_false; lra).
  set (d := [true; true; false]).
  destruct (operator_matrix (row (1 / 4)) (total_im (row (1 / 4))) d (proj1 (contact_usable _ _ (row_well (1 / 4) row_gap eq_refl))) eq_refl) as (f & P & M).
  change (List.length (places d)) with 2%nat in M.
  assert (M' : is_matrix 2 (operator f 2) pair_matrix).
  { apply (is_matrix_ext _ _ _ _ M). intros i j Hi Hj. two i Hi; two j Hj; change (places d) with [0%nat; 1%nat]; cbn [nth]; rewrite row_body by lia; unfold row_matrix, pair_matrix; cbn [nth]; reflexivity. }
  assert (Nb : numbers 2 (as_vec [5 - 0; 5 - 1]) pair_b) by (intros i Hi; unfold as_vec, pair_b; f_equal; two i Hi; cbn [nth]; lra).
  split.
  - unfold free_solution, row_gap. rewrite (row_touching 0 1 7 5 uc cl (1 / 4) _ _ _ T1 T2 T3). cbn [solver contact_config gap map select row_gap]. unfold solve_domain. fold d. rewrite P. cbn [List.length].
    cbn [max_it_inner row tol_inner least most]. change (Z.to_nat (Z.max 1 (Z.of_nat 2 + 1))) with 3%nat.
    destruct (pair_run (operator f 2) _ M' Nb) as (s1 & v & E1 & E2 & _ & V).
    unfold bccg. cbn [bccg_loop]. change (Z.of_nat 2) with 2%Z. rewrite E1, E2. cbn [seq map]. rewrite !V by lia. reflexivity.
  - unfold settled_at. change (map (fun x => HeightModel.Rltb x 5) row_gap) with [HeightModel.Rltb 0 5; HeightModel.Rltb 1 5; HeightModel.Rltb 7 5]. rewrite T1, T2, T3. fold d.
    cbv zeta. change (select d (map (fun x => 5 - x) row_gap)) with [5 - 0; 5 - 1]. cbn [List.length].
    intros f' k s v P'. rewrite P in P'. injection P' as <-. exact (pair_settled (operator f 2) _ k s v M' Nb).
Qed.
Definition row_world (t : R) (g : list R) : world := World (gap_at (plain g)) (fun _ => contact_config (row t) true true) (limit_of (plain [])) (root_scalar (plain [])) (cubic (plain [])) Ok.
(** A static step with the interference 5 on the gaps 0, 1 and 7 converges, so it is a solution, with the pressures 4, 2 and 0. *)
Example c119_case : exists st s, new_static (0, 0) 1 None (Some 5) false true false = Ok st /\
  static_contact (row_world (1 / 4) row_gap) st initial_state = Ok s /\ holds_flag s "converged" true /\ holds_num s "interference" 5 /\
  solved_state (row (1 / 4)) row_gap (1 / 4) 5 5 s /\ holds_grid s "loads" [4; 2; 0] /\
  between (points (row (1 / 4))) (both_bodies (row (1 / 4))) (1 / 4) 2 /\ settled_at (row (1 / 4)) row_gap 5.
Proof.
  destruct (row_solved true true) as (F & Q).
  destruct (c46_interference (row_world (1 / 4) row_gap) (0, 0) 1 5 false true false initial_state _ row_gap [] [] 0 5 eq_refl eq_refl eq_refl) as (s & E & A & _ & B & C); try lra; try discriminate.
  - reflexivity.
  - exists 0. split; [now left|lra].
  - cbn [config row_world] in B, C. rewrite F in B, C. cbn [fst snd negb] in B, C. eexists. exists s.
    split; [reflexivity|]. split; [exact E|]. split; [exact C|]. split; [exact A|].
    destruct (c119_static (row (1 / 4)) true true (row_world (1 / 4) row_gap) (Static (0, 0) 1 false true false None (Some 5) false) initial_state s row_gap [] [] (1 / 4) eq_refl eq_refl (row_well (1 / 4) row_gap eq_refl) eq_refl ltac:(discriminate) E C) as (h & S).
    assert (h = 5). { destruct S as (p & d1 & d2 & d & e & I & _). unfold holds_num in I, A. rewrite I in A. now injection A. } subst h.
    split; [exact S|]. split; [|split; [apply row_between|exact Q]].
    unfold row_gap in B. rewrite (row_touching 0 1 7 5 true true (1 / 4) true true false) in B by (try apply HeightProofs.Rltb_true; try apply HeightProofs.Rltb_false; lra).
    exact B.
Qed.

(** Without a settled solver it is not a solution: on the gaps 5, 11 and 0 a static step with the
    interference 23 and the default tolerance, one part in ten thousand, reports convergence with pressures above 23 and 32
    on the outer points and a gap of more than 5 and 9 left there, although the pressures 18, 0 and 23 would solve the problem without error. *)
Theorem c119_wrong_convergence_refuted : exists st s p e, new_static (0, 0) 1 None (Some 23) false true false = Ok st /\
  let t := / 10 ^ 4 in let g := [5; 11; 0] in
  well_formed (row t) g /\ tol_inner (row t) = Fin t /\ between (points (row t)) (both_bodies (row t)) (1 / 4) 2 /\
  static_contact (row_world t g) st initial_state = Ok s /\ holds_flag s "converged" true /\ holds_num s "interference" 23 /\
  holds_grid s "loads" p /\ 23 < nth 0 p 0 /\ 32 < nth 2 p 0 /\ holds_grid s "gap" e /\ 5 < nth 0 e 0 /\ 9 < nth 2 e 0 /\
  solves_contact (points (row t)) (both_bodies (row t)) g 23 PInf 0 [18; 0; 23].
Proof.
  set (t := / 10 ^ 4). set (g := [5; 11; 0]).
  assert (T1 : HeightModel.Rltb 5 23 = true) by (apply HeightProofs.Rltb_true; lra). assert (T2 : HeightModel.Rltb 11 23 = true) by (apply HeightProofs.Rltb_true; lra).
  assert (T3 : HeightModel.Rltb 0 23 = true) by (apply HeightProofs.Rltb_true; lra).
  set (d := [true; true; true]). pose proof (row_well t g eq_refl) as W.
  destruct (operator_matrix (row t) (total_im (row t)) d (proj1 (contact_usable _ _ W)) eq_refl) as (f & P & M).
  change (List.length (places d)) with 3%nat in M.
  assert (M' : is_matrix 3 (operator f 3) row_matrix).
  { apply (is_matrix_ext _ _ _ _ M). intros i j Hi Hj. change (places d) with [0%nat; 1%nat; 2%nat]. three i Hi; three j Hj; cbn [nth]; apply row_body; lia. }
  assert (Nb : numbers 3 (as_vec [23 - 5; 23 - 11; 23 - 0]) row_b) by (intros i Hi; unfold as_vec, row_b; f_equal; three i Hi; cbn [nth]; lra).
  destruct (c37_wrong_convergence_refuted 4 _ _ ltac:(lia) M' Nb) as (v & x & Bv & Vx & _ & X0 & X2 & G0 & G2).
  assert (F : free_solution (contact_config (row t) true true g) 23 = ([x 0%nat; x 1%nat; x 2%nat], false)).
  { unfold free_solution, g. rewrite (row_touching 5 11 0 23 true true t _ _ _ T1 T2 T3). cbn [solver contact_config gap map select]. unfold solve_domain. fold d. rewrite P. cbn [List.length].
    cbn [max_it_inner row tol_inner least most]. change (Z.to_nat (Z.max 1 (Z.of_nat 3 + 1))) with 4%nat. unfold t. rewrite Bv. cbn [seq map]. rewrite !Vx by lia. reflexivity. }
  destruct (c46_interference (row_world t g) (0, 0) 1 23 false true false initial_state _ g [] [] 0 23 eq_refl eq_refl eq_refl) as (s & E & A & _ & B & C); try lra; try discriminate.
  - reflexivity.
  - exists 0. split; [right; right; now left|lra].
  - cbn [config row_world] in B, C. rewrite F in B, C. cbn [fst snd negb] in B, C.
    destruct (c119_static (row t) true true (row_world t g) (Static (0, 0) 1 false true false None (Some 23) false) initial_state s g [] [] t eq_refl eq_refl W eq_refl ltac:(discriminate) E C) as (h & S).
    assert (h = 23). { destruct S as (p & d1 & d2 & dd & e & I & _). unfold holds_num in I, A. rewrite I in A. now injection A. } subst h.
    assert (Tc : touching (contact_config (row t) true true g) 23 = [true; true; true]) by exact (row_touching 5 11 0 23 true true t true true true T1 T2 T3).
    rewrite Tc in B. cbn [scatter] in B.
    destruct S as (p & d1 & d2 & dd & e & _ & Lp & _ & _ & _ & _ & Ge & _ & Dp & _ & Ee).
    assert (p = [x 0%nat; x 1%nat; x 2%nat]) by (unfold holds_grid in Lp, B; rewrite Lp in B; now injection B). subst p.
    assert (Lo : forall k, (k < 3)%nat -> nth k e 0 = nth k g 0 - 23 + times 3 row_matrix x k).
    { intros k Hk. rewrite (Ee k Hk). f_equal. destruct Dp as (_ & _ & _ & Dp). destruct (Dp k Hk) as (D1 & D2 & ->). rewrite D1, D2. unfold moved_by. rewrite <- total_add.
      change total with sum. apply sum_ext. intros j Hj. rewrite <- (row_body t k j Hk Hj), body_total by reflexivity. unfold both_bodies. three j Hj; cbn [nth]; ring. }
    eexists. exists s, [x 0%nat; x 1%nat; x 2%nat], e. split; [reflexivity|]. cbv zeta. split; [exact W|]. split; [reflexivity|]. split; [apply row_between|]. split; [exact E|]. split; [exact C|]. split; [exact A|].
    split; [exact Lp|]. split; [exact X0|]. split; [exact X2|]. split; [exact Ge|].
    split; [rewrite Lo by lia; unfold row_b in G0; cbn [nth g] in *; lra|]. split; [rewrite Lo by lia; unfold row_b in G2; cbn [nth g] in *; lra|].
    assert (Sm : 0 < / 10 ^ 14) by (apply Rinv_0_lt_compat, pow_lt; lra).
    assert (Lf : forall k, (k < 3)%nat -> left_over 3 (both_bodies (row t)) g 23 [18; 0; 23] k = nth k [0; 17 / 2; 0] 0).
    { intros k Hk. unfold left_over, moved_by. change total with sum. rewrite (sum_ext 3 _ (fun j => row_matrix k j * nth j [18; 0; 23] 0)).
      - three k Hk; unfold row_matrix, g; cbn [sum nth]; lra.
      - intros j Hj. rewrite <- (row_body t k j Hk Hj), body_total by reflexivity. reflexivity. }
    split.
    { split; [reflexivity|]. split.
      { intros k Hk. apply Rle_trans with 0; [lra|]. change (points (row t)) with 3%nat in Hk. three k Hk; cbn [nth]; lra. }
      split; [|discriminate]. intros k Hk. change (points (row t)) with 3%nat in Hk. three k Hk; unfold g; cbn [nth]; lra. }
    exists (fun k => Nat.eqb k 1), (fun _ => false). split; [|split; [discriminate|]].
    { intros k Hk _ K. apply Nat.eqb_eq in K. subst k. rewrite Lf by lia. split; [reflexivity|cbn [nth]; lra]. }
    change (points (row t)) with 3%nat. unfold size. rewrite (total_ext 3 _ (fun _ => 0)); [rewrite total_zero, sqrt_0; lra|].
    intros k Hk. rewrite Lf by exact Hk. destruct (Rlt_dec (nth k g 0) 23); three k Hk; cbn; ring.
Qed.
Print Assumptions c119_wrong_convergence_refuted.
