(** C127: a contact problem has one solution, and converged pressures are close to it. *)
From Coq Require Import String List Bool Arith ZArith Reals Lia Lra.
From Verif Require Import Flt SurfaceModel SolverModel SolverSpec SolverProofs BoundSpec BoundProofs BoundTheorems ConvSpec ConvProofs TouchModel TouchSpec TouchProofs.
From Verif Require Import HeightModel StepModel HeightSpec StepSpec StepTheorems TouchHonest TouchTheorems UniqueSpec UniqueProofs.
Import ListNotations.
Local Open Scope string_scope.
Local Open Scope R_scope.

(** Whatever the gaps, the interference and the maximum pressure: if the influence of the points on each other is positive
    and bounded there are pressures that solve the contact problem exactly, and only one such distribution. *)
Theorem c127_one : forall N C m L g h most, between N C m L -> match most with Fin y => 0 <= y | PInf => True | _ => False end ->
  exists q, exact_contact N C g h most q /\ forall p, exact_contact N C g h most p -> p = q.
Proof.
  intros N C m L g h most B M. destruct (exact_exists N C m L g h most B M) as (q & Q). exists q. split; [exact Q|]. intros p P.
  pose proof (exact_monotone N C m L g B h h most p q (Rle_refl h) ltac:(lra) P Q) as E. rewrite Rminus_eq_0, Rmult_0_l in E.
  pose proof (between_pos N C m L B) as Hm. pose proof (Rle_0_sqr (apart N q p)) as S. unfold Rsqr in S.
  assert (Z : apart N q p * apart N q p = 0) by nra. unfold apart in Z. rewrite size_length2, length2_sq in Z.
  pose proof (proj1 P) as Lp. pose proof (proj1 Q) as Lq. apply (nth_ext p q 0 0); [congruence|]. intros k Hk.
  pose proof (sq_zero N (fun k => nth k q 0 - nth k p 0) Z k ltac:(lia)) as D. cbn beta in D. lra.
Qed.
Print Assumptions c127_one.

Lemma apart_load N p q : total N (fun k => nth k q 0) - total N (fun k => nth k p 0) <= sqrt (INR N) * apart N q p.
Proof.
  pose proof (dot_le N (fun _ => 1) (fun k => nth k q 0 - nth k p 0)) as D. unfold apart. rewrite size_length2.
  assert (L2 : length2 N (fun _ => 1) = sqrt (INR N)).
  { unfold length2. f_equal. clear. induction N as [|n IH]; [reflexivity|]. cbn [sum]. rewrite IH, S_INR. lra. }
  rewrite L2 in D. rewrite (sum_ext N _ (fun k => nth k q 0 + (-1) * nth k p 0)), sum_plus, sum_mult in D by (intros; ring).
  change (total N) with (sum N). lra.
Qed.
Lemma apart_pos N p q : 0 <= apart N p q.
Proof. apply sqrt_pos. Qed.

(** With coefficients that are not negative the exact pressures depend continuously on the interference, the total load never
    falls with it, and it grows as soon as some point carries a pressure below the maximum; the same total load means the same pressures. *)
Theorem c127_load : forall N C m L g h h' most p q, between N C m L -> (forall i j, (i < N)%nat -> (j < N)%nat -> 0 <= C i j) -> h <= h' ->
  exact_contact N C g h most p -> exact_contact N C g h' most q ->
  total N (fun k => nth k p 0) <= total N (fun k => nth k q 0) /\
  apart N q p <= (h' - h) * sqrt (INR N) / m /\
  (total N (fun k => nth k p 0) = total N (fun k => nth k q 0) -> p = q) /\
  (forall k, h < h' -> (k < N)%nat -> (0 < nth k p 0 /\ most <> Fin (nth k p 0)) \/ (0 < nth k q 0 /\ most <> Fin (nth k q 0)) ->
     total N (fun k => nth k p 0) < total N (fun k => nth k q 0)).
Proof.
  intros N C m L g h h' most p q B Cp Hh P Q. pose proof (between_pos N C m L B) as Hm.
  pose proof (exact_monotone N C m L g B h h' most p q Hh (fun _ => Cp) P Q) as E.
  pose proof (apart_load N p q) as A. pose proof (apart_pos N q p) as Ap. set (a := apart N q p) in *.
  assert (Same : a * a <= 0 -> p = q).
  { intros Z. pose proof (Rle_0_sqr a) as S. unfold Rsqr in S. assert (Z' : a * a = 0) by lra. unfold a, apart in Z'. rewrite size_length2, length2_sq in Z'.
    pose proof (proj1 P) as Lp. pose proof (proj1 Q) as Lq. apply (nth_ext p q 0 0); [congruence|]. intros k Hk.
    pose proof (sq_zero N (fun k => nth k q 0 - nth k p 0) Z' k ltac:(lia)) as D. cbn beta in D. lra. }
  set (tp := total N (fun k => nth k p 0)) in *. set (tq := total N (fun k => nth k q 0)) in *.
  assert (T : tp = tq -> p = q).
  { intros Et. apply Same. rewrite Et, Rminus_eq_0, Rmult_0_r in E. nra. }
  assert (Le : tp <= tq).
  { destruct (Rle_dec tp tq) as [H|H]; [exact H|]. assert (a * a <= 0) by nra. assert (p = q) by (apply Same; assumption). subst q. unfold tp, tq. lra. }
  split; [exact Le|]. split.
  - apply Rmult_le_reg_l with m; [exact Hm|]. replace (m * ((h' - h) * sqrt (INR N) / m)) with ((h' - h) * sqrt (INR N)) by (field; lra).
    assert (E' : m * (a * a) <= (h' - h) * (sqrt (INR N) * a)) by (apply (Rle_trans _ _ _ E), Rmult_le_compat_l; lra).
    destruct (Req_dec a 0) as [->|Na]; [rewrite Rmult_0_r; apply Rmult_le_pos; [lra|apply sqrt_pos]|]. apply Rmult_le_reg_r with a; [lra|]. nra.
  - split; [exact T|]. intros k Hlt Hk Hs. destruct (Req_dec tp tq) as [Et|Nt]; [|lra]. exfalso. specialize (T Et). subst q.
    assert (Hs' : 0 < nth k p 0 /\ most <> Fin (nth k p 0)) by (destruct Hs; assumption). destruct Hs' as (S1 & S2).
    destruct P as (_ & P). destruct Q as (_ & Q). destruct (P k Hk) as (P1 & P2). destruct (Q k Hk) as (Q1 & Q2).
    destruct (Rle_dec h (nth k g 0)) as [G|G]; [specialize (P1 G); lra|]. destruct (P2 ltac:(lra)) as (_ & _ & P3 & _). destruct (Q2 ltac:(lra)) as (_ & _ & _ & Q4).
    unfold left_over in P3, Q4. destruct (Rlt_dec 0 (nth k g 0 - h + moved_by N C p k)) as [Z|Z]; [specialize (P3 Z); lra|]. apply S2, Q4. lra.
Qed.
Print Assumptions c127_load.

(** Pressures of a converged and settled solver: how far they can be from the solution of the theory. The bound is the
    tolerance times the size of the pressures, with the constants of the influence, and a part for the slack of 1e-14 that the solver allows at its bounds. *)
Theorem c127_near : forall c g h t p m L q, well_formed c g -> contact_solution c g h t p ->
  between (points c) (both_bodies c) m L -> settled_at c g h -> exact_contact (points c) (both_bodies c) g h (most c) q ->
  apart (points c) p q <=
    (L * (2 + L / m) * (t * size (points c) (fun k => nth k p 0)) + / 10 ^ 14 * sqrt (INR (points c))) / m +
    sqrt (/ 10 ^ 14 * slack (points c) (both_bodies c) g h (most c) q / m).
Proof.
  intros c g h t p m L q W (_ & S) B St Q. specialize (S m L B St). pose proof (between_pos _ _ _ _ B) as Hm.
  assert (My : match most c with Fin y => 0 <= y | PInf => True | _ => False end) by (destruct W as (_ & _ & _ & _ & _ & _ & _ & My); exact My).
  set (eps := L * (2 + L / m) * (t * size (points c) (fun k => nth k p 0))) in *.
  pose proof (near_energy _ _ _ _ g B h (most c) eps p q My S Q) as E.
  assert (Dp : 0 < / 10 ^ 14) by (apply Rinv_0_lt_compat, pow_lt; lra). pose proof (sqrt_pos (INR (points c))) as Sp.
  assert (Ep : 0 <= eps).
  { destruct S as (_ & ze & fu & _ & _ & Se). refine (Rle_trans _ _ _ _ Se). apply sqrt_pos. }
  assert (Sl : 0 <= slack (points c) (both_bodies c) g h (most c) q).
  { unfold slack. change (total (points c)) with (sum (points c)). apply sum_nonneg. intros k _. destruct (Rlt_dec _ _); [|lra].
    pose proof (Rmax_l 0 (left_over (points c) (both_bodies c) g h q k)). pose proof (Rmax_l 0 (- left_over (points c) (both_bodies c) g h q k)).
    destruct (most c); try lra. apply Rplus_le_le_0_compat; [assumption|]. apply Rmult_le_pos; assumption. }
  set (d := / 10 ^ 14) in *. assert (De : 0 <= eps + d * sqrt (INR (points c))) by nra.
  rewrite <- (Rmax_right 0 _ De). apply quadratic_bound; [exact Hm|apply apart_pos|nra|exact E].
Qed.
Print Assumptions c127_near.

(** A static step that reports convergence, for an influence that is positive and bounded: there is one solution of the
    theory at the reported interference, and if the solver had settled the loads in the state are this close to it. *)
Theorem c127_static : forall c uc cl w st prev s g p1 p2 t m L,
  gap_at w (off_set st) = Ok (g, p1, p2) -> config w (adhesion st) g = contact_config c uc cl g ->
  well_formed c g -> tol_inner c = Fin t -> (load_controlled st = true -> In 0 g /\ stays_above w) ->
  between (points c) (both_bodies c) m L ->
  static_contact w st prev = Ok s -> holds_flag s "converged" true ->
  exists h p q, holds_num s "interference" h /\ holds_grid s "loads" p /\
    exact_contact (points c) (both_bodies c) g h (most c) q /\ (forall q', exact_contact (points c) (both_bodies c) g h (most c) q' -> q' = q) /\
    (settled_at c g h -> apart (points c) p q <=
       (L * (2 + L / m) * (t * size (points c) (fun k => nth k p 0)) + / 10 ^ 14 * sqrt (INR (points c))) / m +
       sqrt (/ 10 ^ 14 * slack (points c) (both_bodies c) g h (most c) q / m)).
Proof.
  intros c uc cl w st prev s g p1 p2 t m L G K W T Lc B H Cv.
  destruct (c119_static c uc cl w st prev s g p1 p2 t G K W T Lc H Cv) as (h & p & d1 & d2 & d & e & I1 & I2 & _ & _ & _ & _ & _ & Sc & _).
  assert (My : match most c with Fin y => 0 <= y | PInf => True | _ => False end) by (destruct W as (_ & _ & _ & _ & _ & _ & _ & My); exact My).
  destruct (c127_one _ _ m L g h (most c) B My) as (q & Q & U). exists h, p, q.
  split; [exact I1|]. split; [exact I2|]. split; [exact Q|]. split; [exact U|]. intros St. apply c127_near; auto.
Qed.
Print Assumptions c127_static.

(** Three points in a row: with the gaps 0, 1 and 7 the pressures 4, 2 and 0 are the solution at the interference 5, and 14/3, 8/3 and 0 at 6. *)
Lemma row_moved t p k : (k < 3)%nat -> moved_by 3 (both_bodies (row t)) p k = times 3 row_matrix (fun l => nth l p 0) k.
Proof.
  intros Hk. rewrite moved_times. apply sum_ext. intros j Hj. rewrite <- (row_body t k j Hk Hj), body_total by reflexivity. reflexivity.
Qed.
Example c127_case : forall t, between 3 (both_bodies (row t)) (1 / 4) 2 /\ (forall i j, (i < 3)%nat -> (j < 3)%nat -> 0 <= both_bodies (row t) i j) /\
  exact_contact 3 (both_bodies (row t)) row_gap 5 PInf [4; 2; 0] /\ exact_contact 3 (both_bodies (row t)) row_gap 6 PInf [14 / 3; 8 / 3; 0].
Proof.
  intros t. split; [apply row_between|]. split.
  - intros i j Hi Hj. rewrite <- body_total, row_body by (try reflexivity; assumption). three i Hi; three j Hj; unfold row_matrix; cbn [nth]; lra.
  - split; (split; [reflexivity|]; intros k Hk; unfold left_over; rewrite row_moved by exact Hk; unfold times; three k Hk; unfold row_matrix, row_gap; cbn [sum nth];
      (split; [intros; lra|]; intros; split; [lra|]; split; [discriminate|]; split; intros; exfalso; lra)).
Qed.

(** Without a positive influence there can be more than one: two points that move each other as much as themselves. *)
Theorem c127_same_points_refuted : exists C g h p q, (forall i j, 0 <= C i j) /\
  exact_contact 2 C g h PInf p /\ exact_contact 2 C g h PInf q /\ p <> q.
Proof.
  exists (fun _ _ => 1), [0; 0], 1, [1; 0], [0; 1]. split; [intros; lra|]. split; [|split].
  1, 2: split; [reflexivity|]; intros k Hk; unfold left_over, moved_by; cbn [total]; two k Hk; cbn [nth]; (split; [intros; lra|]; intros; split; [lra|]; split; [discriminate|]; split; intros; exfalso; lra).
  intros E. injection E as E. lra.
Qed.
Print Assumptions c127_same_points_refuted.
