From Coq Require Import Bool Arith Reals Lia Lra.
From Verif Require Import Py SurfaceModel SurfaceProofs SolverProofs TdmaModel TdmaSpec.
Local Open Scope R_scope.

(** The rows that follow row k, up to row e. *)
Definition rest (k e : nat) (l d u b x : arr) : Prop :=
  forall i, (k < i <= e)%nat -> l i * x (i - 1)%nat + d i * x i + (if Nat.eqb i e then 0 else u i * x (i + 1)%nat) = b i.
Definition system (m k : nat) (dk uk bk : R) (l d u b x : arr) : Prop :=
  dk * x k + (match m with O => 0 | S _ => uk * x (S k) end) = bk /\ rest k (k + m) l d u b x.

Lemma rest_step k m l d u b x : rest k (k + S m) l d u b x <->
  (l (S k) * x k + d (S k) * x (S k) + (match m with O => 0 | S _ => u (S k) * x (S (S k)) end) = b (S k)) /\ rest (S k) (S k + m) l d u b x.
Proof.
  unfold rest. replace (S k + m)%nat with (k + S m)%nat by lia. split.
  - intros H. split; [|intros i Hi; apply H; lia]. specialize (H (S k) ltac:(lia)). replace (S k - 1)%nat with k in H by lia.
    replace (S k + 1)%nat with (S (S k)) in H by lia. destruct (Nat.eqb_spec (S k) (k + S m)), m; try lia; exact H.
  - intros [H1 H2] i Hi. destruct (Nat.eq_dec i (S k)) as [->|]; [|apply H2; lia]. replace (S k - 1)%nat with k by lia.
    replace (S k + 1)%nat with (S (S k)) by lia. destruct (Nat.eqb_spec (S k) (k + S m)), m; try lia; exact H1.
Qed.
Lemma rest_ext k e l d u b x y : (forall i, (k <= i)%nat -> x i = y i) -> rest k e l d u b x -> rest k e l d u b y.
Proof. intros E H i Hi. specialize (H i Hi). rewrite <- !E by lia. exact H. Qed.

Lemma Rabs_zero l dk : Rabs l <= Rabs dk -> dk = 0 -> l = 0.
Proof. intros H ->. rewrite Rabs_R0 in H. pose proof (Rabs_pos l). destruct (Req_dec l 0); [assumption|]. apply Rabs_no_R0 in H1. lra. Qed.

(** A result with all pivots is the solution. *)
Lemma eliminate_ok m : forall k dk uk bk l d u b x,
  eliminate m k dk uk bk l d u b = (x, true) -> system m k dk uk bk l d u b x.
Proof.
  induction m as [|m IH]; intros k dk uk bk l d u b x H; cbn [eliminate] in H.
  - destruct (Reqb dk 0) eqn:E; [discriminate|]. apply Reqb_false in E. injection H as <-. split; [field; exact E|]. intros i Hi. lia.
  - set (u' := match m with O => 0 | S _ => u (S k) end) in *.
    destruct (Rleb (Rabs (l (S k))) (Rabs dk)) eqn:P.
    + destruct (Reqb dk 0) eqn:E; [discriminate|]. apply Reqb_false in E.
      destruct (eliminate m (S k) _ u' _ l d u b) as [y ok] eqn:R. injection H as <- ->. apply IH in R. destruct R as [R1 R2].
      split; [rewrite Nat.eqb_refl; destruct (Nat.eqb_spec (S k) k); [lia|]; field; exact E|].
      apply rest_step. split.
      * rewrite Nat.eqb_refl. destruct (Nat.eqb_spec (S k) k); [lia|]. destruct (Nat.eqb_spec (S (S k)) k); [lia|].
        unfold u' in R1. destruct m; apply (Rmult_eq_reg_r dk); try exact E;
          [replace ((l (S k) * ((bk - uk * y (S k)) / dk) + d (S k) * y (S k) + 0) * dk) with (l (S k) * (bk - uk * y (S k)) + d (S k) * y (S k) * dk) by (field; exact E)
          |replace ((l (S k) * ((bk - uk * y (S k)) / dk) + d (S k) * y (S k) + u (S k) * y (S (S k))) * dk) with (l (S k) * (bk - uk * y (S k)) + d (S k) * y (S k) * dk + u (S k) * y (S (S k)) * dk) by (field; exact E)];
        apply (f_equal (fun t => t * dk)) in R1;
        [replace (((d (S k) - l (S k) / dk * uk) * y (S k) + 0) * dk) with (d (S k) * y (S k) * dk - l (S k) * uk * y (S k)) in R1 by (field; exact E)
        |replace (((d (S k) - l (S k) / dk * uk) * y (S k) + u (S k) * y (S (S k))) * dk) with (d (S k) * y (S k) * dk - l (S k) * uk * y (S k) + u (S k) * y (S (S k)) * dk) in R1 by (field; exact E)];
        replace ((b (S k) - l (S k) / dk * bk) * dk) with (b (S k) * dk - l (S k) * bk) in R1 by (field; exact E); lra.
      * apply (rest_ext _ _ _ _ _ _ y); [|exact R2]. intros i Hi. destruct (Nat.eqb_spec i k); [lia|reflexivity].
    + apply Rleb_false in P. assert (L : l (S k) <> 0) by (intros Z; rewrite Z, Rabs_R0 in P; pose proof (Rabs_pos dk); lra).
      destruct (eliminate m (S k) _ (- (dk / l (S k)) * u') _ l d u b) as [y ok] eqn:R. injection H as <- ->. apply IH in R. destruct R as [R1 R2].
      assert (X0 : forall t, (if Nat.eqb k k then t else y k) = t) by (intros; rewrite Nat.eqb_refl; reflexivity).
      split.
      * rewrite X0. destruct (Nat.eqb_spec (S k) k); [lia|]. apply (Rmult_eq_reg_r (l (S k))); [|exact L].
        apply (f_equal (fun t => t * l (S k))) in R1.
        replace ((bk - dk / l (S k) * b (S k)) * l (S k)) with (bk * l (S k) - dk * b (S k)) in R1 by (field; exact L).
        replace ((dk * ((b (S k) - d (S k) * y (S k) - u' * y (S (S k))) / l (S k)) + uk * y (S k)) * l (S k))
          with (dk * (b (S k) - d (S k) * y (S k) - u' * y (S (S k))) + uk * y (S k) * l (S k)) by (field; exact L).
        unfold u' in *. destruct m.
        -- replace (((uk - dk / l (S k) * d (S k)) * y (S k) + 0) * l (S k)) with (uk * y (S k) * l (S k) - dk * d (S k) * y (S k)) in R1 by (field; exact L). lra.
        -- replace (((uk - dk / l (S k) * d (S k)) * y (S k) + - (dk / l (S k)) * u (S k) * y (S (S k))) * l (S k))
             with (uk * y (S k) * l (S k) - dk * d (S k) * y (S k) - dk * u (S k) * y (S (S k))) in R1 by (field; exact L). lra.
      * apply rest_step. split.
        -- rewrite X0. destruct (Nat.eqb_spec (S k) k); [lia|]. destruct (Nat.eqb_spec (S (S k)) k); [lia|]. unfold u'. destruct m; field; exact L.
        -- apply (rest_ext _ _ _ _ _ _ y); [|exact R2]. intros i Hi. destruct (Nat.eqb_spec i k); [lia|reflexivity].
Qed.

(** Without all pivots the matrix is singular. *)
Lemma eliminate_singular m : forall k dk uk bk l d u b x,
  eliminate m k dk uk bk l d u b = (x, false) ->
  exists y, system m k dk uk 0 l d u (fun _ => 0) y /\ exists i, (k <= i <= k + m)%nat /\ y i <> 0.
Proof.
  induction m as [|m IH]; intros k dk uk bk l d u b x H; cbn [eliminate] in H.
  - destruct (Reqb dk 0) eqn:E; [|discriminate]. apply Reqb_true in E. exists (fun _ => 1). split.
    + split; [lra|]. intros i Hi. lia.
    + exists k. split; [lia|lra].
  - set (u' := match m with O => 0 | S _ => u (S k) end) in *.
    destruct (Rleb (Rabs (l (S k))) (Rabs dk)) eqn:P.
    + apply Rleb_true in P. destruct (Reqb dk 0) eqn:E.
      * apply Reqb_true in E. pose proof (Rabs_zero _ _ P E) as L. exists (fun i => if Nat.eqb i k then 1 else 0). split.
        -- split; [rewrite Nat.eqb_refl; destruct (Nat.eqb_spec (S k) k); [lia|lra]|]. intros i Hi.
           destruct (Nat.eqb_spec i k); [lia|]. destruct (Nat.eqb_spec (i + 1) k); [lia|].
           destruct (Nat.eqb_spec (i - 1) k).
           ++ replace i with (S k) by lia. rewrite L. destruct (Nat.eqb _ _); lra.
           ++ destruct (Nat.eqb _ _); lra.
        -- exists k. rewrite Nat.eqb_refl. split; [lia|lra].
      * apply Reqb_false in E. destruct (eliminate m (S k) _ u' _ l d u b) as [y0 ok] eqn:R. injection H as _ ->. apply IH in R.
        destruct R as (y & [R1 R2] & i & Hi & N). exists (fun j => if Nat.eqb j k then - uk * y (S k) / dk else y j). split; [split|].
        -- rewrite Nat.eqb_refl. destruct (Nat.eqb_spec (S k) k); [lia|]. field. exact E.
        -- apply rest_step. split.
           ++ rewrite Nat.eqb_refl. destruct (Nat.eqb_spec (S k) k); [lia|]. destruct (Nat.eqb_spec (S (S k)) k); [lia|].
              etransitivity; [|exact R1]. unfold u'. destruct m; field; exact E.
           ++ apply (rest_ext _ _ _ _ _ _ y); [|exact R2]. intros j Hj. destruct (Nat.eqb_spec j k); [lia|reflexivity].
        -- exists i. split; [lia|]. destruct (Nat.eqb_spec i k); [lia|exact N].
    + apply Rleb_false in P. assert (L : l (S k) <> 0) by (intros Z; rewrite Z, Rabs_R0 in P; pose proof (Rabs_pos dk); lra).
      destruct (eliminate m (S k) _ (- (dk / l (S k)) * u') _ l d u b) as [y0 ok] eqn:R. injection H as _ ->. apply IH in R.
      destruct R as (y & [R1 R2] & i & Hi & N). exists (fun j => if Nat.eqb j k then (- d (S k) * y (S k) - u' * y (S (S k))) / l (S k) else y j). split; [split|].
      * rewrite Nat.eqb_refl. destruct (Nat.eqb_spec (S k) k); [lia|]. etransitivity; [|exact R1]. unfold u'. destruct m; field; exact L.
      * apply rest_step. split.
        -- rewrite Nat.eqb_refl. destruct (Nat.eqb_spec (S k) k); [lia|]. destruct (Nat.eqb_spec (S (S k)) k); [lia|].
           unfold u'. destruct m; field; exact L.
        -- apply (rest_ext _ _ _ _ _ _ y); [|exact R2]. intros j Hj. destruct (Nat.eqb_spec j k); [lia|reflexivity].
      * exists i. split; [lia|]. destruct (Nat.eqb_spec i k); [lia|exact N].
Qed.

Lemma system_rows m l d u b x : system m 0 (d 0%nat) (u 0%nat) (b 0%nat) l d u b x <->
  solves (S m) (fun x => tri_row (S m) l d u x) b x.
Proof.
  unfold system, rest, solves, tri_row. split.
  - intros [H1 H2] i Hi. destruct (Nat.eqb_spec i 0).
    + subst i. destruct (Nat.eqb_spec (0 + 1) (S m)); destruct m; try lia; cbn [Nat.add]; lra.
    + specialize (H2 i ltac:(lia)). destruct (Nat.eqb_spec i (0 + m)), (Nat.eqb_spec (i + 1) (S m)); try lia; lra.
  - intros H. split.
    + specialize (H 0%nat ltac:(lia)). cbn [Nat.eqb] in H. destruct (Nat.eqb_spec (0 + 1) (S m)); destruct m; try lia; cbn [Nat.add] in H; lra.
    + intros i Hi. specialize (H i ltac:(lia)). destruct (Nat.eqb_spec i 0); [lia|].
      destruct (Nat.eqb_spec i (0 + m)), (Nat.eqb_spec (i + 1) (S m)); try lia; lra.
Qed.

Lemma gtsv_ok n l d u b x : gtsv n l d u b = (x, true) -> solves n (fun x => tri_row n l d u x) b x.
Proof.
  destruct n as [|m]; [intros _ i Hi; lia|]. cbn [gtsv]. intros H. apply system_rows. apply eliminate_ok. exact H.
Qed.
Lemma gtsv_singular n l d u b x : gtsv n l d u b = (x, false) -> ~ regular n (fun x => tri_row n l d u x).
Proof.
  destruct n as [|m]; [discriminate|]. cbn [gtsv]. intros H Rg. apply eliminate_singular in H.
  destruct H as (y & S & i & Hi & N). apply N. apply (Rg y); [|lia].
  apply (system_rows m l d u (fun _ => 0) y). exact S.
Qed.
Lemma gtsv_regular n l d u b : regular n (fun x => tri_row n l d u x) ->
  exists x, gtsv n l d u b = (x, true) /\ solves n (fun x => tri_row n l d u x) b x.
Proof.
  intros Rg. destruct (gtsv n l d u b) as [x [|]] eqn:E.
  - exists x. split; [reflexivity|]. apply gtsv_ok. exact E.
  - exfalso. exact (gtsv_singular _ _ _ _ _ _ E Rg).
Qed.
Lemma tri_row_linear n l d u x y c i : tri_row n l d u (fun i => x i - y i * c) i = tri_row n l d u x i - tri_row n l d u y i * c.
Proof. unfold tri_row. destruct (Nat.eqb i 0), (Nat.eqb (i + 1) n); ring. Qed.
Lemma cyclic_row_linear n l d u x y i : cyclic_row n l d u (fun i => x i - y i) i = cyclic_row n l d u x i - cyclic_row n l d u y i.
Proof. unfold cyclic_row, tri_row. destruct (Nat.eqb i 0), (Nat.eqb (i + 1) n); ring. Qed.
Lemma regular_unique n l d u b x y : regular n (fun x => cyclic_row n l d u x) ->
  solves n (fun x => cyclic_row n l d u x) b x -> solves n (fun x => cyclic_row n l d u x) b y -> forall i, (i < n)%nat -> x i = y i.
Proof.
  intros Rg X Y i Hi. assert (x i - y i = 0); [|lra]. apply (Rg (fun i => x i - y i)); [|exact Hi].
  intros j Hj. rewrite cyclic_row_linear, (X j Hj), (Y j Hj). ring.
Qed.

(** The rank one update: the cyclic matrix is the modified one plus u v. *)
Lemma cyclic_split n l d u x i : (2 <= n)%nat -> (i < n)%nat ->
  let gamma := if Req_EM_T (d 0%nat) 0 then 1 else - d 0%nat in
  cyclic_row n l d u x i = tri_row n l (modified n l d u) u x i +
    (if Nat.eqb i 0 then gamma else if Nat.eqb (i + 1) n then u (n - 1)%nat else 0) * (x 0%nat + x (n - 1)%nat * l 0%nat / gamma).
Proof.
  intros Hn Hi gamma. assert (G : gamma <> 0) by (unfold gamma; destruct (Req_EM_T (d 0%nat) 0); lra).
  unfold cyclic_row, tri_row, modified. fold gamma.
  destruct (Nat.eqb_spec i 0), (Nat.eqb_spec (i + 1) n); try lia.
  - subst i. field. exact G.
  - replace (n - 1)%nat with i by lia. field. exact G.
  - field. exact G.
Qed.

Lemma tri_row_ext n l d d' u x i : d i = d' i -> tri_row n l d u x i = tri_row n l d' u x i.
Proof. intros E. unfold tri_row. rewrite E. reflexivity. Qed.

(** An index where the absolute value is largest. *)
Lemma largest (n : nat) (x : arr) : (0 < n)%nat -> exists k, (k < n)%nat /\ forall i, (i < n)%nat -> Rabs (x i) <= Rabs (x k).
Proof.
  induction n as [|n IH]; intros H; [lia|]. destruct n as [|n].
  - exists 0%nat. split; [lia|]. intros i Hi. replace i with 0%nat by lia. lra.
  - destruct (IH ltac:(lia)) as (k & Hk & M). destruct (Rle_or_lt (Rabs (x (S n))) (Rabs (x k))).
    + exists k. split; [lia|]. intros i Hi. destruct (Nat.eq_dec i (S n)); [subst; assumption|apply M; lia].
    + exists (S n). split; [lia|]. intros i Hi. destruct (Nat.eq_dec i (S n)); [subst; lra|]. specialize (M i ltac:(lia)). lra.
Qed.
Lemma bounded_terms (a b c xa xb xc t : R) : 0 <= t -> Rabs xa <= t -> Rabs xc <= t -> Rabs xb = t ->
  Rabs a + Rabs c < Rabs b -> a * xa + b * xb + c * xc = 0 -> t = 0.
Proof.
  intros T A C B D E. destruct (Req_dec t 0); [assumption|]. exfalso.
  assert (Rabs (b * xb) <= (Rabs a + Rabs c) * t).
  { replace (b * xb) with (- (a * xa + c * xc)) by lra. rewrite Rabs_Ropp. eapply Rle_trans; [apply Rabs_triang|]. rewrite !Rabs_mult.
    assert (Rabs a * Rabs xa <= Rabs a * t) by (apply Rmult_le_compat_l; [apply Rabs_pos|assumption]).
    assert (Rabs c * Rabs xc <= Rabs c * t) by (apply Rmult_le_compat_l; [apply Rabs_pos|assumption]). lra. }
  rewrite Rabs_mult, B in H0. nra.
Qed.
Lemma dominant_cyclic n l d u : (2 <= n)%nat -> (forall i, (i < n)%nat -> Rabs (l i) + Rabs (u i) < Rabs (d i)) ->
  regular n (fun x => cyclic_row n l d u x).
Proof.
  intros Hn D x H i Hi. destruct (largest n x ltac:(lia)) as (k & Hk & M). specialize (H k Hk). cbn beta in H.
  assert (Z : Rabs (x k) = 0).
  { unfold cyclic_row, tri_row in H.
    destruct (Nat.eqb_spec k 0), (Nat.eqb_spec (k + 1) n); try lia.
    - subst k. apply (bounded_terms (l 0%nat) (d 0%nat) (u 0%nat) (x (n - 1)%nat) (x 0%nat) (x (0 + 1)%nat)); auto using Rabs_pos; try (apply M; lia); try (apply D; lia). lra.
    - replace (n - 1)%nat with k in H by lia. apply (bounded_terms (l k) (d k) (u k) (x (k - 1)%nat) (x k) (x 0%nat)); auto using Rabs_pos; try (apply M; lia); try (apply D; lia). lra.
    - apply (bounded_terms (l k) (d k) (u k) (x (k - 1)%nat) (x k) (x (k + 1)%nat)); auto using Rabs_pos; try (apply M; lia); try (apply D; lia). lra. }
  specialize (M i Hi). rewrite Z in M. destruct (Req_dec (x i) 0); [assumption|]. apply Rabs_pos_lt in H0. lra.
Qed.
Lemma dominant_tri n l d u : (1 <= n)%nat ->
  (forall i, (i < n)%nat -> (if Nat.eqb i 0 then 0 else Rabs (l i)) + (if Nat.eqb (i + 1) n then 0 else Rabs (u i)) < Rabs (d i)) ->
  regular n (fun x => tri_row n l d u x).
Proof.
  intros Hn D x H i Hi. destruct (largest n x ltac:(lia)) as (k & Hk & M). specialize (H k Hk). cbn beta in H.
  assert (Z : Rabs (x k) = 0).
  { unfold tri_row in H. specialize (D k Hk).
    apply (bounded_terms (if Nat.eqb k 0 then 0 else l k) (d k) (if Nat.eqb (k + 1) n then 0 else u k) (x (k - 1)%nat) (x k) (if Nat.eqb (k + 1) n then 0 else x (k + 1)%nat)); auto using Rabs_pos.
    - apply M. lia.
    - destruct (Nat.eqb_spec (k + 1) n); [rewrite Rabs_R0; apply Rabs_pos|apply M; lia].
    - destruct (Nat.eqb k 0), (Nat.eqb (k + 1) n); rewrite ?Rabs_R0; lra.
    - destruct (Nat.eqb k 0), (Nat.eqb (k + 1) n); lra. }
  specialize (M i Hi). rewrite Z in M. destruct (Req_dec (x i) 0); [assumption|]. apply Rabs_pos_lt in H0. lra.
Qed.
Lemma dominant_modified n l d u : (2 <= n)%nat -> (forall i, (i < n)%nat -> Rabs (l i) + Rabs (u i) < Rabs (d i)) ->
  regular n (fun x => tri_row n l (modified n l d u) u x).
Proof.
  intros Hn D. apply dominant_tri; [lia|]. intros i Hi.
  assert (D0 : d 0%nat <> 0). { intros E. specialize (D 0%nat ltac:(lia)). rewrite E, Rabs_R0 in D. pose proof (Rabs_pos (l 0%nat)). pose proof (Rabs_pos (u 0%nat)). lra. }
  unfold modified. destruct (Req_EM_T (d 0%nat) 0); [contradiction|]. pose proof (D i Hi) as Di.
  pose proof (Rabs_pos (l i)). pose proof (Rabs_pos (u i)).
  destruct (Nat.eqb_spec i 0), (Nat.eqb_spec (i + 1) n); try lia.
  - subst i. replace (d 0%nat - - d 0%nat - 0) with (2 * d 0%nat) by ring. rewrite Rabs_mult, (Rabs_pos_eq 2) by lra. lra.
  - replace (n - 1)%nat with i by lia. replace (d i - 0 - l 0%nat * u i / - d 0%nat) with (d i + l 0%nat * u i / d 0%nat) by (field; exact D0).
    assert (A : Rabs (l 0%nat * u i / d 0%nat) <= Rabs (u i)).
    { unfold Rdiv. rewrite !Rabs_mult, Rabs_inv. specialize (D 0%nat ltac:(lia)). pose proof (Rabs_pos (u 0%nat)). pose proof (Rabs_pos_lt _ D0).
      apply (Rmult_le_reg_r (Rabs (d 0%nat))); [assumption|].
      replace (Rabs (l 0%nat) * Rabs (u i) * / Rabs (d 0%nat) * Rabs (d 0%nat)) with (Rabs (l 0%nat) * Rabs (u i)) by (field; lra). nra. }
    pose proof (Rabs_triang_inv (d i) (- (l 0%nat * u i / d 0%nat))) as T. rewrite Rabs_Ropp in T.
    replace (d i - - (l 0%nat * u i / d 0%nat)) with (d i + l 0%nat * u i / d 0%nat) in T by ring. lra.
  - replace (d i - 0 - 0) with (d i) by ring. lra.
Qed.
