(** C57: summits with a filter. *)
From Coq Require Import Reals List Bool Arith ZArith String Lia Lra.
From Verif Require Import Py SurfaceModel SurfaceProofs Flt SolverProofs RoughModel RoughSpec RoughProofs RoughTheorems SummitTheorems LowPassSpec LowPassTheorems.
Import ListNotations.
Local Open Scope R_scope.

Lemma summits_same p f four i j : nrows f = nrows p -> ncols f = ncols p -> b_at (summits_of p f four) i j = b_at (summits_of f f four) i j.
Proof. intros R C. unfold summits_of. cbn [b_at]. rewrite R, C. reflexivity. Qed.
Lemma summit_same p f four z i j : nrows f = nrows p -> ncols f = ncols p -> summit f four z i j <-> summit p four z i j.
Proof. intros R C. unfold summit, interior. rewrite R, C. reflexivity. Qed.

(** With a filter and a grid spacing, without a mask, exactly the interior points at which the filtered heights are higher than at all of the neighbours are marked; the profile is not
    changed. The filtered heights are the sums of C129. *)
Theorem c57_filtered : forall w p cut g four z, g <> 0 -> (2 <= nrows p)%nat -> (2 <= ncols p)%nat -> heights_are p everywhere z ->
  exists s, find_summits w p (Some g) NoMask four (Some cut) = (p, Ok s) /\ b_rows s = nrows p /\ b_cols s = ncols p /\
    let u := fun i j => sum_to (nrows p) (fun a => sum_to (ncols p) (fun b => z a b * actual (j1 w) (cut * g) (nrows p) (ncols p) i j a b)) in
    forall i j, b_at s i j = true <-> summit p four u i j.
Proof.
  intros w p cut g four z G R C H. destruct (c129_sum w p cut g z G H) as (f & E & Rf & Cf & V). exists (summits_of p f four).
  split; [unfold find_summits; cbn [norm_mask]; rewrite E; reflexivity|]. split; [cbn [b_rows summits_of]; lia|]. split; [cbn [b_cols summits_of]; lia|]. intros u i j.
  assert (Hu : heights_are f everywhere u) by (intros a b _ _ _; apply V).
  apply (iff_trans (B := summit f four u i j)); [|apply summit_same; assumption].
  apply (iff_trans (B := b_at (summits_of f f four) i j = true)); [|apply summit_test, Hu].
  rewrite <- (summits_same p f four i j Rf Cf). reflexivity.
Qed.
Print Assumptions c57_filtered.
(** Without a grid spacing and a mask a filter is an error, and so are the parameters found from summits. *)
Theorem c57_filter_spacing : forall w p cut four curved name, In (lower name) ["sds"; "sz"; "ssc"]%string ->
  find_summits w p None NoMask four (Some cut) = (p, Err ValueError) /\
  snd (roughness w (OfArray p) (Name name) None NoMask curved true (Some cut) four) = Err ValueError.
Proof.
  intros w p cut four curved name I. assert (F : find_summits w p None NoMask four (Some cut) = (p, Err ValueError)) by reflexivity. split; [exact F|].
  unfold roughness. cbn [check_surface norm_mask many]. unfold one.
  destruct I as [<-|[<-|[<-|[]]]]; cbv zeta; cbn [is_in existsb String.eqb Ascii.eqb Bool.eqb orb andb snd]; rewrite F; reflexivity.
Qed.
Print Assumptions c57_filter_spacing.
(** Refuted: a filter that keeps a peak finds it. The only summit of a square profile with an odd number of points and one peak, in the middle, is that peak. With any
    cut off for which the answer of the filter falls with the distance over the profile no summit is found at all: the answer is highest in a corner. *)
Theorem c57_filtered_peak_refuted : forall w p n A cut g four, g <> 0 -> (1 <= n)%nat -> 0 < A -> nrows p = (2 * n + 1)%nat -> ncols p = (2 * n + 1)%nat ->
  heights_are p everywhere (peak_at n n A) ->
  (forall d d', 0 < d -> d < d' -> d' <= 2 * INR (2 * n + 1) -> answer (j1 w) (cut * g) d' < answer (j1 w) (cut * g) d) ->
  (forall s, find_summits w p (Some g) NoMask four None = (p, Ok s) -> forall i j, b_at s i j = true <-> i = n /\ j = n) /\
  exists s, find_summits w p (Some g) NoMask four (Some cut) = (p, Ok s) /\ forall i j, b_at s i j = false.
Proof.
  intros w p n A cut g four G N P R C H D. split.
  - intros s F i j. destruct (c57_summits w p (Some g) four _ ltac:(lia) ltac:(lia) H) as (s' & F' & _ & _ & B). rewrite F in F'. injection F' as <-. rewrite B. unfold summit, interior. rewrite R, C. split.
    + intros [I L]. destruct (Nat.eq_dec i n) as [->|Ei]; [destruct (Nat.eq_dec j n) as [->|Ej]; [auto|]|].
      * exfalso. assert (Ad : adjacent four n j (n - 1) j) by (unfold adjacent, near; repeat split; try lia; intros Q; injection Q; lia). specialize (L _ _ Ad).
        unfold peak_at in L. rewrite (proj2 (Nat.eqb_neq j n) Ej), !andb_false_r in L. lra.
      * exfalso. assert (Ad : adjacent four i j i (j - 1)) by (unfold adjacent, near; repeat split; try lia; intros Q; injection Q; lia). specialize (L _ _ Ad).
        unfold peak_at in L. rewrite (proj2 (Nat.eqb_neq i n) Ei) in L. cbn [andb] in L. lra.
    + intros [-> ->]. split; [lia|]. intros i' j' (_ & _ & Q & _). unfold peak_at. rewrite !Nat.eqb_refl. cbn [andb].
      destruct (Nat.eqb_spec i' n) as [->|]; [destruct (Nat.eqb_spec j' n) as [->|]|]; cbn [andb]; try exact P. exfalso. apply Q. reflexivity.
  - destruct (c129_peak_refuted w p n A cut g G R C H) as (f & E & V). destruct (c129_sum w p cut g _ G H) as (f' & E' & Rf & Cf & V'). rewrite E in E'. injection E' as <-.
    exists (summits_of p f four). unfold find_summits. cbn [norm_mask]. rewrite E. split; [reflexivity|]. intros i j. rewrite (summits_same p f four i j Rf Cf).
    destruct (b_at (summits_of f f four) i j) eqn:B; [|reflexivity]. exfalso.
    apply (summit_test f four (fun i j => match h_at f i j with Fin x => x | _ => 0 end)) in B.
    2:{ intros a b _ _ _. rewrite V'. reflexivity. }
    destruct B as [I L]. unfold interior in I. rewrite Rf, Cf, R, C in I.
    assert (Ad : adjacent four i j (i - 1) j) by (unfold adjacent, near; repeat split; try lia; intros Q; injection Q; lia). specialize (L _ _ Ad). cbv beta in L.
    rewrite (V (i - 1)%nat j), (V i j) in L by lia. apply Rmult_lt_reg_l in L; [|exact P].
    assert (K : answer (j1 w) (cut * g) (sqrt (INR (j + 1) ^ 2 + INR (i + 1) ^ 2)) < answer (j1 w) (cut * g) (sqrt (INR (j + 1) ^ 2 + INR (i - 1 + 1) ^ 2))); [|lra].
    assert (J1 : 1 <= INR (j + 1)) by (rewrite plus_INR; pose proof (pos_INR j); cbn; lra). assert (I1 : 0 <= INR (i - 1 + 1)) by apply pos_INR.
    assert (I2 : INR (i + 1) = INR (i - 1 + 1) + 1) by (replace (i + 1)%nat with (i - 1 + 1 + 1)%nat by lia; rewrite (plus_INR (i - 1 + 1) 1); reflexivity).
    assert (Bj : INR (j + 1) <= INR (2 * n + 1)) by (apply le_INR; lia). assert (Bi : INR (i + 1) <= INR (2 * n + 1)) by (apply le_INR; lia).
    apply D.
    + apply sqrt_lt_R0. nra.
    + apply sqrt_lt_1; nra.
    + rewrite <- (sqrt_Rsqr (2 * INR (2 * n + 1))) by (pose proof (pos_INR (2 * n + 1)); lra). apply sqrt_le_1; [nra|apply Rle_0_sqr|]. unfold Rsqr. nra.
Qed.
Print Assumptions c57_filtered_peak_refuted.

(** A Bessel function by the first two terms of its series, with the answer falling at every distance. *)
Definition series_world : world := World (fun _ _ _ => None) (fun x => x / 2 - x ^ 3 / 16).
Lemma series_answer k d : 0 < d -> answer (j1 series_world) k d = PI * k ^ 2 - PI ^ 3 * k ^ 4 / 2 * d ^ 2.
Proof. intros H. unfold answer, series_world. cbn [j1]. field. lra. Qed.
Example c57_filtered_case : let p := Arr false 3 3 (fun i j => Fin (peak_at 1 1 2 i j)) in
  heights_are p everywhere (peak_at 1 1 2) /\
  (forall d d', 0 < d -> d < d' -> d' <= 2 * INR (2 * 1 + 1) -> answer (j1 series_world) (/ 20 * 1) d' < answer (j1 series_world) (/ 20 * 1) d) /\
  (forall four, exists s, find_summits series_world p (Some 1) NoMask four (Some (/ 20)) = (p, Ok s) /\ b_at s 1 1 = false) /\
  (forall four, exists s, find_summits series_world p (Some 1) NoMask four None = (p, Ok s) /\ b_at s 1 1 = true).
Proof.
  intros p. assert (H : heights_are p everywhere (peak_at 1 1 2)) by (intros i j _ _ _; reflexivity).
  assert (D : forall d d', 0 < d -> d < d' -> d' <= 2 * INR (2 * 1 + 1) -> answer (j1 series_world) (/ 20 * 1) d' < answer (j1 series_world) (/ 20 * 1) d).
  { intros d d' A B _. rewrite !series_answer by lra. assert (0 < PI ^ 3 * (/ 20 * 1) ^ 4 / 2) by (pose proof PI_RGT_0; pose proof (pow_lt PI 3 PI_RGT_0); lra).
    assert (d ^ 2 < d' ^ 2) by nra. nra. }
  split; [exact H|]. split; [exact D|].
  assert (Q := fun four => c57_filtered_peak_refuted series_world p 1 2 (/ 20) 1 four ltac:(lra) (le_n 1) ltac:(lra) eq_refl eq_refl H D). split; intros four; destruct (Q four) as [Q1 (s & F & B)].
  - exists s. split; [exact F|apply B].
  - destruct (c57_summits series_world p (Some 1) four _ ltac:(cbn; lia) ltac:(cbn; lia) H) as (s' & F' & _). exists s'. split; [exact F'|]. apply (Q1 s' F'). split; reflexivity.
Qed.
