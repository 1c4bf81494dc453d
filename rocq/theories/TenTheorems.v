(** C96: the ten point height. *)
From Coq Require Import Reals List Bool Arith ZArith String Lia Lra Permutation.
From Verif Require Import Py SurfaceModel SurfaceProofs Flt SolverProofs RoughModel RoughSpec RoughProofs RoughTheorems SummitTheorems AreaTheorems BearingTheorems.
Import ListNotations.
Local Open Scope R_scope.

Lemma nodup_points r c : NoDup (points r c).
Proof.
  unfold points. assert (G : forall l : list nat, NoDup l -> NoDup (list_prod l (seq 0 c))).
  { induction l as [|i l IH]; intros N; [constructor|]. apply NoDup_cons_iff in N. destruct N as [N1 N2]. cbn [list_prod].
    specialize (IH N2). assert (M : NoDup (map (fun j : nat => (i, j)) (seq 0 c))).
    { apply FinFun.Injective_map_NoDup; [intros a b E; congruence|apply seq_NoDup]. }
    assert (D : forall x, In x (map (fun j : nat => (i, j)) (seq 0 c)) -> ~ In x (list_prod l (seq 0 c))).
    { intros x I J. apply in_map_iff in I. destruct I as (j & <- & _). apply in_prod_iff in J. destruct J as [J _]. contradiction. }
    clear N1 N2. induction (map (fun j : nat => (i, j)) (seq 0 c)) as [|x t IHt]; [exact IH|]. apply NoDup_cons_iff in M. destruct M as [M1 M2]. cbn [app]. constructor.
    - rewrite in_app_iff. intros [J|J]; [contradiction|]. apply (D x); [left; reflexivity|exact J].
    - apply IHt; [exact M2|]. intros y I. apply D. right. exact I. }
  apply G, seq_NoDup.
Qed.
Lemma first_five l : (5 <= List.length l)%nat -> firstn 5 l = map (fun k => nth k l 0) (seq 0 5).
Proof. destruct l as [|a [|b [|c [|d [|e l]]]]]; cbn [List.length]; intros; try lia. reflexivity. Qed.
Lemma nth_skip (l : list R) n k : nth k (skipn n l) 0 = nth (n + k) l 0.
Proof. revert n. induction l as [|x l IH]; intros [|n]; cbn; try reflexivity; [destruct k; reflexivity|]. apply IH. Qed.
Lemma last_five l : (5 <= List.length l)%nat -> skipn (List.length l - 5) l = map (fun k => nth (List.length l - 5 + k) l 0) (seq 0 5).
Proof.
  intros L. assert (E : List.length (skipn (List.length l - 5) l) = 5%nat) by (rewrite skipn_length; lia). transitivity (firstn 5 (skipn (List.length l - 5) l)).
  - rewrite <- E at 2. symmetry. apply firstn_all.
  - rewrite first_five by lia. apply map_ext. intros k. apply nth_skip.
Qed.
Lemma combine_map {A B C} (f : A -> B) (g : A -> C) l : combine (map f l) (map g l) = map (fun x => (f x, g x)) l.
Proof. induction l as [|x l IH]; [reflexivity|]. cbn. rewrite IH. reflexivity. Qed.
Lemma marked_perm p four z l : (2 <= nrows p)%nat -> (2 <= ncols p)%nat -> heights_are p everywhere z -> NoDup l -> (forall i j, In (i, j) l <-> summit p four z i j) ->
  Permutation l (marked (summits_of p p four)).
Proof.
  intros R C H N I. apply NoDup_Permutation; [exact N|apply NoDup_filter, nodup_points|]. intros [i j]. rewrite I. unfold marked. rewrite filter_In. cbn [fst snd]. rewrite (summit_test p four z H).
  rewrite in_points. cbn [b_rows b_cols summits_of]. unfold summit, interior. split; [|tauto]. intros S. split; [|exact S]. destruct S as [S _]. lia.
Qed.
Lemma map_entries p q four z : heights_are p everywhere z -> nrows q = nrows p -> ncols q = ncols p ->
  map (entry p) (marked (summits_of q q four)) = map Fin (map (fst_snd z) (marked (summits_of q q four))).
Proof.
  intros H R C. rewrite map_map. apply map_ext_in. intros [i j] I. apply filter_In in I. destruct I as [_ B]. cbn [fst snd b_at summits_of] in B.
  rewrite !andb_true_iff, !Nat.leb_le, !Nat.ltb_lt in B. unfold entry, fst_snd. cbn [fst snd]. apply H; [lia|lia|reflexivity].
Qed.
(** What the ten point height is without a mask, a filter and flattening, for a profile with five summits and five valleys or more: not the mean distance of the five highest summits and the five lowest valleys, but
    five numbers. The k th is the size of the k th lowest valley plus a fifth of the size of the k th of the five highest summits, from the lowest of them: only the summits are divided by five. *)
Theorem c96_ten_values_refuted : forall w s gs curved four z name tops lows, lower name = "sz"%string ->
  let p := profile_of s in (2 <= nrows p)%nat -> (2 <= ncols p)%nat -> heights_are p everywhere z ->
  NoDup tops -> (forall i j, In (i, j) tops <-> summit p four z i j) ->
  NoDup lows -> (forall i j, In (i, j) lows <-> summit p four (fun i j => - z i j) i j) ->
  (5 <= List.length tops)%nat -> (5 <= List.length lows)%nat ->
  exists hs hv, Permutation (map (fst_snd z) tops) hs /\ ascending hs /\ Permutation (map (fst_snd z) lows) hv /\ ascending hv /\
    snd (roughness w s (Name name) gs NoMask curved true None four) =
    Ok (VVec (map (fun k => Fin (Rabs (nth k hv 0) + Rabs (nth (List.length tops - 5 + k) hs 0) / 5)) (seq 0 5))).
Proof.
  intros w s gs curved four z name tops lows Hn p R C H Nt It Nl Il Lt Ll.
  assert (E : exists g, snd (roughness w s (Name name) gs NoMask curved true None four) = snd (one w p None g None four name)).
  { unfold roughness. replace (check_surface s gs) with (p, snd (check_surface s gs)) by (destruct s; reflexivity). exists (snd (check_surface s gs)). reflexivity. }
  destruct E as (g & E). rewrite E. clear E. unfold one. rewrite Hn. cbv zeta. cbn [is_in existsb String.eqb Ascii.eqb Bool.eqb orb andb snd].
  unfold find_summits. cbn [norm_mask bind snd].
  set (q := Arr (whole p) (nrows p) (ncols p) (fun i j => fmul (Fin (- 1)) (h_at p i j))).
  assert (Hq : heights_are q everywhere (fun i j => - z i j)).
  { intros i j Hi Hj _. cbn [h_at q]. rewrite (H i j Hi Hj eq_refl). cbn [fmul]. f_equal. ring. }
  cbn [b_rows b_cols summits_of]. replace (nrows p - 2 + 2)%nat with (nrows p) by lia. replace (ncols p - 2 + 2)%nat with (ncols p) by lia. rewrite !Nat.eqb_refl. cbn [andb].
  pose proof (marked_perm p four z tops R C H Nt It) as Pt. pose proof (marked_perm q four (fun i j => - z i j) lows R C Hq Nl Il) as Pl.
  rewrite (map_entries p p four z H eq_refl eq_refl), (map_entries p q four z H eq_refl eq_refl).
  destruct (sort_fin (map (fst_snd z) (marked (summits_of p p four)))) as (hs & Es & Ps & As). destruct (sort_fin (map (fst_snd z) (marked (summits_of q q four)))) as (hv & Ev & Pv & Av).
  rewrite Es, Ev. assert (Q1 : Permutation (map (fst_snd z) tops) hs) by (apply perm_trans with (2 := Ps), Permutation_map, Pt).
  assert (Q2 : Permutation (map (fst_snd z) lows) hv) by (apply perm_trans with (2 := Pv), Permutation_map, Pl).
  assert (L1 : List.length hs = List.length tops) by (rewrite <- (Permutation_length Q1); apply map_length).
  assert (L2 : List.length hv = List.length lows) by (rewrite <- (Permutation_length Q2); apply map_length).
  exists hs, hv. split; [exact Q1|]. split; [exact As|]. split; [exact Q2|]. split; [exact Av|].
  rewrite map_length, firstn_map, skipn_map. rewrite (first_five hv), (last_five hs) by lia. rewrite !map_map. unfold broadcast. rewrite !map_length, Nat.eqb_refl. cbn [bind]. rewrite combine_map, map_map, L1.
  do 2 f_equal. apply map_ext. intros k. cbn [fst snd fabs]. rewrite fdiv_fin' by lra. reflexivity.
Qed.
Print Assumptions c96_ten_values_refuted.
(** A chess board of five by six points with the heights 1 and -1 has six summits and six valleys with the four nearest neighbours. *)
Example c96_ten_values_case : let z := fun i j => if Nat.even (i + j) then 1 else -1 in let p := Arr false 5 6 (fun i j => Fin (z i j)) in
  let inner := filter (fun ij => Nat.leb 1 (fst ij) && Nat.ltb (fst ij) 4 && Nat.leb 1 (snd ij) && Nat.ltb (snd ij) 5) (points 5 6) in
  let tops := filter (fun ij => Nat.even (fst ij + snd ij)) inner in let lows := filter (fun ij => negb (Nat.even (fst ij + snd ij))) inner in
  heights_are p everywhere z /\ NoDup tops /\ (forall i j, In (i, j) tops <-> summit p true z i j) /\
  NoDup lows /\ (forall i j, In (i, j) lows <-> summit p true (fun i j => - z i j) i j) /\ List.length tops = 6%nat /\ List.length lows = 6%nat.
Proof.
  intros z p inner tops lows. assert (I : forall i j, In (i, j) inner <-> interior p i j).
  { intros i j. unfold inner. rewrite filter_In, in_points, !andb_true_iff, !Nat.leb_le, !Nat.ltb_lt. unfold interior. cbn [fst snd nrows ncols p]. lia. }
  assert (A : forall i j i' j', adjacent true i j i' j' -> Nat.even (i' + j') = negb (Nat.even (i + j))).
  { intros i j i' j' (N1 & N2 & D & F). specialize (F eq_refl). unfold near in *. assert (Q : (i' + j' = S (i + j) \/ i + j = S (i' + j'))%nat).
    { assert (i <> i' \/ j <> j')%nat by (destruct (Nat.eq_dec i i'), (Nat.eq_dec j j'); subst; tauto || (exfalso; apply D; reflexivity)). lia. }
    destruct Q as [-> | ->]; rewrite Nat.even_succ, <- Nat.negb_even; [reflexivity|]. rewrite negb_involutive. reflexivity. }
  assert (B : forall i j, interior p i j -> adjacent true i j (i - 1) j).
  { intros i j Q. unfold interior in Q. unfold adjacent, near. repeat split; try lia. intros E. injection E. lia. }
  split; [intros i j _ _ _; reflexivity|]. split; [apply NoDup_filter, NoDup_filter, nodup_points|]. split; [|split; [apply NoDup_filter, NoDup_filter, nodup_points|split; [|split; reflexivity]]].
  - intros i j. unfold tops. rewrite filter_In, I. cbn [fst snd]. unfold summit, z. split.
    + intros [N E]. split; [exact N|]. intros i' j' Ad. rewrite (A _ _ _ _ Ad), E. cbn. lra.
    + intros [N L]. split; [exact N|]. specialize (L _ _ (B _ _ N)). rewrite (A _ _ _ _ (B _ _ N)) in L. destruct (Nat.even (i + j)); [reflexivity|cbn in L; lra].
  - intros i j. unfold lows. rewrite filter_In, I. cbn [fst snd]. unfold summit, z. split.
    + intros [N E]. split; [exact N|]. intros i' j' Ad. rewrite (A _ _ _ _ Ad). apply negb_true_iff in E. rewrite E. cbn. lra.
    + intros [N L]. split; [exact N|]. specialize (L _ _ (B _ _ N)). rewrite (A _ _ _ _ (B _ _ N)) in L. destruct (Nat.even (i + j)); [cbn in L; lra|reflexivity].
Qed.
