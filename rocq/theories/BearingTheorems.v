(** C96: the bearing area curve of a call with a mask. *)
From Coq Require Import Reals List Bool Arith ZArith String Lia Lra Permutation.
From Verif Require Import Py SurfaceModel SurfaceProofs Flt SolverProofs RoughModel RoughSpec RoughProofs RoughTheorems SummitTheorems AreaTheorems.
Import ListNotations.
Local Open Scope R_scope.

(** The used points below a height. *)
Definition below (u : bmask) (z : nat -> nat -> R) (h : R) : bmask := fun i j => u i j && (if Rlt_dec (z i j) h then true else false).

Lemma count_number r c u z h : INR (count_below (map Fin (map (fst_snd z) (filter (fst_snd u) (points r c)))) (Fin h)) = number r c (below u z h).
Proof.
  rewrite <- length_over. f_equal. unfold count_below. induction (points r c) as [|[i j] l IH]; [reflexivity|]. cbn [filter]. unfold fst_snd at 2 5, below. cbn [fst snd].
  destruct (u i j) eqn:U; cbn [andb].
  - cbn [map filter]. unfold fst_snd at 1. cbn [fst snd fltb]. destruct (Rlt_dec (z i j) h) as [L|L].
    + assert (F : Rltb (z i j) h = true) by (apply Rltb_true; exact L). rewrite F. cbn [List.length]. f_equal. exact IH.
    + assert (F : Rltb (z i j) h = false) by (apply Rltb_false; lra). rewrite F. exact IH.
  - exact IH.
Qed.

(** With a mask array, without flattening: a curve of one hundred heights, evenly from the lowest to the highest height in units of Sq. Each share is
    that of the used points whose height, in the unit of the profile, is below the one of the curve; it is divided by the area of the used points, not by their number. *)
Theorem c96_curve : forall w s gs g u curved cut four z name, lower name = "stp"%string -> spacing s gs = Some g -> g <> 0 ->
  let p := profile_of s in let r := nrows p in let c := ncols p in
  heights_are p u z -> some_used p u -> 0 < rms r c u z ->
  exists lo hi, lowest r c u z lo /\ highest r c u z hi /\
    let height k := (lo + INR k / 99 * (hi - lo)) / rms r c u z in
    snd (roughness w s (Name name) gs (ArrMask r c u) curved true cut four) =
    Ok (VCurve (map (fun k => [Fin (height k)]) (seq 0 100))
               (map (fun k => Fin (number r c (below u z (height k)) / (number r c u * g ^ 2))) (seq 0 100))).
Proof.
  intros w s gs g u curved cut four z name Hn Sp Hg p r c H (i0 & j0 & Hi0 & Hj0 & U0) Sq.
  assert (E : snd (roughness w s (Name name) gs (ArrMask r c u) curved true cut four) = snd (one w p (Some u) (Some g) cut four name)).
  { unfold roughness. destruct (check_surface s gs) as [p' g'] eqn:Ck. pose proof (spacing_check s gs) as Q. rewrite Ck, Sp in Q. cbn [snd] in Q. subst g'.
    assert (p' = p) by (destruct s, gs; cbn in Ck; injection Ck as <- _; reflexivity). subst p'. cbn [norm_mask]. fold r c. rewrite !Nat.eqb_refl. reflexivity. }
  rewrite E. clear E. unfold one. rewrite Hn. cbv zeta. cbn [is_in existsb String.eqb Ascii.eqb Bool.eqb orb andb snd].
  rewrite (entries_fin p (Some u) u z) by (try exact H; intros; reflexivity). fold r c.
  set (pts := filter (fst_snd u) (points r c)). set (l := map (fst_snd z) pts).
  assert (In0 : In (i0, j0) pts) by (apply filter_In; split; [apply in_points; auto|exact U0]).
  assert (Np : number r c u <> 0).
  { rewrite <- length_over. fold pts. destruct pts; [destruct In0|]. apply not_0_INR. discriminate. }
  assert (Rm : root_mean_square (map Fin l) = Fin (rms r c u z)) by (apply rms_over; exact Np). rewrite Rm. set (q := rms r c u z) in *.
  assert (D : map (fun x => fdiv x (Fin q)) (map Fin l) = map Fin (map (fun x => x / q) l)).
  { rewrite !map_map. apply map_ext. intros x. apply fdiv_fin'. lra. }
  rewrite D. assert (Ne : map (fun x => x / q) l <> []) by (unfold l; destruct pts; [destruct In0|discriminate]).
  assert (Mem : forall x, In x l <-> exists i j, (i < r)%nat /\ (j < c)%nat /\ u i j = true /\ x = z i j).
  { intros x. unfold l, pts. rewrite in_map_iff. split.
    - intros ([i j] & <- & I). apply filter_In in I. destruct I as (I & U). apply in_points in I. exists i, j. repeat split; try tauto; exact U.
    - intros (i & j & Hi & Hj & U & ->). exists (i, j). split; [reflexivity|]. apply filter_In. split; [apply in_points; auto|exact U]. }
  assert (Scale : forall x y, x / q <= y / q -> x <= y).
  { intros x y L. apply Rmult_le_compat_r with (r := q) in L; [|lra]. unfold Rdiv in L. rewrite !Rmult_assoc, !Rinv_l in L by lra. lra. }
  destruct (pymin_fin _ Ne) as (a & Ea & Ia & Ma). destruct (pymax_fin _ Ne) as (b & Eb & Ib & Mb). rewrite Ea, Eb. cbn [bind].
  apply in_map_iff in Ia. destruct Ia as (lo & Elo & Ilo). apply in_map_iff in Ib. destruct Ib as (hi & Ehi & Ihi). exists lo, hi.
  split; [|split].
  - split; [apply Mem; exact Ilo|]. intros i j Hi Hj U. apply Scale. rewrite Elo. apply Ma. apply in_map_iff. exists (z i j). split; [reflexivity|]. apply Mem. eauto 10.
  - split; [apply Mem; exact Ihi|]. intros i j Hi Hj U. apply Scale. rewrite Ehi. apply Mb. apply in_map_iff. exists (z i j). split; [reflexivity|]. apply Mem. eauto 10.
  - rewrite <- Elo, <- Ehi. assert (Li : linspace (Fin (lo / q)) (Fin (hi / q)) = map (fun k => Fin ((lo + INR k / 99 * (hi - lo)) / q)) (seq 0 100)).
    { unfold linspace. apply map_ext. intros k. cbn [fsub fneg fadd fmul]. f_equal. field. lra. }
    rewrite Li, !map_map. do 2 f_equal. apply map_ext. intros k. unfold l, pts. rewrite count_number. rewrite !map_length, length_over.
    rewrite fdiv_fin'; [f_equal; f_equal; ring|]. apply Rmult_integral_contrapositive_currified; [exact Np|]. apply Rmult_integral_contrapositive_currified; exact Hg.
Qed.
Print Assumptions c96_curve.
(** The heights 0 and 2, both used: Sq is the root of 2. *)
Example c96_curve_case : let p := Arr false 1 2 (fun _ j => Fin (if Nat.eqb j 0 then 0 else 2)) in
  heights_are p everywhere (fun _ j => if Nat.eqb j 0 then 0 else 2) /\ some_used p everywhere /\ 0 < rms 1 2 everywhere (fun _ j => if Nat.eqb j 0 then 0 else 2).
Proof.
  split; [intros i j _ _ _; reflexivity|]. split; [exists 0%nat, 0%nat; cbn; auto|]. unfold rms, average, number, over. cbn. apply sqrt_lt_R0. lra.
Qed.

(** ** The bearing index *)
Fixpoint ascending (l : list R) : Prop := match l with [] => True | x :: t => (forall y, In y t -> x <= y) /\ ascending t end.
Lemma insert_fin x s : ascending s -> exists s', insert_sorted (Fin x) (map Fin s) = map Fin s' /\ Permutation (x :: s) s' /\ ascending s'.
Proof.
  induction s as [|y s IH]; intros A.
  - exists [x]. split; [reflexivity|]. split; [apply Permutation_refl|]. cbn. split; [intros ? []|exact I].
  - destruct A as [A1 A2]. cbn [map insert_sorted]. unfold before. cbn [is_nan fleb orb]. rewrite orb_false_r. destruct (SurfaceModel.Rleb x y) eqn:E.
    + exists (x :: y :: s). split; [reflexivity|]. split; [apply Permutation_refl|]. assert (L : x <= y).
      { unfold SurfaceModel.Rleb in E. destruct (Rle_dec x y); [assumption|discriminate]. }
      cbn. split; [|split; assumption]. intros w [<-|I]; [exact L|]. specialize (A1 w I). lra.
    + destruct (IH A2) as (s' & E' & P & A'). exists (y :: s'). split; [cbn; rewrite E'; reflexivity|]. split.
      * apply perm_trans with (y :: x :: s); [apply perm_swap|]. apply perm_skip. exact P.
      * cbn. split; [|exact A']. assert (L : y <= x).
        { unfold SurfaceModel.Rleb in E. destruct (Rle_dec x y); [discriminate|lra]. }
        intros w I. apply (Permutation_in w (Permutation_sym P)) in I. destruct I as [<-|I]; [exact L|apply A1; exact I].
Qed.
Lemma sort_fin l : exists s, fsort (map Fin l) = map Fin s /\ Permutation l s /\ ascending s.
Proof.
  induction l as [|x l (s & E & P & A)]; [exists []; repeat split; constructor|]. unfold fsort in *. cbn [map fold_right]. rewrite E.
  destruct (insert_fin x s A) as (s' & E' & P' & A'). exists s'. split; [exact E'|]. split; [|exact A']. apply perm_trans with (x :: s); [apply perm_skip; exact P|exact P'].
Qed.
Lemma filter_length_le {A} (f : A -> bool) l : (List.length (filter f l) <= List.length l)%nat.
Proof. induction l as [|x l IH]; [apply le_n|]. cbn. destruct (f x); cbn; lia. Qed.
Lemma perm_count {A} (f : A -> bool) l s : Permutation l s -> List.length (filter f l) = List.length (filter f s).
Proof. induction 1; cbn; try congruence; try (destruct (f x); cbn; congruence). destruct (f x), (f y); reflexivity. Qed.
Definition is_below (h x : R) : bool := if Rlt_dec x h then true else false.
Definition is_upto (h x : R) : bool := if Rle_dec x h then true else false.
Lemma ascending_counts : forall s k h, ascending s -> nth_error s k = Some h ->
  (List.length (filter (is_below h) s) <= k)%nat /\ (k < List.length (filter (is_upto h) s))%nat.
Proof.
  induction s as [|x s IH]; intros k h A E; [destruct k; discriminate|]. destruct A as [A1 A2]. destruct k as [|k]; cbn in E.
  - injection E as ->. split.
    + assert (Z : forall l, (forall y, In y l -> h <= y) -> filter (is_below h) l = []).
      { clear. induction l as [|y l IH]; intros H; [reflexivity|]. cbn. unfold is_below at 1. destruct (Rlt_dec y h) as [L|L]; [specialize (H y (or_introl eq_refl)); lra|]. apply IH. intros; apply H; right; assumption. }
      rewrite (Z (h :: s)); [apply le_n|]. intros y [<-|I]; [lra|apply A1; exact I].
    + cbn. unfold is_upto at 1. destruct (Rle_dec h h); [cbn; lia|lra].
  - destruct (IH k h A2 E) as [I1 I2]. assert (L : x <= h) by (apply A1; apply nth_error_In in E; exact E). split.
    + cbn. destruct (is_below h x); cbn; lia.
    + cbn. unfold is_upto at 1. destruct (Rle_dec x h); [cbn; lia|lra].
Qed.
(** The used points up to a height. *)
Definition upto (u : bmask) (z : nat -> nat -> R) (h : R) : bmask := fun i j => u i j && (if Rle_dec (z i j) h then true else false).
Lemma filter_points (g : R -> bool) r c u z : INR (List.length (filter g (map (fst_snd z) (filter (fst_snd u) (points r c))))) = number r c (fun i j => u i j && g (z i j)).
Proof.
  rewrite <- length_over. f_equal. induction (points r c) as [|[i j] l IH]; [reflexivity|]. cbn [filter].
  change (fst_snd (fun i j => u i j && g (z i j)) (i, j)) with (u i j && g (z i j)). change (fst_snd u (i, j)) with (u i j).
  destruct (u i j) eqn:U; cbn [andb]; [|exact IH]. cbn [map filter]. change (fst_snd z (i, j)) with (z i j). destruct (g (z i j)); cbn [List.length]; rewrite IH; reflexivity.
Qed.
(** The bearing index with a mask array and without flattening: Sq over the height that at most one in twenty of the used points are
    below, and more are not above: the lowest points, not the highest ones that bear first. *)
Theorem c96_index_low : forall w s gs u curved cut four z name, lower name = "sbi"%string ->
  let p := profile_of s in let r := nrows p in let c := ncols p in
  heights_are p u z -> some_used p u ->
  exists h n k, number r c u = INR n /\ k = (n / 20)%nat /\
    number r c (below u z h) <= INR k < number r c (upto u z h) /\
    snd (roughness w s (Name name) gs (ArrMask r c u) curved true cut four) = Ok (VNum (fdiv (Fin (rms r c u z)) (Fin h))).
Proof.
  intros w s gs u curved cut four z name Hn p r c H (i0 & j0 & Hi0 & Hj0 & U0).
  assert (E : exists g, snd (roughness w s (Name name) gs (ArrMask r c u) curved true cut four) = snd (one w p (Some u) g cut four name)).
  { unfold roughness. destruct (check_surface s gs) as [p' g'] eqn:Ck. exists g'. 
    assert (p' = p) by (destruct s, gs; cbn in Ck; injection Ck as <- _; reflexivity). subst p'. cbn [norm_mask]. fold r c. rewrite !Nat.eqb_refl. reflexivity. }
  destruct E as (g & E). rewrite E. clear E. unfold one. rewrite Hn. cbv zeta. cbn [is_in existsb String.eqb Ascii.eqb Bool.eqb orb andb snd].
  unfold sorted_at. rewrite (entries_fin p (Some u) u z) by (try exact H; intros; reflexivity). fold r c.
  set (pts := filter (fst_snd u) (points r c)). set (l := map (fst_snd z) pts).
  assert (In0 : In (i0, j0) pts) by (apply filter_In; split; [apply in_points; auto|exact U0]).
  assert (Nl : number r c u = INR (List.length l)) by (unfold l; rewrite map_length; symmetry; apply length_over).
  assert (Pl : (0 < List.length l)%nat) by (unfold l; rewrite map_length; destruct pts; [destruct In0|cbn; lia]).
  assert (Np : number r c u <> 0) by (rewrite Nl; apply not_0_INR; lia).
  assert (Rm : root_mean_square (map Fin l) = Fin (rms r c u z)) by (apply rms_over; exact Np). rewrite Rm, map_length.
  destruct (sort_fin l) as (s' & Es & P & A). rewrite Es. set (k := (List.length l / 20)%nat).
  assert (Hk : (k < List.length s')%nat) by (rewrite <- (Permutation_length P); unfold k; apply Nat.div_lt; lia).
  destruct (nth_error s' k) as [h|] eqn:Eh; [|apply nth_error_None in Eh; lia].
  assert (Em : nth_error (map Fin s') k = Some (Fin h)) by (apply map_nth_error; exact Eh). rewrite Em. cbn [bind map shape_like].
  exists h, (List.length l), k. split; [exact Nl|]. split; [reflexivity|]. split; [|reflexivity].
  destruct (ascending_counts s' k h A Eh) as [C1 C2]. rewrite <- (perm_count _ _ _ P) in C1. rewrite <- (perm_count _ _ _ P) in C2.
  pose proof (filter_points (is_below h) r c u z) as F1. pose proof (filter_points (is_upto h) r c u z) as F2. fold pts in F1, F2. fold l in F1, F2.
  unfold below, upto. unfold is_below, is_upto in *. rewrite <- F1, <- F2. split; [apply le_INR; exact C1|apply lt_INR; exact C2].
Qed.
Print Assumptions c96_index_low.
(** The heights 3 and 1, both used: the height is the lower one. *)
Example c96_index_low_case : let p := Arr false 1 2 (fun _ j => Fin (if Nat.eqb j 0 then 3 else 1)) in let z := fun _ j => if Nat.eqb j 0 then 3 else 1 in
  heights_are p everywhere z /\ some_used p everywhere /\ number 1 2 (below everywhere z 1) <= INR (2 / 20) < number 1 2 (upto everywhere z 1).
Proof.
  split; [intros i j _ _ _; reflexivity|]. split; [exists 0%nat, 0%nat; cbn; auto|]. unfold number, over, below, upto. cbn.
  destruct (Rlt_dec 3 1), (Rlt_dec 1 1), (Rle_dec 3 1), (Rle_dec 1 1); cbn; lra.
Qed.
(** The points outside of a mask. *)
Definition outside (u : bmask) : bmask := fun i j => negb (u i j).
(** The valley fluid retention index with a mask array and without flattening: the height is that of the used points (at most four in five of
    them are below), but the void is that of the points which are not used. There is one number for each of these. *)
Theorem c96_valley_outside : forall w s gs g u curved cut four z name lo hi, lower name = "svi"%string -> spacing s gs = Some g -> g <> 0 ->
  let p := profile_of s in let r := nrows p in let c := ncols p in
  heights_are p everywhere z -> some_used p u -> 0 < rms r c u z ->
  lowest r c (outside u) z lo -> highest r c (outside u) z hi -> lo < hi ->
  exists h n k pts, number r c u = INR n /\ k = (4 * n / 5)%nat /\
    number r c (below u z h) <= INR k < number r c (upto u z h) /\
    (forall i j, In (i, j) pts <-> (i < r)%nat /\ (j < c)%nat /\ u i j = false) /\ INR (List.length pts) = number r c (outside u) /\
    snd (roughness w s (Name name) gs (ArrMask r c u) curved true cut four) =
    Ok (VVec (map (fun ij => Fin (if Rlt_dec h (z (fst ij) (snd ij)) then 0
                                  else over r c (outside u) (fun i j => h - z i j) / over r c (outside u) (fun i j => hi - z i j)
                                       / (number r c u * g ^ 2) / rms r c u z)) pts)).
Proof.
  intros w s gs g u curved cut four z name lo hi Hn Sp Hg p r c Hall (i0 & j0 & Hi0 & Hj0 & U0) Sq Lo Hi LH.
  assert (H : heights_are p u z) by (intros i j Hi' Hj' _; apply Hall; auto).
  assert (E : snd (roughness w s (Name name) gs (ArrMask r c u) curved true cut four) = snd (one w p (Some u) (Some g) cut four name)).
  { unfold roughness. destruct (check_surface s gs) as [p' g'] eqn:Ck. pose proof (spacing_check s gs) as Q. rewrite Ck, Sp in Q. cbn [snd] in Q. subst g'.
    assert (p' = p) by (destruct s, gs; cbn in Ck; injection Ck as <- _; reflexivity). subst p'. cbn [norm_mask]. fold r c. rewrite !Nat.eqb_refl. reflexivity. }
  rewrite E. clear E. unfold one. rewrite Hn. cbv zeta. cbn [is_in existsb String.eqb Ascii.eqb Bool.eqb orb andb snd].
  unfold sorted_at. rewrite (entries_fin p (Some u) u z) by (try exact H; intros; reflexivity). fold r c.
  set (pu := filter (fst_snd u) (points r c)). set (l := map (fst_snd z) pu).
  assert (In0 : In (i0, j0) pu) by (apply filter_In; split; [apply in_points; auto|exact U0]).
  assert (Nl : number r c u = INR (List.length l)) by (unfold l; rewrite map_length; symmetry; apply length_over).
  assert (Pl : (0 < List.length l)%nat) by (unfold l; rewrite map_length; destruct pu; [destruct In0|cbn; lia]).
  assert (Np : number r c u <> 0) by (rewrite Nl; apply not_0_INR; lia).
  assert (Rm : root_mean_square (map Fin l) = Fin (rms r c u z)) by (apply rms_over; exact Np). rewrite Rm, map_length.
  destruct (sort_fin l) as (s' & Es & P & A). rewrite Es. change (List.length l + (List.length l + (List.length l + (List.length l + 0))))%nat with (4 * List.length l)%nat. set (k := (4 * List.length l / 5)%nat).
  assert (Hk : (k < List.length s')%nat) by (rewrite <- (Permutation_length P); unfold k; apply Nat.div_lt_upper_bound; lia).
  destruct (nth_error s' k) as [h|] eqn:Eh; [|apply nth_error_None in Eh; lia].
  assert (Em : nth_error (map Fin s') k = Some (Fin h)) by (apply map_nth_error; exact Eh). rewrite Em. cbn [bind hd].
  set (m := ArrMask r c u). assert (Fm : fair p m) by (split; reflexivity).
  assert (Cm : forall i j, counted p m i j = outside u i j) by reflexivity.
  assert (Hm : heights_are p (counted p m) z) by (intros i j Hi' Hj' _; apply Hall; auto).
  destruct (c58_values p m z h None lo hi Fm Hm Lo Hi LH) as (pts & Ip & Lp & _ & V).
  unfold get_mat_vr in V. rewrite andb_false_r in V. unfold m in V. cbn [norm_mask] in V. fold r c in V. rewrite !Nat.eqb_refl in V. cbn [andb bind] in V. rewrite V. cbn [bind over_area].
  exists h, (List.length l), k, pts. split; [exact Nl|]. split; [reflexivity|]. split; [|split; [|split; [exact Lp|]]].
  - destruct (ascending_counts s' k h A Eh) as [C1 C2]. rewrite <- (perm_count _ _ _ P) in C1. rewrite <- (perm_count _ _ _ P) in C2.
    pose proof (filter_points (is_below h) r c u z) as F1. pose proof (filter_points (is_upto h) r c u z) as F2. fold pu in F1, F2. fold l in F1, F2.
    unfold below, upto. unfold is_below, is_upto in *. rewrite <- F1, <- F2. split; [apply le_INR; exact C1|apply lt_INR; exact C2].
  - intros i j. rewrite Ip. rewrite Cm. unfold outside. destruct (u i j); cbn; intuition discriminate.
  - do 2 f_equal. rewrite map_map. apply map_ext. intros ij. assert (Ga : INR (List.length l) * (g * g) <> 0).
    { rewrite <- Nl. apply Rmult_integral_contrapositive_currified; [exact Np|]. apply Rmult_integral_contrapositive_currified; exact Hg. }
    rewrite !fdiv_fin' by (try exact Ga; lra). f_equal. rewrite Nl. replace (g ^ 2) with (g * g) by ring. destruct (Rlt_dec h (z (fst ij) (snd ij))) as [L|L].
    + rewrite (proj2 (Rltb_true _ _)) by exact L. unfold Rdiv. ring.
    + rewrite (proj2 (Rltb_false _ _)) by lra. reflexivity.
Qed.
Print Assumptions c96_valley_outside.
(** A row of the heights 3, 1, 0 and 2 of which the first two are used. *)
Example c96_valley_outside_case : let z := fun _ j => match j with 0%nat => 3 | 1%nat => 1 | 2%nat => 0 | _ => 2 end in
  let p := Arr false 1 4 (fun i j => Fin (z i j)) in let u := fun (_ : nat) j => Nat.ltb j 2 in
  heights_are p everywhere z /\ some_used p u /\ 0 < rms 1 4 u z /\ lowest 1 4 (outside u) z 0 /\ highest 1 4 (outside u) z 2.
Proof.
  split; [intros i j _ _ _; reflexivity|]. split; [exists 0%nat, 0%nat; cbn; repeat split; lia|]. split; [unfold rms, average, number, over; cbn; apply sqrt_lt_R0; lra|]. split; split.
  - exists 0%nat, 2%nat. repeat split; lia.
  - intros i j _ _ _. destruct j as [|[|[|j]]]; lra.
  - exists 0%nat, 3%nat. repeat split; lia.
  - intros i j _ _ U. destruct j as [|[|[|j]]]; try discriminate; lra.
Qed.
(** The bearing index without a mask and without flattening: not a number but Sq over each height of one row, from the lowest. The row is the twentieth part of the number of
    all points; if there is no such row the call fails. *)
Theorem c96_index_row_refuted : forall w s gs curved cut four z name, lower name = "sbi"%string ->
  let p := profile_of s in let r := nrows p in let c := ncols p in let k := (r * c / 20)%nat in
  heights_are p everywhere z -> (0 < r)%nat -> (0 < c)%nat ->
  ((k < r)%nat -> exists l, Permutation (map (z k) (seq 0 c)) l /\ ascending l /\
     snd (roughness w s (Name name) gs NoMask curved true cut four) = Ok (VVec (map (fun h => fdiv (Fin (rms r c everywhere z)) (Fin h)) l))) /\
  ((r <= k)%nat -> snd (roughness w s (Name name) gs NoMask curved true cut four) = Err IndexError).
Proof.
  intros w s gs curved cut four z name Hn p r c k H Pr Pc.
  assert (E : exists g, snd (roughness w s (Name name) gs NoMask curved true cut four) = snd (one w p None g cut four name)).
  { unfold roughness. replace (check_surface s gs) with (p, snd (check_surface s gs)) by (destruct s; reflexivity). exists (snd (check_surface s gs)). reflexivity. }
  destruct E as (g & E). rewrite E. clear E. unfold one. rewrite Hn. cbv zeta. cbn [is_in existsb String.eqb Ascii.eqb Bool.eqb orb andb snd].
  rewrite length_entries. fold r c k. unfold sorted_at. fold r c.
  assert (Np : number r c everywhere <> 0) by (rewrite number_all; apply Rmult_integral_contrapositive_currified; apply not_0_INR; lia).
  assert (Rm : root_mean_square (entries p None) = Fin (rms r c everywhere z)).
  { rewrite (entries_fin p None everywhere z) by (try exact H; intros; reflexivity). fold r c. apply rms_over. exact Np. }
  rewrite Rm. split; intros K.
  - rewrite (proj2 (Nat.ltb_lt _ _) K). assert (Q : map (h_at p k) (seq 0 c) = map Fin (map (z k) (seq 0 c))).
    { rewrite map_map. apply map_ext_in. intros j I. apply in_seq in I. apply H; [exact K|lia|reflexivity]. }
    rewrite Q. destruct (sort_fin (map (z k) (seq 0 c))) as (l & El & P & A). rewrite El. exists l. split; [exact P|]. split; [exact A|]. cbn [bind shape_like]. rewrite map_map. reflexivity.
  - assert (F : Nat.ltb k r = false) by (apply Nat.ltb_ge; exact K). rewrite F. reflexivity.
Qed.
Print Assumptions c96_index_row_refuted.
(** Two rows of fifteen points: the row is the last one. One row of twenty: there is none. *)
Example c96_index_row_case : (2 * 15 / 20 < 2)%nat /\ (1 <= 1 * 20 / 20)%nat.
Proof. cbn. lia. Qed.
