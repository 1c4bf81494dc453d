(** C22 to C29 and C73. *)
From Coq Require Import String List Bool Arith ZArith Lia Reals Lra.
From Verif Require Import Py SurfaceModel SurfaceSpec SurfaceProofs.
Import ListNotations.
Local Open Scope R_scope.

(** C22. From a surface whose profile was just set, after any sequence of wear calls (also
    failing ones) and profile assignments, the profile and all recorded wear of a point add
    up to the unworn profile. *)
Theorem c22_wear_is_conserved : forall gs g os i j,
  let w := wrun gs (Worn g g []) os in
  at_ (profile w) i j + recorded w i j = at_ (unworn w) i j.
Proof. intros. apply conserved_run. intros a b. unfold recorded. cbn. lra. Qed.
Print Assumptions c22_wear_is_conserved.

(** Wear calls never change the unworn profile, nor a point none of them falls on. *)
Theorem c22_untouched_points : forall gs calls w i j,
  (forall name pts, In (name, pts) calls -> forall d, ~ In (i, j, d) (indices gs pts)) ->
  let w' := wrun gs w (map (fun c => Wear (fst c) (snd c)) calls) in
  unworn w' = unworn w /\ at_ (profile w') i j = at_ (profile w) i j.
Proof.
  intros gs calls. unfold wrun. induction calls as [|[n p] calls IH]; intros w i j H; cbn; [auto|].
  destruct (IH (fst (wear gs w n p)) i j) as [A B].
  - intros name pts Hin. apply (H name pts). now right.
  - cbn in A, B. rewrite A, B. split; [apply wear_unworn|]. apply wear_untouched. apply (H n p). now left.
Qed.
Print Assumptions c22_untouched_points.

(** In terms of grid points: wear at the coordinates of other grid points leaves a point alone. *)
Theorem c22_other_grid_points : forall gs w name cells i j,
  0 < gs < 2 -> (forall a b d, In (a, b, d) cells -> (Z.of_nat a < 2 ^ 16)%Z /\ (Z.of_nat b < 2 ^ 16)%Z /\ (a, b) <> (i, j)) ->
  let w' := fst (wear gs w name (map (fun c => match c with (a, b, d) => (INR b * gs, INR a * gs, d) end) cells)) in
  at_ (profile w') i j = at_ (profile w) i j /\ at_ (unworn w') i j = at_ (unworn w) i j.
Proof.
  intros gs w name cells i j Hg H w'. unfold w'. rewrite wear_unworn. split; [|reflexivity]. apply wear_untouched.
  intros d Hin. rewrite indices_grid in Hin; [|exact Hg|].
  - destruct (H _ _ _ Hin) as (_ & _ & N). now apply N.
  - intros a b d' Hd. destruct (H _ _ _ Hd) as (A & B & _). auto.
Qed.
Print Assumptions c22_other_grid_points.

Example c22_case :
  let g := Grid 3 3 (fun i j => INR (i + j)) in
  let w := wrun 1 (Worn g g []) [Wear "a" [(1, 2, 5)]; Wear "b" [(1, 2, 1)]] in
  at_ (profile w) 2 1 = 3 - 6 /\ recorded w 2 1 = 6.
Proof.
  cbv zeta. unfold wrun, wstep, wear, indices. cbn [map fold_left].
  assert (W1 : wear_index 1 1 = 1%nat).
  { replace 1 with (INR 1 * 1) at 2 by (cbn; lra). apply wear_index_grid; try lra. apply Nat.ltb_lt. vm_compute. reflexivity. }
  assert (W2 : wear_index 1 2 = 2%nat).
  { replace 2 with (INR 2 * 1) at 1 by (cbn; lra). apply wear_index_grid; try lra. apply Nat.ltb_lt. vm_compute. reflexivity. }
  rewrite W1, W2. cbn. unfold recorded. cbn. lra.
Qed.

(** C23. A wear call at the coordinates of a grid point succeeds and lowers exactly this
    point by the depth, for grid spacings below 2 and grids smaller than 2^16. *)
Theorem c23_wear_location : forall gs w name i j d,
  0 < gs < 2 -> (i < rows (profile w))%nat -> (j < cols (profile w))%nat -> (Z.of_nat i < 2 ^ 16)%Z -> (Z.of_nat j < 2 ^ 16)%Z ->
  let r := wear gs w name [(INR j * gs, INR i * gs, d)] in
  snd r = Ok tt /\ at_ (profile (fst r)) i j = at_ (profile w) i j - d /\
  forall a b, (a, b) <> (i, j) -> at_ (profile (fst r)) a b = at_ (profile w) a b.
Proof.
  intros gs w name i j d Hg Hi Hj Bi Bj r.
  assert (I : indices gs [(INR j * gs, INR i * gs, d)] = [(i, j, d)]).
  { apply (indices_grid gs [(i, j, d)] Hg). intros a b d' [E|[]]. injection E as <- <- <-. auto. }
  assert (O : snd r = Ok tt).
  { apply wear_ok. constructor; [|constructor]. rewrite !wear_index_grid' by assumption. auto. }
  split; [exact O|]. unfold r. rewrite (wear_profile _ _ _ _ O), I. cbn. split.
  - rewrite !Nat.eqb_refl. cbn. lra.
  - intros a b Hab. destruct (Nat.eqb_spec i a); [|reflexivity]. destruct (Nat.eqb_spec j b); [|reflexivity]. congruence.
Qed.
Print Assumptions c23_wear_location.

(** For every grid spacing of 2 or more the point of the call is never the one that is lowered. *)
Theorem c23_large_spacing_refuted : forall gs w name i j d,
  2 <= gs -> gs < 1000 -> (Z.of_nat i < 2 ^ 15)%Z -> (Z.of_nat j < 2 ^ 15)%Z ->
  at_ (profile (fst (wear gs w name [(INR j * gs, INR i * gs, d)]))) i j = at_ (profile w) i j.
Proof.
  intros gs w name i j d H2 H1000 Bi Bj. apply wear_untouched. intros d' [E|[]]. injection E as E1 E2 _.
  unfold wear_index in E1. destruct (trunc_bounds (gs / 2)) as [T0 T1]; [lra|].
  set (k := Z.to_nat (trunc (gs / 2))). assert (Ek : trunc (gs / 2) = Z.of_nat k) by (unfold k; now rewrite Z2Nat.id).
  rewrite Ek, <- INR_IZR_INZ in T1.
  assert (K1 : (1 <= k)%nat).
  { destruct k; [|lia]. cbn in T1. lra. }
  assert (K2 : (k < 500)%nat). { apply INR_lt. replace (INR 500) with 500 by (rewrite INR_IZR_INZ; reflexivity). lra. }
  rewrite (uint16_nat _ (i + k)) in E1.
  - rewrite Nat.mod_small in E1; [lia|]. apply Nat2Z.inj_lt. rewrite Nat2Z.inj_add.
    assert (E : (Z.of_nat 65536 = 2 ^ 15 + 2 ^ 15)%Z) by (vm_compute; reflexivity). rewrite E.
    assert (Z.of_nat k < 500)%Z by lia. lia.
  - rewrite plus_INR. replace (INR i * gs / gs) with (INR i) by (field; lra). lra.
Qed.
Print Assumptions c23_large_spacing_refuted.

(** A position beyond 2^16 grid points lowers a point at the start of the surface. *)
Theorem c23_wrap_around_refuted : forall gs k, 0 < gs < 2 ->
  wear_index gs ((65536 + INR k) * gs) = wear_index gs (INR k * gs).
Proof.
  intros gs k [H0 H2]. unfold wear_index.
  rewrite (uint16_nat ((65536 + INR k) * gs / gs + gs / 2) (65536 + k)).
  - rewrite (uint16_nat (INR k * gs / gs + gs / 2) k).
    + rewrite Nat.add_comm, <- (Nat.mul_1_l 65536) at 1. rewrite Nat.mod_add; [reflexivity|].
      intros E. apply (f_equal Z.of_nat) in E. vm_compute in E. discriminate.
    + replace (INR k * gs / gs) with (INR k) by (field; lra). lra.
  - rewrite plus_INR. assert (E : INR 65536 = 65536).
    { rewrite INR_IZR_INZ. f_equal. }
    rewrite E. replace ((65536 + INR k) * gs / gs) with (65536 + INR k) by (field; lra). lra.
Qed.
Print Assumptions c23_wrap_around_refuted.

Example c23_case :
  let g := Grid 3 3 (fun i j => 7) in
  0 < 1 / 1000 < 2 /\ at_ (profile (fst (wear (1 / 1000) (Worn g g []) "w" [(INR 1 * (1 / 1000), INR 2 * (1 / 1000), 4)]))) 2 1 = 3.
Proof.
  cbv zeta. split; [lra|].
  set (g := Grid 3 3 (fun i j => 7)). set (w := Worn g g []).
  destruct (c23_wear_location (1/1000) w "w" 2 1 4) as (_ & E & _); try (cbn; lra); try (cbn; lia).
  rewrite E. cbn. lra.
Qed.

(** C24. A successful call removes the sum of its depths from the profile when its points
    fall on different grid points. *)
Theorem c24_removed_volume : forall gs w name cells,
  0 < gs < 2 -> NoDup (map fst cells) ->
  (forall i j d, In (i, j, d) cells -> (i < rows (profile w))%nat /\ (j < cols (profile w))%nat /\
                                       (Z.of_nat i < 2 ^ 16)%Z /\ (Z.of_nat j < 2 ^ 16)%Z) ->
  let r := wear gs w name (map (fun c => match c with (i, j, d) => (INR j * gs, INR i * gs, d) end) cells) in
  snd r = Ok tt /\
  grid_sum (profile w) - grid_sum (profile (fst r)) = fold_right (fun c acc => snd c + acc) 0 cells.
Proof.
  intros gs w name cells Hg Hn Hb r.
  assert (I : indices gs (map (fun c => match c with (i, j, d) => (INR j * gs, INR i * gs, d) end) cells) = cells).
  { apply indices_grid; [exact Hg|]. intros a b d Hin. destruct (Hb _ _ _ Hin) as (_ & _ & A & B). auto. }
  assert (O : snd r = Ok tt).
  { apply wear_ok. apply Forall_forall. intros p Hin. apply in_map_iff in Hin as ([[i j] d] & <- & Hin).
    destruct (Hb _ _ _ Hin) as (A & B & C & D). rewrite !wear_index_grid'; auto. }
  split; [exact O|]. unfold r. rewrite removed_sum; [|exact O|now rewrite I].
  rewrite <- (depths_indices gs), I. reflexivity.
Qed.
Print Assumptions c24_removed_volume.
(** The same for arbitrary positions that fall on different grid points. *)
Theorem c24_removed_volume_any : forall gs w name pts,
  snd (wear gs w name pts) = Ok tt -> NoDup (map fst (indices gs pts)) ->
  grid_sum (profile w) - grid_sum (profile (fst (wear gs w name pts))) = depths pts.
Proof. exact removed_sum. Qed.
Print Assumptions c24_removed_volume_any.

(** In general a point loses the depth of the last position falling on it. *)
Theorem c24_last_depth_counts : forall gs w name before x y d after,
  snd (wear gs w name (before ++ (x, y, d) :: after)) = Ok tt ->
  (forall p, In p after -> (wear_index gs (snd (fst p)), wear_index gs (fst (fst p))) <> (wear_index gs y, wear_index gs x)) ->
  at_ (profile (fst (wear gs w name (before ++ (x, y, d) :: after)))) (wear_index gs y) (wear_index gs x) =
  at_ (profile w) (wear_index gs y) (wear_index gs x) - d.
Proof.
  intros gs w name before x y d after O H. rewrite (wear_profile _ _ _ _ O). cbn. unfold indices. rewrite map_app. cbn [map].
  assert (E : last_depth (map (fun p => match p with (x, y, d) => (wear_index gs y, wear_index gs x, d) end) before ++
      (wear_index gs y, wear_index gs x, d) :: map (fun p => match p with (x, y, d) => (wear_index gs y, wear_index gs x, d) end) after)
      (wear_index gs y) (wear_index gs x) = Some d).
  { induction before as [|[[a b] c] l IH]; cbn.
    - rewrite last_depth_none, !Nat.eqb_refl; [reflexivity|]. intros d' Hin. apply in_map_iff in Hin as ([[a b] c] & E & Hin).
      injection E as E1 E2 E3. apply (H _ Hin). cbn. now rewrite E1, E2.
    - rewrite IH; [reflexivity|]. apply wear_ok in O. apply wear_ok. cbn in O. now inversion O. }
  rewrite E. lra.
Qed.
Print Assumptions c24_last_depth_counts.

(** So the volume removed is not the volume asked for when two positions coincide. *)
Theorem c24_coinciding_refuted : exists gs w name pts,
  snd (wear gs w name pts) = Ok tt /\
  grid_sum (profile w) - grid_sum (profile (fst (wear gs w name pts))) <> depths pts.
Proof.
  set (g := Grid 1 1 (fun _ _ => 0)). exists 1, (Worn g g []), "w"%string, [(0, 0, 1); (0, 0, 2)].
  assert (W0 : wear_index 1 0 = 0%nat).
  { replace 0 with (INR 0 * 1) by (cbn; lra). apply wear_index_grid; try lra. apply Nat.ltb_lt. vm_compute. reflexivity. }
  unfold wear, indices. cbn [map]. rewrite W0. cbn. split; [reflexivity|]. unfold grid_sum, depths. cbn. lra.
Qed.
Print Assumptions c24_coinciding_refuted.

Example c24_case : NoDup (map fst (indices 1 [(INR 0 * 1, INR 0 * 1, 5); (INR 1 * 1, INR 0 * 1, 6)])) /\
  snd (wear 1 (Worn (Grid 2 2 (fun _ _ => 9)) (Grid 2 2 (fun _ _ => 9)) []) "w" [(INR 0 * 1, INR 0 * 1, 5); (INR 1 * 1, INR 0 * 1, 6)]) = Ok tt.
Proof.
  assert (W : forall k, (k < 3)%nat -> wear_index 1 (INR k * 1) = k).
  { intros k Hk. apply wear_index_grid; try lra. apply Nat.lt_trans with 3%nat; [exact Hk|]. apply Nat.ltb_lt. vm_compute. reflexivity. }
  split.
  - unfold indices. cbn [map fst]. rewrite !W by lia. repeat constructor; cbn; intuition congruence.
  - apply wear_ok. rewrite Forall_forall. intros p [<-|[<-|[]]]; rewrite !W by lia; cbn; lia.
Qed.

(** C25. From an empty surface, after any assignments and deletions of which none divided by
    zero (raising other exceptions is allowed): two of extent, shape and spacing determine the
    third; the extent is the spacing times the shape (in the second direction, when the profile
    was assigned, up to the aspect ratio test of the code); the profile has the shape. *)
Theorem c25_consistent : forall os g, gruns new_geom os g ->
  (forall s, prof g = Some s -> shape g = Some s) /\
  (extent g <> None -> shape g <> None -> spacing g <> None) /\
  (extent g <> None -> spacing g <> None -> shape g <> None) /\
  (shape g <> None -> spacing g <> None -> extent g <> None) /\
  (forall e0 e1 s0 s1 h, extent g = Some (e0, e1) -> shape g = Some (s0, s1) -> spacing g = Some h ->
     e0 = INR s0 * h /\ (e1 = INR s1 * h \/ (prof g <> None /\ Rabs (e0 / e1 - INR s0 / INR s1) <= 1 / 10000))).
Proof.
  intros os g H. destruct (ginv_run os _ _ ginv_new H) as (I1 & I2 & I3 & I4 & I5). repeat split; auto.
  - apply (I5 _ _ _ H0 H1 H2).
  - destruct (I5 _ _ _ H0 H1 H2) as [_ [E|(A & _ & _ & B)]]; cbn in *; auto.
Qed.
Print Assumptions c25_consistent.

(** Without a profile the extent is exactly the shape times the spacing. *)
Theorem c25_exact_without_profile : forall os g e0 e1 s0 s1 h, gruns new_geom os g -> prof g = None ->
  extent g = Some (e0, e1) -> shape g = Some (s0, s1) -> spacing g = Some h -> e0 = INR s0 * h /\ e1 = INR s1 * h.
Proof.
  intros os g e0 e1 s0 s1 h H P E S G. destruct (c25_consistent os g H) as (_ & _ & _ & _ & I).
  destruct (I _ _ _ _ _ E S G) as [A [B|[B _]]]; [auto|congruence].
Qed.
Print Assumptions c25_exact_without_profile.

(** After a ZeroDivisionError the values contradict each other: an extent shorter than the
    spacing gives a shape of zero points with the extent kept. *)
Theorem c25_after_division_by_zero_refuted :
  let g := fst (set_extent (fst (set_spacing new_geom 2)) (1, 1)) in
  snd (set_extent (fst (set_spacing new_geom 2)) (1, 1)) = Err ZeroDivisionError /\
  extent g = Some (1, 1) /\ shape g = Some (0, 0)%nat /\ spacing g = Some 2 /\ 1 <> INR 0 * 2.
Proof.
  cbn. unfold set_extent. cbn. assert (Reqb 2 0 = false) as -> by (apply Reqb_false; lra).
  assert (N : npts 1 2 = 0%nat). { unfold npts. rewrite (trunc_nat (1 / 2) 0); [reflexivity|cbn; lra]. }
  rewrite N. unfold rn. cbn. assert (Reqb 0 0 = true) as -> by (now apply Reqb_true). cbn. repeat split; auto. lra.
Qed.
Print Assumptions c25_after_division_by_zero_refuted.

(** Setting an extent changes a spacing set before whenever the extent is not a multiple of it. *)
Theorem c25_spacing_kept_refuted : forall h e0 e1, 0 < h -> h <= e0 ->
  let g := fst (set_extent (fst (set_spacing new_geom h)) (e0, e1)) in
  (forall k : nat, e0 <> INR k * h) ->
  exists h', spacing g = Some h' /\ h' <> h.
Proof.
  intros h e0 e1 Hh He g Hk. unfold g. cbn. unfold set_extent. cbn [prof spacing shape].
  assert (Reqb h 0 = false) as -> by (apply Reqb_false; lra). cbn [fst snd shape]. cbv zeta.
  destruct (trunc_bounds (e0 / h)) as [T0 T1]. { apply Rle_mult_inv_pos; lra. }
  assert (Q : 1 <= e0 / h). { apply Rmult_le_reg_r with h; [lra|]. unfold Rdiv. rewrite Rmult_assoc, Rinv_l; lra. }
  set (k := npts e0 h). assert (Ek : INR k = IZR (trunc (e0 / h))). { unfold k, npts. rewrite INR_IZR_INZ, Z2Nat.id by exact T0. reflexivity. }
  assert (K0 : INR k <> 0).
  { rewrite Ek. intros E. rewrite E in T1. apply (Hk 1%nat). cbn. assert (e0 / h < 1) by lra. lra. }
  unfold rn. destruct (Reqb (INR k) 0) eqn:E; [apply Reqb_true in E; contradiction|]. cbn.
  exists (e0 / INR k). split; [reflexivity|]. intros E2. apply (Hk k). rewrite <- E2. field. exact K0.
Qed.
Print Assumptions c25_spacing_kept_refuted.

Example c25_case : exists g, gruns new_geom [SetSpacing 1; SetExtent (3, 2); SetProf (3, 2)%nat; SetShape (1, 1)%nat; DelExtent] g /\
  prof g = Some (3, 2)%nat /\ shape g = Some (3, 2)%nat /\ spacing g = None.
Proof.
  cbn. unfold set_extent, set_prof, set_shape. cbn [prof spacing shape extent]. assert (Reqb 1 0 = false) as -> by (apply Reqb_false; lra).
  cbn [fst snd shape]. cbv zeta.
  assert (N3 : npts 3 1 = 3%nat). { unfold npts. rewrite (trunc_nat (3 / 1) 3); [reflexivity|cbn; lra]. }
  assert (N2 : npts 2 1 = 2%nat). { unfold npts. rewrite (trunc_nat (2 / 1) 2); [reflexivity|cbn; lra]. }
  rewrite N3, N2. unfold rn. assert (Reqb (INR 3) 0 = false) as -> by (apply Reqb_false; cbn; lra).
  eexists. repeat split; try discriminate; reflexivity.
Qed.

(** C26. A float marks exactly the points with this height, nan exactly the invalid points. *)
Theorem c26_single_value : forall hs v,
  (forall x, v = Some x -> exists m, mask_of hs (MFloat v) = Ok m /\ length m = length hs /\
     forall k h, nth_error hs k = Some h -> (nth_error m k = Some true <-> h = Some x)) /\
  (v = None -> exists m, mask_of hs (MFloat v) = Ok m /\ length m = length hs /\
     forall k h, nth_error hs k = Some h -> (nth_error m k = Some true <-> h = None)).
Proof.
  intros hs v. split.
  - intros x ->. cbn. eexists. split; [reflexivity|]. split; [apply map_length|]. intros k h E.
    rewrite (map_nth_error _ _ _ E). destruct h as [h|]; cbn; [|split; discriminate].
    split; intros H; [injection H as H; apply Reqb_true in H; congruence|]. injection H as ->. f_equal. now apply Reqb_true.
  - intros ->. cbn. eexists. split; [reflexivity|]. split; [apply map_length|]. intros k h E.
    rewrite (map_nth_error _ _ _ E). destruct h; cbn; split; congruence.
Qed.
Print Assumptions c26_single_value.

(** A list of values, whatever it contains, never marks a point. *)
Theorem c26_list_marks_nothing : forall hs l m, mask_of hs (MSeq l) = Ok m -> Forall (fun b => b = false) m.
Proof. intros hs l m H. exact (mask_seq_false hs l m H). Qed.
Print Assumptions c26_list_marks_nothing.

(** So the intended meaning, a point is marked iff it has one of the values, fails for every
    list containing a height of the profile. *)
Theorem c26_list_refuted : forall hs vs m k x,
  nth_error hs k = Some (Some x) -> In (Some x) vs -> mask_of hs (MSeq (map MFloat vs)) = Ok m ->
  ~ (forall k h, nth_error hs k = Some (Some h) -> (nth_error m k = Some true <-> In (Some h) vs)).
Proof.
  intros hs vs m k x E Hin H C. apply (C k x E) in Hin. apply mask_seq_false in H. rewrite Forall_forall in H.
  apply nth_error_In in Hin. specialize (H _ Hin). discriminate.
Qed.
Print Assumptions c26_list_refuted.

Example c26_case : exists m, mask_of [Some 1; Some 2; None] (MSeq [MFloat (Some 1); MFloat None]) = Ok m /\ m = [false; false; false].
Proof.
  eexists. split; [reflexivity|]. cbn. unfold Reqb. destruct (Req_EM_T 1 1), (Req_EM_T 2 1); reflexivity.
Qed.

(** C27. Adding a number raises every height by it; sums and differences of surfaces of equal
    or unknown spacing are taken pointwise on the common region. *)
Theorem c27_add_number : forall s x i j,
  at_ (heights (add_number s x)) i j = at_ (heights s) i j + x /\
  rows (heights (add_number s x)) = rows (heights s) /\ cols (heights (add_number s x)) = cols (heights s) /\
  gspacing (add_number s x) = gspacing s.
Proof. intros. cbn. auto. Qed.
Print Assumptions c27_add_number.
Theorem c27_add_sub_surfaces : forall resample a b,
  (gspacing a = gspacing b \/ gspacing a = None \/ gspacing b = None) ->
  let s := add_surf resample a b in let d := sub_surf resample a b in
  (forall i j, at_ (heights s) i j = at_ (heights a) i j + at_ (heights b) i j /\
               at_ (heights d) i j = at_ (heights a) i j - at_ (heights b) i j) /\
  (forall r, r = heights s \/ r = heights d ->
     rows r = Nat.min (rows (heights a)) (rows (heights b)) /\ cols r = Nat.min (cols (heights a)) (cols (heights b))) /\
  (gspacing a <> None -> gspacing s = gspacing a /\ gspacing d = gspacing a) /\
  (gspacing b <> None -> gspacing s = gspacing b /\ gspacing d = gspacing b).
Proof.
  intros resample a b H s d. unfold s, d, add_surf, sub_surf, combine_surf.
  destruct (gspacing a) as [ga|], (gspacing b) as [gb|]; cbn in *;
    try (destruct H as [H|[H|H]]; try discriminate; injection H as <-; assert (Reqb ga ga = true) as -> by (now apply Reqb_true));
    cbn; (split; [auto|split; [intros r [->| ->]; auto|split; intros; auto; congruence]]).
Qed.
Print Assumptions c27_add_sub_surfaces.
(** With different spacings the coarser one is resampled to the finer spacing first. *)
Theorem c27_resampled : forall resample a b ga gb,
  gspacing a = Some ga -> gspacing b = Some gb -> ga < gb ->
  (forall i j, at_ (heights (sub_surf resample a b)) i j = at_ (heights a) i j - at_ (resample b ga) i j /\
               at_ (heights (sub_surf resample b a)) i j = at_ (resample b ga) i j - at_ (heights a) i j) /\
  gspacing (sub_surf resample a b) = Some ga /\ gspacing (sub_surf resample b a) = Some ga.
Proof.
  intros resample a b ga gb Ea Eb L. unfold sub_surf, combine_surf. rewrite Ea, Eb.
  assert (Reqb ga gb = false) as -> by (apply Reqb_false; lra). assert (Reqb gb ga = false) as -> by (apply Reqb_false; lra).
  assert (Rltb ga gb = true) as -> by (now apply Rltb_true). assert (Rltb gb ga = false) as -> by (apply Rltb_false; lra).
  cbn. auto.
Qed.
Print Assumptions c27_resampled.
(** Subtracting a number adds it: wrong for every number but zero. *)
Theorem c27_sub_number_refuted : forall s x i j, x <> 0 -> at_ (heights (sub_number s x)) i j <> at_ (heights s) i j - x.
Proof. intros. cbn. lra. Qed.
Print Assumptions c27_sub_number_refuted.
Example c27_case : at_ (heights (sub_number (Surf (Grid 1 1 (fun _ _ => 5)) None) 2)) 0 0 = 7.
Proof. cbn. lra. Qed.

(** C28. After any sequence of rotations and shifts the height at a point is the base height
    at the point moved by the sum of the shifts and then turned by the sum of the angles. *)
Theorem c28_rotations_and_shifts : forall f e os x y,
  let t := total_angle os in let '(dx, dy) := total_shift e os in
  let p := turned t (x + dx, y + dy) in
  height (arun (Analytic f 0 0 0 e) os) x y = f (fst p) (snd p).
Proof.
  intros f e os x y t. destruct (arun_parts os (Analytic f 0 0 0 e)) as (B & _ & SX & SY & RO). cbn in *.
  destruct (total_shift e os) as [dx dy] eqn:E. cbn in SX, SY. rewrite height_alt, B, SX, SY, RO. cbn. unfold t.
  now rewrite !Rplus_0_l.
Qed.
Print Assumptions c28_rotations_and_shifts.
(** The default shift puts the origin of the base function at the middle of the extent, whatever
    the rotation given at construction. *)
Theorem c28_centred : forall f rot ex ey, height (new_analytic f rot None (Some (ex, ey))) (ex / 2) (ey / 2) = f 0 0.
Proof.
  intros f rot ex ey. rewrite height_alt. unfold new_analytic, turned. destruct rot; cbn; f_equal; field.
Qed.
Print Assumptions c28_centred.
(** A combination has the sum or difference of the heights of its parts, before its own
    rotations and shifts. *)
Theorem c28_combination : forall op a b e x y, height (combination op a b e) x y = op (height a x y) (height b x y).
Proof.
  intros. rewrite height_alt. unfold turned. cbn. rewrite cos_0, sin_0, !Rplus_0_r.
  replace (x * 1 - y * 0) with x by lra. replace (x * 0 + y * 1) with y by lra. reflexivity.
Qed.
Print Assumptions c28_combination.
Theorem c28_discretise : forall f e os gs r c i j,
  let t := total_angle os in let '(dx, dy) := total_shift e os in
  let p := turned t (INR i * gs + dx, INR j * gs + dy) in
  at_ (discretise (arun (Analytic f 0 0 0 e) os) gs r c) i j = f (fst p) (snd p).
Proof. intros. exact (c28_rotations_and_shifts f e os (INR i * gs) (INR j * gs)). Qed.
Print Assumptions c28_discretise.
Example c28_case : height (arun (Analytic (fun x y => x + 10 * y) 0 0 0 (Some (4, 2))) [Rotate (PI / 2); Shift None; Shift (Some (1, 5))]) 3 7 = (-(7 + -1 + 5) + 10 * (3 + -2 + 1)).
Proof.
  rewrite height_alt. cbn. unfold turned. cbn. replace (0 + PI / 2) with (PI / 2) by lra. rewrite cos_PI2, sin_PI2. lra.
Qed.

(** C29. For every position on the surface, 'nearest' gives the grid point at or below it, at
    less than one spacing. *)
Theorem c29_point_below : forall g gs y x, 0 < gs -> 0 <= y < INR (rows g) * gs -> 0 <= x < INR (cols g) * gs ->
  exists i j, nearest g gs y x = Ok (at_ g i j) /\ (i < rows g)%nat /\ (j < cols g)%nat /\
    INR i * gs <= y < (INR i + 1) * gs /\ INR j * gs <= x < (INR j + 1) * gs.
Proof.
  assert (P : forall n gs v, 0 < gs -> 0 <= v < INR n * gs ->
    exists k, npindex n (trunc (v / gs)) = Some k /\ (k < n)%nat /\ INR k * gs <= v < (INR k + 1) * gs).
  { intros n gs v Hg [V0 V1]. assert (Q0 : 0 <= v / gs) by (apply Rle_mult_inv_pos; lra).
    assert (V : v = v / gs * gs) by (field; lra). destruct (trunc_bounds _ Q0) as [T0 T1].
    exists (Z.to_nat (trunc (v / gs))). rewrite INR_IZR_INZ, Z2Nat.id by exact T0.
    assert (B : (trunc (v / gs) < Z.of_nat n)%Z).
    { apply lt_IZR. rewrite <- INR_IZR_INZ. apply Rle_lt_trans with (v / gs); [lra|].
      apply Rmult_lt_reg_r with gs; [exact Hg|]. lra. }
    split; [|split].
    - unfold npindex. apply Z.leb_le in T0 as T0'. apply Z.ltb_lt in B as B'. now rewrite T0', B'.
    - lia.
    - rewrite V at 2 3. split; [apply Rmult_le_compat_r|apply Rmult_lt_compat_r]; lra. }
  intros g gs y x Hg Hy Hx. destruct (P _ _ _ Hg Hy) as (i & Ei & Li & Bi). destruct (P _ _ _ Hg Hx) as (j & Ej & Lj & Bj).
  exists i, j. unfold nearest. rewrite Ei, Ej. auto.
Qed.
Print Assumptions c29_point_below.
(** A position in the upper half of a cell never gives the nearest point: the point above is
    strictly closer than the one used. *)
Theorem c29_nearest_refuted : forall g gs (i j : nat) d, 0 < gs -> gs / 2 < d < gs -> (i + 1 < rows g)%nat -> (j < cols g)%nat ->
  nearest g gs (INR i * gs + d) (INR j * gs) = Ok (at_ g i j) /\
  Rabs (INR (i + 1) * gs - (INR i * gs + d)) < Rabs (INR i * gs - (INR i * gs + d)).
Proof.
  intros g gs i j d Hg Hd Hi Hj.
  assert (N : forall n k v, (k < n)%nat -> 0 <= v < 1 -> npindex n (trunc (INR k + v)) = Some k).
  { intros n k v Hk Hv. rewrite (trunc_nat _ k) by lra. unfold npindex.
    assert (Z.leb 0 (Z.of_nat k) = true) as -> by (apply Z.leb_le; lia).
    assert (Z.ltb (Z.of_nat k) (Z.of_nat n) = true) as -> by (apply Z.ltb_lt; lia). cbn. now rewrite Nat2Z.id. }
  split.
  - unfold nearest. replace ((INR i * gs + d) / gs) with (INR i + d / gs) by (field; lra).
    replace (INR j * gs / gs) with (INR j + 0) by (field; lra).
    rewrite !N; try reflexivity; try lia; try lra. split; [apply Rle_mult_inv_pos; lra|].
    apply Rmult_lt_reg_r with gs; [exact Hg|]. replace (d / gs * gs) with d by (field; lra). lra.
  - rewrite plus_INR. cbn [INR]. replace ((INR i + 1) * gs - (INR i * gs + d)) with (gs - d) by lra.
    replace (INR i * gs - (INR i * gs + d)) with (- d) by lra. rewrite Rabs_Ropp, !Rabs_pos_eq; lra.
Qed.
Print Assumptions c29_nearest_refuted.
Example c29_case : nearest (Grid 3 3 (fun i j => INR i * 10 + INR j)) 1 (INR 1 * 1 + 9 / 10) (INR 2 * 1) = Ok 12.
Proof.
  destruct (c29_nearest_refuted (Grid 3 3 (fun i j => INR i * 10 + INR j)) 1 1 2 (9 / 10)) as [E _]; try (cbn; lra); try (cbn; lia).
  rewrite E. cbn. f_equal. lra.
Qed.

(** C73. Between grid points the linear and cubic modes use a spline through the profile. Any
    spline that goes through the grid points gives at a grid point the height of the transposed
    point, ... *)
Theorem c73_transposed : forall spline k gs p i j,
  (forall a b, (a < rows p)%nat -> (b < cols p)%nat -> spline k p gs (INR a * gs) (INR b * gs) = at_ p a b) ->
  (j < rows p)%nat -> (i < cols p)%nat ->
  snd (spline_at spline (Interp p None) gs k false (INR i * gs) (INR j * gs)) = at_ p j i.
Proof. intros spline k gs p i j H Hj Hi. cbn. now apply H. Qed.
Print Assumptions c73_transposed.
(** ... so the modes disagree wherever the profile is not symmetric. *)
Theorem c73_modes_agree_refuted : forall spline k gs p i j,
  (forall a b, (a < rows p)%nat -> (b < cols p)%nat -> spline k p gs (INR a * gs) (INR b * gs) = at_ p a b) ->
  0 < gs -> (i < rows p)%nat -> (j < cols p)%nat -> (j < rows p)%nat -> (i < cols p)%nat -> at_ p i j <> at_ p j i ->
  nearest p gs (INR i * gs) (INR j * gs) <> Ok (snd (spline_at spline (Interp p None) gs k false (INR i * gs) (INR j * gs))).
Proof.
  intros spline k gs p i j H Hg Hi Hj Hj' Hi' D. rewrite (c73_transposed spline k gs p i j H Hj' Hi').
  assert (N : forall n k, (k < n)%nat -> npindex n (trunc (INR k * gs / gs)) = Some k).
  { intros n m Hm. replace (INR m * gs / gs) with (INR m) by (field; lra). rewrite (trunc_nat _ m) by lra. unfold npindex.
    assert (Z.leb 0 (Z.of_nat m) = true) as -> by (apply Z.leb_le; lia).
    assert (Z.ltb (Z.of_nat m) (Z.of_nat n) = true) as -> by (apply Z.ltb_lt; lia). cbn. now rewrite Nat2Z.id. }
  unfold nearest. rewrite !N by assumption. congruence.
Qed.
Print Assumptions c73_modes_agree_refuted.
(** After wear the interpolation uses the new profile; after assigning a profile it still
    uses the old one, unless told to remake it. *)
Theorem c73_fresh_after_wear : forall spline s gs k y x g,
  snd (spline_at spline (i_wear s g) gs k false y x) = spline k g gs x y.
Proof. reflexivity. Qed.
Print Assumptions c73_fresh_after_wear.
Theorem c73_remake : forall spline s gs k y x, snd (spline_at spline s gs k true y x) = spline k (i_profile s) gs x y.
Proof. intros. unfold spline_at. now destruct (i_func s) as [[? ?]|]. Qed.
Print Assumptions c73_remake.
Theorem c73_stale_after_assignment_refuted : forall spline s gs k y x y' x' g,
  let s1 := fst (spline_at spline s gs k false y x) in
  snd (spline_at spline (i_set_profile s1 g) gs k false y' x') = snd (spline_at spline s1 gs k false y' x').
Proof.
  intros. unfold s1, spline_at. destruct (i_func s) as [[k' f]|] eqn:E; cbn.
  - destruct (Nat.eqb_spec k' k); cbn.
    + rewrite E. subst. cbn. now rewrite Nat.eqb_refl.
    + now rewrite Nat.eqb_refl.
  - now rewrite Nat.eqb_refl.
Qed.
Print Assumptions c73_stale_after_assignment_refuted.
Example c73_case : exists spline : nat -> grid -> R -> R -> R -> R,
  let p := Grid 2 2 (fun i j => INR i - INR j) in
  (forall a b, (a < rows p)%nat -> (b < cols p)%nat -> spline 1%nat p 1 (INR a * 1) (INR b * 1) = at_ p a b) /\ at_ p 0 1 <> at_ p 1 0.
Proof. exists (fun _ _ _ x y => x - y). cbn. split; intros; lra. Qed.
