(** Summits (C57) and material ratios (C58). *)
From Coq Require Import Reals List Bool Arith ZArith String Lia Lra FunctionalExtensionality.
From Verif Require Import Py SurfaceModel SurfaceProofs Flt SolverProofs RoughModel RoughSpec RoughProofs RoughTheorems.
Import ListNotations.
Local Open Scope R_scope.

(** ** C57: summits *)
Lemma in_neighbours : forall four i j i' j', (1 <= i)%nat -> (1 <= j)%nat ->
  (In (i', j') (neighbours four i j) <-> adjacent four i j i' j').
Proof.
  intros four i j i' j' Hi Hj. unfold neighbours, adjacent, near. rewrite in_app_iff.
  assert (P : forall a b, (a, b) = (i', j') <-> a = i' /\ b = j') by (intros; split; [intros E; injection E; auto|intros [-> ->]; reflexivity]).
  assert (Q : (i, j) <> (i', j') <-> i <> i' \/ j <> j') by (rewrite P; lia).
  rewrite Q. clear Q. destruct four; cbn [In]; rewrite ?P; split; intros H; try (intuition lia).
Qed.
Lemma summit_test : forall p four z, heights_are p everywhere z -> forall i j,
  b_at (summits_of p p four) i j = true <-> summit p four z i j.
Proof.
  intros p four z H i j. unfold summits_of. cbn [b_at]. unfold summit, interior.
  rewrite !andb_true_iff, !Nat.leb_le, !Nat.ltb_lt, forallb_forall. split.
  - intros ((((A & B) & C) & D) & E). split; [lia|]. intros i' j' Ad.
    assert (I : In (i', j') (neighbours four i j)) by (apply in_neighbours; assumption).
    specialize (E _ I). unfold entry in E. cbn [fst snd] in E. destruct Ad as (N1 & N2 & _). unfold near in N1, N2.
    rewrite (H i' j'), (H i j) in E by (reflexivity || lia). apply Rltb_true. exact E.
  - intros [I E]. repeat split; try lia. intros [i' j'] N. apply in_neighbours in N; [|lia|lia]. specialize (E _ _ N).
    destruct N as (N1 & N2 & _). unfold near in N1, N2. unfold entry. cbn [fst snd]. rewrite (H i' j'), (H i j) by (reflexivity || lia). apply Rltb_true. exact E.
Qed.
(** Without a mask and without a filter exactly the interior points higher than all of their neighbours are marked, in
    an array of the shape of the profile, and the profile is kept. *)
Theorem c57_summits : forall w p gs four z, (2 <= nrows p)%nat -> (2 <= ncols p)%nat -> heights_are p everywhere z ->
  exists s, find_summits w p gs NoMask four None = (p, Ok s) /\ b_rows s = nrows p /\ b_cols s = ncols p /\
    forall i j, b_at s i j = true <-> summit p four z i j.
Proof.
  intros w p gs four z R C H. exists (summits_of p p four). split; [reflexivity|]. cbn [b_rows b_cols summits_of].
  split; [lia|split; [lia|]]. apply summit_test, H.
Qed.
Print Assumptions c57_summits.
(** With other numbers than finite ones: a marked point and its neighbours are not "not a number". *)
Theorem c57_numbers : forall w p gs four p' s i j i' j',
  find_summits w p gs NoMask four None = (p', Ok s) -> b_at s i j = true -> adjacent four i j i' j' ->
  interior p i j /\ h_at p i j <> NaN /\ h_at p i' j' <> NaN /\ fltb (h_at p i' j') (h_at p i j) = true.
Proof.
  intros w p gs four p' s i j i' j' F B A. injection F as <- <-. cbn [b_at summits_of] in B.
  rewrite !andb_true_iff, !Nat.leb_le, !Nat.ltb_lt, forallb_forall in B. destruct B as ((((R & B) & C) & D) & E).
  apply in_neighbours in A; [|assumption|assumption]. specialize (E _ A). unfold entry in E. cbn [fst snd] in E.
  unfold interior. split; [lia|]. destruct (h_at p i' j'), (h_at p i j); try discriminate; repeat split; try discriminate; exact E.
Qed.
Print Assumptions c57_numbers.
(** No two neighbours are marked. *)
Theorem c57_apart : forall w p gs four p' s i j i' j',
  find_summits w p gs NoMask four None = (p', Ok s) -> b_at s i j = true -> b_at s i' j' = true -> ~ adjacent four i j i' j'.
Proof.
  intros w p gs four p' s i j i' j' F B B' A.
  assert (A' : adjacent four i' j' i j).
  { destruct A as (N1 & N2 & N3 & N4). unfold adjacent, near in *. split; [lia|split; [lia|split; [congruence|intros Q; specialize (N4 Q); lia]]]. }
  destruct (c57_numbers _ _ _ _ _ _ _ _ _ _ F B A) as (_ & _ & _ & L). destruct (c57_numbers _ _ _ _ _ _ _ _ _ _ F B' A') as (_ & _ & _ & L').
  destruct (h_at p i j), (h_at p i' j'); cbn in L, L'; try discriminate. apply Rltb_true in L. apply Rltb_true in L'. lra.
Qed.
Print Assumptions c57_apart.
(** A profile with one row or column gives an array of another shape. *)
Theorem c57_shape_refuted : forall w p gs four p' s, (nrows p < 2)%nat \/ (ncols p < 2)%nat ->
  find_summits w p gs NoMask four None = (p', Ok s) -> b_rows s <> nrows p \/ b_cols s <> ncols p.
Proof. intros w p gs four p' s H F. injection F as <- <-. cbn. lia. Qed.
Print Assumptions c57_shape_refuted.

(** A mask array: the points which it marks are removed from the profile of the caller, and neither they nor their
    neighbours are found. *)
Theorem c57_mask : forall w p gs m f four,
  whole p = false -> norm_mask p m = Ok (Some f) ->
  exists p' s, find_summits w p gs m four None = (p', Ok s) /\ nrows p' = nrows p /\ ncols p' = ncols p /\
    (forall i j, h_at p' i j = if f i j then NaN else h_at p i j) /\
    forall z, heights_are p (fun i j => negb (f i j)) z -> forall i j,
      b_at s i j = true <-> interior p i j /\ f i j = false /\
        forall i' j', adjacent four i j i' j' -> f i' j' = false /\ z i' j' < z i j.
Proof.
  intros w p gs m f four W NM. unfold find_summits. rewrite NM, W. cbn [andb]. eexists _, _. split; [reflexivity|].
  cbn [nrows ncols blank h_at]. split; [reflexivity|split; [reflexivity|split; [reflexivity|]]]. intros z H i j.
  unfold summits_of. cbn [b_at nrows ncols blank]. unfold interior.
  rewrite !andb_true_iff, !Nat.leb_le, !Nat.ltb_lt, forallb_forall. split.
  - intros ((((A & B) & C) & D) & E). split; [lia|].
    assert (FF : forall i' j', adjacent four i j i' j' -> f i j = false /\ f i' j' = false /\ z i' j' < z i j).
    { intros i' j' Ad. assert (I : In (i', j') (neighbours four i j)) by (apply in_neighbours; assumption).
      specialize (E _ I). unfold entry in E. cbn [fst snd h_at blank] in E. destruct Ad as (N1 & N2 & _). unfold near in N1, N2.
      destruct (f i' j') eqn:F'; [discriminate|]. destruct (f i j) eqn:F0; [destruct (h_at p i' j'); discriminate|].
      rewrite (H i' j'), (H i j) in E by (lia || (cbn; rewrite ?F', ?F0; reflexivity)). split; [reflexivity|split; [reflexivity|]]. apply Rltb_true. exact E. }
    split; [apply (FF (i - 1)%nat j); unfold adjacent, near; repeat split; try lia; intros Q; injection Q; lia|].
    intros i' j' Ad. apply FF in Ad. tauto.
  - intros (I & F0 & E). repeat split; try lia. intros [i' j'] N. apply in_neighbours in N; [|lia|lia]. destruct (E _ _ N) as [F' L].
    destruct N as (N1 & N2 & _). unfold near in N1, N2. unfold entry. cbn [fst snd h_at blank]. rewrite F', F0.
    rewrite (H i' j'), (H i j) by (lia || (cbn; rewrite ?F', ?F0; reflexivity)). apply Rltb_true. exact L.
Qed.
Print Assumptions c57_mask.
(** So the mask "not a number", which should leave out such points, erases the whole profile of the caller and nothing is
    found. *)
Theorem c57_nan_mask_refuted : forall w p gs four, whole p = false ->
  exists p' s, find_summits w p gs (FloatMask NaN) four None = (p', Ok s) /\
    (forall i j, h_at p' i j = NaN) /\ forall i j, b_at s i j = false.
Proof.
  intros w p gs four W. unfold find_summits. cbn [norm_mask is_nan]. rewrite W. eexists _, _. split; [reflexivity|].
  assert (A : forall i j, h_at (blank p (fun i j => negb (is_nan (h_at p i j)))) i j = NaN) by (intros; cbn; destruct (h_at p i j); reflexivity).
  split; [exact A|]. intros i j. cbn [b_at summits_of]. apply andb_false_intro2. unfold neighbours. cbn [app forallb]. unfold entry. rewrite !A. reflexivity.
Qed.
Print Assumptions c57_nan_mask_refuted.

(** The summit density is the share of the summits among all points. *)
Theorem c57_density : forall w s gs curved nf four z n, lower n = "sds"%string ->
  (nf = false -> good_lstsq (lstsq w) /\ whole (profile_of s) = false) ->
  heights_are (profile_of s) everywhere z -> some_used (profile_of s) everywhere ->
  exists zf, (if nf : bool then zf = z else flattened (if curved : bool then 2%nat else 1%nat) (nrows (profile_of s)) (ncols (profile_of s)) everywhere z zf) /\
    forall u : bmask, (forall i j, (i < nrows (profile_of s))%nat -> (j < ncols (profile_of s))%nat -> (u i j = true <-> summit (profile_of s) four zf i j)) ->
    (2 <= nrows (profile_of s))%nat -> (2 <= ncols (profile_of s))%nat ->
    snd (roughness w s (Name n) gs NoMask curved nf None four) =
      Ok (VNum (Fin (average (nrows (profile_of s)) (ncols (profile_of s)) everywhere (fun i j => if u i j then 1 else 0)))).
Proof.
  intros w s gs curved nf four z n Hn G H SU.
  destruct (rough_heights' w s gs NoMask curved nf None four z G I H) as (eta & mk & g & zf & NM & _ & K & R & C & Hh & Fl & E).
  cbn in NM. injection NM as <-. change (used (profile_of s) NoMask) with everywhere in *.
  exists zf. split; [exact Fl|]. intros u U R2 C2. rewrite E. cbn [many]. unfold one. rewrite Hn. cbv zeta.
  cbn [is_in existsb String.eqb Ascii.eqb Bool.eqb orb andb find_summits norm_mask snd bind].
  assert (HE : heights_are eta everywhere zf) by exact Hh.
  assert (P : 0 < number (nrows (profile_of s)) (ncols (profile_of s)) everywhere) by (apply number_pos, SU).
  assert (L : INR (List.length (entries eta None)) = number (nrows (profile_of s)) (ncols (profile_of s)) everywhere).
  { unfold entries. rewrite map_length, R, C. rewrite (keep_fst_snd None everywhere) by reflexivity. apply length_over. }
  assert (M : INR (List.length (marked (summits_of eta eta four))) = over (nrows (profile_of s)) (ncols (profile_of s)) everywhere (fun i j => if u i j then 1 else 0)).
  { unfold marked. cbn [b_rows b_cols summits_of].
    replace (nrows eta - 2 + 2)%nat with (nrows (profile_of s)) by lia. replace (ncols eta - 2 + 2)%nat with (ncols (profile_of s)) by lia.
    change (fun ij : nat * nat => b_at (summits_of eta eta four) (fst ij) (snd ij)) with (fst_snd (b_at (summits_of eta eta four))).
    rewrite length_over. unfold number, over. apply sum_to_ext. intros i Hi. apply sum_to_ext. intros j Hj. cbn [everywhere].
    assert (Q : b_at (summits_of eta eta four) i j = true <-> u i j = true).
    { rewrite (summit_test eta four zf HE), (U i j Hi Hj). unfold summit, interior. rewrite R, C. reflexivity. }
    change (everywhere i j) with true. cbn iota. destruct (b_at (summits_of eta eta four) i j), (u i j); try reflexivity; exfalso; destruct Q as [Q1 Q2];
      [discriminate (Q1 eq_refl)|discriminate (Q2 eq_refl)]. }
  rewrite L, M, fdiv_fin' by lra. reflexivity.
Qed.
Print Assumptions c57_density.

(** Curvatures: at every summit found without a mask the curvature is a positive number. *)
Theorem c57_curvature : forall w p gs four z p' s g, heights_are p everywhere z -> g <> 0 ->
  find_summits w p gs NoMask four None = (p', Ok s) ->
  exists l, summit_curvatures p s (Some g) = Ok (map Fin l) /\ Forall (fun k => 0 < k) l /\ List.length l = List.length (marked s).
Proof.
  intros w p gs four z p' s g H G F. injection F as <- <-.
  set (cv := fun ij : nat * nat => - (1 / 2) * (z (fst ij - 1)%nat (snd ij) + z (fst ij + 1)%nat (snd ij) + z (fst ij) (snd ij - 1)%nat + z (fst ij) (snd ij + 1)%nat - 4 * z (fst ij) (snd ij)) / (g * g)).
  exists (map cv (marked (summits_of p p four))). rewrite map_length. assert (GG : 0 < g * g) by nra. split; [|split; [|reflexivity]].
  - cbn [summit_curvatures]. f_equal. rewrite map_map. apply map_ext_in. intros [i j] I. apply filter_In in I. destruct I as [I B]. cbn [fst snd] in B.
    apply (summit_test p four z H) in B. destruct B as [N _]. unfold interior in N. unfold curvature, cv. cbn [fst snd].
    rewrite (H (i - 1)%nat j), (H (i + 1)%nat j), (H i (j - 1)%nat), (H i (j + 1)%nat), (H i j) by (reflexivity || lia).
    cbn [fadd fsub fmul fneg]. rewrite fdiv_fin' by lra. reflexivity.
  - apply Forall_forall. intros k I. apply in_map_iff in I. destruct I as ([i j] & <- & I). apply filter_In in I. destruct I as [_ B]. cbn [fst snd] in B.
    apply (summit_test p four z H) in B. destruct B as [N A]. unfold interior in N. unfold cv. cbn [fst snd].
    assert (A1 : z (i - 1)%nat j < z i j) by (apply A; unfold adjacent, near; repeat split; try lia; intros Q; injection Q; lia).
    assert (A2 : z (i + 1)%nat j < z i j) by (apply A; unfold adjacent, near; repeat split; try lia; intros Q; injection Q; lia).
    assert (A3 : z i (j - 1)%nat < z i j) by (apply A; unfold adjacent, near; repeat split; try lia; intros Q; injection Q; lia).
    assert (A4 : z i (j + 1)%nat < z i j) by (apply A; unfold adjacent, near; repeat split; try lia; intros Q; injection Q; lia).
    apply Rdiv_lt_0_compat; [lra|exact GG].
Qed.
Print Assumptions c57_curvature.
(** The curvature parameter of an array needs the grid spacing, and its absence is not reported by the [ValueError]
    of the other parameters which need it ('sdr', 'sal'). *)
Theorem c57_curvature_refuted : forall w p m nf curved four n1 n2, lower n1 = "ssc"%string -> lower n2 = "sdr"%string \/ lower n2 = "sal"%string ->
  fair p m -> (nf = false -> exists z, good_lstsq (lstsq w) /\ whole p = false /\ heights_are p (used p m) z) ->
  (m <> NoMask -> whole p = false) ->
  snd (roughness w (OfArray p) (Name n1) None m curved nf None four) = Err TypeError /\
  snd (roughness w (OfArray p) (Name n2) None m curved nf None four) = Err ValueError.
Proof.
  intros w p m nf curved four n1 n2 H1 H2 F G W.
  destruct (norm_mask_used p m F) as (mk & NM & K).
  assert (V : exists eta, (whole eta = whole p) /\ forall name, snd (roughness w (OfArray p) name None m curved nf None four) = snd (many w eta mk None None four name)).
  { unfold roughness. cbn [check_surface]. rewrite NM. destruct nf.
    - exists p. split; reflexivity.
    - destruct (G eq_refl) as (z & G1 & G2 & G3). destruct (used_array _ _ _ NM) as [FA UA].
      destruct (subtract_fin w p (if curved then 2 else 1)%nat _ z G1 FA G2) as (eta & k & Q & R & C & WE & _).
      { intros i j Hi Hj U. rewrite UA, K in U. apply G3; assumption. }
      rewrite Q. exists eta. split; [|reflexivity]. unfold subtract_polynomial in Q. destruct (poly_mask _ _); [|discriminate]. cbn [bind] in Q.
      destruct (lstsq w _ _ _); [|discriminate]. destruct (existsb _ _); [discriminate|]. destruct (_ && _); [discriminate|]. injection Q as <- _. reflexivity. }
  destruct V as (eta & WE & V). rewrite !V. cbn [many]. unfold one. split.
  - rewrite H1. cbv zeta. cbn [is_in existsb String.eqb Ascii.eqb Bool.eqb orb andb]. unfold find_summits.
    destruct mk as [f|]; cbn [norm_mask]; [|reflexivity]. rewrite !Nat.eqb_refl. cbn [andb].
    replace (whole eta) with false; [reflexivity|]. rewrite WE. symmetry. apply W. intros ->. discriminate.
  - destruct H2 as [-> | ->]; reflexivity.
Qed.
Print Assumptions c57_curvature_refuted.

(** Example: one summit in the middle. *)
Definition peak : arr := Arr false 3 3 (fun i j => if Nat.eqb i 1 && Nat.eqb j 1 then Fin 1 else Fin 0).
Definition peak_z (i j : nat) : R := if Nat.eqb i 1 && Nat.eqb j 1 then 1 else 0.
Example c57_case : heights_are peak everywhere peak_z /\ some_used peak everywhere /\ summit peak false peak_z 1 1.
Proof.
  split; [|split].
  - intros i j _ _ _. cbn [h_at peak]. unfold peak_z. destruct (_ && _); reflexivity.
  - exists 0%nat, 0%nat. cbn. repeat split; lia.
  - split; [unfold interior; cbn; lia|]. intros i' j' (_ & _ & N & _). unfold peak_z.
    destruct (Nat.eqb i' 1 && Nat.eqb j' 1) eqn:E; [|cbn; lra]. apply andb_true_iff in E. rewrite !Nat.eqb_eq in E. destruct E as [-> ->]. contradiction.
Qed.
Example c57_mask_case : norm_mask peak (ArrMask 3 3 (fun _ _ => true)) = Ok (Some (fun _ _ => true)). Proof. reflexivity. Qed.

(** ** C58: material and void ratios *)
Lemma pymin_fin : forall l, l <> [] -> exists x, pymin (map Fin l) = Ok (Fin x) /\ In x l /\ forall y, In y l -> x <= y.
Proof.
  intros [|a l] N; [contradiction|]. cbn. clear N.
  assert (G : forall l a, exists x, fold_left (fun a b => if fltb b a then b else a) (map Fin l) (Fin a) = Fin x /\ In x (a :: l) /\ forall y, In y (a :: l) -> x <= y).
  { induction l0 as [|b l0 IH]; intros a0.
    - exists a0. cbn. repeat split; [left; reflexivity|]. intros y [->|[]]. lra.
    - cbn [map fold_left]. replace (if fltb (Fin b) (Fin a0) then Fin b else Fin a0) with (Fin (if Rltb b a0 then b else a0)) by (cbn; destruct (Rltb b a0); reflexivity).
      destruct (IH (if Rltb b a0 then b else a0)) as (x & E & I & M). exists x. split; [exact E|]. split.
      + destruct I as [<-|I]; [destruct (Rltb b a0); [right; left|left]; reflexivity|right; right; exact I].
      + assert (Q : x <= (if Rltb b a0 then b else a0)) by (apply M; left; reflexivity).
        intros y [<-|[<-|I']].
        * destruct (Rltb b a0) eqn:T; [apply Rltb_true in T|]; lra.
        * destruct (Rltb b a0) eqn:T; [|apply Rltb_false in T]; lra.
        * apply M. right. exact I'. }
  destruct (G l a) as (x & E & I & M). exists x. rewrite E. auto.
Qed.
Lemma pymax_fin : forall l, l <> [] -> exists x, pymax (map Fin l) = Ok (Fin x) /\ In x l /\ forall y, In y l -> y <= x.
Proof.
  intros [|a l] N; [contradiction|]. cbn. clear N.
  assert (G : forall l a, exists x, fold_left (fun a b => if fltb a b then b else a) (map Fin l) (Fin a) = Fin x /\ In x (a :: l) /\ forall y, In y (a :: l) -> y <= x).
  { induction l0 as [|b l0 IH]; intros a0.
    - exists a0. cbn. repeat split; [left; reflexivity|]. intros y [->|[]]. lra.
    - cbn [map fold_left]. replace (if fltb (Fin a0) (Fin b) then Fin b else Fin a0) with (Fin (if Rltb a0 b then b else a0)) by (cbn; destruct (Rltb a0 b); reflexivity).
      destruct (IH (if Rltb a0 b then b else a0)) as (x & E & I & M). exists x. split; [exact E|]. split.
      + destruct I as [<-|I]; [destruct (Rltb a0 b); [right; left|left]; reflexivity|right; right; exact I].
      + assert (Q : (if Rltb a0 b then b else a0) <= x) by (apply M; left; reflexivity).
        intros y [<-|[<-|I']].
        * destruct (Rltb a0 b) eqn:T; [apply Rltb_true in T|]; lra.
        * destruct (Rltb a0 b) eqn:T; [|apply Rltb_false in T]; lra.
        * apply M. right. exact I'. }
  destruct (G l a) as (x & E & I & M). exists x. rewrite E. auto.
Qed.
Lemma highest_unique : forall r c u z x y, highest r c u z x -> highest r c u z y -> x = y.
Proof.
  intros r c u z x y ((i & j & Hi & Hj & U & ->) & A) ((i' & j' & Hi' & Hj' & U' & ->) & B). apply Rle_antisym; [apply B|apply A]; assumption.
Qed.
Lemma py_over : forall r c u z, (exists i j, (i < r)%nat /\ (j < c)%nat /\ u i j = true) ->
  exists lo hi, pymin (map Fin (map (fst_snd z) (filter (fst_snd u) (points r c)))) = Ok (Fin lo) /\ lowest r c u z lo /\
    pymax (map Fin (map (fst_snd z) (filter (fst_snd u) (points r c)))) = Ok (Fin hi) /\ highest r c u z hi.
Proof.
  intros r c u z S. destruct (pymin_fin _ (chosen_nonempty r c u z S)) as (x & E & I & M). destruct (pymax_fin _ (chosen_nonempty r c u z S)) as (x' & E' & I' & M').
  assert (AL : forall i j, (i < r)%nat -> (j < c)%nat -> u i j = true -> In (z i j) (map (fst_snd z) (filter (fst_snd u) (points r c)))).
  { intros i j Hi Hj U. apply in_map_iff. exists (i, j). split; [reflexivity|]. apply filter_In. split; [apply in_points; split; assumption|exact U]. }
  assert (EX : forall y, In y (map (fst_snd z) (filter (fst_snd u) (points r c))) -> exists i j, (i < r)%nat /\ (j < c)%nat /\ u i j = true /\ y = z i j).
  { intros y Iy. apply in_map_iff in Iy. destruct Iy as ([i j] & <- & Iy). apply filter_In in Iy. destruct Iy as [Iy U]. apply in_points in Iy. exists i, j. tauto. }
  exists x, x'. split; [exact E|split; [split; [apply EX, I|intros; apply M, AL; assumption]|split; [exact E'|split; [apply EX, I'|intros; apply M', AL; assumption]]]].
Qed.
Lemma map_fin_map : forall {A} (g : flt -> flt) (f : R -> R) (h : A -> R) l, (forall x, g (Fin x) = Fin (f x)) ->
  map g (map Fin (map h l)) = map Fin (map (fun a => f (h a)) l).
Proof. intros A g f h l H. rewrite !map_map. apply map_ext. intros a. apply H. Qed.
Lemma over_minus : forall r c u f g, over r c u (fun i j => f i j - g i j) = over r c u f - over r c u g.
Proof.
  intros. rewrite (over_ext r c u _ (fun i j => f i j + -1 * g i j)) by (intros; ring). rewrite over_plus, over_scal. ring.
Qed.
Lemma over_const : forall r c u x, over r c u (fun _ _ => x) = x * number r c u.
Proof. intros. unfold number. rewrite <- over_scal. apply over_ext. intros. ring. Qed.
Lemma norm_mask_counted : forall p m, fair p m -> exists mk, norm_mask p m = Ok mk /\ forall i j, keep (inverse mk) (i, j) = counted p m i j.
Proof.
  intros p m F. destruct (norm_mask_used p m F) as (mk & E & K). exists mk. split; [exact E|]. intros i j. unfold counted.
  destruct m; cbn in E; [injection E as <-; reflexivity| | |]; (destruct mk as [f|]; [cbn [inverse keep fst snd]; rewrite <- K; reflexivity|]);
    exfalso; revert E; repeat match goal with |- context [if ?b then _ else _] => destruct b end; discriminate.
Qed.
(** What is computed: a list with one number for each counted point. *)
Theorem c58_values : forall p m z h gs lo hi, let r := nrows p in let c := ncols p in let u := counted p m in
  fair p m -> heights_are p u z -> lowest r c u z lo -> highest r c u z hi -> lo < hi ->
  exists pts, (forall i j, In (i, j) pts <-> (i < r)%nat /\ (j < c)%nat /\ u i j = true) /\ INR (List.length pts) = number r c u /\
  get_mat_vr (Fin h) p false m true gs =
    Ok (map (fun ij => Fin (if Rltb h (z (fst ij) (snd ij)) then over r c u (fun i j => z i j - h) / over r c u (fun i j => z i j - lo) else 0)) pts) /\
  get_mat_vr (Fin h) p true m true gs =
    Ok (map (fun ij => Fin (if Rltb h (z (fst ij) (snd ij)) then 0 else over r c u (fun i j => h - z i j) / over r c u (fun i j => hi - z i j))) pts).
Proof.
  intros p m z h gs lo hi r c u F H Lo Hi D. exists (filter (fst_snd u) (points r c)).
  assert (S : exists i j, (i < r)%nat /\ (j < c)%nat /\ u i j = true) by (destruct Lo as ((i & j & Hi' & Hj & U & _) & _); exists i, j; auto).
  destruct (py_over r c u z S) as (lo' & hi' & PL & Lo' & PH & Hi').
  assert (lo' = lo) by (apply (lowest_unique r c u z); assumption). assert (hi' = hi) by (apply (highest_unique r c u z); assumption). subst lo' hi'.
  destruct (norm_mask_counted p m F) as (mk & NM & K). fold u in K.
  assert (EN := entries_fin p (inverse mk) u z K H). fold r c in EN.
  set (L := map (fst_snd z) (filter (fst_snd u) (points r c))) in *.
  assert (TP : 0 < over r c u (fun i j => z i j - lo)).
  { destruct (Rle_lt_dec (over r c u (fun i j => z i j - lo)) 0) as [N|P]; [|exact P]. exfalso.
    assert (Z := over_null r c u (fun i j => z i j - lo) ltac:(intros i j A B C; destruct Lo as [_ Q]; specialize (Q i j A B C); lra) N).
    destruct Hi as ((i & j & A & B & C & E) & _). specialize (Z i j A B C). cbn in Z. lra. }
  assert (TV : 0 < over r c u (fun i j => hi - z i j)).
  { destruct (Rle_lt_dec (over r c u (fun i j => hi - z i j)) 0) as [N|P]; [|exact P]. exfalso.
    assert (Z := over_null r c u (fun i j => hi - z i j) ltac:(intros i j A B C; destruct Hi as [_ Q]; specialize (Q i j A B C); lra) N).
    destruct Lo as ((i & j & A & B & C & E) & _). specialize (Z i j A B C). cbn in Z. lra. }
  assert (N : Fin (INR (List.length (map Fin L))) = Fin (number r c u)) by (unfold L; rewrite !map_length, length_over; reflexivity).
  assert (SU : forall x, fsum (map (fun y => fsub y (Fin x)) (map Fin L)) = Fin (over r c u (fun i j => z i j - x))).
  { intros x. unfold L. rewrite (map_fin_map (fun y => fsub y (Fin x)) (fun y => y - x)) by reflexivity. rewrite fsum_fin. f_equal.
    change (fun a => fst_snd z a - x) with (fst_snd (fun i j => z i j - x)). apply total_over. }
  split; [|split; [apply length_over|]].
  { intros i j. rewrite filter_In, in_points. unfold fst_snd. cbn [fst snd]. tauto. }
  assert (O : forall v, get_mat_vr (Fin h) p v m true gs = mat_vr (Fin h) p v mk true gs).
  { intros v. unfold get_mat_vr. rewrite NM, andb_false_r. reflexivity. }
  rewrite !O. unfold mat_vr. rewrite !andb_false_r. rewrite EN, PL, PH. cbn [bind]. rewrite N, !SU. cbn [fmul fsub fadd fneg].
  unfold L. rewrite !map_map. split; f_equal; apply map_ext; intros [i j]; cbn [fltb fmul fsub fadd fneg]; unfold fst_snd; cbn [fst snd].
  - rewrite fdiv_fin' by lra. destruct (Rltb h (z i j)); f_equal; field; lra.
  - assert (TE : number r c u * (hi + - lo) + - over r c u (fun i j => z i j - lo) = over r c u (fun i j => hi - z i j)).
    { rewrite !over_minus, !over_const. ring. }
    rewrite TE.
    rewrite fdiv_fin' by lra. destruct (Rltb h (z i j)); f_equal.
    + match goal with |- ?a / _ = 0 => replace a with 0 end; [unfold Rdiv; ring|]. rewrite !over_minus, !over_const. ring.
    + f_equal. rewrite !over_minus, !over_const. ring.
Qed.
Print Assumptions c58_values.

Lemma over_lt : forall r c u f g, (forall i j, (i < r)%nat -> (j < c)%nat -> u i j = true -> f i j <= g i j) ->
  (exists i j, (i < r)%nat /\ (j < c)%nat /\ u i j = true /\ f i j < g i j) -> over r c u f < over r c u g.
Proof.
  intros r c u f g H (i & j & Hi & Hj & U & L). pose proof (over_le r c u f g H) as LE.
  destruct (Rlt_le_dec (over r c u f) (over r c u g)) as [Q|Q]; [exact Q|]. exfalso.
  assert (Z := over_null r c u (fun i j => g i j - f i j) ltac:(intros i' j' A B C; specialize (H i' j' A B C); lra)).
  rewrite over_minus in Z. specialize (Z ltac:(lra) i j Hi Hj U). cbn in Z. lra.
Qed.
Lemma material_all : forall r c u z h, (forall i j, (i < r)%nat -> (j < c)%nat -> u i j = true -> h <= z i j) ->
  material_above r c u z h = over r c u (fun i j => z i j - h).
Proof. intros. unfold material_above. apply over_ext. intros i j A B C. specialize (H i j A B C). apply Rmax_right. lra. Qed.
Lemma void_all : forall r c u z h, (forall i j, (i < r)%nat -> (j < c)%nat -> u i j = true -> z i j <= h) ->
  void_below r c u z h = over r c u (fun i j => h - z i j).
Proof. intros. unfold void_below. apply over_ext. intros i j A B C. specialize (H i j A B C). apply Rmax_right. lra. Qed.
Lemma div_lt : forall a b d, 0 < d -> a < b -> a / d < b / d.
Proof. intros a b d D L. unfold Rdiv. apply Rmult_lt_compat_r; [apply Rinv_0_lt_compat, D|exact L]. Qed.

(** Below the lowest height the numbers are right: all are the same, the material above the height over all material. *)
Theorem c58_below : forall p m z h gs lo hi, let r := nrows p in let c := ncols p in let u := counted p m in
  fair p m -> heights_are p u z -> lowest r c u z lo -> highest r c u z hi -> lo < hi -> h < lo ->
  exists n, (0 < n)%nat /\
    get_mat_vr (Fin h) p false m true gs = Ok (repeat (Fin (material_above r c u z h / material_above r c u z lo)) n).
Proof.
  intros p m z h gs lo hi r c u F H Lo Hi D B. destruct (c58_values p m z h gs lo hi F H Lo Hi D) as (pts & P & N & E & _). fold r c u in P, N, E.
  exists (List.length pts). split.
  - destruct Lo as ((i & j & A1 & A2 & A3 & _) & _). destruct pts; [exfalso; apply (proj2 (P i j)); auto|cbn; lia].
  - rewrite E. f_equal. destruct Lo as [_ LL]. rewrite (material_all r c u z lo) by exact LL. rewrite (material_all r c u z h).
    2:{ intros i j A1 A2 A3. specialize (LL i j A1 A2 A3). lra. }
    assert (IN : forall ij, In ij pts -> h < z (fst ij) (snd ij)).
    { intros [i j] I. apply P in I. destruct I as (A1 & A2 & A3). specialize (LL i j A1 A2 A3). cbn [fst snd]. lra. }
    clear P N E. induction pts as [|a pts IH]; [reflexivity|]. cbn [map repeat List.length]. f_equal.
    + rewrite (proj2 (Rltb_true _ _)) by (apply IN; left; reflexivity). reflexivity.
    + apply IH. intros ij I. apply IN. right. exact I.
Qed.
Print Assumptions c58_below.

(** Between the lowest and the highest height no number of the result is the ratio of the material above the height,
    and none is the ratio of the void below it: all are too small. *)
Theorem c58_ratio_refuted : forall p m z h gs lo hi, let r := nrows p in let c := ncols p in let u := counted p m in
  fair p m -> heights_are p u z -> lowest r c u z lo -> highest r c u z hi -> lo < h < hi ->
  exists mat void, get_mat_vr (Fin h) p false m true gs = Ok (map Fin mat) /\ get_mat_vr (Fin h) p true m true gs = Ok (map Fin void) /\
    INR (List.length mat) = number r c u /\ INR (List.length void) = number r c u /\
    Forall (fun x => x < material_above r c u z h / material_above r c u z lo) mat /\
    Forall (fun x => x < void_below r c u z h / void_below r c u z hi) void.
Proof.
  intros p m z h gs lo hi r c u F H Lo Hi [D1 D2]. destruct (c58_values p m z h gs lo hi F H Lo Hi ltac:(lra)) as (pts & P & N & E & V). fold r c u in P, N, E, V.
  rewrite E, V.
  exists (map (fun ij => if Rltb h (z (fst ij) (snd ij)) then over r c u (fun i j => z i j - h) / over r c u (fun i j => z i j - lo) else 0) pts).
  exists (map (fun ij => if Rltb h (z (fst ij) (snd ij)) then 0 else over r c u (fun i j => h - z i j) / over r c u (fun i j => hi - z i j)) pts).
  split; [rewrite map_map; reflexivity|split; [rewrite map_map; reflexivity|]]. rewrite !map_length. split; [exact N|split; [exact N|]].
  destruct Lo as [(i0 & j0 & A1 & A2 & A3 & A4) LL]. destruct Hi as [(i1 & j1' & B1 & B2 & B3 & B4) HH].
  rewrite (material_all r c u z lo) by exact LL. rewrite (void_all r c u z hi) by exact HH.
  assert (T1 : 0 < over r c u (fun i j => z i j - lo)).
  { rewrite <- (over_zero r c u). apply over_lt; [intros i j C1 C2 C3; specialize (LL i j C1 C2 C3); lra|]. exists i1, j1'. repeat split; try assumption. lra. }
  assert (T2 : 0 < over r c u (fun i j => hi - z i j)).
  { rewrite <- (over_zero r c u). apply over_lt; [intros i j C1 C2 C3; specialize (HH i j C1 C2 C3); lra|]. exists i0, j0. repeat split; try assumption. lra. }
  assert (M1 : over r c u (fun i j => z i j - h) < material_above r c u z h).
  { apply over_lt; [intros; apply Rmax_r|]. exists i0, j0. repeat split; try assumption. rewrite Rmax_left; lra. }
  assert (M2 : 0 < material_above r c u z h).
  { rewrite <- (over_zero r c u). apply over_lt; [intros; apply Rmax_l|]. exists i1, j1'. repeat split; try assumption. rewrite Rmax_right; lra. }
  assert (M3 : over r c u (fun i j => h - z i j) < void_below r c u z h).
  { apply over_lt; [intros; apply Rmax_r|]. exists i1, j1'. repeat split; try assumption. rewrite Rmax_left; lra. }
  assert (M4 : 0 < void_below r c u z h).
  { rewrite <- (over_zero r c u). apply over_lt; [intros; apply Rmax_l|]. exists i0, j0. repeat split; try assumption. rewrite Rmax_right; lra. }
  split; apply Forall_forall; intros x I; apply in_map_iff in I; destruct I as ([i j] & <- & _); destruct (Rltb h _).
  - apply div_lt; assumption.
  - apply Rdiv_lt_0_compat; assumption.
  - apply Rdiv_lt_0_compat; assumption.
  - apply div_lt; assumption.
Qed.
Print Assumptions c58_ratio_refuted.
(** Above the average height the numbers for the points above the height are negative. *)
Theorem c58_negative_refuted : forall p m z h gs lo hi, let r := nrows p in let c := ncols p in let u := counted p m in
  fair p m -> heights_are p u z -> lowest r c u z lo -> highest r c u z hi -> average r c u z < h < hi ->
  exists mat x, get_mat_vr (Fin h) p false m true gs = Ok (map Fin mat) /\ In x mat /\ x < 0.
Proof.
  intros p m z h gs lo hi r c u F H Lo Hi [D1 D2].
  assert (SU : exists i j, (i < r)%nat /\ (j < c)%nat /\ u i j = true) by (destruct Lo as ((i & j & A1 & A2 & A3 & _) & _); eauto).
  assert (NP := number_pos r c u SU).
  assert (AV : over r c u z < h * number r c u).
  { unfold average in D1. apply (Rmult_lt_compat_r _ _ _ NP) in D1. unfold Rdiv in D1. rewrite Rmult_assoc, Rinv_l, Rmult_1_r in D1 by lra. exact D1. }
  assert (LH : lo < hi).
  { destruct (Rlt_le_dec lo hi) as [Q|Q]; [exact Q|]. exfalso. destruct Lo as [_ LL].
    assert (over r c u (fun _ _ => hi) <= over r c u z) by (apply over_le; intros i j A1 A2 A3; specialize (LL i j A1 A2 A3); lra).
    rewrite over_const in H0. nra. }
  destruct (c58_values p m z h gs lo hi F H Lo Hi LH) as (pts & P & N & E & _). fold r c u in P, N, E.
  rewrite E.
  exists (map (fun ij => if Rltb h (z (fst ij) (snd ij)) then over r c u (fun i j => z i j - h) / over r c u (fun i j => z i j - lo) else 0) pts).
  destruct Hi as [(i & j & A1 & A2 & A3 & A4) HH]. eexists. split; [rewrite map_map; reflexivity|]. split; [apply in_map_iff; exists (i, j); split; [reflexivity|apply P; auto]|]. cbn [fst snd].
  rewrite (proj2 (Rltb_true _ _)) by lra. destruct Lo as [_ LL].
  assert (T1 : 0 < over r c u (fun i j => z i j - lo)).
  { rewrite <- (over_zero r c u). apply over_lt; [intros i' j' C1 C2 C3; specialize (LL i' j' C1 C2 C3); lra|]. exists i, j. repeat split; try assumption. lra. }
  assert (O : over r c u (fun i j => z i j - h) < 0) by (rewrite over_minus, over_const; lra).
  apply (Rmult_lt_reg_r (over r c u (fun i j => z i j - lo))); [exact T1|]. unfold Rdiv. rewrite Rmult_assoc, Rinv_l by lra. lra.
Qed.
Print Assumptions c58_negative_refuted.
(** The mask "not a number" selects the points which are not numbers: an error when there are none. *)
Theorem c58_nan_mask_refuted : forall h p void gs, (forall i j, (i < nrows p)%nat -> (j < ncols p)%nat -> h_at p i j <> NaN) ->
  get_mat_vr h p void (FloatMask NaN) true gs = Err ValueError.
Proof.
  intros h p void gs H. unfold get_mat_vr. rewrite andb_false_r. cbn [norm_mask is_nan bind]. unfold mat_vr. rewrite andb_false_r.
  assert (E : entries p (inverse (Some (fun i j => negb (is_nan (h_at p i j))))) = []).
  { unfold entries. cbn [inverse]. destruct (filter _ _) as [|[i j] l] eqn:Q; [reflexivity|]. exfalso.
    assert (I : In (i, j) (filter (keep (Some (fun i j => negb (negb (is_nan (h_at p i j)))))) (points (nrows p) (ncols p)))) by (rewrite Q; left; reflexivity).
    apply filter_In in I. destruct I as [I K]. apply in_points in I. cbn [keep fst snd] in K. rewrite negb_involutive in K.
    apply (H i j); try tauto. destruct (h_at p i j); try discriminate. reflexivity. }
  rewrite E. reflexivity.
Qed.
Print Assumptions c58_nan_mask_refuted.
(** The absolute volume cannot be found with the method of a surface, whatever its grid spacing. *)
Theorem c58_surface_refuted : forall h p own void m, surface_mat_vr h p own void m false = Err ValueError.
Proof. reflexivity. Qed.
Print Assumptions c58_surface_refuted.

Definition steps3 : arr := Arr false 1 3 (fun _ j => Fin (INR j)).
Example c58_case : fair steps3 NoMask /\ heights_are steps3 (counted steps3 NoMask) (fun _ j => INR j) /\
  lowest 1 3 (counted steps3 NoMask) (fun _ j => INR j) 0 /\ highest 1 3 (counted steps3 NoMask) (fun _ j => INR j) 2 /\
  average 1 3 (counted steps3 NoMask) (fun _ j => INR j) < 3 / 2 < 2.
Proof.
  split; [exact I|split; [intros i j _ _ _; reflexivity|split; [split|split; [split|]]]].
  - exists 0%nat, 0%nat. repeat split; try lia.
  - intros. apply pos_INR.
  - exists 0%nat, 2%nat. repeat split; try lia.
  - intros i j _ B _. replace 2 with (INR 2) by (cbn; ring). apply le_INR. lia.
  - unfold average, number, over, counted. cbn. lra.
Qed.
