(** C112: two surfaces that compare equal have the same heights, comparing is symmetric and defined, and the text of a
    surface is a call that makes it again. *)
From Coq Require Import String List Bool Arith Reals Ascii ZArith Lra Lia.
From Verif Require Import Py SurfaceModel SurfaceProofs Flt EqualModel EqualSpec EqualProofs.
Import ListNotations.
Local Open Scope R_scope.
Local Open Scope string_scope.

(** ** Discrete surfaces *)
(** Two surfaces with profiles are equal when they have the same heights, none missing, and the same spacing; the class
    of the first one matters only if it is an analytical one. *)
Theorem c112_profile : forall h text a b i j,
  discrete a = true -> discrete b = true -> profile_of a = Some i -> profile_of b = Some j ->
  exists t, equal h text a b = Ok t /\
    (t = true <-> same_heights (arrays h i) (arrays h j) /\ spacing_of a = spacing_of b /\ (analytic_kind (cls a) = true -> cls a = cls b)).
Proof.
  intros h text a b i j Da Db Pa Pb. unfold equal, analytic_eq, base_eq. rewrite Da, Db, Pa, Pb. cbn [Bool.eqb negb andb same_profile].
  destruct (analytic_kind (cls a)) eqn:K.
  - destruct (kind_eqb (cls a) (cls b)) eqn:E; cbn [negb]; eexists; (split; [reflexivity|]).
    + apply kind_eqb_spec in E. rewrite andb_true_iff, array_equal_spec, same_spacing_spec. tauto.
    + split; [discriminate|]. intros (_ & _ & H). specialize (H eq_refl). apply kind_eqb_spec in H. congruence.
  - eexists. split; [reflexivity|]. rewrite andb_true_iff, array_equal_spec, same_spacing_spec. split; [|tauto].
    intros [H1 H2]. split; [exact H1|]. split; [exact H2|discriminate].
Qed.
Print Assumptions c112_profile.

(** A surface with a missing height is not equal to itself. *)
Theorem c112_holes_refuted : forall h text a i,
  discrete a = true -> profile_of a = Some i -> has_hole (arrays h i) -> equal h text a a = Ok false.
Proof.
  intros h text a i D P (r & c & Hr & Hc & N). destruct (c112_profile h text a a i i D D P P) as (t & E & T). rewrite E. f_equal.
  destruct t; [|reflexivity]. destruct T as [T _]. destruct (T eq_refl) as ((_ & _ & H) & _). destruct (H r c Hr Hc) as [_ M]. contradiction.
Qed.
Print Assumptions c112_holes_refuted.

(** Discrete surfaces of the same class, or of classes which are not analytical, compare the same both ways. *)
Theorem c112_symmetric : forall h text a b,
  discrete a = true -> discrete b = true -> analytic_kind (cls a) = analytic_kind (cls b) ->
  equal h text a b = equal h text b a.
Proof.
  intros h text a b Da Db K. unfold equal, analytic_eq, base_eq. rewrite Da, Db, <- K. cbn [Bool.eqb negb andb].
  assert (P : same_profile h (profile_of a) (profile_of b) = same_profile h (profile_of b) (profile_of a)).
  { destruct (profile_of a), (profile_of b); cbn; try reflexivity. apply array_equal_sym. }
  assert (G : same_spacing (spacing_of a) (spacing_of b) = same_spacing (spacing_of b) (spacing_of a)).
  { destruct (spacing_of a), (spacing_of b); cbn; try reflexivity. apply Reqb_sym. }
  rewrite P, G. destruct (analytic_kind (cls a)); [|reflexivity].
  destruct (kind_eqb (cls a) (cls b)) eqn:E, (kind_eqb (cls b) (cls a)) eqn:E2; try reflexivity.
  - apply kind_eqb_spec in E. rewrite E, kind_eqb_refl in E2. discriminate.
  - apply kind_eqb_spec in E2. rewrite E2, kind_eqb_refl in E. discriminate.
Qed.
Print Assumptions c112_symmetric.

(** Otherwise they don't: a discrete surface equals every analytical one with its profile and spacing, and none of them
    equals it. *)
Theorem c112_symmetric_refuted : forall h text a b i j,
  discrete a = true -> discrete b = true -> profile_of a = Some i -> profile_of b = Some j ->
  analytic_kind (cls a) = false -> analytic_kind (cls b) = true ->
  same_heights (arrays h i) (arrays h j) -> spacing_of a = spacing_of b ->
  equal h text a b = Ok true /\ equal h text b a = Ok false.
Proof.
  intros h text a b i j Da Db Pa Pb Ka Kb S G. split.
  - destruct (c112_profile h text a b i j Da Db Pa Pb) as (t & -> & T). f_equal. apply T. split; [exact S|]. split; [exact G|congruence].
  - unfold equal, analytic_eq. rewrite Kb. destruct (kind_eqb (cls b) (cls a)) eqn:E; [|reflexivity]. apply kind_eqb_spec in E. congruence.
Qed.
Print Assumptions c112_symmetric_refuted.

(** Fractal surfaces that were not generated are equal for all their parameters. *)
Theorem c112_empty_refuted : forall h text sigma hurst roll sigma' hurst' roll' spacing,
  equal h text (new_fractal sigma hurst roll spacing) (new_fractal sigma' hurst' roll' spacing) = Ok true.
Proof.
  intros. unfold equal, base_eq. cbn. f_equal. apply Reqb_true. reflexivity.
Qed.
Print Assumptions c112_empty_refuted.

(** A Perez surface isn't discrete, also with a profile, and comparing two of them or one with itself is an error. *)
Theorem c112_perez_refuted : forall h text params params' id id',
  dget "is_discrete" params = None -> dget "is_discrete" params' = None ->
  discrete (perez_discretise id (new_perez params)) = false /\
  equal h text (perez_discretise id (new_perez params)) (perez_discretise id' (new_perez params')) = Err TypeError /\
  equal h text (perez_discretise id (new_perez params)) (perez_discretise id (new_perez params)) = Err TypeError.
Proof.
  intros h text params params' id id' N N'.
  assert (D : forall p k, dget "is_discrete" p = None -> discrete (perez_discretise k (new_perez p)) = false).
  { intros p k H. unfold discrete, perez_discretise, set_attr, new_perez, new_plain. cbn [attrs]. rewrite dget_dset_other by discriminate.
    induction p as [|[q v] p IH]; [reflexivity|]. cbn [dget app] in H |- *. destruct (String.eqb "is_discrete" q); [discriminate|]. apply IH. exact H. }
  split; [apply D; exact N|]. unfold equal, base_eq.
  change (cls (perez_discretise id (new_perez params))) with KPerez. cbn [analytic_kind]. rewrite !D by assumption. cbn [Bool.eqb negb repr_of]. split; reflexivity.
Qed.
Print Assumptions c112_perez_refuted.

(** ** Analytical surfaces *)
(** Two analytical surfaces that compare equal have the same height everywhere, unless both were discretised. *)
Theorem c112_heights : forall h text shapes a b,
  sees_entries shapes -> NoDup (map fst (attrs a)) -> analytic_kind (cls a) = true -> discrete a && discrete b = false ->
  equal h text a b = Ok true -> forall x y, height_at h shapes a x y = height_at h shapes b x y.
Proof.
  intros h text shapes a b Sh N K D E x y. unfold equal, analytic_eq in E. rewrite K, D in E.
  destruct (kind_eqb (cls a) (cls b)) eqn:Kb; cbn [negb] in E; [|discriminate]. apply kind_eqb_spec in Kb.
  pose proof (dict_get h _ _ N E) as G.
  assert (Same : forall k, dget k (attrs a) = dget k (attrs b) \/ exists i j, dget k (attrs a) = Some (VArr i) /\ dget k (attrs b) = Some (VArr j)).
  { intros k. specialize (G k). destruct (dget k (attrs a)) as [v|], (dget k (attrs b)) as [w|]; try contradiction; [|left; reflexivity].
    destruct (veq_look h v w G) as [->|(i & j & -> & -> & _)]; [left; reflexivity|right; eauto]. }
  assert (Sf : shift_of a = shift_of b).
  { unfold shift_of. destruct (Same "_total_shift") as [->|(i & j & -> & ->)]; reflexivity. }
  assert (Rt : rotation_of a = rotation_of b).
  { unfold rotation_of. destruct (Same "_total_rotation") as [->|(i & j & -> & ->)]; reflexivity. }
  assert (B : forall u v, shapes (cls a) (map (fun k => option_map (look h) (dget k (attrs a))) (keys (cls a))) u v =
                          shapes (cls b) (map (fun k => option_map (look h) (dget k (attrs b))) (keys (cls b))) u v).
  { intros u v. rewrite <- Kb. apply Sh. clear Same. induction (keys (cls a)) as [|k l IH]; [constructor|]. cbn [map]. constructor; [|exact IH].
    specialize (G k). destruct (dget k (attrs a)) as [p|], (dget k (attrs b)) as [q|]; try contradiction; cbn; [|exact I].
    destruct (veq_look h p q G) as [->|(i & j & -> & -> & Hr & Hc & Hx)]; [left; reflexivity|].
    right. exists (arrays h i), (arrays h j). cbn. auto. }
  unfold height_at. destruct (Same "height") as [Hh|(i & j & -> & ->)].
  - rewrite Hh. destruct (dget "height" (attrs b)) as [[]|]; try reflexivity; unfold height; cbn [base shift_x shift_y rotation]; rewrite Sf, Rt; apply B.
  - unfold height; cbn [base shift_x shift_y rotation]; rewrite Sf, Rt; apply B.
Qed.
Print Assumptions c112_heights.

(** A rotation by nothing and a shift by nothing leave the heights, but the surface is not equal to what it was. *)
Theorem c112_history_refuted : forall h text shapes o, analytic_kind (cls o) = true -> discrete o = false ->
  (dget "_total_rotation" (attrs o) = None ->
     equal h text (rotated 0 o) o = Ok false /\ forall x y, height_at h shapes (rotated 0 o) x y = height_at h shapes o x y) /\
  (dget "_total_shift" (attrs o) = None ->
     equal h text (shifted (Some (0, 0)) o) o = Ok false /\ forall x y, height_at h shapes (shifted (Some (0, 0)) o) x y = height_at h shapes o x y).
Proof.
  intros h text shapes o K D.
  assert (Ne : forall k v, dget k (attrs o) = None -> k <> "is_discrete" -> equal h text (set_attr k v o) o = Ok false).
  { intros k v H Nk. unfold equal, analytic_eq. change (cls (set_attr k v o)) with (cls o). rewrite K, kind_eqb_refl, D, andb_false_r. cbn [negb].
    unfold dict_eq. cbn [set_attr attrs]. rewrite length_dset_new by exact H.
    destruct (Nat.eqb (S (List.length (attrs o))) (List.length (attrs o))) eqn:L; [apply Nat.eqb_eq in L; lia|reflexivity]. }
  assert (Kk : forall k, In k (keys (cls o)) -> k <> "_total_rotation" /\ k <> "_total_shift").
  { intros k. destruct (cls o); cbn; intros H; repeat (destruct H as [<-|H]; [split; discriminate|]); contradiction. }
  assert (Hm : forall k v, (k = "_total_rotation" \/ k = "_total_shift") ->
    map (fun q => option_map (look h) (dget q (attrs (set_attr k v o)))) (keys (cls o)) = map (fun q => option_map (look h) (dget q (attrs o))) (keys (cls o))).
  { intros k v E. apply map_ext_in. intros q Q. destruct (Kk q Q) as [Q1 Q2]. cbn [set_attr attrs]. rewrite dget_dset_other; [reflexivity|]. destruct E; subst; assumption. }
  split; intros H.
  - split; [apply Ne; [exact H|discriminate]|]. intros x y. unfold height_at, rotated.
    set (v := VNum (rotation_of o + 0)). change (cls (set_attr "_total_rotation" v o)) with (cls o). rewrite Hm by (left; reflexivity).
    assert (E1 : dget "height" (attrs (set_attr "_total_rotation" v o)) = dget "height" (attrs o)) by (apply dget_dset_other; discriminate).
    assert (E2 : shift_of (set_attr "_total_rotation" v o) = shift_of o) by (unfold shift_of, set_attr; cbn [attrs]; rewrite dget_dset_other by discriminate; reflexivity).
    assert (E3 : extent_of (set_attr "_total_rotation" v o) = extent_of o) by (unfold extent_of, set_attr; cbn [attrs]; rewrite dget_dset_other by discriminate; reflexivity).
    assert (E4 : rotation_of (set_attr "_total_rotation" v o) = rotation_of o) by (unfold rotation_of at 1, set_attr; cbn [attrs]; rewrite dget_dset_same; apply Rplus_0_r).
    rewrite E1, E2, E3, E4. reflexivity.
  - split; [apply Ne; [exact H|discriminate]|]. intros x y. unfold height_at, shifted. cbv zeta. cbn [fst snd].
    set (v := VTup [fst (shift_of o) + 0; snd (shift_of o) + 0]). change (cls (set_attr "_total_shift" v o)) with (cls o). rewrite Hm by (right; reflexivity).
    assert (E1 : dget "height" (attrs (set_attr "_total_shift" v o)) = dget "height" (attrs o)) by (apply dget_dset_other; discriminate).
    assert (E2 : rotation_of (set_attr "_total_shift" v o) = rotation_of o) by (unfold rotation_of, set_attr; cbn [attrs]; rewrite dget_dset_other by discriminate; reflexivity).
    assert (E3 : extent_of (set_attr "_total_shift" v o) = extent_of o) by (unfold extent_of, set_attr; cbn [attrs]; rewrite dget_dset_other by discriminate; reflexivity).
    assert (E4 : shift_of (set_attr "_total_shift" v o) = shift_of o).
    { unfold shift_of at 1, set_attr; cbn [attrs]; rewrite dget_dset_same. unfold v. rewrite !Rplus_0_r. destruct (shift_of o); reflexivity. }
    rewrite E1, E2, E3, E4. reflexivity.
Qed.
Print Assumptions c112_history_refuted.

(** A slope given as a list and the same slope as a tuple make surfaces that are not equal. *)
Theorem c112_sequence_refuted : forall h text l rest,
  discrete (new_plain KFlat (("_slope", VLst l) :: rest)) = false ->
  equal h text (new_plain KFlat (("_slope", VLst l) :: rest)) (new_plain KFlat (("_slope", VTup l) :: rest)) = Ok false.
Proof.
  intros h text l rest D.
  unfold equal, analytic_eq. rewrite D. cbn [new_plain cls analytic_kind kind_eqb negb andb attrs app]. unfold dict_eq. cbn [List.length].
  rewrite Nat.eqb_refl. cbn [entries_eq dget]. rewrite String.eqb_refl. reflexivity.
Qed.
Print Assumptions c112_sequence_refuted.

(** Surfaces whose first parameter is an array with more than one entry can't be compared when the arrays are two
    objects of one shape, whatever their entries. *)
Theorem c112_array_refuted : forall h text k key i j params params',
  analytic_kind k = true -> i <> j -> List.length params = List.length params' ->
  a_rows (arrays h i) = a_rows (arrays h j) -> a_cols (arrays h i) = a_cols (arrays h j) ->
  (2 <= a_rows (arrays h i) * a_cols (arrays h i))%nat -> discrete (new_plain k ((key, VArr i) :: params)) = false ->
  equal h text (new_plain k ((key, VArr i) :: params)) (new_plain k ((key, VArr j) :: params')) = Err ValueError.
Proof.
  intros h text k key i j params params' K N L Er Ec Sz D. unfold equal, analytic_eq. rewrite D. cbn [new_plain cls]. rewrite K, kind_eqb_refl. cbn [negb andb].
  unfold dict_eq. cbn [attrs new_plain app List.length]. rewrite !app_length, L, Nat.eqb_refl. cbn [entries_eq dget]. rewrite String.eqb_refl. cbn [veq].
  apply Nat.eqb_neq in N. rewrite N, Er, Ec, !Nat.eqb_refl. cbn [andb]. unfold truth_of_array. rewrite <- Er, <- Ec.
  destruct (a_rows (arrays h i) * a_cols (arrays h i))%nat as [|[|n]]; [lia|lia|reflexivity].
Qed.
Print Assumptions c112_array_refuted.

(** Two sums of the same two surfaces are not equal, although their heights are. *)
Theorem c112_sums_refuted : forall h text shapes mode a b f g,
  f <> g -> functions h f = functions h g ->
  equal h text (new_combination mode a b f) (new_combination mode a b g) = Ok false /\
  forall x y, height_at h shapes (new_combination mode a b f) x y = height_at h shapes (new_combination mode a b g) x y.
Proof.
  intros h text shapes mode a b f g N E. split.
  - unfold equal, analytic_eq, dict_eq. cbn [new_combination cls analytic_kind kind_eqb negb discrete attrs]. cbn -[list_eqb refs_eqb].
    rewrite list_eqb_refl. cbn -[refs_eqb]. rewrite String.eqb_refl. cbn -[refs_eqb]. unfold refs_eqb. cbn. rewrite !Nat.eqb_refl. cbn.
    apply Nat.eqb_neq in N. rewrite N. reflexivity.
  - intros x y. unfold height_at. cbn. rewrite E. reflexivity.
Qed.
Print Assumptions c112_sums_refuted.

(** A surface plus a number is not equal to the surface, also for the number zero. *)
Theorem c112_plus_number : forall h text f o, analytic_kind (cls o) = true -> discrete o = false ->
  dget "height" (attrs o) = None -> equal h text (plus_number f o) o = Ok false.
Proof.
  intros h text f o K D H. unfold equal, analytic_eq. change (cls (plus_number f o)) with (cls o). rewrite K, kind_eqb_refl, D, andb_false_r. cbn [negb].
  unfold dict_eq, plus_number. cbn [set_attr attrs].
  assert (L : forall (d : list (string * val)) k v, (List.length d <= List.length (dset k v d))%nat).
  { induction d as [|[k0 v0] d IH]; intros k v; cbn; [lia|]. destruct (String.eqb k k0); cbn; [lia|]. specialize (IH k v). lia. }
  pose proof (L (dset "height" (VFun f) (attrs o)) "surface_type" (VStr "Combination")) as M. rewrite (length_dset_new "height") in M by exact H.
  destruct (Nat.eqb _ _) eqn:E; [apply Nat.eqb_eq in E; lia|reflexivity].
Qed.
Print Assumptions c112_plus_number.

(** ** The text *)
(** The call in the text of an analytical surface makes a surface with its heights, when it was shifted or has no
    extent. *)
Theorem c112_repr : forall s d g, (shift_x s <> 0 \/ shift_y s <> 0 \/ a_extent s = None) ->
  forall x y, height (eval_call (base s) (repr_call s d g)) x y = height s x y.
Proof.
  intros s d g H x y. unfold eval_call, repr_call, new_analytic. cbn [c_shift c_rotation c_extent].
  assert (Z : forall r, nonzero r = false -> r = 0).
  { intros r. unfold nonzero. rewrite negb_false_iff. apply Reqb_true. }
  destruct (nonzero (shift_x s) || nonzero (shift_y s)) eqn:N.
  - destruct (nonzero (rotation s)) eqn:Nr; unfold height; cbn; rewrite ?Rplus_0_l; [reflexivity|]. rewrite (Z _ Nr). reflexivity.
  - apply orb_false_iff in N. destruct N as [Nx Ny]. apply Z in Nx. apply Z in Ny. destruct H as [H|[H|H]]; try contradiction.
    rewrite H. destruct (nonzero (rotation s)) eqn:Nr; unfold height; cbn; rewrite Nx, Ny, ?Rplus_0_l; [reflexivity|]. rewrite (Z _ Nr). reflexivity.
Qed.
Print Assumptions c112_repr.

(** The call has the extent and the grid spacing of the surface, and generates it if it is discrete. *)
Theorem c112_repr_grid : forall s d g, c_extent (repr_call s d g) = a_extent s /\ c_generate (repr_call s d g) = d /\
  c_spacing (repr_call s d g) = match g with Some h => if Req_EM_T h 0 then None else Some h | None => None end.
Proof.
  intros s d g. split; [reflexivity|]. split; [reflexivity|]. cbn [repr_call c_spacing]. destruct g as [h|]; [|reflexivity]. unfold nonzero.
  destruct (Req_EM_T h 0) as [->|N].
  - now rewrite (proj2 (Reqb_true 0 0) eq_refl).
  - destruct (Reqb h 0) eqn:E; [now apply Reqb_true in E|reflexivity].
Qed.
Print Assumptions c112_repr_grid.

(** A surface with an extent whose shift is nothing comes back moved by half the extent. *)
Theorem c112_recentred_refuted : forall s d g ex ey, shift_x s = 0 -> shift_y s = 0 -> a_extent s = Some (ex, ey) ->
  forall x y, height (eval_call (base s) (repr_call s d g)) x y = height s (x - ex / 2) (y - ey / 2).
Proof.
  intros s d g ex ey Sx Sy E x y. unfold eval_call, repr_call, new_analytic. cbn [c_shift c_rotation c_extent]. rewrite Sx, Sy, E.
  assert (Z0 : nonzero 0 = false) by (unfold nonzero; rewrite negb_false_iff; apply Reqb_true; reflexivity). rewrite Z0. cbn [orb].
  destruct (nonzero (rotation s)) eqn:Nr; unfold height; cbn; rewrite ?Rplus_0_l, ?Sx, ?Sy.
  - f_equal; field.
  - unfold nonzero in Nr. rewrite negb_false_iff in Nr. apply Reqb_true in Nr. rewrite Nr. f_equal; field.
Qed.
Print Assumptions c112_recentred_refuted.

(** The radii of a round surface are read back when all are finite, and not when one is infinite, as it is for a
    cylinder. *)
Theorem c112_radii : forall l, eval_radii (map Fin l) = Ok l.
Proof. induction l as [|x l IH]; [reflexivity|]. unfold eval_radii in *. cbn. rewrite IH. reflexivity. Qed.
Theorem c112_infinite_refuted : forall l, In PInf l -> eval_radii l = Err KeyError.
Proof.
  induction l as [|x l IH]; intros H; [contradiction|]. unfold eval_radii in *. cbn [fold_right].
  destruct H as [->|H].
  - clear IH. assert (T : forall m, (exists v, fold_right (fun r acc => bind acc (fun l => match r with Fin x => Ok (x :: l) | _ => Err KeyError end)) (Ok []) m = Ok v) \/
      fold_right (fun r acc => bind acc (fun l => match r with Fin x => Ok (x :: l) | _ => Err KeyError end)) (Ok []) m = Err KeyError).
    { induction m as [|y m IH]; [left; exists []; reflexivity|]. cbn [fold_right]. destruct IH as [[v ->]| ->]; [|right; reflexivity]. destruct y; cbn; [left; eexists; reflexivity|right; reflexivity..]. }
    destruct (T l) as [[v ->]| ->]; reflexivity.
  - rewrite (IH H). reflexivity.
Qed.
Print Assumptions c112_infinite_refuted.

(** The text of a combination leaves a bracket open, for all texts of its surfaces that don't. *)
Theorem c112_combination_text_refuted : forall a b mode, open_brackets a = 0%Z -> open_brackets b = 0%Z -> open_brackets mode = 0%Z ->
  open_brackets (combination_text a b mode) = 1%Z.
Proof. intros a b mode A B M. unfold combination_text. rewrite !open_app, A, B, M. reflexivity. Qed.
Print Assumptions c112_combination_text_refuted.

(** The text of a filter surface: nothing wrong when something is set, the end of the name lost when nothing is. *)
Theorem c112_filter_text : forall t, filter_text None (Some t) None = "RandomFilterSurface(moments = " ++ t ++ ")".
Proof.
  intros t. unfold filter_text. change ("" ++ ("moments = " ++ t ++ ", ") ++ "") with (("moments = " ++ t ++ ", ") ++ ""). rewrite str_app_nil.
  change (drop_last 2 (("RandomFilterSurface(moments = " ++ (t ++ ", "))) ++ ")" = "RandomFilterSurface(moments = " ++ t ++ ")").
  rewrite <- str_app_assoc. change 2%nat with (String.length ", "). rewrite drop_last_app. rewrite str_app_assoc. reflexivity.
Qed.
Theorem c112_filter_text_refuted : filter_text None None None = "RandomFilterSurfac)".
Proof. reflexivity. Qed.
Print Assumptions c112_filter_text_refuted.

(** The text of a fractal surface loses the last character of its last parameter, so that the texts of surfaces with
    different parameters are the same. *)
Theorem c112_fractal_text_refuted : forall show shape spacing sigma hurst roll roll' t c c',
  show roll = t ++ String c "" -> show roll' = t ++ String c' "" ->
  fractal_text show shape spacing sigma hurst roll = fractal_text show shape spacing sigma hurst roll'.
Proof.
  intros show shape spacing sigma hurst roll roll' t c c' E E'. unfold fractal_text. rewrite E, E'.
  assert (D : forall z, drop_last 1 (show sigma ++ ", " ++ show hurst ++ ", " ++ t ++ String z "") = show sigma ++ ", " ++ show hurst ++ ", " ++ t).
  { intros z. replace (show sigma ++ ", " ++ show hurst ++ ", " ++ t ++ String z "") with ((show sigma ++ ", " ++ show hurst ++ ", " ++ t) ++ String z "").
    - apply (drop_last_app _ (String z "")).
    - rewrite !str_app_assoc. reflexivity. }
  rewrite !D. reflexivity.
Qed.
Print Assumptions c112_fractal_text_refuted.

(** ** Cases *)
Definition two : array := Arr 1 2 (fun i j => Fin (INR j)).
Definition holed : array := Arr 1 2 (fun i j => match j with O => NaN | _ => Fin 1 end).
Definition store : heap := Heap (fun i => match i with 0%nat | 1%nat => two | _ => holed end) (fun i x y => x + y).
Definition plain_of (k : kind) (p : nat) (g : R) : obj := Obj k [("is_discrete", VBool true); ("_profile", VArr p); ("_grid_spacing", VNum g)].
Example c112_profile_case : forall text, equal store text (plain_of KSurface 0 1) (plain_of KSurface 1 1) = Ok true /\
  equal store text (plain_of KSurface 0 1) (plain_of KSurface 1 2) = Ok false /\ equal store text (plain_of KSurface 2 1) (plain_of KSurface 2 1) = Ok false /\
  equal store text (plain_of KSurface 0 1) (plain_of KRound 1 1) = Ok true /\ equal store text (plain_of KRound 1 1) (plain_of KSurface 0 1) = Ok false.
Proof.
  intros text.
  assert (S01 : same_heights two two).
  { split; [reflexivity|]. split; [reflexivity|]. intros i j _ _. split; [reflexivity|discriminate]. }
  refine (conj _ (conj _ (conj _ (conj _ _)))).
  - destruct (c112_profile store text (plain_of KSurface 0 1) (plain_of KSurface 1 1) 0 1 eq_refl eq_refl eq_refl eq_refl) as (t & -> & T). f_equal. apply T. split; [exact S01|]. split; [reflexivity|discriminate].
  - destruct (c112_profile store text (plain_of KSurface 0 1) (plain_of KSurface 1 2) 0 1 eq_refl eq_refl eq_refl eq_refl) as (t & -> & T). f_equal.
    destruct t; [|reflexivity]. destruct T as [T _]. destruct (T eq_refl) as (_ & G & _). cbn in G. injection G. lra.
  - apply (c112_holes_refuted store text _ 2); [reflexivity|reflexivity|]. exists 0%nat, 0%nat. cbn. repeat split; lia.
  - apply (c112_symmetric_refuted store text (plain_of KSurface 0 1) (plain_of KRound 1 1) 0 1); try reflexivity; exact S01.
  - apply (c112_symmetric_refuted store text (plain_of KSurface 0 1) (plain_of KRound 1 1) 0 1); try reflexivity; exact S01.
Qed.
(** Two round surfaces with the same radius, made separately, are equal. *)
Example c112_equal_case : forall text r, equal store text (new_plain KRound [("_radius", VTup [r; r; r])]) (new_plain KRound [("_radius", VTup [r; r; r])]) = Ok true /\
  NoDup (map fst (attrs (new_plain KRound [("_radius", VTup [r; r; r])]))) /\
  dget "_total_rotation" (attrs (new_plain KRound [("_radius", VTup [r; r; r])])) = None.
Proof.
  intros text r. split; [|split; [|reflexivity]].
  - unfold equal, analytic_eq, dict_eq. cbn -[list_eqb]. rewrite list_eqb_refl. reflexivity.
  - cbn. repeat constructor; cbn; intuition discriminate.
Qed.
Example c112_array_case : equal store (fun _ => "") (new_plain KDisc [("frequencies", VArr 0); ("amplitudes", VArr 0)]) (new_plain KDisc [("frequencies", VArr 1); ("amplitudes", VArr 1)]) = Err ValueError.
Proof. apply c112_array_refuted; try reflexivity; cbn; lia. Qed.

(** ** Further comparisons *)
(** A discrete surface without a profile differs from one with a profile; a surface that isn't discrete differs from one
    that is. *)
Theorem c112_mixed : forall h text a b,
  (discrete a = true -> discrete b = true -> (profile_of a = None /\ profile_of b <> None \/ profile_of a <> None /\ profile_of b = None) -> equal h text a b = Ok false) /\
  (discrete a <> discrete b -> analytic_kind (cls a) = false -> equal h text a b = Ok false).
Proof.
  intros h text a b. split.
  - intros Da Db H. unfold equal, analytic_eq, base_eq. rewrite Da, Db. cbn [Bool.eqb negb andb].
    assert (P : same_profile h (profile_of a) (profile_of b) = false) by (destruct (profile_of a), (profile_of b); cbn; try reflexivity; destruct H as [[H1 H2]|[H1 H2]]; congruence).
    rewrite P. cbn [andb]. destruct (analytic_kind (cls a)); [|reflexivity]. now destruct (kind_eqb (cls a) (cls b)).
  - intros D K. unfold equal, base_eq. rewrite K. destruct (discrete a), (discrete b); try reflexivity; congruence.
Qed.
Print Assumptions c112_mixed.
(** Every analytical surface that isn't discretised is equal to itself, arrays with missing entries included. *)
Theorem c112_itself : forall h text a, NoDup (map fst (attrs a)) -> analytic_kind (cls a) = true -> discrete a = false -> equal h text a a = Ok true.
Proof.
  intros h text a N K D. unfold equal, analytic_eq. rewrite K, kind_eqb_refl, D. cbn [negb andb]. unfold dict_eq. rewrite Nat.eqb_refl.
  assert (V : forall v, veq h v v = Ok true).
  { intros [| [] |x|l|l|i|i| |l|s]; cbn [veq]; try reflexivity; rewrite ?list_eqb_refl, ?Nat.eqb_refl, ?String.eqb_refl; try reflexivity.
    - f_equal. apply Reqb_true. reflexivity.
    - f_equal. unfold refs_eqb. rewrite Nat.eqb_refl. cbn [andb]. induction l as [|x l IH]; [reflexivity|]. cbn. now rewrite Nat.eqb_refl, IH. }
  enough (G : forall l, (forall k v, In (k, v) l -> dget k (attrs a) = Some v) -> entries_eq h l (attrs a) = Ok true).
  { apply G. clear -N. induction (attrs a) as [|[k0 v0] d IH]; intros k v H; [destruct H|]. cbn [map fst] in N. inversion N as [|? ? N1 N2]; subst. cbn [dget].
    destruct H as [H|H]; [injection H as -> ->; now rewrite String.eqb_refl|].
    destruct (String.eqb_spec k k0) as [->|_]; [|now apply IH]. exfalso. apply N1. apply in_map_iff. now exists (k0, v). }
  induction l as [|[k v] l IH]; intros H; [reflexivity|]. cbn [entries_eq]. rewrite (H k v (or_introl eq_refl)), V. cbn [bind]. apply IH. intros k' v' I. apply H. now right.
Qed.
Print Assumptions c112_itself.
(** Shifted by its default, an analytical surface with an extent has at half the extent the height it had at the origin,
    and so on for the other points; without an extent it stays. *)
Theorem c112_centred : forall h shapes o, dget "height" (attrs o) = None ->
  (forall ex ey x y, extent_of o = Some (ex, ey) -> height_at h shapes (shifted None o) (ex / 2 + x) (ey / 2 + y) = height_at h shapes o x y) /\
  (extent_of o = None -> shifted None o = o).
Proof.
  intros h shapes o H. split.
  - intros ex ey x y E. unfold shifted. rewrite E. cbv zeta. cbn [fst snd].
    set (v := VTup [fst (shift_of o) + ex / -2; snd (shift_of o) + ey / -2]). unfold height_at. change (cls (set_attr "_total_shift" v o)) with (cls o).
    assert (E1 : dget "height" (attrs (set_attr "_total_shift" v o)) = None) by (cbn [set_attr attrs]; rewrite dget_dset_other by discriminate; exact H).
    assert (E2 : rotation_of (set_attr "_total_shift" v o) = rotation_of o) by (unfold rotation_of, set_attr; cbn [attrs]; rewrite dget_dset_other by discriminate; reflexivity).
    assert (E4 : shift_of (set_attr "_total_shift" v o) = (fst (shift_of o) + ex / -2, snd (shift_of o) + ey / -2)) by (unfold shift_of at 1, set_attr; cbn [attrs]; rewrite dget_dset_same; reflexivity).
    assert (Hm : map (fun q => option_map (look h) (dget q (attrs (set_attr "_total_shift" v o)))) (keys (cls o)) = map (fun q => option_map (look h) (dget q (attrs o))) (keys (cls o))).
    { apply map_ext_in. intros q Q. cbn [set_attr attrs]. rewrite dget_dset_other; [reflexivity|].
      destruct (cls o); cbn in Q; repeat (destruct Q as [<-|Q]; [discriminate|]); contradiction. }
    rewrite E1, E2, E4, H, Hm. unfold height. cbn [base shift_x shift_y rotation fst snd]. f_equal; field.
  - intros E. unfold shifted. now rewrite E.
Qed.
Print Assumptions c112_centred.
(** The text of a surface without a profile: its shape and its spacing, as far as they are set. *)
Theorem c112_surface_text : forall show t g,
  surface_text show (Some t) (Some g) = "Surface(shape = " ++ t ++ ", grid_spacing = " ++ show g ++ ")" /\
  surface_text show None (Some g) = "Surface(grid_spacing = " ++ show g ++ ")" /\
  surface_text show (Some t) None = "Surface(shape = " ++ t ++ ")" /\ surface_text show None None = "Surface()".
Proof.
  intros show t g. unfold surface_text.
  assert (D : forall a, drop_last 2 (a ++ ", ") = a) by (intros a; change 2%nat with (String.length ", "); apply drop_last_app).
  refine (conj _ (conj _ (conj _ eq_refl))).
  - replace (("shape = " ++ t ++ ", ") ++ "grid_spacing = " ++ show g ++ ", ") with (("shape = " ++ t ++ ", grid_spacing = " ++ show g) ++ ", ") by (rewrite !str_app_assoc; reflexivity).
    rewrite D, !str_app_assoc. reflexivity.
  - change (drop_last 2 ("" ++ "grid_spacing = " ++ show g ++ ", ")) with (drop_last 2 ("grid_spacing = " ++ show g ++ ", ")).
    replace ("grid_spacing = " ++ show g ++ ", ") with (("grid_spacing = " ++ show g) ++ ", ") by (rewrite !str_app_assoc; reflexivity). rewrite D, str_app_assoc. reflexivity.
  - rewrite str_app_nil. replace ("shape = " ++ t ++ ", ") with (("shape = " ++ t) ++ ", ") by (rewrite !str_app_assoc; reflexivity). rewrite D, str_app_assoc. reflexivity.
Qed.
Print Assumptions c112_surface_text.

(** The attributes that the height of a class is found from, as its constructor documents them: the function of the class
    sees each of them, and nothing else but the position. *)
Definition shape_attributes (k : kind) : list string :=
  match k with
  | KFlat => ["_slope"] | KRound => ["_radius"] | KPyramid => ["_lengths"] | KDisc => ["frequencies"; "amplitudes"]
  | KProb => ["h"; "qr"; "qs"] | KCombination => ["_height"] | _ => []
  end.
Theorem c112_attributes : forall k,
  (forall key (see : content -> R), In key (shape_attributes k) -> exists shapes, forall h o x y, cls o = k -> dget "height" (attrs o) = None ->
     height_at h shapes o x y = match dget key (attrs o) with Some v => see (look h v) | None => 0 end) /\
  (forall h shapes o o' x y, cls o = k -> cls o' = k -> dget "height" (attrs o) = None -> dget "height" (attrs o') = None ->
     shift_of o = shift_of o' -> rotation_of o = rotation_of o' -> (forall key, In key (shape_attributes k) -> dget key (attrs o) = dget key (attrs o')) ->
     height_at h shapes o x y = height_at h shapes o' x y).
Proof.
  intros k. split.
  - intros key see I. assert (P : exists n, nth_error (shape_attributes k) n = Some key) by now apply In_nth_error. destruct P as [n N].
    exists (fun _ l _ _ => match nth_error l n with Some (Some c) => see c | _ => 0 end).
    intros h o x y K H. unfold height_at. rewrite H, K. unfold height. cbn [base]. 
    change (keys k) with (shape_attributes k). rewrite (map_nth_error (fun k => option_map (look h) (dget k (attrs o))) n _ N).
    now destruct (dget key (attrs o)).
  - intros h shapes o o' x y K K' H H' S Ro E. unfold height_at. rewrite H, H', K, K'. 
    replace (map (fun k0 => option_map (look h) (dget k0 (attrs o))) (keys k)) with (map (fun k0 => option_map (look h) (dget k0 (attrs o'))) (keys k)).
    + unfold height. cbn. rewrite S, Ro. reflexivity.
    + apply map_ext_in. intros key I. now rewrite E.
Qed.
Print Assumptions c112_attributes.
