(** C117: a filter surface through any history of calls. *)
From Coq Require Import Reals List Bool Arith Lia Lra.
From Verif Require Import Py SurfaceModel SurfaceProofs ConvModel ConvSpec ConvProofs JohnsonModel FilterModel FilterSpec FilterProofs FilterTheorems
  RealiseModel RealiseSpec RealiseProofs.
Import ListNotations.
Local Open Scope R_scope.

Lemma usable_good minimise fit fit_complex stats s : usable minimise fit fit_complex stats s -> good s.
Proof. intros (a & h & e & p & s0 & os & N & ->). apply calls_good. now apply new_good in N. Qed.

(** A new surface has no coefficients, no moments, no profile and standard normal noise; grid spacing and shape are the ones
    given and fix the extent; all three sizes can't be given. *)
Theorem c117_new : forall a h e p,
  (forall s, new_filt a h e p = Ok s ->
     target s = a /\ coeffs s = None /\ moments s = None /\ heights_ s = None /\ is_discrete s = false /\ law s = Normal 0 1) /\
  (h <> None -> e <> None -> p <> None -> new_filt a h e p = Err ValueError) /\
  (forall h p, exists s, new_filt a (Some h) None (Some p) = Ok s /\
     spacing (geo s) = Some h /\ shape (geo s) = Some p /\ extent (geo s) = Some (INR (fst p) * h, INR (snd p) * h)).
Proof.
  intros a h e p. split; [|split].
  - intros s H. unfold new_filt in H.
    assert (X : forall r : geom * result unit, match r with (g, Ok _) => Ok (with_geo (blank_surface a) g) | (_, Err er) => Err er end = Ok s ->
      target s = a /\ coeffs s = None /\ moments s = None /\ heights_ s = None /\ is_discrete s = false /\ law s = Normal 0 1).
    { intros [g [[]|er]] E; [|discriminate]. injection E as <-. repeat split. }
    destruct h, e, p; try discriminate H;
      match type of H with context [then_ ?u ?v] => exact (X (then_ u v) H) end.
  - intros H E P. destruct h, e, p; try congruence; reflexivity.
  - intros h' p'. eexists. split; [reflexivity|]. repeat split.
Qed.
Print Assumptions c117_new.

(** When calls are refused, and with which error: exactly as documented for missing targets, coefficients and shapes. *)
Theorem c117_refused : forall minimise fit fit_complex stats s, usable minimise fit fit_complex stats s ->
  (forall n m y, snd (do_call minimise fit fit_complex stats s (Linear n m y)) = match target s with None => Err ValueError | Some _ => Ok tt end) /\
  (forall o p c w, snd (do_call minimise fit fit_complex stats s (Discretise o p c w)) =
     match coeffs s, wanted_shape s o with None, _ => Err AttributeError | Some _, None => Err ValueError | Some _, Some _ => Ok tt end) /\
  (coeffs s = None -> forall k u, snd (do_call minimise fit fit_complex stats s (Moments k u)) = Err AttributeError) /\
  (coeffs s = None -> forall a b c d, snd (do_call minimise fit fit_complex stats s (Quantiles a b c d)) = Err AttributeError).
Proof.
  intros mi ft fc st s U. apply usable_good in U as [S0 S1]. split; [|split; [|split]].
  - intros n m y. cbn. unfold call_linear. destruct (target s); [|reflexivity]. destruct (spaced_good s S0) as (t & h & -> & _). reflexivity.
  - intros o p c w. cbn. unfold call_discretise, wanted_shape. destruct (coeffs s) as [cc|] eqn:C; [|reflexivity].
    destruct (match o with Some q => Some q | None => shape (geo s) end) as [[n m]|]; [|reflexivity]. destruct c; [reflexivity|].
    destruct (spacing (geo s)) as [h|] eqn:G; [|exfalso; apply S1; congruence]. rewrite (set_prof_spaced _ _ h G). reflexivity.
  - intros C k u. cbn. unfold call_moments. now rewrite C.
  - intros C a b c d. cbn. unfold call_quantiles. destruct (st _). unfold call_moments. now rewrite C.
Qed.
Print Assumptions c117_refused.

(** The FIR method needs a target (stored, or given as an [ACF]) and a shape; a grid spacing and an extent give a shape. *)
Theorem c117_fir_refused : forall minimise fit fit_complex stats s a span, usable minimise fit fit_complex stats s ->
  snd (do_call minimise fit fit_complex stats s (Fir a span)) =
  match a, target s with
  | Acf _, _ | NoTarget, Some _ | NotAcf, Some _ =>
      match span, shape (geo s), extent (geo s), spacing (geo s) with
      | Some _, _, _, _ | _, Some _, _, _ | _, _, Some _, None => Ok tt
      | _, _, _, _ => Err ValueError
      end
  | _, None => Err ValueError
  end.
Proof.
  intros mi ft fc st s a span U. apply usable_good in U as [S0 S1]. cbn. unfold call_fir.
  destruct (spaced_good s S0) as (t & h & E & G & T & TT & _ & _ & _ & _ & _ & _ & _ & GG). rewrite E.
  assert (SH : shape (geo t) = match shape (geo s), extent (geo s), spacing (geo s) with
    | Some p, _, Some _ => Some p | Some p, None, None => Some p | None, None, _ => None | None, Some _, Some _ => None
    | _, Some e, None => shape (geo t) end).
  { rewrite GG. destruct (spacing (geo s)) eqn:Q; [destruct (shape (geo s)), (extent (geo s)); reflexivity|].
    unfold set_spacing. destruct (prof (geo s)) eqn:P.
    - destruct (shape (geo s)) eqn:Z; [|exfalso; apply S0; congruence]. destruct (extent (geo s)); reflexivity.
    - destruct (extent (geo s)) as [[]|]; [destruct (shape (geo s)); reflexivity|]. destruct (shape (geo s)); reflexivity. }
  assert (SE : spacing (geo s) = None -> extent (geo s) <> None -> shape (geo t) <> None).
  { intros Q X. rewrite GG, Q. unfold set_spacing. destruct (prof (geo s)) eqn:P.
    - destruct (shape (geo s)) eqn:Z; [cbn; congruence|exfalso; apply S0; congruence].
    - destruct (extent (geo s)) as [[]|]; [|congruence]. rewrite (proj2 (Reqb_false 1 0)) by lra. cbn. congruence. }
  assert (SP : match (match span with Some p => Some p | None => shape (geo t) end) with
     | Some _ => Ok tt | None => Err ValueError end = match span, shape (geo s), extent (geo s), spacing (geo s) with
      | Some _, _, _, _ | _, Some _, _, _ | _, _, Some _, None => Ok tt
      | _, _, _, _ => Err ValueError end).
  { destruct span; [reflexivity|]. destruct (shape (geo s)) eqn:A1, (extent (geo s)) eqn:A2, (spacing (geo s)) eqn:A3; try (rewrite SH; reflexivity).
    - destruct (shape (geo t)); [reflexivity|]. exfalso. now apply SE.
    - destruct (shape (geo t)); [reflexivity|]. exfalso. now apply SE. }
  rewrite <- SP. rewrite <- TT.
  destruct (match span with Some p => Some p | None => shape (geo t) end) as [[n m]|]; destruct a as [|b|]; cbn [target with_target]; destruct (target t) eqn:TG;
    cbn [target with_target]; rewrite ?TG; reflexivity.
Qed.
Print Assumptions c117_fir_refused.

(** A call that fails keeps coefficients, noise and profile, whatever the call. *)
Theorem c117_failed : forall minimise fit fit_complex stats s o e, usable minimise fit fit_complex stats s ->
  snd (do_call minimise fit fit_complex stats s o) = Err e ->
  let s' := fst (do_call minimise fit fit_complex stats s o) in
  coeffs s' = coeffs s /\ law s' = law s /\ heights_ s' = heights_ s /\ is_discrete s' = is_discrete s.
Proof.
  intros mi ft fc st s o e U. assert (G := usable_good _ _ _ _ _ U). apply usable_good in U as [S0 S1]. intros F s'.
  assert (L : law s' = law s).
  { destruct (chooses o) eqn:H; [|now apply keeps_law]. destruct o as [n m y|a p|k u|x0 x1 x2 x3|o p c w|a|h|p|e']; try discriminate H; unfold s'; cbn in *.
    - unfold call_moments in *. destruct (coeffs s) as [c|]; [|reflexivity]. destruct (match c with Fitted g => _ | Spectral r c0 z => _ end); [discriminate F|reflexivity].
    - unfold call_quantiles in *. destruct (st _). unfold call_moments in *. destruct (coeffs s) as [c|]; [|reflexivity]. destruct (match c with Fitted g => _ | Spectral r1 c0 z => _ end); [discriminate F|reflexivity]. }
  assert (H : heights_ s' = heights_ s /\ is_discrete s' = is_discrete s).
  { destruct (makes o) eqn:H; [|now apply keeps_heights]. destruct o as [n m y|a p|k u|x0 x1 x2 x3|o p c w|a|h|p|e']; try discriminate H; unfold s'; cbn in *.
    apply negb_true_iff in H. subst c. unfold call_discretise in *. destruct (coeffs s) as [c|] eqn:C; [|now split].
    destruct (match o with Some q => Some q | None => shape (geo s) end) as [[n m]|]; [|now split].
    destruct (spacing (geo s)) as [h|] eqn:GS; [|exfalso; apply S1; congruence]. rewrite (set_prof_spaced _ _ h GS) in F. discriminate F. }
  split; [|now split].
  destruct (finds o) eqn:HF; [|now apply keeps_coeffs]. destruct o as [n m y|a p|k u|x0 x1 x2 x3|o p c w|a|h|p|e']; try discriminate HF; unfold s'; cbn in *.
  - unfold call_linear in *. destruct (target s); [|reflexivity]. destruct (spaced_good s S0) as (t & h & E & _). rewrite E in F. discriminate F.
  - unfold call_fir in *. destruct (spaced_good s S0) as (t & h & E & _ & _ & _ & _ & C & _). rewrite E in *.
    destruct (match a, target s with NoTarget, None => None | NoTarget, Some t0 => Some (Acf t0) | Acf _ , _ | NotAcf, _ => Some a end) as [x|]; [|reflexivity].
    destruct (match p with Some q => Some q | None => shape (geo t) end) as [[n m]|]; [|exact C].
    destruct x as [|b|]; cbn [target with_target] in *; try (destruct (target t); [discriminate F|exact C]). discriminate F.
Qed.
Print Assumptions c117_failed.
(** But moments that could not be set are kept all the same, and shown as the moments of the surface, while the noise
    stays as it was. *)
Theorem c117_failed_moments_refuted : forall minimise fit fit_complex stats s k u, coeffs s = None ->
  let r := do_call minimise fit fit_complex stats s (Moments k u) in
  snd r = Err AttributeError /\ moments (fst r) = Some (k, u) /\ law (fst r) = law s.
Proof. intros mi ft fc st s k u C. cbn. unfold call_moments. rewrite C. now split. Qed.
Print Assumptions c117_failed_moments_refuted.

(** The coefficients are always those of the last fit: for the target and grid spacing of that time, one if there was none. *)
Theorem c117_last_fit : forall minimise fit fit_complex stats s n m y a later, usable minimise fit fit_complex stats s ->
  target s = Some a -> forallb (fun o => negb (finds o)) later = true ->
  let s' := do_calls minimise fit fit_complex stats s (Linear n m y :: later) in
  coeffs s' = Some (Fitted (linear_transform minimise a (spacing_or_one s) n m y)).
Proof.
  intros mi ft fc st s n m y a later U A L s'. apply usable_good in U as [S0 S1].
  unfold s'. change (do_calls mi ft fc st s (Linear n m y :: later)) with (do_calls mi ft fc st (fst (do_call mi ft fc st s (Linear n m y))) later).
  rewrite keeps_coeffs_all by exact L. cbn. unfold call_linear. rewrite A. destruct (spaced_good s S0) as (t & h & -> & _ & _ & _ & _ & _ & _ & _ & _ & _ & H & _).
  cbn. unfold spacing_or_one. now rewrite H.
Qed.
Print Assumptions c117_last_fit.
(** After a fit the grid spacing is set, and the points of the target are the target at its multiples. *)
Theorem c117_fitted_spacing : forall minimise fit fit_complex stats s n m y f, usable minimise fit fit_complex stats s ->
  target s = Some (FunAcf f) ->
  let s' := fst (do_call minimise fit fit_complex stats s (Linear n m y)) in
  spacing (geo s') = Some (spacing_or_one s) /\ target s' = target s /\
  exists g, target_points s' = Some g /\ rows g = n /\ cols g = m /\
    forall i j, at_ g i j = f (spacing_or_one s * INR j) (spacing_or_one s * INR i).
Proof.
  intros mi ft fc st s n m y f U A s'. apply usable_good in U as [S0 S1]. unfold s'. cbn. unfold call_linear. rewrite A.
  destruct (spaced_good s S0) as (t & h & E & G & _ & T & _ & _ & _ & _ & _ & _ & H & _). rewrite E. cbn. unfold spacing_or_one. rewrite <- H.
  split; [exact G|]. split; [congruence|]. eexists. split; [reflexivity|]. now repeat split.
Qed.
Print Assumptions c117_fitted_spacing.

(** A realisation: the shape asked for, or else that of the surface; the heights are the sums of the drawn noise, of the
    law of the surface, with the coefficients of the surface; the extent follows from the grid spacing, which is kept. *)
Theorem c117_realisation : forall minimise fit fit_complex stats s f out n m periodic draw, usable minimise fit fit_complex stats s ->
  coeffs s = Some (Fitted f) -> (0 < rows f)%nat -> (0 < cols f)%nat -> wanted_shape s out = Some (n, m) -> (0 < n)%nat -> (0 < m)%nat ->
  let noise := draw (law s) (if periodic : bool then (n, m) else (n + rows f - 1, m + cols f - 1))%nat in
  let s' := fst (do_call minimise fit fit_complex stats s (Discretise out periodic false draw)) in
  exists g h, heights_ s' = Some g /\ rows g = n /\ cols g = m /\
    (forall i j, (i < n)%nat -> (j < m)%nat -> at_ g i j = window f (continued periodic n m noise) i j) /\
    is_discrete s' = true /\ shape (geo s') = Some (n, m) /\ spacing (geo s') = Some h /\ spacing (geo s) = Some h /\
    extent (geo s') = Some (h * INR n, h * INR m) /\
    coeffs s' = coeffs s /\ law s' = law s /\ moments s' = moments s /\ target s' = target s.
Proof.
  intros mi ft fc st s f out n m per draw U C R0 C0 W N M noise s'. apply usable_good in U as [S0 S1].
  destruct (spacing (geo s)) as [h|] eqn:G; [|exfalso; apply S1; congruence].
  unfold s'. cbn. unfold call_discretise. unfold wanted_shape in W. rewrite C, W. rewrite (set_prof_spaced _ _ h G). cbn -[INR discretise].
  set (w := draw _ _).
  assert (NW : w = noise) by (unfold w, noise; now destruct per).
  destruct (c65_shape f n m per w R0 C0 N M) as [RR CC].
  exists (discretise f n m per w), h. split; [reflexivity|]. split; [exact RR|]. split; [exact CC|]. split.
  - intros i j I J. rewrite NW. unfold window, continued. destruct per; [now apply discretise_wrap|now apply discretise_window].
  - rewrite RR, CC. now repeat split.
Qed.
Print Assumptions c117_realisation.
(** With the complex coefficients of the FIR method the heights are the sums with their real parts. *)
Theorem c117_fir_realisation : forall minimise fit fit_complex stats s r c z out n m periodic draw, usable minimise fit fit_complex stats s ->
  coeffs s = Some (Spectral r c z) -> (0 < r)%nat -> (0 < c)%nat -> wanted_shape s out = Some (n, m) -> (0 < n)%nat -> (0 < m)%nat ->
  let noise := draw (law s) (if periodic : bool then (n, m) else (n + r - 1, m + c - 1))%nat in
  let s' := fst (do_call minimise fit fit_complex stats s (Discretise out periodic false draw)) in
  exists g, heights_ s' = Some g /\ rows g = n /\ cols g = m /\ is_discrete s' = true /\ shape (geo s') = Some (n, m) /\
    forall i j, (i < n)%nat -> (j < m)%nat -> at_ g i j =
      total2 r c (fun k l => fst (z k l) * continued periodic n m noise (i + (r - 1) - k)%nat (j + (c - 1) - l)%nat).
Proof.
  intros mi ft fc st s r c z out n m per draw U C R0 C0 W N M noise s'. apply usable_good in U as [S0 S1].
  destruct (spacing (geo s)) as [h|] eqn:G; [|exfalso; apply S1; congruence].
  unfold s'. cbn. unfold call_discretise. unfold wanted_shape in W. rewrite C, W. rewrite (set_prof_spaced _ _ h G). cbn -[INR discretise].
  set (f := Grid r c (fun i j => fst (z i j))). set (w := draw _ _).
  assert (NW : w = noise) by (unfold w, noise; now destruct per).
  destruct (c65_shape f n m per w R0 C0 N M) as [RR CC].
  exists (discretise f n m per w). split; [reflexivity|]. split; [exact RR|]. split; [exact CC|]. split; [reflexivity|]. split; [rewrite RR, CC; reflexivity|].
  intros i j I J. rewrite NW. unfold continued. destruct per; [now apply (discretise_wrap f)|now apply (discretise_window f)].
Qed.
Print Assumptions c117_fir_realisation.
(** Asked for a new surface, it returns one with the same grid spacing and the same heights as the profile would have
    had, and does not change. *)
Theorem c117_create_new : forall minimise fit fit_complex stats s f out n m periodic draw, usable minimise fit fit_complex stats s ->
  coeffs s = Some (Fitted f) -> wanted_shape s out = Some (n, m) ->
  exists g, call_discretise s out periodic true draw = (s, Ok (NewSurface (spacing (geo s)) g)) /\
    heights_ (fst (do_call minimise fit fit_complex stats s (Discretise out periodic false draw))) = Some g.
Proof.
  intros mi ft fc st s f out n m per draw U C W. apply usable_good in U as [S0 S1].
  destruct (spacing (geo s)) as [h|] eqn:G; [|exfalso; apply S1; congruence].
  unfold wanted_shape in W. cbn. unfold call_discretise. rewrite C, W, (set_prof_spaced _ _ h G), G. eexists. now split.
Qed.
Print Assumptions c117_create_new.
(** The profile is always that of the last realisation that was not put in a new surface. *)
Theorem c117_last_profile : forall minimise fit fit_complex stats s later, usable minimise fit fit_complex stats s ->
  forallb (fun o => negb (makes o)) later = true -> heights_ (do_calls minimise fit fit_complex stats s later) = heights_ s.
Proof. intros mi ft fc st s later U L. apply keeps_heights_all; [exact L|]. now apply usable_good in U. Qed.
Print Assumptions c117_last_profile.

(** The coefficients are for one grid spacing, as the warning in the code says, but they stay when the spacing is changed:
    the surface then has, at each lag, the autocorrelation wanted at the distance of that lag in the old spacing. *)
Theorem c117_respaced_refuted : forall minimise fit fit_complex stats s g h h' r c y E n m i j p q, usable minimise fit fit_complex stats s ->
  target s = Some (FunAcf g) -> spacing (geo s) = Some h -> h' <> 0 -> finds_zero minimise -> (0 < r)%nat -> (0 < c)%nat ->
  (exists b, cols b = c /\ (if y : bool then symmetric_rows r b else rows b = r) /\
     forall p q, (p < r)%nat -> (q < c)%nat -> autocorrelation b p q = g (h * INR q) (h * INR p)) ->
  let s' := do_calls minimise fit fit_complex stats s [Linear r c y; Spacing h'] in
  spacing (geo s') = Some h' /\
  exists f, coeffs s' = Some (Fitted f) /\
    (mean_value E -> white E (n + rows f - 1) (m + cols f - 1) -> (p < r)%nat -> (q < c)%nat -> (i + p < n)%nat -> (j + q < m)%nat ->
     let mean_product := E (fun w => at_ (discretise f n m false w) i j * at_ (discretise f n m false w) (i + p) (j + q)) in
     mean_product = g (h * INR q) (h * INR p) /\
     (g (h * INR q) (h * INR p) <> g (h' * INR q) (h' * INR p) -> mean_product <> g (h' * INR q) (h' * INR p))).
Proof.
  intros mi ft fc st s g h h' r c y E n m i j p q U A H Z F R0 C0 B s'.
  split; [unfold s'; cbn; apply set_spacing_spacing|].
  exists (linear_transform mi (FunAcf g) h r c y). split.
  - unfold s'. rewrite (c117_last_fit mi ft fc st s r c y (FunAcf g) [Spacing h'] U A eq_refl). unfold spacing_or_one. now rewrite H.
  - intros ME W P Q I J. cbv zeta. rewrite (c65_target_reached mi g h r c y E n m i j p q F R0 C0 B ME W P Q I J). split; [reflexivity|auto].
Qed.
Print Assumptions c117_respaced_refuted.

(** Setting moments: for real coefficients and a fit that does what it is asked, the surface has the skew asked for. *)
Theorem c117_skew : forall minimise fit fit_complex stats skew_of kurtosis_of s f k u, right_fit fit skew_of kurtosis_of ->
  coeffs s = Some (Fitted f) -> let alpha := flatten f in
  0 < total (List.length alpha) (fun i => nth i alpha 0 ^ 2) -> total (List.length alpha) (fun i => nth i alpha 0 ^ 3) <> 0 ->
  let r := do_call minimise fit fit_complex stats s (Moments k u) in
  snd r = Ok tt -> moments (fst r) = Some (k, u) /\ coeffs (fst r) = coeffs s /\ sum_skew alpha (skew_of (law (fst r))) = k /\
  kurtosis_of (law (fst r)) = noise_kurtosis alpha u.
Proof.
  intros mi ft fc st so ko s f k u RF C al P Q r O. unfold r in *. unfold do_call, call_moments in O |- *. rewrite C in *. fold al in O |- *.
  assert (A1 : asked_skew al k = Some (noise_skew al k)).
  { unfold asked_skew. rewrite rsum_total. rewrite (total_ext _ _ (fun i => nth i al 0 ^ 3)) by (intros; ring). now rewrite (proj2 (Reqb_false _ _) Q). }
  assert (A2 : asked_kurtosis al u = Some (noise_kurtosis al u)).
  { unfold asked_kurtosis. rewrite rsum_total. rewrite (proj2 (Reqb_false _ _)); [reflexivity|]. intros X.
    assert (N : total (List.length al) (fun i => nth i al 0 ^ 2) = 0); [|lra].
    rewrite (total_ext _ _ (fun _ => 0)); [apply total_zero|]. intros i I.
    assert (T := total_null _ (fun i => (nth i al 0 ^ 2) ^ 2) (fun _ _ => pow2_ge_0 _) X i I). cbn beta in T. nra. }
  rewrite A1, A2 in *. destruct (ft (Some (noise_skew al k)) (Some (noise_kurtosis al u))) as [d|] eqn:F; [|discriminate O].
  destruct (RF _ _ _ F) as [F1 F2]. cbn [fst law moments coeffs with_law with_moments]. split; [reflexivity|]. split; [exact C|]. rewrite F1, F2. split; [|reflexivity]. now apply c101_skew.
Qed.
Print Assumptions c117_skew.
(** A new fit of the coefficients keeps the noise made for the old ones: the moments are still shown, but the surface has
    the skew asked for only if it is zero or the new coefficients happen to leave as much of it as the old ones. *)
Theorem c117_refit_refuted : forall minimise fit fit_complex stats skew_of kurtosis_of s f k u r c y f', right_fit fit skew_of kurtosis_of ->
  usable minimise fit fit_complex stats s ->
  coeffs s = Some (Fitted f) -> let alpha := flatten f in
  0 < total (List.length alpha) (fun i => nth i alpha 0 ^ 2) -> total (List.length alpha) (fun i => nth i alpha 0 ^ 3) <> 0 ->
  snd (do_call minimise fit fit_complex stats s (Moments k u)) = Ok tt ->
  let s' := do_calls minimise fit fit_complex stats s [Moments k u; Linear r c y] in
  coeffs s' = Some (Fitted f') ->
  moments s' = Some (k, u) /\
  (sum_skew (flatten f') (skew_of (law s')) = k <-> k = 0 \/ skew_left (flatten f') = skew_left alpha).
Proof.
  intros mi ft fc st so ko s f k u r c y f' RF U C al P Q O s' C'.
  destruct (c117_skew mi ft fc st so ko s f k u RF C P Q O) as (M1 & _ & SK & _).
  assert (G := usable_good _ _ _ _ _ U).
  assert (L := keeps_law_all mi ft fc st [Linear r c y] (fst (do_call mi ft fc st s (Moments k u))) eq_refl (call_good _ _ _ _ _ _ G)).
  change (do_calls mi ft fc st (fst (do_call mi ft fc st s (Moments k u))) [Linear r c y]) with s' in L. destruct L as [L1 L2].
  split; [now rewrite L2|]. rewrite L1. fold al in SK. set (x := so (law _)) in *.
  assert (LIN : forall b z, sum_skew b z = z * skew_left b) by (intros; unfold skew_left, sum_skew; field; apply Rgt_not_eq, exp_pos).
  assert (NZ : skew_left al <> 0).
  { unfold skew_left, sum_skew. assert (0 < Rpower (total (length al) (fun i => nth i al 0 ^ 2)) (3 / 2)) by apply exp_pos.
    set (z := Rpower _ _) in *. set (v := total (length al) (fun i => nth i al 0 ^ 3)) in *. intros X. apply Q. replace v with (1 * v / z * z) by (field; lra). rewrite X. ring. }
  rewrite LIN in *. rewrite <- SK. split.
  - intros X. destruct (Req_dec x 0) as [->|X0]; [left; ring|right]. now apply Rmult_eq_reg_l in X.
  - intros [X| ->]; [|reflexivity]. apply Rmult_integral in X as [->|]; [ring|contradiction].
Qed.
Print Assumptions c117_refit_refuted.

(** Setting quantiles: the skew of the surface is that of the distribution with these quantiles. Its kurtosis, by which the
    distribution is found again, is not, unless all coefficients but the last are zero: scipy gives the kurtosis minus three. *)
Theorem c117_quantiles_refuted : forall minimise fit fit_complex stats skew_of kurtosis_of s f x0 x1 x2 x3, right_fit fit skew_of kurtosis_of ->
  scipy_stats stats skew_of kurtosis_of -> coeffs s = Some (Fitted f) -> let alpha := flatten f in
  0 < total (List.length alpha) (fun i => nth i alpha 0 ^ 2) -> total (List.length alpha) (fun i => nth i alpha 0 ^ 3) <> 0 ->
  let r := do_call minimise fit fit_complex stats s (Quantiles x0 x1 x2 x3) in
  let wanted := fit_quantiles x0 x1 x2 x3 in
  snd r = Ok tt ->
  sum_skew alpha (skew_of (law (fst r))) = skew_of wanted /\
  (sum_kurtosis alpha (kurtosis_of (law (fst r))) = kurtosis_of wanted <-> forall i, (i < List.length alpha - 1)%nat -> nth i alpha 0 = 0).
Proof.
  intros mi ft fc st so ko s f x0 x1 x2 x3 RF SC C al P Q r wanted O.
  assert (E : r = do_call mi ft fc st s (Moments (so wanted) (ko wanted - 3))).
  { unfold r. cbn. unfold call_quantiles. fold wanted. now rewrite SC. }
  rewrite E in *. destruct (c117_skew mi ft fc st so ko s f _ _ RF C P Q O) as (_ & _ & SK & KU). fold al in SK, KU.
  split; [exact SK|]. rewrite KU. assert (K := proj2 (c101_kurtosis_refuted al (ko wanted - 3) P)). now replace (ko wanted - 3 + 3) with (ko wanted) in K by ring.
Qed.
Print Assumptions c117_quantiles_refuted.

(** The FIR method: an [ACF] given replaces the stored target; anything else given is silently ignored if there is one. *)
Theorem c117_fir_target : forall minimise fit fit_complex stats s a t span n m, usable minimise fit fit_complex stats s ->
  (let s' := fst (do_call minimise fit fit_complex stats s (Fir (Acf a) (Some (n, m)))) in
   target s' = Some a /\ target_points s' = target_points s /\
   exists z r c, coeffs s' = Some (Spectral r c z) /\ z = FilterModel.fir_filter a (spacing_or_one s) n m) /\
  (target s = Some t ->
   do_call minimise fit fit_complex stats s (Fir NotAcf span) = do_call minimise fit fit_complex stats s (Fir NoTarget span) /\
   do_call minimise fit fit_complex stats s (Fir NoTarget span) = do_call minimise fit fit_complex stats s (Fir (Acf t) span)).
Proof.
  intros mi ft fc st s a t span n m U. apply usable_good in U as [S0 S1]. split.
  - cbn. unfold call_fir. destruct (spaced_good s S0) as (q & h & E & _ & _ & T & TP & _ & _ & _ & _ & _ & H & _). rewrite E. cbn.
    split; [reflexivity|]. split; [exact TP|]. eexists. eexists. eexists. split; [reflexivity|]. unfold spacing_or_one. now rewrite <- H.
  - intros T. cbn. unfold call_fir. rewrite T. destruct (spaced_good s S0) as (q & h & E & _ & _ & TQ & _). rewrite E.
    split; [|reflexivity]. destruct (match span with Some p => Some p | None => shape (geo q) end) as [[n' m']|]; [|reflexivity].
    cbn [target with_target]. rewrite TQ, T. destruct q as [q1 q2 q3 q4 q5 q6 q7 q8]. cbn in TQ. subst q2. unfold with_target. cbn. rewrite T. reflexivity.
Qed.
Print Assumptions c117_fir_target.

(** A surface in use: a target, a grid spacing, a fit (by a minimiser that finds the coefficients 1 and 2), moments. Laws with
    their moments as parameters stand for a fit that does what it is asked. *)
Definition case_minimise : (list R -> R) -> (list R -> list R) -> list R -> list R := fun _ _ _ => [1; 2].
Definition case_fit (s k : option R) : result dist :=
  match s, k with Some s, Some k => Ok (Unbounded s k 0 1) | _, _ => Err ValueError end.
Definition case_skew (d : dist) : R := match d with Unbounded a _ _ _ => a | _ => 0 end.
Definition case_kurtosis (d : dist) : R := match d with Unbounded _ b _ _ => b | _ => 3 end.
Definition case_stats (d : dist) : R * R := (case_skew d, case_kurtosis d - 3).
Definition case_calls := do_calls case_minimise case_fit (fun _ _ _ => Err TypeError) case_stats.
Definition case_new : filt :=
  match new_filt (Some (FunAcf (fun x y => x + y))) (Some 2) None (Some (3, 4)%nat) with Ok s => s | Err _ => blank_surface None end.
Example c117_case_usable : forall os, usable case_minimise case_fit (fun _ _ _ => Err TypeError) case_stats (case_calls case_new os).
Proof. intros os. exists (Some (FunAcf (fun x y => x + y))), (Some 2), None, (Some (3, 4)%nat), case_new, os. now split. Qed.
Example c117_case_fits : right_fit case_fit case_skew case_kurtosis /\ scipy_stats case_stats case_skew case_kurtosis.
Proof. split; [|intros d; reflexivity]. intros s k d H. injection H as <-. now split. Qed.
Example c117_case : let s := case_calls case_new [Linear 1 2 false] in exists f, coeffs s = Some (Fitted f) /\ flatten f = [1; 2] /\
  0 < total (List.length (flatten f)) (fun i => nth i (flatten f) 0 ^ 2) /\ total (List.length (flatten f)) (fun i => nth i (flatten f) 0 ^ 3) <> 0 /\
  (0 < rows f)%nat /\ (0 < cols f)%nat /\ wanted_shape s None = Some (3, 4)%nat /\
  (forall k u, snd (do_call case_minimise case_fit (fun _ _ _ => Err TypeError) case_stats s (Moments k u)) = Ok tt) /\
  (forall a b c d, snd (do_call case_minimise case_fit (fun _ _ _ => Err TypeError) case_stats s (Quantiles a b c d)) = Ok tt) /\
  coeffs (case_calls case_new []) = None /\ nth 0 (flatten f) 0 <> 0.
Proof.
  cbv zeta. set (s := case_calls case_new [Linear 1 2 false]). exists (reshape 1 2 [1; 2]).
  assert (C : coeffs s = Some (Fitted (reshape 1 2 [1; 2]))) by reflexivity.
  assert (F : flatten (reshape 1 2 [1; 2]) = [1; 2]) by reflexivity.
  assert (Q : forall k u, snd (do_call case_minimise case_fit (fun _ _ _ => Err TypeError) case_stats s (Moments k u)) = Ok tt).
  { intros k u. unfold do_call, call_moments. rewrite C, F.
    assert (A1 : asked_skew [1; 2] k = Some (noise_skew [1; 2] k)).
    { unfold asked_skew. rewrite (proj2 (Reqb_false _ _)); [reflexivity|]. cbn. lra. }
    assert (A2 : asked_kurtosis [1; 2] u = Some (noise_kurtosis [1; 2] u)).
    { unfold asked_kurtosis. rewrite (proj2 (Reqb_false _ _)); [reflexivity|]. cbn. lra. }
    rewrite A1, A2. reflexivity. }
  refine (Logic.conj C (Logic.conj F _)). rewrite F. refine (Logic.conj _ (Logic.conj _ (Logic.conj _ (Logic.conj _ (Logic.conj eq_refl (Logic.conj Q (Logic.conj _ (Logic.conj eq_refl _)))))))).
  - cbn. lra.
  - cbn. lra.
  - cbn. lia.
  - cbn. lia.
  - intros a b c d. exact (Q (case_skew (fit_quantiles a b c d)) (case_kurtosis (fit_quantiles a b c d) - 3)).
  - cbn. lra.
Qed.
(** A later fit with other coefficients, and so a skew that is not the one asked for. *)
Example c117_refit_case : let fit2 := fun (_ : list R -> R) (_ : list R -> list R) (x : list R) => match x with [_; _] => [1; 2] | _ => [1] end in
  let s := do_calls fit2 case_fit (fun _ _ _ => Err TypeError) case_stats case_new [Linear 1 2 false; Moments 1 5; Linear 1 1 false] in
  coeffs s = Some (Fitted (reshape 1 1 [1])) /\ moments s = Some (1, 5) /\ skew_left [1] = 1 /\ skew_left [1; 2] < 1.
Proof.
  cbv zeta. split; [|split; [|split]].
  - cbn. unfold call_moments. destruct (case_fit _ _); reflexivity.
  - cbn. unfold call_moments. destruct (case_fit _ _); reflexivity.
  - unfold skew_left, sum_skew. cbn. replace (0 + 1 * (1 * 1)) with 1 by ring. replace (0 + 1 * (1 * (1 * 1))) with 1 by ring. unfold Rpower. rewrite ln_1, Rmult_0_r, exp_0. field.
  - unfold skew_left, sum_skew. cbn. replace (0 + 1 * (1 * 1) + 2 * (2 * 1)) with 5 by ring. replace (1 * (0 + 1 * (1 * (1 * 1)) + 2 * (2 * (2 * 1)))) with 9 by ring.
    assert (X : 9 < Rpower 5 (3 / 2)).
    { replace (3 / 2) with (1 + / 2) by field. rewrite Rpower_plus, Rpower_1, Rpower_sqrt by lra.
      assert (2 < sqrt 5) by (rewrite <- (sqrt_square 2) by lra; apply sqrt_lt_1; lra). lra. }
    apply (Rmult_lt_reg_r (Rpower 5 (3 / 2))); [lra|]. unfold Rdiv. rewrite Rmult_assoc, Rinv_l by lra. lra.
Qed.
Example c117_fir_case : let s := case_calls case_new [Fir NoTarget None] in exists r c z, coeffs s = Some (Spectral r c z) /\
  (0 < r)%nat /\ (0 < c)%nat /\ wanted_shape s None = Some (3, 4)%nat.
Proof. cbv zeta. eexists. eexists. eexists. split; [reflexivity|]. repeat split; cbn; lia. Qed.
