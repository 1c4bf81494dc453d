(** C44 and C45: lubricant sub models and pressure laws. *)
From Coq Require Import String List Bool Arith Reals Lia Lra FunctionalExtensionality.
From Verif Require Import Py PyProofs LubricantModel LubricantSpec LubricantProofs.
Import ListNotations.
Local Open Scope string_scope.

(** ** C44 *)
(** After any history of [add_sub_model] calls the models are those of the allowed calls: the
    names in the order in which they were first added, each with the function given last. Other
    calls raise an error and change nothing. *)
Theorem c44_models : forall (V : Type) (calls : list (pyname * obj V)),
  let l := run_adds [] calls in
  map fst l = first_order (map fst (allowed_adds calls)) /\ NoDup (map fst l) /\
  (forall p, dget p l = last_given p (allowed_adds calls)) /\
  (forall c, snd (add_sub_model l (fst c) (snd c)) = Ok tt <-> allowed c <> None) /\
  (forall c, allowed c = None -> fst (add_sub_model l (fst c) (snd c)) = l).
Proof.
  intros V calls l. unfold l. rewrite run_adds_fold.
  assert (K : map fst (fold_left (fun l x => dset (fst x) (snd x) l) (allowed_adds calls) ([] : lubricant V)) = first_order (map fst (allowed_adds calls))).
  { etransitivity; [apply (fold_keys (allowed_adds calls) [])|]. cbn [map app]. apply filter_all. reflexivity. }
  split; [exact K|]. split; [pose proof (first_order_nodup (map fst (allowed_adds calls))) as N; rewrite <- K in N; exact N|]. split; [|split].
  - intros p. etransitivity; [apply (fold_get (allowed_adds calls) [] p)|]. destruct (last_given p (allowed_adds calls)); reflexivity.
  - intros c. apply add_ok.
  - intros c H. rewrite add_allowed, H. reflexivity.
Qed.
Print Assumptions c44_models.
(** A construction that succeeds adds the constant viscosity and density models and then the
    models given, all of which are allowed. *)
Theorem c44_constructor : forall (V : Type) (ones : V -> R -> V) models visc dens l,
  construct ones models visc dens = Ok l ->
  let const v name := (Str name, Function (constant_array_property ones v)) in
  let start := ((match visc with Some v => [const v "viscosity"; const 1%R "nd_viscosity"] | None => [] end) ++
                (match dens with Some v => [const v "density"; const 1%R "nd_density"] | None => [] end))%list in
  let given := match models with Some ms => ms | None => [] end in
  l = run_adds [] (start ++ given) /\ Forall (fun c => allowed c <> None) given.
Proof.
  intros V ones models visc dens l H const start given.
  assert (A : forall ms l0, add_all l0 ms = Ok l -> l = run_adds l0 ms /\ Forall (fun c => allowed c <> None) ms).
  { induction ms as [|[p o] ms IH]; intros l0 E; cbn [add_all] in E; [injection E as <-; split; constructor|].
    pose proof (add_ok l0 (p, o)) as O. pose proof (add_allowed l0 (p, o)) as D. cbn [fst snd] in O, D.
    destruct (add_sub_model l0 p o) as [l1 [[]|]] eqn:Q; [|discriminate]. destruct (IH l1 E) as (-> & F). cbn [fst snd] in *. split.
    - unfold run_adds. cbn [fold_left fst snd]. rewrite Q. reflexivity.
    - constructor; [apply O; reflexivity|exact F]. }
  unfold run_adds. rewrite fold_left_app. fold (run_adds ([] : lubricant V) start). unfold construct in H.
  assert (S : forall b, run_adds ([] : lubricant V) start = b -> b = run_adds [] start) by congruence.
  destruct visc, dens, models; cbn [start app] in *; first [apply A in H; exact H | injection H as <-; split; [reflexivity|constructor]].
Qed.
Print Assumptions c44_constructor.
(** Constant models give, wherever the state has a gap, arrays of the constant and of one for the
    scaled name. *)
Theorem c44_constants : forall (V : Type) (ones : V -> R -> V) visc dens l s g,
  construct ones None visc dens = Ok l -> dget "just_touching_gap" s = Some g ->
  exists s', solve_sub_models l s = (s', Ok tt) /\
    (forall v, visc = Some v -> dget "viscosity" s' = Some (ones g v) /\ dget "nd_viscosity" s' = Some (ones g 1%R)) /\
    (forall v, dens = Some v -> dget "density" s' = Some (ones g v) /\ dget "nd_density" s' = Some (ones g 1%R)).
Proof.
  intros V ones visc dens l s g H G.
  assert (C : forall v p rest (d : list (string * V)), dget "just_touching_gap" d = Some g ->
     solve_sub_models ((p, constant_array_property ones v) :: rest) d = solve_sub_models rest (dset p (ones g v) d)).
  { intros v p rest d Hd. cbn [solve_sub_models]. unfold call. cbn. unfold dmem. rewrite Hd. reflexivity. }
  destruct visc as [v|], dens as [e|]; cbn in H; injection H as <-; repeat rewrite C by (rewrite ?dget_dset; cbn; assumption); cbn [solve_sub_models];
    eexists; (split; [reflexivity|]); split; intros x Hx; try discriminate; injection Hx as <-; rewrite !dget_dset; cbn; auto.
Qed.
Print Assumptions c44_constants.
(** Solving the sub models, when it succeeds: every model was called once, with the state in
    which the names of the models before it have their final values and all others their
    initial ones; names that belong to no model keep their value. *)
Theorem c44_solve : forall (V : Type) (l : lubricant V) s s', NoDup (map fst l) -> solve_sub_models l s = (s', Ok tt) ->
  (forall x, ~ In x (map fst l) -> dget x s' = dget x s) /\
  forall k p f, nth_error l k = Some (p, f) ->
    exists v, dget p s' = Some v /\
      body f (fun x => if in_dec string_dec x (map fst (firstn k l)) then dget x s' else dget x s) = Ok v.
Proof.
  intros V l s s' N H. split; [exact (solve_frame _ _ _ _ H)|]. intros k p f E.
  destruct (solve_split l s s' k p f N H E) as (sk & v & _ & C & D & X). exists v. split; [exact D|].
  apply call_body in C. rewrite <- C. f_equal. extensionality x. symmetry. apply X.
Qed.
Print Assumptions c44_solve.
(** When a model raises, the models before it have been applied to the state and no other. *)
Theorem c44_error : forall (V : Type) (l : lubricant V) s s' e, solve_sub_models l s = (s', Err e) ->
  exists k p f, nth_error l k = Some (p, f) /\ solve_sub_models (firstn k l) s = (s', Ok tt) /\ call f s' = Err e.
Proof. intros V l s s' e. apply solve_fails. Qed.
Print Assumptions c44_error.
(** If the data check accepts the names of the state, no model fails for a missing argument: any
    error is one the body of a model raises itself. The set given is changed into the names
    after solving. *)
Theorem c44_check : forall (V : Type) (l : lubricant V) n n' s,
  (forall x, In x n <-> In x (map fst s)) -> ~ In "self" (map fst s) -> ~ In "self" (map fst l) ->
  Forall (fun x => judged (snd x)) l -> data_check l n = (n', Ok tt) ->
  (forall x, In x n' <-> In x (map fst s) \/ In x (map fst l)) /\
  (forall e, snd (solve_sub_models l s) = Err e ->
     exists k p f sk, nth_error l k = Some (p, f) /\ solve_sub_models (firstn k l) s = (sk, Ok tt) /\ body f (fun x => dget x sk) = Err e) /\
  ((forall x kw, In x l -> exists v, body (snd x) kw = Ok v) -> snd (solve_sub_models l s) = Ok tt).
Proof.
  intros V l n n' s E Ns Nl J C. unfold data_check in C.
  assert (C2 : snd (check_models l n) = Ok tt) by (rewrite C; reflexivity).
  split; [|split].
  - intros x. destruct (check_names l n n' _ C) as (_ & B). rewrite (B eq_refl), E. reflexivity.
  - apply (checked_solve l n); assumption.
  - intros T. destruct (snd (solve_sub_models l s)) as [[]|e] eqn:S; [reflexivity|].
    destruct (checked_solve l n s E Ns Nl J C2 e S) as (k & p & f & sk & K1 & _ & K3).
    destruct (T (p, f) (fun x => dget x sk) (nth_error_In _ _ K1)) as (v & Hv). cbn in Hv. congruence.
Qed.
Print Assumptions c44_check.
(** And when it refuses them, and no argument has a default, solving fails too. *)
Theorem c44_refused : forall (V : Type) (l : lubricant V) n s,
  (forall x, In x n <-> In x (map fst s)) -> Forall (fun x => judged (snd x) /\ n_defaults (snd x) = 0%nat) l ->
  snd (data_check l n) <> Ok tt -> exists e, snd (solve_sub_models l s) = Err e.
Proof.
  intros V l n s E J C. apply (unchecked_solve l n s E J). unfold data_check in C.
  clear E J. revert n C. induction l as [|[p f] l IH]; intros n C; cbn in *; [congruence|]. destruct (forallb _ (args f)); [apply IH; exact C|reflexivity].
Qed.
Print Assumptions c44_refused.
(** The check overlooks keyword only and positional only arguments: the model is accepted with
    every set of names and every call fails. *)
Theorem c44_check_refuted : forall (V : Type) (f : fn V) p n s,
  (forall x, In x n <-> In x (map fst s)) -> var_kw f = true -> bound f = false -> (forall a, In a (args f) -> In a n) ->
  (exists a, In a (kw_required f) /\ ~ In a n) \/ (0 < pos_only f /\ n_defaults f = 0 /\ args f <> [])%nat ->
  snd (data_check [(p, f)] n) = Ok tt /\ solve_sub_models [(p, f)] s = (s, Err TypeError).
Proof.
  intros V f p n s E Vk B A H. split.
  - cbn. assert (F : forallb (fun a => smem a n || (a =? "self")) (args f) = true).
    { apply forallb_forall. intros a I. apply orb_true_iff. left. apply smem_in. auto. }
    rewrite F. reflexivity.
  - cbn [solve_sub_models]. assert (C : call f s = Err TypeError); [|rewrite C; reflexivity].
    unfold call. rewrite B. assert (T : match args f with a :: _ => false && Nat.eqb (pos_only f) 0 && dmem a s | [] => false end = false) by (destruct (args f); reflexivity).
    rewrite T. destruct H as [(a & H1 & H2)|(H1 & H2 & H3)].
    + destruct (Nat.ltb 0 _); [reflexivity|]. destruct (negb _); [reflexivity|].
      assert (Z : forallb (fun a => dmem a s) (kw_required f) = false).
      { destruct (forallb (fun a => dmem a s) (kw_required f)) eqn:G; [|reflexivity]. rewrite forallb_forall in G. specialize (G a H1). apply dmem_in, E in G. contradiction. }
      rewrite Z. reflexivity.
    + assert (Z : Nat.ltb 0 (Nat.min (pos_only f) (List.length (args f) - n_defaults f)) = true).
      { apply Nat.ltb_lt. destruct (args f); [congruence|]. cbn [List.length]. lia. }
      rewrite Z. reflexivity.
Qed.
Print Assumptions c44_check_refuted.
(** And it refuses a model whose only missing argument has a default, although the call runs. *)
Theorem c44_default_refuted : forall (V : Type) (b : (string -> option V) -> result V) p a n s v,
  (forall x, In x n <-> In x (map fst s)) -> ~ In a n -> a <> "self" -> b (fun k => dget k s) = Ok v ->
  let f := Fn [a] false 0 1 [] true b in
  snd (data_check [(p, f)] n) = Err ValueError /\ solve_sub_models [(p, f)] s = (dset p v s, Ok tt).
Proof.
  intros V b p a n s v E N1 N2 H f. split.
  - cbn. assert (Z : smem a n = false) by (destruct (smem a n) eqn:G; [apply smem_in in G; contradiction|reflexivity]).
    apply String.eqb_neq in N2. rewrite Z, N2. reflexivity.
  - cbn. rewrite H. reflexivity.
Qed.
Print Assumptions c44_default_refuted.
(** A lubricant with a viscosity computed from the pressure and a second model computed from that
    viscosity, replaced and solved. *)
Example c44_case :
  let get k (g : nat -> nat) : (string -> option nat) -> result nat := fun kw => match kw k with Some v => Ok (g v) | None => Err KeyError end in
  let f k g := Function (Fn [k] false 0 0 [] true (get k g)) in
  let l := run_adds [] [(Str "viscosity", f "pressure" (fun p => p)); (Str "mobility", f "viscosity" (fun v => 10 - v));
                        (Str "no good", f "pressure" S); (NotStr, NotCallable); (Str "viscosity", f "pressure" S)] in
  map fst l = ["viscosity"; "mobility"] /\
  solve_sub_models l [("pressure", 3)] = ([("pressure", 3); ("viscosity", 4); ("mobility", 6)], Ok tt) /\
  snd (data_check l ["pressure"]) = Ok tt /\ snd (data_check l ["gap"]) = Err ValueError /\
  Forall (fun x => judged (snd x)) l.
Proof.
  cbn. repeat split; repeat constructor; cbn; intuition congruence.
Qed.

(** ** C45 *)
Local Open Scope R_scope.
(** At zero pressure every law gives its reference value. *)
Theorem c45_reference : forall eta p0 ph z alpha rho, ph <> 0 ->
  (0 < eta -> roelands eta p0 z 0 = eta /\ nd_roelands eta p0 ph z 0 = 1) /\ barus eta alpha 0 = eta /\ nd_barus ph alpha 0 = 1 /\
  dowson_higginson rho 0 = rho /\ nd_dowson_higginson ph 0 = 1.
Proof.
  intros eta p0 ph z alpha rho Hp. unfold roelands, nd_roelands, barus, nd_barus, dowson_higginson, nd_dowson_higginson. repeat split.
  - replace (1 + 0 / p0) with 1 by (unfold Rdiv; ring). rewrite Rpower_one. replace (_ * (-1 + 1)) with 0 by ring. rewrite exp_0. ring.
  - rewrite Rmult_0_r, Rplus_0_r, Rpower_one. replace (_ * (-1 + 1)) with 0 by ring. apply exp_0.
  - rewrite Rmult_0_r, exp_0. ring.
  - rewrite Rmult_0_r. apply exp_0.
  - field.
  - field. repeat split; try exact Hp; lra.
Qed.
Print Assumptions c45_reference.
(** They increase strictly with pressure, from above minus the reference pressure. *)
Theorem c45_increasing : forall eta p0 z alpha rho x y, x < y ->
  (0 < eta -> 0 < ln eta + 967 / 100 -> 0 < p0 -> 0 < z -> - p0 < x -> roelands eta p0 z x < roelands eta p0 z y) /\
  (0 < eta -> 0 < alpha -> barus eta alpha x < barus eta alpha y) /\
  (0 < rho -> - (59 * 10 ^ 7) < x -> dowson_higginson rho x < dowson_higginson rho y).
Proof.
  intros eta p0 z alpha rho x y H. split; [|split].
  - intros. apply roelands_increasing; assumption.
  - intros He Ha. unfold barus. apply Rmult_lt_compat_l; [exact He|]. apply exp_increasing. apply Rmult_lt_compat_l; assumption.
  - intros Hr Hx. unfold dowson_higginson. set (k := 59 * 10 ^ 7) in *. assert (0 < k) by (unfold k; lra). clearbody k.
    assert (E : rho * (k + 134 / 100 * y) / (k + y) - rho * (k + 134 / 100 * x) / (k + x) = rho * (34 / 100) * k * (y - x) / ((k + y) * (k + x))) by (field; lra).
    assert (0 < rho * (34 / 100) * k * (y - x) / ((k + y) * (k + x))); [|lra].
    apply Rdiv_lt_0_compat; repeat apply Rmult_lt_0_compat; lra.
Qed.
Print Assumptions c45_increasing.
(** Density stays between the reference and 1.34 times the reference. *)
Theorem c45_density_bounds : forall rho x, 0 < rho -> 0 <= x -> rho <= dowson_higginson rho x < 134 / 100 * rho.
Proof.
  intros rho x Hr Hx. unfold dowson_higginson. set (k := 59 * 10 ^ 7). assert (0 < k) by (unfold k; lra). clearbody k. split.
  - assert (E : rho * (k + 134 / 100 * x) / (k + x) - rho = rho * (34 / 100) * x / (k + x)) by (field; lra).
    assert (0 <= rho * (34 / 100) * x / (k + x)); [|lra]. apply Rmult_le_pos; [repeat apply Rmult_le_pos; lra|]. left. apply Rinv_0_lt_compat. lra.
  - assert (E : 134 / 100 * rho - rho * (k + 134 / 100 * x) / (k + x) = rho * (34 / 100) * k / (k + x)) by (field; lra).
    assert (0 < rho * (34 / 100) * k / (k + x)); [|lra]. apply Rdiv_lt_0_compat; repeat apply Rmult_lt_0_compat; lra.
Qed.
Print Assumptions c45_density_bounds.
(** The non dimensional laws are the dimensional ones with pressures scaled by the Hertz pressure
    and values scaled by the reference. *)
Theorem c45_scaled : forall eta p0 ph z alpha rho x, ph <> 0 ->
  (p0 <> 0 -> roelands eta p0 z (ph * x) = eta * nd_roelands eta p0 ph z x) /\
  barus eta alpha (ph * x) = eta * nd_barus ph alpha x /\
  (59 * 10 ^ 7 + ph * x <> 0 -> dowson_higginson rho (ph * x) = rho * nd_dowson_higginson ph x).
Proof.
  intros eta p0 ph z alpha rho x Hp. unfold roelands, nd_roelands, barus, nd_barus, dowson_higginson, nd_dowson_higginson. repeat split.
  - intros H0. replace (ph * x / p0) with (ph / p0 * x) by (field; exact H0). reflexivity.
  - rewrite Rmult_assoc. reflexivity.
  - intros H. set (k := 59 * 10 ^ 7) in *. clearbody k. field. repeat split; try assumption; lra.
Qed.
Print Assumptions c45_scaled.
(** For a reference viscosity below exp(-9.67) Roelands' law, as coded, decreases: the claim
    without that condition is false. *)
Theorem c45_small_viscosity_refuted : forall eta p0 z x y, 0 < eta -> eta < exp (- (967 / 100)) -> 0 < p0 -> 0 < z -> - p0 < x -> x < y ->
  roelands eta p0 z y < roelands eta p0 z x.
Proof.
  intros eta p0 z x y He Hs Hp Hz Hx Hxy. unfold roelands. apply Rmult_lt_compat_l; [exact He|]. apply exp_increasing.
  assert (L : ln eta < - (967 / 100)) by (rewrite <- (ln_exp (- (967 / 100))); apply ln_increasing; assumption).
  assert (A : x / p0 < y / p0) by (apply Rmult_lt_compat_r; [apply Rinv_0_lt_compat; exact Hp|exact Hxy]).
  assert (B : - 1 < x / p0).
  { apply (Rmult_lt_reg_r p0); [exact Hp|]. replace (x / p0 * p0) with x by (field; lra). lra. }
  assert (C : Rpower (1 + x / p0) z < Rpower (1 + y / p0) z) by (apply Rlt_Rpower_l; lra). nra.
Qed.
Print Assumptions c45_small_viscosity_refuted.
Example c45_case : 0 < ln 1 + 967 / 100 /\ roelands 1 1 2 0 < roelands 1 1 2 1 /\ roelands 1 1 2 1 = exp (967 / 100 * 3).
Proof.
  assert (H : 0 < ln 1 + 967 / 100) by (rewrite ln_1; lra). split; [exact H|]. split.
  - apply roelands_increasing; lra.
  - unfold roelands. rewrite ln_1. replace (1 + 1 / 1) with 2 by field. replace (Rpower 2 2) with 4.
    + replace ((0 + 967 / 100) * (-1 + 4)) with (967 / 100 * 3) by lra. ring.
    + replace 2 with (INR 2) at 2 by (cbn; ring). rewrite Rpower_pow by lra. ring.
Qed.
