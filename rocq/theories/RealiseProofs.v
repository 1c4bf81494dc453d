From Coq Require Import Reals List Bool Arith Lia Lra.
From Verif Require Import Py SurfaceModel SurfaceProofs ConvModel ConvSpec ConvProofs JohnsonModel FilterModel FilterSpec FilterProofs RealiseModel RealiseSpec.
Import ListNotations.
Local Open Scope R_scope.

(** Geometry never loses the grid spacing, and a profile has a shape. *)
Definition sound (g : geom) : Prop := prof g <> None -> shape g <> None.

Lemma set_spacing_sound g h : sound g -> sound (fst (set_spacing g h)).
Proof.
  intros H. unfold set_spacing. destruct (prof g) eqn:P.
  - destruct (shape g) as [[]|] eqn:E; cbn; intros X; cbn; congruence || (exfalso; apply H; congruence).
  - destruct (extent g) as [[]|]; [destruct (Reqb _ _)|destruct (shape g)]; cbn; intros X; cbn in *; congruence.
Qed.
Lemma set_spacing_ok g h : sound g -> h <> 0 -> snd (set_spacing g h) = Ok tt /\ spacing (fst (set_spacing g h)) = Some h.
Proof.
  intros H Z. unfold set_spacing. destruct (prof g) eqn:P.
  - destruct (shape g) as [[]|] eqn:E; [now split|]. exfalso. apply H; congruence.
  - destruct (extent g) as [[]|]; [rewrite (proj2 (Reqb_false _ _) Z)|destruct (shape g)]; now split.
Qed.
Lemma set_extent_sound g e : sound g -> sound (fst (set_extent g e)).
Proof.
  intros H. unfold set_extent. destruct (prof g) eqn:P.
  - destruct (shape g) as [[s0 s1]|] eqn:E; [|exfalso; apply H; congruence].
    destruct (_ || _); [exact H|]. destruct (aspect_differs _ _ _ _); [exact H|]. destruct (Reqb _ _); cbn; intros X; cbn; congruence.
  - intros X. exfalso. apply X. destruct (spacing g).
    + destruct (Reqb _ _); [reflexivity|]. cbn [shape]. destruct (Reqb _ _); reflexivity.
    + cbn [shape]. destruct (shape g) as [[]|]; [destruct (Reqb _ _)|]; reflexivity.
Qed.
Lemma set_extent_spacing g e : sound g -> spacing g <> None -> spacing (fst (set_extent g e)) <> None.
Proof.
  intros H X. unfold set_extent. destruct (prof g) eqn:P.
  - destruct (shape g) as [[s0 s1]|] eqn:E; [|exact X].
    destruct (_ || _); [exact X|]. destruct (aspect_differs _ _ _ _); [exact X|]. destruct (Reqb _ _); cbn; congruence.
  - destruct (spacing g) eqn:G; [|congruence]. destruct (Reqb _ _); [cbn; congruence|]. cbn [shape]. destruct (Reqb _ _); cbn; congruence.
Qed.
Lemma set_shape_sound g p : sound g -> sound (fst (set_shape g p)).
Proof.
  intros H. unfold set_shape. destruct (prof g) eqn:P; [exact H|].
  destruct (spacing g); [|destruct (extent g)]; try destruct (Reqb _ _); cbn; intros X; cbn; congruence.
Qed.
Lemma set_shape_spacing g p : spacing g <> None -> spacing (fst (set_shape g p)) <> None.
Proof.
  intros H. unfold set_shape. destruct (prof g) eqn:P; [exact H|].
  destruct (spacing g); [cbn; congruence|congruence].
Qed.
Lemma set_spacing_spacing g h : spacing (fst (set_spacing g h)) = Some h.
Proof.
  unfold set_spacing. destruct (prof g); [destruct (shape g)|destruct (extent g) as [[]|]; [destruct (Reqb _ _)|destruct (shape g)]]; reflexivity.
Qed.
Lemma set_prof_spaced g p h : spacing g = Some h ->
  set_prof g p = (Geom (Some (h * rn (fst p), h * rn (snd p))) (Some p) (Some h) (Some p), Ok tt).
Proof. intros H. unfold set_prof. now rewrite H. Qed.

Section Calls.
Variable minimise : (list R -> R) -> (list R -> list R) -> list R -> list R.
Variable fit : option R -> option R -> result dist.
Variable fit_complex : list cplx -> R -> R -> result dist.
Variable stats : dist -> R * R.
Notation do_call := (do_call minimise fit fit_complex stats).
Notation do_calls := (do_calls minimise fit fit_complex stats).

(** Sound geometry, and a grid spacing once there are coefficients. *)
Definition good (s : filt) : Prop := sound (geo s) /\ (coeffs s <> None -> spacing (geo s) <> None).

Lemma spaced_good s : sound (geo s) -> exists s1 h, spaced s = (s1, Ok h) /\ spacing (geo s1) = Some h /\ sound (geo s1) /\
  target s1 = target s /\ target_points s1 = target_points s /\ coeffs s1 = coeffs s /\ moments s1 = moments s /\ law s1 = law s /\ heights_ s1 = heights_ s /\ is_discrete s1 = is_discrete s /\
  h = match spacing (geo s) with Some h => h | None => 1 end /\
  geo s1 = match spacing (geo s) with Some _ => geo s | None => fst (set_spacing (geo s) 1) end.
Proof.
  intros H. unfold spaced. destruct (spacing (geo s)) eqn:E; [exists s, r; repeat split; auto|].
  destruct (set_spacing_ok (geo s) 1 H) as [O P]; [lra|]. pose proof (set_spacing_sound (geo s) 1 H) as S1. destruct (set_spacing (geo s) 1) as [g r]. cbn [fst snd] in *. subst r.
  exists (with_geo s g), 1. repeat split; auto.
Qed.

Lemma call_good s o : good s -> good (fst (do_call s o)).
Proof.
  intros [S0 S1]. destruct o as [n m y|a p|k u|x0 x1 x2 x3|o p c w|a|h|p|e]; cbn [do_call RealiseModel.do_call].
  - unfold call_linear. destruct (target s); [|now split]. destruct (spaced_good s S0) as (t & h & -> & G & T & _). cbn. split; [exact T|]. intros _. cbn. congruence.
  - unfold call_fir. destruct (spaced_good s S0) as (t & h & E & G & T & _ & _ & C & _). rewrite E.
    assert (GT : good t) by (split; [exact T|intros; congruence]).
    destruct (match a, target s with NoTarget, None => None | NoTarget, Some t0 => Some (Acf t0) | Acf _ , _ | NotAcf, _ => Some a end) as [x|]; [|now split].
    destruct (match p with Some q => Some q | None => shape (geo t) end) as [[n m]|]; [|exact GT].
    destruct x as [|b|]; cbn [target with_target]; try (destruct (target t); cbn; [split; [exact T|cbn; congruence]|exact GT]).
    cbn. split; [exact T|cbn; congruence].
  - unfold call_moments. destruct (coeffs s) as [c|] eqn:C; [|cbn; split; [exact S0|cbn; congruence]].
    destruct (match c with Fitted g => _ | Spectral r c0 z => _ end); cbn; (split; [exact S0|intros _; apply S1; congruence]).
  - unfold call_quantiles. destruct (stats _) as [k u]. unfold call_moments. destruct (coeffs s) as [c|] eqn:C; [|cbn; split; [exact S0|cbn; congruence]].
    destruct (match c with Fitted g => _ | Spectral r c0 z => _ end); cbn; (split; [exact S0|intros _; apply S1; congruence]).
  - unfold call_discretise. destruct (coeffs s) as [cc|] eqn:C; [|now split; cbn; try congruence].
    destruct (match o with Some q => Some q | None => shape (geo s) end) as [[n m]|]; [|now split; cbn; auto; intros; apply S1; congruence].
    destruct c; [cbn; split; [exact S0|intros; apply S1; congruence]|].
    destruct (spacing (geo s)) as [h|] eqn:G; [|exfalso; apply S1; congruence].
    rewrite (set_prof_spaced _ _ h G). cbn. split; cbn; [intros _; cbn; congruence|congruence].
  - now split.
  - cbn. split; cbn; [now apply set_spacing_sound|]. intros _. rewrite set_spacing_spacing. congruence.
  - cbn. split; cbn; [now apply set_shape_sound|]. intros H. apply set_shape_spacing. auto.
  - cbn. split; cbn; [now apply set_extent_sound|]. intros H. apply set_extent_spacing; auto.
Qed.
Lemma calls_good os s : good s -> good (do_calls s os).
Proof. revert s. induction os as [|o os IH]; intros s H; [exact H|]. cbn. apply IH. now apply call_good. Qed.
Lemma new_good a h e p s : new_filt a h e p = Ok s -> good s.
Proof.
  unfold new_filt. intros H.
  assert (X : forall r : geom * result unit, sound (fst r) -> match r with (g, Ok _) => Ok (with_geo (blank_surface a) g) | (_, Err er) => Err er end = Ok s -> good s).
  { intros [g [[]|er]] S1 E; [|discriminate]. injection E as <-. split; [exact S1|cbn; congruence]. }
  assert (Y : sound (fst (then_ (then_ (maybe h set_spacing new_geom) (maybe e set_extent)) (maybe p set_shape)))).
  { assert (A : sound (fst (maybe h set_spacing new_geom))). { destruct h; intros X0; cbn in X0; congruence. }
    destruct (maybe h set_spacing new_geom) as [g1 [[]|]]; cbn [then_]; [|exact A].
    assert (B : sound (fst (maybe e set_extent g1))). { destruct e; cbn; [now apply set_extent_sound|exact A]. }
    destruct (maybe e set_extent g1) as [g2 [[]|]]; cbn [then_]; [|exact B].
    destruct p; cbn; [now apply set_shape_sound|exact B]. }
  destruct h, e, p; try discriminate H; exact (X _ Y H).
Qed.

(** What a call leaves alone. *)
Lemma keeps_coeffs s o : finds o = false -> coeffs (fst (do_call s o)) = coeffs s.
Proof.
  destruct o as [n m y|a p|k u|x0 x1 x2 x3|o p c w|a|h|p|e]; intros H; try discriminate H; try reflexivity; cbn [do_call RealiseModel.do_call].
  - unfold call_moments. destruct (coeffs s) as [c|] eqn:C; [|exact C]. destruct (match c with Fitted g => _ | Spectral r c0 z => _ end); exact C.
  - unfold call_quantiles. destruct (stats _). unfold call_moments. destruct (coeffs s) as [c|] eqn:C; [|exact C]. destruct (match c with Fitted g => _ | Spectral r0 c0 z => _ end); exact C.
  - unfold call_discretise. destruct (coeffs s) eqn:C; [|exact C]. destruct (match o with Some q => Some q | None => shape (geo s) end) as [[]|]; [|exact C].
    destruct c; [exact C|]. destruct (set_prof _ _) as [q [|]]; exact C.
Qed.
Lemma keeps_law s o : chooses o = false -> sound (geo s) -> law (fst (do_call s o)) = law s /\ moments (fst (do_call s o)) = moments s.
Proof.
  destruct o as [n m y|a p|k u|x0 x1 x2 x3|o p c w|a|h|p|e]; intros H S0; try discriminate H; try (split; reflexivity); cbn [do_call RealiseModel.do_call].
  - unfold call_linear. destruct (target s); [|now split]. destruct (spaced_good s S0) as (t & h & -> & _ & _ & _ & _ & _ & M & L & _). now split.
  - unfold call_fir. destruct (spaced_good s S0) as (t & h & E & _ & _ & _ & _ & _ & M & L & _). rewrite E.
    destruct (match a, target s with NoTarget, None => None | NoTarget, Some t0 => Some (Acf t0) | Acf _ , _ | NotAcf, _ => Some a end) as [x|]; [|now split].
    destruct (match p with Some q => Some q | None => shape (geo t) end) as [[n m]|]; [|now split].
    destruct x as [|b|]; cbn [target with_target]; try (destruct (target t)); now split.
  - unfold call_discretise. destruct (coeffs s) eqn:C; [|now split]. destruct (match o with Some q => Some q | None => shape (geo s) end) as [[]|]; [|now split].
    destruct c; [now split|]. destruct (set_prof _ _) as [q [|]]; now split.
Qed.
Lemma keeps_heights s o : makes o = false -> sound (geo s) -> heights_ (fst (do_call s o)) = heights_ s /\ is_discrete (fst (do_call s o)) = is_discrete s.
Proof.
  destruct o as [n m y|a p|k u|x0 x1 x2 x3|o p c w|a|h|p|e]; intros H S0; try (split; reflexivity); cbn [do_call RealiseModel.do_call].
  - unfold call_linear. destruct (target s); [|now split]. destruct (spaced_good s S0) as (t & h & -> & _ & _ & _ & _ & _ & _ & _ & M & L & _). now split.
  - unfold call_fir. destruct (spaced_good s S0) as (t & h & E & _ & _ & _ & _ & _ & _ & _ & M & L & _). rewrite E.
    destruct (match a, target s with NoTarget, None => None | NoTarget, Some t0 => Some (Acf t0) | Acf _ , _ | NotAcf, _ => Some a end) as [x|]; [|now split].
    destruct (match p with Some q => Some q | None => shape (geo t) end) as [[n m]|]; [|now split].
    destruct x as [|b|]; cbn [target with_target]; try (destruct (target t)); now split.
  - unfold call_moments. destruct (coeffs s) as [c|]; [|now split]. destruct (match c with Fitted g => _ | Spectral r c0 z => _ end); now split.
  - unfold call_quantiles. destruct (stats _). unfold call_moments. destruct (coeffs s) as [c|]; [|now split]. destruct (match c with Fitted g => _ | Spectral r0 c0 z => _ end); now split.
  - cbn in H. apply negb_false_iff in H. subst c. unfold call_discretise. destruct (coeffs s); [|now split].
    destruct (match o with Some q => Some q | None => shape (geo s) end) as [[]|]; now split.
Qed.
Lemma keeps_coeffs_all os s : forallb (fun o => negb (finds o)) os = true -> coeffs (do_calls s os) = coeffs s.
Proof.
  revert s. induction os as [|o os IH]; intros s H; [reflexivity|]. cbn in H. apply andb_true_iff in H as [H1 H2]. cbn.
  transitivity (coeffs (fst (do_call s o))); [now apply IH|]. apply keeps_coeffs. now apply negb_true_iff in H1.
Qed.
Lemma keeps_law_all os s : forallb (fun o => negb (chooses o)) os = true -> good s -> law (do_calls s os) = law s /\ moments (do_calls s os) = moments s.
Proof.
  revert s. induction os as [|o os IH]; intros s H G; [now split|]. cbn in H. apply andb_true_iff in H as [H1 H2]. cbn.
  apply negb_true_iff in H1. destruct (keeps_law s o H1 (proj1 G)) as [E1 E2].
  destruct (IH (fst (do_call s o)) H2 (call_good s o G)) as [F1 F2]. split; [exact (eq_trans F1 E1)|exact (eq_trans F2 E2)].
Qed.
Lemma keeps_heights_all os s : forallb (fun o => negb (makes o)) os = true -> good s -> heights_ (do_calls s os) = heights_ s /\ is_discrete (do_calls s os) = is_discrete s.
Proof.
  revert s. induction os as [|o os IH]; intros s H G; [now split|]. cbn in H. apply andb_true_iff in H as [H1 H2]. cbn.
  apply negb_true_iff in H1. destruct (keeps_heights s o H1 (proj1 G)) as [E1 E2].
  destruct (IH (fst (do_call s o)) H2 (call_good s o G)) as [F1 F2]. split; [exact (eq_trans F1 E1)|exact (eq_trans F2 E2)].
Qed.
End Calls.
