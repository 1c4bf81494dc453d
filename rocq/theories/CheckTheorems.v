(** Theorems for C116 (data check of a model). *)
From Coq Require Import List String Ascii Bool Arith Reals Permutation Lia.
From Verif Require Import Py PyProofs SaveModel SaveSpec SaveProofs SaveTheorems StepModel CheckModel CheckSpec CheckProofs.
Import ListNotations.
Local Open Scope string_scope.

(** C116. With errors switched on, the data check of a model passes exactly when the first surface is there, discrete and has
    a material, the second is there and has a material, and every step is good: its solver finds what it needs in the
    lubricant, it announces a time, every sub model finds what it requires in what the step and the sub models before it
    announce, and every output asked for that isn't an attribute of a surface is announced. *)
Theorem c116_check : forall m, snd (snd (data_check true m)) = Ok tt <-> good_model m.
Proof.
  intros [s1 s2 l]. unfold data_check, good_model. cbn [master second all_steps].
  pose proof (surfaces_ok s1 s2) as Hs. unfold good_surfaces in Hs. destruct (snd (model_check true s1 s2)) as [[]|e] eqn:E.
  - pose proof (steps_ok l) as Hl. destruct (steps_check true l) as [l' b]. cbn [snd] in *. rewrite and_then_ok, E, Hl. tauto.
  - cbn [snd]. rewrite E. split; [discriminate|]. intros (H1 & H2 & _). apply Hs. tauto.
Qed.
Print Assumptions c116_check.
(** C116. It passes exactly when, with errors switched off, it neither reports a problem nor raises. *)
Theorem c116_flag : forall m, snd (snd (data_check true m)) = Ok tt <-> snd (data_check false m) = fine.
Proof.
  intros m. rewrite c116_check. destruct m as [s1 s2 l]. unfold data_check, good_model. cbn [master second all_steps].
  pose proof (surfaces_fine s1 s2) as Hs. unfold good_surfaces in Hs. destruct (snd (model_check false s1 s2)) as [[]|e] eqn:E.
  - pose proof (steps_fine l) as Hl. destruct (steps_check false l) as [l' b]. cbn [snd] in *. rewrite and_then_fine, Hs, Hl. tauto.
  - cbn [snd]. split.
    + intros (H1 & H2 & _). apply Hs. tauto.
    + intros H. rewrite H in E. discriminate E.
Qed.
Print Assumptions c116_flag.

(** C116. The outputs reported are those asked for (the components, for a load or a displacement) that the state will not
    have, except attributes of surfaces. *)
Theorem c116_outputs : forall requested names k,
  In k (check_outputs requested names) <-> asked_for requested k /\ attribute k = false /\ ~ obtainable names k.
Proof. exact outputs_spec. Qed.
Print Assumptions c116_outputs.
(** C116. If none is reported and the state has the announced names, every record of requests among those checked has every
    field asked for, with its value, except attributes of surfaces. *)
Theorem c116_saved : forall (A : Type) (exec_raises : string -> bool) (order : list string -> list string) requested names (st : @state A) req,
  (forall l, Permutation (order l) l) -> well_typed st -> (forall k, In k names <-> In k (map fst st)) ->
  check_outputs requested names = [] -> (forall k, In k req -> k = "time" \/ In k requested) ->
  exists rec, build_record exec_raises order st req = Ok rec /\
    forall k, asked st req k -> attribute k = false -> exists v, available st k v /\ dget k rec = Some v.
Proof.
  intros A er order requested names st req Ho W Hn C Hr.
  destruct (build_record_spec er order Ho st req W) as (rec & missing & B & _ & _ & H1 & _).
  exists rec. split; [exact B|]. intros k Ha Hk.
  assert (G : exists v, available st k v); [|destruct G as [v G]; exists v; split; [exact G|exact (H1 k v G Ha)]].
  assert (O : obtainable names k -> exists v, available st k v).
  { assert (D : forall p, In p names -> exists w, dget p st = Some w).
    { intros p Hp. apply Hn, dget_in in Hp. destruct (dget p st) as [w|]; [now exists w|congruence]. }
    assert (V : forall p a, In (k, (p, a)) components -> vector p -> In p names -> exists v, available st k v).
    { intros p a Hp V Hin. destruct (D p Hin) as [w Hw]. destruct (proj1 W p V w Hw) as (x & y & z & ->).
      exists (match a with X => x | Y => y | Z => z end). left. exists p, a, (SVec x y z). split; [exact Hp|split; [exact Hw|]]. now destruct a. }
    intros [(p & a & Hp & Vp & Hin)|[Hin NV]]; [exact (V p a Hp Vp Hin)|].
    destruct (from k) as [p|] eqn:F.
    - apply from_spec in F as (a & Hp & Vp). destruct (dget p st) as [w|] eqn:E.
      + apply (V p a Hp Vp). apply Hn, dget_in. congruence.
      + destruct (D k Hin) as [v Hv]. exists v. right. split; [|split; [exact Hv|]].
        * intros Cm. apply components_dget in Hp. cbn in Cm. repeat (destruct Cm as [<-|Cm]; [discriminate Hp|]). exact Cm.
        * intros q b Hq. apply components_dget in Hp, Hq. congruence.
    - destruct (D k Hin) as [v Hv]. exists v. right. split; [|split; [exact Hv|]].
      + intros Cm. cbn in Cm. repeat (destruct Cm as [<-|Cm]; [first [apply NV; cbn; tauto|discriminate Hk]|]). exact Cm.
      + intros q b Hq. exfalso. cbn [components In] in Hq.
        repeat (destruct Hq as [Hq|Hq]; [injection Hq as <- <- <-; first [discriminate F|discriminate Hk]|]). exact Hq. }
  destruct Ha as [(Hin & NC & Nall)|[(p & a & Hp & Hin)|(_ & _ & H)]]; [| |exact H].
  - apply O. apply (proj1 (outputs_none requested names) C); [|exact Hk]. left. split; [exact (Hr k Hin)|split; [|exact Nall]].
    intros Vk. apply NC. cbn in Vk |- *. tauto.
  - assert (Vp : vector p).
    { cbn [components In] in Hp. repeat (destruct Hp as [Hp|Hp]; [injection Hp as <- <- <-; first [cbn; tauto|discriminate Hk]|]). destruct Hp. }
    apply O. apply (proj1 (outputs_none requested names) C); [|exact Hk]. right. exists p, a. split; [exact Hp|split; [exact Vp|]].
    destruct (Hr p Hin) as [->|H]; [|exact H]. exfalso. cbn in Vp. repeat (destruct Vp as [Vp|Vp]; [discriminate Vp|]). exact Vp.
Qed.
Print Assumptions c116_saved.
(** C116. If the step is good, and its state has the announced names when its sub models are solved, every sub model finds
    the names it requires, provided that the ones before it find what they announce. *)
Theorem c116_runs : forall s error state before m after state',
  snd (snd (step_check true s)) = Ok tt -> first s = false ->
  (forall x, In x (announces s) -> dmem x state = true) ->
  (forall b d found x, In b (subs s) -> find b d = Ok found -> In x (provides b) -> dmem x found = true) ->
  subs s = (before ++ m :: after)%list -> find_all error before state = Ok state' ->
  forall x, In x (requires m) -> dmem x state' = true.
Proof.
  intros s error state before m after state' C F Hp Hf E R x Hx. apply step_ok in C. destruct C as [C|(_ & _ & C & _)]; [congruence|].
  specialize (C before m after x E Hx).
  assert (G : forall l st st', (forall b, In b l -> In b (subs s)) -> find_all error l st = Ok st' ->
              (forall y, dmem y st = true -> dmem y st' = true) /\ forall b y, In b l -> In y (provides b) -> dmem y st' = true).
  { assert (U : forall (d st : list (string * sv)) y, dmem y (dupdate st d) = true <-> dmem y st = true \/ dmem y d = true).
    { unfold dupdate. induction d as [|[k v] d IH]; intros st y.
      - cbn. split; [now left|]. intros [H|H]; [exact H|discriminate H].
      - cbn [fold_left]. rewrite IH. unfold dmem. rewrite dget_dset. cbn [dget fst snd].
        destruct (String.eqb y k); [|tauto]. split; intros _; [now right|now left]. }
    induction l as [|b l IH]; intros st st' Hl H.
    - injection H as <-. split; [auto|]. intros b y [].
    - cbn [find_all] in H. destruct (find b st) as [found|e] eqn:Fb; [|discriminate H]. cbn [bind] in H.
      destruct (negb (same_names (provides b) (map fst found)) && negb error); [discriminate H|].
      destruct (IH _ _ (fun b' H' => Hl b' (or_intror H')) H) as [I1 I2]. split.
      + intros y Hy. apply I1, U. now left.
      + intros b' y [<-|Hb] Hy; [|exact (I2 b' y Hb Hy)]. apply I1, U. right. apply (Hf b st found y (Hl b (or_introl eq_refl)) Fb Hy). }
  destruct (G before state state') as [G1 G2]; [|exact R|].
  - intros b Hb. rewrite E. apply in_or_app. now left.
  - destruct C as [C|(b & Hb & Hy)]; [apply G1, Hp, C|exact (G2 b x Hb Hy)].
Qed.
Print Assumptions c116_runs.

(** C116. A model that passes passes again. *)
Theorem c116_again : forall m, snd (snd (data_check true m)) = Ok tt -> snd (snd (data_check true (fst (data_check true m)))) = Ok tt.
Proof.
  intros [s1 s2 l] H. pose proof (proj1 (c116_check _) H) as G. apply c116_check. revert H. unfold data_check. cbn [master second all_steps].
  destruct (snd (model_check true s1 s2)) as [u|e] eqn:E; [|cbn [snd]; congruence].
  destruct (steps_check true l) as [l' b] eqn:L. cbn [fst snd]. intros H. apply and_then_ok in H as [_ H].
  destruct G as (G1 & G2 & G3). cbn [master second all_steps] in *. split; [exact G1|split; [exact G2|]]. cbn [all_steps].
  clear G1 G2 E. revert l' b L H. induction l as [|s l IH]; intros l' b L H; cbn [steps_check] in L.
  - injection L as <- <-. intros s [].
  - pose proof (step_ok s) as Ok1. destruct (step_check true s) as [s' a] eqn:Cs. cbn [snd] in Ok1.
    assert (A : snd a = Ok tt) by (apply Ok1, G3; now left). rewrite A in L.
    destruct (steps_check true l) as [l'' c] eqn:Cl. injection L as <- <-. apply and_then_ok in H as [_ H].
    intros x [<-|Hx]; [|exact (IH (fun y Hy => G3 y (or_intror Hy)) l'' c eq_refl H x Hx)].
    assert (Gs : good_step s) by (apply G3; now left). clear IH Cl. revert Cs. unfold step_check.
    destruct (first s) eqn:F; [intros Cs; injection Cs as <- _; exact Gs|].
    destruct (snd (run_own true (own s))) as [u0|e]; [|intros Cs; injection Cs as <- _; exact Gs].
    cbv zeta. destruct (snd (and_then (run_own true (own s)) _)) as [u1|e]; [|intros Cs; injection Cs as <- _; exact Gs].
    destruct (subs_check true (subs s) (provided s)) as [names' b'] eqn:C.
    intros Cs. injection Cs as <- Ea. destruct (keeps_set s) eqn:K; [|exact Gs].
    assert (B : snd b' = Ok tt) by (rewrite <- Ea in A; rewrite !and_then_ok in A; tauto).
    pose proof (subs_names true (subs s) (provided s) names') as Nm. rewrite C in Nm. cbn [fst snd] in Nm. specialize (Nm eq_refl B).
    assert (P : provided (Step false (own s) names' (subs s) (outputs s)) = names') by (unfold provided, keeps_set in *; cbn [own announced]; destruct (own s) as [|r [t|]]; [reflexivity|discriminate K|reflexivity]).
    apply good_step_provided in Gs. apply good_step_provided. destruct Gs as [Gs|(O & T & N & Q)]; [congruence|]. right. cbn [own subs outputs]. rewrite P.
    refine (conj O (conj _ (conj _ _))).
    + apply Nm. now left.
    + intros before m after x E Hx. destruct (N before m after x E Hx) as [G|G]; [left; apply Nm; now left|now right].
    + intros k Hk1 Hk2 names Hn. apply (Q k Hk1 Hk2). intros x. rewrite Hn. unfold known. rewrite Nm. unfold known. tauto.
Qed.
Print Assumptions c116_again.
(** C116, refuted: with errors switched off the check changes what a step announces: where a sub model requires what only a
    later one finds, this is reported the first time, and the second time nothing is. *)
Theorem c116_twice_refuted : forall x names f g outs d, In "time" names -> ~ In x names -> is_discrete d = true -> has_material d = true ->
  check_outputs (List.concat outs) (supdate (supdate names []) [x]) = [] ->
  let m := Contact (Some d) (Some d) [Step false Plain names [SubModel [x] [] f; SubModel [] [x] g] outs] in
  snd (data_check false m) = (1, Ok tt)%nat /\ snd (data_check false (fst (data_check false m))) = fine /\
  snd (snd (data_check true m)) = Err ValueError /\ snd (snd (data_check true (fst (data_check false m)))) = Ok tt.
Proof.
  intros x names f g outs [di ma] T N D M Co m. cbn in D, M. subst di ma.
  assert (T' : smem "time" names = true) by now apply smem_in.
  assert (N' : smem x names = false) by (apply not_true_is_false; intros H; apply smem_in in H; contradiction).
  assert (X : fst (data_check false m) = Contact (Some (SurfaceInfo true true)) (Some (SurfaceInfo true true)) [Step false Plain (supdate (supdate names []) [x]) [SubModel [x] [] f; SubModel [] [x] g] outs]).
  { unfold m, data_check. cbn -[smem supdate check_outputs]. rewrite T'. cbn -[smem supdate check_outputs]. rewrite N'. cbn -[smem supdate check_outputs]. rewrite Co. reflexivity. }
  assert (Y : snd (snd (data_check true (Contact (Some (SurfaceInfo true true)) (Some (SurfaceInfo true true)) [Step false Plain (supdate (supdate names []) [x]) [SubModel [x] [] f; SubModel [] [x] g] outs]))) = Ok tt).
  { apply c116_check. split; [now eexists|]. split; [now eexists|]. cbn [all_steps]. intros s [<-|[]]. apply good_needs. right. cbn [own subs outputs provided announced].
    assert (Z : forall y, In y (supdate (supdate names []) [x]) <-> In y names \/ x = y) by (intros y; rewrite !in_supdate; cbn; tauto).
    refine (conj eq_refl (conj _ (conj _ _))).
    - apply smem_in, Z. now left.
    - apply needs_cons. cbn [requires provides]. split; [intros y [<-|[]]; apply Z; now right|]. apply needs_cons. split; [intros y []|]. intros before mm after y E. destruct before; discriminate E.
    - intros all Ha. revert Co. apply outputs_same. intros y. rewrite Ha. unfold known. split; [now left|]. intros [H|(b & [<-|[<-|[]]] & H)]; [exact H|destruct H|]. apply Z. destruct H as [<-|[]]. now right. }
  rewrite X. refine (conj _ (conj _ (conj _ Y))).
  - unfold m, data_check. cbn -[smem supdate check_outputs]. rewrite T'. cbn -[smem supdate check_outputs]. rewrite N'. cbn -[smem supdate check_outputs].
    change (List.concat outs) with (List.concat outs) in Co. rewrite Co. reflexivity.
  - apply c116_flag. exact Y.
  - unfold m, data_check. cbn -[smem supdate check_outputs]. rewrite T'. cbn -[smem supdate check_outputs]. rewrite N'. reflexivity.
Qed.
Print Assumptions c116_twice_refuted.
(** C116, refuted: with errors switched off, a missing surface still raises, as does a lubrication step without its solver or
    without a lubricant, where no other problem raises. *)
Theorem c116_off_refuted : forall s1 s2 l, snd (snd (data_check false (Contact s1 s2 l))) =
  if is_none s1 || is_none s2 || existsb (fun s => negb (first s) && match own s with Lubricated (Some _) (Some _) => false | Lubricated _ _ => true | Plain => false end) l
  then Err AttributeError else Ok tt.
Proof.
  intros s1 s2 l. unfold data_check. cbn [master second all_steps].
  assert (E : snd (model_check false s1 s2) = if is_none s1 || is_none s2 then Err AttributeError else Ok tt).
  { unfold model_check. destruct s1 as [[[] []]|], s2 as [[[] []]|]; reflexivity. }
  rewrite E. destruct (is_none s1 || is_none s2) eqn:N; [cbn [snd orb]; now rewrite E|]. cbn [orb].
  assert (L : snd (snd (steps_check false l)) = if existsb (fun s => negb (first s) && match own s with Lubricated (Some _) (Some _) => false | Lubricated _ _ => true | Plain => false end) l then Err AttributeError else Ok tt).
  2:{ destruct (steps_check false l) as [l' b]. cbn [snd] in *. unfold and_then. rewrite E. cbn [snd]. exact L. }
  clear. induction l as [|s l IH]; [reflexivity|]. cbn [steps_check existsb].
  assert (S1 : snd (snd (step_check false s)) = if negb (first s) && match own s with Lubricated (Some _) (Some _) => false | Lubricated _ _ => true | Plain => false end then Err AttributeError else Ok tt).
  { unfold step_check. destruct (first s); [reflexivity|]. cbn [negb andb].
    assert (O : snd (run_own false (own s)) = if match own s with Lubricated (Some _) (Some _) => false | Lubricated _ _ => true | Plain => false end then Err AttributeError else Ok tt).
    { destruct (own s) as [|[r|] [t|]]; cbn [run_own is_none problem report]; try reflexivity. unfold and_then. cbn. now destruct (Nat.eqb _ 0). }
    rewrite O. destruct (match own s with Lubricated (Some _) (Some _) => false | Lubricated _ _ => true | Plain => false end) eqn:B; [cbn [snd]; exact O|].
    assert (P : snd (and_then (run_own false (own s)) (problem false (negb (smem "time" (provided s))))) = Ok tt) by (apply and_then_ok; split; [exact O|apply problem_off]).
    cbv zeta. rewrite P. pose proof (subs_off (subs s) (provided s)) as So. destruct (subs_check false (subs s) (provided s)) as [names' b]. cbn [snd] in *.
    rewrite and_then_ok. split; [exact P|]. rewrite and_then_ok. split; [exact So|]. rewrite So.
    induction (check_outputs (List.concat (outputs s)) names') as [|k ks IHk]; [reflexivity|]. cbn [each_reported]. rewrite and_then_ok. split; [reflexivity|exact IHk]. }
  destruct (step_check false s) as [s' a]. cbn [snd] in S1. rewrite S1.
  destruct (negb (first s) && _); cbn [orb snd]; [exact S1|].
  destruct (steps_check false l) as [l' b]. cbn [snd] in *. unfold and_then. rewrite S1. cbn [snd]. exact IH.
Qed.
Print Assumptions c116_off_refuted.
(** C116, refuted: an initial step anywhere in the model changes nothing in the outcome, although it raises when it is not the
    first step solved. *)
Theorem c116_order_refuted : forall error s1 s2 before s after, first s = true ->
  snd (data_check error (Contact s1 s2 (before ++ s :: after))) = snd (data_check error (Contact s1 s2 (before ++ after))) /\
  forall (state : Type) (fresh now : state), initial_solve fresh (Some now) = Err ValueError.
Proof.
  intros error s1 s2 before s after F. split; [|reflexivity]. unfold data_check. cbn [master second all_steps].
  destruct (snd (model_check error s1 s2)); [|reflexivity].
  assert (G : snd (steps_check error (before ++ s :: after)) = snd (steps_check error (before ++ after))).
  { induction before as [|b l IH]; cbn [app steps_check].
    - assert (C : step_check error s = (s, fine)) by (unfold step_check; now rewrite F). rewrite C. cbn [fine snd].
      destruct (steps_check error after) as [l' [n r]]. reflexivity.
    - destruct (step_check error b) as [b' o]. destruct (snd o); [|reflexivity].
      destruct (steps_check error (l ++ s :: after)), (steps_check error (l ++ after)). cbn [snd] in *. now rewrite IH. }
  destruct (steps_check error (before ++ s :: after)), (steps_check error (before ++ after)). cbn [snd] in *. now rewrite G.
Qed.
Print Assumptions c116_order_refuted.
(** C116, refuted: anything that starts like an attribute of a surface passes the check, the displacements of the surfaces
    included; where the state doesn't have it, the record has another string for it, or nothing. *)
Theorem c116_attribute_refuted : forall (A : Type) exec_raises order k names (st : @state A),
  attribute k = true -> In "time" names ->
  check_outputs [k] names = [] /\
  ((forall l, Permutation (order l) l) -> well_typed st -> ~ compound k -> (forall v, ~ available st k v) ->
   exists rec, build_record exec_raises order st ["time"; k] = Ok rec /\ (dget k rec = Some (SStr "surface_2_points") \/ dget k rec = None)).
Proof.
  intros A er order k names st Hk T. split.
  - apply outputs_none. intros k' [([->|[<-|[]]] & V & N)|(p & a & Hp & V & [<-|[]])] Hs.
    + right. split; [exact T|exact V].
    + congruence.
    + exfalso. cbn [components In] in Hp.
      repeat (destruct Hp as [Hp|Hp]; [injection Hp as <- <- <-; first [discriminate Hk|discriminate Hs]|]). exact Hp.
  - intros Ho W NC Na. destruct (c10_missing_field_value A er order st ["time"; k] Ho W) as (rec & missing & B & M & G).
    exists rec. split; [exact B|]. assert (I : In k missing).
    { apply M. split; [|exact Na]. left. split; [right; now left|split; [exact NC|]]. intros ->. discriminate Hk. }
    destruct (G k I) as [G1 G2].
    destruct (ListDec.In_decidable (fun a b : string => match string_dec a b with left e => or_introl e | right n => or_intror n end) k (map fst rec)) as [D|D].
    + left. apply G1. destruct (dget k rec) as [v|] eqn:E; [|apply dget_none in E; contradiction].
      destruct (Classical_Prop.classic (exists pre post, order missing = (pre ++ k :: post)%list /\ forall m, In m (pre ++ [k]) -> (String.prefix "surface" m && negb (has_char ";"%char m) && er m) = false)) as [Y|Y]; [exact Y|].
      specialize (G2 Y). congruence.
    + right. now apply dget_none.
Qed.
Print Assumptions c116_attribute_refuted.

(** C116. Over any history of adding steps to models and sub models to steps, in any order, a sub model used in one step only
    belongs to the model of that step. *)
Theorem c116_sub_models : forall ops s b m, let l := link_all ops in
  In b (step_subs l s) -> step_model l s = Some m -> (forall s', In b (step_subs l s') -> s' = s) -> sub_owner l b = Some m.
Proof.
  intros ops. unfold link_all. induction ops as [|o ops IH] using rev_ind; intros s b m; cbv zeta.
  - intros [].
  - rewrite fold_left_app. cbn [fold_left]. set (l := fold_left link ops no_links) in *. cbv zeta in IH.
    assert (F : forall subs f, fold_left (fun f b => set_at f b (Some m)) subs f b = if existsb (Nat.eqb b) subs then Some m else f b).
    { induction subs as [|c subs IHs]; intros f; [reflexivity|]. cbn [fold_left existsb]. rewrite IHs. unfold set_at. destruct (Nat.eqb b c); cbn [orb]; [now destruct (existsb _ subs)|reflexivity]. }
    destruct o as [m0 s0|s0 b0]; cbn [link].
    + destruct (step_model l s0) as [m1|] eqn:E0; [apply IH|]. cbn [step_subs step_model sub_owner]. intros Hb Hm U.
      unfold set_at in Hm at 1. destruct (Nat.eqb_spec s s0) as [->|Ne].
      * injection Hm as ->. rewrite F. destruct (existsb (Nat.eqb b) (step_subs l s0)) eqn:X; [reflexivity|].
        exfalso. assert (T : existsb (Nat.eqb b) (step_subs l s0) = true) by (apply existsb_exists; exists b; split; [exact Hb|apply Nat.eqb_refl]). congruence.
      * pose proof (IH s b m Hb Hm U) as G. rewrite <- G.
        assert (X : forall subs f, ~ In b subs -> fold_left (fun f b => set_at f b (Some m0)) subs f b = f b).
        { induction subs as [|c subs IHs]; intros f H; [reflexivity|]. cbn [fold_left]. rewrite IHs by (intros I; apply H; now right).
          unfold set_at. destruct (Nat.eqb_spec b c) as [->|_]; [exfalso; apply H; now left|reflexivity]. }
        apply X. intros I. apply Ne. symmetry. apply U. exact I.
    + cbn [step_subs step_model sub_owner]. intros Hb Hm U.
      assert (K : forall s', In b (step_subs l s') -> s' = s).
      { intros s' I. apply U. unfold set_at. destruct (Nat.eqb_spec s' s0) as [->|_]; [apply in_or_app; now left|exact I]. }
      destruct (Nat.eqb_spec b b0) as [<-|Nb].
      * assert (Es : s0 = s) by (apply U; unfold set_at; rewrite Nat.eqb_refl; apply in_or_app; right; now left). subst s0.
        rewrite Hm. unfold set_at. now rewrite Nat.eqb_refl.
      * assert (I : In b (step_subs l s)).
        { unfold set_at in Hb. destruct (Nat.eqb_spec s s0) as [->|_]; [|exact Hb]. apply in_app_or in Hb as [H|[H|[]]]; [exact H|congruence]. }
        pose proof (IH s b m I Hm K) as G. destruct (step_model l s0); [|exact G]. unfold set_at. destruct (Nat.eqb_spec b b0); [congruence|exact G].
Qed.
Print Assumptions c116_sub_models.
(** C116, refuted: a sub model shared by steps of two models belongs to the one it was given to last, whichever step it runs
    in. *)
Theorem c116_shared_refuted : forall m1 m2 s1 s2 b, s1 <> s2 -> m1 <> m2 ->
  let l := link_all [AddStep m1 s1; AddStep m2 s2; AddSub s1 b; AddSub s2 b] in
  In b (step_subs l s1) /\ step_model l s1 = Some m1 /\ sub_owner l b = Some m2.
Proof.
  intros m1 m2 s1 s2 b Ns Nm. unfold link_all. cbn [fold_left link no_links step_model step_subs sub_owner set_at].
  unfold set_at. repeat (rewrite ?Nat.eqb_refl, ?(proj2 (Nat.eqb_neq s2 s1) (not_eq_sym Ns)), ?(proj2 (Nat.eqb_neq s1 s2) Ns); cbn [step_model step_subs sub_owner fold_left app]; unfold set_at).
  split; [now left|split; reflexivity].
Qed.
Print Assumptions c116_shared_refuted.

(** A model that passes: a static step with a sub model for wear that needs the loads, and outputs. *)
Definition steel_surface := SurfaceInfo true true.
Definition worn_step : step := Step false Plain ["loads"; "time"; "gap"]
  [SubModel ["loads"] ["wear"] (fun _ => Ok [("wear", SNum 1)]); SubModel ["wear"; "gap"] ["depth"] (fun _ => Ok [("depth", SNum 1)])]
  [["loads"; "depth"]; ["surface_1.profile"; "all"]].
Example c116_case : snd (snd (data_check true (Contact (Some steel_surface) (Some steel_surface) [Step true Plain [] [] []; worn_step]))) = Ok tt.
Proof. reflexivity. Qed.
(** Models that don't: the sub models in the wrong order, an output that isn't announced. *)
Example c116_case_order : snd (data_check false (Contact (Some steel_surface) (Some steel_surface)
  [Step false Plain ["loads"; "time"; "gap"] (rev (subs worn_step)) [["total_displacement"; "depth"]]])) = (4, Ok tt)%nat.
Proof. vm_compute. reflexivity. Qed.
Example c116_case_outputs : check_outputs ["total_displacement"; "loads_x"; "surface_3_points"; "gap"] ["loads"; "time"] = ["gap"; "total_displacement_x"; "total_displacement_y"; "total_displacement_z"].
Proof. vm_compute. reflexivity. Qed.
(** Hypotheses of the refutations. *)
Example c116_case_twice : check_outputs (List.concat [["loads"]]) (supdate (supdate ["time"; "loads"] []) ["x"]) = [].
Proof. reflexivity. Qed.
Example c116_case_attribute : attribute "surface_1_displacement" = true /\ attribute "surface_1.wear_volume" = true /\ attribute "loads" = false /\ ~ compound "surface_1.wear_volume".
Proof. repeat split. intros H. cbn in H. repeat (destruct H as [H|H]; [discriminate H|]). exact H. Qed.
Example c116_case_link : let l := link_all [AddSub 1 5; AddStep 7 1; AddSub 1 6; AddSub 2 9] in
  sub_owner l 5 = Some 7 /\ sub_owner l 6 = Some 7 /\ sub_owner l 9 = None.
Proof. repeat split. Qed.

(** With the flag off every problem gives one warning: here those of the surfaces and of a lubrication step. A surface, a
    solver or a lubricant that isn't there ends the check with an error after the warnings. *)
Definition times (p : bool) : nat := if p then 1%nat else 0%nat.
Theorem c116_warnings : forall i j,
  data_check false (Contact (Some i) (Some j) []) =
    (Contact (Some i) (Some j) [], ((times (negb (is_discrete i)) + times (negb (has_material i)) + times (negb (has_material j)))%nat, Ok tt)) /\
  (forall s l, snd (data_check false (Contact None s l)) = (1%nat, Err AttributeError)) /\
  (forall l, snd (data_check false (Contact (Some i) None l)) = ((times (negb (is_discrete i)) + times (negb (has_material i)) + 1)%nat, Err AttributeError)) /\
  (forall solver lubricant names ms outs l, is_discrete i = true -> has_material i = true -> has_material j = true -> solver = None \/ lubricant = None ->
     snd (data_check false (Contact (Some i) (Some j) (Step false (Lubricated solver lubricant) names ms outs :: l))) =
       ((times (is_none solver) + times (is_none lubricant))%nat, Err AttributeError)).
Proof.
  intros i j. unfold data_check, model_check, problem, report, fine. split; [|split; [|split]].
  - destruct i as [[] []], j as [? []]; reflexivity.
  - intros [s|] l; reflexivity.
  - intros l. destruct i as [[] []]; reflexivity.
  - intros solver lubricant names ms outs l D M M' N. cbn [master second all_steps]. rewrite D, M, M'. destruct solver, lubricant; try reflexivity. destruct N; discriminate.
Qed.
Print Assumptions c116_warnings.
