From Coq Require Import List String Ascii Bool Arith Lia.
From Verif Require Import Py PyProofs SaveModel SaveSpec SaveProofs StepModel CheckModel CheckSpec.
Import ListNotations.
Local Open Scope string_scope.

(** ** Outcomes *)
Lemma and_then_ok a b : snd (and_then a b) = Ok tt <-> snd a = Ok tt /\ snd b = Ok tt.
Proof. unfold and_then. destruct a as [n [[]|e]]; cbn; split; [tauto|tauto|discriminate|]. intros [H _]. discriminate H. Qed.
Lemma and_then_fine a b : and_then a b = fine <-> a = fine /\ b = fine.
Proof.
  unfold and_then, fine. destruct a as [n [[]|e]], b as [m r]; cbn.
  - split; [intros H; injection H as H ->; split; f_equal; lia|intros [H1 H2]; injection H1 as ->; injection H2 as -> ->; reflexivity].
  - split; [discriminate|intros [H _]; discriminate H].
Qed.
Lemma problem_ok p : snd (problem true p) = Ok tt <-> p = false.
Proof. destruct p; cbn; split; congruence. Qed.
Lemma problem_fine p : problem false p = fine <-> p = false.
Proof. destruct p; cbn; unfold fine; split; congruence. Qed.
Lemma problem_off p : snd (problem false p) = Ok tt.
Proof. now destruct p. Qed.
Lemma each_ok l : snd (each_reported true l) = Ok tt <-> l = [].
Proof. destruct l; cbn; split; try congruence; discriminate. Qed.
Lemma each_fine l : each_reported false l = fine <-> l = [].
Proof. destruct l; [tauto|]. cbn [each_reported]. rewrite and_then_fine. split; [intros [H _]; discriminate H|discriminate]. Qed.
Lemma fine_ok o : o = fine -> snd o = Ok tt. Proof. now intros ->. Qed.
Lemma ok_tt (r : result unit) u : r = Ok u -> r = Ok tt. Proof. now destruct u. Qed.

(** ** Sub models *)
Lemma subs_names error l : forall names names', fst (subs_check error l names) = names' -> snd (snd (subs_check error l names)) = Ok tt ->
  forall x, In x names' <-> known names l x.
Proof.
  induction l as [|m l IH]; intros names names' E1 E2 x.
  - cbn in E1. subst. unfold known. split; [now left|]. intros [H|(m & [] & _)]. exact H.
  - cbn [subs_check] in E1, E2. destruct (snd (problem error (existsb (fun x => negb (smem x names)) (requires m)))) as [u|e] eqn:P.
    + specialize (IH (supdate names (provides m))). destruct (subs_check error l (supdate names (provides m))) as [n o]. cbn [fst snd] in *.
      apply and_then_ok in E2 as [_ E2]. rewrite (IH _ E1 E2). unfold known. rewrite in_supdate. split.
      * intros [[H|H]|(m' & H & H')]; [now left|right; exists m; split; [now left|exact H]|right; exists m'; split; [now right|exact H']].
      * intros [H|(m' & [<-|H] & H')]; [left; now left|left; now right|right; now exists m'].
    + cbn [fst snd] in *. rewrite P in E2. discriminate E2.
Qed.
Definition needs_known (names : list string) (l : list sub_model) : Prop :=
  forall before m after x, l = (before ++ m :: after)%list -> In x (requires m) -> known names before x.
Lemma missing_none' names l : existsb (fun x => negb (smem x names)) l = false <-> forall x, In x l -> In x names.
Proof.
  split.
  - intros H x Hx. apply smem_in. destruct (smem x names) eqn:E; [reflexivity|].
    assert (T : existsb (fun x => negb (smem x names)) l = true) by (apply existsb_exists; exists x; now rewrite E). congruence.
  - intros H. apply not_true_is_false. intros T. apply existsb_exists in T as (x & Hx & T). apply negb_true_iff in T.
    apply H in Hx. apply smem_in in Hx. congruence.
Qed.
Lemma needs_cons names m l : needs_known names (m :: l) <-> (forall x, In x (requires m) -> In x names) /\ needs_known (supdate names (provides m)) l.
Proof.
  unfold needs_known, known. split.
  - intros H. split.
    + intros x Hx. destruct (H [] m l x eq_refl Hx) as [G|(m' & [] & _)]. exact G.
    + intros before m' after x E Hx. destruct (H (m :: before) m' after x) as [G|(m'' & G & G')]; [now rewrite E|exact Hx| |].
      * left. apply in_supdate. now left.
      * destruct G as [<-|G]; [left; apply in_supdate; now right|right; now exists m''].
  - intros [H1 H2] before m' after x E Hx. destruct before as [|b before]; cbn in E; injection E as -> ->.
    + left. now apply H1.
    + destruct (H2 before m' after x eq_refl Hx) as [G|(m'' & G & G')].
      * apply in_supdate in G as [G|G]; [now left|right; exists b; split; [now left|exact G]].
      * right. exists m''. split; [now right|exact G'].
Qed.
Lemma subs_ok l : forall names, snd (snd (subs_check true l names)) = Ok tt <-> needs_known names l.
Proof.
  induction l as [|m l IH]; intros names.
  - cbn. split; [|reflexivity]. intros _ before m after x E. destruct before; discriminate E.
  - rewrite needs_cons, <- missing_none', <- IH. cbn [subs_check].
    destruct (existsb _ (requires m)); cbn; [split; [discriminate|intros [H _]; discriminate H]|].
    destruct (subs_check true l (supdate names (provides m))) as [n [k r]]. cbn. tauto.
Qed.
Lemma subs_fine l : forall names, snd (subs_check false l names) = fine <-> needs_known names l.
Proof.
  induction l as [|m l IH]; intros names.
  - cbn. split; [|reflexivity]. intros _ before m after x E. destruct before; discriminate E.
  - rewrite needs_cons, <- missing_none', <- IH. cbn [subs_check]. rewrite problem_off.
    destruct (subs_check false l (supdate names (provides m))) as [n o]. cbn [fst snd]. rewrite and_then_fine, problem_fine. reflexivity.
Qed.
Lemma subs_off l : forall names, snd (snd (subs_check false l names)) = Ok tt.
Proof.
  induction l as [|m l IH]; intros names; [reflexivity|]. cbn [subs_check]. rewrite problem_off.
  specialize (IH (supdate names (provides m))). destruct (subs_check false l (supdate names (provides m))) as [n o]. cbn [fst snd] in *.
  apply and_then_ok. split; [apply problem_off|exact IH].
Qed.
(** It is the check of StepModel.v. *)
Lemma subs_same error l : forall names, check_sub_models error l names = (fst (subs_check error l names), snd (snd (subs_check error l names))).
Proof.
  induction l as [|m l IH]; intros names; [reflexivity|]. cbn [subs_check check_sub_models].
  destruct (existsb _ (requires m)), error; cbn [andb problem report snd fst]; try reflexivity; rewrite IH;
    destruct (subs_check _ l (supdate names (provides m))) as [n [k r]]; reflexivity.
Qed.

(** ** Outputs *)
Definition after_one (p : string) (l : list string) : list string := if smem p l then sremove p (supdate l [p ++ "_x"; p ++ "_y"; p ++ "_z"]) else l.
Definition after_all (l : list string) : list string := fold_left (fun l p => after_one p l) vec_names l.
Lemma fold_pair l : forall st ps, fold_left (fun acc p => check_expand p acc) l (st, ps) = (fold_left (fun l p => after_one p l) l st, fold_left (fun l p => after_one p l) l ps).
Proof. induction l as [|p l IH]; intros st ps; [reflexivity|]. cbn [fold_left]. unfold check_expand at 2. rewrite IH. reflexivity. Qed.
Lemma after_one_mem p l k : smem k (after_one p l) =
  if smem p l then (smem k l || (String.eqb k (p ++ "_x") || (String.eqb k (p ++ "_y") || (String.eqb k (p ++ "_z") || false)))) && negb (String.eqb k p) else smem k l.
Proof. unfold after_one. destruct (smem p l); [|reflexivity]. rewrite smem_sremove, smem_supdate. reflexivity. Qed.
Definition wide : list string :=
  ["loads"; "total_displacement"; "surface_1_displacement"; "surface_2_displacement";
   "loads_x"; "loads_y"; "loads_z"; "total_displacement_x"; "total_displacement_y"; "total_displacement_z";
   "surface_1_displacement_x"; "surface_1_displacement_y"; "surface_1_displacement_z";
   "surface_2_displacement_x"; "surface_2_displacement_y"; "surface_2_displacement_z"].
(** The part a component comes from. *)
Definition from (k : string) : option string :=
  match dget k components with Some (p, _) => if smem p vec_names then Some p else None | None => None end.
Lemma from_spec k p : from k = Some p <-> exists a, In (k, (p, a)) components /\ vector p.
Proof.
  unfold from. split.
  - destruct (dget k components) as [[q a]|] eqn:E; [|discriminate]. destruct (smem q vec_names) eqn:V; [|discriminate].
    intros H. injection H as ->. exists a. split; [now apply components_dget|]. now apply smem_in in V.
  - intros (a & H & V). apply components_dget in H. rewrite H. unfold vector in V. apply smem_in in V.
    change (smem p vec_names = true) in V. now rewrite V.
Qed.
Ltac after_case l :=
  repeat match goal with |- context [String.eqb ?a ?b] => let v := eval vm_compute in (String.eqb a b) in change (String.eqb a b) with v end;
  match goal with |- context [from ?k] => let f := eval vm_compute in (from k) in change (from k) with f end;
  repeat match goal with |- context [smem ?k vec_names] => let f := eval vm_compute in (smem k vec_names) in change (smem k vec_names) with f end;
  cbn [orb andb negb];
  repeat match goal with |- context [smem ?a l] => destruct (smem a l) end; reflexivity.
Lemma after_all_mem l k : smem k (after_all l) =
  (match from k with Some p => smem p l || smem k l | None => smem k l && negb (smem k vec_names) end).
Proof.
  unfold after_all. cbn [fold_left vec_names]. rewrite !after_one_mem. cbn [append].
  destruct (in_dec string_dec k wide) as [Hin|Hout].
  - cbn [wide In] in Hin.
    repeat (destruct Hin as [<-|Hin]; [after_case l|]).
    destruct Hin.
  - assert (N : forall s, In s wide -> String.eqb k s = false) by (intros s Hs; apply eqb_ne; intros ->; contradiction).
    assert (F : from k = None).
    { destruct (from k) as [p|] eqn:E; [|reflexivity]. exfalso. apply from_spec in E as (a & H & V). apply Hout.
      cbn [components In] in H.
      repeat (destruct H as [H|H]; [injection H as <- <- <-; first [cbn; tauto|exfalso; cbn in V; repeat (destruct V as [V|V]; [discriminate V|]); exact V]|]).
      destruct H. }
    rewrite F.
    assert (V : smem k vec_names = false).
    { unfold smem. cbn [existsb vec_names]. rewrite !N by (cbn; tauto). reflexivity. }
    rewrite V. rewrite !(N "loads"), !(N "total_displacement"), !(N "surface_1_displacement"), !(N "surface_2_displacement"),
      !(N "loads_x"), !(N "loads_y"), !(N "loads_z"), !(N "total_displacement_x"), !(N "total_displacement_y"), !(N "total_displacement_z"),
      !(N "surface_1_displacement_x"), !(N "surface_1_displacement_y"), !(N "surface_1_displacement_z"),
      !(N "surface_2_displacement_x"), !(N "surface_2_displacement_y"), !(N "surface_2_displacement_z") by (cbn; tauto).
    cbn [negb orb]. rewrite !orb_false_r, !andb_true_r.
    repeat match goal with |- context [if ?b then smem k l else smem k l] => replace (if b then smem k l else smem k l) with (smem k l) by now destruct b end.
    reflexivity.
Qed.
Lemma vector_in k : vector k <-> In k vec_names. Proof. reflexivity. Qed.
Lemma from_not_vector k p : from k = Some p -> ~ vector k /\ k <> "all" /\ p <> "all" /\ vector p.
Proof.
  intros E. apply from_spec in E as (a & H & V). split; [|split; [|split; [|exact V]]].
  - intros W. cbn [components In] in H.
    repeat (destruct H as [H|H]; [injection H as <- <- <-; cbn in W; repeat (destruct W as [W|W]; [discriminate W|]); exact W|]). exact H.
  - intros ->. cbn [components In] in H. repeat (destruct H as [H|H]; [discriminate H|]). exact H.
  - intros ->. cbn in V. repeat (destruct V as [V|V]; [discriminate V|]). exact V.
Qed.
Lemma after_obtainable names k : smem k (after_all names) = true <-> obtainable names k.
Proof.
  rewrite after_all_mem. unfold obtainable. destruct (from k) as [p|] eqn:F.
  - destruct (from_not_vector k p F) as (NV & _). rewrite orb_true_iff, !smem_in. apply from_spec in F as (a & H & V). split.
    + intros [G|G]; [left; exists p, a; tauto|right; tauto].
    + intros [(q & b & H' & _ & G)|[G _]]; [|now right]. left. apply components_dget in H, H'. congruence.
  - rewrite andb_true_iff, negb_true_iff. split.
    + intros [H1 H2]. right. split; [now apply smem_in|]. intros W. apply (proj2 (smem_in _ _)) in W. change (smem k vec_names = true) in W. congruence.
    + intros [(p & a & H & V & _)|[H1 H2]].
      * assert (G : from k = Some p) by (apply from_spec; now exists a). congruence.
      * split; [now apply smem_in|]. apply not_true_is_false. intros W. apply H2. now apply smem_in.
Qed.
Lemma asked_obtainable requested k : asked_for requested k <-> obtainable (sremove "all" (supdate ["time"] requested)) k.
Proof.
  unfold asked_for, obtainable.
  assert (E : forall x, In x (sremove "all" (supdate ["time"] requested)) <-> (x = "time" \/ In x requested) /\ x <> "all").
  { intros x. rewrite in_sremove, in_supdate. cbn [In]. intuition. }
  split.
  - intros [(H & V & N)|(p & a & H & V & I)].
    + right. rewrite E. tauto.
    + left. exists p, a. rewrite E. refine (conj H (conj V (conj (or_intror I) _))). intros ->. cbn in V. repeat (destruct V as [V|V]; [discriminate V|]). exact V.
  - intros [(p & a & H & V & I)|[H V]].
    + right. exists p, a. apply E in I as [[->|I] _]; [|tauto]. exfalso. cbn in V. repeat (destruct V as [V|V]; [discriminate V|]). exact V.
    + left. apply E in H. tauto.
Qed.
Lemma obtainable_more a b k : (forall x, In x a -> In x b) -> obtainable a k -> obtainable b k.
Proof. intros H [(p & x & G & V & I)|[I V]]; [left; exists p, x; auto|right; auto]. Qed.
Lemma obtainable_union a b c k : (forall x, In x c -> In x a \/ In x b) -> obtainable c k -> obtainable a k \/ obtainable b k.
Proof.
  intros H [(p & x & G & V & I)|[I V]]; destruct (H _ I); unfold obtainable;
    [left; left; now exists p, x|right; left; now exists p, x|left; right; auto|right; right; auto].
Qed.
Lemma outputs_spec requested names k :
  In k (check_outputs requested names) <-> asked_for requested k /\ attribute k = false /\ ~ obtainable names k.
Proof.
  unfold check_outputs. rewrite fold_pair. rewrite filter_In, in_sdiff.
  fold (after_all names). change (fold_left (fun l p => after_one p l) vec_names ?l) with (after_all l).
  set (ps := supdate ["time"] requested). rewrite <- !(smem_in k), negb_true_iff.
  change (String.prefix "surface" k && negb (has_char ";"%char k)) with (attribute k).
  rewrite !after_obtainable.
  destruct (smem "all" ps) eqn:A.
  - rewrite (asked_obtainable requested k). fold ps. split.
    + intros [[H1 H2] H3]. refine (conj _ (conj H3 H2)).
      destruct (obtainable_union (sremove "all" ps) names (sremove "all" (supdate ps names)) k) as [G|G]; [|exact H1|exact G|contradiction].
      intros x Hx. apply in_sremove in Hx as [Hx Nx]. apply in_supdate in Hx as [Hx|Hx]; [left; apply in_sremove; tauto|now right].
    + intros (H1 & H3 & H2). refine (conj (conj _ H2) H3). revert H1. apply obtainable_more. intros x Hx.
      apply in_sremove in Hx as [Hx Nx]. apply in_sremove. split; [apply in_supdate; now left|exact Nx].
  - rewrite (asked_obtainable requested k). fold ps.
    assert (E : forall x, In x (sremove "all" ps) <-> In x ps).
    { intros x. rewrite in_sremove. split; [tauto|]. intros H. split; [exact H|]. intros ->. apply smem_in in H. congruence. }
    split.
    + intros [[H1 H2] H3]. refine (conj _ (conj H3 H2)). revert H1. apply obtainable_more. intros x Hx. now apply E.
    + intros (H1 & H3 & H2). refine (conj (conj _ H2) H3). revert H1. apply obtainable_more. intros x Hx. now apply E.
Qed.
Lemma outputs_none requested names : check_outputs requested names = [] <-> forall k, asked_for requested k -> attribute k = false -> obtainable names k.
Proof.
  split.
  - intros E k Ha Hs. rewrite <- after_obtainable. destruct (smem k (after_all names)) eqn:O; [reflexivity|]. exfalso.
    assert (G : In k (check_outputs requested names)) by (apply outputs_spec; refine (conj Ha (conj Hs _)); rewrite <- after_obtainable; congruence).
    rewrite E in G. exact G.
  - intros H. destruct (check_outputs requested names) as [|k l] eqn:E; [reflexivity|]. exfalso.
    assert (G : In k (check_outputs requested names)) by (rewrite E; now left). apply outputs_spec in G as (H1 & H2 & H3). auto.
Qed.
Lemma obtainable_same a b k : (forall x, In x a <-> In x b) -> obtainable a k <-> obtainable b k.
Proof. intros H. split; apply obtainable_more; intros x; apply H. Qed.

(** ** Steps *)
Lemma own_ok o : snd (run_own true o) = Ok tt <->
  match o with Plain => True | Lubricated r l => exists r' l', r = Some r' /\ l = Some l' /\ forall x, In x r' -> In x l' \/ x = "nd_gap" \/ x = "nd_pressure" end.
Proof.
  destruct o as [|[r|] [l|]]; cbn [run_own]; rewrite ?and_then_ok, ?problem_ok; cbn [is_none].
  - now split.
  - assert (G : negb (Nat.eqb (List.length (sdiff (sdiff r l) ["nd_gap"; "nd_pressure"])) 0) = false <-> forall x, In x r -> In x l \/ x = "nd_gap" \/ x = "nd_pressure").
    { rewrite negb_false_iff, Nat.eqb_eq, length_zero_iff_nil. split.
      - intros E x Hx. destruct (smem x l) eqn:M; [left; now apply smem_in|]. right.
        destruct (smem x ["nd_gap"; "nd_pressure"]) eqn:M'.
        + apply smem_in in M'. cbn in M'. intuition.
        + exfalso. assert (In x (sdiff (sdiff r l) ["nd_gap"; "nd_pressure"])) as G; [|rewrite E in G; exact G].
          rewrite !in_sdiff, <- !smem_in, M, M'. apply smem_in in Hx. rewrite Hx. intuition.
      - intros H. destruct (sdiff (sdiff r l) ["nd_gap"; "nd_pressure"]) as [|x t] eqn:E; [reflexivity|]. exfalso.
        assert (G : In x (sdiff (sdiff r l) ["nd_gap"; "nd_pressure"])) by (rewrite E; now left).
        rewrite !in_sdiff in G. destruct G as [[G1 G2] G3]. destruct (H x G1) as [G|[->| ->]]; [contradiction| |]; apply G3; cbn; tauto. }
    rewrite G. split.
    + intros (_ & _ & H). now exists r, l.
    + intros (r' & l' & E1 & E2 & H). injection E1 as <-. injection E2 as <-. tauto.
  - split; [intros (_ & H & _); discriminate H|intros (r' & l' & _ & H & _); discriminate H].
  - split; [intros (H & _); discriminate H|intros (r' & l' & H & _); discriminate H].
  - split; [intros (H & _); discriminate H|intros (r' & l' & H & _); discriminate H].
Qed.
Lemma own_fine o : run_own false o = fine <-> snd (run_own true o) = Ok tt.
Proof.
  destruct o as [|[r|] [l|]]; cbn [run_own]; rewrite ?and_then_ok, ?and_then_fine, ?problem_ok, ?problem_fine; cbn [is_none]; try reflexivity.
  - now split.
  - split; [intros (_ & H & _); discriminate H|intros (_ & H & _); discriminate H].
  - split; intros (H & _); discriminate H.
  - split; intros (H & _); discriminate H.
Qed.
Lemma announces_provided s x : In x (announces s) <-> In x (provided s).
Proof. unfold announces, provided. rewrite in_app_iff. destruct (own s) as [|r [l|]]; rewrite ?in_supdate; cbn [In]; tauto. Qed.
Lemma known_ext a b l x : (forall y, In y a <-> In y b) -> known a l x <-> known b l x.
Proof. intros H. unfold known. rewrite H. tauto. Qed.
Lemma good_step_provided s : good_step s <-> first s = true \/
  (match own s with
   | Plain => True
   | Lubricated r l => exists r' l', r = Some r' /\ l = Some l' /\ forall x, In x r' -> In x l' \/ x = "nd_gap" \/ x = "nd_pressure"
   end) /\
  In "time" (provided s) /\
  (forall before m after x, subs s = (before ++ m :: after)%list -> In x (requires m) -> known (provided s) before x) /\
  (forall k, asked_for (List.concat (outputs s)) k -> attribute k = false -> forall names, (forall x, In x names <-> known (provided s) (subs s) x) -> obtainable names k).
Proof.
  unfold good_step. rewrite announces_provided.
  assert (K : forall l x, known (announces s) l x <-> known (provided s) l x) by (intros; apply known_ext, announces_provided).
  assert (A : (forall before m after x, subs s = (before ++ m :: after)%list -> In x (requires m) -> known (announces s) before x) <->
              (forall before m after x, subs s = (before ++ m :: after)%list -> In x (requires m) -> known (provided s) before x)).
  { split; intros H b m a x E I; apply K; exact (H b m a x E I). }
  assert (B : (forall k, asked_for (List.concat (outputs s)) k -> attribute k = false -> forall names, (forall x, In x names <-> known (announces s) (subs s) x) -> obtainable names k) <->
              (forall k, asked_for (List.concat (outputs s)) k -> attribute k = false -> forall names, (forall x, In x names <-> known (provided s) (subs s) x) -> obtainable names k)).
  { split; intros H k Ha Hk names Hn; apply (H k Ha Hk); intros x; rewrite (Hn x); [symmetry|]; apply K. }
  rewrite A, B. tauto.
Qed.
Lemma good_needs s : good_step s <-> first s = true \/ snd (run_own true (own s)) = Ok tt /\ smem "time" (provided s) = true /\ needs_known (provided s) (subs s) /\
  forall names, (forall x, In x names <-> known (provided s) (subs s) x) -> check_outputs (List.concat (outputs s)) names = [].
Proof.
  rewrite good_step_provided. fold (needs_known (provided s) (subs s)). rewrite own_ok, smem_in.
  assert (E : (forall k, asked_for (List.concat (outputs s)) k -> attribute k = false -> forall names, (forall x, In x names <-> known (provided s) (subs s) x) -> obtainable names k) <->
              (forall names, (forall x, In x names <-> known (provided s) (subs s) x) -> check_outputs (List.concat (outputs s)) names = [])).
  { split.
    - intros H names Hn. apply outputs_none. intros k H1 H2. exact (H k H1 H2 names Hn).
    - intros H k H1 H2 names Hn. exact (proj1 (outputs_none _ _) (H names Hn) k H1 H2). }
  rewrite E. tauto.
Qed.
Lemma outputs_same requested a b : (forall x, In x a <-> In x b) -> check_outputs requested a = [] -> check_outputs requested b = [].
Proof. intros H. rewrite !outputs_none. intros G k H1 H2. apply (obtainable_same a b k H). auto. Qed.
Lemma some_names names l : exists all, forall x, In x all <-> known names l x.
Proof. exists (fst (subs_check false l names)). exact (subs_names false l names _ eq_refl (subs_off l names)). Qed.
Lemma step_ok s : snd (snd (step_check true s)) = Ok tt <-> good_step s.
Proof.
  rewrite good_needs. unfold step_check. destruct (first s); [cbn; split; [now left|reflexivity]|].
  destruct (snd (run_own true (own s))) as [u|e] eqn:O.
  2:{ cbn. rewrite O. split; [discriminate|]. intros [H|(H & _)]; discriminate H. }
  destruct u. cbv zeta. destruct (snd (and_then (run_own true (own s)) (problem true (negb (smem "time" (provided s)))))) as [u|e] eqn:P.
  2:{ cbn [snd]. rewrite P. split; [discriminate|]. intros [H|(_ & H & _)]; [discriminate H|]. rewrite H in P. unfold and_then in P. rewrite O in P. discriminate P. }
  destruct u. assert (T : smem "time" (provided s) = true) by (apply and_then_ok in P as [_ P]; apply problem_ok in P; now apply negb_false_iff in P).
  destruct (subs_check true (subs s) (provided s)) as [names' b] eqn:C. cbn [snd].
  rewrite and_then_ok, P, and_then_ok, T.
  pose proof (subs_ok (subs s) (provided s)) as Sk. rewrite C in Sk. cbn [snd] in Sk.
  pose proof (subs_names true (subs s) (provided s) names') as Nm. rewrite C in Nm. cbn [fst snd] in Nm. specialize (Nm eq_refl).
  split.
  - intros (_ & Hb & Ho). right. rewrite Hb in Ho. apply each_ok in Ho. specialize (Nm Hb).
    refine (conj eq_refl (conj eq_refl (conj (proj1 Sk Hb) _))). intros names Hn. revert Ho. apply outputs_same. intros x. now rewrite Nm, Hn.
  - intros [H|(_ & _ & Hn & Ho)]; [discriminate H|]. apply Sk in Hn. rewrite Hn. refine (conj eq_refl (conj eq_refl _)).
    apply each_ok. apply Ho. exact (Nm Hn).
Qed.
Lemma step_fine s : snd (step_check false s) = fine <-> good_step s.
Proof.
  rewrite good_needs. unfold step_check. destruct (first s); [cbn; split; [now left|reflexivity]|].
  rewrite <- own_fine. destruct (snd (run_own false (own s))) as [u|e] eqn:O.
  2:{ cbn [snd]. split; [intros H; rewrite H in O; discriminate O|]. intros [H|(H & _)]; [discriminate H|]. rewrite H in O. discriminate O. }
  destruct u. assert (P : snd (and_then (run_own false (own s)) (problem false (negb (smem "time" (provided s))))) = Ok tt) by (apply and_then_ok; split; [exact O|apply problem_off]).
  cbv zeta. rewrite P.
  destruct (subs_check false (subs s) (provided s)) as [names' b] eqn:C. cbn [snd].
  pose proof (subs_fine (subs s) (provided s)) as Sk. rewrite C in Sk. cbn [snd] in Sk.
  pose proof (subs_off (subs s) (provided s)) as So. rewrite C in So. cbn [snd] in So.
  pose proof (subs_names false (subs s) (provided s) names') as Nm. rewrite C in Nm. cbn [fst snd] in Nm. specialize (Nm eq_refl So).
  rewrite So, !and_then_fine, problem_fine, each_fine, negb_false_iff, Sk. split.
  - intros ((H1 & H2) & Hb & Ho). right. refine (conj H1 (conj H2 (conj Hb _))). intros names Hn. revert Ho. apply outputs_same. intros x. now rewrite Nm, Hn.
  - intros [H|(H1 & H2 & Hn & Ho)]; [discriminate H|]. refine (conj (conj H1 H2) (conj Hn _)). apply Ho. exact Nm.
Qed.
Lemma steps_ok l : snd (snd (steps_check true l)) = Ok tt <-> forall s, In s l -> good_step s.
Proof.
  induction l as [|s l IH]; [cbn; split; [intros _ s []|reflexivity]|]. cbn [steps_check].
  pose proof (step_ok s) as Hs. destruct (step_check true s) as [s' a]. cbn [snd] in Hs.
  destruct (snd a) as [[]|e] eqn:A.
  - destruct (steps_check true l) as [l' b]. cbn [snd] in *. rewrite and_then_ok, A, IH. split.
    + intros [_ H] x [<-|Hx]; [now apply Hs|auto].
    + intros H. split; [reflexivity|]. intros x Hx. apply H. now right.
  - cbn [snd]. rewrite A. split; [discriminate|]. intros H. apply Hs. apply H. now left.
Qed.
Lemma steps_fine l : snd (steps_check false l) = fine <-> forall s, In s l -> good_step s.
Proof.
  induction l as [|s l IH]; [cbn; split; [intros _ s []|reflexivity]|]. cbn [steps_check].
  pose proof (step_fine s) as Hs. destruct (step_check false s) as [s' a]. cbn [snd] in Hs.
  destruct (snd a) as [[]|e] eqn:A.
  - destruct (steps_check false l) as [l' b]. cbn [snd] in *. rewrite and_then_fine, Hs, IH. split.
    + intros [H1 H] x [<-|Hx]; auto.
    + intros H. split; [apply H; now left|]. intros x Hx. apply H. now right.
  - cbn [snd]. split; [intros H; rewrite H in A; discriminate A|]. intros H. exfalso. assert (G : a = fine) by (apply Hs, H; now left). rewrite G in A. discriminate A.
Qed.
Definition good_surfaces (s1 s2 : option surface_info) : Prop :=
  (exists i, s1 = Some i /\ is_discrete i = true /\ has_material i = true) /\ (exists j, s2 = Some j /\ has_material j = true).
Lemma surfaces_ok s1 s2 : snd (model_check true s1 s2) = Ok tt <-> good_surfaces s1 s2.
Proof.
  unfold model_check, good_surfaces. destruct s1 as [[d m]|], s2 as [[d2 m2]|]; cbn [is_none is_discrete has_material]; rewrite ?and_then_ok, ?problem_ok, ?negb_false_iff.
  - split.
    + intros (_ & H1 & H2 & _ & H3). split; eexists; split; try reflexivity; cbn; auto.
    + intros [(i & E & H1 & H2) (j & E' & H3)]. injection E as <-. injection E' as <-. cbn in *. tauto.
  - split; [intros (_ & _ & _ & H & _); discriminate H|intros [_ (j & H & _)]; discriminate H].
  - split; [intros (H & _); discriminate H|intros [(j & H & _) _]; discriminate H].
  - split; [intros (H & _); discriminate H|intros [(j & H & _) _]; discriminate H].
Qed.
Lemma surfaces_fine s1 s2 : model_check false s1 s2 = fine <-> good_surfaces s1 s2.
Proof.
  unfold model_check, good_surfaces. destruct s1 as [[d m]|], s2 as [[d2 m2]|]; cbn [is_none is_discrete has_material]; rewrite ?and_then_fine, ?problem_fine, ?negb_false_iff.
  - split.
    + intros (_ & H1 & H2 & _ & H3). split; eexists; split; try reflexivity; cbn; auto.
    + intros [(i & E & H1 & H2) (j & E' & H3)]. injection E as <-. injection E' as <-. cbn in *. tauto.
  - split; [intros (_ & _ & _ & H & _); discriminate H|intros [_ (j & H & _)]; discriminate H].
  - split; [intros (H & _); discriminate H|intros [(j & H & _) _]; discriminate H].
  - split; [intros (H & _); discriminate H|intros [(j & H & _) _]; discriminate H].
Qed.
