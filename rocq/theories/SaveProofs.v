From Coq Require Import List String Ascii Bool Reals Permutation Lia.
From Verif Require Import Py PyProofs RequestModel SaveModel SaveSpec.
Import ListNotations.
Local Open Scope string_scope.

Section Proofs.
Context {A : Type}.
Local Notation sval := (@sval A).
Local Notation state := (@state A).


Definition touches (p k : string) : bool :=
  existsb (String.eqb k) [p; p ++ "_x"; p ++ "_y"; p ++ "_z"].

(** What one expansion step does to a lookup and to a membership test. *)
Definition step_lookup (p : string) (old new : state) (axes : list axis) : Prop :=
  (forall k, touches p k = false -> dget k new = dget k old) /\
  dget p new = None /\
  (In X axes -> dget (p ++ "_x") new = match dget p old with Some w => component w X | None => dget (p ++ "_x") old end) /\
  (In Y axes -> dget (p ++ "_y") new = match dget p old with Some w => component w Y | None => dget (p ++ "_y") old end) /\
  (In Z axes -> dget (p ++ "_z") new = match dget p old with Some w => component w Z | None => dget (p ++ "_z") old end) /\
  (~ In Z axes -> dget (p ++ "_z") new = dget (p ++ "_z") old).
Definition step_names (p : string) (old new : list string) (axes : list axis) : Prop :=
  (forall k, touches p k = false -> smem k new = smem k old) /\
  smem p new = false /\
  (In X axes -> smem (p ++ "_x") new = smem (p ++ "_x") old || smem p old) /\
  (In Y axes -> smem (p ++ "_y") new = smem (p ++ "_y") old || smem p old) /\
  (In Z axes -> smem (p ++ "_z") new = smem (p ++ "_z") old || smem p old) /\
  (~ In Z axes -> smem (p ++ "_z") new = smem (p ++ "_z") old).

Lemma app_ne (p a b : string) : a <> b -> p ++ a <> p ++ b.
Proof.
  intros H E. apply H. induction p as [|c p IH]; cbn in E; [exact E|]. apply IH. now injection E.
Qed.
Lemma app_ne_self (p : string) c a : p ++ String c a <> p.
Proof. induction p as [|c' p IH]; cbn; [discriminate|]. intros E. apply IH. now injection E. Qed.
Lemma eqb_ne a b : a <> b -> String.eqb a b = false.
Proof. intros H. destruct (String.eqb_spec a b); [contradiction|reflexivity]. Qed.
Lemma smem_sadd x k s : smem x (sadd k s) = String.eqb x k || smem x s.
Proof.
  apply eq_true_iff_eq. rewrite orb_true_iff, !smem_in, in_sadd, String.eqb_eq. reflexivity.
Qed.
Lemma smem_supdate x s t : smem x (supdate s t) = smem x s || smem x t.
Proof. apply eq_true_iff_eq. rewrite orb_true_iff, !smem_in, in_supdate. reflexivity. Qed.
Lemma smem_sremove x k s : smem x (sremove k s) = smem x s && negb (String.eqb x k).
Proof.
  apply eq_true_iff_eq. rewrite andb_true_iff, negb_true_iff, !smem_in, in_sremove.
  destruct (String.eqb_spec x k); intuition congruence.
Qed.

Ltac eqb_solve :=
  repeat match goal with
  | |- context [String.eqb (?p ++ String ?c ?a) ?p] => rewrite (eqb_ne (p ++ String c a) p) by apply app_ne_self
  | |- context [String.eqb ?p (?p ++ String ?c ?a)] =>
      rewrite (eqb_ne p (p ++ String c a)) by (intros E; symmetry in E; exact (app_ne_self _ _ _ E))
  | |- context [String.eqb (?p ++ ?a) (?p ++ ?a)] => rewrite String.eqb_refl
  | |- context [String.eqb ?p ?p] => rewrite String.eqb_refl
  | |- context [String.eqb (?p ++ ?a) (?p ++ ?b)] => rewrite (eqb_ne (p ++ a) (p ++ b)) by (apply app_ne; discriminate)
  end.

Lemma names_step p ps suff axes :
  (suff = ["_x"; "_y"; "_z"] /\ axes = [X; Y; Z]) \/ (suff = ["_x"; "_y"] /\ axes = [X; Y]) ->
  step_names p ps (if smem p ps then sremove p (supdate ps (map (append p) suff)) else ps) axes.
Proof.
  intros Hs. unfold step_names, touches. cbn [existsb].
  destruct (smem p ps) eqn:E.
  - destruct Hs as [[-> ->]|[-> ->]]; cbn [map smem existsb].
    + split; [|split; [|split; [|split; [|split]]]].
      * intros k Hk. rewrite smem_sremove, smem_supdate. cbn [smem existsb].
        destruct (String.eqb k p), (String.eqb k (p ++ "_x")), (String.eqb k (p ++ "_y")),
          (String.eqb k (p ++ "_z")); try discriminate. cbn. now rewrite orb_false_r, andb_true_r.
      * rewrite smem_sremove, String.eqb_refl, andb_false_r. reflexivity.
      * intros _. rewrite smem_sremove, smem_supdate. cbn [smem existsb]. eqb_solve. cbn.
        now rewrite andb_true_r.
      * intros _. rewrite smem_sremove, smem_supdate. cbn [smem existsb]. eqb_solve. cbn.
        now rewrite andb_true_r.
      * intros _. rewrite smem_sremove, smem_supdate. cbn [smem existsb]. eqb_solve. cbn.
        now rewrite andb_true_r.
      * intros H. exfalso. apply H. cbn. tauto.
    + split; [|split; [|split; [|split; [|split]]]].
      * intros k Hk. rewrite smem_sremove, smem_supdate. cbn [smem existsb].
        destruct (String.eqb k p), (String.eqb k (p ++ "_x")), (String.eqb k (p ++ "_y")),
          (String.eqb k (p ++ "_z")); try discriminate. cbn. now rewrite orb_false_r, andb_true_r.
      * rewrite smem_sremove, String.eqb_refl, andb_false_r. reflexivity.
      * intros _. rewrite smem_sremove, smem_supdate. cbn [smem existsb]. eqb_solve. cbn.
        now rewrite andb_true_r.
      * intros _. rewrite smem_sremove, smem_supdate. cbn [smem existsb]. eqb_solve. cbn.
        now rewrite andb_true_r.
      * intros H. cbn in H. destruct H as [H|[H|[]]]; discriminate.
      * intros _. rewrite smem_sremove, smem_supdate. cbn [smem existsb]. eqb_solve. cbn.
        now rewrite orb_false_r, andb_true_r.
  - split; [reflexivity|]. split; [exact E|].
    split; [intros _; now rewrite orb_false_r|]. split; [intros _; now rewrite orb_false_r|].
    split; [intros _; now rewrite orb_false_r|reflexivity].
Qed.

Lemma expand_vec_spec p (st : state) ps :
  (forall v, dget p st = Some v -> exists x y z, v = SVec x y z) ->
  exists st' ps', expand_vec p (st, ps) = Ok (st', ps') /\
    step_lookup p st st' [X; Y; Z] /\ step_names p ps ps' [X; Y; Z].
Proof.
  intros Hw. unfold expand_vec. unfold step_lookup, touches. cbn [existsb].
  destruct (dget p st) as [v|] eqn:E.
  - destruct (Hw v eq_refl) as (x & y & z & ->). cbn [bind].
    eexists. eexists. split; [reflexivity|].
    split; [|apply (names_step p ps ["_x"; "_y"; "_z"]); left; auto].
    split; [|split; [|split; [|split; [|split]]]].
    + intros k Hk. rewrite dget_ddel, !dget_dset.
      destruct (String.eqb k p), (String.eqb k (p ++ "_x")), (String.eqb k (p ++ "_y")),
          (String.eqb k (p ++ "_z")); try discriminate. reflexivity.
    + rewrite dget_ddel, String.eqb_refl. reflexivity.
    + intros _. rewrite dget_ddel, !dget_dset. eqb_solve. reflexivity.
    + intros _. rewrite dget_ddel, !dget_dset. eqb_solve. reflexivity.
    + intros _. rewrite dget_ddel, !dget_dset. eqb_solve. reflexivity.
    + intros H. exfalso. apply H. cbn. tauto.
  - cbn [bind]. eexists. eexists. split; [reflexivity|].
    split; [|apply (names_step p ps ["_x"; "_y"; "_z"]); left; auto].
    repeat split; auto.
Qed.
Lemma expand_pts_spec p (st : state) ps :
  (forall v, dget p st = Some v -> exists y x, v = SPts y x) ->
  exists st' ps', expand_pts p (st, ps) = Ok (st', ps') /\
    step_lookup p st st' [X; Y] /\ step_names p ps ps' [X; Y].
Proof.
  intros Hw. unfold expand_pts. unfold step_lookup, touches. cbn [existsb].
  destruct (dget p st) as [v|] eqn:E.
  - destruct (Hw v eq_refl) as (y & x & ->). cbn [bind].
    eexists. eexists. split; [reflexivity|].
    split; [|apply (names_step p ps ["_x"; "_y"]); right; auto].
    split; [|split; [|split; [|split; [|split]]]].
    + intros k Hk. rewrite dget_ddel, !dget_dset.
      destruct (String.eqb k p), (String.eqb k (p ++ "_x")), (String.eqb k (p ++ "_y")),
          (String.eqb k (p ++ "_z")); try discriminate. reflexivity.
    + rewrite dget_ddel, String.eqb_refl. reflexivity.
    + intros _. rewrite dget_ddel, !dget_dset. eqb_solve. reflexivity.
    + intros _. rewrite dget_ddel, !dget_dset. eqb_solve. reflexivity.
    + intros H. cbn in H. destruct H as [H|[H|[]]]; discriminate.
    + intros _. rewrite dget_ddel, !dget_dset. eqb_solve. reflexivity.
  - cbn [bind]. eexists. eexists. split; [reflexivity|].
    split; [|apply (names_step p ps ["_x"; "_y"]); right; auto].
    repeat split; auto.
Qed.

Definition compounds : list string :=
  ["loads"; "total_displacement"; "surface_1_displacement"; "surface_2_displacement";
        "surface_1_points"; "surface_2_points"].
Definition avail_f (st : state) (k : string) : option sval :=
  match dget k components with
  | Some (p, a) => match dget p st with Some w => component w a | None => dget k st end
  | None => if smem k compounds then None else dget k st
  end.

Lemma components_dget k x : In (k, x) components <-> dget k components = Some x.
Proof.
  split.
  - intros H. cbn in H. repeat (destruct H as [H|H]; [injection H as <- <-; reflexivity|]). destruct H.
  - assert (G : forall l : list (string * (string * axis)), dget k l = Some x -> In (k, x) l).
    { induction l as [|[k0 v0] l IH]; cbn; [discriminate|].
      destruct (String.eqb_spec k k0) as [->|]; [intros H; injection H as ->; now left|].
      intros H. right. now apply IH. }
    apply G.
Qed.
Lemma available_f st k v : well_typed st -> available st k v <-> avail_f st k = Some v.
Proof.
  intros [W1 W2]. unfold available, avail_f, compound. fold compounds.
  destruct (dget k components) as [[p a]|] eqn:E.
  - destruct (dget p st) as [w|] eqn:Ep.
    + split.
      * intros [(p' & a' & w' & Hin & Hp & Hc)|(_ & _ & Hall)].
        -- apply components_dget in Hin. congruence.
        -- exfalso. specialize (Hall p a). rewrite components_dget in Hall. specialize (Hall E). congruence.
      * intros Hc. left. exists p, a, w. rewrite components_dget. auto.
    + split.
      * intros [(p' & a' & w' & Hin & Hp & Hc)|(_ & Hk & _)]; [|exact Hk].
        apply components_dget in Hin. congruence.
      * intros Hk. right. split.
        -- apply components_dget in E. cbn in E.
           repeat (destruct E as [E|E]; [injection E as <- <- <-; cbn; intros H;
             repeat (destruct H as [H|H]; [discriminate H|]); exact H|]). destruct E.
        -- split; [exact Hk|]. intros p' a' Hin. apply components_dget in Hin. congruence.
  - split.
    + intros [(p' & a' & w' & Hin & _)|(Hc & Hk & _)].
      * apply components_dget in Hin. congruence.
      * assert (S : smem k compounds = false).
        { destruct (smem k compounds) eqn:S; [|reflexivity]. apply smem_in in S. contradiction. }
        now rewrite S.
    + destruct (smem k compounds) eqn:S; [discriminate|]. intros Hk. right.
      split; [rewrite <- smem_in; congruence|]. split; [exact Hk|].
      intros p a Hin. apply components_dget in Hin. congruence.
Qed.

Lemma noZ : ~ In Z [X; Y].
Proof. cbn. intros [H|[H|[]]]; discriminate. Qed.
Definition all_names : list string := (compounds ++ map fst components ++ ["surface_1_points_z"; "surface_2_points_z"])%list.

(** Names after the expansion. *)
Definition names_f (ps : list string) (k : string) : bool :=
  match dget k components with
  | Some (p, _) => smem k ps || smem p ps
  | None => if smem k compounds then false else smem k ps
  end.

Lemma outside_touches k p : ~ In k all_names -> In p compounds -> touches p k = false.
Proof.
  intros Hk Hp. unfold touches. cbn [existsb].
  assert (N : forall n, In n all_names -> String.eqb k n = false).
  { intros n Hn. apply eqb_ne. intros ->. contradiction. }
  cbn in Hp. repeat (destruct Hp as [<-|Hp]; [rewrite !N by (cbn; tauto); reflexivity|]). destruct Hp.
Qed.

Lemma expansion (st : state) ps : well_typed st ->
  exists st2 ps2,
    bind (for_each expand_vec vec_names (st, ps)) (for_each expand_pts pts_names) = Ok (st2, ps2) /\
    (forall k, dget k st2 = avail_f st k) /\
    (forall k, smem k ps2 = names_f ps k).
Proof.
  intros [W1 W2].
  cbn [for_each vec_names pts_names].
  destruct (expand_vec_spec "loads" st ps) as (s1 & p1 & E1 & D1 & P1); [apply W1; apply smem_in; reflexivity|].
  destruct D1 as (O1 & N1 & X1 & Y1 & Z1 & _). destruct P1 as (O1' & N1' & X1' & Y1' & Z1' & _).
  destruct (expand_vec_spec "total_displacement" s1 p1) as (s2 & p2 & E2 & D2 & P2).
  { rewrite O1 by reflexivity. apply W1; apply smem_in; reflexivity. }
  destruct D2 as (O2 & N2 & X2 & Y2 & Z2 & _). destruct P2 as (O2' & N2' & X2' & Y2' & Z2' & _).
  destruct (expand_vec_spec "surface_1_displacement" s2 p2) as (s3 & p3 & E3 & D3 & P3).
  { rewrite O2, O1 by reflexivity. apply W1; apply smem_in; reflexivity. }
  destruct D3 as (O3 & N3 & X3 & Y3 & Z3 & _). destruct P3 as (O3' & N3' & X3' & Y3' & Z3' & _).
  destruct (expand_vec_spec "surface_2_displacement" s3 p3) as (s4 & p4 & E4 & D4 & P4).
  { rewrite O3, O2, O1 by reflexivity. apply W1; apply smem_in; reflexivity. }
  destruct D4 as (O4 & N4 & X4 & Y4 & Z4 & _). destruct P4 as (O4' & N4' & X4' & Y4' & Z4' & _).
  destruct (expand_pts_spec "surface_1_points" s4 p4) as (s5 & p5 & E5 & D5 & P5).
  { rewrite O4, O3, O2, O1 by reflexivity. apply W2; apply smem_in; reflexivity. }
  destruct D5 as (O5 & N5 & X5 & Y5 & _ & Z5). destruct P5 as (O5' & N5' & X5' & Y5' & _ & Z5').
  destruct (expand_pts_spec "surface_2_points" s5 p5) as (s6 & p6 & E6 & D6 & P6).
  { rewrite O5, O4, O3, O2, O1 by reflexivity. apply W2; apply smem_in; reflexivity. }
  destruct D6 as (O6 & N6 & X6 & Y6 & _ & Z6). destruct P6 as (O6' & N6' & X6' & Y6' & _ & Z6').
  specialize (X1 (or_introl eq_refl)). specialize (Y1 (or_intror (or_introl eq_refl))). specialize (Z1 (or_intror (or_intror (or_introl eq_refl)))).
  specialize (X2 (or_introl eq_refl)). specialize (Y2 (or_intror (or_introl eq_refl))). specialize (Z2 (or_intror (or_intror (or_introl eq_refl)))).
  specialize (X3 (or_introl eq_refl)). specialize (Y3 (or_intror (or_introl eq_refl))). specialize (Z3 (or_intror (or_intror (or_introl eq_refl)))).
  specialize (X4 (or_introl eq_refl)). specialize (Y4 (or_intror (or_introl eq_refl))). specialize (Z4 (or_intror (or_intror (or_introl eq_refl)))).
  specialize (X5 (or_introl eq_refl)). specialize (Y5 (or_intror (or_introl eq_refl))).
  specialize (Z5 noZ).
  specialize (X6 (or_introl eq_refl)). specialize (Y6 (or_intror (or_introl eq_refl))).
  specialize (Z6 noZ).
  specialize (X1' (or_introl eq_refl)). specialize (Y1' (or_intror (or_introl eq_refl))). specialize (Z1' (or_intror (or_intror (or_introl eq_refl)))).
  specialize (X2' (or_introl eq_refl)). specialize (Y2' (or_intror (or_introl eq_refl))). specialize (Z2' (or_intror (or_intror (or_introl eq_refl)))).
  specialize (X3' (or_introl eq_refl)). specialize (Y3' (or_intror (or_introl eq_refl))). specialize (Z3' (or_intror (or_intror (or_introl eq_refl)))).
  specialize (X4' (or_introl eq_refl)). specialize (Y4' (or_intror (or_introl eq_refl))). specialize (Z4' (or_intror (or_intror (or_introl eq_refl)))).
  specialize (X5' (or_introl eq_refl)). specialize (Y5' (or_intror (or_introl eq_refl))).
  specialize (Z5' noZ).
  specialize (X6' (or_introl eq_refl)). specialize (Y6' (or_intror (or_introl eq_refl))).
  specialize (Z6' noZ).
  cbn [append] in *.
  exists s6, p6. split.
  { rewrite E1. cbn [bind]. rewrite E2. cbn [bind]. rewrite E3. cbn [bind]. rewrite E4. cbn [bind].
    rewrite E5. cbn [bind]. rewrite E6. reflexivity. }
  clear E1 E2 E3 E4 E5 E6 W1 W2.
  split.
  - intros k.
    destruct (in_dec string_dec k all_names) as [Hin|Hout].
    + cbn [all_names compounds components map fst app In] in Hin.
      repeat (destruct Hin as [<-|Hin];
        [ try rewrite O6 by reflexivity; first [rewrite N6; reflexivity | rewrite X6 | rewrite Y6 | rewrite Z6 | idtac];
          try rewrite !O5 by reflexivity; first [rewrite N5; reflexivity | rewrite X5 | rewrite Y5 | rewrite Z5 | idtac];
          try rewrite !O4 by reflexivity; first [rewrite N4; reflexivity | rewrite X4 | rewrite Y4 | rewrite Z4 | idtac];
          try rewrite !O3 by reflexivity; first [rewrite N3; reflexivity | rewrite X3 | rewrite Y3 | rewrite Z3 | idtac];
          try rewrite !O2 by reflexivity; first [rewrite N2; reflexivity | rewrite X2 | rewrite Y2 | rewrite Z2 | idtac];
          try rewrite !O1 by reflexivity; first [rewrite N1; reflexivity | rewrite X1 | rewrite Y1 | rewrite Z1 | idtac];
          reflexivity|]).
      destruct Hin.
    + rewrite O6, O5, O4, O3, O2, O1 by (apply outside_touches; [exact Hout|apply smem_in; reflexivity]).
      assert (H1 : dget k components = None).
      { apply dget_none. intros H. apply Hout. apply in_or_app. right. apply in_or_app. now left. }
      assert (H2 : smem k compounds = false).
      { destruct (smem k compounds) eqn:S; [|reflexivity]. apply smem_in in S.
        exfalso. apply Hout. apply in_or_app. now left. }
      unfold avail_f. rewrite H1, H2. reflexivity.
  - intros k.
    destruct (in_dec string_dec k all_names) as [Hin|Hout].
    + cbn [all_names compounds components map fst app In] in Hin.
      repeat (destruct Hin as [<-|Hin];
        [ try rewrite O6' by reflexivity; first [rewrite N6'; reflexivity | rewrite X6' | rewrite Y6' | rewrite Z6' | idtac];
          try rewrite !O5' by reflexivity; first [rewrite N5'; reflexivity | rewrite X5' | rewrite Y5' | rewrite Z5' | idtac];
          try rewrite !O4' by reflexivity; first [rewrite N4'; reflexivity | rewrite X4' | rewrite Y4' | rewrite Z4' | idtac];
          try rewrite !O3' by reflexivity; first [rewrite N3'; reflexivity | rewrite X3' | rewrite Y3' | rewrite Z3' | idtac];
          try rewrite !O2' by reflexivity; first [rewrite N2'; reflexivity | rewrite X2' | rewrite Y2' | rewrite Z2' | idtac];
          try rewrite !O1' by reflexivity; first [rewrite N1'; reflexivity | rewrite X1' | rewrite Y1' | rewrite Z1' | idtac];
          reflexivity|]).
      destruct Hin.
    + rewrite O6', O5', O4', O3', O2', O1' by (apply outside_touches; [exact Hout|apply smem_in; reflexivity]).
      assert (H1 : dget k components = None).
      { apply dget_none. intros H. apply Hout. apply in_or_app. right. apply in_or_app. now left. }
      assert (H2 : smem k compounds = false).
      { destruct (smem k compounds) eqn:S; [|reflexivity]. apply smem_in in S.
        exfalso. apply Hout. apply in_or_app. now left. }
      unfold names_f. rewrite H1, H2. reflexivity.
Qed.

(** ** Missing names *)
Variable exec_raises : string -> bool.
Definition raising (mo : string) : bool :=
  String.prefix "surface" mo && negb (has_char ";" mo) && exec_raises mo.
Fixpoint before_raise (l : list string) : list string :=
  match l with [] => [] | m :: l' => if raising m then [] else m :: before_raise l' end.

Lemma missing_none l (st : state) ms :
  fold_left (missing_step exec_raises) l (None, st, ms) = (None, st, ms).
Proof.
  induction l as [|m l IH]; cbn; [reflexivity|].
  destruct (String.prefix "surface" m && negb (has_char ";" m)); [|exact IH].
  destruct (exec_raises m); exact IH.
Qed.
Lemma missing_loop l : forall v (st : state) ms,
  exists st' ms' o, fold_left (missing_step exec_raises) l (Some v, st, ms) = (o, st', ms') /\
  (forall k, dget k st' = if smem k (before_raise l) then Some v else dget k st) /\
  (forall k, In k ms' <-> In k ms /\ ~ In k (before_raise l)).
Proof.
  induction l as [|m l IH]; intros v st ms.
  - exists st, ms, (Some v). cbn. repeat split; tauto.
  - cbn [fold_left missing_step before_raise]. 
    assert (Hnr : (if String.prefix "surface" m && negb (has_char ";" m)
              then if exec_raises m then None else Some v else Some v)
            = if raising m then None else Some v).
    { unfold raising. destruct (String.prefix "surface" m && negb (has_char ";" m)); cbn;
        destruct (exec_raises m); reflexivity. }
    rewrite Hnr. fold (raising m). destruct (raising m).
    + rewrite missing_none. exists st, ms, None. cbn. repeat split; tauto.
    + destruct (IH v (dset m v st) (sremove m ms)) as (st' & ms' & o & E & D & M).
      exists st', ms', o. split; [exact E|]. split.
      * intros k. rewrite D, dget_dset. cbn [smem existsb]. fold (smem k (before_raise l)).
        destruct (smem k (before_raise l)); [now rewrite orb_true_r|]. now rewrite orb_false_r.
      * intros k. rewrite M, in_sremove. cbn [In].
        split; [intros ((H1 & H2) & H3); split; [exact H1|]; intros [->|]; [now apply H2|contradiction]|].
        intros (H1 & H2). split; [split; [exact H1|]|].
        -- intros ->. apply H2. now left.
        -- intros H. apply H2. now right.
Qed.
Lemma before_raise_incl l k : In k (before_raise l) -> In k l.
Proof.
  induction l as [|m l IH]; cbn; [tauto|]. destruct (raising m); [intros []|].
  intros [->|H]; [now left|right; auto].
Qed.
Lemma before_raise_prefix l k : In k (before_raise l) <->
  exists pre post, l = (pre ++ k :: post)%list /\ forall m, In m (pre ++ [k]) -> raising m = false.
Proof.
  induction l as [|m l IH]; cbn.
  - split; [intros []|]. intros (pre & post & E & _). destruct pre; discriminate.
  - destruct (raising m) eqn:R.
    + cbn [In]. split; [intros []|]. intros (pre & post & E & H). destruct pre as [|a pre]; cbn in E; injection E as -> ->.
      * specialize (H k (or_introl eq_refl)). congruence.
      * specialize (H a (or_introl eq_refl)). congruence.
    + cbn. split.
      * intros [->|H].
        -- exists [], l. split; [reflexivity|]. intros x [->|[]]. exact R.
        -- apply IH in H as (pre & post & -> & H). exists (m :: pre), post. split; [reflexivity|].
           intros x [->|Hx]; [exact R|now apply H].
      * intros (pre & post & E & H). destruct pre as [|a pre]; cbn in E; injection E as -> ->; [now left|].
        right. apply IH. exists pre, post. split; [reflexivity|]. intros x Hx. apply H. now right.
Qed.

Lemma dget_select (st : state) ps k :
  dget k (flat_map (fun k => match dget k st with Some v => [(k, v)] | None => [] end) ps)
  = if smem k ps then dget k st else None.
Proof.
  induction ps as [|p ps IH]; [reflexivity|]. cbn [flat_map smem existsb]. fold (smem k ps).
  rewrite dget_app, IH. destruct (String.eqb_spec k p) as [->|N]; cbn [orb].
  - destruct (dget p st) as [v|] eqn:E; cbn; [now rewrite String.eqb_refl|]. now destruct (smem p ps).
  - destruct (dget p st) as [v|] eqn:E; cbn; [|reflexivity].
    rewrite (eqb_ne k p N). reflexivity.
Qed.
Lemma select_nodup (st : state) ps : NoDup ps ->
  NoDup (map fst (flat_map (fun k => match dget k st with Some v => [(k, v)] | None => [] end) ps)).
Proof.
  induction 1 as [|p ps Hp H IH]; cbn; [constructor|]. rewrite map_app.
  destruct (dget p st) as [v|]; cbn; [|exact IH]. constructor; [|exact IH].
  intros C. apply Hp. apply in_map_iff in C as ((k & w) & E & C). cbn in E. subst k.
  apply in_flat_map in C as (q & Hq & C). destruct (dget q st); [|destruct C].
  destruct C as [C|[]]. congruence.
Qed.
Lemma remove_all ms ps k :
  In k (fold_left (fun ps k => sremove k ps) ms ps) <-> In k ps /\ ~ In k ms.
Proof.
  revert ps. induction ms as [|m ms IH]; intros ps; cbn; [tauto|].
  rewrite IH, in_sremove. intuition congruence.
Qed.
Lemma remove_all_nodup ms ps : NoDup ps -> NoDup (fold_left (fun ps k => sremove k ps) ms ps).
Proof.
  revert ps. induction ms as [|m ms IH]; intros ps H; cbn; [exact H|]. apply IH. now apply nodup_filter.
Qed.

Lemma names_f_asked ps k : names_f ps k = true <->
  (In k ps /\ ~ compound k) \/ (exists p a, In (k, (p, a)) components /\ In p ps).
Proof.
  unfold names_f. destruct (dget k components) as [[p a]|] eqn:E.
  - rewrite orb_true_iff, !smem_in. split.
    + intros [H|H].
      * left. split; [exact H|]. intros C. apply components_dget in E. cbn in E.
        repeat (destruct E as [E|E]; [injection E as <- <- <-; cbn in C;
          repeat (destruct C as [C|C]; [discriminate C|]); exact C|]). destruct E.
      * right. exists p, a. split; [now apply components_dget|exact H].
    + intros [[H _]|(p' & a' & Hin & H)]; [now left|].
      right. apply components_dget in Hin. congruence.
  - destruct (smem k compounds) eqn:S.
    + split; [discriminate|]. intros [[_ H]|(p' & a' & Hin & _)].
      * exfalso. apply H. now apply smem_in.
      * apply components_dget in Hin. congruence.
    + rewrite smem_in. split.
      * intros H. left. split; [exact H|]. intros C. apply smem_in in C. unfold compounds in S. congruence.
      * intros [[H _]|(p' & a' & Hin & _)]; [exact H|]. apply components_dget in Hin. congruence.
Qed.

Variable order : list string -> list string.
Hypothesis order_perm : forall l, Permutation (order l) l.

Lemma vec_nodup p (st st' : state) ps ps' : expand_vec p (st, ps) = Ok (st', ps') -> NoDup ps -> NoDup ps'.
Proof.
  unfold expand_vec. destruct (match dget p st with Some (SVec x y z) => _ | Some _ => _ | None => _ end);
    cbn; [|discriminate]. intros H N. injection H as _ <-.
  destruct (smem p ps); [|exact N]. apply nodup_filter. repeat apply nodup_sadd. exact N.
Qed.
Lemma pts_nodup p (st st' : state) ps ps' : expand_pts p (st, ps) = Ok (st', ps') -> NoDup ps -> NoDup ps'.
Proof.
  unfold expand_pts. destruct (match dget p st with Some (SPts y x) => _ | Some _ => _ | None => _ end);
    cbn; [|discriminate]. intros H N. injection H as _ <-.
  destruct (smem p ps); [|exact N]. apply nodup_filter. repeat apply nodup_sadd. exact N.
Qed.
Lemma for_each_nodup (f : string -> state * list string -> result (state * list string)) l :
  (forall p st ps st' ps', f p (st, ps) = Ok (st', ps') -> NoDup ps -> NoDup ps') ->
  forall st ps st' ps', for_each f l (st, ps) = Ok (st', ps') -> NoDup ps -> NoDup ps'.
Proof.
  intros Hf. induction l as [|p l IH]; intros st ps st' ps' H N; cbn in H.
  - injection H as _ <-. exact N.
  - destruct (f p (st, ps)) as [[s1 p1]|] eqn:E; [|discriminate]. cbn in H.
    eapply IH; [exact H|]. eapply Hf; eauto.
Qed.

Lemma build_record_spec (st : state) ps : well_typed st ->
  exists rec missing, build_record exec_raises order st ps = Ok rec /\
  (NoDup ps -> NoDup (map fst rec)) /\
  (forall k, In k missing <-> asked st ps k /\ forall v, ~ available st k v) /\
  (forall k v, available st k v -> asked st ps k -> dget k rec = Some v) /\
  (forall k, ~ asked st ps k -> dget k rec = None) /\
  (forall k, In k missing -> dget k rec =
     if smem k (before_raise (order missing)) then Some (SStr "surface_2_points") else None).
Proof.
  intros W. destruct (expansion st ps W) as (st2 & ps2 & E & D & P).
  unfold build_record.
  destruct (for_each expand_vec vec_names (st, ps)) as [a|] eqn:E1; [|discriminate]. cbn [bind] in E |- *.
  rewrite E. cbn [bind].
  set (ps3 := expand_all st2 ps2). set (missing := sdiff ps3 (map fst st2)).
  destruct (missing_loop (order missing) (SStr "surface_2_points") st2 missing)
    as (st4 & ms & o & EL & DL & ML). rewrite EL.
  eexists. exists missing. split; [reflexivity|].
  assert (Hav : forall k, In k (map fst st2) <-> exists v, available st k v).
  { intros k. rewrite <- dget_in, D. split.
    - intros H. destruct (avail_f st k) as [v|] eqn:F; [|congruence]. exists v. now apply available_f.
    - intros (v & H). apply available_f in H; [|exact W]. congruence. }
  assert (Hall : In "all" ps2 <-> In "all" ps).
  { rewrite <- !smem_in, P. unfold names_f. reflexivity. }
  assert (Hasked : forall k, In k ps3 <-> asked st ps k).
  { intros k. unfold ps3, expand_all, asked.
    assert (Pk : In k ps2 <-> (In k ps /\ ~ compound k) \/ (exists p a, In (k, (p, a)) components /\ In p ps)).
    { rewrite <- smem_in, P. apply names_f_asked. }
    assert (Ncomp : (exists p a, In (k, (p, a)) components /\ In p ps) -> k <> "all").
    { intros (p & a0 & H & _) ->. apply components_dget in H. discriminate. }
    destruct (smem "all" ps2) eqn:Sa.
    - apply smem_in in Sa. rewrite in_sremove, in_supdate, Pk, Hav. apply Hall in Sa. tauto.
    - assert (Na : ~ In "all" ps) by (rewrite <- Hall, <- smem_in; congruence).
      rewrite Pk. split.
      + intros [[H1 H2]|H]; [left|now right; left]. split; [exact H1|]. split; [exact H2|].
        intros ->. contradiction.
      + intros [(H1 & H2 & _)|[H|(H & _)]]; [now left|now right|contradiction]. }
  assert (Hmiss : forall k, In k missing <-> asked st ps k /\ forall v, ~ available st k v).
  { intros k. unfold missing. rewrite in_sdiff, Hasked, Hav. split.
    - intros [H1 H2]. split; [exact H1|]. intros v Hv. apply H2. now exists v.
    - intros [H1 H2]. split; [exact H1|]. intros (v & Hv). exact (H2 v Hv). }
  assert (Hbr : forall k, In k (before_raise (order missing)) -> In k missing).
  { intros k H. apply before_raise_incl in H. eapply Permutation_in; [apply order_perm|exact H]. }
  assert (Hrec : forall k, dget k (flat_map (fun k => match dget k st4 with Some v => [(k, v)] | None => [] end)
      (fold_left (fun ps k => sremove k ps) ms ps3)) =
      if smem k (fold_left (fun ps k => sremove k ps) ms ps3) then dget k st4 else None)
    by (intros k; apply dget_select).
  split; [|split; [exact Hmiss|split; [|split]]].
  - intros N. apply select_nodup. apply remove_all_nodup. unfold ps3, expand_all.
    assert (N2 : NoDup ps2).
    { destruct a as [sa pa].
      assert (Na : NoDup pa) by (eapply for_each_nodup; [intros; eapply vec_nodup; eauto|exact E1|exact N]).
      eapply for_each_nodup; [intros; eapply pts_nodup; eauto|exact E|exact Na]. }
    destruct (smem "all" ps2); [|exact N2]. apply nodup_filter. now apply nodup_supdate.
  - intros k v Hv Ha. rewrite Hrec.
    assert (Hnm : ~ In k missing) by (rewrite Hmiss; intros [_ H]; exact (H v Hv)).
    assert (S : smem k (fold_left (fun ps k => sremove k ps) ms ps3) = true).
    { apply smem_in. apply remove_all. split; [now apply Hasked|]. intros H. apply ML in H as [H _]. contradiction. }
    rewrite S, DL. destruct (smem k (before_raise (order missing))) eqn:B.
    + apply smem_in in B. apply Hbr in B. contradiction.
    + rewrite D. now apply available_f.
  - intros k Hna. rewrite Hrec.
    destruct (smem k (fold_left (fun ps k => sremove k ps) ms ps3)) eqn:S; [|reflexivity].
    apply smem_in, remove_all in S as [S _]. apply Hasked in S. contradiction.
  - intros k Hm. rewrite Hrec. pose proof Hm as Hm'. apply Hmiss in Hm' as [Ha Hu].
    destruct (smem k (before_raise (order missing))) eqn:B.
    + assert (S : smem k (fold_left (fun ps k => sremove k ps) ms ps3) = true).
      { apply smem_in. apply remove_all. split; [now apply Hasked|]. intros H. apply ML in H as [_ H].
        apply H. now apply smem_in. }
      rewrite S, DL, B. reflexivity.
    + assert (S : smem k (fold_left (fun ps k => sremove k ps) ms ps3) = false).
      { destruct (smem k (fold_left (fun ps k => sremove k ps) ms ps3)) eqn:S; [|reflexivity].
        apply smem_in, remove_all in S as [_ S]. exfalso. apply S. apply ML. split; [exact Hm|].
        rewrite <- smem_in. congruence. }
      rewrite S. reflexivity.
Qed.

End Proofs.

(** ** Asking the requests *)
Lemma ask_all_spec outs t T : forall ps,
  fst (ask_all outs t T ps) = map (fun rp => (fst (is_active (fst rp) t T), snd rp)) outs /\
  (forall k, In k (snd (ask_all outs t T ps)) <->
    In k ps \/ exists r params, In (r, params) outs /\ snd (is_active r t T) = true /\ In k params) /\
  (NoDup ps -> NoDup (snd (ask_all outs t T ps))).
Proof.
  induction outs as [|[r params] outs IH]; intros ps; cbn [ask_all map].
  - split; [reflexivity|]. split; [|tauto]. intros k. split; [tauto|]. intros [H|(r & q & [] & _)]. exact H.
  - cbn [fst snd]. destruct (is_active r t T) as [r' b] eqn:E.
    destruct (IH (if b then supdate ps params else ps)) as (F & G & N).
    destruct (ask_all outs t T (if b then supdate ps params else ps)) as [rest ps''].
    cbn [fst snd] in *. split; [now rewrite F|]. split.
    + intros k. rewrite G. split.
      * intros [H|(r0 & q & Hin & Hb & Hk)].
        -- destruct b; [|now left]. apply in_supdate in H as [H|H]; [now left|].
           right. exists r, params. split; [now left|]. rewrite E. auto.
        -- right. exists r0, q. split; [now right|]. auto.
      * intros [H|(r0 & q & [Hin|Hin] & Hb & Hk)].
        -- left. destruct b; [apply in_supdate; now left|exact H].
        -- injection Hin as <- <-. rewrite E in Hb. cbn in Hb. subst b. left. apply in_supdate. now right.
        -- right. exists r0, q. auto.
    + intros H. apply N. destruct b; [now apply nodup_supdate|exact H].
Qed.
