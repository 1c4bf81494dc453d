(** Lemmas for SemiTheorems.v. *)
From Coq Require Import String List Bool Arith ZArith Lia Reals Lra.
From Verif Require Import LubricantModel.
From Verif Require Import HeightModel StepModel SemiModel StepSpec SemiSpec PyProofs HeightProofs LubricantProofs StepProofs.
Import ListNotations.
Local Open Scope string_scope.
Local Open Scope R_scope.

Lemma get_grid_ok k (d : dict) l : get_grid k d = Ok l <-> dget k d = Some (SGrid l).
Proof. unfold get_grid. destruct (dget k d) as [[]|]; split; intros H; try discriminate; injection H as <-; reflexivity. Qed.
Lemma get_num_ok k (d : dict) x : get_num k d = Ok x <-> dget k d = Some (SNum x).
Proof. unfold get_num. destruct (dget k d) as [[]|]; split; intros H; try discriminate; injection H as <-; reflexivity. Qed.
Lemma grid2_ok f a b l : grid2 f a b = Ok l <-> length a = length b /\ l = map (fun xy => f (fst xy) (snd xy)) (combine a b).
Proof.
  unfold grid2. destruct (Nat.eqb_spec (length a) (length b)).
  - split; [intros H; injection H as <-; auto|intros [_ ->]; reflexivity].
  - split; [discriminate|intros [H _]; easy].
Qed.
Lemma film_ok jt u h gap : film jt u h = Ok gap -> length u = length jt /\ length gap = length jt /\
  forall i, (i < length jt)%nat -> nth i gap 0 = nth i jt 0 + nth i u 0 - h.
Proof.
  unfold film. destruct (grid2 Rplus jt u) as [s|] eqn:E; [|discriminate]. cbn. intros H. injection H as <-. apply grid2_ok in E as [L ->].
  split; [lia|]. split; [rewrite !map_length, combine_length; lia|]. intros i Hi.
  rewrite nth_indep with (d' := 0 + 0 - h) by (rewrite !map_length, combine_length; lia).
  rewrite map_nth with (f := fun x => x - h). f_equal.
  transitivity (nth i (map (fun xy => fst xy + snd xy) (combine jt u)) ((fun xy => fst xy + snd xy) (0, 0))); [reflexivity|].
  rewrite (map_nth (fun xy => fst xy + snd xy)). rewrite combine_nth by lia. reflexivity.
Qed.
Lemma clip_damped limit f p q : clip_max limit (p + f * (q - p)) = damped limit f p q.
Proof. unfold clip_max, damped. destruct limit; [|reflexivity]. unfold Rmin. destruct (Rle_dec _ _); reflexivity. Qed.
Lemma relaxed_map w m p q : length q = length p ->
  map (clip_max (nd_max w)) (map (fun xy => fst xy + relaxation m * snd xy) (combine p (map (fun xy => fst xy - snd xy) (combine q p))))
  = map (fun xy => damped (nd_max w) (relaxation m) (fst xy) (snd xy)) (combine p q).
Proof.
  revert q. induction p as [|x p IH]; intros [|y q] L; try discriminate L; [reflexivity|]. cbn [map combine fst snd]. rewrite IH by (cbn in L; lia). now rewrite clip_damped.
Qed.
Lemma change_map p q : length q = length p -> rsum (map Rabs (map (fun xy => fst xy - snd xy) (combine q p))) = total_change p q.
Proof.
  revert q. unfold total_change. induction p as [|x p IH]; intros [|y q] L; try discriminate L; [reflexivity|]. cbn. f_equal. apply IH. cbn in L. lia.
Qed.
Lemma lubricant_frame w d d' x : solve_lubricant w d = Ok d' -> ~ In x (map fst (l_lubricant w)) -> dget x d' = dget x d.
Proof.
  unfold solve_lubricant. destruct (LubricantModel.solve_sub_models (l_lubricant w) d) as [e [[]|]] eqn:E; [|discriminate].
  cbn. intros H. injection H as <-. intros N. eapply solve_frame; eauto.
Qed.
Lemma clash_frame w d d' x : no_clash w -> solve_lubricant w d = Ok d' -> In x step_names -> dget x d' = dget x d.
Proof. intros N S I. eapply lubricant_frame; eauto. Qed.

(** ** One round *)
Definition speed_of (m : semi) : R := match m_speed m with Some s => s | None => 0 end.
Definition load_of (m : semi) : R := match m_load m with Some l => l | None => 0 end.
Definition given_of (w : lub_world) (last : dict) (gap0 : list R) : dict := dset "nd_gap" (SGrid (map (nd_g w) gap0)) last.
Definition error_of (p q : list R) : R := if Rltb 0 (rsum p) then total_change p q / rsum p else 1.
Definition load_met (m : semi) (total : R) : bool :=
  if m_load_controlled m then match m_load m with Some l => negb (Reqb l 0) && Rltb (Rabs (total / l - 1)) (rtol m) | None => false end else true.
Definition this2_of (this0 : dict) jt nd pressure u gap : dict :=
  dset "gap" (SGrid gap) (dset "total_displacement_z" (SGrid u) (dset "pressure" (SGrid pressure) (dset "nd_pressure" (SGrid nd) (dset "just_touching_gap" (SGrid jt) this0)))).
Lemma round_ok w m jt it last c o : round w m jt it last = (c, Ok o) ->
  exists gap0 last' this0 p q nd u h gap this3 p3 gap3,
    dget "gap" last = Some (SGrid gap0) /\ c = Some (given_of w last gap0) /\
    l_reynolds w (speed_of m) (given_of w last gap0) (nd_max w) = (last', Ok this0) /\
    get_grid "nd_pressure" (dset "just_touching_gap" (SGrid jt) this0) = Ok q /\ dget "nd_pressure" last' = Some (SGrid p) /\ length q = length p /\
    nd = map (fun xy => damped (nd_max w) (relaxation m) (fst xy) (snd xy)) (combine p q) /\
    l_disp w (length jt) (map (dim_p w) nd) = Ok u /\ dget "interference" last' = Some (SNum h) /\ film jt u h = Ok gap /\
    solve_lubricant w (this2_of this0 jt nd (map (dim_p w) nd) u gap) = Ok this3 /\
    get_grid "pressure" this3 = Ok p3 /\ get_grid "gap" this3 = Ok gap3 /\
    let this4 := dset "interference" (SNum h) (dset "nd_gap" (SGrid (map (nd_g w) gap3)) this3) in
    let total := rsum p3 * l_area w in
    match o with
    | Leave this load conv => this = this4 /\ load = total /\
        (conv = true -> error_of p q < rtol m /\ load_met m total = true) /\
        (conv = false -> (max_it m < it)%Z /\ (rtol m <= error_of p q \/ load_met m total = false))
    | GoOn this => (it <= max_it m)%Z /\ (rtol m <= error_of p q \/ load_met m total = false) /\ exists old, dget "nd_interference" last' = Some (SNum old) /\
        if m_load_controlled m then
          let new := old - 1 / 10 * (total / load_of m - 1) in
          exists u4 gap5, get_grid "total_displacement_z" this4 = Ok u4 /\ film jt u4 (dim_g w new) = Ok gap5 /\
          this = dset "gap" (SGrid gap5) (dset "interference" (SNum (dim_g w new)) (dset "nd_interference" (SNum new) this4))
        else this = dset "interference" (SNum h) (dset "nd_interference" (SNum old) this4)
    end.
Proof.
  unfold round. intros H. destruct (get_grid "gap" last) as [gap0|] eqn:E0; [|discriminate].
  fold (given_of w last gap0) in H. fold (speed_of m) in H.
  destruct (l_reynolds w (speed_of m) (given_of w last gap0) (nd_max w)) as [last' [this0|]] eqn:E1; [|discriminate].
  injection H as <- H. cbn [bind] in H. cbv zeta in H.
  destruct (get_grid "nd_pressure" (dset "just_touching_gap" (SGrid jt) this0)) as [q|] eqn:E2; [cbn [bind] in H|discriminate].
  destruct (get_grid "nd_pressure" last') as [p|] eqn:E3; [cbn [bind] in H|discriminate].
  destruct (grid2 Rminus q p) as [change|] eqn:E4; [cbn [bind] in H|discriminate]. apply grid2_ok in E4 as [L ->].
  destruct (grid2 _ p (map _ (combine q p))) as [relaxed|] eqn:E5; [cbn [bind] in H|discriminate]. apply grid2_ok in E5 as [_ ->].
  rewrite relaxed_map in H by exact L. rewrite change_map in H by exact L.
  set (nd := map (fun xy => damped (nd_max w) (relaxation m) (fst xy) (snd xy)) (combine p q)) in *.
  destruct (l_disp w (length jt) (map (dim_p w) nd)) as [u|] eqn:E6; [cbn [bind] in H|discriminate].
  destruct (get_num "interference" last') as [h|] eqn:E7; [cbn [bind] in H|discriminate].
  destruct (film jt u h) as [gap|] eqn:E8; [cbn [bind] in H|discriminate].
  fold (this2_of this0 jt nd (map (dim_p w) nd) u gap) in H.
  destruct (solve_lubricant w (this2_of this0 jt nd (map (dim_p w) nd) u gap)) as [this3|] eqn:E9; [cbn [bind] in H|discriminate].
  destruct (get_grid "pressure" this3) as [p3|] eqn:E10; [cbn [bind] in H|discriminate].
  destruct (get_grid "gap" this3) as [gap3|] eqn:E11; [cbn [bind] in H|discriminate].
  exists gap0, last', this0, p, q, nd, u, h, gap, this3, p3, gap3.
  apply get_grid_ok in E0, E3. apply get_num_ok in E7. repeat (split; [assumption || reflexivity|]). cbv zeta.
  set (this4 := dset "interference" (SNum h) (dset "nd_gap" (SGrid (map (nd_g w) gap3)) this3)) in *.
  set (total := rsum p3 * l_area w) in *. fold (load_of m) in H. fold (error_of p q) in H.
  assert (LM : (if m_load_controlled m then
           match m_load m with Some l => negb (Reqb l 0) && Rltb (Rabs (if m_load_controlled m then total / load_of m - 1 else 0)) (rtol m) | None => false end else true) = load_met m total).
  { unfold load_met, load_of. destruct (m_load_controlled m); [|reflexivity]. destruct (m_load m); reflexivity. }
  rewrite LM in H. destruct (Rltb (error_of p q) (rtol m)) eqn:Er, (load_met m total) eqn:El; cbn [andb] in H.
  - injection H as <-. split; [reflexivity|]. split; [reflexivity|]. split; [|discriminate]. intros _. split; [now apply Rltb_true|reflexivity].
  - destruct (Z.ltb_spec (max_it m) it).
    { injection H as <-. split; [reflexivity|]. split; [reflexivity|]. split; [discriminate|auto]. }
    destruct (get_num "nd_interference" last') as [old|] eqn:E12; [cbn [bind] in H|discriminate]. apply get_num_ok in E12.
    unfold load_met in El. destruct (m_load_controlled m) eqn:Elc; [|discriminate]. cbn [orb] in H.
    destruct (get_grid "total_displacement_z" this4) as [u4|] eqn:E13; [cbn [bind] in H|discriminate].
    match type of H with context [film jt u4 ?x] => destruct (film jt u4 x) as [gap5|] eqn:E14 end; [cbn [bind] in H|discriminate].
    injection H as <-. split; [lia|]. split; [auto|]. exists old. split; [assumption|]. eauto.
  - destruct (Z.ltb_spec (max_it m) it).
    { injection H as <-. apply Rltb_false in Er. split; [reflexivity|]. split; [reflexivity|]. split; [discriminate|auto]. }
    destruct (get_num "nd_interference" last') as [old|] eqn:E12; [cbn [bind] in H|discriminate]. apply get_num_ok in E12. apply Rltb_false in Er.
    destruct (m_load_controlled m) eqn:Elc; cbn [orb] in H.
    + destruct (get_grid "total_displacement_z" this4) as [u4|] eqn:E13; [cbn [bind] in H|discriminate].
      match type of H with context [film jt u4 ?x] => destruct (film jt u4 x) as [gap5|] eqn:E14 end; [cbn [bind] in H|discriminate].
      injection H as <-. split; [lia|]. split; [auto|]. exists old. split; [assumption|]. eauto.
    + injection H as <-. split; [lia|]. split; [auto|]. exists old. split; [assumption|reflexivity].
  - destruct (Z.ltb_spec (max_it m) it).
    { injection H as <-. apply Rltb_false in Er. split; [reflexivity|]. split; [reflexivity|]. split; [discriminate|auto]. }
    destruct (get_num "nd_interference" last') as [old|] eqn:E12; [cbn [bind] in H|discriminate]. apply get_num_ok in E12. apply Rltb_false in Er.
    destruct (m_load_controlled m) eqn:Elc; cbn [orb] in H.
    + destruct (get_grid "total_displacement_z" this4) as [u4|] eqn:E13; [cbn [bind] in H|discriminate].
      match type of H with context [film jt u4 ?x] => destruct (film jt u4 x) as [gap5|] eqn:E14 end; [cbn [bind] in H|discriminate].
      injection H as <-. split; [lia|]. split; [auto|]. exists old. split; [assumption|]. eauto.
    + injection H as <-. split; [lia|]. split; [auto|]. exists old. split; [assumption|reflexivity].
Qed.
(** The entries after a round. *)
Lemma this2_get this0 jt nd p u gap : let d := this2_of this0 jt nd p u gap in
  dget "gap" d = Some (SGrid gap) /\ dget "total_displacement_z" d = Some (SGrid u) /\ dget "pressure" d = Some (SGrid p) /\
  dget "nd_pressure" d = Some (SGrid nd) /\ dget "just_touching_gap" d = Some (SGrid jt).
Proof. unfold this2_of. cbv zeta. rewrite !dget_dset. cbn. auto. Qed.

(** ** The loop of rounds *)
Lemma round_given w m jt it last : match fst (round w m jt it last) with Some d => exists gap0, dget "gap" last = Some (SGrid gap0) /\ d = given_of w last gap0 | None => exists e, snd (round w m jt it last) = Err e end.
Proof.
  unfold round. destruct (get_grid "gap" last) as [gap0|] eqn:E; [|cbn; eauto]. apply get_grid_ok in E.
  destruct (l_reynolds _ _ _ _) as [last' s]. cbn. eauto.
Qed.
Lemma rounds_leave w m jt (J : dict -> Prop) : (forall it last c this, J last -> round w m jt it last = (c, Ok (GoOn this)) -> J this) ->
  forall fuel it d0 calls this load conv, J d0 -> rounds fuel w m jt it d0 = (calls, Ok (this, load, conv)) ->
  exists it' last c pre, J last /\ round w m jt it' last = (Some c, Ok (Leave this load conv)) /\ calls = (pre ++ [c])%list /\
    (it' = it + Z.of_nat (length pre))%Z.
Proof.
  intros HJ. induction fuel as [|fuel IH]; intros it d0 calls this load conv H0 H; [discriminate|].
  cbn in H. destruct (round w m jt it d0) as [c [[t l cv|t]|e]] eqn:E; [| |discriminate].
  - injection H as <- <- <- <-. pose proof (round_given w m jt it d0) as G. rewrite E in G. cbn in G. destruct c as [c|]; [|destruct G as [? G]; discriminate].
    exists it, d0, c, []. repeat split; auto. cbn. lia.
  - destruct (rounds fuel w m jt (it + 1) t) as [calls' r] eqn:Er. injection H as <- ->.
    pose proof (round_given w m jt it d0) as G. rewrite E in G. cbn in G. destruct c as [c|]; [|destruct G as [? G]; discriminate].
    apply IH in Er as (it' & last & c' & pre & A & B & -> & ->); [|eauto]. exists (it + 1 + Z.of_nat (length pre))%Z, last, c', (c :: pre).
    repeat split; auto. cbn [length]. lia.
Qed.
Lemma goon_it w m jt it last c this : round w m jt it last = (c, Ok (GoOn this)) -> (it <= max_it m)%Z.
Proof. intros H. apply round_ok in H as (?&?&?&?&?&?&?&?&?&?&?&?& H). cbv zeta in H. tauto. Qed.
Lemma rounds_fuel w m jt : forall f1 f2 it d, (Z.to_nat (max_it m + 1 - it) < f1)%nat -> (Z.to_nat (max_it m + 1 - it) < f2)%nat ->
  rounds f1 w m jt it d = rounds f2 w m jt it d.
Proof.
  induction f1 as [|f1 IH]; intros f2 it d H1 H2; [lia|]. destruct f2 as [|f2]; [lia|]. cbn.
  destruct (round w m jt it d) as [c [[t l cv|t]|e]] eqn:E; try reflexivity. apply goon_it in E.
  rewrite (IH f2) by lia. reflexivity.
Qed.
Lemma rounds_count w m jt : forall fuel it d calls r, rounds fuel w m jt it d = (calls, r) -> (it <= max_it m + 1)%Z ->
  (Z.of_nat (length calls) <= max_it m + 2 - it)%Z.
Proof.
  induction fuel as [|fuel IH]; intros it d calls r H Hi; cbn in H.
  - injection H as <- _. cbn. lia.
  - destruct (round w m jt it d) as [c [[t l cv|t]|e]] eqn:E.
    + injection H as <- _. destruct c; cbn; lia.
    + pose proof (goon_it _ _ _ _ _ _ _ E). destruct (rounds fuel w m jt (it + 1) t) as [calls' r'] eqn:Er. injection H as <- _.
      apply IH in Er; [|lia]. destruct c; cbn [add_call length]; lia.
    + injection H as <- _. destruct c; cbn; lia.
Qed.
Lemma rounds_first w m jt fuel it d calls r : rounds (S fuel) w m jt it d = (calls, r) -> forall c0, nth_error calls 0 = Some c0 ->
  exists gap0, dget "gap" d = Some (SGrid gap0) /\ c0 = given_of w d gap0.
Proof.
  cbn. intros H c0 H0. pose proof (round_given w m jt it d) as G. destruct (round w m jt it d) as [c o] eqn:E. cbn in G.
  destruct c as [c|].
  - assert (exists tl, calls = c :: tl) as (tl & ->).
    { destruct o as [[t l cv|t]|e]; [injection H as <- _; eexists; reflexivity| |injection H as <- _; eexists; reflexivity].
      destruct (rounds fuel w m jt (it + 1) t). injection H as <- _. eexists. reflexivity. }
    cbn in H0. injection H0 as <-. exact G.
  - destruct G as [e ->]. injection H as <- _. discriminate.
Qed.

(** ** Time steps *)
Definition moved_semi (m : semi) off l i s : semi :=
  Semi (m_steps m) (m_no_time m) (m_total_time m) (m_time_step m) (m_relative m) (max_it m) (rtol m) (relaxation m)
        (m_load_controlled m) (m_guess m) (upd_m_off m) (upd_m_load m) (upd_m_interf m) (upd_m_speed m) off l i s.
Definition update_speed (m : semi) (t : R) : result (option R) :=
  match upd_m_speed m with None => Ok (m_speed m) | Some f => if m_relative m then Err KeyError else bind (f t) (fun x => Ok (Some x)) end.
Definition semi_base (m : semi) (jt : list R) p1 p2 (off : R * R) (time : R) : dict :=
  [("just_touching_gap", SGrid jt); ("surface_1_points", SPoints p1); ("surface_2_points", SPoints p2);
   ("off_set", SPair (fst off) (snd off)); ("time_step", SNum (m_time_step m)); ("time", SNum time)].
(** One time step, from the state [prev]. *)
Definition time_step_done (w : lub_world) (m : semi) (start ol oi : R) (oo : R * R) (k : nat) (prev : dict) (calls : list dict) (jt : list R) (st : dict)
    off l i s p1 p2 d0 this load conv : Prop :=
  update_one (m_relative m) pair_add oo (upd_m_off m) (m_off m) (relative_time (m_steps m) k) = Ok off /\
  update_one (m_relative m) Rplus ol (upd_m_load m) (m_load m) (relative_time (m_steps m) k) = Ok l /\
  update_one (m_relative m) Rplus oi (upd_m_interf m) (m_interf m) (relative_time (m_steps m) k) = Ok i /\
  update_speed m (relative_time (m_steps m) k) = Ok s /\
  l_gap w (off_value off) = Ok (jt, p1, p2) /\
  start_state w (moved_semi m off l i s) k prev jt = Ok d0 /\
  rounds (enough m) w (moved_semi m off l i s) jt 0 d0 = (calls, Ok (this, load, conv)) /\
  clean_up w (moved_semi m off l i s) jt (semi_base m jt p1 p2 (off_value off) (start + (INR k + 1) * m_time_step m)) this load conv = Ok st.
Lemma update_semi_ok m ol oi oo t m1 : update_semi m ol oi oo t = Ok m1 ->
  exists off l i s, m1 = moved_semi m off l i s /\
    update_one (m_relative m) pair_add oo (upd_m_off m) (m_off m) t = Ok off /\
    update_one (m_relative m) Rplus ol (upd_m_load m) (m_load m) t = Ok l /\
    update_one (m_relative m) Rplus oi (upd_m_interf m) (m_interf m) t = Ok i /\ update_speed m t = Ok s.
Proof.
  unfold update_semi, update_speed. destruct (update_one _ _ _ (upd_m_off m) _ _) as [off|]; [cbn [bind]|discriminate].
  destruct (update_one _ _ _ (upd_m_load m) _ _) as [l|]; [cbn [bind]|discriminate].
  destruct (update_one _ _ _ (upd_m_interf m) _ _) as [i|]; [cbn [bind]|discriminate].
  match goal with |- context [bind ?x] => destruct x as [s|] end; [cbn [bind]|discriminate]. intros H. injection H as <-.
  exists off, l, i, s. repeat split.
Qed.
Lemma semi_round w start ol oi oo todo i m kept prev m' log states r :
  semi_loop w start ol oi oo (S todo) i m kept prev = (m', log, states, r) ->
  (forall x, kept = Some x -> upd_m_off m = None -> l_gap w (off_value (m_off m)) = Ok x) ->
  (states = [] /\ (exists e, r = Err e) /\ (log = [] \/ exists calls f m1 jt d, log = [calls] /\ max_it m1 = max_it m /\ rounds (enough m1) w m1 jt 0 d = (calls, f))) \/
  exists off l ii s p1 p2 d0 this load conv calls jt st rest log',
    time_step_done w m start ol oi oo i prev calls jt st off l ii s p1 p2 d0 this load conv /\
    states = st :: rest /\ log = calls :: log' /\
    semi_loop w start ol oi oo todo (S i) (moved_semi m off l ii s) (Some (jt, p1, p2)) st = (m', log', rest, r).
Proof.
  intros H HK. cbn [semi_loop] in H. destruct (update_semi m ol oi oo (relative_time (m_steps m) i)) as [m1|] eqn:Eu.
  2: { injection H as <- <- <- <-. left. eauto. }
  apply update_semi_ok in Eu as (off & l & ii & s & -> & U1 & U2 & U3 & U4). cbn [m_off moved_semi upd_m_off m_no_time m_time_step] in H. fold (off_value off) in H.
  match type of H with context [match ?x with Ok _ => _ | Err _ => _ end] => destruct x as [[[jt p1] p2]|] eqn:Eg end.
  2: { injection H as <- <- <- <-. left. eauto. }
  assert (G : l_gap w (off_value off) = Ok (jt, p1, p2)).
  { destruct kept as [x|]; [|exact Eg]. destruct (upd_m_off m) eqn:E; [exact Eg|]. destruct (m_no_time m); [|exact Eg]. cbn in Eg.
    injection Eg as ->. cbn in U1. injection U1 as <-. now apply HK. }
  fold (moved_semi m off l ii s) in H. fold (semi_base m jt p1 p2 (off_value off) (start + (INR i + 1) * m_time_step m)) in H.
  destruct (start_state w (moved_semi m off l ii s) i prev jt) as [d0|] eqn:Es.
  2: { injection H as <- <- <- <-. left. eauto. }
  destruct (rounds (enough (moved_semi m off l ii s)) w (moved_semi m off l ii s) jt 0 d0) as [calls r0] eqn:Er.
  destruct (bind r0 _) as [st|] eqn:Eb in H.
  2: { injection H as <- <- <- <-. left. split; [reflexivity|]. split; [eauto|]. right. exists calls, r0, (moved_semi m off l ii s), jt, d0. repeat split. exact Er. }
  destruct r0 as [[[this load] conv]|]; [cbn [bind] in Eb|discriminate].
  match type of H with context [semi_loop w start ol oi oo todo (S i) ?a ?b ?c] => destruct (semi_loop w start ol oi oo todo (S i) a b c) as [[[m2 log'] rest] r2] eqn:El end.
  injection H as <- <- <- <-. right. exists off, l, ii, s, p1, p2, d0, this, load, conv, calls, jt, st, rest, log'.
  split; [|auto]. repeat split; auto.
Qed.
Lemma update_speed_old m off l i s t t' v : update_speed m t' = Ok s -> update_speed (moved_semi m off l i s) t = Ok v -> update_speed m t = Ok v.
Proof. unfold update_speed. cbn. destruct (upd_m_speed m); [auto|]. intros E. injection E as <-. auto. Qed.
Lemma semi_states w start ol oi oo : forall todo i m kept prev m' log states r,
  semi_loop w start ol oi oo todo i m kept prev = (m', log, states, r) ->
  (forall x, kept = Some x -> upd_m_off m = None -> l_gap w (off_value (m_off m)) = Ok x) ->
  (forall n st, nth_error states n = Some st -> exists off l ii s p1 p2 d0 this load conv calls jt prevn,
    before prev states n = Some prevn /\ nth_error log n = Some calls /\
    time_step_done w m start ol oi oo (i + n) prevn calls jt st off l ii s p1 p2 d0 this load conv) /\
  (length states <= todo)%nat /\ (forall s, r = Ok s -> length states = todo /\ s = List.last states prev).
Proof.
  induction todo as [|todo IH]; intros i m kept prev m' log states r H HK.
  - cbn in H. injection H as <- <- <- <-. split; [intros [|n] st E; discriminate|]. split; [cbn; lia|]. intros s E. now injection E as <-.
  - apply semi_round in H; [|exact HK]. destruct H as [(-> & (e & ->) & _)|H].
    + split; [intros [|n] st E; discriminate|]. split; [cbn; lia|]. intros s E. discriminate.
    + destruct H as (off & l & ii & s & p1 & p2 & d0 & this & load & conv & calls & jt & st & rest & log' & D & -> & -> & L).
      pose proof D as (U1 & U2 & U3 & U4 & G & _). apply IH in L as (L1 & L2 & L3).
      2: { cbn [moved_semi upd_m_off m_off]. intros x E Eu. injection E as <-. exact G. }
      split; [|split].
      * intros [|n] st' E.
        -- cbn in E. injection E as <-. rewrite Nat.add_0_r. exists off, l, ii, s, p1, p2, d0, this, load, conv, calls, jt, prev. auto.
        -- cbn in E. destruct (L1 n st' E) as (off' & l' & ii' & s' & p1' & p2' & d0' & this' & load' & conv' & calls' & jt' & prevn & B & C & V1 & V2 & V3 & V4 & V5 & V6).
           cbn [moved_semi m_relative upd_m_off upd_m_load upd_m_interf m_off m_load m_interf m_steps] in *.
           replace (Datatypes.S i + n)%nat with (i + Datatypes.S n)%nat in * by lia.
           exists off', l', ii', s', p1', p2', d0', this', load', conv', calls', jt', prevn. split; [|split; [exact C|]].
           { destruct n; [cbn in B |- *; exact B|exact B]. }
           split; [eapply update_one_old; eauto|]. split; [eapply update_one_old; eauto|]. split; [eapply update_one_old; eauto|].
           split; [eapply update_speed_old; eauto|]. split; [exact V5|]. exact V6.
      * cbn. lia.
      * intros x E. destruct (L3 x E) as (<- & ->). split; [reflexivity|]. destruct rest; [reflexivity|].
        clear. change (List.last (st :: d :: rest) prev) with (List.last (d :: rest) prev). revert d. induction rest as [|a rest IH]; intros d; [reflexivity|].
        change (List.last (a :: rest) st = List.last (a :: rest) prev). apply IH.
Qed.
Lemma semi_log w start ol oi oo : forall todo i m kept prev m' log states r,
  semi_loop w start ol oi oo todo i m kept prev = (m', log, states, r) ->
  (forall x, kept = Some x -> upd_m_off m = None -> l_gap w (off_value (m_off m)) = Ok x) ->
  forall calls, In calls log -> (Z.of_nat (length calls) <= Z.max (max_it m) (-1) + 2)%Z.
Proof.
  assert (C : forall w m jt d calls r, rounds (enough m) w m jt 0 d = (calls, r) -> (Z.of_nat (length calls) <= Z.max (max_it m) (-1) + 2)%Z).
  { intros w' m jt d calls r H. destruct (Z.le_gt_cases (-1) (max_it m)) as [L|L].
    - apply rounds_count in H; lia.
    - unfold enough in H. cbn in H. destruct (round w' m jt 0 d) as [c [[t l cv|t]|e]] eqn:E.
      + injection H as <- _. destruct c; cbn; lia.
      + apply goon_it in E. lia.
      + injection H as <- _. destruct c; cbn; lia. }
  induction todo as [|todo IH]; intros i m kept prev m' log states r H HK calls I.
  - cbn in H. injection H as <- <- <- <-. destruct I.
  - apply semi_round in H; [|exact HK]. destruct H as [(-> & _ & [->|(c & f & m1 & jt & d & -> & E & R)])|H].
    + destruct I.
    + destruct I as [<-|[]]. rewrite <- E. eauto.
    + destruct H as (off & l & ii & s & p1 & p2 & d0 & this & load & conv & cs & jt & st & rest & log' & D & -> & -> & L).
      pose proof D as (U1 & U2 & U3 & U4 & G & Ss & Rr & _). destruct I as [<-|I].
      * apply (C w (moved_semi m off l ii s) jt d0) in Rr. exact Rr.
      * eapply IH in L; [exact L| |exact I]. cbn [moved_semi upd_m_off m_off]. intros x E Eu. injection E as <-. exact G.
Qed.
Lemma new_semi_fields sp n nt T ox oy i l rel mi tol rx g m : new_semi sp n nt T ox oy i l rel mi tol rx g = Ok m ->
  (0 < n)%nat /\ 0 < rx <= 1 /\ m_steps m = n /\ m_no_time m = nt /\ m_total_time m = T /\ m_time_step m = T / INR n /\ m_relative m = rel /\ max_it m = mi /\ rtol m = tol /\
  relaxation m = rx /\ m_guess m = g /\
  (m_load_controlled m = match l with Some _ => true | None => false end) /\
  (match l, i with Some _, Some _ => False | None, None => rel = true | _, _ => True end) /\
  (match ox, oy with
   | Const x, Const y => upd_m_off m = None /\ m_off m = Some (x, y)
   | _, _ => nt = false /\ exists fx fy, make_interpolation_func (as_seq ox) = Ok fx /\ make_interpolation_func (as_seq oy) = Ok fy /\
       upd_m_off m = Some (fun t => bind (fx t) (fun x => bind (fy t) (fun y => Ok (x, y)))) end) /\
  (match l with
   | Some (Seq v) => exists f, make_interpolation_func v = Ok f /\ upd_m_load m = Some f
   | Some (Const x) => upd_m_load m = None /\ m_load m = Some x
   | None => upd_m_load m = None end) /\
  (match sp with
   | Seq v => exists f, make_interpolation_func v = Ok f /\ upd_m_speed m = Some f
   | Const x => upd_m_speed m = None /\ m_speed m = Some x end).
Proof.
  unfold new_semi. intros H. destruct (Rltb 0 rx && negb (Rltb 1 rx)) eqn:Erx; [|discriminate].
  assert (RX : 0 < rx <= 1). { apply andb_true_iff in Erx as [A B]. apply Rltb_true in A. apply negb_true_iff, Rltb_false in B. lra. }
  destruct (Nat.eqb n 0) eqn:En; [discriminate|]. apply Nat.eqb_neq in En.
  match type of H with bind ?x _ = _ => destruct x as [[uo o]|] eqn:Eo end; [cbn [bind] in H|discriminate].
  assert (A : match ox, oy with
   | Const x, Const y => uo = None /\ o = Some (x, y)
   | _, _ => nt = false /\ exists fx fy, make_interpolation_func (as_seq ox) = Ok fx /\ make_interpolation_func (as_seq oy) = Ok fy /\
       uo = Some (fun t => bind (fx t) (fun x => bind (fy t) (fun y => Ok (x, y)))) end).
  { destruct ox as [x|vx], oy as [y|vy]; cbn [is_seq orb] in Eo; try (injection Eo as <- <-; auto);
      (destruct nt; [discriminate|]);
      (split; [reflexivity|]);
      destruct (make_interpolation_func (as_seq _)) as [fx|] eqn:E1 in Eo; [cbn [bind] in Eo|discriminate| cbn [bind] in Eo|discriminate| cbn [bind] in Eo|discriminate];
      destruct (make_interpolation_func (as_seq _)) as [fy|] eqn:E2 in Eo; [cbn [bind] in Eo|discriminate| cbn [bind] in Eo|discriminate| cbn [bind] in Eo|discriminate];
      injection Eo as <- <-; exists fx, fy; rewrite E1, E2; auto. }
  unfold movement_of in H.
  destruct l as [[xl|vl]|], i as [[xi|vi]|]; try discriminate; try (destruct rel; [|discriminate]); cbn [bind] in H;
    destruct sp as [xs|vs];
    repeat match type of H with context [make_interpolation_func ?v] => destruct (make_interpolation_func v) as [?f|] eqn:?E; cbn [bind] in H; [|discriminate] end;
    cbn [bind] in H; injection H as <-; cbn; repeat split; auto; try lra; try lia; try discriminate; eauto.
Qed.

(** ** The final state of a time step *)
Lemma nodup_dset {V} k (v : V) d : NoDup (map fst d) -> NoDup (map fst (dset k v d)).
Proof.
  intros H. rewrite keys_dset. destruct (dmem k d) eqn:E; [exact H|]. assert (~ In k (map fst d)) by (rewrite <- dmem_in; congruence).
  apply NoDup_rev in H. rewrite <- (rev_involutive (map fst d ++ [k])). apply NoDup_rev. rewrite rev_app_distr. cbn. constructor; [now rewrite <- in_rev|exact H].
Qed.
Lemma dget_dupdate {V} k (e : list (string * V)) : NoDup (map fst e) -> forall d, dget k (dupdate d e) = match dget k e with Some v => Some v | None => dget k d end.
Proof.
  unfold dupdate. induction e as [|[k' v] e IH]; intros N d; [reflexivity|]. cbn in N. inversion N as [|? ? N1 N2]; subst. cbn [fold_left fst snd dget].
  rewrite IH by exact N2. rewrite dget_dset. destruct (String.eqb_spec k k') as [->|].
  - assert (dget k' e = None) as -> by now apply dget_none. reflexivity.
  - reflexivity.
Qed.
Lemma lubricant_nodup w d d' : solve_lubricant w d = Ok d' -> NoDup (map fst d) -> NoDup (map fst d').
Proof.
  unfold solve_lubricant. generalize (l_lubricant w). intros l. revert d. induction l as [|[p f] l IH]; intros d H N; cbn in H.
  - now injection H as <-.
  - destruct (LubricantModel.call f d) as [v|]; [|discriminate]. apply IH in H; [exact H|]. now apply nodup_dset.
Qed.
Lemma lubricant_keys w d d' x : solve_lubricant w d = Ok d' -> (In x (map fst d') <-> In x (map fst d) \/ In x (map fst (l_lubricant w))).
Proof.
  unfold solve_lubricant. generalize (l_lubricant w). intros l. revert d. induction l as [|[p f] l IH]; intros d H; cbn in H.
  - injection H as <-. cbn. tauto.
  - destruct (LubricantModel.call f d) as [v|]; [|discriminate]. apply IH in H. rewrite H, keys_sadd. cbn. intuition congruence.
Qed.
Lemma base_split x : x <> "rolling_speed" -> x <> "converged" -> x <> "loads" -> x <> "total_normal_load" -> x <> "total_displacement" ->
  x <> "surface_2_displacement" -> x <> "surface_1_displacement" -> x <> "interference" -> x <> "nd_gap" ->
  In x semi_base_provides <-> In x ["gap"; "pressure"; "nd_pressure"; "just_touching_gap"] \/
    In x ["just_touching_gap"; "surface_1_points"; "surface_2_points"; "off_set"; "time_step"; "time"].
Proof.
  intros. split.
  - unfold semi_base_provides. intros I. repeat (destruct I as [I|I]; [subst x; first [congruence|left; cbn; tauto|right; cbn; tauto]|]). destruct I.
  - clear. intros [I|I]; repeat (destruct I as [<-|I]; [cbn; tauto|]); destruct I.
Qed.
Lemma done_entries w m start ol oi oo k prev calls jt st off l i s p1 p2 d0 this load conv :
  no_clash w -> distinct_entries w ->
  time_step_done w m start ol oi oo k prev calls jt st off l i s p1 p2 d0 this load conv ->
  exists pre c last' this0 p q h u u1 u2 gap D last gap0,
    let mk := moved_semi m off l i s in let nd := map (fun xy => damped (nd_max w) (relaxation m) (fst xy) (snd xy)) (combine p q) in
    let P := map (dim_p w) nd in
    calls = (pre ++ [c])%list /\ l_reynolds w (speed_of mk) c (nd_max w) = (last', Ok this0) /\
    dget "nd_pressure" last' = Some (SGrid p) /\ dget "nd_pressure" this0 = Some (SGrid q) /\ length q = length p /\
    dget "interference" last' = Some (SNum h) /\
    l_disp w (length jt) P = Ok u /\ l_disp1 w (length jt) P = Ok u1 /\ l_disp2 w (length jt) P = Ok u2 /\ film jt u h = Ok gap /\
    load = rsum P * l_area w /\
    (conv = true -> error_of p q < rtol m /\ load_met mk load = true) /\
    (conv = false -> (max_it m < Z.of_nat (length pre))%Z /\ (rtol m <= error_of p q \/ load_met mk load = false)) /\
    l_sub_models w D = Ok st /\
    (forall x v, In (x, v) [("just_touching_gap", SGrid jt); ("nd_pressure", SGrid nd); ("pressure", SGrid P); ("loads", SGrid P);
       ("total_normal_load", SNum load); ("interference", SNum h); ("total_displacement", SGrid u); ("surface_1_displacement", SGrid u1);
       ("surface_2_displacement", SGrid u2); ("gap", SGrid gap); ("nd_gap", SGrid (map (nd_g w) gap)); ("converged", SFlag conv);
       ("rolling_speed", SNum (speed_of mk))] -> dget x D = Some v) /\
    (forall x v, In (x, v) [("time", SNum (start + (INR k + 1) * m_time_step m)); ("time_step", SNum (m_time_step m));
       ("off_set", SPair (fst (off_value off)) (snd (off_value off)))] -> dget x this0 = None -> ~ In x (map fst (l_lubricant w)) -> dget x D = Some v) /\
    (forall x, In x (map fst D) <-> In x semi_base_provides \/ (x <> "total_displacement_z" /\ (In x (map fst this0) \/ In x (map fst (l_lubricant w))))) /\
    (forall x, ~ In x semi_base_provides -> x <> "total_displacement_z" -> ~ In x (map fst (l_lubricant w)) -> dget x D = dget x this0) /\
    c = given_of w last gap0 /\ dget "gap" last = Some (SGrid gap0) /\
    (forall J : dict -> Prop, (forall it last c this, J last -> round w mk jt it last = (c, Ok (GoOn this)) -> J this) -> J d0 -> J last).
Proof.
  intros NC DE (U1 & U2 & U3 & U4 & G & S & Rr & C). set (mk := moved_semi m off l i s) in *.
  apply (rounds_leave w mk jt (fun x => forall J : dict -> Prop, (forall it last c this, J last -> round w mk jt it last = (c, Ok (GoOn this)) -> J this) -> J d0 -> J x)) in Rr
    as (it & last & c & pre & RJ & Rd & -> & Eit); [|intros it last c this0 HJ Hr J J1 J2; eapply J1; [exact (HJ J J1 J2)|exact Hr]|auto].
  apply round_ok in Rd as (gap0 & last' & this0 & p & q & nd & u & h & gap & this3 & p3 & gap3 & R1 & R2 & R3 & R4 & R5 & R6 & R7 & R8 & R9 & R10 & R11 & R12 & R13 & Rt & Rl & Rc & Rf).
  injection R2 as ->. subst nd. cbn [mk moved_semi relaxation] in *. set (nd := map (fun xy => damped (nd_max w) (relaxation m) (fst xy) (snd xy)) (combine p q)) in *.
  set (P := map (dim_p w) nd) in *. set (this2 := this2_of this0 jt nd P u gap) in *.
  destruct (this2_get this0 jt nd P u gap) as (T1 & T2 & T3 & T4 & T5). fold this2 in T1, T2, T3, T4, T5.
  assert (F : forall x, In x step_names -> dget x this3 = dget x this2) by (intros; eapply clash_frame; eauto).
  apply get_grid_ok in R12. rewrite F in R12 by (cbn; tauto). rewrite T3 in R12. injection R12 as <-.
  apply get_grid_ok in R13. rewrite F in R13 by (cbn; tauto). rewrite T1 in R13. injection R13 as <-.
  assert (N3 : NoDup (map fst this3)). { eapply lubricant_nodup; [exact R11|]. unfold this2, this2_of. repeat apply nodup_dset. eapply DE; eauto. }
  assert (N : NoDup (map fst this)). { rewrite Rt. now repeat apply nodup_dset. }
  unfold clean_up in C. cbv zeta in C. set (base := semi_base m jt p1 p2 (off_value off) (start + (INR k + 1) * m_time_step m)) in *.
  assert (GD : forall x, dget x (dupdate base this) = match dget x this with Some v => Some v | None => dget x base end) by (intros; now apply dget_dupdate).
  assert (GT : forall x, dget x this = if String.eqb x "interference" then Some (SNum h) else if String.eqb x "nd_gap" then Some (SGrid (map (nd_g w) gap)) else dget x this3).
  { intros x. rewrite Rt, !dget_dset. reflexivity. }
  assert (EP : get_grid "pressure" (dupdate base this) = Ok P). { apply get_grid_ok. rewrite GD, GT. cbn. rewrite F by (cbn; tauto). now rewrite T3. }
  rewrite EP in C. cbn [bind] in C.
  destruct (l_disp1 w (length jt) P) as [u1|] eqn:E1; [cbn [bind] in C|discriminate].
  destruct (l_disp2 w (length jt) P) as [u2|] eqn:E2; [cbn [bind] in C|discriminate].
  assert (EU : match l_max w with Some _ => get_grid "total_displacement_z" (dupdate base this) | None => l_disp w (length jt) P end = Ok u).
  { destruct (l_max w); [|exact R8]. apply get_grid_ok. rewrite GD, GT. cbn. rewrite F by (cbn; tauto). now rewrite T2. }
  rewrite EU in C. cbn [bind] in C. fold (speed_of mk) in C.
  match type of C with l_sub_models w ?d = _ => set (D := d) in * end.
  exists pre, (given_of w last gap0), last', this0, p, q, h, u, u1, u2, gap, D, last, gap0. cbv zeta. fold nd. fold P.
  split; [reflexivity|]. split; [exact R3|]. split; [exact R5|]. split. { apply get_grid_ok in R4. rewrite dget_dset in R4. exact R4. }
  split; [exact R6|]. split; [exact R9|]. split; [exact R8|]. split; [exact E1|]. split; [exact E2|]. split; [exact R10|]. split; [exact Rl|].
  split; [subst load; exact Rc|]. split. { subst load. change (max_it mk) with (max_it m) in Rf. intros E. destruct (Rf E). split; [lia|assumption]. } split; [exact C|].
  assert (DD : forall x, dget x D = if String.eqb x "rolling_speed" then Some (SNum (speed_of mk)) else if String.eqb x "converged" then Some (SFlag conv)
      else if String.eqb x "loads" then Some (SGrid P) else if String.eqb x "total_normal_load" then Some (SNum load) else if String.eqb x "total_displacement_z" then None
      else if String.eqb x "total_displacement" then Some (SGrid u) else if String.eqb x "surface_2_displacement" then Some (SGrid u2)
      else if String.eqb x "surface_1_displacement" then Some (SGrid u1) else dget x (dupdate base this)).
  { intros x. unfold D. rewrite !dget_dset, dget_ddel, !dget_dset. destruct (String.eqb_spec x "total_displacement_z") as [->|NE]; [reflexivity|]. reflexivity. }
  split; [|split; [|split; [|split; [|split; [reflexivity|split; [exact R1|exact RJ]]]]]].
  - intros x v H. rewrite DD, GD, GT. cbn in H.
    repeat (destruct H as [H|H]; [injection H as <- <-; cbn; try rewrite F by (cbn; tauto); try rewrite T1; try rewrite T3; try rewrite T4; try rewrite T5; reflexivity|]). destruct H.
  - intros x v H H0 HL. rewrite DD, GD, GT. cbn in H.
    assert (L3 : dget x this3 = dget x this2) by (eapply lubricant_frame; eauto).
    repeat (destruct H as [H|H]; [injection H as <- <-; cbn; rewrite L3; unfold this2, this2_of; rewrite !dget_dset; cbn; rewrite H0; reflexivity|]). destruct H.
  - intros x. rewrite <- dget_in, DD.
    assert (B : forall y, In y semi_base_provides -> forall P Q : Prop, (P <-> True) -> (P <-> In y semi_base_provides \/ Q)) by (intros; tauto).
    assert (L3 : In x (map fst this3) <-> In x (map fst this2) \/ In x (map fst (l_lubricant w))) by (eapply lubricant_keys; eauto).
    destruct (String.eqb_spec x "rolling_speed") as [->|N1]; [apply B; [cbn; tauto|easy]|].
    destruct (String.eqb_spec x "converged") as [->|N2]; [apply B; [cbn; tauto|easy]|].
    destruct (String.eqb_spec x "loads") as [->|N4]; [apply B; [cbn; tauto|easy]|].
    destruct (String.eqb_spec x "total_normal_load") as [->|N5]; [apply B; [cbn; tauto|easy]|].
    destruct (String.eqb_spec x "total_displacement_z") as [->|N6]. { split; [easy|]. intros [H|[H _]]; [|easy]. cbn in H. intuition discriminate. }
    destruct (String.eqb_spec x "total_displacement") as [->|N7]; [apply B; [cbn; tauto|easy]|].
    destruct (String.eqb_spec x "surface_2_displacement") as [->|N8]; [apply B; [cbn; tauto|easy]|].
    destruct (String.eqb_spec x "surface_1_displacement") as [->|N9]; [apply B; [cbn; tauto|easy]|].
    rewrite GD, GT. destruct (String.eqb_spec x "interference") as [->|N10]; [apply B; [cbn; tauto|easy]|].
    destruct (String.eqb_spec x "nd_gap") as [->|N11]; [apply B; [cbn; tauto|easy]|].
    assert (K2 : In x (map fst this2) <-> In x ["gap"; "pressure"; "nd_pressure"; "just_touching_gap"] \/ In x (map fst this0)).
    { unfold this2, this2_of. rewrite !keys_sadd. cbn. intuition congruence. }
    assert (KB : In x (map fst base) <-> In x ["just_touching_gap"; "surface_1_points"; "surface_2_points"; "off_set"; "time_step"; "time"]) by (unfold base; cbn; tauto).
    assert (A : match dget x this3 with Some v => Some v | None => dget x base end <> None <-> In x (map fst this3) \/ In x (map fst base)).
    { rewrite <- !dget_in. destruct (dget x this3); split; intros; try tauto; try (left; discriminate); discriminate. }
    assert (X := base_split x N1 N2 N4 N5 N7 N8 N9 N10 N11).
    rewrite A, L3, K2, KB, X. clear - N6. tauto.
  - intros x NB NZ NL. rewrite DD, GD, GT.
    repeat match goal with |- context [String.eqb x ?y] => destruct (String.eqb_spec x y) as [->|]; [exfalso; apply NB; cbn; tauto|] | |- context [String.eqb x "total_displacement_z"] => destruct (String.eqb_spec x "total_displacement_z"); [easy|] end.
    assert (L3 : dget x this3 = dget x this2) by (eapply lubricant_frame; eauto). rewrite L3. unfold this2, this2_of. rewrite !dget_dset.
    assert (KB : dget x base = None). { apply dget_none. unfold base. cbn. cbn in NB. intuition congruence. } rewrite KB.
    repeat match goal with |- context [String.eqb x ?y] => destruct (String.eqb_spec x y) as [->|]; [exfalso; first [apply NB; cbn; tauto|easy]|] end.
    now destruct (dget x this0).
Qed.

(** ** The start of a time step *)
Lemma zeros_length {A} (l : list A) : length (map (fun _ => 0) l) = length l.
Proof. apply map_length. Qed.
Lemma start_ok w m i prev jt d0 : no_clash w -> start_state w m i prev jt = Ok d0 ->
  exists h p u gap, interference_in prev h /\ pressure_in prev jt p /\
    dget "nd_pressure" d0 = Some (SGrid (map (nd_p w) p)) /\ dget "pressure" d0 = Some (SGrid p) /\ dget "interference" d0 = Some (SNum h) /\
    dget "nd_interference" d0 = Some (SNum (nd_g w h)) /\ dget "just_touching_gap" d0 = Some (SGrid jt) /\
    dget "gap" d0 = Some (SGrid gap) /\ film jt u h = Ok gap /\
    (if forallb (fun x => Reqb x 0) (map (nd_p w) p) then u = map (fun _ => 0) jt else holds_grid prev "pressure" p /\ l_disp w (length jt) p = Ok u) /\
    (forall x, ~ In x step_names -> ~ In x (map fst (l_lubricant w)) -> dget x d0 = None).
Proof.
  intros NC H. unfold start_state, guess_of in H. assert (Z.leb 0 (Z.of_nat i) = true) as E by (apply Z.leb_le; lia). rewrite E in H. cbn [bind start_values] in H.
  assert (exists p, match dget "pressure" prev with None => Ok (map (fun _ => 0) jt) | Some _ => get_grid "pressure" prev end = Ok p) as (p & Ep).
  { match goal with |- exists p, ?x = Ok p => destruct x; [eauto|discriminate] end. }
  rewrite Ep in H. cbn [bind] in H.
  assert (exists h, match dget "interference" prev with None => Ok 0 | Some _ => get_num "interference" prev end = Ok h) as (h & Eh).
  { match goal with |- exists p, ?x = Ok p => destruct x; [eauto|discriminate] end. }
  rewrite Eh in H. cbn [bind] in H.
  match type of H with bind ?x _ = _ => destruct x as [u|] eqn:Eu end; [cbn [bind] in H|discriminate].
  match type of H with bind (solve_lubricant w ?x) _ = _ => set (dA := x) in *; destruct (solve_lubricant w dA) as [d1|] eqn:Ed end; [cbn [bind] in H|discriminate].
  assert (F : forall x, In x step_names -> dget x d1 = dget x dA) by (intros; eapply clash_frame; eauto).
  assert (get_grid "total_displacement_z" d1 = Ok u) as E1 by (apply get_grid_ok; rewrite F by (cbn; tauto); reflexivity). rewrite E1 in H. cbn [bind] in H.
  assert (get_num "interference" d1 = Ok h) as E2 by (apply get_num_ok; rewrite F by (cbn; tauto); reflexivity). rewrite E2 in H. cbn [bind] in H.
  destruct (film jt u h) as [gap|] eqn:Ef; [cbn [bind] in H|discriminate]. injection H as <-.
  exists h, p, u, gap. split. { unfold interference_in, holds_num. destruct (dget "interference" prev) eqn:E3; [left; apply get_num_ok in Eh; congruence|]. injection Eh as <-. auto. }
  split. { unfold pressure_in, holds_grid. destruct (dget "pressure" prev) eqn:E3; [left; apply get_grid_ok in Ep; congruence|]. injection Ep as <-. auto. }
  rewrite !dget_dset. cbn [String.eqb Ascii.eqb Bool.eqb]. rewrite !F by (cbn; tauto). repeat (split; [reflexivity|]). split; [exact Ef|]. split.
  - destruct (forallb _ _); [now injection Eu as <-|]. unfold holds_grid.
    destruct (dget "pressure" prev) as [v|] eqn:E3.
    + rewrite Ep in Eu. apply get_grid_ok in Ep. split; [congruence|]. exact Eu.
    + unfold get_grid in Eu. rewrite E3 in Eu. discriminate.
  - intros x N1 N2. rewrite !dget_dset. cbn in N1.
    destruct (String.eqb_spec x "gap"); [subst; tauto|]. destruct (String.eqb_spec x "nd_interference"); [subst; tauto|].
    rewrite (lubricant_frame w dA d1 x Ed N2). apply dget_none. cbn. intuition.
Qed.
