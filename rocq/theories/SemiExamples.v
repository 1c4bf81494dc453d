(** Cases that meet the hypotheses of the theorems about the lubrication step. *)
From Coq Require Import String List Bool Arith ZArith Lia Reals Lra.
From Verif Require Import LubricantModel.
From Verif Require Import HeightModel StepModel SemiModel StepSpec SemiSpec PyProofs HeightProofs StepProofs SemiProofs SemiTheorems.
Import ListNotations.
Local Open Scope string_scope.
Local Open Scope R_scope.

(** *** An example *)

(** One node, two surfaces of the same stiffness, a lubricant of constant density, the unified solver with a
    sweep that always finds the pressure one; the surfaces slide while the load is held. *)
Definition ex_ones (v : sv) (x : R) : sv := match v with SGrid l => SGrid (map (fun _ => x) l) | v => v end.
Definition ex_sweep (s : R) (d : dict) (rho gap : list R) (limit : option R) : result (list R) := Ok [1].
Definition ex_lub : lub_world :=
  LubWorld (fun o => Ok ([2 + fst o], [], [])) 1 (Some 5) (fun _ p => Ok p) (fun _ p => Ok (map (fun x => x / 2) p)) (fun _ p => Ok (map (fun x => x / 2) p))
    [("nd_density", constant_array_property ex_ones 1)] (unified ex_sweep) (fun x => 2 * x) (fun x => x / 2) (fun x => x) (fun x => x) (fun d => Ok d).
Definition ex_prev : dict := [("time", SNum 0); ("pressure", SGrid [2])].
Lemma ex_world : no_clash ex_lub /\ distinct_entries ex_lub /\ polite ex_lub /\ (forall x, subs_leave ex_lub x) /\
  ~ In "previous_nd_gap" (map fst (l_lubricant ex_lub)) /\ ~ In "previous_nd_density" (map fst (l_lubricant ex_lub)) /\
  not_provided ex_lub "time" /\ not_provided ex_lub "time_step" /\ not_provided ex_lub "off_set" /\
  semi_data_check true ["nd_density"] (Some (l_lubricant ex_lub)) = Ok tt.
Proof.
  assert (U : forall s d limit d' out, l_reynolds ex_lub s d limit = (d', Ok out) -> map fst out = ["previous_nd_density"; "previous_nd_gap"; "nd_pressure"]).
  { intros s d limit d' out H. cbn [l_reynolds ex_lub] in H. unfold unified in H. destruct (get_grid "nd_gap" d); [|discriminate]. destruct (get_grid "nd_pressure" d); [|discriminate].
    match type of H with (match ?x with _ => _ end) = _ => destruct x as [dd|]; [|discriminate] end. injection H as <- H.
    destruct (get_grid "previous_nd_density" dd); [|discriminate]. cbn [bind] in H. destruct (get_grid "previous_nd_gap" dd); [|discriminate]. cbn [bind] in H.
    unfold ex_sweep in H. cbn [bind] in H. injection H as <-. reflexivity. }
  repeat split.
  - intros x Hx Hl. cbn in Hx, Hl. destruct Hl as [<-|[]]. intuition discriminate.
  - eapply (unified_polite ex_lub ex_sweep). reflexivity.
  - intros s d limit x Hx. cbn [l_reynolds ex_lub]. unfold unified. destruct (get_grid "nd_gap" d); [|reflexivity]. destruct (get_grid "nd_pressure" d); [|reflexivity].
    destruct (dmem "previous_nd_density" d); [reflexivity|]. destruct (get_grid "nd_density" d); [|reflexivity]. cbn [bind fst].
    rewrite !dget_dset. cbn in Hx. destruct Hx as [<-|[<-|[<-|[]]]]; reflexivity.
  - intros x d d' H. cbn in H. now injection H as <-.
  - cbn. intuition discriminate.
  - cbn. intuition discriminate.
  - cbn. intuition discriminate.
  - intros s d limit d' out H. rewrite (U _ _ _ _ _ H). cbn. intuition discriminate.
  - cbn. intuition discriminate.
  - intros s d limit d' out H. rewrite (U _ _ _ _ _ H). cbn. intuition discriminate.
  - cbn. intuition discriminate.
  - intros s d limit d' out H. rewrite (U _ _ _ _ _ H). cbn. intuition discriminate.
Qed.
Ltac decide_reals := repeat match goal with
  | |- context [2 / 2] => replace (2 / 2) with 1 by lra
  | |- context [?x + 0] => replace (x + 0) with x by ring
  | |- context [1 - 1] => replace (1 - 1) with 0 by ring
  | |- context [Rabs 0] => rewrite Rabs_R0
  | |- context [Rmin ?a ?b] => replace (Rmin a b) with 1 by (rewrite Rmin_left; lra)
  | |- context [0 / 1] => replace (0 / 1) with 0 by lra
  | |- context [2 * 1] => replace (2 * 1) with 2 by lra
  | |- context [Rltb ?a ?b] => first [replace (Rltb a b) with true by (symmetry; apply Rltb_true; unfold Rabs; try destruct (Rcase_abs _); lra)
                                     |replace (Rltb a b) with false by (symmetry; apply Rltb_false; unfold Rabs; try destruct (Rcase_abs _); lra)]
  | |- context [Reqb ?a ?b] => first [replace (Reqb a b) with true by (symmetry; apply Reqb_true; lra)
                                     |replace (Reqb a b) with false by (destruct (Reqb a b) eqn:?Q; [apply Reqb_true in Q; lra|reflexivity])]
  end.
Example c50_case : exists m m' log states s st1 st2,
  new_semi (Const 1) 2 false 6 (Seq (Flat [0; 3])) (Const 0) None (Some (Const 2)) false 10 (1 / 100) (1 / 2) GNone = Ok m /\
  semi_solve ex_lub m ex_prev = (m', log, states, Ok s) /\ nth_error states 0 = Some st1 /\ nth_error states 1 = Some st2 /\
  holds_flag st1 "converged" true /\ holds_flag st2 "converged" true /\
  holds_grid st1 "just_touching_gap" [2] /\ holds_grid st2 "just_touching_gap" [2 + 3].
Proof.
  assert (exists F, new_semi (Const 1) 2 false 6 (Seq (Flat [0; 3])) (Const 0) None (Some (Const 2)) false 10 (1 / 100) (1 / 2) GNone =
    Ok (Semi 2 false 6 (6 / INR 2) false 10 (1 / 100) (1 / 2) true GNone (Some F) None None None None (Some 2) None (Some 1)) /\
    F (relative_time 2 0) = Ok (0, 0) /\ F (relative_time 2 1) = Ok (3, 0)) as (F & N & F0 & F1).
  { unfold new_semi. decide_reals. cbn [andb negb Nat.eqb is_seq orb as_seq make_interpolation_func]. 
    assert (forall a b, exists f, interp1d [0; 1] [a; b] = Ok f /\ f (relative_time 2 0) = Ok a /\ f (relative_time 2 1) = Ok b) as Q.
    { intros a b. unfold relative_time. cbn [Nat.eqb INR Nat.sub]. destruct (interp_two a b (0 / 1)) as (f & H & H0), (interp_two a b (1 / 1)) as (f' & H' & H1).
      rewrite H in H'. injection H' as <-. exists f. split; [exact H|]. split.
      - rewrite H0. decide_reals. cbn. replace (0 / 1) with 0 by lra. now rewrite line_start.
      - rewrite H1. decide_reals. cbn. replace (1 / 1) with 1 by lra. rewrite line_end by lra. reflexivity. }
    destruct (Q 0 3) as (f & -> & A0 & A1). destruct (Q 0 0) as (g & -> & B0 & B1). eexists. split; [cbn; reflexivity|]. cbn beta. rewrite A0, A1, B0, B1. split; reflexivity. }
  unfold semi_solve. cbn [get_num dget ex_prev String.eqb Ascii.eqb Bool.eqb m_steps get_pair semi_loop].
  assert (exists m' log states s st1 st2, semi_loop ex_lub 0 0 0 (0, 0) 2 0
    (Semi 2 false 6 (6 / INR 2) false 10 (1 / 100) (1 / 2) true GNone (Some F) None None None None (Some 2) None (Some 1)) None ex_prev = (m', log, states, Ok s) /\
    nth_error states 0 = Some st1 /\ nth_error states 1 = Some st2 /\ holds_flag st1 "converged" true /\ holds_flag st2 "converged" true /\
    holds_grid st1 "just_touching_gap" [2] /\ holds_grid st2 "just_touching_gap" [2 + 3]) as (m' & log & states & s & st1 & st2 & H).
  { cbn [semi_loop m_steps]. unfold update_semi at 1. cbn [upd_m_off upd_m_load upd_m_interf upd_m_speed update_one m_relative].
    rewrite F0. cbn [bind m_off m_no_time upd_m_off orb negb l_gap ex_lub fst snd].
    unfold start_state at 1. cbn. decide_reals. cbn. decide_reals. cbn [andb negb update_semi bind upd_m_off upd_m_load upd_m_interf upd_m_speed update_one m_relative m_steps].
    cbn in F1. cbn. unfold update_semi. cbn [upd_m_off upd_m_load upd_m_interf upd_m_speed update_one m_relative]. rewrite F1. cbn. decide_reals. cbn. decide_reals. cbn.
    do 6 eexists. split; [reflexivity|]. cbn. repeat split. }
  eexists _, m', log, states, s, st1, st2. split; [exact N|]. exact H.
Qed.
(** The film taken for the time step before is not the one there was. *)
Example c88_case : exists m m' log states s st1 st2 g,
  semi_solve ex_lub m ex_prev = (m', log, states, Ok s) /\ nth_error states 0 = Some st1 /\ nth_error states 1 = Some st2 /\
  holds_grid st1 "nd_gap" g /\ ~ holds_grid st2 "previous_nd_gap" g.
Proof.
  destruct c50_case as (m & m' & log & states & s & st1 & st2 & N & H & E1 & E2 & _ & _ & J1 & J2).
  destruct ex_world as (W1 & W2 & W3 & W4 & W5 & W6 & _).
  destruct (c50_film _ _ _ _ _ _ _ _ _ W1 W2 (fun x _ => W4 x) H E1) as (off & jt & p1 & p2 & _ & nd & h & u & u1 & u2 & gap & F).
  destruct F as (F1 & _ & _ & _ & _ & _ & _ & _ & _ & _ & _ & _ & F2 & F3 & _).
  exists m, m', log, states, s, st1, st2, (map (nd_g ex_lub) gap). repeat (split; [assumption|]).
  refine (c88_moving_refuted ex_lub ex_sweep m ex_prev m' log states (Ok s) 0%nat st1 st2 [2] [2 + 3] _ eq_refl W1 W5 W6 (fun x _ => W4 x) _ _ H E1 E2 J1 J2 eq_refl _ F3).
  - intros n p u' Z D x Hx. cbn in D. injection D as <-. specialize (Z x Hx). cbn in Z. lra.
  - cbn. auto.
  - intros X. injection X. lra.
Qed.
(** No reported pressure is negative or above the limit, and the entries are the announced ones. *)
Example c89_case : exists m m' log states s st1 nd p,
  semi_solve ex_lub m ex_prev = (m', log, states, Ok s) /\ nth_error states 0 = Some st1 /\ holds_grid st1 "nd_pressure" nd /\ holds_grid st1 "pressure" p /\
  all_values (fun x => 0 <= x) p /\ all_values (fun x => x <= 5 / 2) nd /\
  forall x, In x (entries st1) <-> In x (semi_provides ["previous_nd_density"; "previous_nd_gap"; "nd_pressure"] ["nd_density"] (l_lubricant ex_lub)).
Proof.
  destruct c50_case as (m & m' & log & states & s & st1 & st2 & N & H & E1 & E2 & _ & _ & J1 & J2).
  destruct ex_world as (W1 & W2 & W3 & W4 & W5 & W6 & _ & _ & _ & W10).
  assert (U : forall s d limit d' out, l_reynolds ex_lub s d limit = (d', Ok out) -> exists a b, out = [("previous_nd_density", SGrid a); ("previous_nd_gap", SGrid b); ("nd_pressure", SGrid [1])]).
  { intros s0 d limit d' out E. cbn [l_reynolds ex_lub] in E. unfold unified in E. destruct (get_grid "nd_gap" d) as [x1|]; [|discriminate]. destruct (get_grid "nd_pressure" d) as [x2|]; [|discriminate].
    match type of E with (match ?x with _ => _ end) = _ => destruct x as [dd|]; [|discriminate] end. injection E as <- E.
    destruct (get_grid "previous_nd_density" dd) as [a|]; [|discriminate]. cbn [bind] in E. destruct (get_grid "previous_nd_gap" dd) as [b|]; [|discriminate]. cbn [bind] in E.
    unfold ex_sweep in E. cbn [bind] in E. injection E as <-. eauto. }
  destruct (c89_non_negative ex_lub _ _ _ _ _ _ _ _ _ _ _ _ _ _ ex_prev m' log states (Ok s) 0%nat st1 N W1 W2 W3 (fun x _ => W4 x)) as (nd & p & P1 & P2 & P3 & P4).
  - intros s0 d lim d' out q E Q. destruct (U _ _ _ _ _ E) as (a & b & ->). cbn in Q. injection Q as <-. intros x [<-|[]]. lra.
  - intros x Hx. cbn. lra.
  - intros x Hx. cbn. lra.
  - intros M HM. cbn in HM. injection HM as <-. lra.
  - intros p Hp. cbn in Hp. injection Hp as <-. intros x [<-|[]]. lra.
  - exact H.
  - exact E1.
  - exists m, m', log, states, s, st1, nd, p. repeat (split; [assumption|]). split.
    + exact (c89_maximum ex_lub m ex_prev m' log states (Ok s) 0%nat st1 5 nd W1 W2 (W4 _) eq_refl H E1 P1).
    + refine (c90_announced ex_lub m ex_prev m' log states (Ok s) 0%nat st1 _ _ W1 W2 _ _ _ W10 H E1).
      * intros d d' E. cbn in E. now injection E.
      * intros s0 d lim d' out E x. destruct (U _ _ _ _ _ E) as (a & b & ->). reflexivity.
      * cbn. intuition discriminate.
Qed.
(** A step that does not converge, with an interference that is asked for and not used. *)
Definition ex_prev2 : dict := [("time", SNum 0); ("pressure", SGrid [4])].
Example c86_case : exists m m' log states s st calls,
  new_semi (Const 1) 1 false 6 (Const 0) (Const 0) (Some (Const 3)) None false 0 (1 / 100) (1 / 2) (GNumbers 1 1) = Ok m /\
  semi_solve ex_lub m ex_prev2 = (m', log, states, Ok s) /\ nth_error states 0 = Some st /\ nth_error log 0 = Some calls /\
  holds_flag st "converged" false /\ length calls = 2%nat /\ holds_num st "interference" 0.
Proof.
  assert (N : new_semi (Const 1) 1 false 6 (Const 0) (Const 0) (Some (Const 3)) None false 0 (1 / 100) (1 / 2) (GNumbers 1 1) =
    Ok (Semi 1 false 6 (6 / INR 1) false 0 (1 / 100) (1 / 2) false (GNumbers 1 1) None None None None (Some (0, 0)) None (Some 3) (Some 1))).
  { unfold new_semi. decide_reals. reflexivity. }
  eexists. assert (exists m' log states s st calls, semi_solve ex_lub (Semi 1 false 6 (6 / INR 1) false 0 (1 / 100) (1 / 2) false (GNumbers 1 1) None None None None (Some (0, 0)) None (Some 3) (Some 1)) ex_prev2 = (m', log, states, Ok s) /\
     nth_error states 0 = Some st /\ nth_error log 0 = Some calls /\ holds_flag st "converged" false /\ length calls = 2%nat) as (m' & log & states & s & st & calls & H & E1 & E2 & E3 & E4).
  { unfold semi_solve. cbn.
    decide_reals. cbn. replace (4 / 2) with 2 by lra. decide_reals. cbn. decide_reals. cbn.
    replace (2 + 1 / 2 * (1 - 2)) with (3 / 2) by lra. rewrite !(Rmin_left (3 / 2)) by lra.
    replace (Rltb (if Rltb 0 2 then Rabs (1 - 2) / 2 else 1) (1 / 100)) with false
      by (symmetry; apply Rltb_false; destruct (Rltb 0 2); unfold Rabs; try destruct (Rcase_abs _); lra).
    cbn. replace (Rltb (if Rltb 0 (3 / 2) then Rabs (1 - 3 / 2) / (3 / 2) else 1) (1 / 100)) with false
      by (symmetry; apply Rltb_false; destruct (Rltb 0 (3 / 2)); unfold Rabs; try destruct (Rcase_abs _); lra).
    cbn. do 6 eexists. split; [reflexivity|]. cbn. repeat split. }
  destruct ex_world as (W1 & W2 & W3 & W4 & _).
  exists m', log, states, s, st, calls. split; [exact N|]. repeat (split; [assumption|]).
  apply (c86_ignored_refuted ex_lub _ _ _ _ _ _ _ _ _ _ _ _ _ ex_prev2 m' log states (Ok s) 0%nat st 0 N W1 W2 W3 (W4 _) H E1). right. split; reflexivity.
Qed.
