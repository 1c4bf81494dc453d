(** C50, C51 and C86 to C90: the lubrication step. *)
From Coq Require Import String List Bool Arith ZArith Lia Reals Lra.
From Verif Require Import LubricantModel.
From Verif Require Import HeightModel StepModel SemiModel StepSpec SemiSpec PyProofs HeightProofs LubricantProofs StepProofs SemiProofs.
Import ListNotations.
Local Open Scope string_scope.
Local Open Scope R_scope.

(** *** C50: what is reported *)

(** Every time step that is reported, converged or not, describes a film consistently, for the gap at
    its offset. *)
Theorem c50_film : forall w m prev m' log states r k st,
  no_clash w -> distinct_entries w -> (forall x, In x semi_base_provides -> subs_leave w x) ->
  semi_solve w m prev = (m', log, states, r) -> nth_error states k = Some st ->
  exists off jt p1 p2, l_gap w off = Ok (jt, p1, p2) /\ film_consistent w jt st.
Proof.
  intros w m prev m' log states r k st NC DE SL H E. unfold semi_solve in H.
  destruct (get_num "time" prev) as [t|] eqn:Et; [|injection H as <- <- <- <-; destruct k; discriminate].
  apply semi_states in H as (A & _ & _); [|discriminate].
  destruct (A k st E) as (off & l & ii & s & p1 & p2 & d0 & this & load & conv & calls & jt & prevn & B & C & D).
  pose proof D as (_ & _ & _ & _ & G & _). exists (off_value off), jt, p1, p2. split; [exact G|].
  apply done_entries in D; [|assumption|assumption].
  destruct D as (pre & c & last' & this0 & p & q & h & u & u1 & u2 & gap & DD & last & gap0 & D1 & D2 & D3 & D4 & D5 & D6 & D7 & D8 & D9 & D10 & D11 & D12 & D13 & D14 & D15 & _).
  set (nd := map (fun xy => damped (nd_max w) (relaxation m) (fst xy) (snd xy)) (combine p q)) in *.
  apply film_ok in D10 as (F1 & F2 & F3). exists nd, h, u, u1, u2, gap. cbv zeta. unfold holds_grid, holds_num.
  assert (S : forall x v, In x semi_base_provides -> dget x DD = Some v -> dget x st = Some v) by (intros x v I V; rewrite (SL x I _ _ D14); exact V).
  repeat split; try assumption; try (apply S; [cbn; tauto|apply D15; cbn; subst load; tauto]).
Qed.
Print Assumptions c50_film.

(** A time step is reported as converged only if the last change of the pressures, as found by the
    solver before damping, was less than the tolerance times the pressures (for a tolerance of at most
    one), and in load control only if the reported load differs by less than the tolerance from
    the load prescribed for this time step. The reported pressures are the damped ones. *)
Theorem c50_converged : forall w sp n nt T ox oy i l rel mi tol rx g m prev m' log states r k st,
  new_semi sp n nt T ox oy i l rel mi tol rx g = Ok m ->
  no_clash w -> distinct_entries w -> (forall x, In x semi_base_provides -> subs_leave w x) ->
  semi_solve w m prev = (m', log, states, r) -> nth_error states k = Some st -> holds_flag st "converged" true ->
  (forall mv, l = Some mv -> exists load total, moves_to mv rel (match get_num "total_normal_load" prev with Ok x => x | Err _ => 0 end) n k load /\
     holds_num st "total_normal_load" total /\ load <> 0 /\ Rabs (total / load - 1) < tol) /\
  exists speed calls d d' out p q, nth_error log k = Some (calls ++ [d])%list /\ holds_num st "rolling_speed" speed /\
    l_reynolds w speed d (nd_max w) = (d', Ok out) /\ holds_grid d' "nd_pressure" p /\ holds_grid out "nd_pressure" q /\ length q = length p /\
    holds_grid st "nd_pressure" (map (fun xy => damped (nd_max w) rx (fst xy) (snd xy)) (combine p q)) /\
    (tol <= 1 -> 0 < rsum p /\ total_change p q < tol * rsum p).
Proof.
  intros w sp n nt T ox oy i l rel mi tol rx g m prev m' log states r k st N NC DE SL H E CV. unfold semi_solve in H.
  apply new_semi_fields in N as (N0 & N1 & N2 & N3 & N4 & N5 & N6 & N7 & N8 & N9 & N10 & N11 & N12 & N13 & N14 & N15).
  destruct (get_num "time" prev) as [t|] eqn:Et; [|injection H as <- <- <- <-; destruct k; discriminate].
  apply semi_states in H as (A & LE & _); [|discriminate].
  assert (Hk : (k < n)%nat) by (assert (k < length states)%nat by (apply nth_error_Some; congruence); lia).
  destruct (A k st E) as (off & l' & ii & s & p1 & p2 & d0 & this & load & conv & calls & jt & prevn & B & C & D).
  pose proof D as (_ & U & _ & _ & G & _).
  apply done_entries in D; [|assumption|assumption].
  destruct D as (pre & c & last' & this0 & p & q & h & u & u1 & u2 & gap & DD & last & gap0 & D1 & D2 & D3 & D4 & D5 & D6 & D7 & D8 & D9 & D10 & D11 & D12 & D13 & D14 & D15 & _).
  set (nd := map (fun xy => damped (nd_max w) (relaxation m) (fst xy) (snd xy)) (combine p q)) in *.
  assert (S : forall x v, In x semi_base_provides -> dget x DD = Some v -> dget x st = Some v) by (intros x v I V; rewrite (SL x I _ _ D14); exact V).
  assert (conv = true) as ->.
  { assert (X : dget "converged" st = Some (SFlag conv)) by (apply S; [cbn; tauto|apply D15; cbn; tauto]). unfold holds_flag in CV. rewrite X in CV. now injection CV. }
  destruct (D12 eq_refl) as [D12a D12b]. split.
  - intros mv ->. unfold load_met in D12b. cbn [moved_semi m_load_controlled m_load rtol] in D12b. rewrite N11 in D12b.
    destruct l' as [ld|]; [|discriminate]. apply andb_true_iff in D12b as [Z0 Z1]. apply Rltb_true in Z1. exists ld, load. split; [|split; [|split]].
    + rewrite Nat.add_0_l, N2, N6, relative_fraction in U by lia. unfold moves_to. destruct mv as [x|v].
      * destruct N14 as [N14 N14']. rewrite N14, N14' in U. cbn in U. now injection U as <-.
      * destruct N14 as (fn & F1 & F2). rewrite F2 in U. cbn in U. destruct (fn (fraction n k)) as [x|] eqn:Ex; [|discriminate].
        cbn in U. injection U as <-. exists x. split; [eapply func_prescribes; eauto|reflexivity].
    + apply S; [cbn; tauto|apply D15; cbn; tauto].
    + intros ->. apply negb_true_iff in Z0. assert (Reqb 0 0 = true) by now apply Reqb_true. congruence.
    + now rewrite <- N8.
  - exists (speed_of (moved_semi m off l' ii s)), pre, c, last', this0, p, q. rewrite <- D1.
    split; [exact C|]. split; [apply S; [cbn; tauto|apply D15; cbn; tauto]|]. split; [exact D2|]. split; [exact D3|]. split; [exact D4|]. split; [exact D5|]. split.
    { rewrite <- N9. apply S; [cbn; tauto|apply D15; cbn; tauto]. }
    intros Ht. unfold error_of in D12a. rewrite N8 in D12a. destruct (Rltb 0 (rsum p)) eqn:Ep; [|lra]. apply Rltb_true in Ep. split; [exact Ep|].
    apply (Rmult_lt_compat_r (rsum p)) in D12a; [|exact Ep]. unfold Rdiv in D12a. rewrite Rmult_assoc, Rinv_l, Rmult_1_r in D12a by lra. exact D12a.
Qed.
Print Assumptions c50_converged.

(** The loop ends: in every time step, also one that fails, the solver is called at most
    [max_it + 2] times. *)
Theorem c50_iterations : forall w m prev m' log states r calls,
  semi_solve w m prev = (m', log, states, r) -> In calls log -> (0 <= max_it m)%Z -> (Z.of_nat (length calls) <= max_it m + 2)%Z.
Proof.
  intros w m prev m' log states r calls H I P. unfold semi_solve in H. destruct (get_num "time" prev) as [t|]; [|injection H as <- <- <- <-; destruct I].
  eapply semi_log in H; [|discriminate|exact I]. lia.
Qed.
Print Assumptions c50_iterations.
(** The bound used to make the loop a total function plays no role. *)
Theorem c50_fuel : forall w m jt d fuel, (enough m <= fuel)%nat -> rounds fuel w m jt 0 d = rounds (enough m) w m jt 0 d.
Proof. intros w m jt d fuel H. unfold enough in *. apply rounds_fuel; lia. Qed.
Print Assumptions c50_fuel.
(** The limit on the iterations is not the one given: if a time step is reported as not converged the
    solver was called exactly [max_it + 2] times. *)
Theorem c50_limit_refuted : forall w m prev m' log states r k st calls,
  no_clash w -> distinct_entries w -> subs_leave w "converged" -> (0 <= max_it m)%Z ->
  semi_solve w m prev = (m', log, states, r) -> nth_error states k = Some st -> nth_error log k = Some calls -> holds_flag st "converged" false ->
  Z.of_nat (length calls) = (max_it m + 2)%Z.
Proof.
  intros w m prev m' log states r k st calls NC DE SL P H E C CV.
  assert (B2 : (Z.of_nat (length calls) <= max_it m + 2)%Z) by (eapply c50_iterations; [exact H|eapply nth_error_In; exact C|exact P]).
  unfold semi_solve in H.
  destruct (get_num "time" prev) as [t|] eqn:Et; [|injection H as <- <- <- <-; destruct k; discriminate].
  apply semi_states in H as (A & _ & _); [|discriminate].
  destruct (A k st E) as (off & l & ii & s & p1 & p2 & d0 & this & load & conv & calls' & jt & prevn & B & C' & D).
  rewrite C in C'. injection C' as <-. apply done_entries in D; [|assumption|assumption].
  destruct D as (pre & c & last' & this0 & p & q & h & u & u1 & u2 & gap & DD & last & gap0 & D1 & D2 & D3 & D4 & D5 & D6 & D7 & D8 & D9 & D10 & D11 & D12 & D13 & D14 & D15 & _).
  assert (conv = false) as ->.
  { assert (X : dget "converged" st = Some (SFlag conv)) by (rewrite (SL _ _ D14); apply D15; cbn; tauto). unfold holds_flag in CV. rewrite X in CV. now injection CV. }
  destruct (D13 eq_refl) as [D13a _]. rewrite D1 in *. rewrite app_length in *. cbn [length] in *. lia.
Qed.
Print Assumptions c50_limit_refuted.

(** *** C51: the initial guess *)

(** The initial guess has no effect whatever: two steps that differ in nothing else give the same
    states, the same calls of the solver and the same result. *)
Lemma same_loop w start ol oi oo : forall todo i a b kept prev, same_but_guess a b ->
  let ra := semi_loop w start ol oi oo todo i a kept prev in let rb := semi_loop w start ol oi oo todo i b kept prev in
  same_but_guess (fst (fst (fst ra))) (fst (fst (fst rb))) /\ snd (fst (fst ra)) = snd (fst (fst rb)) /\ snd (fst ra) = snd (fst rb) /\ snd ra = snd rb.
Proof.
  assert (RR : forall w jt a b, same_but_guess a b -> forall fuel it d, rounds fuel w a jt it d = rounds fuel w b jt it d).
  { intros w' jt a b S. induction fuel as [|fuel IH]; intros it d; [reflexivity|]. cbn.
    assert (round w' a jt it d = round w' b jt it d) as -> by (unfold same_but_guess in S; rewrite S; reflexivity).
    destruct (round w' b jt it d) as [c [[t l cv|t]|e]]; try reflexivity. now rewrite IH. }
  induction todo as [|todo IH]; intros i a b kept prev S; [cbn; auto|].
  cbn [semi_loop]. unfold same_but_guess in S.
  assert (U : match update_semi a ol oi oo (relative_time (m_steps a) i), update_semi b ol oi oo (relative_time (m_steps b) i) with
              | Ok a1, Ok b1 => same_but_guess a1 b1 | Err e, Err e' => e = e' | _, _ => False end).
  { rewrite S. unfold update_semi. cbn [m_relative upd_m_off m_off upd_m_load m_load upd_m_interf m_interf upd_m_speed m_speed m_steps].
    destruct (update_one _ _ _ (upd_m_off b) _ _); [cbn [bind]|reflexivity]. destruct (update_one _ _ _ (upd_m_load b) _ _); [cbn [bind]|reflexivity].
    destruct (update_one _ _ _ (upd_m_interf b) _ _); [cbn [bind]|reflexivity].
    match goal with |- context [match bind ?x _ with _ => _ end] => destruct x; [|reflexivity] end. reflexivity. }
  destruct (update_semi a ol oi oo (relative_time (m_steps a) i)) as [a1|e] eqn:Ea, (update_semi b ol oi oo (relative_time (m_steps b) i)) as [b1|e'] eqn:Eb; try easy.
  2: { subst e'. cbn. auto. }
  clear S. rename U into S. pose proof S as S'. unfold same_but_guess in S.
  assert (m_off a1 = m_off b1 /\ upd_m_off a1 = upd_m_off b1 /\ m_no_time a1 = m_no_time b1 /\ m_time_step a1 = m_time_step b1 /\ enough a1 = enough b1) as (-> & -> & -> & -> & ->).
  { rewrite S. cbn. auto. }
  match goal with |- context [match ?x with Ok _ => _ | Err _ => _ end] => destruct x as [[[jt p1] p2]|] end; [|cbn; auto].
  cbv zeta. assert (start_state w a1 i prev jt = start_state w b1 i prev jt) as -> by (rewrite S; reflexivity).
  destruct (start_state w b1 i prev jt) as [d0|]; [|cbn; auto]. rewrite (RR w jt a1 b1 S'). destruct (rounds (enough b1) w b1 jt 0 d0) as [calls r].
  match goal with |- context [match bind r ?f with _ => _ end] => match goal with |- context [match bind r ?g with _ => _ end] =>
    assert (bind r f = bind r g) as X end end.
  { destruct r as [[[this load] conv]|]; [cbn|reflexivity]. rewrite S. reflexivity. }
  assert (SP : forall this load conv base, clean_up w a1 jt base this load conv = clean_up w b1 jt base this load conv) by (intros; rewrite S; reflexivity).
  destruct r as [[[this load] conv]|]; [cbn [bind]|cbn; auto]. rewrite SP. destruct (clean_up w b1 jt _ this load conv) as [st|]; [|cbn; auto].
  specialize (IH (Datatypes.S i) a1 b1 (Some (jt, p1, p2)) st S'). cbv zeta in IH.
  destruct (semi_loop w start ol oi oo todo (Datatypes.S i) a1 (Some (jt, p1, p2)) st) as [[[ma la] sa] ra], (semi_loop w start ol oi oo todo (Datatypes.S i) b1 (Some (jt, p1, p2)) st) as [[[mb lb] sb] rb].
  cbn in IH |- *. destruct IH as (I1 & -> & -> & ->). auto.
Qed.
Theorem c51_ignored_refuted : forall w sp n nt T ox oy i l rel mi tol rx g1 g2 m1 m2 prev,
  new_semi sp n nt T ox oy i l rel mi tol rx g1 = Ok m1 -> new_semi sp n nt T ox oy i l rel mi tol rx g2 = Ok m2 ->
  m_guess m1 = g1 /\ m_guess m2 = g2 /\
  let '(_, log1, states1, r1) := semi_solve w m1 prev in let '(_, log2, states2, r2) := semi_solve w m2 prev in
  log1 = log2 /\ states1 = states2 /\ r1 = r2.
Proof.
  intros w sp n nt T ox oy i l rel mi tol rx g1 g2 m1 m2 prev N1 N2.
  split; [now apply new_semi_fields in N1|]. split; [now apply new_semi_fields in N2|].
  assert (S : same_but_guess m1 m2).
  { unfold new_semi in *. destruct (Rltb 0 rx && negb (Rltb 1 rx)); [|discriminate]. destruct (Nat.eqb n 0); [discriminate|].
    match type of N1 with bind ?x _ = _ => destruct x as [[uo o]|] end; [cbn [bind] in *|discriminate].
    match type of N1 with bind ?x _ = _ => destruct x as [i'|] end; [cbn [bind] in *|discriminate].
    destruct (movement_of (Some sp)) as [[us s]|]; [cbn [bind] in *|discriminate]. destruct (movement_of l) as [[ul ll]|]; [cbn [bind] in *|discriminate].
    destruct (movement_of i') as [[ui ii]|]; [cbn [bind] in *|discriminate]. injection N1 as <-. injection N2 as <-. reflexivity. }
  unfold semi_solve. destruct (get_num "time" prev) as [t|]; [|auto].
  assert (m_steps m1 = m_steps m2) as -> by (rewrite S; reflexivity).
  match goal with |- context [semi_loop w t ?x ?y ?z ?n 0 m1 None prev] => pose proof (same_loop w t x y z n 0%nat m1 m2 None prev S) as L end.
  cbv zeta in L. destruct (semi_loop w t _ _ _ (m_steps m2) 0 m1 None prev) as [[[ma la] sa] ra], (semi_loop w t _ _ _ (m_steps m2) 0 m2 None prev) as [[[mb lb] sb] rb].
  cbn in L. tauto.
Qed.
Print Assumptions c51_ignored_refuted.
(** What it starts from is the state of the time step before or of the step before: the first call of
    the solver in every reported time step gets the pressures and the interference in this state
    (zeros if it has none). *)
Theorem c51_previous : forall w m prev m' log states r k st d calls,
  no_clash w -> semi_solve w m prev = (m', log, states, r) -> nth_error states k = Some st -> nth_error log k = Some (d :: calls) ->
  exists s jt p h, before prev states k = Some s /\ holds_grid d "just_touching_gap" jt /\ pressure_in s jt p /\ interference_in s h /\
    holds_grid d "pressure" p /\ holds_grid d "nd_pressure" (map (nd_p w) p) /\ holds_num d "interference" h.
Proof.
  intros w m prev m' log states r k st d calls NC H E C. unfold semi_solve in H.
  destruct (get_num "time" prev) as [t|] eqn:Et; [|injection H as <- <- <- <-; destruct k; discriminate].
  apply semi_states in H as (A & _ & _); [|discriminate].
  destruct (A k st E) as (off & l & ii & s & p1 & p2 & d0 & this & load & conv & calls' & jt & prevn & B & C' & _ & _ & _ & _ & _ & S & Rr & _).
  rewrite C in C'. injection C' as <-. apply start_ok in S; [|assumption].
  destruct S as (h & p & u & gap & S1 & S2 & S3 & S4 & S5 & S6 & S7 & S8 & _).
  apply rounds_first with (c0 := d) in Rr as (gap0 & _ & ->); [|reflexivity].
  exists prevn, jt, p, h. unfold holds_grid, holds_num, given_of. rewrite !dget_dset. cbn [String.eqb Ascii.eqb Bool.eqb]. auto 10.
Qed.
Print Assumptions c51_previous.

(** *** C86: interference control *)

(** The interference asked for is never used: every time step of every step under interference
    control reports the interference there was before the step (zero if none). *)
Theorem c86_ignored_refuted : forall w sp n nt T ox oy mv rel mi tol rx g m prev m' log states r k st h,
  new_semi sp n nt T ox oy (Some mv) None rel mi tol rx g = Ok m ->
  no_clash w -> distinct_entries w -> polite w -> subs_leave w "interference" ->
  semi_solve w m prev = (m', log, states, r) -> nth_error states k = Some st -> interference_in prev h -> holds_num st "interference" h.
Proof.
  intros w sp n nt T ox oy mv rel mi tol rx g m prev m' log states r k st h N NC DE PO SL H E HP. unfold semi_solve in H.
  apply new_semi_fields in N as (N0 & N1 & N2 & N3 & N4 & N5 & N6 & N7 & N8 & N9 & N10 & N11 & _).
  destruct (get_num "time" prev) as [t|] eqn:Et; [|injection H as <- <- <- <-; destruct k; discriminate].
  apply semi_states in H as (A & _ & _); [|discriminate]. revert st E. induction k as [|k IH]; intros st E;
  destruct (A _ st E) as (off & l & ii & s & p1 & p2 & d0 & this & load & conv & calls & jt & prevn & B & C & D); cbn [before] in B.
  - injection B as <-. pose proof D as (_ & _ & _ & _ & _ & S & _). apply start_ok in S as (h' & p & u & gap & S1 & S2 & S3 & S4 & S5 & _); [|assumption].
    assert (h' = h) as ->. { unfold interference_in, holds_num in *. destruct HP as [HP|[HP ->]], S1 as [S1|[S1 ->]]; congruence. }
    apply done_entries in D; [|assumption|assumption].
    destruct D as (pre & c & last' & this0 & pp & q & h' & u' & u1 & u2 & gap' & DD & last & gap0 & D1 & D2 & D3 & D4 & D5 & D6 & D7 & D8 & D9 & D10 & D11 & D12 & D13 & D14 & D15 & _ & _ & _ & Ec & Eg & J).
    assert (Jl : dget "interference" last = Some (SNum h)).
    { apply (J (fun x => dget "interference" x = Some (SNum h))); [|assumption]. intros it x cc thisx Hx Hr. apply round_ok in Hr as (g0 & x' & t0 & p' & q' & nd & u'' & hx & gp & t3 & p3 & gp3 & R1 & R2 & R3 & R4 & R5 & R6 & R7 & R8 & R9 & R10 & R11 & R12 & R13 & R14 & _ & old & R15 & R16).
      cbn [moved_semi m_load_controlled] in R16. rewrite N11 in R16. rewrite R16, !dget_dset. cbn.
      pose proof (PO (speed_of (moved_semi m off l ii s)) (given_of w x g0) (nd_max w) "interference" ltac:(cbn; tauto)) as PP. rewrite R3 in PP. cbn [fst] in PP.
      unfold given_of in PP. rewrite dget_dset in PP. cbn in PP. congruence. }
    unfold holds_num. rewrite (SL _ _ D14). rewrite (D15 "interference" (SNum h')) by (cbn; tauto). f_equal. f_equal.
    pose proof (PO (speed_of (moved_semi m off l ii s)) c (nd_max w) "interference" ltac:(cbn; tauto)) as PP. rewrite D2 in PP. cbn [fst] in PP.
    rewrite Ec in PP. unfold given_of in PP. rewrite dget_dset in PP. cbn in PP. congruence.
  - specialize (IH prevn B). pose proof D as (_ & _ & _ & _ & _ & S & _). apply start_ok in S as (h' & p & u & gap & S1 & S2 & S3 & S4 & S5 & _); [|assumption].
    assert (h' = h) as ->. { unfold interference_in, holds_num in *. destruct S1 as [S1|[S1 ->]]; congruence. }
    apply done_entries in D; [|assumption|assumption].
    destruct D as (pre & c & last' & this0 & pp & q & h' & u' & u1 & u2 & gap' & DD & last & gap0 & D1 & D2 & D3 & D4 & D5 & D6 & D7 & D8 & D9 & D10 & D11 & D12 & D13 & D14 & D15 & _ & _ & _ & Ec & Eg & J).
    assert (Jl : dget "interference" last = Some (SNum h)).
    { apply (J (fun x => dget "interference" x = Some (SNum h))); [|assumption]. intros it x cc thisx Hx Hr. apply round_ok in Hr as (g0 & x' & t0 & p' & q' & nd & u'' & hx & gp & t3 & p3 & gp3 & R1 & R2 & R3 & R4 & R5 & R6 & R7 & R8 & R9 & R10 & R11 & R12 & R13 & R14 & _ & old & R15 & R16).
      cbn [moved_semi m_load_controlled] in R16. rewrite N11 in R16. rewrite R16, !dget_dset. cbn.
      pose proof (PO (speed_of (moved_semi m off l ii s)) (given_of w x g0) (nd_max w) "interference" ltac:(cbn; tauto)) as PP. rewrite R3 in PP. cbn [fst] in PP.
      unfold given_of in PP. rewrite dget_dset in PP. cbn in PP. congruence. }
    unfold holds_num. rewrite (SL _ _ D14). rewrite (D15 "interference" (SNum h')) by (cbn; tauto). f_equal. f_equal.
    pose proof (PO (speed_of (moved_semi m off l ii s)) c (nd_max w) "interference" ltac:(cbn; tauto)) as PP. rewrite D2 in PP. cbn [fst] in PP.
    rewrite Ec in PP. unfold given_of in PP. rewrite dget_dset in PP. cbn in PP. congruence.
Qed.
Print Assumptions c86_ignored_refuted.

(** *** C87: times and movements *)

(** [n] time steps of the same length; the last state is the result; the rolling speed and the
    offsets are those prescribed for the time step. *)
Theorem c87_times : forall w sp n nt T ox oy i l rel mi tol rx g m prev m' log states s,
  new_semi sp n nt T ox oy i l rel mi tol rx g = Ok m -> no_clash w -> distinct_entries w ->
  not_provided w "time" -> not_provided w "time_step" -> subs_leave w "time" -> subs_leave w "time_step" ->
  semi_solve w m prev = (m', log, states, Ok s) ->
  (0 < n)%nat /\ length states = n /\ nth_error states (n - 1) = Some s /\
  exists t, holds_num prev "time" t /\
  forall k, (k < n)%nat -> exists st, nth_error states k = Some st /\ holds_num st "time" (t + INR (S k) * (T / INR n)) /\ holds_num st "time_step" (T / INR n).
Proof.
  intros w sp n nt T ox oy i l rel mi tol rx g m prev m' log states s N NC DE P1 P2 L1 L2 H. unfold semi_solve in H.
  apply new_semi_fields in N as (N0 & N1 & N2 & N3 & N4 & N5 & N6 & N7 & N8 & N9 & N10 & N11 & _).
  destruct (get_num "time" prev) as [t|] eqn:Et; [|discriminate].
  apply semi_states in H as (A & _ & B); [|discriminate]. destruct (B s eq_refl) as (B1 & ->). rewrite N2 in *. split; [exact N0|]. split; [exact B1|]. split.
  - destruct states as [|a states]; [cbn in B1; lia|]. clear -B1. rewrite <- B1. clear. replace (length (a :: states) - 1)%nat with (length states) by (cbn; lia).
    revert a. induction states as [|b states IH]; intros a; [reflexivity|]. cbn [length nth_error]. apply IH.
  - exists t. split; [now apply get_num_ok|]. intros k Hk. destruct (nth_error states k) as [st|] eqn:E; [|apply nth_error_None in E; lia]. exists st. split; [reflexivity|].
    destruct (A k st E) as (off & l' & ii & s & p1 & p2 & d0 & this & load & conv & calls & jt & prevn & _ & _ & D).
    apply done_entries in D; [|assumption|assumption].
    destruct D as (pre & c & last' & this0 & pp & q & h' & u' & u1 & u2 & gap' & DD & last & gap0 & D1 & D2 & D3 & D4 & D5 & D6 & D7 & D8 & D9 & D10 & D11 & D12 & D13 & D14 & D15 & D16 & _).
    assert (X1 : dget "time" this0 = None) by (apply dget_none; eapply P1; eauto). assert (X2 : dget "time_step" this0 = None) by (apply dget_none; eapply P2; eauto).
    unfold holds_num. rewrite (L1 _ _ D14), (L2 _ _ D14). rewrite <- N5. split.
    + rewrite S_INR. apply D16; [cbn; tauto|assumption|apply P1].
    + apply D16; [cbn; tauto|assumption|apply P2].
Qed.
Print Assumptions c87_times.
Theorem c87_movements : forall w sp n nt T ox oy i l rel mi tol rx g m prev m' log states r k st,
  new_semi sp n nt T ox oy i l rel mi tol rx g = Ok m -> no_clash w -> distinct_entries w ->
  not_provided w "off_set" -> subs_leave w "off_set" -> subs_leave w "rolling_speed" -> subs_leave w "just_touching_gap" ->
  semi_solve w m prev = (m', log, states, r) -> nth_error states k = Some st ->
  (exists v, moves_to sp false 0 n k v /\ holds_num st "rolling_speed" v) /\
  exists x y, holds_pair st "off_set" x y /\ (exists jt p1 p2, l_gap w (x, y) = Ok (jt, p1, p2) /\ holds_grid st "just_touching_gap" jt) /\
    let start := match get_pair "off_set" prev with Some o => o | None => (0, 0) end in
    match ox, oy with
    | Const a, Const b => x = a /\ y = b
    | _, _ => moves_to (Seq (as_seq ox)) rel (fst start) n k x /\ moves_to (Seq (as_seq oy)) rel (snd start) n k y
    end.
Proof.
  intros w sp n nt T ox oy i l rel mi tol rx g m prev m' log states r k st N NC DE P1 L1 L2 L3 H E. unfold semi_solve in H.
  apply new_semi_fields in N as (N0 & N1 & N2 & N3 & N4 & N5 & N6 & N7 & N8 & N9 & N10 & N11 & N12 & N13 & N14 & N15).
  destruct (get_num "time" prev) as [t|] eqn:Et; [|injection H as <- <- <- <-; destruct k; discriminate].
  apply semi_states in H as (A & LE & _); [|discriminate].
  assert (Hk : (k < n)%nat) by (assert (k < length states)%nat by (apply nth_error_Some; congruence); lia).
  destruct (A k st E) as (off & l' & ii & s & p1 & p2 & d0 & this & load & conv & calls & jt & prevn & _ & _ & D).
  pose proof D as (U1 & _ & _ & U4 & G & _). rewrite Nat.add_0_l, N2, relative_fraction in U1, U4 by lia.
  apply done_entries in D; [|assumption|assumption].
  destruct D as (pre & c & last' & this0 & pp & q & h' & u' & u1 & u2 & gap' & DD & last & gap0 & D1 & D2 & D3 & D4 & D5 & D6 & D7 & D8 & D9 & D10 & D11 & D12 & D13 & D14 & D15 & D16 & _).
  split.
  - exists (speed_of (moved_semi m off l' ii s)). split.
    + unfold update_speed in U4. unfold speed_of. cbn [moved_semi m_speed]. destruct sp as [x|v]; cbn.
      * destruct N15 as [F1 F2]. rewrite F1, F2 in U4. now injection U4 as <-.
      * destruct N15 as (fn & F1 & F2). rewrite F2 in U4. destruct (m_relative m); [discriminate|]. destruct (fn (fraction n k)) as [x|] eqn:Ex; [|discriminate].
        cbn in U4. injection U4 as <-. exists x. split; [eapply func_prescribes; eauto|reflexivity].
    + unfold holds_num. rewrite (L2 _ _ D14). apply D15. cbn. tauto.
  - exists (fst (off_value off)), (snd (off_value off)). split; [|split].
    + unfold holds_pair. rewrite (L1 _ _ D14). apply D16; [cbn; tauto|apply dget_none; eapply P1; eauto|apply P1].
    + exists jt, p1, p2. rewrite <- surjective_pairing. split; [exact G|]. unfold holds_grid. rewrite (L3 _ _ D14). apply D15. cbn. tauto.
    + cbv zeta. rewrite N6 in U1. set (start := match get_pair "off_set" prev with Some o => o | None => (0, 0) end) in *.
      assert (M : forall fx fy, make_interpolation_func (as_seq ox) = Ok fx -> make_interpolation_func (as_seq oy) = Ok fy ->
        upd_m_off m = Some (fun t => bind (fx t) (fun x => bind (fy t) (fun y => Ok (x, y)))) ->
        moves_to (Seq (as_seq ox)) rel (fst start) n k (fst (off_value off)) /\ moves_to (Seq (as_seq oy)) rel (snd start) n k (snd (off_value off))).
      { intros fx fy F1 F2 F3. rewrite F3 in U1. cbn in U1. destruct (fx (fraction n k)) as [x|] eqn:E1; [|discriminate]. cbn in U1.
        destruct (fy (fraction n k)) as [y|] eqn:E2; [|discriminate]. cbn in U1. injection U1 as <-. cbn [off_value]. split.
        - exists x. split; [eapply func_prescribes; eauto|]. destruct rel; reflexivity.
        - exists y. split; [eapply func_prescribes; eauto|]. destruct rel; reflexivity. }
      destruct ox as [a|vx], oy as [b|vy]; try (destruct N13 as (_ & fx & fy & F1 & F2 & F3); now apply (M fx fy)).
      destruct N13 as [F1 F2]. rewrite F1, F2 in U1. cbn in U1. injection U1 as <-. cbn. auto.
Qed.
Print Assumptions c87_movements.
(** A rolling speed that changes cannot be combined with relative loading: no time step is solved. *)
Theorem c87_relative_speed_refuted : forall w v n nt T ox oy i l mi tol rx g m prev,
  new_semi (Seq v) n nt T ox oy i l true mi tol rx g = Ok m -> exists m' e, semi_solve w m prev = (m', [], [], Err e).
Proof.
  intros w v n nt T ox oy i l mi tol rx g m prev N.
  apply new_semi_fields in N as (N0 & N1 & N2 & N3 & N4 & N5 & N6 & N7 & N8 & N9 & N10 & N11 & N12 & N13 & N14 & fn & F1 & F2).
  unfold semi_solve. destruct (get_num "time" prev) as [t|e]; [|eauto]. rewrite N2. destruct n as [|n]; [lia|]. cbn [semi_loop].
  destruct (update_semi m _ _ _ _) as [m1|e] eqn:E; [|eauto]. apply update_semi_ok in E as (? & ? & ? & ? & _ & _ & _ & _ & U).
  unfold update_speed in U. rewrite F2, N6 in U. discriminate.
Qed.
Print Assumptions c87_relative_speed_refuted.
(** With relative loading a constant load is not added to the load before the step. *)
Theorem c87_relative_load_refuted : forall w sp n nt T ox oy x mi tol rx g m prev m' log states r k st,
  new_semi sp n nt T ox oy None (Some (Const x)) true mi tol rx g = Ok m ->
  no_clash w -> distinct_entries w -> (forall x, In x semi_base_provides -> subs_leave w x) ->
  semi_solve w m prev = (m', log, states, r) -> nth_error states k = Some st -> holds_flag st "converged" true ->
  exists total, holds_num st "total_normal_load" total /\ Rabs (total / x - 1) < tol.
Proof.
  intros w sp n nt T ox oy x mi tol rx g m prev m' log states r k st N NC DE SL H E C.
  destruct (c50_converged _ _ _ _ _ _ _ _ _ _ _ _ _ _ _ _ _ _ _ _ _ _ N NC DE SL H E C) as (A & _).
  destruct (A _ eq_refl) as (load & total & M & T1 & _ & T2). cbn in M. subst load. eauto.
Qed.
Print Assumptions c87_relative_load_refuted.

(** *** C88: the film of the time step before *)

(** With the unified solver: the film thickness taken for the time step before is the one of the time
    step before plus the change of the gap of the undeformed surfaces since then. *)
Lemma unified_step sweep s d limit d' out : unified sweep s d limit = (d', Ok out) ->
  exists gap rho0 g0 p, dget "nd_gap" d = Some (SGrid gap) /\ (forall x, x <> "previous_nd_gap" -> x <> "previous_nd_density" -> dget x d' = dget x d) /\
    out = [("previous_nd_density", SGrid rho0); ("previous_nd_gap", SGrid g0); ("nd_pressure", SGrid p)] /\
    dget "previous_nd_gap" d' = Some (SGrid g0) /\
    (dmem "previous_nd_density" d = true -> d' = d) /\ (dmem "previous_nd_density" d = false -> g0 = gap).
Proof.
  unfold unified. destruct (get_grid "nd_gap" d) as [gap|] eqn:E1; [|discriminate]. destruct (get_grid "nd_pressure" d) as [p0|] eqn:E2; [|discriminate].
  apply get_grid_ok in E1. destruct (dmem "previous_nd_density" d) eqn:Em.
  - destruct (get_grid "previous_nd_density" d) as [rho0|] eqn:E3; [cbn [bind]|discriminate].
    destruct (get_grid "previous_nd_gap" d) as [g0|] eqn:E4; [cbn [bind]|discriminate]. destruct (sweep s d rho0 g0 limit) as [p|]; [|discriminate].
    cbn [bind]. intros H. injection H as <- <-. apply get_grid_ok in E4. exists gap, rho0, g0, p. repeat split; auto. discriminate.
  - destruct (get_grid "nd_density" d) as [rho|] eqn:E3; [cbn [bind]|discriminate].
    set (dd := dset "previous_nd_gap" (SGrid gap) (dset "previous_nd_density" (SGrid rho) d)) in *.
    assert (get_grid "previous_nd_density" dd = Ok rho) as -> by (apply get_grid_ok; unfold dd; rewrite !dget_dset; reflexivity). cbn [bind].
    assert (dget "previous_nd_gap" dd = Some (SGrid gap)) as E5 by (unfold dd; rewrite !dget_dset; reflexivity).
    assert (get_grid "previous_nd_gap" dd = Ok gap) as -> by (apply get_grid_ok; exact E5). cbn [bind].
    destruct (sweep s d rho gap limit) as [p|]; [|discriminate].
    cbn [bind]. intros H. injection H as <- <-. exists gap, rho, gap, p. repeat split; auto; try discriminate.
    intros x N1 N2. unfold dd. rewrite !dget_dset. destruct (String.eqb_spec x "previous_nd_gap"); [easy|]. destruct (String.eqb_spec x "previous_nd_density"); [easy|]. reflexivity.
Qed.
Lemma unified_polite w sweep : l_reynolds w = unified sweep -> distinct_entries w.
Proof.
  intros E s d limit d' out H. rewrite E in H. apply unified_step in H as (gap & rho0 & g0 & p & _ & _ & -> & _).
  cbn. repeat (apply NoDup_cons; [cbn; intuition discriminate|]). apply NoDup_nil.
Qed.
(** The film passed on within a time step is the one the time step started from. *)
Lemma film_passed w sweep m start ol oi oo k prev calls jt st off l i s p1 p2 d0 this load conv :
  l_reynolds w = unified sweep -> no_clash w ->
  ~ In "previous_nd_gap" (map fst (l_lubricant w)) -> ~ In "previous_nd_density" (map fst (l_lubricant w)) ->
  subs_leave w "previous_nd_gap" ->
  time_step_done w m start ol oi oo k prev calls jt st off l i s p1 p2 d0 this load conv ->
  exists gap0, dget "gap" d0 = Some (SGrid gap0) /\ holds_grid st "previous_nd_gap" (map (nd_g w) gap0).
Proof.
  intros EU NC NL1 NL2 SL D. assert (DE := unified_polite w sweep EU). pose proof D as (_ & _ & _ & _ & _ & S & _).
  apply start_ok in S as (h & p & u & gap0 & _ & _ & _ & _ & _ & _ & _ & S8 & _ & _ & S9); [|assumption]. exists gap0. split; [exact S8|].
  assert (S10 : dget "previous_nd_density" d0 = None) by (apply S9; [cbn; intuition discriminate|assumption]).
  apply done_entries in D; [|assumption|assumption].
  destruct D as (pre & c & last' & this0 & pp & q & h' & u' & u1 & u2 & gap' & DD & last & gapl & D1 & D2 & D3 & D4 & D5 & D6 & D7 & D8 & D9 & D10 & D11 & D12 & D13 & D14 & D15 & D16 & _ & D17 & Ec & Eg & J).
  set (inv := fun x : dict => (dget "previous_nd_density" x = None /\ dget "gap" x = Some (SGrid gap0)) \/
                  (dmem "previous_nd_density" x = true /\ dget "previous_nd_gap" x = Some (SGrid (map (nd_g w) gap0)))).
  assert (step : forall x g0 x' out, inv x -> dget "gap" x = Some (SGrid g0) -> unified sweep (speed_of (moved_semi m off l i s)) (given_of w x g0) (nd_max w) = (x', Ok out) ->
     dget "previous_nd_gap" out = Some (SGrid (map (nd_g w) gap0)) /\ dmem "previous_nd_density" out = true).
  { intros x g0 x' out Hx Hg Hu. apply unified_step in Hu as (gg & rho0 & gp & p' & V1 & V2 & -> & V4 & V5 & V6). cbn. split; [|reflexivity].
    unfold given_of in *. assert (Em : dmem "previous_nd_density" (dset "nd_gap" (SGrid (map (nd_g w) g0)) x) = dmem "previous_nd_density" x).
    { unfold dmem. rewrite dget_dset. reflexivity. }
    rewrite Em in *. rewrite dget_dset in V1. cbn in V1. injection V1 as <-. destruct Hx as [[X1 X2]|[X1 X2]].
    - assert (dmem "previous_nd_density" x = false) as X3 by (unfold dmem; now rewrite X1). rewrite (V6 X3). rewrite Hg in X2. injection X2 as ->. reflexivity.
    - rewrite (V5 X1), dget_dset in V4. cbn in V4. congruence. }
  assert (IL : inv last).
  { apply (J inv); [|left; auto]. intros it x cc thisx Hx Hr.
    apply round_ok in Hr as (g0 & x' & t0 & p' & q' & nd & u'' & hx & gp & t3 & p3 & gp3 & R1 & R2 & R3 & R4 & R5 & R6 & R7 & R8 & R9 & R10 & R11 & R12 & R13 & R14 & _ & old & R15 & R16).
    rewrite EU in R3. destruct (step x g0 x' t0 Hx R1 R3) as [Y1 Y2].
    assert (Z : forall y, y = "previous_nd_gap" \/ y = "previous_nd_density" -> dget y t3 = dget y t0).
    { intros y Hy. assert (~ In y (map fst (l_lubricant w))) by (destruct Hy as [->| ->]; assumption).
      rewrite (lubricant_frame w _ _ y R11) by assumption. unfold this2_of. rewrite !dget_dset. destruct Hy as [->| ->]; reflexivity. }
    right. unfold dmem in *. cbn [moved_semi m_load_controlled] in R16. destruct (m_load_controlled m).
    - destruct R16 as (u4 & g5 & _ & _ & ->). rewrite !dget_dset. cbn [String.eqb Ascii.eqb Bool.eqb]. rewrite !Z by auto. auto.
    - subst thisx. rewrite !dget_dset. cbn [String.eqb Ascii.eqb Bool.eqb]. rewrite !Z by auto. auto. }
  rewrite EU, Ec in D2. destruct (step last gapl last' this0 IL Eg D2) as [Y1 _].
  unfold holds_grid. rewrite (SL _ _ D14). rewrite D17 by (try discriminate; try assumption; cbn; intuition discriminate). exact Y1.
Qed.
Lemma nth_ext_map (f : R -> R) a b : length a = length b -> (forall i, (i < length a)%nat -> nth i a 0 = nth i b 0) -> map f a = map f b.
Proof. intros L H. f_equal. apply nth_ext with (d := 0) (d' := 0); assumption. Qed.
Theorem c88_previous_film : forall w sweep m prev m' log states r k before now jt jt' gap,
  l_reynolds w = unified sweep -> no_clash w -> ~ In "previous_nd_gap" (map fst (l_lubricant w)) -> ~ In "previous_nd_density" (map fst (l_lubricant w)) ->
  (forall x, In x ("previous_nd_gap" :: semi_base_provides) -> subs_leave w x) ->
  (forall n p u, all_values (fun x => nd_p w x = 0) p -> l_disp w n p = Ok u -> all_values (fun x => x = 0) u) ->
  semi_solve w m prev = (m', log, states, r) -> nth_error states k = Some before -> nth_error states (S k) = Some now ->
  holds_grid before "just_touching_gap" jt -> holds_grid now "just_touching_gap" jt' -> length jt = length jt' -> holds_grid before "gap" gap ->
  exists gap0, holds_grid now "previous_nd_gap" (map (nd_g w) gap0) /\ length gap0 = length gap /\
    forall i, (i < length gap)%nat -> nth i gap0 0 = nth i gap 0 + (nth i jt' 0 - nth i jt 0).
Proof.
  intros w sweep m prev m' log states r k bef now jt jt' gap EU NC NL1 NL2 SL RE H E1 E2 HJ HJ' LJ HG.
  assert (DE := unified_polite w sweep EU).
  destruct (c50_film w m prev m' log states r k bef NC DE (fun x I => SL x (or_intror I)) H E1) as (off & jt0 & q1 & q2 & _ & F).
  destruct F as (nd & h & u & u1 & u2 & gap' & F1 & F2 & F3 & F4 & F5 & F6 & F7 & F8 & F9 & F10 & F11 & F12 & F13 & F14 & F15 & F16 & F17).
  unfold holds_grid, holds_num in *. assert (jt0 = jt) as -> by congruence. assert (gap' = gap) as -> by congruence.
  unfold semi_solve in H. destruct (get_num "time" prev) as [t|] eqn:Et; [|injection H as <- <- <- <-; destruct k; discriminate].
  apply semi_states in H as (A & _ & _); [|discriminate].
  destruct (A _ now E2) as (off' & l' & ii & s & p1 & p2 & d0 & this & load & conv & calls & jt1 & prevn & B & C & D).
  cbn [before] in B. rewrite E1 in B. injection B as <-.
  destruct (film_passed _ _ _ _ _ _ _ _ _ _ _ _ _ _ _ _ _ _ _ _ _ _ EU NC NL1 NL2 (SL _ (or_introl eq_refl)) D) as (gap0 & G1 & G2).
  pose proof D as (_ & _ & _ & _ & _ & S & _). apply start_ok in S as (h' & p & u' & gp & S1 & S2 & S3 & S4 & S5 & S6 & S7 & S8 & S9 & S10 & _); [|assumption].
  assert (gp = gap0) as -> by congruence.
  assert (jt1 = jt') as ->.
  { apply done_entries in D; [|assumption|assumption].
    destruct D as (pre & c & last' & this0 & pp & q & hx & ux & u1' & u2' & gapx & DD & last & gapl & D1 & D2 & D3 & D4 & D5 & D6 & D7 & D8 & D9 & D10 & D11 & D12 & D13 & D14 & D15 & _).
    assert (X : subs_leave w "just_touching_gap") by (apply SL; cbn; tauto). rewrite (X _ _ D14) in HJ'. rewrite (D15 "just_touching_gap" (SGrid jt1)) in HJ' by (cbn; tauto). congruence. }
  unfold pressure_in, interference_in, holds_grid, holds_num in *.
  assert (h' = h) as -> by (destruct S1 as [S1|[S1 _]]; congruence). assert (p = map (dim_p w) nd) as -> by (destruct S2 as [S2|[S2 _]]; congruence).
  exists gap0. split; [exact G2|]. apply film_ok in S9 as (T1 & T2 & T3). split; [lia|]. intros i Hi. rewrite T3 by lia. rewrite F17 by lia.
  assert (nth i u' 0 = nth i u 0) as ->; [|lra].
  destruct (forallb (fun x => Reqb x 0) (map (nd_p w) (map (dim_p w) nd))) eqn:Ez.
  - subst u'. assert (Z : all_values (fun x => x = 0) u).
    { apply (RE (length jt) (map (dim_p w) nd)); [|assumption]. intros x Hx. rewrite forallb_forall in Ez. apply Reqb_true, Ez. now apply in_map. }
    rewrite (Z (nth i u 0)) by (apply nth_In; lia). destruct (nth_in_or_default i (map (fun _ : R => 0) jt') 0) as [I|I]; [apply in_map_iff in I as (z & Hz & _); now rewrite <- Hz|exact I].
  - destruct S10 as [_ S10]. rewrite <- LJ in S10. congruence.
Qed.
Print Assumptions c88_previous_film.
(** While the surfaces do not move this is the film of the time step before; when they do it is not, so
    that the squeeze term misses the movement. *)
Theorem c88_still : forall w sweep m prev m' log states r k before now jt ndg,
  l_reynolds w = unified sweep -> no_clash w -> ~ In "previous_nd_gap" (map fst (l_lubricant w)) -> ~ In "previous_nd_density" (map fst (l_lubricant w)) ->
  (forall x, In x ("previous_nd_gap" :: semi_base_provides) -> subs_leave w x) ->
  (forall n p u, all_values (fun x => nd_p w x = 0) p -> l_disp w n p = Ok u -> all_values (fun x => x = 0) u) ->
  semi_solve w m prev = (m', log, states, r) -> nth_error states k = Some before -> nth_error states (S k) = Some now ->
  holds_grid before "just_touching_gap" jt -> holds_grid now "just_touching_gap" jt -> holds_grid before "nd_gap" ndg ->
  holds_grid now "previous_nd_gap" ndg.
Proof.
  intros w sweep m prev m' log states r k bef now jt ndg EU NC NL1 NL2 SL RE H E1 E2 HJ HJ' HG.
  destruct (c50_film w m prev m' log states r k bef NC (unified_polite w sweep EU) (fun x I => SL x (or_intror I)) H E1) as (off & jt0 & q1 & q2 & _ & F).
  destruct F as (nd & h & u & u1 & u2 & gap & F1 & F2 & F3 & F4 & F5 & F6 & F7 & F8 & F9 & F10 & F11 & F12 & F13 & F14 & F15 & F16 & F17).
  destruct (c88_previous_film _ _ _ _ _ _ _ _ _ _ _ _ _ _ EU NC NL1 NL2 SL RE H E1 E2 HJ HJ' eq_refl F13) as (gap0 & G1 & G2 & G3).
  unfold holds_grid in *. rewrite F14 in HG. injection HG as <-. rewrite G1. do 2 f_equal. apply nth_ext_map; [exact G2|]. intros i Hi. rewrite G3 by lia. ring.
Qed.
Print Assumptions c88_still.
Theorem c88_moving_refuted : forall w sweep m prev m' log states r k before now jt jt' ndg,
  l_reynolds w = unified sweep -> no_clash w -> ~ In "previous_nd_gap" (map fst (l_lubricant w)) -> ~ In "previous_nd_density" (map fst (l_lubricant w)) ->
  (forall x, In x ("previous_nd_gap" :: semi_base_provides) -> subs_leave w x) ->
  (forall n p u, all_values (fun x => nd_p w x = 0) p -> l_disp w n p = Ok u -> all_values (fun x => x = 0) u) ->
  (forall x y, nd_g w x = nd_g w y -> x = y) ->
  semi_solve w m prev = (m', log, states, r) -> nth_error states k = Some before -> nth_error states (S k) = Some now ->
  holds_grid before "just_touching_gap" jt -> holds_grid now "just_touching_gap" jt' -> length jt = length jt' -> jt <> jt' ->
  holds_grid before "nd_gap" ndg -> ~ holds_grid now "previous_nd_gap" ndg.
Proof.
  intros w sweep m prev m' log states r k bef now jt jt' ndg EU NC NL1 NL2 SL RE INJ H E1 E2 HJ HJ' LJ NE HG HN.
  destruct (c50_film w m prev m' log states r k bef NC (unified_polite w sweep EU) (fun x I => SL x (or_intror I)) H E1) as (off & jt0 & q1 & q2 & _ & F).
  destruct F as (nd & h & u & u1 & u2 & gap & F1 & F2 & F3 & F4 & F5 & F6 & F7 & F8 & F9 & F10 & F11 & F12 & F13 & F14 & F15 & F16 & F17).
  destruct (c88_previous_film _ _ _ _ _ _ _ _ _ _ _ _ _ _ EU NC NL1 NL2 SL RE H E1 E2 HJ HJ' LJ F13) as (gap0 & G1 & G2 & G3).
  unfold holds_grid in *. rewrite F14 in HG. injection HG as <-. rewrite G1 in HN. injection HN as HN. apply NE.
  assert (jt0 = jt) as -> by congruence. apply nth_ext with (d := 0) (d' := 0); [exact LJ|]. intros i Hi.
  assert (nth i gap0 0 = nth i gap 0). { apply INJ. rewrite <- (map_nth (nd_g w) gap0 0 i), <- (map_nth (nd_g w) gap 0 i), HN. reflexivity. }
  rewrite G3 in H0 by lia. lra.
Qed.
Print Assumptions c88_moving_refuted.

(** *** C89: bounds of the pressures *)

(** With two influence matrix materials no reported pressure is more than the smaller maximum load, whatever
    the solver gives. *)
Theorem c89_maximum : forall w m prev m' log states r k st M nd,
  no_clash w -> distinct_entries w -> subs_leave w "nd_pressure" -> l_max w = Some M ->
  semi_solve w m prev = (m', log, states, r) -> nth_error states k = Some st -> holds_grid st "nd_pressure" nd -> all_values (fun x => x <= nd_p w M) nd.
Proof.
  intros w m prev m' log states r k st M nd NC DE SL LM H E HN x Hx. unfold semi_solve in H.
  destruct (get_num "time" prev) as [t|] eqn:Et; [|injection H as <- <- <- <-; destruct k; discriminate].
  apply semi_states in H as (A & _ & _); [|discriminate].
  destruct (A _ st E) as (off' & l' & ii & s & p1 & p2 & d0 & this & load & conv & calls & jt1 & prevn & B & C & D).
  apply done_entries in D; [|assumption|assumption].
  destruct D as (pre & c & last' & this0 & pp & q & hx & ux & u1' & u2' & gapx & DD & last & gapl & D1 & D2 & D3 & D4 & D5 & D6 & D7 & D8 & D9 & D10 & D11 & D12 & D13 & D14 & D15 & _).
  unfold holds_grid in HN. rewrite (SL _ _ D14) in HN. erewrite (D15 "nd_pressure") in HN by (cbn; right; left; reflexivity). injection HN as <-.
  apply in_map_iff in Hx as ((a & b) & <- & _). unfold damped, nd_max. rewrite LM. cbn. destruct (Rle_dec _ _); lra.
Qed.
Print Assumptions c89_maximum.
(** Pressures stay non negative if the solver gives non negative pressures and those before were. *)
Theorem c89_non_negative : forall w sp n nt T ox oy i l rel mi tol rx g m prev m' log states r k st,
  new_semi sp n nt T ox oy i l rel mi tol rx g = Ok m ->
  no_clash w -> distinct_entries w -> polite w -> (forall x, In x semi_base_provides -> subs_leave w x) ->
  (forall s d lim d' out q, l_reynolds w s d lim = (d', Ok out) -> holds_grid out "nd_pressure" q -> all_values (fun x => 0 <= x) q) ->
  (forall x, 0 <= x -> 0 <= nd_p w x) -> (forall x, 0 <= x -> 0 <= dim_p w x) -> (forall M, l_max w = Some M -> 0 <= M) ->
  (forall p, holds_grid prev "pressure" p -> all_values (fun x => 0 <= x) p) ->
  semi_solve w m prev = (m', log, states, r) -> nth_error states k = Some st ->
  exists nd p, holds_grid st "nd_pressure" nd /\ holds_grid st "pressure" p /\ all_values (fun x => 0 <= x) nd /\ all_values (fun x => 0 <= x) p.
Proof.
  intros w sp n nt T ox oy i l rel mi tol rx g m prev m' log states r k st N NC DE PO SL SP NP DP MP PP H E. unfold semi_solve in H.
  apply new_semi_fields in N as (N0 & N1 & N2 & N3 & N4 & N5 & N6 & N7 & N8 & N9 & N10 & _).
  destruct (get_num "time" prev) as [t|] eqn:Et; [|injection H as <- <- <- <-; destruct k; discriminate].
  apply semi_states in H as (A & _ & _); [|discriminate].
  assert (DM : forall p q, all_values (fun x => 0 <= x) p -> all_values (fun x => 0 <= x) q ->
     all_values (fun x => 0 <= x) (map (fun xy => damped (nd_max w) (relaxation m) (fst xy) (snd xy)) (combine p q))).
  { intros p q Hp Hq x Hx. apply in_map_iff in Hx as ((a & b) & <- & Hab). pose proof (Hp a (in_combine_l _ _ _ _ Hab)). pose proof (Hq b (in_combine_r _ _ _ _ Hab)).
    cbn [fst snd]. unfold damped. rewrite N9. assert (0 <= a + rx * (b - a)).
    { replace (a + rx * (b - a)) with ((1 - rx) * a + rx * b) by ring. apply Rplus_le_le_0_compat; apply Rmult_le_pos; lra. }
    destruct (nd_max w) as [M|] eqn:EM; [|assumption]. destruct (Rle_dec _ _); [assumption|]. unfold nd_max in EM. destruct (l_max w) as [M'|] eqn:EM'; [|discriminate].
    injection EM as <-. apply NP, MP. reflexivity. }
  assert (STEP : forall kk prevn st off l' ii s p1 p2 d0 this load conv calls jt, (forall p, holds_grid prevn "pressure" p -> all_values (fun x => 0 <= x) p) ->
    time_step_done w m t (match get_num "total_normal_load" prev with Ok x => x | Err _ => 0 end) (match get_num "interference" prev with Ok x => x | Err _ => 0 end)
      (match get_pair "off_set" prev with Some o => o | None => (0, 0) end) kk prevn calls jt st off l' ii s p1 p2 d0 this load conv ->
    exists nd p, holds_grid st "nd_pressure" nd /\ holds_grid st "pressure" p /\ all_values (fun x => 0 <= x) nd /\ all_values (fun x => 0 <= x) p).
  { intros kk prevn st' off l' ii s p1 p2 d0 this load conv calls jt HP D. pose proof D as (_ & _ & _ & _ & _ & S & _).
    apply start_ok in S as (h & p & u & gap & S1 & S2 & S3 & _); [|assumption].
    assert (P0 : all_values (fun x => 0 <= x) (map (nd_p w) p)).
    { intros x Hx. apply in_map_iff in Hx as (y & <- & Hy). apply NP. destruct S2 as [S2|[_ ->]]; [now apply (HP p)|]. apply in_map_iff in Hy as (z & <- & _). lra. }
    apply done_entries in D; [|assumption|assumption].
    destruct D as (pre & c & last' & this0 & pp & q & h' & u' & u1 & u2 & gap' & DD & last & gap0 & D1 & D2 & D3 & D4 & D5 & D6 & D7 & D8 & D9 & D10 & D11 & D12 & D13 & D14 & D15 & _ & _ & _ & Ec & Eg & J).
    assert (Jl : exists p', dget "nd_pressure" last = Some (SGrid p') /\ all_values (fun x => 0 <= x) p').
    { apply (J (fun x => exists p', dget "nd_pressure" x = Some (SGrid p') /\ all_values (fun x => 0 <= x) p')); [|eauto].
      intros it x cc thisx (p' & Hx & Hp') Hr. apply round_ok in Hr as (g0 & x' & t0 & p'' & q' & nd & u'' & hx & gp & t3 & p3 & gp3 & R1 & R2 & R3 & R4 & R5 & R6 & R7 & R8 & R9 & R10 & R11 & R12 & R13 & R14 & _ & old & R15 & R16).
      cbn [moved_semi relaxation m_load_controlled] in R7, R16.
      assert (p'' = p') as ->.
      { pose proof (PO (speed_of (moved_semi m off l' ii s)) (given_of w x g0) (nd_max w) "nd_pressure" ltac:(cbn; tauto)) as Q. rewrite R3 in Q. cbn [fst] in Q.
        unfold given_of in Q. rewrite dget_dset in Q. cbn in Q. congruence. }
      exists nd. split.
      - destruct (this2_get t0 jt nd (map (dim_p w) nd) u'' gp) as (_ & _ & _ & T4 & _).
        assert (X : dget "nd_pressure" t3 = Some (SGrid nd)) by (rewrite (clash_frame w _ _ _ NC R11) by (cbn; tauto); exact T4).
        destruct (m_load_controlled m).
        + destruct R16 as (u4 & g5 & _ & _ & ->). rewrite !dget_dset. cbn [String.eqb Ascii.eqb Bool.eqb]. exact X.
        + subst thisx. rewrite !dget_dset. cbn [String.eqb Ascii.eqb Bool.eqb]. exact X.
      - rewrite R7. apply DM; [exact Hp'|]. eapply SP; [exact R3|]. apply get_grid_ok in R4. rewrite dget_dset in R4. exact R4. }
    destruct Jl as (p' & X1 & X2).
    assert (pp = p') as ->.
    { pose proof (PO (speed_of (moved_semi m off l' ii s)) c (nd_max w) "nd_pressure" ltac:(cbn; tauto)) as Q. rewrite D2 in Q. cbn [fst] in Q.
      rewrite Ec in Q. unfold given_of in Q. rewrite dget_dset in Q. cbn in Q. congruence. }
    assert (Q : all_values (fun x => 0 <= x) q) by (eapply SP; [exact D2|exact D4]).
    eexists _, _. split; [|split; [|split; [apply (DM p' q); assumption|]]].
    - unfold holds_grid. rewrite (SL "nd_pressure" ltac:(cbn; tauto) _ _ D14). apply D15. cbn. tauto.
    - unfold holds_grid. rewrite (SL "pressure" ltac:(cbn; tauto) _ _ D14). apply D15. cbn. tauto.
    - intros x Hx. apply in_map_iff in Hx as (y & <- & Hy). apply DP. now apply (DM p' q). }
  revert st E. induction k as [|k IH]; intros st E;
  destruct (A _ st E) as (off & l' & ii & s & p1 & p2 & d0 & this & load & conv & calls & jt & prevn & B & C & D); cbn [before] in B.
  - injection B as <-. eapply STEP; [exact PP|exact D].
  - eapply STEP; [|exact D]. intros p Hp. destruct (IH prevn B) as (nd & p' & _ & Q1 & _ & Q2). unfold holds_grid in *. assert (p = p') as -> by congruence. exact Q2.
Qed.
Print Assumptions c89_non_negative.

(** *** C90: the announced entries *)

(** If the solver returns what it announces and the data check passes, each reported state has exactly
    the announced entries before the sub models. *)
Theorem c90_announced : forall w m prev m' log states r k st provided required,
  no_clash w -> distinct_entries w -> (forall d d', l_sub_models w d = Ok d' -> d' = d) ->
  (forall s d lim d' out, l_reynolds w s d lim = (d', Ok out) -> forall x, In x (map fst out) <-> In x provided) ->
  ~ In "total_displacement_z" provided -> semi_data_check true required (Some (l_lubricant w)) = Ok tt ->
  semi_solve w m prev = (m', log, states, r) -> nth_error states k = Some st ->
  forall x, In x (entries st) <-> In x (semi_provides provided required (l_lubricant w)).
Proof.
  intros w m prev m' log states r k st provided required NC DE SM SP NZ DC H E x. unfold semi_solve in H.
  destruct (get_num "time" prev) as [t|] eqn:Et; [|injection H as <- <- <- <-; destruct k; discriminate].
  apply semi_states in H as (A & _ & _); [|discriminate].
  destruct (A _ st E) as (off' & l' & ii & s & p1 & p2 & d0 & this & load & conv & calls & jt1 & prevn & B & C & D).
  apply done_entries in D; [|assumption|assumption].
  destruct D as (pre & c & last' & this0 & pp & q & hx & ux & u1' & u2' & gapx & DD & last & gapl & D1 & D2 & D3 & D4 & D5 & D6 & D7 & D8 & D9 & D10 & D11 & D12 & D13 & D14 & D15 & _ & D17 & _).
  apply SM in D14 as ->. unfold entries. rewrite D17. unfold semi_provides. rewrite !in_supdate, (SP _ _ _ _ _ D2).
  assert (RQ : In x required -> In x (map fst (l_lubricant w)) \/ In x semi_base_provides).
  { intros Hx. unfold semi_data_check in DC. destruct (in_dec string_dec x (map fst (l_lubricant w))) as [|N1]; [auto|].
    destruct (in_dec string_dec x ["nd_gap"; "nd_pressure"]) as [I|N2]; [right; cbn in I |- *; tauto|].
    assert (In x (sdiff (sdiff required (map fst (l_lubricant w))) ["nd_gap"; "nd_pressure"])) by (rewrite !in_sdiff; auto).
    destruct (sdiff (sdiff required (map fst (l_lubricant w))) ["nd_gap"; "nd_pressure"]); [contradiction|discriminate]. }
  assert (ZL : ~ In "total_displacement_z" (map fst (l_lubricant w))) by (apply NC; cbn; tauto).
  split; [tauto|]. intros [[[I|I]|I]|I].
  - auto.
  - right. split; [intros ->; contradiction|auto].
  - destruct (RQ I); [|auto]. right. split; [intros ->; contradiction|auto].
  - right. split; [intros ->; contradiction|auto].
Qed.
Print Assumptions c90_announced.
