(** Which solution the results of a height optimisation function and of a step are, when the last
    call did not fail. *)
From Coq Require Import String List Bool Arith Reals Lia Lra.
From Verif Require Import HeightModel StepModel HeightSpec StepSpec PyProofs HeightProofs StepProofs.
Import ListNotations.
Local Open Scope string_scope.
Local Open Scope R_scope.

(** The results are those of the free contact solution at their interference. *)
Definition solved_free (k : hconfig) (f : full_results) : Prop :=
  let h := r_interference f in
  exists l, free_solution k h = (l, false) /\
    f = (let full := scatter (touching k h) l in
         Full full (disp_total k full) (disp1 k full) (disp2 k full) (map (fun x => Rltb 0 x) full) (rsum l * area k) h).
Definition honest (k : hconfig) (s : hstate) : Prop :=
  nodes_set s = false /\
  (last_failed s = false ->
   match stored_results s with
   | None => True
   | Some (InDomain loads d h) => d = touching k h /\ free_solution k h = (loads, false) /\ nodes s = Some d
   | Some (Final f) => solved_free k f
   end).
Lemma honest_change k s l : honest k (change_load s l None).
Proof. split; [reflexivity|]. intros _. exact I. Qed.
Lemma evaluate_honest k s h : honest k s ->
  In h (heights s) \/ existsb (fun b => b) (touching k h) = true \/ stored_results s = None ->
  honest k (fst (evaluate k s h)).
Proof.
  intros [N H] C. destruct (in_dec Req_EM_T h (heights s)) as [Hi|Hi]; [rewrite evaluate_old by exact Hi; split; assumption|].
  destruct C as [C|C]; [contradiction|]. split; [rewrite (proj1 (evaluate_keeps k s h)); exact N|].
  pose proof (evaluate_new k s h Hi) as E. unfold outcome, dom_of in E. rewrite N in E. cbv iota in E.
  destruct (existsb (fun b => b) (touching k h)) eqn:T.
  - destruct (solver k (touching k h) _) as [loads failed] eqn:Es. cbn in E. rewrite E. cbn [fst last_failed stored_results nodes].
    rewrite add_stored, add_nodes. cbn [stored_results nodes]. intros ->. split; [reflexivity|]. split; [exact Es|reflexivity].
  - destruct C as [C|C]; [discriminate|]. cbn in E. rewrite E. cbn [fst stored_results]. rewrite add_stored. cbn [stored_results]. rewrite C. auto.
Qed.
Lemma visit_honest k hs : In 0 (gap k) -> (forall x, In x hs -> 0 <= x) -> forall s, In 0 (heights s) -> honest k s -> honest k (visit k s hs).
Proof.
  intros G. induction hs as [|h hs IH]; intros P s Z H; cbn; [exact H|]. apply IH.
  - intros x Hx. apply P. now right.
  - now apply evaluate_heights.
  - apply evaluate_honest; [exact H|]. destruct (Req_dec h 0) as [->|N]; [now left|]. right. left.
    apply existsb_exists. exists true. split; [|reflexivity]. unfold touching. apply in_map_iff. exists 0. split; [|exact G].
    apply Rltb_true. specialize (P h (or_introl eq_refl)). lra.
Qed.
Lemma read_honest k s f : honest k s -> last_failed s = false -> snd (read_results k s) = Ok f -> solved_free k f.
Proof.
  intros [_ H] F. specialize (H F). unfold read_results. destruct (stored_results s) as [[loads d h|f']|]; cbn; intros E; [|now injection E as <-|discriminate].
  destruct H as (-> & H2 & H3). rewrite H3, refill_same in E. cbn in E. injection E as <-. exists loads. cbn. split; [exact H2|reflexivity].
Qed.

(** A new evaluation with contact, whatever was before. *)
Lemma evaluate_fresh k s h : nodes_set s = false -> ~ In h (heights s) -> existsb (fun b => b) (touching k h) = true ->
  honest k (fst (evaluate k s h)) /\
  (forall f, snd (read_results k (fst (evaluate k s h))) = Ok f -> r_interference f = h /\ snd (evaluate k s h) = r_total_load f - set_load s).
Proof.
  intros N Hi T. pose proof (evaluate_new k s h Hi) as E. pose proof (proj1 (evaluate_keeps k s h)) as Nk. unfold outcome, dom_of in E. rewrite N in E, Nk.
  cbv iota in E. rewrite T in E. destruct (solver k (touching k h) _) as [loads failed] eqn:Es. cbn in E. rewrite E in Nk |- *. cbn [fst snd] in Nk |- *. split.
  - split; [exact Nk|].
    cbn [last_failed stored_results nodes]. rewrite add_stored, add_nodes. cbn [stored_results nodes]. intros ->. split; [reflexivity|]. split; [exact Es|reflexivity].
  - intros f R. unfold read_results in R. cbn [stored_results nodes] in R. rewrite add_stored, add_nodes in R. cbn [stored_results nodes] in R.
    rewrite refill_same in R. cbn in R. injection R as <-. split; reflexivity.
Qed.
Lemma free_nodes k os : forall s, nodes_set s = false -> Forall free_op os -> nodes_set (hrun k s os) = false.
Proof.
  induction os as [|o os IH]; intros s N F; [exact N|]. inversion F as [|? ? Fo Fs]; subst. cbn. apply IH; [|exact Fs]. destruct o as [h|l n| |]; cbn.
  - rewrite (proj1 (evaluate_keeps k s h)). exact N.
  - destruct n; [destruct Fo|reflexivity].
  - unfold clear_cache. destruct (cache_max k); exact N.
  - rewrite (proj1 (proj2 (proj2 (read_keeps k s)))). exact N.
Qed.

(** Static steps. *)
Lemma static_honest w st prev s : static_contact w st prev = Ok s -> holds_flag s "converged" true ->
  (load_controlled st = true -> (forall g p1 p2, gap_at w (off_set st) = Ok (g, p1, p2) -> In 0 (gap (config w (adhesion st) g))) /\ stays_above w) ->
  exists g p1 p2 t f, gap_at w (off_set st) = Ok (g, p1, p2) /\ s = static_state st g p1 p2 t f true /\
    solved_free (config w (adhesion st) g) f.
Proof.
  intros H Cv W. apply static_unpack in H as (g & p1 & p2 & t & f & conv & s2 & G & T & _ & -> & R & C). cbv zeta in C.
  assert (Ec : conv = true) by (unfold holds_flag in Cv; cbn in Cv; now injection Cv as ->). subst conv.
  exists g, p1, p2, t, f. split; [exact G|]. split; [reflexivity|].
  destruct (load_controlled st) eqn:El.
  - destruct (W eq_refl) as [W1 W2]. destruct C as (load & r & _ & Er & -> & Cl). symmetry in Cl. apply andb_true_iff in Cl as [_ Cl]. apply negb_true_iff in Cl.
    eapply read_honest; [|exact Cl|exact R]. apply visit_honest; [exact (W1 _ _ _ G)|exact (W2 _ _ _ _ _ Er)|apply new_heights|apply honest_change].
  - destruct C as (h & _ & -> & Cl). symmetry in Cl. apply negb_true_iff in Cl.
    eapply read_honest; [|exact Cl|exact R]. apply evaluate_honest; [apply honest_change|]. right. right. reflexivity.
Qed.
(** With a prescribed interference the results are those of this interference. *)
Lemma solved_height k s h f : stored_results s = None -> snd (read_results k (fst (evaluate k s h))) = Ok f -> r_interference f = h.
Proof.
  intros N R. unfold read_results in R. unfold evaluate in R. destruct (rmem h (heights s)); cbn [fst] in R; [rewrite N in R; discriminate|].
  revert R. match goal with |- context [existsb _ ?d] => set (dom := d) end. destruct (existsb (fun b => b) dom).
  - match goal with |- context [solver k ?a ?b] => destruct (solver k a b) as [loads failed] end. cbn [fst stored_results nodes]. rewrite add_stored, add_nodes. cbn [stored_results nodes].
    rewrite refill_same. cbn. intros E. now injection E as <-.
  - cbn [fst stored_results]. rewrite add_stored. cbn [stored_results]. rewrite N. discriminate.
Qed.
Lemma static_height w st prev s : static_contact w st prev = Ok s -> load_controlled st = false ->
  exists h, aim st prev "interference" (set_interf st) = Ok h /\ holds_num s "interference" h.
Proof.
  intros H El. apply static_unpack in H as (g & p1 & p2 & t & f & conv & s2 & G & T & _ & -> & R & C). cbv zeta in C.
  rewrite El in C. destruct C as (h & A & -> & _). exists h. split; [exact A|]. unfold holds_num. cbn. do 2 f_equal.
  eapply solved_height; [|exact R]. reflexivity.
Qed.

(** Sub steps of a quasi static step. *)
Lemma sub_step_honest w q g init q2 f h : solve_sub_step w q g init None = (q2, Ok (f, h, true)) ->
  (q_load_controlled q = true -> (forall k s0, opt_for w q g init (sub_load q) = Ok (k, s0) -> In 0 (heights s0) /\ In 0 (gap k)) /\ stays_above w) ->
  exists k s0, opt_for w q g init (sub_load q) = Ok (k, s0) /\ solved_free k f /\ (q_load_controlled q = false -> h = r_interference f).
Proof.
  unfold solve_sub_step. intros H W. fold (sub_load q) in H. destruct (opt_for w q g init (sub_load q)) as [[k s0]|e]; [|discriminate].
  exists k, s0. split; [reflexivity|]. destruct (q_load_controlled q) eqn:El.
  - split; [|discriminate]. destruct (W eq_refl) as [W1 W2]. destruct (W1 k s0 eq_refl) as [Z G].
    match type of H with context [match ?x with Ok _ => _ | Err _ => _ end] => destruct x as [[lo hi]|] end; [|discriminate].
    destruct (root_scalar w k (change_load s0 (sub_load q) None) (lo, hi)) as [hs [x|]] eqn:Ers; [|discriminate].
    set (s2 := visit k (change_load s0 (sub_load q) None) hs) in *.
    assert (V : honest k s2).
    { unfold s2. apply visit_honest; [exact G| |exact Z|apply honest_change]. exact (W2 _ _ _ _ _ Ers). }
    set (s3 := match stored_results s2 with None => fst (evaluate k s2 ((lo + hi) / 2)) | Some _ => s2 end) in *.
    assert (V3 : honest k s3).
    { unfold s3. destruct (stored_results s2) eqn:E2; [exact V|]. apply evaluate_honest; [exact V|]. auto. }
    destruct (read_results k s3) as [s4 res] eqn:Er. injection H as <- E. destruct res as [f'|]; [cbn in E|discriminate].
    injection E as <- _ C. apply andb_true_iff in C as [_ C]. apply negb_true_iff in C.
    eapply read_honest; [exact V3|exact C|]. now rewrite Er.
  - match type of H with context [read_results k ?x] => set (s2 := x) in *; destruct (read_results k s2) as [s4 res] eqn:Er end.
    injection H as <- E. destruct res as [f'|]; [cbn in E|discriminate]. injection E as <- <- C. apply negb_true_iff in C.
    assert (R : snd (read_results k s2) = Ok f') by (now rewrite Er). split.
    + eapply read_honest; [|exact C|exact R]. apply evaluate_honest; [apply honest_change|]. right. right. reflexivity.
    + intros _. symmetry. eapply solved_height; [|exact R]. reflexivity.
Qed.
Lemma quasi_honest w n nt T ox oy i l rel adh unl fast imp up q prev q' states r k st :
  new_quasi n nt T ox oy i l rel adh unl fast imp up = Ok q -> quasi_solve w q prev = (q', states, r) -> nth_error states k = Some st ->
  (i = None -> (forall off g p1 p2, gap_at w off = Ok (g, p1, p2) -> In 0 (gap (config w adh g))) /\ stays_above w) ->
  exists off g p1 p2 new f h conv time, gap_at w off = Ok (g, p1, p2) /\ sub_models w (sub_state q g p1 p2 off new f h conv time) = Ok st /\
    (conv = true -> solved_free (config w adh g) f) /\ (conv = true -> i <> None -> h = r_interference f).
Proof.
  intros N H E W. apply new_quasi_fields in N as (N0 & N1 & N2 & N3 & N4 & N5 & N6 & N7 & N8 & N9 & N10 & _). unfold quasi_solve in H.
  destruct (get_num "time" prev) as [t|] eqn:Et; [|injection H as <- <- <-; destruct k; discriminate].
  destruct (fast_ld q); [injection H as <- <- <-; destruct k; discriminate|].
  apply loop_states in H as (A & B & _); [|now rewrite N2|discriminate|intros kk s0 _ C; rewrite N8 in C; discriminate].
  destruct (A k st E) as (off & l' & ii & o & g & p1 & p2 & f & h & conv & q2 & kk & s0 & _ & _ & _ & G & O1 & K & S & M).
  eexists _, g, p1, p2, _, f, h, conv, _. split; [exact G|]. split; [exact M|]. rewrite N5 in K. destruct K as [-> Z].
  assert (Q : conv = true -> solved_free (config w adh g) f /\ (i <> None -> h = r_interference f)).
  { intros ->. apply sub_step_honest in S as (k2 & s02 & O2 & S1 & S2).
    - rewrite O1 in O2. injection O2 as <- <-. split; [exact S1|]. intros Hi. apply S2. cbn [moved q_load_controlled]. rewrite N10. destruct i; [reflexivity|congruence].
    - cbn [moved q_load_controlled]. rewrite N10. intros L. destruct i; [discriminate|]. destruct (W eq_refl) as [W1 W2]. split; [|exact W2].
      intros k3 s3 O3. rewrite O1 in O3. injection O3 as <- <-. split; [exact Z|exact (W1 _ _ _ _ G)]. }
  split; [intros C; apply (Q C)|intros C; apply (Q C)].
Qed.
