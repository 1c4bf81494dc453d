(** Lemmas for StepTheorems.v. *)
From Coq Require Import String List Bool Arith Lia Reals Lra Sorted Permutation.
From Verif Require Import HeightModel StepModel HeightSpec StepSpec PyProofs HeightProofs.
Import ListNotations.
Local Open Scope string_scope.
Local Open Scope R_scope.

(** ** Interpolation *)
Lemma sort_in_perm x l : Permutation (x :: l) (sort_in x l).
Proof.
  induction l as [|y l IH]; cbn; [constructor; constructor|]. destruct (Rltb (fst y) (fst x)); [|constructor; reflexivity].
  rewrite perm_swap. now constructor.
Qed.
Lemma sort_perm l : Permutation l (sort_points l).
Proof. induction l as [|x l IH]; cbn; [constructor|]. rewrite <- sort_in_perm. now constructor. Qed.
Definition lt_fst (a b : R * R) : Prop := fst a < fst b.
Lemma sort_in_sorted x l : StronglySorted lt_fst l -> ~ In (fst x) (map fst l) -> StronglySorted lt_fst (sort_in x l).
Proof.
  induction l as [|y l IH]; cbn; intros S N; [constructor; constructor|]. inversion S as [|? ? S1 S2]; subst.
  destruct (Rltb (fst y) (fst x)) eqn:E.
  - apply Rltb_true in E. constructor; [apply IH; tauto|]. rewrite Forall_forall in *. intros z Hz.
    apply (Permutation_in z (Permutation_sym (sort_in_perm x l))) in Hz. destruct Hz as [<-|Hz]; [exact E|now apply S2].
  - apply Rltb_false in E. assert (fst x < fst y) by (assert (fst y <> fst x) by tauto; lra). constructor; [exact S|].
    rewrite Forall_forall in *. intros z [<-|Hz]; [exact H|]. specialize (S2 z Hz). unfold lt_fst in *. lra.
Qed.
Lemma sort_sorted l : NoDup (map fst l) -> StronglySorted lt_fst (sort_points l).
Proof.
  induction l as [|x l IH]; cbn; intros N; [constructor|]. inversion N; subst. apply sort_in_sorted; [auto|].
  intros C. apply H1. apply (Permutation_in (fst x) (Permutation_map fst (Permutation_sym (sort_perm l)))). exact C.
Qed.
Lemma segment_line t0 p0 t1 p1 t : (p1 - p0) / (t1 - t0) * (t - t0) + p0 = line t0 p0 t1 p1 t.
Proof. unfold line, Rdiv. ring. Qed.
Lemma line_start t0 p0 t1 p1 : line t0 p0 t1 p1 t0 = p0.
Proof. unfold line, Rdiv. ring. Qed.
Lemma line_end t0 p0 t1 p1 : t0 < t1 -> line t0 p0 t1 p1 t1 = p1.
Proof. intros. unfold line. field. lra. Qed.
Lemma segment_at l : StronglySorted lt_fst l -> forall a, In a l -> segment l (fst a) = snd a.
Proof.
  induction l as [|[t0 p0] l IH]; intros S a I; [destruct I|]. inversion S as [|? ? S1 S2]; subst.
  destruct l as [|[t1 p1] l].
  - destruct I as [<-|[]]. reflexivity.
  - assert (L : t0 < t1) by (inversion S2; subst; assumption). cbn [segment]. destruct I as [<-|I].
    + cbn. assert (Rltb t1 t0 = false) as -> by (apply Rltb_false; lra). rewrite segment_line, line_start. now destruct l.
    + destruct I as [<-|I].
      * cbn. assert (Rltb t1 t1 = false) as -> by (apply Rltb_false; lra). rewrite segment_line, line_end by exact L. now destruct l.
      * destruct l as [|b l]; [destruct I|]. inversion S1 as [|? ? S3 S4]; subst. rewrite Forall_forall in S4.
        assert (lt_fst (t1, p1) a) by auto. unfold lt_fst in H. cbn [fst] in H.
        assert (Rltb t1 (fst a) = true) as -> by now apply Rltb_true. apply IH; [exact S1|]. now right.
Qed.
Lemma sorted_fst_inj l : StronglySorted lt_fst l -> forall a b, In a l -> In b l -> fst a = fst b -> a = b.
Proof.
  induction 1 as [|x l S IH F]; intros a b Ia Ib E; [destruct Ia|]. rewrite Forall_forall in F.
  destruct Ia as [<-|Ia], Ib as [<-|Ib]; auto.
  - specialize (F b Ib). unfold lt_fst in F. lra.
  - specialize (F a Ia). unfold lt_fst in F. lra.
Qed.
Lemma segment_between l : StronglySorted lt_fst l -> forall a b t, In a l -> In b l -> fst a < fst b ->
  (forall c, In c l -> ~ (fst a < fst c < fst b)) -> fst a <= t <= fst b ->
  segment l t = line (fst a) (snd a) (fst b) (snd b) t.
Proof.
  induction l as [|[t0 p0] l IH]; intros S a b t Ia Ib L N T; [destruct Ia|]. inversion S as [|? ? S1 S2]; subst.
  rewrite Forall_forall in S2.
  assert (Ib' : In b l).
  { destruct Ib as [<-|Ib]; [|exact Ib]. destruct Ia as [<-|Ia]; [lra|]. specialize (S2 a Ia). unfold lt_fst in S2. cbn [fst] in *. lra. }
  destruct l as [|[t1 p1] l]; [destruct Ib'|]. assert (L1 : t0 < t1) by (apply (S2 (t1, p1)); now left).
  assert (L2 : forall c, In c l -> t1 < fst c).
  { inversion S1; subst. rewrite Forall_forall in *. intros c Hc. now apply (H2 c). }
  destruct Ia as [<-|Ia].
  - cbn [fst snd] in *. assert (b = (t1, p1)) as ->.
    { destruct Ib' as [<-|Ib']; [reflexivity|]. exfalso. apply (N (t1, p1)); [right; now left|]. cbn. specialize (L2 b Ib'). lra. }
    cbn [segment]. cbn [fst snd] in *. assert (Rltb t1 t = false) as -> by (apply Rltb_false; lra).
    rewrite segment_line. now destruct l.
  - assert (Lb : t1 <= fst a) by (destruct Ia as [<-|Ia]; [cbn; lra|left; auto]).
    destruct l as [|c l]; [destruct Ia as [<-|[]], Ib' as [<-|[]]; lra|].
    change (segment ((t0, p0) :: (t1, p1) :: c :: l) t) with
      (if Rltb t1 t then segment ((t1, p1) :: c :: l) t else (p1 - p0) / (t1 - t0) * (t - t0) + p0).
    destruct (Rltb t1 t) eqn:E.
    + apply IH; auto. intros d Hd. apply N. now right.
    + apply Rltb_false in E. assert (t = t1) as -> by lra. assert (fst a = t1) as Ea by lra.
      assert (a = (t1, p1)) as -> by (apply (sorted_fst_inj _ S1); auto; now left).
      cbn [fst snd]. now rewrite line_start, segment_line, line_end.
Qed.
Lemma sorted_hd l : StronglySorted lt_fst l -> forall a, In a l -> fst (hd (0, 0) l) <= fst a.
Proof.
  intros S a I. destruct l as [|b l]; [destruct I|]. cbn. inversion S; subst. rewrite Forall_forall in *.
  destruct I as [<-|I]; [lra|]. left. now apply (H2 a).
Qed.
Lemma sorted_last l : StronglySorted lt_fst l -> forall a, In a l -> fst a <= fst (last l (0, 0)).
Proof.
  induction 1 as [|b l S IH F]; intros a I; [destruct I|]. destruct l as [|c l].
  - destruct I as [<-|[]]. cbn. lra.
  - change (last (b :: c :: l) (0, 0)) with (last (c :: l) (0, 0)). destruct I as [<-|I]; [|auto].
    rewrite Forall_forall in F. specialize (IH c (or_introl eq_refl)). specialize (F c (or_introl eq_refl)). unfold lt_fst in F. lra.
Qed.
Lemma last_in {A} (l : list A) d : l <> [] -> In (last l d) l.
Proof.
  induction l as [|a l IH]; intros H; [easy|]. destruct l as [|b l]; [now left|]. right. apply IH. discriminate.
Qed.
Lemma combine_fst {A B} (a : list A) : forall (b : list B), length a = length b -> map fst (combine a b) = a.
Proof. induction a as [|x a IH]; intros [|y b] H; cbn in *; try easy. f_equal. apply IH. lia. Qed.

(** What a table of points becomes. *)
Lemma interp1d_points time position : length time = length position -> time <> [] -> NoDup time ->
  exists f l, interp1d time position = Ok f /\ StronglySorted lt_fst l /\ Permutation (combine time position) l /\
    (forall t, f t = if Rltb t (fst (hd (0, 0) l)) || Rltb (fst (last l (0, 0))) t then Err ValueError else Ok (segment l t)).
Proof.
  intros E N D. unfold interp1d. rewrite (proj2 (Nat.eqb_eq _ _) E). cbn [negb].
  assert (Nat.eqb (List.length time) 0 = false) as -> by (apply Nat.eqb_neq; destruct time; cbn; [easy|lia]).
  eexists _, (sort_points (combine time position)). split; [reflexivity|]. split; [|split; [apply sort_perm|reflexivity]].
  apply sort_sorted. now rewrite combine_fst.
Qed.
Lemma interp1d_ok time position f : interp1d time position = Ok f -> length time = length position /\ length time <> 0%nat.
Proof.
  unfold interp1d. destruct (Nat.eqb (List.length time) (List.length position)) eqn:E; [|discriminate]. apply Nat.eqb_eq in E. cbn [negb].
  destruct (Nat.eqb (List.length time) 0) eqn:E0; [discriminate|]. apply Nat.eqb_neq in E0. auto.
Qed.
Lemma interp_two a b t : exists f, interp1d [0; 1] [a; b] = Ok f /\
  f t = if Rltb t 0 || Rltb 1 t then Err ValueError else Ok (line 0 a 1 b t).
Proof.
  eexists. split; [reflexivity|]. cbn [combine sort_points sort_in fst].
  assert (Rltb 1 0 = false) as -> by (apply Rltb_false; lra). cbn [hd last fst snd segment].
  destruct (Rltb t 0 || Rltb 1 t); [reflexivity|]. now rewrite segment_line.
Qed.
Lemma relative_fraction n k : (0 < n)%nat -> (k < n)%nat -> relative_time n k = fraction n k.
Proof.
  intros H K. unfold relative_time, fraction. destruct n as [|[|n]]; [lia|reflexivity|]. cbn [Nat.eqb]. reflexivity.
Qed.
Lemma fraction_bounds n k : (k < n)%nat -> 0 <= fraction n k <= 1.
Proof.
  intros K. unfold fraction. destruct n as [|[|n]]; try lra. assert (0 < INR (S n)) by (apply lt_0_INR; lia).
  split.
  - apply Rmult_le_pos; [apply pos_INR|]. left. now apply Rinv_0_lt_compat.
  - apply Rmult_le_reg_r with (INR (S n)); [assumption|]. unfold Rdiv. rewrite Rmult_assoc, Rinv_l by lra. rewrite Rmult_1_l, Rmult_1_r.
    apply le_INR. lia.
Qed.
Lemma func_prescribes v f n k x : make_interpolation_func v = Ok f -> (k < n)%nat -> f (fraction n k) = Ok x -> prescribes v n k x.
Proof.
  intros M K F. unfold prescribes. pose proof (fraction_bounds n k K) as B.
  destruct v as [l|r|]; eauto. destruct l as [|a l]; eauto. destruct l as [|b l]; eauto. destruct l; eauto.
  destruct (interp_two a b (fraction n k)) as (f' & M' & F'). cbn [make_interpolation_func] in M. rewrite M' in M.
  injection M as <-. rewrite F' in F.
  assert (Rltb (fraction n k) 0 = false) as A1 by (apply Rltb_false; lra). assert (Rltb 1 (fraction n k) = false) as A2 by (apply Rltb_false; lra).
  rewrite A1, A2 in F. cbn in F. now injection F as <-.
Qed.

(** ** Results *)
Lemma scatter_length d : forall l, length (scatter d l) = length d.
Proof. induction d as [|[] d IH]; intros l; cbn; [reflexivity| |]; [destruct l|]; cbn; now rewrite IH. Qed.
Lemma scatter_sum d : forall l, length l = length (filter (fun b => b) d) -> rsum (scatter d l) = rsum l.
Proof.
  induction d as [|[] d IH]; intros l H; cbn in *.
  - now destruct l.
  - destruct l as [|x l]; [discriminate|]. cbn. rewrite IH by (cbn in H; lia). reflexivity.
  - rewrite IH by exact H. ring.
Qed.
Lemma select_all d : forall (z : list R), length d = length z -> length (select d z) = length (filter (fun b => b) d).
Proof. induction d as [|[] d IH]; intros [|x z] H; cbn in *; try easy; rewrite IH; auto; lia. Qed.

(** Stored results come from the solver. *)
Definition stored_ok (k : hconfig) (s : hstate) : Prop :=
  match stored_results s with
  | None => True
  | Some (InDomain loads d h) => exists z, loads = fst (solver k d z)
  | Some (Final f) => exists d z, r_loads f = scatter d (fst (solver k d z)) /\ r_total_load f = rsum (fst (solver k d z)) * area k /\
      r_disp1 f = disp1 k (r_loads f) /\ r_disp2 f = disp2 k (r_loads f) /\
      r_nodes f = map (fun x => Rltb 0 x) (r_loads f)
  end.
Lemma add_stored k s h l f b : stored_results (add_to_cache k s h l f b) = stored_results s.
Proof. unfold add_to_cache. now destruct (use_cache k && negb (rmem h (heights s)) && negb b). Qed.
Lemma add_heights k s h l f b x : In x (heights s) -> In x (heights (add_to_cache k s h l f b)).
Proof.
  unfold add_to_cache. destruct (use_cache k && negb (rmem h (heights s)) && negb b); [|auto]. cbn. intros. apply in_insert. now right.
Qed.
Lemma evaluate_stored k s h : stored_ok k s -> stored_ok k (fst (evaluate k s h)).
Proof.
  intros H. unfold evaluate. destruct (rmem h (heights s)); [exact H|].
  match goal with |- context [existsb _ ?d] => set (dom := d) end.
  match goal with |- context [select dom ?d] => set (z := d) end.
  destruct (existsb (fun b => b) dom).
  - destruct (solver k dom (select dom z)) as [loads failed] eqn:E. unfold stored_ok. cbn [fst stored_results]. rewrite add_stored. cbn.
    exists (select dom z). now rewrite E.
  - unfold stored_ok. cbn [fst stored_results]. rewrite add_stored. exact H.
Qed.
Lemma visit_stored k hs : forall s, stored_ok k s -> stored_ok k (visit k s hs).
Proof. induction hs as [|h hs IH]; intros s H; cbn; [exact H|]. apply IH. now apply evaluate_stored. Qed.
Lemma read_stored k s f : stored_ok k s -> snd (read_results k s) = Ok f ->
  exists d z, r_loads f = scatter d (fst (solver k d z)) /\ r_total_load f = rsum (fst (solver k d z)) * area k /\
      r_disp1 f = disp1 k (r_loads f) /\ r_disp2 f = disp2 k (r_loads f) /\
      r_nodes f = map (fun x => Rltb 0 x) (r_loads f).
Proof.
  unfold read_results, stored_ok. destruct (stored_results s) as [[loads d h|f']|]; cbn; intros H E; try easy.
  - destruct (match nodes s with Some _ => _ | None => _ end) as [m|]; [|discriminate].
    injection E as <-. cbn. destruct H as (z & ->). eexists _, _. repeat split.
  - injection E as <-. exact H.
Qed.
(** The convolution is the one of the domain that was solved. *)
Definition same_ok (k : hconfig) (s : hstate) : Prop :=
  match stored_results s with
  | None => True
  | Some (InDomain _ d _) => nodes s = Some d
  | Some (Final f) => r_total_disp f = disp_total k (r_loads f)
  end.
Lemma read_same k s f : same_ok k s -> snd (read_results k s) = Ok f -> r_total_disp f = disp_total k (r_loads f).
Proof.
  unfold read_results, same_ok. destruct (stored_results s) as [[loads d h|f']|]; cbn; intros H E; try easy.
  - rewrite H, refill_same in E. cbn in E. injection E as <-. reflexivity.
  - injection E as <-. exact H.
Qed.
Lemma add_nodes k s h l f b : nodes (add_to_cache k s h l f b) = nodes s.
Proof. apply add_other. Qed.
Lemma evaluate_same k s h : same_ok k s ->
  In h (heights s) \/ nodes_set s = true \/ existsb (fun b => b) (touching k h) = true \/ stored_results s = None ->
  same_ok k (fst (evaluate k s h)).
Proof.
  intros H C. destruct (in_dec Req_EM_T h (heights s)) as [Hi|Hi]; [rewrite evaluate_old by exact Hi; exact H|].
  destruct C as [C|C]; [contradiction|]. pose proof (evaluate_new k s h Hi) as E. unfold outcome in E.
  destruct (existsb (fun b => b) (dom_of k s h)) eqn:T.
  - destruct (solver k (dom_of k s h) _) as [loads failed]. cbn in E. rewrite E. cbn [fst]. unfold same_ok. cbn [stored_results nodes].
    rewrite add_stored, add_nodes. reflexivity.
  - cbn in E. rewrite E. cbn [fst]. unfold same_ok in *. cbn [stored_results nodes]. rewrite add_stored, add_nodes. cbn [stored_results nodes].
    unfold dom_of in *. destruct C as [C|[C|C]].
    + rewrite C in *. destruct (stored_results s) as [[loads d x|f]|]; auto. rewrite H in *. reflexivity.
    + destruct (stored_results s) as [[loads d x|f]|]; auto. destruct (nodes_set s); [rewrite H in *; reflexivity|congruence].
    + rewrite C. exact I.
Qed.
Lemma visit_same k hs : In 0 (gap k) -> (forall x, In x hs -> 0 <= x) -> forall s, In 0 (heights s) -> same_ok k s -> same_ok k (visit k s hs).
Proof.
  intros G. induction hs as [|h hs IH]; intros P s Z H; cbn; [exact H|]. apply IH.
  - intros x Hx. apply P. now right.
  - unfold evaluate. destruct (rmem h (heights s)); [exact Z|].
    match goal with |- context [existsb _ ?d] => set (dom := d) end. destruct (existsb (fun b => b) dom).
    + match goal with |- context [solver k ?a ?b] => destruct (solver k a b) as [loads failed] end. cbn. now apply add_heights.
    + cbn. now apply add_heights.
  - apply evaluate_same; [exact H|]. destruct (Req_dec h 0) as [->|N]; [now left|]. right. right. left.
    apply existsb_exists. exists true. split; [|reflexivity]. unfold touching. apply in_map_iff. exists 0. split; [|exact G].
    apply Rltb_true. specialize (P h (or_introl eq_refl)). lra.
Qed.
(** The results of an evaluation at a new height with contact. *)
Lemma evaluate_results k s h : nodes_set s = false -> ~ In h (heights s) -> stored_results s = None ->
  if existsb (fun b => b) (touching k h) then
    snd (read_results k (fst (evaluate k s h))) =
      Ok (let full := scatter (touching k h) (fst (free_solution k h)) in
          Full full (disp_total k full) (disp1 k full) (disp2 k full) (map (fun x => Rltb 0 x) full) (free_load k h) h) /\
    last_failed (fst (evaluate k s h)) = snd (free_solution k h)
  else snd (read_results k (fst (evaluate k s h))) = Err TypeError.
Proof.
  intros Hn Hh Hs. unfold evaluate, free_load, free_solution. apply rmem_false in Hh. rewrite Hh, Hn. rewrite touching_z, z_alt.
  destruct (existsb (fun b => b) (touching k h)).
  - destruct (solver k (touching k h) (select (touching k h) (map (fun g => h - g) (gap k)))) as [loads failed].
    unfold read_results. cbn [fst stored_results nodes]. rewrite add_stored, add_nodes. cbn [stored_results nodes]. rewrite refill_same.
    cbn. split; reflexivity.
  - unfold read_results. cbn [fst stored_results]. rewrite add_stored. cbn. now rewrite Hs.
Qed.
Lemma evaluate_known k s h : In h (heights s) -> stored_results s = None -> snd (read_results k (fst (evaluate k s h))) = Err TypeError.
Proof. intros Hh Hs. rewrite (evaluate_old k s h Hh). cbn [fst]. unfold read_results. now rewrite Hs. Qed.
Lemma evaluate_heights k s h x : In x (heights s) -> In x (heights (fst (evaluate k s h))).
Proof.
  intros H. unfold evaluate. destruct (rmem h (heights s)); [exact H|].
  match goal with |- context [existsb _ ?d] => set (dom := d) end. destruct (existsb (fun b => b) dom).
  - match goal with |- context [solver k ?a ?b] => destruct (solver k a b) as [loads failed] end. cbn. now apply add_heights.
  - cbn. now apply add_heights.
Qed.
Lemma evaluate_records k s h : use_cache k = true -> last_failed (fst (evaluate k s h)) = false ->
  In h (heights (fst (evaluate k s h))).
Proof.
  intros U F. unfold evaluate in *. destruct (rmem h (heights s)) eqn:E; [now apply rmem_in|].
  revert F. match goal with |- context [existsb _ ?d] => set (dom := d) end. destruct (existsb (fun b => b) dom).
  - match goal with |- context [solver k ?a ?b] => destruct (solver k a b) as [loads failed] end. cbn. intros ->.
    unfold add_to_cache. cbn [heights]. rewrite U, E. cbn. apply in_insert. now left.
  - cbn. intros _. unfold add_to_cache. cbn [heights]. rewrite U, E. cbn. apply in_insert. now left.
Qed.
Lemma visit_heights k hs x : forall s, In x (heights s) -> In x (heights (visit k s hs)).
Proof. induction hs as [|h hs IH]; intros s H; cbn; [exact H|]. apply IH. now apply evaluate_heights. Qed.
Lemma read_heights k s : heights (fst (read_results k s)) = heights s.
Proof. apply read_keeps. Qed.

Lemma gap_entry_length h : forall g d, length d = length g -> length (gap_entry g h d) = length g.
Proof. induction g as [|x g IH]; intros [|y d] H; cbn in *; try easy. f_equal. apply IH. lia. Qed.
Lemma gap_entry_nth h : forall g d i, length d = length g -> (i < length g)%nat ->
  nth i (gap_entry g h d) 0 = nth i g 0 - h + nth i d 0.
Proof. induction g as [|x g IH]; intros [|y d] [|i] H L; cbn in *; try lia; auto. apply IH; lia. Qed.
Lemma consistent_entries k g s f h :
  (exists d z, length (fst (solver k d z)) = length (filter (fun b => b) d) /\
     r_loads f = scatter d (fst (solver k d z)) /\ r_total_load f = rsum (fst (solver k d z)) * area k /\
      r_disp1 f = disp1 k (r_loads f) /\ r_disp2 f = disp2 k (r_loads f) /\
      r_nodes f = map (fun x => Rltb 0 x) (r_loads f)) ->
  r_total_disp f = disp_total k (r_loads f) ->
  (forall key v, In (key, v) (result_entries f h ++ [("gap", SGrid (gap_entry g h (r_total_disp f)))]) -> dget key s = Some v) ->
  consistent k g s.
Proof.
  intros (d & z & L & E1 & E2 & E4 & E5 & E6) E3 G. exists (r_loads f), h.
  assert (T : rsum (r_loads f) * area k = r_total_load f) by (rewrite E1, E2, scatter_sum; auto).
  assert (N : map (fun x => if Rlt_dec 0 x then true else false) (r_loads f) = r_nodes f) by (rewrite E6; reflexivity).
  unfold holds_grid, holds_num. rewrite T, N, <- E3, <- E4, <- E5.
  repeat split; try (apply G; cbn; tauto).
  intros HL. eexists. split; [apply G; cbn; tauto|]. split; [now apply gap_entry_length|]. intros i Hi. now apply gap_entry_nth.
Qed.
Lemma close_load_true total load : close_load total load = true <-> within_5_percent total load.
Proof.
  unfold close_load, within_5_percent. destruct (Reqb load 0) eqn:E.
  - apply Reqb_true in E. split; [discriminate|intros [H _]; easy].
  - assert (load <> 0) by (intros C; apply Reqb_true in C; congruence). rewrite Rltb_true.
    replace (1 / 20) with (5 / 100) by lra. tauto.
Qed.
Lemma new_heights k load limit : In 0 (heights (new_opt k load None limit)).
Proof. unfold new_opt. destruct limit as [[[l h] ld]|]; [destruct (use_cache k)|]; cbn; auto. Qed.
Lemma make_opt_none k load limit : make_opt k load None limit = Ok (new_opt k load None limit).
Proof. reflexivity. Qed.

(** ** The static step *)
Definition static_base (st : static) g p1 p2 t : dict :=
  [("just_touching_gap", SGrid g); ("surface_1_points", SPoints p1); ("surface_2_points", SPoints p2);
   ("time", SNum (t + max_time st)); ("time_step", SNum (max_time st)); ("new_step", SFlag true);
   ("off_set", SPair (fst (off_set st)) (snd (off_set st)))].
Definition static_state (st : static) g p1 p2 t f conv : dict :=
  (static_base st g p1 p2 t ++ result_entries f (r_interference f) ++
   [("converged", SFlag conv); ("gap", SGrid (gap_entry g (r_interference f) (r_total_disp f)))])%list.
Definition nominal (st : static) : R := match normal_load st with Some l => l | None => 0 end.
Definition set_interf (st : static) : R := match interference st with Some x => x | None => 0 end.
Definition first_load (st : static) : R := if load_controlled st then nominal st else 1.
(** The load or interference aimed at. *)
Definition aim (st : static) (prev : dict) (key : string) (x : R) : result R :=
  if relative st then bind (get_num key prev) (fun p => Ok (p + x)) else Ok x.
Lemma static_unpack w st prev s : static_contact w st prev = Ok s ->
  exists g p1 p2 t f conv s2, gap_at w (off_set st) = Ok (g, p1, p2) /\ get_num "time" prev = Ok t /\
    (unloading st = true -> get_nodes "contact_nodes" prev = None) /\
    s = static_state st g p1 p2 t f conv /\
    let k := config w (adhesion st) g in
    let s0 := new_opt k (first_load st) None (limit_of w g) in
    snd (read_results k s2) = Ok f /\
    if load_controlled st then
      exists load r, aim st prev "total_normal_load" (nominal st) = Ok load /\
        root_scalar w k (change_load s0 load None) (0, 3 * max_of g) = (fst (root_scalar w k (change_load s0 load None) (0, 3 * max_of g)), Ok r) /\
        s2 = visit k (change_load s0 load None) (fst (root_scalar w k (change_load s0 load None) (0, 3 * max_of g))) /\
        conv = close_load (r_total_load f) (nominal st) && negb (last_failed s2)
    else
      exists h, aim st prev "interference" (set_interf st) = Ok h /\
        s2 = fst (evaluate k (change_load s0 1 None) h) /\ conv = negb (last_failed s2).
Proof.
  unfold static_contact. intros H.
  destruct (gap_at w (off_set st)) as [[[g p1] p2]|]; [cbn [bind] in H|discriminate].
  destruct (get_num "time" prev) as [t|]; [cbn [bind] in H|discriminate].
  set (k := config w (adhesion st) g) in *.
  assert (exists init, (if unloading st then get_nodes "contact_nodes" prev else None) = init) as (init & Ei) by eauto.
  rewrite Ei in H. unfold make_opt in H at 1. destruct init; [discriminate|]. cbn [bind] in H.
  fold (nominal st) in H. fold (first_load st) in H. set (s0 := new_opt k (first_load st) None (limit_of w g)) in *.
  cbv zeta in H. replace (if unloading st then _ else None) with (@None (list bool)) in H by (destruct (unloading st); reflexivity).
  assert (Eu : unloading st = true -> get_nodes "contact_nodes" prev = None) by (intros U; now rewrite U in Ei).
  destruct (load_controlled st) eqn:El.
  - fold (aim st prev "total_normal_load" (nominal st)) in H. destruct (aim st prev "total_normal_load" (nominal st)) as [load|] eqn:Ea; [cbn [bind] in H|discriminate].
    destruct (root_scalar w k (change_load s0 load None) (0, 3 * max_of g)) as [hs [r|]] eqn:Er; [cbn [bind] in H|discriminate].
    destruct (snd (read_results k (visit k (change_load s0 load None) hs))) as [f|] eqn:Ef; [cbn [bind] in H|discriminate].
    injection H as <-. exists g, p1, p2, t, f. eexists _, (visit k (change_load s0 load None) hs).
    do 2 (split; [reflexivity|]). split; [exact Eu|]. split; [reflexivity|]. cbv zeta. split; [exact Ef|].
    exists load, r. split; [reflexivity|]. change (new_opt (config w (adhesion st) g) (first_load st) None (limit_of w g)) with s0. fold k. rewrite Er.
    repeat split.
  - fold (set_interf st) in H. fold (aim st prev "interference" (set_interf st)) in H.
    destruct (aim st prev "interference" (set_interf st)) as [h|] eqn:Ea; [cbn [bind] in H|discriminate].
    match type of H with bind ?x _ = _ => destruct x as [f|] eqn:Ef end; [cbn [bind] in H|discriminate].
    injection H as <-. exists g, p1, p2, t, f. eexists _, _.
    do 2 (split; [reflexivity|]). split; [exact Eu|]. split; [reflexivity|]. cbv zeta. split; [exact Ef|].
    exists h. repeat split.
Qed.

(** ** The quasi static step *)
Definition moved (q : quasi) off l i o : quasi :=
  Quasi (steps q) (no_time q) (total_time q) (time_step q) (q_relative q) (q_adhesion q) (q_unloading q) (fast_ld q)
        (upper_factor q) (q_load_controlled q) (upd_off q) (upd_load q) (upd_interf q) off l i o.
Lemma moved_self q : moved q (q_off q) (q_load q) (q_interf q) (q_opt q) = q.
Proof. now destruct q. Qed.
Lemma set_opt_moved q off l i o o' : set_opt (moved q off l i o) o' = moved q off l i o'.
Proof. reflexivity. Qed.
Definition sub_load (q : quasi) : R := if q_load_controlled q then match q_load q with Some l => l | None => 0 end else 1.
Definition sub_interf (q : quasi) : R := match q_interf q with Some h => h | None => 0 end.
Lemma sub_step_opt w q g init nodes q2 r : solve_sub_step w q g init nodes = (q2, r) -> exists o, q2 = set_opt q o.
Proof.
  unfold solve_sub_step. intros H. fold (sub_load q) in H. destruct (opt_for w q g init (sub_load q)) as [[k s0]|e].
  2: { injection H as <- <-. exists (q_opt q). symmetry. apply moved_self. }
  destruct (q_load_controlled q).
  - match type of H with context [match ?x with Ok _ => _ | Err _ => _ end] => destruct x as [[lo hi]|] end; [|injection H as <- <-; eauto].
    destruct (root_scalar w k (change_load s0 (sub_load q) nodes) (lo, hi)) as [hs [x|]]; [|injection H as <- <-; eauto].
    match type of H with context [read_results k ?x] => destruct (read_results k x) as [s4 res] end. injection H as <- <-. eauto.
  - match type of H with context [read_results k ?x] => destruct (read_results k x) as [s4 res] end. injection H as <- <-. eauto.
Qed.
(** What is known of a sub step that was solved. *)
Lemma sub_step_ok w q g init nodes q2 f h conv : solve_sub_step w q g init nodes = (q2, Ok (f, h, conv)) ->
  exists k s0 sX s', opt_for w q g init (sub_load q) = Ok (k, s0) /\ q2 = set_opt q (Some (k, s')) /\
    read_results k sX = (s', Ok f) /\
    (stored_ok k sX /\ ((q_load_controlled q = true -> In 0 (heights s0) /\ In 0 (gap k) /\ stays_above w) -> same_ok k sX)) /\
    if q_load_controlled q then
      (conv = true -> close_load (r_total_load f) (sub_load q) = true /\ last_failed sX = false) /\
      (forall x, In x (heights s0) -> In x (heights s'))
    else h = sub_interf q /\ sX = fst (evaluate k (change_load s0 1 nodes) h) /\ conv = negb (last_failed sX).
Proof.
  unfold solve_sub_step. intros H. fold (sub_load q) in H. destruct (opt_for w q g init (sub_load q)) as [[k s0]|e]; [|discriminate].
  exists k, s0. assert (S1 : forall l, stored_ok k (change_load s0 l nodes)) by (intros; exact I).
  destruct (q_load_controlled q) eqn:El.
  - match type of H with context [match ?x with Ok _ => _ | Err _ => _ end] => destruct x as [[lo hi]|] end; [|discriminate].
    destruct (root_scalar w k (change_load s0 (sub_load q) nodes) (lo, hi)) as [hs [x|]] eqn:Ers; [|discriminate].
    set (s2 := visit k (change_load s0 (sub_load q) nodes) hs) in *.
    set (s3 := match stored_results s2 with None => fst (evaluate k s2 ((lo + hi) / 2)) | Some _ => s2 end) in *.
    assert (S3 : stored_ok k s3).
    { unfold s3. destruct (stored_results s2); [|apply evaluate_stored]; now apply visit_stored. }
    assert (S4 : In 0 (heights s0) /\ In 0 (gap k) /\ stays_above w -> same_ok k s3).
    { intros (Z & G & W). assert (V : same_ok k s2).
      { unfold s2. apply visit_same; [exact G| |exact Z|exact I]. intros y Hy. exact (W _ _ _ _ _ Ers y Hy). }
      unfold s3. destruct (stored_results s2) eqn:E2; [exact V|]. apply evaluate_same; [exact V|]. auto. }
    destruct (read_results k s3) as [s4 res] eqn:Er. injection H as <- E. destruct res as [f'|]; [cbn in E|discriminate].
    injection E as <- <- <-. exists s3, s4. split; [reflexivity|]. split; [reflexivity|]. split; [exact Er|]. split; [split; [exact S3|auto]|]. split.
    + intros C. apply andb_true_iff in C as [C1 C2]. split; [exact C1|]. now apply negb_true_iff in C2.
    + intros y Hy. replace s4 with (fst (read_results k s3)) by now rewrite Er. rewrite read_heights.
      assert (In y (heights s2)) by now apply visit_heights. unfold s3. destruct (stored_results s2); [assumption|]. now apply evaluate_heights.
  - match type of H with context [read_results k ?x] => set (s2 := x) in *; destruct (read_results k s2) as [s4 res] eqn:Er end.
    injection H as <- E. destruct res as [f'|]; [cbn in E|discriminate]. injection E as <- <- <-.
    exists s2, s4. split; [reflexivity|]. split; [reflexivity|]. split; [exact Er|].
    split; [split; [now apply evaluate_stored|intros _; apply evaluate_same; [exact I|right; right; right; reflexivity]]|].
    repeat split. unfold s2, sub_load. now rewrite El.
Qed.

Definition sub_base (q : quasi) g p1 p2 off new : dict :=
  [("just_touching_gap", SGrid g); ("surface_1_points", SPoints p1); ("surface_2_points", SPoints p2);
   ("off_set", SPair (fst off) (snd off)); ("time_step", SNum (time_step q)); ("new_step", SFlag new)].
Definition sub_state (q : quasi) g p1 p2 off new f h conv time : dict :=
  (sub_base q g p1 p2 off new ++ result_entries f h ++
   [("converged", SFlag conv); ("gap", SGrid (gap_entry g h (r_total_disp f))); ("time", SNum time)])%list.
Definition off_value (o : option (R * R)) : R * R := match o with Some o => o | None => (0, 0) end.
Lemma update_moved q ol oi oo t q1 : update_movement q ol oi oo t = Ok q1 ->
  exists off l i, q1 = moved q off l i (q_opt q) /\
    update_one (q_relative q) pair_add oo (upd_off q) (q_off q) t = Ok off /\
    update_one (q_relative q) Rplus ol (upd_load q) (q_load q) t = Ok l /\
    update_one (q_relative q) Rplus oi (upd_interf q) (q_interf q) t = Ok i.
Proof.
  unfold update_movement. destruct (update_one _ _ _ (upd_off q) _ _) as [off|]; [cbn [bind]|discriminate].
  destruct (update_one _ _ _ (upd_load q) _ _) as [l|]; [cbn [bind]|discriminate].
  destruct (update_one _ _ _ (upd_interf q) _ _) as [i|]; [cbn [bind]|discriminate]. intros H. injection H as <-.
  exists off, l, i. repeat split.
Qed.
Lemma update_one_old {A} rel add (o : A) upd old old' t t' v : update_one rel add o upd old t' = Ok old' ->
  update_one rel add o upd old' t = Ok v -> update_one rel add o upd old t = Ok v.
Proof. unfold update_one. destruct upd; [auto|]. intros E. injection E as <-. auto. Qed.

(** One round of the loop. *)
Lemma loop_round w prev ol oi oo todo i q time kept last q' states r :
  quasi_loop w prev ol oi oo (S todo) i q time kept last = (q', states, r) ->
  (states = [] /\ exists e, r = Err e) \/
  exists off l ii g p1 p2 f h conv q2 st rest,
    update_one (q_relative q) pair_add oo (upd_off q) (q_off q) (relative_time (steps q) i) = Ok off /\
    update_one (q_relative q) Rplus ol (upd_load q) (q_load q) (relative_time (steps q) i) = Ok l /\
    update_one (q_relative q) Rplus oi (upd_interf q) (q_interf q) (relative_time (steps q) i) = Ok ii /\
    (match kept with
     | Some x => if match upd_off q with Some _ => true | None => false end || negb (no_time q) then gap_at w (off_value off) else Ok x
     | None => gap_at w (off_value off) end) = Ok (g, p1, p2) /\
    solve_sub_step w (moved q off l ii (q_opt q)) g (if q_unloading q then get_nodes "contact_nodes" prev else None) None = (q2, Ok (f, h, conv)) /\
    sub_models w (sub_state q g p1 p2 (off_value off) (Nat.eqb i 0) f h conv (time + time_step q)) = Ok st /\
    states = st :: rest /\
    quasi_loop w prev ol oi oo todo (S i) q2 (time + time_step q) (Some (g, p1, p2)) st = (q', rest, r).
Proof.
  cbn [quasi_loop]. destruct (update_movement q ol oi oo (relative_time (steps q) i)) as [q1|] eqn:Eu.
  2: { intros H. injection H as <- <- <-. eauto. }
  apply update_moved in Eu as (off & l & ii & -> & U1 & U2 & U3). cbn [q_off moved upd_off no_time q_unloading time_step].
  fold (off_value off).
  match goal with |- context [match ?x with Ok _ => _ | Err _ => _ end] => destruct x as [[[g p1] p2]|] eqn:Eg end.
  2: { intros H. injection H as <- <- <-. eauto. }
  cbv zeta. match goal with |- context [solve_sub_step w ?a g ?b ?c] => replace c with (@None (list bool)) by (destruct (q_unloading q); reflexivity) end.
  destruct (solve_sub_step w (moved q off l ii (q_opt q)) g (if q_unloading q then get_nodes "contact_nodes" prev else None) None) as [q2 [[[f h] conv]|]] eqn:Es.
  2: { intros H. injection H as <- <- <-. eauto. }
  match goal with |- context [match sub_models w ?x with _ => _ end] => destruct (sub_models w x) as [st|] eqn:Em end.
  2: { intros H. injection H as <- <- <-. eauto. }
  match goal with |- context [quasi_loop w prev ol oi oo todo (S i) ?a ?b ?c ?d] => destruct (quasi_loop w prev ol oi oo todo (S i) a b c d) as [[q3 rest] r'] eqn:El end.
  intros H. injection H as <- <- <-. right. exists off, l, ii, g, p1, p2, f, h, conv, q2, st, rest. repeat split; auto.
Qed.

(** Every state the loop produces. *)
Lemma loop_states w prev ol oi oo : forall todo i q time kept last q' states r,
  quasi_loop w prev ol oi oo todo i q time kept last = (q', states, r) ->
  (no_time q = true -> upd_off q = None) ->
  (forall x, kept = Some x -> upd_off q = None -> gap_at w (off_value (q_off q)) = Ok x) ->
  (forall k s, no_time q = true -> q_opt q = Some (k, s) -> exists g p1 p2, gap_at w (off_value (q_off q)) = Ok (g, p1, p2) /\ k = config w (q_adhesion q) g /\ In 0 (heights s)) ->
  (forall n st, nth_error states n = Some st -> exists off l ii o g p1 p2 f h conv q2 k s0,
    update_one (q_relative q) pair_add oo (upd_off q) (q_off q) (relative_time (steps q) (i + n)) = Ok off /\
    update_one (q_relative q) Rplus ol (upd_load q) (q_load q) (relative_time (steps q) (i + n)) = Ok l /\
    update_one (q_relative q) Rplus oi (upd_interf q) (q_interf q) (relative_time (steps q) (i + n)) = Ok ii /\
    gap_at w (off_value off) = Ok (g, p1, p2) /\
    opt_for w (moved q off l ii o) g (if q_unloading q then get_nodes "contact_nodes" prev else None) (sub_load (moved q off l ii o)) = Ok (k, s0) /\
    (k = config w (q_adhesion q) g /\ In 0 (heights s0)) /\
    solve_sub_step w (moved q off l ii o) g (if q_unloading q then get_nodes "contact_nodes" prev else None) None = (q2, Ok (f, h, conv)) /\
    sub_models w (sub_state q g p1 p2 (off_value off) (Nat.eqb (i + n) 0) f h conv (time + INR (S n) * time_step q)) = Ok st) /\
  (length states <= todo)%nat /\ (forall s, r = Ok s -> length states = todo /\ s = List.last states last).
Proof.
  induction todo as [|todo IH]; intros i q time kept last q' states r H H1 H2 H3.
  - cbn in H. injection H as <- <- <-. split; [intros [|n] st E; discriminate|]. split; [cbn; lia|]. intros s E. now injection E as <-.
  - apply loop_round in H. destruct H as [(-> & e & ->)|H].
    + split; [intros [|n] st E; discriminate|]. split; [cbn; lia|]. intros s E. discriminate.
    + destruct H as (off & l & ii & g & p1 & p2 & f & h & conv & q2 & st & rest & U1 & U2 & U3 & G & S & M & -> & L).
      assert (G' : gap_at w (off_value off) = Ok (g, p1, p2)).
      { destruct kept as [x|]; [|exact G]. destruct (upd_off q) eqn:E; [exact G|]. destruct (no_time q); [|exact G]. cbn in G.
        injection G as ->. cbn in U1. injection U1 as <-. now apply H2. }
      pose proof (sub_step_ok _ _ _ _ _ _ _ _ _ S) as (k & s0 & sX & s' & O & Eq2 & Er & _ & Fh).
      assert (K : k = config w (q_adhesion q) g /\ In 0 (heights s0)).
      { unfold opt_for in O. cbn [no_time moved q_opt q_adhesion] in O. destruct (no_time q) eqn:En.
        - destruct (q_opt q) as [[k' sk]|] eqn:Eo.
          + injection O as -> ->. destruct (H3 k s0 eq_refl eq_refl) as (g' & p1' & p2' & Gg & -> & Hz).
            assert (off = q_off q) as -> by (rewrite (H1 eq_refl) in U1; cbn in U1; now injection U1 as <-). split; [congruence|exact Hz].
          + unfold make_opt in O. match type of O with bind (match ?x with _ => _ end) _ = _ => destruct x; [discriminate|] end.
            cbn [bind] in O. injection O as <- <-. split; [reflexivity|apply new_heights].
        - unfold make_opt in O. match type of O with bind (match ?x with _ => _ end) _ = _ => destruct x; [discriminate|] end.
          cbn [bind] in O. injection O as <- <-. split; [reflexivity|apply new_heights]. }
      assert (Hz : In 0 (heights s')).
      { destruct K as [_ K]. cbn [moved q_load_controlled] in Fh. destruct (q_load_controlled q); [apply Fh, K|]. destruct Fh as (_ & EX & _).
        replace s' with (fst (read_results k sX)) by (now rewrite Er). rewrite read_heights, EX. now apply evaluate_heights. }
      rewrite set_opt_moved in Eq2. subst q2. apply IH in L.
      * destruct L as (L1 & L2 & L3). split; [|split].
        -- intros [|n] st' E.
           ++ cbn in E. injection E as <-. rewrite Nat.add_0_r. rewrite Rmult_1_l. exists off, l, ii, (q_opt q), g, p1, p2, f, h, conv. eexists _, k, s0.
              destruct K as [K1 K2]. repeat split; eauto.
           ++ cbn in E. destruct (L1 n st' E) as (off' & l' & ii' & o' & g' & p1' & p2' & f' & h' & conv' & q2' & k' & s0' & V1 & V2 & V3 & V4 & V5 & V6 & V7 & V8).
              cbn [moved q_relative upd_off upd_load upd_interf q_off q_load q_interf q_opt steps q_unloading q_adhesion time_step] in *.
              replace (Datatypes.S i + n)%nat with (i + Datatypes.S n)%nat in * by lia.
              exists off', l', ii', o', g', p1', p2', f', h', conv', q2', k', s0'. split; [|split; [|split]].
              ** eapply update_one_old; eauto.
              ** eapply update_one_old; eauto.
              ** eapply update_one_old; eauto.
              ** split; [exact V4|]. split; [exact V5|]. split; [exact V6|]. split; [exact V7|]. rewrite <- V8. f_equal.
                 unfold sub_state. unfold sub_base. cbn [time_step moved].
                 replace (time + time_step q + INR (Datatypes.S n) * time_step q) with (time + INR (Datatypes.S (Datatypes.S n)) * time_step q);
                   [reflexivity|]. rewrite (S_INR (Datatypes.S n)). ring.
        -- cbn. lia.
        -- intros s E. destruct (L3 s E) as (<- & ->). split; [reflexivity|]. destruct rest; [reflexivity|].
           clear. change (List.last (st :: d :: rest) last) with (List.last (d :: rest) last). revert d. induction rest as [|a rest IH]; intros d; [reflexivity|].
           change (List.last (a :: rest) st = List.last (a :: rest) last). apply IH.
      * cbn [moved no_time upd_off]. exact H1.
      * cbn [moved upd_off q_off]. intros x E Eu. injection E as <-. exact G'.
      * cbn [moved no_time q_opt q_off q_adhesion]. intros k' s'' En Eo. injection Eo as <- <-. exists g, p1, p2. split; [exact G'|]. split; [apply K|exact Hz].
Qed.
Lemma new_quasi_fields n nt T ox oy i l rel adh unl fast imp up q : new_quasi n nt T ox oy i l rel adh unl fast imp up = Ok q ->
  (0 < n)%nat /\ steps q = n /\ no_time q = nt /\ time_step q = T / INR n /\ q_relative q = rel /\ q_adhesion q = adh /\ q_unloading q = unl /\ fast_ld q = fast /\ q_opt q = None /\
  (nt = true -> upd_off q = None) /\
  (q_load_controlled q = match i with Some _ => false | None => match l with Some _ => true | None => false end end) /\
  (match ox, oy with
   | Const x, Const y => upd_off q = None /\ q_off q = Some (x, y)
   | _, _ => exists fx fy, make_interpolation_func (as_seq ox) = Ok fx /\ make_interpolation_func (as_seq oy) = Ok fy /\
       upd_off q = Some (fun t => bind (fx t) (fun x => bind (fy t) (fun y => Ok (x, y)))) end) /\
  (match l with
   | Some (Seq v) => exists f, make_interpolation_func v = Ok f /\ upd_load q = Some f
   | Some (Const x) => upd_load q = None /\ q_load q = Some x
   | None => upd_load q = None end) /\
  (match i with
   | Some (Seq v) => exists f, make_interpolation_func v = Ok f /\ upd_interf q = Some f
   | Some (Const x) => upd_interf q = None /\ q_interf q = Some x
   | None => upd_interf q = None /\ (l = None -> q_interf q = Some 0) end).
Proof.
  unfold new_quasi. intros H. destruct imp; [discriminate|]. destruct (negb nt && fast); [discriminate|].
  destruct (Nat.eqb n 0) eqn:En; [discriminate|]. apply Nat.eqb_neq in En.
  match type of H with bind ?x _ = _ => destruct x as [[uo o]|] eqn:Eo end; [cbn [bind] in H|discriminate].
  assert (A : (nt = true -> uo = None) /\ match ox, oy with
   | Const x, Const y => uo = None /\ o = Some (x, y)
   | _, _ => exists fx fy, make_interpolation_func (as_seq ox) = Ok fx /\ make_interpolation_func (as_seq oy) = Ok fy /\
       uo = Some (fun t => bind (fx t) (fun x => bind (fy t) (fun y => Ok (x, y)))) end).
  { destruct ox as [x|vx], oy as [y|vy]; cbn [is_seq orb] in Eo; try (injection Eo as <- <-; auto);
      (destruct nt; [discriminate|]);
      (split; [discriminate|]);
      destruct (make_interpolation_func (as_seq _)) as [fx|] eqn:E1 in Eo; [cbn [bind] in Eo|discriminate| cbn [bind] in Eo|discriminate| cbn [bind] in Eo|discriminate];
      destruct (make_interpolation_func (as_seq _)) as [fy|] eqn:E2 in Eo; [cbn [bind] in Eo|discriminate| cbn [bind] in Eo|discriminate| cbn [bind] in Eo|discriminate];
      injection Eo as <- <-; exists fx, fy; rewrite E1, E2; auto. }
  destruct A as [A1 A2]. cbv zeta in H.
  destruct l as [[xl|vl]|], i as [[xi|vi]|]; try discriminate; try (destruct rel; [|discriminate]);
    repeat match type of H with context [make_interpolation_func ?v] => destruct (make_interpolation_func v) as [?f|] eqn:?E; cbn [bind] in H; [|discriminate] end;
    cbn [bind] in H; injection H as <-; cbn; repeat split; auto; try lia; try discriminate; eauto.
Qed.

(** ** Heights evaluated without time dependence *)
Definition known (q : quasi) : list R := match q_opt q with Some (_, s) => heights s | None => [] end.
Lemma evaluate_never k s h : never_fails k -> ~ In h (heights s) -> last_failed (fst (evaluate k s h)) = false.
Proof.
  intros [_ N] H. unfold evaluate. apply rmem_false in H. rewrite H.
  match goal with |- context [existsb _ ?d] => set (dom := d) end. destruct (existsb (fun b => b) dom); [|reflexivity].
  match goal with |- context [solver k ?a ?b] => specialize (N a b); destruct (solver k a b) as [loads failed] end. exact N.
Qed.
Lemma sub_state_num q g p1 p2 off new f h conv time : dget "interference" (sub_state q g p1 p2 off new f h conv time) = Some (SNum h).
Proof. reflexivity. Qed.
Lemma loop_heights w prev ol oi oo : leave_alone w "interference" -> (forall b g, never_fails (config w b g)) ->
  forall todo i q time kept last q' states r,
  quasi_loop w prev ol oi oo todo i q time kept last = (q', states, r) ->
  no_time q = true -> q_load_controlled q = false -> (forall k s, q_opt q = Some (k, s) -> never_fails k) ->
  (forall x, In x (known q) -> In x (known q')) /\
  forall n st, nth_error states n = Some st -> exists x, holds_num st "interference" x /\ ~ In x (known q) /\ In x (known q') /\
    forall m st', (n < m)%nat -> nth_error states m = Some st' -> ~ holds_num st' "interference" x.
Proof.
  intros LA NF. induction todo as [|todo IH]; intros i q time kept last q' states r H En El Ek.
  - cbn in H. injection H as <- <- <-. split; [auto|]. intros [|n] st E; discriminate.
  - assert (K : states = [] -> forall x, In x (known q) -> In x (known q')).
    { intros ->. cbn [quasi_loop] in H. destruct (update_movement q ol oi oo (relative_time (steps q) i)) as [q1|] eqn:Eu.
      2: { injection H as <- <-. auto. }
      apply update_moved in Eu as (off & l & ii & -> & _).
      match type of H with context [match ?x with Ok _ => _ | Err _ => _ end] => destruct x as [[[g p1] p2]|] end.
      2: { injection H as <- <-. auto. }
      match type of H with context [solve_sub_step w ?a g ?b ?c] => destruct (solve_sub_step w a g b c) as [q2 res] eqn:Es end.
      assert (K2 : forall x, In x (known q) -> In x (known q2)).
      { clear H. revert Es. unfold solve_sub_step. cbn [q_load_controlled moved]. rewrite El. unfold opt_for. cbn [no_time moved q_opt q_adhesion q_interf].
        rewrite En. unfold known. destruct (q_opt q) as [[k s]|].
        - match goal with |- context [read_results k ?s2] => destruct (read_results k s2) as [s3 rr] eqn:Er end.
          intros E. injection E as <- <-. cbn. intros x Hx.
          match type of Er with read_results k ?s2 = _ => replace s3 with (fst (read_results k s2)) by now rewrite Er end.
          rewrite read_heights. now apply evaluate_heights.
        - intros _ x []. }
      destruct res as [[[f h] conv]|]; [|injection H as <- <-; exact K2].
      match type of H with context [match sub_models w ?x with _ => _ end] => destruct (sub_models w x) as [st|] end; [|injection H as <- <-; exact K2].
      match type of H with context [quasi_loop w prev ol oi oo todo (S i) ?a ?b ?c ?d] => destruct (quasi_loop w prev ol oi oo todo (S i) a b c d) as [[q3 rest] r'] end.
      discriminate. }
    apply loop_round in H. destruct H as [(-> & e & ->)|H].
    + split; [auto|]. intros [|n] st E; discriminate.
    + destruct H as (off & l & ii & g & p1 & p2 & f & h & conv & q2 & st & rest & U1 & U2 & U3 & G & S & M & -> & L).
      pose proof (sub_step_ok _ _ _ _ _ _ _ _ _ S) as (k & s0 & sX & s' & O & Eq2 & Er & _ & F).
      cbn [q_load_controlled moved] in F. rewrite El in F. destruct F as (Eh & EX & Ec). rewrite set_opt_moved in Eq2.
      assert (Nk : never_fails k).
      { unfold opt_for in O. cbn [no_time moved q_opt q_adhesion] in O. rewrite En in O. destruct (q_opt q) as [[k' sk]|] eqn:Eo.
        - injection O as -> ->. eauto.
        - destruct (make_opt _ _ _ _) in O; [|discriminate]. cbn in O. injection O as <- _. apply NF. }
      assert (K0 : forall x, In x (known q) -> In x (heights s0)).
      { unfold opt_for in O. cbn [no_time moved q_opt q_adhesion] in O. rewrite En in O. unfold known. destruct (q_opt q) as [[k' sk]|] eqn:Eo; [|easy].
        injection O as -> ->. auto. }
      assert (Nh : ~ In h (heights s0)).
      { intros C. pose proof (evaluate_known k (change_load s0 1 None) h C eq_refl) as T. rewrite <- EX, Er in T. discriminate. }
      assert (Hs : heights s' = heights sX) by (replace s' with (fst (read_results k sX)) by (now rewrite Er); apply read_heights).
      assert (Kn : forall x, In x (known q) -> In x (known q2)).
      { intros x Hx. subst q2. cbn. rewrite Hs, EX. apply evaluate_heights. cbn. auto. }
      assert (Kh : In h (known q2)).
      { subst q2. cbn. rewrite Hs, EX. apply evaluate_records; [apply Nk|]. now apply evaluate_never. }
      apply IH in L.
      2: { subst q2. exact En. } 2: { subst q2. exact El. } 2: { subst q2. intros k2 s2 E. injection E as <- <-. exact Nk. }
      destruct L as [L1 L2]. split; [auto|]. assert (Is : holds_num st "interference" h).
      { unfold holds_num. rewrite (LA _ _ M). apply sub_state_num. }
      intros [|n] st' E.
      * cbn in E. injection E as <-. exists h. split; [exact Is|]. split; [auto|]. split; [auto|].
        intros [|m] st' Hm E C; [lia|]. cbn in E. destruct (L2 m st' E) as (x & X1 & X2 & _). unfold holds_num in *. assert (x = h) by congruence. subst x. auto.
      * cbn in E. destruct (L2 n st' E) as (x & X1 & X2 & X3 & X4). exists x. split; [exact X1|]. split; [auto|]. split; [auto|].
        intros [|m] st'' Hm E'; [lia|]. apply (X4 m); [lia|]. exact E'.
Qed.

(** ** Worlds that are equal for a step *)
Lemma loop_config w w' prev ol oi oo : gap_at w = gap_at w' -> root_scalar w = root_scalar w' -> cubic w = cubic w' -> sub_models w = sub_models w' ->
  forall todo i q time kept last, no_time q = true -> q_opt q <> None ->
  quasi_loop w prev ol oi oo todo i q time kept last = quasi_loop w' prev ol oi oo todo i q time kept last.
Proof.
  intros W1 W2 W3 W4. induction todo as [|todo IH]; intros i q time kept last En Eo; [reflexivity|]. cbn [quasi_loop].
  destruct (update_movement q ol oi oo (relative_time (steps q) i)) as [q1|] eqn:Eu; [|reflexivity].
  apply update_moved in Eu as (off & l & ii & -> & _). rewrite W1.
  match goal with |- context [match ?x with Ok _ => _ | Err _ => _ end] => destruct x as [[[g p1] p2]|] end; [|reflexivity].
  cbv zeta.
  match goal with |- context [solve_sub_step w ?a g ?b ?c] => assert (E : solve_sub_step w a g b c = solve_sub_step w' a g b c);
    [|rewrite E; destruct (solve_sub_step w' a g b c) as [q2 [[[f h] conv]|]] eqn:Es] end; [|rewrite W4|reflexivity].
  - unfold solve_sub_step, opt_for. cbn [no_time moved q_opt]. rewrite En. destruct (q_opt q) as [[k s]|]; [|easy].
    rewrite W2, W3. reflexivity.
  - match goal with |- context [match sub_models w' ?x with _ => _ end] => destruct (sub_models w' x) as [st|] end; [|reflexivity].
    apply sub_step_ok in Es as (k & s0 & sX & s' & _ & -> & _). rewrite IH; [reflexivity|exact En|discriminate].
Qed.
Lemma loop_subs w w' prev ol oi oo : gap_at w = gap_at w' -> config w = config w' -> limit_of w = limit_of w' -> root_scalar w = root_scalar w' -> cubic w = cubic w' ->
  (forall q g p1 p2 off new f h conv time, sub_models w (sub_state q g p1 p2 off new f h conv time) = sub_models w' (sub_state q g p1 p2 off new f h conv time)) ->
  forall todo i q time kept last,
  quasi_loop w prev ol oi oo todo i q time kept last = quasi_loop w' prev ol oi oo todo i q time kept last.
Proof.
  intros W1 W2 W3 W4 W5 W6. induction todo as [|todo IH]; intros i q time kept last; [reflexivity|]. cbn [quasi_loop].
  destruct (update_movement q ol oi oo (relative_time (steps q) i)) as [q1|] eqn:Eu; [|reflexivity].
  rewrite W1. match goal with |- context [match ?x with Ok _ => _ | Err _ => _ end] => destruct x as [[[g p1] p2]|] end; [|reflexivity].
  cbv zeta.
  match goal with |- context [solve_sub_step w ?a g ?b ?c] => assert (E : solve_sub_step w a g b c = solve_sub_step w' a g b c);
    [|rewrite E; destruct (solve_sub_step w' a g b c) as [q2 [[[f h] conv]|]] eqn:Es] end; [| |reflexivity].
  - unfold solve_sub_step, opt_for. rewrite W2, W3, W4, W5. reflexivity.
  - match goal with |- context [sub_models w ?x] => change x with (sub_state q1 g p1 p2 (off_value (q_off q1)) (Nat.eqb i 0) f h conv (time + time_step q1)) end.
    rewrite W6. match goal with |- context [sub_models w' ?x] => destruct (sub_models w' x) as [st|] end; [|reflexivity].
    now rewrite IH.
Qed.
Lemma same_names_spec a b : same_names a b = true <-> (forall x, In x a <-> In x b).
Proof.
  unfold same_names. rewrite andb_true_iff, !forallb_forall. split.
  - intros [A B] x. split; intros H; [apply smem_in, A|apply smem_in, B]; assumption.
  - intros H. split; intros x Hx; apply smem_in; now apply H.
Qed.

(** ** Steps that are solved *)
Definition good_gap (w : world) (adh : bool) (h : R) : Prop :=
  h <> 0 /\ forall o g p1 p2, gap_at w o = Ok (g, p1, p2) ->
    limit_of w g = None /\ gap (config w adh g) = g /\ exists y, In y g /\ y < h.
Lemma touching_some k g h : gap k = g -> (exists y, In y g /\ y < h) -> existsb (fun b => b) (touching k h) = true.
Proof.
  intros Hg (y & Hy & Hlt). apply existsb_exists. exists true. split; [|reflexivity]. unfold touching. rewrite Hg. apply in_map_iff. exists y.
  split; [|exact Hy]. now apply Rltb_true.
Qed.
Lemma sub_step_solved w q g p1 p2 o h : no_time q = false -> q_load_controlled q = false -> q_interf q = Some h ->
  gap_at w o = Ok (g, p1, p2) -> good_gap w (q_adhesion q) h -> exists q2 f conv, solve_sub_step w q g None None = (q2, Ok (f, h, conv)).
Proof.
  intros En El Ei G [H0 H]. destruct (H o g p1 p2 G) as (L & Hg & Hy). unfold solve_sub_step, opt_for. rewrite En, El, Ei.
  set (k := config w (q_adhesion q) g) in *. rewrite make_opt_none. cbn [bind]. rewrite L.
  set (s1 := change_load (new_opt k 1 None None) 1 None). assert (NI : ~ In h (heights s1)) by (intros [C|[]]; congruence).
  pose proof (evaluate_results k s1 h eq_refl NI eq_refl) as E. rewrite (touching_some k g h Hg Hy) in E. destruct E as [E _].
  destruct (read_results k (fst (evaluate k s1 h))) as [s3 r]. cbn in E. subst r. cbn [bind]. eauto.
Qed.
Lemma update_one_ok {A} rel add (o : A) upd old t : (forall u, upd = Some u -> exists v, u t = Ok v) -> exists v, update_one rel add o upd old t = Ok v.
Proof. intros H. unfold update_one. destruct upd as [u|]; [|eauto]. destruct (H u eq_refl) as (v & ->). cbn. eauto. Qed.
Lemma loop_solved w prev ol oi oo : (forall o, exists g p1 p2, gap_at w o = Ok (g, p1, p2)) -> (forall d, exists d', sub_models w d = Ok d') ->
  forall todo i q time kept last, no_time q = false -> q_load_controlled q = false -> q_unloading q = false ->
  (forall k, (k < i + todo)%nat ->
     (forall u, upd_off q = Some u -> exists v, u (relative_time (steps q) k) = Ok v) /\
     (forall u, upd_load q = Some u -> exists v, u (relative_time (steps q) k) = Ok v) /\
     exists h, update_one (q_relative q) Rplus oi (upd_interf q) (q_interf q) (relative_time (steps q) k) = Ok (Some h) /\ good_gap w (q_adhesion q) h) ->
  exists q' states s, quasi_loop w prev ol oi oo todo i q time kept last = (q', states, Ok s).
Proof.
  intros WG WS. induction todo as [|todo IH]; intros i q time kept last En El Eu H; [cbn; eauto|]. cbn [quasi_loop].
  destruct (H i) as (H1 & H2 & h & H3 & H4); [lia|]. unfold update_movement.
  destruct (update_one_ok (q_relative q) pair_add oo (upd_off q) (q_off q) (relative_time (steps q) i) H1) as (off & Uo). rewrite Uo. cbn [bind].
  destruct (update_one_ok (q_relative q) Rplus ol (upd_load q) (q_load q) (relative_time (steps q) i) H2) as (l & Ul). rewrite Ul. cbn [bind].
  rewrite H3. cbn [bind]. fold (moved q off l (Some h) (q_opt q)). set (q1 := moved q off l (Some h) (q_opt q)).
  change (no_time q1) with (no_time q). rewrite En. cbn [negb]. rewrite orb_true_r.
  change (q_unloading q1) with (q_unloading q). rewrite Eu.
  destruct (WG (off_value (q_off q1))) as (g & p1 & p2 & G).
  assert ((match kept with Some _ => gap_at w (off_value (q_off q1)) | None => gap_at w (off_value (q_off q1)) end) = Ok (g, p1, p2)) as G' by now destruct kept.
  unfold off_value in G'. rewrite G'. cbv zeta.
  destruct (sub_step_solved w q1 g p1 p2 _ h En El eq_refl G H4) as (q2 & f & conv & S). rewrite S.
  match goal with |- context [sub_models w ?d] => destruct (WS d) as (st & ->) end.
  pose proof (sub_step_opt _ _ _ _ _ _ _ S) as (op & ->). unfold q1. rewrite set_opt_moved.
  match goal with |- context [quasi_loop w prev ol oi oo todo (Datatypes.S i) ?a ?b ?c ?d] =>
    destruct (IH (Datatypes.S i) a b c d) as (q' & states & s & ->) end; [exact En|exact El|exact Eu| |eauto].
  cbn [moved upd_off upd_load upd_interf q_interf steps q_relative q_adhesion]. intros k Hk. destruct (H k) as (A & B & h' & C & D); [lia|].
  split; [exact A|]. split; [exact B|]. exists h'. split; [|exact D]. unfold update_one in *. destruct (upd_interf q); [exact C|].
  injection H3 as E3. congruence.
Qed.

(** The object after the loop. *)
Lemma loop_final w prev : (forall b g, never_fails (config w b g)) ->
  forall todo i q0 time kept last0 ol oi oo q3 sts r, quasi_loop w prev ol oi oo todo i q0 time kept last0 = (q3, sts, r) ->
  (forall k s1, q_opt q0 = Some (k, s1) -> never_fails k) ->
  exists off l ii o, q3 = moved q0 off l ii o /\ (upd_interf q0 = None -> ii = q_interf q0) /\ (forall k s1, o = Some (k, s1) -> never_fails k).
Proof.
  intros NF.  induction todo as [|todo IH]; intros i q0 time kept last0 ol oi oo q3 sts r E K.
    - cbn in E. injection E as <- <- <-. exists (q_off q0), (q_load q0), (q_interf q0), (q_opt q0). split; [symmetry; apply moved_self|]. auto.
    - cbn [quasi_loop] in E. destruct (update_movement q0 ol oi oo (relative_time (steps q0) i)) as [q1|] eqn:Eu.
      2: { injection E as <- <- <-. exists (q_off q0), (q_load q0), (q_interf q0), (q_opt q0). split; [symmetry; apply moved_self|]. auto. }
      apply update_moved in Eu as (off & l & ii & -> & _ & _ & U3).
      assert (Ui : upd_interf q0 = None -> ii = q_interf q0) by (intros C; rewrite C in U3; cbn in U3; congruence).
      match type of E with context [match ?x with Ok _ => _ | Err _ => _ end] => destruct x as [[[g p1] p2]|] end.
      2: { injection E as <- <- <-. exists off, l, ii, (q_opt q0). auto. }
      match type of E with context [solve_sub_step w ?a g ?b ?c] => destruct (solve_sub_step w a g b c) as [q2 res] eqn:Es end.
      assert (Q2 : exists o, q2 = moved q0 off l ii o /\ (forall k s1, o = Some (k, s1) -> never_fails k)).
      { clear E. unfold solve_sub_step in Es.
        match type of Es with context [opt_for w ?a ?b ?c ?d] => destruct (opt_for w a b c d) as [[k s0]|] eqn:Eo end.
        2: { injection Es as <- <-. exists (q_opt q0). auto. }
        assert (never_fails k) as Nk.
        { unfold opt_for in Eo. cbn [moved no_time q_opt q_adhesion] in Eo. destruct (no_time q0).
          - destruct (q_opt q0) as [[k' s']|]; [injection Eo as -> ->; eauto|]. destruct (make_opt _ _ _ _) in Eo; [|discriminate]. cbn in Eo. injection Eo as <- _. apply NF.
          - destruct (make_opt _ _ _ _) in Eo; [|discriminate]. cbn in Eo. injection Eo as <- _. apply NF. }
        assert (D : forall s1, exists o, set_opt (moved q0 off l ii (q_opt q0)) (Some (k, s1)) = moved q0 off l ii o /\ (forall k s1, o = Some (k, s1) -> never_fails k)).
        { intros s1. exists (Some (k, s1)). split; [reflexivity|]. intros k2 s2 C. injection C as <- _. exact Nk. }
        match type of Es with (if ?c then _ else _) = _ => destruct c end.
        - match type of Es with context [match ?x with Ok _ => _ | Err _ => _ end] => destruct x as [[lo hi]|] end; [|injection Es as <- _; apply D].
          match type of Es with context [root_scalar w ?a ?b ?c] => destruct (root_scalar w a b c) as [hs [x|]] end; [|injection Es as <- _; apply D].
          match type of Es with context [read_results k ?x] => destruct (read_results k x) as [s4 res'] end. injection Es as <- _. apply D.
        - match type of Es with context [read_results k ?x] => destruct (read_results k x) as [s4 res'] end. injection Es as <- _. apply D. }
      destruct Q2 as (o & -> & Ko).
      destruct res as [[[f h] conv]|]; [|injection E as <- <- <-; exists off, l, ii, o; auto].
      match type of E with context [match sub_models w ?x with _ => _ end] => destruct (sub_models w x) as [st|] end; [|injection E as <- <- <-; exists off, l, ii, o; auto].
      match type of E with context [quasi_loop w prev ol oi oo todo (Datatypes.S i) ?a ?b ?c ?d] => destruct (quasi_loop w prev ol oi oo todo (Datatypes.S i) a b c d) as [[q4 rest] r'] eqn:El end.
      injection E as <- <- <-. apply IH in El; [|exact Ko]. destruct El as (off' & l' & ii' & o' & -> & Ui' & Ko').
      exists off', l', ii', o'. split; [reflexivity|]. split; [|exact Ko']. intros C. rewrite Ui' by exact C. cbn. auto.
Qed.
Lemma first_interference w prev ol oi oo todo i q time kept last q' st0 rest r :
  quasi_loop w prev ol oi oo (S todo) i q time kept last = (q', st0 :: rest, r) -> q_load_controlled q = false -> leave_alone w "interference" ->
  exists ii, update_one (q_relative q) Rplus oi (upd_interf q) (q_interf q) (relative_time (steps q) i) = Ok ii /\
    holds_num st0 "interference" (match ii with Some h => h | None => 0 end).
Proof.
  intros H El LA. apply loop_round in H. destruct H as [(C & _)|H]; [discriminate|].
  destruct H as (off & l & ii & g & p1 & p2 & f & h & conv & q2 & st & rest' & U1 & U2 & U3 & G & S & M & E & _).
  injection E as <- _. exists ii. split; [exact U3|].
  apply sub_step_ok in S as (k & s0 & sX & s2 & _ & _ & _ & _ & F). cbn [moved q_load_controlled] in F. rewrite El in F. destruct F as (-> & _).
  unfold holds_num. rewrite (LA _ _ M). apply sub_state_num.
Qed.
Lemma loop_time_fresh w prev ol oi oo : forall todo q t ix kept lst o off l i, no_time q = false ->
  (upd_off q = None -> off = q_off q) -> (upd_load q = None -> l = q_load q) -> (upd_interf q = None -> i = q_interf q) ->
  snd (quasi_loop w prev ol oi oo todo ix (moved q off l i o) t kept lst) = snd (quasi_loop w prev ol oi oo todo ix q t kept lst) /\
  snd (fst (quasi_loop w prev ol oi oo todo ix (moved q off l i o) t kept lst)) = snd (fst (quasi_loop w prev ol oi oo todo ix q t kept lst)).
Proof.
  induction todo as [|todo IH]; intros q t ix kept lst o off l i En H1 H2 H3; [cbn; auto|]. cbn [quasi_loop].
  assert (UM : match update_movement (moved q off l i o) ol oi oo (relative_time (steps q) ix), update_movement q ol oi oo (relative_time (steps q) ix) with
    | Ok a, Ok b => exists off' l' i', a = moved q off' l' i' o /\ b = moved q off' l' i' (q_opt q)
    | Err a, Err b => a = b | _, _ => False end).
  { unfold update_movement. cbn [moved q_relative upd_off q_off upd_load q_load upd_interf q_interf].
    assert (Q : forall A rel (add : A -> A -> A) o u (old old' : option A) t, (u = None -> old' = old) -> update_one rel add o u old' t = update_one rel add o u old t).
    { intros. unfold update_one. destruct u; [reflexivity|]. now rewrite H. }
    rewrite (Q _ _ _ _ _ (q_off q) off) by exact H1. rewrite (Q _ _ _ _ _ (q_load q) l) by exact H2. rewrite (Q _ _ _ _ _ (q_interf q) i) by exact H3.
    destruct (update_one _ pair_add _ _ _ _) as [a|]; [cbn [bind]|reflexivity].
    destruct (update_one _ Rplus ol _ _ _) as [b|]; [cbn [bind]|reflexivity]. destruct (update_one _ Rplus oi _ _ _) as [c|]; [cbn [bind]|reflexivity].
    exists a, b, c. split; reflexivity. }
  change (steps (moved q off l i o)) with (steps q).
  destruct (update_movement (moved q off l i o) ol oi oo (relative_time (steps q) ix)) as [qa|], (update_movement q ol oi oo (relative_time (steps q) ix)) as [qb|] eqn:Eqb; try easy.
  2: { subst. auto. }
  destruct UM as (off' & l' & i' & -> & ->). apply update_moved in Eqb as (off2 & l2 & i2 & Em & V1 & V2 & V3). injection Em as <- <- <-.
  cbn [moved upd_off no_time q_off q_unloading time_step]. rewrite En. cbn [negb]. rewrite orb_true_r.
  match goal with |- context [match ?x with Ok _ => _ | Err _ => _ end] => destruct x as [[[g p1] p2]|] end; [|auto]. cbv zeta.
  match goal with |- context [solve_sub_step w (moved q off' l' i' o) g ?b ?c] =>
    assert (SS : snd (solve_sub_step w (moved q off' l' i' o) g b c) = snd (solve_sub_step w (moved q off' l' i' (q_opt q)) g b c) /\
                 (forall f, snd (solve_sub_step w (moved q off' l' i' o) g b c) = Ok f -> fst (solve_sub_step w (moved q off' l' i' o) g b c) = fst (solve_sub_step w (moved q off' l' i' (q_opt q)) g b c)));
    [|destruct (solve_sub_step w (moved q off' l' i' o) g b c) as [qa [[[f h] conv]|]], (solve_sub_step w (moved q off' l' i' (q_opt q)) g b c) as [qb rb] eqn:Sb] end.
  - unfold solve_sub_step, opt_for. cbn [moved no_time q_load_controlled q_load q_interf q_opt q_adhesion upper_factor]. rewrite En.
    destruct (make_opt _ _ _ _) as [s0|]; cbn [bind]; [|split; [reflexivity|discriminate]].
    destruct (q_load_controlled q).
    + destruct (root_scalar _ _ _ _) as [hs [x|]]; [|split; [reflexivity|reflexivity]]. destruct (read_results _ _) as [s4 res]. split; reflexivity.
    + destruct (read_results _ _) as [s4 res]. split; reflexivity.
  - cbn [fst snd] in SS. destruct SS as [<- SS]. specialize (SS _ eq_refl). subst qb.
    destruct (sub_models w _) as [st|]; [|auto].
    match goal with |- context [quasi_loop w prev ol oi oo todo (Datatypes.S ix) ?a ?b ?c ?d] => destruct (quasi_loop w prev ol oi oo todo (Datatypes.S ix) a b c d) as [[q4 rest] r'] end. auto.
  - cbn [fst snd] in SS. destruct SS as [<- SS]. auto.
Qed.
