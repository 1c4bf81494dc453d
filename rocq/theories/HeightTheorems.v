(** C19 to C21 and C72: the height optimisation function and combined displacements. *)
From Coq Require Import List Bool Arith Lia Reals Lra Sorted.
From Verif Require Import HeightModel HeightSpec HeightProofs.
Import ListNotations.
Local Open Scope R_scope.

(** *** C19: the cache *)

(** After every history the cached heights are strictly increasing and each has one load. *)
Theorem c19_cache_sorted : forall k load init limit os,
  cache_max k = false -> (forall l h ld, limit = Some (l, h, ld) -> 0 < h) ->
  let s := hrun k (new_opt k load init limit) os in
  StronglySorted Rlt (heights s) /\ length (total_loads s) = length (heights s).
Proof. intros k load init limit os Hc Hl. apply hinv_run; [exact Hc|]. now apply hinv_new. Qed.
Print Assumptions c19_cache_sorted.

(** An evaluation keeps every cached pair, adds at most the pair of its height and the
    load it found, and adds nothing when the solver failed. *)
Theorem c19_evaluation_adds : forall k load init limit os h,
  cache_max k = false -> (forall l hm ld, limit = Some (l, hm, ld) -> 0 < hm) ->
  let s := hrun k (new_opt k load init limit) os in
  let '(s', v) := evaluate k s h in
  (forall p, In p (cached s) -> In p (cached s')) /\
  (forall p, In p (cached s') -> In p (cached s) \/ (p = (h, v + set_load s) /\ last_failed s' = false)) /\
  (~ In h (heights s) -> last_failed s' = true -> cached s' = cached s).
Proof.
  intros k load init limit os h Hc Hl s.
  assert (I : hinv s) by (apply hinv_run; [exact Hc|now apply hinv_new]).
  pose proof (evaluate_cached k s h I) as E. destruct (evaluate k s h) as [s' v]. cbn in E.
  destruct E as (_ & E1 & E2 & E3). repeat split; auto. intros p Hp. destruct (E2 p Hp) as [H|(H & _ & H')]; auto.
Qed.
Print Assumptions c19_evaluation_adds.

(** Clearing the cache forgets everything, or, with the attribute cache_max set, keeps the lowest and the
    highest height with their loads; right after a lone first height it would be there twice. *)
Theorem c19_clear : forall k s,
  StronglySorted Rlt (heights s) -> length (total_loads s) = length (heights s) ->
  let s' := hstep k s ClearCache in
  (cache_max k = false -> cached s' = []) /\
  (cache_max k = true -> (2 <= length (heights s))%nat ->
    StronglySorted Rlt (heights s') /\ length (total_loads s') = length (heights s') /\
    forall p, In p (cached s') <->
      In p (cached s) /\ ((forall h, In h (heights s) -> fst p <= h) \/ (forall h, In h (heights s) -> h <= fst p))) /\
  set_load s' = set_load s /\ stored_results s' = stored_results s.
Proof.
  intros k s Hs Hl s'. unfold s', hstep, clear_cache, cached. split; [|split].
  - intros ->. reflexivity.
  - intros -> H2. cbn [heights total_loads]. destruct (heights s) as [|x a], (total_loads s) as [|y b]; cbn in Hl, H2; try lia.
    inversion Hs as [|? ? Ha Hf]; subst. destruct a as [|u a]; [cbn in H2; lia|].
    assert (L : forall h, In h (u :: a) -> x < h) by (now apply Forall_forall).
    assert (E : exists a0 z b0 w, u :: a = a0 ++ [z] /\ b = b0 ++ [w] /\ length a0 = length b0).
    { destruct (@exists_last _ (u :: a) ltac:(discriminate)) as (a0 & z & Ea).
      destruct (@exists_last _ b) as (b0 & w & Eb); [intros ->; discriminate|]. exists a0, z, b0, w.
      split; [exact Ea|]. split; [exact Eb|]. assert (length (u :: a) = length b) by (cbn in *; lia).
      rewrite Ea, Eb, !app_length in H. cbn in H. lia. }
    destruct E as (a0 & z & b0 & w & Ea & Eb & El). rewrite Ea, Eb in *. cbn [first_last]. rewrite !last_last.
    assert (M : forall h, In h a0 -> h < z).
    { clear - Ha. intros h Hh. induction a0 as [|v a0 IH]; [destruct Hh|]. cbn in Ha. inversion Ha as [|? ? Hb Hc]; subst.
      destruct Hh as [->|Hh]; [|now apply IH]. rewrite Forall_forall in Hc. apply Hc. apply in_or_app. right. now left. }
    assert (Hz : x < z) by (apply L, in_or_app; right; now left).
    split; [repeat constructor; exact Hz|]. split; [reflexivity|]. intros p. cbn [combine].
    assert (Cmb : combine (a0 ++ [z]) (b0 ++ [w]) = combine a0 b0 ++ [(z, w)]).
    { clear - El. revert b0 El. induction a0 as [|v a0 IH]; intros [|t b0] E; try discriminate; [reflexivity|]. cbn. rewrite IH by (cbn in E; lia). reflexivity. }
    rewrite Cmb. split.
    + intros [<-|[<-|[]]].
      * split; [now left|]. left. cbn [fst]. intros h [->|Hh]; [lra|]. left. now apply L.
      * split; [right; apply in_or_app; right; now left|]. right. cbn [fst]. intros h [->|Hh]; [lra|].
        apply in_app_or in Hh as [Hh|[->|[]]]; [left; now apply M|lra].
    + intros [[<-|Hp] B]; [now left|]. apply in_app_or in Hp as [Hp|[<-|[]]]; [|right; now left].
      destruct p as [ph pl]. apply in_combine_l in Hp. cbn [fst] in B. exfalso. destruct B as [B|B].
      * specialize (B x ltac:(now left)). specialize (L ph ltac:(apply in_or_app; now left)). lra.
      * specialize (B z ltac:(right; apply in_or_app; right; now left)). specialize (M ph Hp). lra.
  - destruct (cache_max k); split; reflexivity.
Qed.
Print Assumptions c19_clear.
(** With cache_max set, clearing the cache of a new function has its height in it twice. *)
Theorem c19_clear_twice_refuted : forall k load init, cache_max k = true ->
  let s := hrun k (new_opt k load init None) [ClearCache] in heights s = [0; 0] /\ ~ StronglySorted Rlt (heights s).
Proof.
  intros k load init Hc s. unfold s, hrun. cbn [fold_left hstep]. unfold clear_cache. rewrite Hc. cbn [heights new_opt first_last last].
  split; [reflexivity|]. intros H. inversion H as [|? ? _ F]; subst. inversion F; subst. lra.
Qed.
Print Assumptions c19_clear_twice_refuted.
Example c19_clear_case : StronglySorted Rlt [0; 1; 3] /\ length [0; 5; 7] = length [0; 1; 3].
Proof. split; [repeat constructor; lra|reflexivity]. Qed.

(** The cache cannot be noticed while the contact nodes are left free: every evaluation
    returns the load of the contact problem at its height minus the load in force,
    whatever was evaluated, read or cleared before. *)
Theorem c19_cache_transparent : forall k load init os h,
  Forall (fun g => 0 <= g) (gap k) ->
  Forall (fun o => match o with ChangeLoad _ (Some _) => False | _ => True end) os ->
  snd (evaluate k (hrun k (new_opt k load init None) os) h) = free_load k h - load_in_force load os.
Proof.
  intros k load init os h Hg Hf.
  assert (T : tinv k (hrun k (new_opt k load init None) os)) by (apply tinv_run; auto; now apply tinv_new).
  rewrite (evaluate_free k _ h T). f_equal. apply load_run.
Qed.
Print Assumptions c19_cache_transparent.

(** A solver for the examples: one pressure unit per unit of displacement. *)
Definition spring (g : list R) : hconfig :=
  HConfig g 1 true true false (fun _ z => (z, false)) (fun l => l) (fun l => l) (fun l => l).
Example c19_two_points : exists s v, evaluate (spring [0; 1]) (new_opt (spring [0; 1]) 3 None None) 2 = (s, v) /\
  v = 0 /\ heights s = [0; 2] /\ total_loads s = [0; 3].
Proof.
  pose proof (evaluate_new (spring [0; 1]) (new_opt (spring [0; 1]) 3 None None) 2) as E.
  unfold outcome, dom_of, touching in E. cbn in E.
  assert (Rltb 0 2 = true) as R1 by (apply Rltb_true; lra). assert (Rltb 1 2 = true) as R2 by (apply Rltb_true; lra).
  rewrite R1, R2 in E. cbn in E. specialize (E ltac:(intros [C|[]]; lra)). eexists _, _. split; [exact E|].
  unfold add_to_cache. cbn. assert (Reqb 2 0 = false) as -> by (apply not_true_is_false; rewrite Reqb_true; lra).
  unfold bisect_left. cbn. rewrite R1. cbn. split; [lra|]. split; [reflexivity|]. repeat f_equal; lra.
Qed.

(** With set contact nodes it can: a load change keeps the loads cached for other nodes. *)
Theorem c19_transparent_with_nodes_refuted : exists k load h n,
  let s := hrun k (new_opt k load None None) [Evaluate h; ChangeLoad load (Some n)] in
  snd (evaluate k s h) <> snd (evaluate k (hrun k (new_opt k load None None) [ChangeLoad load (Some n)]) h).
Proof.
  exists (spring [0; 1]), 3, 2, [true; false].
  cbn [hrun fold_left hstep].
  assert (R1 : Rltb 0 2 = true) by (apply Rltb_true; lra). assert (R2 : Rltb 1 2 = true) by (apply Rltb_true; lra).
  assert (N : forall s, heights s = [0] -> ~ In 2 (heights s)) by (intros s ->; intros [C|[]]; lra).
  assert (Q : Reqb 2 0 = false) by (apply not_true_is_false; rewrite Reqb_true; lra).
  set (s0 := new_opt (spring [0; 1]) 3 None None).
  assert (I0 : hinv s0) by (apply hinv_new; discriminate).
  pose proof (evaluate_new (spring [0; 1]) s0 2 (N s0 eq_refl)) as E.
  unfold outcome, dom_of, touching in E. cbn in E. rewrite R1, R2 in E. cbn in E.
  match type of E with _ = ?r => change (evaluate (spring [0; 1]) s0 2 = r) in E end.
  rewrite E. cbn [fst].
  match goal with |- snd (evaluate _ ?s 2) <> _ => set (s1 := s) end.
  assert (I1 : hinv s1).
  { assert (I2 : hinv (fst (evaluate (spring [0; 1]) s0 2))) by now apply evaluate_cached. rewrite E in I2. exact I2. }
  assert (C1 : In (2, (- 0 + 2 + (- (1) + 2 + 0)) * 1) (cached s1)).
  { unfold s1, cached, change_load, add_to_cache. cbn. rewrite Q. cbn. unfold bisect_left. cbn. rewrite R1. cbn.
    right. left. f_equal. lra. }
  rewrite (evaluate_cached_value _ s1 2 _ I1 C1). cbn [snd].
  pose proof (evaluate_new (spring [0; 1]) (change_load s0 3 (Some [true; false])) 2 (N (change_load s0 3 (Some [true; false])) eq_refl)) as E2.
  unfold outcome, dom_of in E2. cbn in E2.
  match type of E2 with _ = ?r => change (evaluate (spring [0; 1]) (change_load s0 3 (Some [true; false])) 2 = r) in E2 end.
  rewrite E2. cbn. lra.
Qed.
Print Assumptions c19_transparent_with_nodes_refuted.

(** *** C20: bounds from the cache *)

(** When cached loads do not decrease with the height, the load in force lies between the
    loads of two neighbouring cached heights and the lower end of the search interval is
    below them, the bounds are these two heights and the function has opposite signs there. *)
Theorem c20_bracket : forall k cubic s lower upper i,
  StronglySorted Rlt (heights s) -> length (total_loads s) = length (heights s) ->
  (forall a b, (a <= b < length (total_loads s))%nat -> nth a (total_loads s) 0 <= nth b (total_loads s) 0) ->
  (S i < length (heights s))%nat ->
  nth i (total_loads s) 0 < set_load s <= nth (S i) (total_loads s) 0 ->
  lower <= nth i (heights s) 0 -> 0 < nth (S i) (heights s) 0 ->
  (nth (S i) (heights s) 0 - nth i (heights s) 0) / nth (S i) (heights s) 0 >= 1 / 10 ^ 10 ->
  exists lo hi, get_bounds cubic s lower upper = Ok (lo, hi) /\ lower <= lo < hi /\
    In lo (heights s) /\ In hi (heights s) /\ (forall h, In h (heights s) -> ~ (lo < h < hi)) /\
    snd (evaluate k s lo) < 0 <= snd (evaluate k s hi).
Proof.
  intros k cubic s lower upper i Hs Hl Hm Hi Hb Hlow Hpos Hw.
  exists (nth i (heights s) 0), (nth (S i) (heights s) 0).
  assert (Hs' := proj1 (StronglySorted_nth _) Hs).
  assert (Hlt : nth i (heights s) 0 < nth (S i) (heights s) 0) by (apply Hs'; lia).
  split.
  - unfold get_bounds. assert (Nat.ltb (length (heights s)) 2 = false) as -> by (apply Nat.ltb_ge; lia).
    rewrite (bisect_inside s i) by (auto; lia).
    rewrite (nth_indep (heights s) upper 0 Hi). rewrite Rmax_left by exact Hlow.
    assert (Reqb (nth (S i) (heights s) 0) 0 = false) as ->.
    { apply not_true_is_false. intros C. apply Reqb_true in C. lra. }
    rewrite Rabs_right by lra.
    assert (Rltb ((nth (S i) (heights s) 0 - nth i (heights s) 0) / nth (S i) (heights s) 0) (1 / 10 ^ 10) = false) as ->
      by (apply Rltb_false; lra).
    assert (Rltb (nth (S i) (heights s) 0) (nth i (heights s) 0) = false) as -> by (apply Rltb_false; lra).
    reflexivity.
  - split; [lra|]. split; [apply nth_In; lia|]. split; [apply nth_In; lia|]. split.
    + intros h Hh C. apply (In_nth _ _ 0) in Hh as (j & Hj & <-).
      destruct (Nat.le_gt_cases j i) as [L|L].
      * destruct (Nat.eq_dec j i) as [->|]; [lra|]. assert (nth j (heights s) 0 < nth i (heights s) 0) by (apply Hs'; lia). lra.
      * destruct (Nat.eq_dec j (S i)) as [->|]; [lra|]. assert (nth (S i) (heights s) 0 < nth j (heights s) 0) by (apply Hs'; lia). lra.
    + rewrite (evaluate_cached_value k s _ _ (conj Hs Hl) (nth_cached s i Hl ltac:(lia))).
      rewrite (evaluate_cached_value k s _ _ (conj Hs Hl) (nth_cached s (S i) Hl ltac:(lia))). cbn. lra.
Qed.
Print Assumptions c20_bracket.

(** A load above every cached one: from the largest cached height to the given upper end. *)
Theorem c20_above : forall cubic s lower upper,
  (2 <= length (heights s))%nat -> length (total_loads s) = length (heights s) ->
  (forall a b, (a <= b < length (total_loads s))%nat -> nth a (total_loads s) 0 <= nth b (total_loads s) 0) ->
  Forall (fun l => l < set_load s) (total_loads s) -> 0 < upper ->
  let lo := Rmax (last (heights s) 0) lower in
  lo < upper -> (upper - lo) / upper >= 1 / 10 ^ 10 ->
  get_bounds cubic s lower upper = Ok (lo, upper).
Proof.
  intros cubic s lower upper H2 Hl Hm Hf Hu lo Hlo Hw. unfold get_bounds.
  assert (Nat.ltb (length (heights s)) 2 = false) as -> by (apply Nat.ltb_ge; lia).
  rewrite bisect_above by auto. rewrite Hl. rewrite (nth_overflow (heights s) upper) by lia.
  assert (E : exists n, length (heights s) = S n) by (destruct (length (heights s)); [lia|eauto]). destruct E as (n & E).
  rewrite E. assert (nth n (heights s) 0 = last (heights s) 0) as ->.
  { now apply nth_last. }
  fold lo. assert (Reqb upper 0 = false) as -> by (apply not_true_is_false; rewrite Reqb_true; lra).
  rewrite Rabs_right by lra. assert (Rltb ((upper - lo) / upper) (1 / 10 ^ 10) = false) as -> by (apply Rltb_false; lra).
  assert (Rltb upper lo = false) as -> by (apply Rltb_false; lra). reflexivity.
Qed.
Print Assumptions c20_above.

(** With fewer than two cached heights the interval is returned as given. *)
Theorem c20_empty_cache : forall cubic s lower upper, (length (heights s) < 2)%nat ->
  get_bounds cubic s lower upper = Ok (lower, upper).
Proof. intros cubic s lower upper H. unfold get_bounds. now rewrite (proj2 (Nat.ltb_lt _ _) H). Qed.
Print Assumptions c20_empty_cache.

Example c20_case : exists lo hi, get_bounds (fun _ _ _ => Err ValueError)
    (HState [0; 1; 2] [0; 10; 30] [] 15 None false false None) 0 1.5 = Ok (lo, hi) /\ lo = 1 /\ hi = 2.
Proof.
  exists 1, 2. split; [|auto]. unfold get_bounds. cbn [heights total_loads set_load length Nat.ltb Nat.leb].
  set (s := HState [0; 1; 2] [0; 10; 30] [] 15 None false false None).
  assert (E : bisect_left [0; 10; 30] 15 = 2%nat).
  { apply (bisect_inside s 1); cbn; try lia; try lra. intros i j H. cbn in H.
    destruct i as [|[|[|i]]], j as [|[|[|j]]]; cbn; try lra; lia. }
  rewrite E. cbn. rewrite Rmax_left by lra.
  assert (Reqb 2 0 = false) as -> by (apply not_true_is_false; rewrite Reqb_true; lra).
  rewrite Rabs_right by lra. assert (Rltb ((2 - 1) / 2) (1 / (10 * (10 * (10 * (10 * (10 * (10 * (10 * (10 * (10 * (10 * 1)))))))))))= false) as -> by (apply Rltb_false; lra).
  assert (Rltb 2 1 = false) as -> by (apply Rltb_false; lra). reflexivity.
Qed.
(** So the upper bound may lie above the end of the interval that was asked for (2 > 1.5
    above). *)
Theorem c20_within_interval_refuted : exists cubic s lower upper lo hi,
  StronglySorted Rlt (heights s) /\ get_bounds cubic s lower upper = Ok (lo, hi) /\ upper < hi.
Proof.
  destruct c20_case as (lo & hi & E & _ & H). eexists _, _, _, _, lo, hi. split; [|split; [exact E|lra]].
  cbn. repeat constructor; lra.
Qed.
Print Assumptions c20_within_interval_refuted.

(** Asking for the bounds of a load that is not positive divides by zero as soon as a
    second height is cached. *)
Theorem c20_no_load_refuted : forall cubic k load init limit os lower upper,
  cache_max k = false -> (forall l h ld, limit = Some (l, h, ld) -> 0 < h) ->
  let s := hrun k (new_opt k load init limit) os in
  hd_error (heights s) = Some 0 -> hd_error (total_loads s) = Some 0 -> (2 <= length (heights s))%nat ->
  (forall a b, (a <= b < length (total_loads s))%nat -> nth a (total_loads s) 0 <= nth b (total_loads s) 0) ->
  set_load s <= 0 ->
  get_bounds cubic s lower upper = Err ZeroDivisionError.
Proof.
  intros cubic k load init limit os lower upper Hc Hl s H1 H2 H3 Hm Hn.
  assert (I : hinv s) by (apply hinv_run; [exact Hc|now apply hinv_new]). destruct I as [_ I].
  unfold get_bounds. assert (Nat.ltb (length (heights s)) 2 = false) as -> by (apply Nat.ltb_ge; lia).
  destruct (heights s) as [|h0 hs] eqn:Eh; [discriminate|]. injection H1 as ->.
  destruct (total_loads s) as [|l0 ls] eqn:El; [discriminate|]. injection H2 as ->.
  pose proof (bisect_below s) as B. rewrite El in B. rewrite B; [|exact Hm|cbn; lia|cbn; lra].
  cbn. now rewrite Reqb_refl.
Qed.
Print Assumptions c20_no_load_refuted.

(** *** C21: results *)

(** After an evaluation at a height that was not cached and at which some node touches,
    the results are the solution at this height. *)
Theorem c21_results_after_new_height : forall k load init limit os h,
  let s := hrun k (new_opt k load init limit) os in
  ~ In h (heights s) -> nodes_set s = false -> existsb (fun b => b) (touching k h) = true ->
  let full := scatter (touching k h) (fst (free_solution k h)) in
  snd (read_results k (fst (evaluate k s h))) =
    Ok (Full full (disp_total k full) (disp1 k full) (disp2 k full) (map (fun x => Rltb 0 x) full) (free_load k h) h).
Proof.
  intros k load init limit os h s Hn Hs Ht full.
  pose proof (evaluate_new k s h Hn) as E. unfold outcome, dom_of in E. rewrite Hs, Ht in E.
  unfold full, free_load, free_solution in *. rewrite Ht.
  destruct (solver k (touching k h) _) as [loads failed]. cbn in E. rewrite E. cbn [fst].
  unfold read_results. cbn [stored_results nodes].
  match goal with |- context[add_to_cache k ?s0 ?h ?t ?f ?b] => destruct (add_other k s0 h t f b) as (_ & -> & _ & ->) end.
  cbn [stored_results nodes]. unfold dom_of. rewrite refill_same. reflexivity.
Qed.
Print Assumptions c21_results_after_new_height.

Example c21_case : existsb (fun b => b) (touching (spring [0; 1]) 2) = true /\
  ~ In 2 (heights (hrun (spring [0; 1]) (new_opt (spring [0; 1]) 3 None None) [])).
Proof.
  split; [|cbn; intros [C|[]]; lra]. apply existsb_exists. exists true. split; [|reflexivity].
  unfold touching. cbn. left. apply Rltb_true. lra.
Qed.

(** Results that were read once can be read again, also after the cache was cleared. *)
Theorem c21_read_again : forall k s f os, snd (read_results k s) = Ok f ->
  Forall (fun o => o = ReadResults \/ o = ClearCache) os ->
  snd (read_results k (hrun k s (ReadResults :: os))) = Ok f.
Proof.
  intros k s f os H Ho. unfold hrun. cbn [fold_left hstep].
  assert (R : stored_results (fst (read_results k s)) = Some (Final f)).
  { unfold read_results in *. destruct (stored_results s) as [[loads d h|f']|] eqn:E; [|cbn in *; congruence|discriminate].
    destruct (match nodes s with Some _ => _ | None => _ end) as [moved|]; [|discriminate]. cbn in *. congruence. }
  revert R. generalize (fst (read_results k s)). induction Ho as [|o os [->| ->] _ IH]; intros s' R; cbn [fold_left hstep].
  - unfold read_results. now rewrite R.
  - apply IH. unfold read_results. now rewrite R.
  - apply IH. unfold clear_cache. now destruct (cache_max k).
Qed.
Print Assumptions c21_read_again.

(** A cached height leaves the results of the last one that was solved. *)
Theorem c21_cached_height_refuted : forall k s h, In h (heights s) ->
  read_results k (fst (evaluate k s h)) = read_results k s.
Proof. intros k s h H. now rewrite evaluate_old. Qed.
Print Assumptions c21_cached_height_refuted.

(** Directly after a load change a cached height and one at which nothing touches leave
    nothing, and reading the results raises. *)
Theorem c21_no_contact_refuted : forall k load init limit os l h,
  let s := hrun k (new_opt k load init limit) (os ++ [ChangeLoad l None]) in
  In h (heights s) \/ existsb (fun b => b) (touching k h) = false ->
  snd (read_results k (fst (evaluate k s h))) = Err TypeError.
Proof.
  intros k load init limit os l h s H.
  assert (Hr : stored_results s = None) by (unfold s, hrun; now rewrite fold_left_app).
  assert (Hs : nodes_set s = false) by (unfold s, hrun; now rewrite fold_left_app).
  destruct (in_dec Req_EM_T h (heights s)) as [Hi|Hi].
  - rewrite evaluate_old by exact Hi. cbn [fst]. unfold read_results. now rewrite Hr.
  - destruct H as [H|H]; [contradiction|]. pose proof (evaluate_new k s h Hi) as E.
    unfold outcome, dom_of in E. rewrite Hs, H, Hr in E. rewrite E. cbn [fst].
    unfold read_results. cbn [stored_results].
    match goal with |- context[add_to_cache k ?s0 ?h ?t ?f ?b] => destruct (add_other k s0 h t f b) as (_ & -> & _) end.
    reflexivity.
Qed.
Print Assumptions c21_no_contact_refuted.

(** A height at which nothing touches, after one that was solved, does not leave its results
    either: the convolution is remade for no nodes at all, so reading them raises, or, if a
    single node was loaded, gives its pressure with the displacements of an unloaded surface. *)
Theorem c21_then_no_contact_refuted : forall k load init limit os h h',
  let s := hrun k (new_opt k load init limit) os in
  let s' := fst (evaluate k s h) in
  ~ In h (heights s) -> nodes_set s = false -> existsb (fun b => b) (touching k h) = true ->
  ~ In h' (heights s') -> existsb (fun b => b) (touching k h') = false ->
  let r := snd (read_results k (fst (evaluate k s' h'))) in
  (length (filter (fun b => b) (touching k h)) <> 1%nat -> r = Err ValueError) /\
  (length (filter (fun b => b) (touching k h)) = 1%nat -> exists f, r = Ok f /\
     r_loads f = scatter (touching k h) (fst (free_solution k h)) /\
     r_total_disp f = disp_total k (map (fun _ => 0) (gap k))).
Proof.
  intros k load init limit os h h' s s' Hn Hs Ht Hn' Ht' r.
  assert (S' : stored_results s' = Some (InDomain (fst (free_solution k h)) (touching k h) h) /\ nodes_set s' = false).
  { pose proof (evaluate_new k s h Hn) as E. unfold outcome, dom_of in E. rewrite Hs, Ht in E. unfold s', free_solution in *.
    destruct (solver k (touching k h) _) as [loads failed]. cbn in E. rewrite E. cbn [fst stored_results nodes_set].
    match goal with |- context[add_to_cache k ?s0 ?h ?t ?f ?b] => destruct (add_other k s0 h t f b) as (_ & -> & -> & _) end.
    split; reflexivity. }
  destruct S' as [S1 S2]. set (fs := fst (free_solution k h)) in *.
  assert (Z : length (filter (fun b : bool => b) (touching k h')) = 0%nat).
  { clear - Ht'. induction (touching k h') as [|[] d IH]; cbn in *; auto. discriminate. }
  assert (P : (1 <= length (filter (fun b : bool => b) (touching k h)))%nat).
  { clear - Ht. induction (touching k h) as [|[] d IH]; cbn in *; [discriminate|lia|auto]. }
  assert (Sc : scatter (touching k h') [] = map (fun _ => 0) (gap k)).
  { unfold touching in *. clear - Ht'. induction (gap k) as [|g l IH]; cbn in *; [reflexivity|].
    destruct (Rltb g h'); cbn in *; [discriminate|]. now rewrite IH. }
  assert (E : r = match refill (touching k h') (touching k h) fs with
                  | Err e => Err e
                  | Ok moved => let full := scatter (touching k h) fs in
                      Ok (Full full (disp_total k moved) (disp1 k full) (disp2 k full) (map (fun x => Rltb 0 x) full) (rsum fs * area k) h)
                  end).
  { unfold r. pose proof (evaluate_new k s' h' Hn') as E. unfold outcome, dom_of in E. rewrite S2, Ht', S1 in E. cbn in E. rewrite E.
    cbn [fst]. unfold read_results. cbn [stored_results nodes].
    match goal with |- context[add_to_cache k ?s0 ?h ?t ?f ?b] => destruct (add_other k s0 h t f b) as (_ & -> & _ & ->) end.
    cbn [stored_results nodes]. destruct (refill _ _ _); reflexivity. }
  unfold refill, nodes_in in E. rewrite Z in E. destruct (length (filter _ (touching k h))) as [|[|n]] eqn:L; [lia| |]; cbn in E; split; intros Q;
    try congruence; try discriminate.
  eexists. split; [exact E|]. cbn [r_loads r_total_disp]. now rewrite Sc.
Qed.
Print Assumptions c21_then_no_contact_refuted.
Example c21_then_case : let k := spring [1; 2] in let s := new_opt k 3 None None in
  existsb (fun b => b) (touching k 3) = true /\ existsb (fun b => b) (touching k (1 / 2)) = false /\
  ~ In 3 (heights s) /\ ~ In (1 / 2) (heights (fst (evaluate k s 3))).
Proof.
  cbn zeta. assert (N : ~ In 3 (heights (new_opt (spring [1; 2]) 3 None None))) by (cbn; intros [C|[]]; lra).
  assert (T : existsb (fun b => b) (touching (spring [1; 2]) 3) = true).
  { apply existsb_exists. exists true. split; [|reflexivity]. unfold touching. cbn. left. apply Rltb_true. lra. }
  split; [exact T|]. split; [|split; [exact N|]].
  - unfold touching. cbn. rewrite (proj2 (Rltb_false 1 (1 / 2))) by lra. rewrite (proj2 (Rltb_false 2 (1 / 2))) by lra. reflexivity.
  - destruct (evaluate_cached (spring [1; 2]) _ 3 (hinv_new (spring [1; 2]) 3 None None ltac:(discriminate))) as (I & _ & E & _).
    intros C. apply (In_nth _ _ 0) in C as (i & Hi & Ei).
    pose proof (nth_cached _ i (proj2 I) Hi) as Q. rewrite Ei in Q.
    destruct (E _ Q) as [[X|[]]|(X & _)]; injection X as X _; lra.
Qed.

(** With a material that has no influence matrix every evaluation at a new height raises. *)
Theorem c21_other_materials_refuted : forall k load init limit ls h total,
  let s := fold_left (fun s ln => change_load s (fst ln) (snd ln)) ls (new_opt k load init limit) in
  ~ In h (heights s) -> evaluate_basic s h total = Err TypeError.
Proof.
  intros k load init limit ls h total s Hn. unfold evaluate_basic. apply rmem_false in Hn. rewrite Hn.
  assert (stored_results s = None) as ->; [|reflexivity]. unfold s. clear.
  assert (H : forall s0, stored_results s0 = None ->
    stored_results (fold_left (fun s ln => change_load s (fst ln) (snd ln)) ls s0) = None).
  { induction ls as [|x ls IH]; intros s0 H0; [exact H0|]. cbn. now apply IH. }
  apply H. unfold new_opt. destruct limit as [[[? ?] ?]|]; [destruct (use_cache k)|]; reflexivity.
Qed.
Print Assumptions c21_other_materials_refuted.

(** *** C72: combined displacements *)

(** The total is the sum of the two; the second body gets the loads with the chosen
    components reversed. *)
Theorem c72_total_is_sum : forall m1 m2 rx ry rz l t d1 d2,
  normal_loading m1 m2 rx ry rz l = Ok (t, d1, d2) ->
  m1 l = Ok d1 /\
  (exists l2, m2 l2 = Ok d2 /\
     vx l2 = (if rx then option_map (map Ropp) (vx l) else vx l) /\
     vy l2 = (if ry then option_map (map Ropp) (vy l) else vy l) /\
     vz l2 = (if rz then option_map (map Ropp) (vz l) else vz l)) /\
  (forall f, In f [vx; vy; vz] -> exists a b c, f d1 = Some a /\ f d2 = Some b /\ f t = Some c /\
     forall i, (i < length a)%nat -> (i < length b)%nat -> nth i c 0 = nth i a 0 + nth i b 0).
Proof.
  intros m1 m2 rx ry rz l t d1 d2. unfold normal_loading.
  assert (LA : forall a b i, (i < length a)%nat -> (i < length b)%nat -> nth i (ladd a b) 0 = nth i a 0 + nth i b 0).
  { induction a as [|x a IH]; intros [|y b] [|i] H1 H2; cbn in *; try lia; [reflexivity|]. apply IH; lia. }
  assert (ON : forall (a : option (list R)) b, oneg a = Ok b -> b = option_map (map Ropp) a).
  { intros [a|] b H; [|discriminate]. injection H as <-. cbn. f_equal. apply map_ext. intros. lra. }
  destruct (m1 l) as [e1|]; [|discriminate]. cbn [bind]. intros H.
  destruct (reverse rx ry rz l) as [l2|] eqn:Er; [|discriminate]. cbn [bind] in H.
  destruct (m2 l2) as [e2|] eqn:E2; [|discriminate]. cbn [bind] in H.
  destruct (oadd (vx e1) (vx e2)) as [x|] eqn:Ox; [|discriminate]. cbn [bind] in H.
  destruct (oadd (vy e1) (vy e2)) as [y|] eqn:Oy; [|discriminate]. cbn [bind] in H.
  destruct (oadd (vz e1) (vz e2)) as [z|] eqn:Oz; [|discriminate]. cbn [bind] in H.
  injection H as <- <- <-. split; [reflexivity|]. split.
  - exists l2. split; [exact E2|]. unfold reverse in Er.
    destruct rx, ry, rz; cbn [orb] in Er; try (injection Er as <-; auto; fail);
      repeat match type of Er with bind (oneg ?a) _ = _ =>
        destruct (oneg a) as [?o|] eqn:?On; [apply ON in On; subst; cbn [bind] in Er|discriminate] end;
      cbn [bind] in Er; repeat match type of Er with bind (oneg ?a) _ = _ =>
        destruct (oneg a) as [?o|] eqn:?On; [apply ON in On; subst; cbn [bind] in Er|discriminate] end;
      cbn [bind] in Er; repeat match type of Er with bind (oneg ?a) _ = _ =>
        destruct (oneg a) as [?o|] eqn:?On; [apply ON in On; subst; cbn [bind] in Er|discriminate] end;
      injection Er as <-; cbn; auto.
  - assert (OA : forall a b c, oadd a b = Ok c -> exists a' b' c', a = Some a' /\ b = Some b' /\ c = Some c' /\
        forall i, (i < length a')%nat -> (i < length b')%nat -> nth i c' 0 = nth i a' 0 + nth i b' 0).
    { intros [a|] [b|] c H; try discriminate. injection H as <-. exists a, b, (ladd a b). repeat split. apply LA. }
    intros f [<-|[<-|[<-|[]]]]; cbn; apply OA; assumption.
Qed.
Print Assumptions c72_total_is_sum.

(** Without reversed components exchanging the two bodies exchanges their displacements
    and leaves the total. *)
Theorem c72_exchange : forall m1 m2 l t d1 d2,
  normal_loading m1 m2 false false false l = Ok (t, d1, d2) ->
  normal_loading m2 m1 false false false l = Ok (t, d2, d1).
Proof.
  intros m1 m2 l t d1 d2. unfold normal_loading, reverse. cbn [orb bind].
  assert (LC : forall a b, ladd a b = ladd b a).
  { induction a as [|x a IH]; intros [|y b]; cbn; try reflexivity. now rewrite IH, Rplus_comm. }
  assert (OC : forall a b, oadd a b = oadd b a).
  { intros [a|] [b|]; cbn; try reflexivity. now rewrite LC. }
  destruct (m1 l) as [e1|]; [|discriminate]. destruct (m2 l) as [e2|]; [|discriminate]. cbn [bind].
  rewrite (OC (vx e1)), (OC (vy e1)), (OC (vz e1)).
  destruct (oadd (vx e2) (vx e1)); [|discriminate]. destruct (oadd (vy e2) (vy e1)); [|discriminate].
  destruct (oadd (vz e2) (vz e1)); [|discriminate]. cbn. intros H. now injection H as <- <- <-.
Qed.
Print Assumptions c72_exchange.

(** Reversing a component without loads raises. *)
Theorem c72_reverse_missing_refuted : forall m1 m2 ry rz l, vx l = None -> (exists d, m1 l = Ok d) ->
  normal_loading m1 m2 true ry rz l = Err TypeError.
Proof. intros m1 m2 ry rz l Hx (d & Hd). unfold normal_loading, reverse. rewrite Hd. cbn. now rewrite Hx. Qed.
Print Assumptions c72_reverse_missing_refuted.

Example c72_case : exists t d1 d2, normal_loading
    (fun l => Ok (Vec3 (vx l) (vy l) (vz l))) (fun l => Ok (Vec3 (vx l) (vy l) (vz l))) true false false
    (Vec3 (Some [1]) (Some [2]) (Some [3])) = Ok (t, d1, d2) /\ vx t = Some [1 + -1 * 1] /\ vz t = Some [3 + 3].
Proof. eexists _, _, _. split; [reflexivity|]. split; reflexivity. Qed.
