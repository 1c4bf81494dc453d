(** Proofs for the height optimisation cache. *)
From Coq Require Import List Bool Arith Lia Reals Lra Sorted.
From Verif Require Import HeightModel HeightSpec.
Import ListNotations.
Local Open Scope R_scope.

Lemma Rltb_true x y : Rltb x y = true <-> x < y.
Proof. unfold Rltb. destruct (Rlt_dec x y); split; congruence || tauto. Qed.
Lemma Rltb_false x y : Rltb x y = false <-> y <= x.
Proof. unfold Rltb. destruct (Rlt_dec x y); split; try congruence; lra. Qed.
Lemma Reqb_true x y : Reqb x y = true <-> x = y.
Proof. unfold Reqb. destruct (Req_EM_T x y); split; congruence || tauto. Qed.
Lemma Reqb_refl x : Reqb x x = true.
Proof. now apply Reqb_true. Qed.
Lemma rmem_in x l : rmem x l = true <-> In x l.
Proof.
  unfold rmem. rewrite existsb_exists. split.
  - intros (y & H & E). apply Reqb_true in E. now subst.
  - intros H. exists x. split; [exact H|apply Reqb_refl].
Qed.
Lemma rmem_false x l : rmem x l = false <-> ~ In x l.
Proof. rewrite <- rmem_in. destruct (rmem x l); split; congruence || tauto. Qed.

(** Position of [x] in a list. *)
Definition splits (a : list R) (x : R) (i : nat) : Prop :=
  (i <= length a)%nat /\ (forall j, (j < i)%nat -> nth j a 0 < x) /\
  (forall j, (i <= j < length a)%nat -> x <= nth j a 0).
Definition sorted_le (a : list R) : Prop :=
  forall i j, (i <= j < length a)%nat -> nth i a 0 <= nth j a 0.
Definition sorted_lt (a : list R) : Prop :=
  forall i j, (i < j < length a)%nat -> nth i a 0 < nth j a 0.
Lemma sorted_lt_le a : sorted_lt a -> sorted_le a.
Proof.
  intros H i j Hij. destruct (Nat.eq_dec i j) as [->|]; [lra|]. apply Rlt_le, H. lia.
Qed.
Lemma bisect_loop_spec a x : sorted_le a -> forall fuel lo hi,
  (hi - lo <= fuel)%nat -> (lo <= hi <= length a)%nat ->
  (forall j, (j < lo)%nat -> nth j a 0 < x) -> (forall j, (hi <= j < length a)%nat -> x <= nth j a 0) ->
  splits a x (bisect_loop a x fuel lo hi).
Proof.
  intros Hs. induction fuel as [|f IH]; intros lo hi Hf Hr Hlo Hhi; cbn [bisect_loop].
  - assert (lo = hi) by lia. subst. split; [lia|]. auto.
  - destruct (Nat.ltb_spec lo hi) as [Hl|Hl].
    + set (mid := Nat.div (lo + hi) 2).
      assert (Hm : (lo <= mid < hi)%nat).
      { unfold mid. split; [apply Nat.div_le_lower_bound; lia|apply Nat.div_lt_upper_bound; lia]. }
      destruct (Rltb (nth mid a 0) x) eqn:E.
      * apply Rltb_true in E. apply IH; [lia|lia| |exact Hhi].
        intros j Hj. apply Rle_lt_trans with (nth mid a 0); [apply Hs; lia|exact E].
      * apply Rltb_false in E. apply IH; [lia|lia|exact Hlo|].
        intros j Hj. apply Rle_trans with (nth mid a 0); [exact E|apply Hs; lia].
    + assert (lo = hi) by lia. subst. split; [lia|]. auto.
Qed.
Lemma bisect_left_spec a x : sorted_le a -> splits a x (bisect_left a x).
Proof. intros H. apply bisect_loop_spec; try lia; auto; intros; lia. Qed.

Lemma StronglySorted_nth a : StronglySorted Rlt a <-> sorted_lt a.
Proof.
  split.
  - induction 1 as [|x l H IH Hf]; intros i j Hij; cbn in Hij; [lia|].
    destruct i, j; cbn; try lia.
    + rewrite Forall_forall in Hf. apply Hf, nth_In. lia.
    + apply IH. lia.
  - induction a as [|x l IH]; intros H; [constructor|]. constructor.
    + apply IH. intros i j Hij. apply (H (S i) (S j)). cbn. lia.
    + rewrite Forall_forall. intros y Hy. apply (In_nth _ _ 0) in Hy as (n & Hn & <-).
      apply (H O (S n)). cbn. lia.
Qed.

Lemma insert_length {A} i (x : A) l : (i <= length l)%nat -> length (insert i x l) = S (length l).
Proof. intros H. unfold insert. rewrite app_length, firstn_length. cbn. rewrite skipn_length. lia. Qed.
Lemma in_insert {A} i (x y : A) l : In y (insert i x l) <-> y = x \/ In y l.
Proof.
  unfold insert. rewrite in_app_iff. cbn. rewrite <- (firstn_skipn i l) at 3. rewrite in_app_iff.
  split; intros; intuition congruence.
Qed.
Lemma combine_insert {A B} i (x : A) (y : B) : forall a b, length a = length b ->
  combine (insert i x a) (insert i y b) = insert i (x, y) (combine a b).
Proof.
  unfold insert. induction i as [|i IH]; intros a b H; [reflexivity|].
  destruct a, b; cbn in *; try discriminate; [destruct i; reflexivity|]. f_equal. apply IH. lia.
Qed.
Lemma SS_app (a b : list R) : StronglySorted Rlt a -> StronglySorted Rlt b ->
  (forall x y, In x a -> In y b -> x < y) -> StronglySorted Rlt (a ++ b).
Proof.
  intros Ha Hb H. induction Ha as [|x l Hl IH Hf]; [exact Hb|]. cbn. constructor.
  - apply IH. intros u v Hu Hv. apply H; [now right|exact Hv].
  - rewrite Forall_forall in *. intros y Hy. apply in_app_iff in Hy as [Hy|Hy]; [now apply Hf|].
    apply H; [now left|exact Hy].
Qed.
Lemma SS_app_inv (a b : list R) : StronglySorted Rlt (a ++ b) -> StronglySorted Rlt a /\ StronglySorted Rlt b.
Proof.
  induction a as [|x a IH]; cbn; intros H; [split; [constructor|exact H]|].
  inversion H as [|? ? H1 H2]; subst. destruct (IH H1) as [Ia Ib]. split; [|exact Ib]. constructor; [exact Ia|].
  rewrite Forall_forall in *. intros y Hy. apply H2, in_app_iff. now left.
Qed.
Lemma in_firstn_nth (a : list R) i y : In y (firstn i a) -> exists j, (j < i)%nat /\ (j < length a)%nat /\ y = nth j a 0.
Proof.
  revert i. induction a as [|x a IH]; intros [|i] H; cbn in H; try destruct H.
  - exists O. cbn. repeat split; try lia. now symmetry.
  - destruct (IH i H) as (j & H1 & H2 & H3). exists (S j). cbn. repeat split; try lia. exact H3.
Qed.
Lemma in_skipn_nth (a : list R) i y : In y (skipn i a) -> exists j, (i <= j < length a)%nat /\ y = nth j a 0.
Proof.
  revert i. induction a as [|x a IH]; intros [|i] H; cbn in H; try destruct H.
  - exists O. cbn. split; [lia|now symmetry].
  - apply (In_nth _ _ 0) in H as (n & Hn & <-). exists (S n). cbn. split; [lia|reflexivity].
  - destruct (IH i H) as (j & H1 & H2). exists (S j). cbn. split; [lia|exact H2].
Qed.
Lemma sorted_insert a x i : StronglySorted Rlt a -> ~ In x a -> splits a x i -> StronglySorted Rlt (insert i x a).
Proof.
  intros Hs Hn (H1 & H2 & H3). unfold insert. rewrite <- (firstn_skipn i a) in Hs. destruct (SS_app_inv _ _ Hs) as [S1 S2].
  assert (Hgt : forall y, In y (skipn i a) -> x < y).
  { intros y Hy. pose proof Hy as Hy'. apply in_skipn_nth in Hy' as (j & Hj & ->). specialize (H3 j Hj).
    destruct H3 as [H3|H3]; [exact H3|]. exfalso. apply Hn. rewrite H3. apply nth_In. lia. }
  apply SS_app; [exact S1| |].
  - constructor; [exact S2|]. apply Forall_forall. exact Hgt.
  - intros u v Hu Hv. apply in_firstn_nth in Hu as (j & Hj & _ & ->). specialize (H2 j Hj).
    destruct Hv as [<-|Hv]; [exact H2|]. specialize (Hgt v Hv). lra.
Qed.

(** The invariant. *)
Definition hinv (s : hstate) : Prop :=
  StronglySorted Rlt (heights s) /\ length (total_loads s) = length (heights s).

Lemma add_spec k s h l f b : hinv s -> use_cache k = true -> ~ In h (heights s) -> b = false ->
  let s' := add_to_cache k s h l f b in hinv s' /\
  (forall x, In x (heights s') <-> x = h \/ In x (heights s)) /\
  (forall p, In p (cached s') <-> p = (h, l) \/ In p (cached s)).
Proof.
  intros [I1 I2] Hu Hn -> s'. unfold s', add_to_cache. rewrite Hu. apply rmem_false in Hn as Hm. rewrite Hm. cbn.
  pose proof (bisect_left_spec (heights s) h (sorted_lt_le _ (proj1 (StronglySorted_nth _) I1))) as Sp.
  split; [split; cbn|].
  - now apply sorted_insert.
  - destruct Sp as [Sp _]. rewrite !insert_length; lia.
  - split; [intros x; apply in_insert|]. intros p. unfold cached. cbn. rewrite combine_insert by lia. apply in_insert.
Qed.
Lemma add_id k s h l f : add_to_cache k s h l f true = s.
Proof. unfold add_to_cache. now rewrite andb_false_r. Qed.
Lemma add_other k s h l f b : set_load (add_to_cache k s h l f b) = set_load s /\
  stored_results (add_to_cache k s h l f b) = stored_results s /\
  nodes_set (add_to_cache k s h l f b) = nodes_set s /\ nodes (add_to_cache k s h l f b) = nodes s.
Proof. unfold add_to_cache. destruct (_ && _ && _); auto. Qed.

(** What an evaluation at a height that is not cached computes. *)
Definition dom_of (k : hconfig) (s : hstate) (h : R) : list bool :=
  match nodes_set s, nodes s with true, Some d => d | _, _ => touching k h end.
Definition outcome (k : hconfig) (s : hstate) (h : R) : R * list R * bool * option stored :=
  let dom := dom_of k s h in
  if existsb (fun b => b) dom then
    let '(loads, failed) := solver k dom (select dom (map (fun g => h - g) (gap k))) in
    (rsum loads * area k, scatter dom loads, failed, Some (InDomain loads dom h))
  else (0, map (fun _ => 0) dom, false, stored_results s).
Lemma touching_z k h : map (fun x => Rltb 0 x) (map (fun g => - g + h) (gap k)) = touching k h.
Proof.
  unfold touching. rewrite map_map. apply map_ext. intros g. unfold Rltb.
  destruct (Rlt_dec 0 (- g + h)), (Rlt_dec g h); try reflexivity; exfalso; lra.
Qed.
Lemma z_alt k h : map (fun g => - g + h) (gap k) = map (fun g => h - g) (gap k).
Proof. apply map_ext. intros. lra. Qed.
Lemma evaluate_new k s h : ~ In h (heights s) ->
  let '(total, full, failed, res) := outcome k s h in
  let s2 := add_to_cache k (HState (heights s) (total_loads s) (surf_loads s) (set_load s) (Some (dom_of k s h)) (nodes_set s)
                (last_failed s) res) h total full failed in
  evaluate k s h = (HState (heights s2) (total_loads s2) (surf_loads s2) (set_load s2) (nodes s2) (nodes_set s2) failed
       (stored_results s2), total - set_load s).
Proof.
  intros Hn. apply rmem_false in Hn. unfold evaluate. rewrite Hn. cbv zeta. rewrite touching_z, z_alt.
  unfold outcome, dom_of.
  destruct (nodes_set s), (nodes s) as [d|]; cbn [existsb];
    match goal with |- context[if existsb ?f ?d then _ else _] => destruct (existsb f d); [destruct (solver k d _)|] end; reflexivity.
Qed.
Lemma evaluate_old k s h : In h (heights s) ->
  evaluate k s h = (s, nth (index_of h (heights s)) (total_loads s) 0 - set_load s).
Proof. intros H. apply rmem_in in H. unfold evaluate. now rewrite H. Qed.

Lemma evaluate_cached k s h : hinv s ->
  let s' := fst (evaluate k s h) in hinv s' /\
  (forall p, In p (cached s) -> In p (cached s')) /\
  (forall p, In p (cached s') -> In p (cached s) \/
     (p = (h, snd (evaluate k s h) + set_load s) /\ ~ In h (heights s) /\ last_failed s' = false)) /\
  (~ In h (heights s) -> last_failed s' = true -> cached s' = cached s).
Proof.
  intros I. destruct (in_dec Req_EM_T h (heights s)) as [Hi|Hn].
  - rewrite evaluate_old by exact Hi. cbn. tauto.
  - pose proof (evaluate_new k s h Hn) as E. destruct (outcome k s h) as [[[total full] failed] res].
    cbn zeta in E. rewrite E. cbn [fst snd last_failed].
    set (s1 := HState (heights s) (total_loads s) (surf_loads s) (set_load s) (Some (dom_of k s h)) (nodes_set s) (last_failed s) res).
    fold s1 in E. assert (I1 : hinv s1) by exact I.
    destruct failed.
    + rewrite add_id. repeat split; try apply I; intros; auto.
    + destruct (use_cache k) eqn:Eu.
      * destruct (add_spec k s1 h total full false I1 Eu Hn eq_refl) as (A1 & A2 & A3).
        split; [exact A1|]. split; [intros p Hp; apply A3; now right|]. split; [|congruence].
        intros p Hp. apply A3 in Hp as [->|Hp]; [right|now left]. split; [f_equal; lra|auto].
      * assert (Es : add_to_cache k s1 h total full false = s1) by (unfold add_to_cache; now rewrite Eu).
        rewrite Es. repeat split; try apply I; intros; auto; congruence.
Qed.

Lemma hinv_step k s o : cache_max k = false -> hinv s -> hinv (hstep k s o).
Proof.
  intros Hc I. destruct o; cbn.
  - now apply evaluate_cached.
  - exact I.
  - unfold clear_cache. rewrite Hc. split; [constructor|reflexivity].
  - unfold read_results. destruct (stored_results s) as [[loads d h|f]|]; try exact I.
    destruct (match nodes s with Some _ => _ | None => _ end); exact I.
Qed.
Lemma hinv_run k s os : cache_max k = false -> hinv s -> hinv (hrun k s os).
Proof.
  intros Hc. unfold hrun. revert s. induction os as [|o os IH]; intros s I; [exact I|]. cbn. apply IH. now apply hinv_step.
Qed.
Lemma hinv_new k load init limit : (forall l h ld, limit = Some (l, h, ld) -> 0 < h) -> hinv (new_opt k load init limit).
Proof.
  intros H. unfold new_opt. destruct limit as [[[l h] ld]|].
  - specialize (H l h ld eq_refl). destruct (use_cache k); split; cbn; repeat constructor. exact H.
  - split; cbn; repeat constructor.
Qed.

Lemma nth_index x (a b : list R) : length b = length a -> In x a ->
  In (x, nth (index_of x a) b 0) (combine a b).
Proof.
  revert b. induction a as [|y a IH]; intros [|z b] H Hin; cbn in *; try discriminate; [destruct Hin|].
  destruct (Reqb x y) eqn:E.
  - apply Reqb_true in E. subst. now left.
  - right. destruct Hin as [->|Hin]; [rewrite Reqb_refl in E; discriminate|]. apply IH; [lia|exact Hin].
Qed.
Lemma combine_fun (a b : list R) x u v : NoDup a -> In (x, u) (combine a b) -> In (x, v) (combine a b) -> u = v.
Proof.
  revert b. induction a as [|y a IH]; intros [|z b] Hn Hu Hv; cbn in *; try contradiction.
  inversion Hn as [|? ? Hy Hn']; subst.
  destruct Hu as [Hu|Hu], Hv as [Hv|Hv].
  - congruence.
  - injection Hu as -> _. exfalso. apply Hy. eapply in_combine_l; exact Hv.
  - injection Hv as -> _. exfalso. apply Hy. eapply in_combine_l; exact Hu.
  - eapply IH; eauto.
Qed.
Lemma SS_NoDup a : StronglySorted Rlt a -> NoDup a.
Proof.
  induction 1 as [|x l H IH Hf]; constructor; [|exact IH]. intros C. rewrite Forall_forall in Hf. specialize (Hf x C). lra.
Qed.
Lemma evaluate_cached_value k s h l : hinv s -> In (h, l) (cached s) -> evaluate k s h = (s, l - set_load s).
Proof.
  intros [I1 I2] H. pose proof (in_combine_l _ _ _ _ H) as Hi. rewrite evaluate_old by exact Hi. f_equal.
  rewrite (combine_fun (heights s) (total_loads s) h l (nth (index_of h (heights s)) (total_loads s) 0)); try reflexivity.
  - now apply SS_NoDup.
  - exact H.
  - now apply nth_index.
Qed.

(** Transparency with free contact nodes. *)
Definition free_op (o : hop) : Prop := match o with ChangeLoad _ (Some _) => False | _ => True end.
Definition tinv (k : hconfig) (s : hstate) : Prop :=
  length (total_loads s) = length (heights s) /\ nodes_set s = false /\ forall h l, In (h, l) (cached s) -> l = free_load k h.
(** The same without the order of the heights. *)
Lemma bisect_loop_le a x fuel : forall lo hi, (lo <= hi)%nat -> (bisect_loop a x fuel lo hi <= hi)%nat.
Proof.
  induction fuel as [|f IH]; intros lo hi H; cbn [bisect_loop]; [exact H|]. destruct (Nat.ltb_spec lo hi) as [L|L]; [|exact H].
  assert ((lo + hi) / 2 < hi)%nat by (apply Nat.div_lt_upper_bound; lia).
  destruct (Rltb _ _); [apply IH; lia|]. assert (lo <= (lo + hi) / 2)%nat by (apply Nat.div_le_lower_bound; lia).
  specialize (IH lo ((lo + hi) / 2)%nat ltac:(assumption)). lia.
Qed.
Lemma evaluate_pairs k s h : length (total_loads s) = length (heights s) ->
  let s' := fst (evaluate k s h) in length (total_loads s') = length (heights s') /\
  (forall p, In p (cached s') -> In p (cached s) \/ p = (h, snd (evaluate k s h) + set_load s)).
Proof.
  intros I. destruct (in_dec Req_EM_T h (heights s)) as [Hi|Hn].
  - rewrite evaluate_old by exact Hi. cbn. tauto.
  - pose proof (evaluate_new k s h Hn) as E. destruct (outcome k s h) as [[[total full] failed] res].
    cbn zeta in E. rewrite E. cbn [fst snd heights total_loads]. unfold add_to_cache. cbn [heights total_loads].
    destruct (_ && _ && _); cbn [heights total_loads].
    + pose proof (bisect_loop_le (heights s) h (length (heights s)) 0 (length (heights s)) ltac:(lia)) as B.
      fold (bisect_left (heights s) h) in B. split; [rewrite !insert_length; lia|].
      intros p Hp. unfold cached in Hp. cbn [heights total_loads] in Hp. rewrite combine_insert in Hp by lia.
      apply in_insert in Hp as [->|Hp]; [right; f_equal; lra|left; exact Hp].
    + split; [exact I|]. intros p Hp. left. exact Hp.
Qed.
Lemma first_last_pairs (a b : list R) p : length b = length a -> In p (combine (first_last a) (first_last b)) -> In p (combine a b).
Proof.
  destruct a as [|x a], b as [|y b]; intros H Hp; try discriminate; [exact Hp|]. cbn in H. cbn [first_last combine] in Hp.
  destruct Hp as [<-|[<-|[]]]; [left; reflexivity|].
  clear - H. revert x y b H. induction a as [|u a IH]; intros x y [|w b] H; try discriminate; [left; reflexivity|].
  right. cbn in H. assert (E : forall (l : list R) v d, last (v :: l) d = last l v).
  { clear. assert (G : forall (l : list R) z d d', last (z :: l) d = last (z :: l) d').
    { induction l as [|t l IH]; intros z d d'; [reflexivity|]. apply (IH t). }
    intros [|z l] v d; [reflexivity|]. apply (G l z). }
  rewrite !E. apply IH. lia.
Qed.
Lemma outcome_free k s h : nodes_set s = false -> fst (fst (fst (outcome k s h))) = free_load k h.
Proof.
  intros H. unfold outcome, dom_of, free_load, free_solution. rewrite H.
  destruct (existsb _ _); [|reflexivity]. destruct (solver k _ _); reflexivity.
Qed.
Lemma evaluate_free k s h : tinv k s -> snd (evaluate k s h) = free_load k h - set_load s.
Proof.
  intros (I & Hn & Hc). destruct (in_dec Req_EM_T h (heights s)) as [Hi|Hi].
  - rewrite evaluate_old by exact Hi. cbn. f_equal. apply Hc. apply nth_index; [exact I|exact Hi].
  - pose proof (evaluate_new k s h Hi) as E. pose proof (outcome_free k s h Hn) as O.
    destruct (outcome k s h) as [[[total full] failed] res]. cbn in O. cbn zeta in E. rewrite E. cbn. now rewrite O.
Qed.
Lemma evaluate_keeps k s h : nodes_set (fst (evaluate k s h)) = nodes_set s /\ set_load (fst (evaluate k s h)) = set_load s.
Proof.
  destruct (in_dec Req_EM_T h (heights s)) as [Hi|Hi].
  - now rewrite evaluate_old.
  - pose proof (evaluate_new k s h Hi) as E.
    destruct (outcome k s h) as [[[total full] failed] res]. cbn zeta in E. rewrite E. cbn.
    match goal with |- context[add_to_cache k ?s0 h total full failed] =>
      destruct (add_other k s0 h total full failed) as (A1 & A2 & A3 & A4) end.
    now rewrite A1, A3.
Qed.
Lemma read_keeps k s : heights (fst (read_results k s)) = heights s /\ total_loads (fst (read_results k s)) = total_loads s /\
  nodes_set (fst (read_results k s)) = nodes_set s /\ set_load (fst (read_results k s)) = set_load s.
Proof.
  unfold read_results. destruct (stored_results s) as [[loads d h|f]|]; auto.
  destruct (match nodes s with Some _ => _ | None => _ end); auto.
Qed.
Lemma refill_same d loads : refill d d loads = Ok (scatter d loads).
Proof. unfold refill. now rewrite Nat.eqb_refl. Qed.
Lemma tinv_step k s o : free_op o -> tinv k s -> tinv k (hstep k s o).
Proof.
  intros Hf T. pose proof T as (I & Hn & Hl). destruct o as [h|l n| |]; cbn.
  - destruct (evaluate_pairs k s h I) as [I' C]. split; [exact I'|].
    destruct (evaluate_keeps k s h) as [-> _]. split; [exact Hn|].
    intros h' l' Hin. apply C in Hin as [Hin|E]; [now apply Hl|].
    injection E as -> ->. rewrite (evaluate_free k s h T). lra.
  - destruct n; [destruct Hf|]. split; [exact I|]. split; [reflexivity|exact Hl].
  - unfold clear_cache. destruct (cache_max k).
    + split; [|split; [exact Hn|]]; cbn [total_loads heights].
      * destruct (heights s), (total_loads s); cbn in *; try discriminate; reflexivity.
      * intros h l Hp. apply Hl. unfold cached in Hp. cbn [heights total_loads] in Hp. apply first_last_pairs; assumption.
    + split; [reflexivity|]. split; [exact Hn|]. intros h l [].
  - destruct (read_keeps k s) as (R1 & R2 & R3 & _). unfold tinv, cached. rewrite R1, R2, R3. exact T.
Qed.
Lemma tinv_run k os : forall s, Forall free_op os -> tinv k s -> tinv k (hrun k s os).
Proof.
  induction os as [|o os IH]; intros s Hf T; [exact T|]. inversion Hf; subst. cbn. apply IH; [assumption|].
  now apply tinv_step.
Qed.
Lemma load_run k os : forall s, set_load (hrun k s os) = load_in_force (set_load s) os.
Proof.
  induction os as [|o os IH]; intros s; [reflexivity|]. unfold hrun in *. cbn. rewrite IH. unfold load_in_force. cbn [fold_left]. f_equal. destruct o; cbn.
  - apply evaluate_keeps.
  - reflexivity.
  - unfold clear_cache. destruct (cache_max k); reflexivity.
  - apply read_keeps.
Qed.
Lemma tinv_new k load init : Forall (fun g => 0 <= g) (gap k) -> tinv k (new_opt k load init None).
Proof.
  intros Hg. split; [reflexivity|]. split; [reflexivity|].
  intros h l [E|[]]. injection E as <- <-. unfold free_load.
  assert (N : existsb (fun b => b) (touching k 0) = false).
  { apply not_true_is_false. intros C. apply existsb_exists in C as (b & Hb & ->).
    unfold touching in Hb. apply in_map_iff in Hb as (g & E & Hin). apply Rltb_true in E.
    rewrite Forall_forall in Hg. specialize (Hg g Hin). lra. }
  now rewrite N.
Qed.

(** Bounds. *)
Lemma bisect_inside s i :
  (2 <= length (heights s))%nat -> sorted_le (total_loads s) -> length (total_loads s) = length (heights s) ->
  (S i < length (heights s))%nat -> nth i (total_loads s) 0 < set_load s <= nth (S i) (total_loads s) 0 ->
  bisect_left (total_loads s) (set_load s) = S i.
Proof.
  intros H2 Hs Hl Hi Hb. destruct (bisect_left_spec (total_loads s) (set_load s) Hs) as (B1 & B2 & B3).
  set (b := bisect_left (total_loads s) (set_load s)) in *.
  destruct (Nat.lt_trichotomy b (S i)) as [C|[C|C]]; [|exact C|].
  - assert (D : (b <= i < length (total_loads s))%nat) by lia. specialize (B3 i D). lra.
  - specialize (B2 (S i) C). lra.
Qed.

Lemma nth_cached s i : length (total_loads s) = length (heights s) -> (i < length (heights s))%nat ->
  In (nth i (heights s) 0, nth i (total_loads s) 0) (cached s).
Proof.
  intros H Hi. unfold cached. rewrite <- combine_nth by (symmetry; exact H). apply nth_In.
  rewrite combine_length. lia.
Qed.
Lemma bisect_above s : sorted_le (total_loads s) -> Forall (fun l => l < set_load s) (total_loads s) ->
  bisect_left (total_loads s) (set_load s) = length (total_loads s).
Proof.
  intros Hs Hf. destruct (bisect_left_spec (total_loads s) (set_load s) Hs) as (B1 & B2 & B3).
  set (b := bisect_left (total_loads s) (set_load s)) in *.
  destruct (Nat.eq_dec b (length (total_loads s))) as [|Hn]; [assumption|].
  assert (D : (b <= b < length (total_loads s))%nat) by lia. specialize (B3 b D).
  rewrite Forall_forall in Hf. specialize (Hf (nth b (total_loads s) 0)). assert (Hi : In (nth b (total_loads s) 0) (total_loads s)) by (apply nth_In; lia).
  specialize (Hf Hi). lra.
Qed.
Lemma bisect_below s : sorted_le (total_loads s) -> (0 < length (total_loads s))%nat -> set_load s <= nth 0 (total_loads s) 0 ->
  bisect_left (total_loads s) (set_load s) = O.
Proof.
  intros Hs Hl Hf. destruct (bisect_left_spec (total_loads s) (set_load s) Hs) as (B1 & B2 & B3).
  set (b := bisect_left (total_loads s) (set_load s)) in *. destruct b as [|b]; [reflexivity|].
  specialize (B2 O (Nat.lt_0_succ b)). lra.
Qed.

Lemma nth_last (l : list R) n : length l = S n -> nth n l 0 = last l 0.
Proof.
  revert n. induction l as [|x l IH]; intros n H; [discriminate|]. destruct l as [|y l]; cbn in H.
  - injection H as <-. reflexivity.
  - destruct n as [|n]; [discriminate|]. change (nth n (y :: l) 0 = last (y :: l) 0). apply IH. cbn. lia.
Qed.
