From Coq Require Import String List Bool Arith Reals Lia Lra FunctionalExtensionality.
From Verif Require Import Py PyProofs LubricantModel LubricantSpec.
Import ListNotations.
Local Open Scope string_scope.

Section P.
Context {V : Type}.
Implicit Types (l : lubricant V) (s : dict V).
Lemma add_allowed l c : fst (add_sub_model l (fst c) (snd c)) = match allowed c with Some (p, f) => dset p f l | None => l end.
Proof.
  destruct c as [[p|] [| |f]]; cbn; try reflexivity; destruct (is_identifier p); cbn; try reflexivity. destruct (var_kw f); reflexivity.
Qed.
Lemma add_ok l c : snd (add_sub_model l (fst c) (snd c)) = Ok tt <-> allowed c <> None.
Proof.
  destruct c as [[p|] [| |f]]; cbn; try (split; [discriminate|congruence]); destruct (is_identifier p); cbn; try (split; [discriminate|congruence]).
  destruct (var_kw f); cbn; split; congruence.
Qed.
Lemma run_adds_fold calls : forall l, run_adds l calls = fold_left (fun l x => dset (fst x) (snd x) l) (allowed_adds calls) l.
Proof.
  induction calls as [|c calls IH]; intros l; [reflexivity|]. cbn [run_adds fold_left allowed_adds].
  change (fold_left _ calls ?x) with (run_adds x calls). rewrite IH, add_allowed. destruct (allowed c) as [[p f]|]; reflexivity.
Qed.
Lemma keys_dset {A} k (v : A) (d : list (string * A)) : map fst (dset k v d) = if dmem k d then map fst d else (map fst d ++ [k])%list.
Proof.
  unfold dmem. induction d as [|[k' v'] d IH]; [reflexivity|]. cbn [dset dget]. destruct (String.eqb k k'); [reflexivity|]. cbn [map fst]. rewrite IH. destruct (dget k d); reflexivity.
Qed.
Lemma filter_first x (l : list string) : filter (fun y => negb (String.eqb x y)) (first_order l) = first_order (filter (fun y => negb (String.eqb x y)) l).
Proof.
  induction l as [|z l IH]; [reflexivity|]. cbn [first_order filter]. destruct (String.eqb_spec x z) as [->|N]; cbn [negb].
  - rewrite <- IH. clear IH. induction (first_order l) as [|w r IHr]; [reflexivity|]. cbn [filter]. destruct (negb (String.eqb z w)) eqn:E; cbn [filter]; rewrite ?E; congruence.
  - cbn [first_order]. f_equal. rewrite <- IH. clear. induction (first_order l) as [|w r IHr]; [reflexivity|]. cbn [filter].
    destruct (negb (String.eqb z w)) eqn:E1, (negb (String.eqb x w)) eqn:E2; cbn [filter]; rewrite ?E1, ?E2; congruence.
Qed.
Lemma filter_twice {A} (f g : A -> bool) (l : list A) : filter f (filter g l) = filter (fun x => g x && f x) l.
Proof. induction l as [|x l IH]; [reflexivity|]. cbn [filter]. destruct (g x); cbn [filter andb]; [destruct (f x); congruence|exact IH]. Qed.
Lemma filter_same {A} (f g : A -> bool) (l : list A) : (forall x, f x = g x) -> filter f l = filter g l.
Proof. intros H. induction l as [|x l IH]; [reflexivity|]. cbn. rewrite H, IH. reflexivity. Qed.
Lemma filter_all {A} (f : A -> bool) (l : list A) : (forall x, f x = true) -> filter f l = l.
Proof. intros H. induction l as [|x l IH]; [reflexivity|]. cbn. rewrite H, IH. reflexivity. Qed.
Lemma fold_keys (adds : list (string * fn V)) : forall l,
  map fst (fold_left (fun l x => dset (fst x) (snd x) l) adds l) = (map fst l ++ filter (fun y => negb (smem y (map fst l))) (first_order (map fst adds)))%list.
Proof.
  induction adds as [|[p f] adds IH]; intros l; cbn [fold_left map fst snd first_order filter].
  - rewrite app_nil_r. reflexivity.
  - rewrite IH, keys_dset. unfold dmem. destruct (dget p l) as [g|] eqn:E.
    + assert (M : smem p (map fst l) = true) by (apply smem_in, dget_in; congruence). rewrite M. cbn [negb]. f_equal.
      rewrite filter_twice. apply filter_same. intros y. destruct (String.eqb_spec p y) as [<-|]; [rewrite M|]; reflexivity.
    + assert (M : smem p (map fst l) = false).
      { destruct (smem p (map fst l)) eqn:M; [|reflexivity]. apply smem_in, dget_in in M. congruence. }
      rewrite M. cbn [negb]. rewrite <- app_assoc. cbn [app]. do 2 f_equal. rewrite filter_twice. apply filter_same. intros y.
      unfold smem. rewrite existsb_app. cbn [existsb]. rewrite orb_false_r, negb_orb, andb_comm, (String.eqb_sym y p). reflexivity.
Qed.
Lemma fold_get (adds : list (string * fn V)) : forall l p,
  dget p (fold_left (fun l x => dset (fst x) (snd x) l) adds l) = match last_given p adds with Some f => Some f | None => dget p l end.
Proof.
  induction adds as [|[q f] adds IH]; intros l p; cbn [fold_left last_given fst snd]; [reflexivity|]. rewrite IH, dget_dset.
  destruct (last_given p adds); [reflexivity|]. rewrite ?(String.eqb_sym q p). destruct (String.eqb p q); reflexivity.
Qed.
Lemma first_order_nodup (l : list string) : NoDup (first_order l).
Proof.
  induction l as [|x l IH]; cbn; constructor.
  - rewrite filter_In. intros [_ H]. rewrite String.eqb_refl in H. discriminate.
  - apply nodup_filter. exact IH.
Qed.

(** ** Solving *)
Lemma solve_app (l1 l2 : lubricant V) : forall s, solve_sub_models (l1 ++ l2)%list s =
  match solve_sub_models l1 s with (s1, Ok _) => solve_sub_models l2 s1 | x => x end.
Proof.
  induction l1 as [|[p f] l1 IH]; intros s; cbn; [destruct (solve_sub_models l2 s); reflexivity|]. destruct (call f s); [apply IH|reflexivity].
Qed.
Lemma solve_frame (l : lubricant V) : forall s s' r, solve_sub_models l s = (s', r) -> forall x, ~ In x (map fst l) -> dget x s' = dget x s.
Proof.
  induction l as [|[p f] l IH]; intros s s' r H x N; cbn in *; [congruence|]. destruct (call f s) as [v|e]; [|congruence].
  rewrite (IH _ _ _ H x) by tauto. rewrite dget_dset. destruct (String.eqb_spec x p) as [->|]; [tauto|]; try reflexivity.
Qed.
Lemma call_body f s v : call f s = Ok v -> body f (fun k => dget k s) = Ok v.
Proof.
  unfold call. destruct (match args f with a :: _ => _ | [] => _ end); [discriminate|]. destruct (Nat.ltb 0 _); [discriminate|]. destruct (negb _); [discriminate|]. destruct (negb _); [discriminate|]. auto.
Qed.
Lemma solve_split (l : lubricant V) : forall s s' k p f, NoDup (map fst l) -> solve_sub_models l s = (s', Ok tt) -> nth_error l k = Some (p, f) ->
  exists sk v, solve_sub_models (firstn k l) s = (sk, Ok tt) /\ call f sk = Ok v /\ dget p s' = Some v /\
    forall x, dget x sk = if in_dec string_dec x (map fst (firstn k l)) then dget x s' else dget x s.
Proof.
  intros s s' k p f N H E. destruct (nth_error_split l k E) as (l1 & l2 & -> & L1). subst k.
  rewrite firstn_app, Nat.sub_diag, firstn_all. cbn [firstn]. rewrite app_nil_r.
  rewrite solve_app in H. destruct (solve_sub_models l1 s) as [sk [[]|]] eqn:S1; [|congruence]. cbn [solve_sub_models] in H.
  destruct (call f sk) as [v|] eqn:C; [|congruence]. exists sk, v. rewrite map_app in N. cbn [map fst] in N.
  pose proof (NoDup_remove_2 _ _ _ N) as N2.
  assert (D : forall x, In x (map fst l1) -> ~ In x (map fst l2)).
  { intros x X1 X2. clear -N X1 X2. induction (map fst l1) as [|y r IH]; [exact X1|]. inversion N. subst. destruct X1 as [->|X1]; [|apply IH; assumption].
    apply H1. rewrite in_app_iff. right. right. exact X2. }
  repeat split.
  - exact C.
  - rewrite (solve_frame _ _ _ _ H p) by (intros X; apply N2; rewrite in_app_iff; right; exact X). rewrite dget_dset, String.eqb_refl. reflexivity.
  - intros x. destruct (in_dec string_dec x (map fst l1)) as [I|I].
    + rewrite (solve_frame _ _ _ _ H x (D x I)), dget_dset. destruct (String.eqb_spec x p) as [->|]; [|reflexivity]. exfalso. apply N2. rewrite in_app_iff. left. exact I.
    + apply (solve_frame _ _ _ _ S1 x I).
Qed.
Lemma solve_fails (l : lubricant V) : forall s s' e, solve_sub_models l s = (s', Err e) ->
  exists k p f, nth_error l k = Some (p, f) /\ solve_sub_models (firstn k l) s = (s', Ok tt) /\ call f s' = Err e.
Proof.
  induction l as [|[p f] l IH]; intros s s' e H; cbn in H; [congruence|]. destruct (call f s) as [v|e'] eqn:C.
  - destruct (IH _ _ _ H) as (k & p' & f' & N & S1 & C1). exists (S k), p', f'. cbn. rewrite C. auto.
  - exists 0%nat, p, f. cbn. split; [reflexivity|]. split; congruence.
Qed.
(** ** The data check *)
Lemma check_names (l : lubricant V) : forall n n' r, check_models l n = (n', r) -> (forall x, In x n -> In x n') /\
  (r = Ok tt -> forall x, In x n' <-> In x n \/ In x (map fst l)).
Proof.
  induction l as [|[p f] l IH]; intros n n' r H; cbn in H.
  - injection H as <- <-. split; [auto|]. intros _ x. cbn. tauto.
  - destruct (forallb _ (args f)).
    + destruct (IH _ _ _ H) as (A & B). split; [intros x X; apply A; apply in_sadd; auto|]. intros E x. rewrite (B E), in_sadd. cbn. intuition.
    + injection H as <- <-. split; [auto|discriminate].
Qed.
Lemma call_judged f s : judged f -> (forall a, In a (args f) -> a = "self" \/ In a (map fst s)) -> ~ In "self" (map fst s) ->
  call f s = body f (fun k => dget k s).
Proof.
  intros (P & K & B) A N. unfold call. rewrite P, K. cbn [Nat.min Nat.sub forallb negb].
  assert (M : forall a, In a (args f) -> a <> "self" -> dmem a s = true).
  { intros a I X. apply dmem_in. destruct (A a I); tauto. }
  destruct (bound f) eqn:Bf.
  - destruct B as (rest & E & Ns). rewrite E in *. cbn [tl]. assert (Z : dmem "self" s = false).
    { destruct (dmem "self" s) eqn:D; [|reflexivity]. apply dmem_in in D. contradiction. }
    rewrite Z. cbn [andb Nat.eqb]. cbn [Nat.ltb Nat.leb].
    assert (F : forallb (fun a => dmem a s) (firstn (List.length rest - n_defaults f) rest) = true).
    { apply forallb_forall. intros a I. assert (In a rest) by (rewrite <- (firstn_skipn (List.length rest - n_defaults f) rest), in_app_iff; left; exact I).
      apply M; [right; assumption|congruence]. }
    rewrite F. reflexivity.
  - assert (Z : match args f with a :: _ => false && Nat.eqb 0 0 && dmem a s | [] => false end = false) by (destruct (args f); reflexivity).
    rewrite Z. cbn [Nat.ltb Nat.leb].
    assert (F : forallb (fun a => dmem a s) (firstn (List.length (args f) - n_defaults f) (args f)) = true).
    { apply forallb_forall. intros a I. assert (In a (args f)) by (rewrite <- (firstn_skipn (List.length (args f) - n_defaults f) (args f)), in_app_iff; left; exact I).
      apply M; [assumption|congruence]. }
    rewrite F. reflexivity.
Qed.
Lemma keys_sadd k (v : V) s x : In x (map fst (dset k v s)) <-> x = k \/ In x (map fst s).
Proof.
  rewrite keys_dset. destruct (dmem k s) eqn:D.
  - apply dmem_in in D. split; [auto|]. intros [->|]; assumption.
  - rewrite in_app_iff. cbn. intuition.
Qed.
Lemma checked_solve (l : lubricant V) : forall n s, (forall x, In x n <-> In x (map fst s)) -> ~ In "self" (map fst s) -> ~ In "self" (map fst l) ->
  Forall (fun x => judged (snd x)) l -> snd (check_models l n) = Ok tt ->
  forall e, snd (solve_sub_models l s) = Err e -> exists k p f sk, nth_error l k = Some (p, f) /\ solve_sub_models (firstn k l) s = (sk, Ok tt) /\ body f (fun x => dget x sk) = Err e.
Proof.
  induction l as [|[p f] l IH]; intros n s E Ns Nl J C e H; cbn in *; [congruence|]. inversion J as [|? ? J1 J2]. subst. cbn in J1.
  destruct (forallb _ (args f)) eqn:F; [|discriminate]. rewrite forallb_forall in F.
  assert (B : call f s = body f (fun k => dget k s)).
  { apply call_judged; [exact J1| |exact Ns]. intros a I. specialize (F a I). apply orb_true_iff in F as [F|F].
    - right. apply E. apply smem_in. exact F.
    - left. apply String.eqb_eq. exact F. }
  destruct (call f s) as [v|e'] eqn:Cf.
  - destruct (IH (sadd p n) (dset p v s)) with (e := e) as (k & p' & f' & sk & X1 & X2 & X3); try assumption.
    + intros x. rewrite in_sadd, keys_sadd, E. tauto.
    + rewrite keys_sadd. intros [X|X]; [apply Nl; left; congruence|contradiction].
    + tauto.
    + exists (S k), p', f', sk. cbn. rewrite Cf. auto.
  - exists 0%nat, p, f, s. cbn. split; [reflexivity|]. split; [reflexivity|]. cbn in H. congruence.
Qed.
Lemma unchecked_solve (l : lubricant V) : forall n s, (forall x, In x n <-> In x (map fst s)) ->
  Forall (fun x => judged (snd x) /\ n_defaults (snd x) = 0%nat) l -> snd (check_models l n) = Err ValueError ->
  exists e, snd (solve_sub_models l s) = Err e.
Proof.
  induction l as [|[p f] l IH]; intros n s E J C; cbn in *; [discriminate|]. inversion J as [|? ? J1 J2]. subst. cbn in J1.
  destruct (call f s) as [v|e'] eqn:Cf; [|exists e'; reflexivity].
  destruct (forallb _ (args f)) eqn:F.
  - apply (IH (sadd p n)); [|exact J2|exact C]. intros x. rewrite in_sadd, keys_sadd, E. tauto.
  - exfalso. destruct J1 as ((P & K & B) & D). unfold call in Cf. rewrite P, K, D, !Nat.sub_0_r, firstn_all in Cf.
    assert (X : exists a, In a (args f) /\ ~ In a n /\ a <> "self").
    { clear -F. induction (args f) as [|a r IH]; [discriminate|]. cbn in F. destruct (smem a n || (a =? "self")) eqn:G.
      - destruct (IH F) as (b & B1 & B2). exists b. split; [right; exact B1|exact B2].
      - apply orb_false_iff in G as [G1 G2]. exists a. split; [left; reflexivity|]. split.
        + intros I. apply smem_in in I. congruence.
        + apply String.eqb_neq. exact G2. }
    destruct X as (a & A1 & A2 & A3).
    assert (A4 : In a (if bound f then tl (args f) else args f)).
    { destruct (bound f); [|exact A1]. destruct B as (rest & R & _). rewrite R in *. cbn. destruct A1; [congruence|assumption]. }
    assert (Z : forallb (fun a => dmem a s) (if bound f then tl (args f) else args f) = false).
    { destruct (forallb (fun a => dmem a s) (if bound f then tl (args f) else args f)) eqn:G; [|reflexivity]. rewrite forallb_forall in G.
      specialize (G a A4). apply dmem_in in G. exfalso. apply A2. apply E. exact G. }
    rewrite Z in Cf. cbn [negb] in Cf. destruct (match args f with a :: _ => _ | [] => _ end); [discriminate|]. destruct (Nat.ltb 0 _); discriminate.
Qed.
End P.

(** ** Pressure laws *)
Local Open Scope R_scope.
Lemma Rpower_one x : Rpower 1 x = 1.
Proof. unfold Rpower. rewrite ln_1, Rmult_0_r. apply exp_0. Qed.
Lemma roelands_increasing eta p0 z x y : 0 < eta -> 0 < ln eta + 967 / 100 -> 0 < p0 -> 0 < z -> - p0 < x -> x < y ->
  roelands eta p0 z x < roelands eta p0 z y.
Proof.
  intros He Hl Hp Hz Hx Hxy. unfold roelands. apply Rmult_lt_compat_l; [exact He|]. apply exp_increasing. apply Rmult_lt_compat_l; [exact Hl|].
  assert (A : x / p0 < y / p0) by (apply Rmult_lt_compat_r; [apply Rinv_0_lt_compat; exact Hp|exact Hxy]).
  assert (B : - 1 < x / p0).
  { apply (Rmult_lt_reg_r p0); [exact Hp|]. replace (x / p0 * p0) with x by (field; lra). lra. }
  apply Rplus_lt_compat_l. apply Rlt_Rpower_l; lra.
Qed.
