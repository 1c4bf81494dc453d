(** Proofs about contact at a set interference. *)
From Coq Require Import List Bool Arith ZArith Reals Lra Lia Permutation.
From Verif Require Import Flt SurfaceProofs SolverProofs InterferenceModel InterferenceSpec.
Import ListNotations.
Local Open Scope R_scope.

Lemma count_number n p : count n p = number_of n p.
Proof.
  unfold number_of. induction n as [|n IH]; [reflexivity|]. rewrite seq_S, filter_app, app_length, <- IH. cbn [count filter Nat.add].
  destruct (p n); reflexivity.
Qed.
Lemma number_none n p : number_of n p = 0%nat -> forall i, (i < n)%nat -> p i = false.
Proof.
  unfold number_of. intros H i I. destruct (p i) eqn:E; [|reflexivity]. exfalso.
  assert (In i (filter p (seq 0 n))) by (apply filter_In; split; [apply in_seq; lia|exact E]). destruct (filter _ _); [contradiction|discriminate].
Qed.
Lemma number_some n p : (0 < number_of n p)%nat -> exists i, (i < n)%nat /\ p i = true.
Proof.
  unfold number_of. intros H. destruct (filter p (seq 0 n)) as [|a l] eqn:E; [cbn in H; lia|].
  assert (I : In a (filter p (seq 0 n))) by (rewrite E; left; reflexivity). apply filter_In in I. destruct I as [I P]. apply in_seq in I.
  exists a. split; [lia|exact P].
Qed.
Lemma number_pos n p i : (i < n)%nat -> p i = true -> (0 < number_of n p)%nat.
Proof.
  intros I P. destruct (number_of n p) eqn:E; [|lia]. rewrite (number_none n p E i I) in P. discriminate.
Qed.
Lemma number_zero n p : (forall i, (i < n)%nat -> p i = false) -> number_of n p = 0%nat.
Proof.
  intros H. destruct (number_of n p) eqn:E; [reflexivity|]. destruct (number_some n p) as (i & I & F); [lia|]. rewrite (H i I) in F. discriminate.
Qed.
Lemma number_le n p q : (forall i, (i < n)%nat -> p i = true -> q i = true) -> (number_of n p <= number_of n q)%nat.
Proof.
  intros H. rewrite <- !count_number. induction n as [|n IH]; [reflexivity|]. cbn [count].
  specialize (IH (fun i I => H i (Nat.lt_lt_succ_r _ _ I))). specialize (H n (Nat.lt_succ_diag_r n)).
  destruct (p n), (q n); try lia.
Qed.
Lemma number_max n p : (number_of n p <= n)%nat.
Proof. rewrite <- count_number. induction n as [|n IH]; [reflexivity|]. cbn [count]. destruct (p n); lia. Qed.

Lemma Rltb_true_iff a b : Rltb a b = true <-> a < b.
Proof. unfold Rltb. destruct (Rlt_dec a b); split; intros; try discriminate; try contradiction; auto. Qed.
Lemma Rltb_false_iff a b : Rltb a b = false <-> b <= a.
Proof. unfold Rltb. destruct (Rlt_dec a b); split; intros; try discriminate; try lra; auto. Qed.

(** ** Truncation *)
Lemma trunc_le x : 0 <= x -> (0 <= trunc x)%Z /\ IZR (trunc x) <= x < IZR (trunc x) + 1.
Proof.
  intros H. unfold trunc. assert (E : Rltb x 0 = false) by (apply Rltb_false_iff; exact H). rewrite E.
  destruct (base_Int_part x) as [A B]. split; [|lra].
  assert (C : IZR (-1) < IZR (Int_part x)) by (change (IZR (-1)) with (-1); lra). apply lt_IZR in C. lia.
Qed.

(** ** What a list picks *)
Lemma existsb_in i l : existsb (Nat.eqb i) l = true <-> In i l.
Proof.
  rewrite existsb_exists. split; [intros (x & I & E); apply Nat.eqb_eq in E; subst; exact I|intros H; exists i; split; [exact H|apply Nat.eqb_refl]].
Qed.
Lemma number_list n l : NoDup l -> (forall i, In i l -> (i < n)%nat) -> number_of n (fun i => existsb (Nat.eqb i) l) = List.length l.
Proof.
  intros N B. unfold number_of. apply Permutation_length. apply NoDup_Permutation; [apply NoDup_filter, seq_NoDup|exact N|].
  intros x. rewrite filter_In, in_seq, existsb_in. split; [tauto|]. intros H. split; [specialize (B x H); lia|exact H].
Qed.

Section Loop.
Variables (n : nat) (gap : vec) (h : flt) (adh : adhesion) (solve : nat -> vec -> result (vec * list vec)).
Variables (part : vec -> Z -> list nat) (max_iter : Z) (rp pct : R).
Notation run := (loop n gap h adh solve part max_iter rp pct).
Notation pick := (choose n adh part rp).

Lemma loop_stops : forall fuel it passed nodes added, (0 < fuel)%nat -> (max_iter + 1 - Z.of_nat it <= Z.of_nat fuel)%Z ->
  exists res, forall more, run (fuel + more)%nat it passed nodes added = Some res.
Proof.
  induction fuel as [|k IH]; intros it passed nodes added F L; [lia|]. cbn [loop Nat.add].
  destruct (solve it _) as [[loads disps]|e]; [|eexists; reflexivity].
  destruct disps as [|total l]; [eexists; reflexivity|].
  destruct (pick loads _ nodes added) as [[[r a] f]|e]; [|eexists; reflexivity].
  destruct (update n pct r a f nodes added) as [[nodes' added']|]; [|eexists; reflexivity].
  destruct (max_iter <? Z.of_nat (S it))%Z eqn:M; [eexists; reflexivity|]. apply Z.ltb_ge in M.
  apply IH; lia.
Qed.

(** Where a run ends. *)
Lemma loop_ends : forall fuel it passed nodes added o, run fuel it passed nodes added = Some (Ok o) ->
  exists k last added_last loads total l r a f,
    (it <= k)%nat /\ solve k (request (wanted h gap) last) = Ok (loads, total :: l) /\
    pick loads (fun i => fadd (fsub (gap i) h) (total i)) last added_last = Ok (r, a, f) /\
    o_disps o = total :: l /\ o_passed o = (if passed then Some (o_nodes o) else None) /\
    match update n pct r a f last added_last with
    | None => o_failed o = false /\ o_nodes o = last /\ o_loads o = loads
    | Some (next, _) => o_failed o = true /\ o_nodes o = next /\ o_loads o = (fun _ => NaN) /\ (max_iter < Z.of_nat (S k))%Z
    end.
Proof.
  induction fuel as [|k IH]; intros it passed nodes added o H; [discriminate|]. cbn [loop] in H.
  destruct (solve it _) as [[loads disps]|e] eqn:E; [|discriminate]. destruct disps as [|total l]; [discriminate|].
  destruct (pick loads _ nodes added) as [[[r a] f]|e] eqn:P; [|discriminate].
  destruct (update n pct r a f nodes added) as [[nodes' added']|] eqn:U.
  - destruct (max_iter <? Z.of_nat (S it))%Z eqn:M.
    + assert (Q : Outcome (fun _ => NaN) (total :: l) nodes' true (if passed then Some nodes' else None) = o) by congruence. subst o.
      apply Z.ltb_lt in M. exists it, nodes, added, loads, total, l, r, a, f. rewrite U. cbn. repeat split; auto.
    + destruct (IH _ _ _ _ _ H) as (k' & last & al & loads' & total' & l' & r' & a' & f' & Q & Rest).
      exists k', last, al, loads', total', l', r', a', f'. split; [lia|exact Rest].
  - assert (Q : Outcome loads (total :: l) nodes false (if passed then Some nodes else None) = o) by congruence. subst o.
    exists it, nodes, added, loads, total, l, r, a, f. rewrite U. cbn. repeat split; auto.
Qed.
End Loop.

Lemma choose_number n adh part rp loads deformed nodes added : ~ is_function adh ->
  choose n adh part rp loads deformed nodes added =
  (let remove := fun i => fltb (loads i) (pull_off adh) && nodes i in
   let add := fun i => fltb (deformed i) (Fin 0) && negb (nodes i) in
   let limit := max_remove rp (count n nodes) added in
   if (limit <? Z.of_nat (count n remove))%Z then
     if ((- Z.of_nat n <=? - limit) && (- limit <? Z.of_nat n))%Z then
       Ok (fun i => existsb (Nat.eqb i) (slice_from (- limit) (part (fun i => fneg (loads i)) (- limit)%Z)), add, true)
     else Err ValueError
   else Ok (remove, add, false)).
Proof. destruct adh; intros F; [reflexivity|reflexivity|destruct (F I)]. Qed.

(** The limit on the removals. *)
Lemma limit_bounds rp c added : 0 <= rp ->
  (0 <= max_remove rp c added)%Z /\ IZR (max_remove rp c added) <= INR c * rp /\
  match added with Some k => 2 * IZR (max_remove rp c added) <= INR k | None => True end.
Proof.
  intros H. unfold max_remove. set (a := INR c * rp). assert (A : 0 <= a) by (unfold a; apply Rmult_le_pos; [apply pos_INR|exact H]).
  destruct added as [k|].
  - pose proof (pos_INR k) as K. destruct (Rltb (1 / 2 * INR k) a) eqn:E.
    + apply Rltb_true_iff in E. destruct (trunc_le (1 / 2 * INR k) ltac:(lra)) as [P Q]. repeat split; [exact P|lra|lra].
    + apply Rltb_false_iff in E. destruct (trunc_le a A) as [P Q]. repeat split; [exact P|lra|lra].
  - destruct (trunc_le a A) as [P Q]. repeat split; [exact P|lra].
Qed.
Lemma limit_zero rp c added : 0 <= rp -> (INR c * rp < 1 \/ added = Some 1%nat \/ added = Some 0%nat) -> max_remove rp c added = 0%Z.
Proof.
  intros H D. destruct (limit_bounds rp c added H) as (P & Q & S0).
  assert (L : IZR (max_remove rp c added) < IZR 1).
  { destruct D as [D|[D|D]]; [lra| |]; subst added; cbn in S0; lra. }
  apply lt_IZR in L. lia.
Qed.

Lemma slice_zero {A} (l : list A) : slice_from (- 0) l = l.
Proof. reflexivity. Qed.
Lemma slice_last {A} k (l : list A) : (1 <= k)%nat -> slice_from (- Z.of_nat k) l = skipn (List.length l - k) l.
Proof.
  intros K. unfold slice_from. assert (E : (- Z.of_nat k <? 0)%Z = true) by (apply Z.ltb_lt; lia). rewrite E.
  rewrite Z.opp_involutive, Nat2Z.id. reflexivity.
Qed.
Lemma NoDup_skipn {A} k (l : list A) : NoDup l -> NoDup (skipn k l).
Proof.
  revert l. induction k as [|k IH]; intros l H; [exact H|]. destruct l as [|a l]; [constructor|]. inversion H; subst. apply IH; assumption.
Qed.
Lemma in_skipn_nth {A} (d : A) k l x : In x (skipn k l) <-> exists j, (k <= j < List.length l)%nat /\ nth j l d = x.
Proof.
  revert l. induction k as [|k IH]; intros l.
  - cbn [skipn]. split; [intros H; destruct (In_nth l x d H) as (j & J & E); exists j; split; [lia|exact E]|].
    intros (j & J & <-). apply nth_In. lia.
  - destruct l as [|a l]; cbn [skipn List.length]; [split; [intros []|intros (j & J & _); lia]|]. rewrite IH. split.
    + intros (j & J & E). exists (S j). split; [lia|exact E].
    + intros (j & J & E). destruct j; [lia|]. exists j. split; [lia|exact E].
Qed.
Lemma in_firstn_nth {A} (d : A) k l x : In x (firstn k l) <-> exists j, (j < k)%nat /\ (j < List.length l)%nat /\ nth j l d = x.
Proof.
  revert l. induction k as [|k IH]; intros l.
  - cbn [firstn]. split; [intros []|intros (j & J & _); lia].
  - destruct l as [|a l]; cbn [firstn List.length]; [split; [intros []|intros (j & J & K & _); lia]|]. cbn [In]. rewrite IH. split.
    + intros [<-|(j & J & K & E)]; [exists 0%nat; split; [lia|split; [lia|reflexivity]]|exists (S j); split; [lia|split; [lia|exact E]]].
    + intros (j & J & K & E). destruct j; [left; exact E|]. right. exists j. split; [lia|split; [lia|exact E]].
Qed.
Lemma number_subset n p l : NoDup l -> (forall i, In i l -> (i < n)%nat) -> (List.length l < number_of n p)%nat ->
  exists i, (i < n)%nat /\ p i = true /\ ~ In i l.
Proof.
  intros N B L. destruct (forallb (fun i => negb (p i) || existsb (Nat.eqb i) l) (seq 0 n)) eqn:E.
  - exfalso. rewrite forallb_forall in E.
    assert (number_of n p <= number_of n (fun i => existsb (Nat.eqb i) l))%nat.
    { apply number_le. intros i I P. specialize (E i ltac:(apply in_seq; lia)). rewrite P in E. exact E. }
    rewrite (number_list n l N B) in H. lia.
  - assert (Ex : existsb (fun i => p i && negb (existsb (Nat.eqb i) l)) (seq 0 n) = true).
    { apply not_false_iff_true. intros F. apply not_true_iff_false in E. apply E. apply forallb_forall. intros i I.
      assert (G : p i && negb (existsb (Nat.eqb i) l) = false).
      { apply not_true_iff_false. intros T. apply not_true_iff_false in F. apply F. apply existsb_exists. exists i. auto. }
      destruct (p i), (existsb (Nat.eqb i) l); auto. }
    apply existsb_exists in Ex. destruct Ex as (i & I & T). apply andb_true_iff in T. destruct T as [T1 T2]. apply in_seq in I.
    exists i. split; [lia|split; [exact T1|]]. intros X. apply existsb_in in X. rewrite X in T2. discriminate.
Qed.

(** When more nodes are below the pull off pressure than may go, the ones with the smallest loads go. *)
Lemma chosen_smallest n part (loads : vec) x k p : partitions n part ->
  (forall i, (i < n)%nat -> loads i = Fin (x i)) -> (1 <= k)%nat -> (k < number_of n p)%nat ->
  let chosen := slice_from (- Z.of_nat k) (part (fun i => fneg (loads i)) (- Z.of_nat k)%Z) in
  NoDup chosen /\ List.length chosen = k /\ (forall i, In i chosen -> (i < n)%nat) /\
  (forall i j, In i chosen -> (j < n)%nat -> ~ In j chosen -> x i <= x j).
Proof.
  intros [Pm Or] X K C chosen. pose proof (number_max n p) as M.
  assert (Len : List.length (part (fun i => fneg (loads i)) (- Z.of_nat k)%Z) = n) by (rewrite (Permutation_length (Pm _ _)), seq_length; reflexivity).
  unfold chosen. rewrite slice_last by exact K. rewrite Len.
  set (l := part (fun i => fneg (loads i)) (- Z.of_nat k)%Z) in *.
  assert (ND : NoDup l) by (apply (Permutation_NoDup (Permutation_sym (Pm _ _))), seq_NoDup).
  split; [apply NoDup_skipn, ND|]. split; [rewrite skipn_length; lia|].
  assert (B : forall i, In i l -> (i < n)%nat).
  { intros i I. apply (Permutation_in _ (Pm _ _)) in I. apply in_seq in I. lia. }
  split; [intros i I; apply B; apply (in_skipn_nth 0%nat) in I; destruct I as (j & J & <-); apply nth_In; lia|].
  intros i j I J NJ. apply (in_skipn_nth 0%nat) in I. destruct I as (a & A & <-).
  assert (Q : In j (firstn (n - k) l)).
  { assert (In j l) by (apply (Permutation_in _ (Permutation_sym (Pm _ _))), in_seq; lia).
    rewrite <- (firstn_skipn (n - k) l) in H. apply in_app_or in H. destruct H; [assumption|contradiction]. }
  apply (in_firstn_nth 0%nat) in Q. destruct Q as (b & Bb & _ & <-).
  assert (O : - x (nth b l 0%nat) <= - x (nth a l 0%nat)).
  { apply (Or (fun i => fneg (loads i)) (fun i => - x i) k); [intros i I; rewrite (X i I); reflexivity|lia|lia|lia]. }
  lra.
Qed.

Lemma request_overlap h gap nodes : forall i, request (wanted h gap) nodes i = overlap h gap nodes i.
Proof. intros i. unfold request, put, wanted, overlap. destruct (nodes i); reflexivity. Qed.
