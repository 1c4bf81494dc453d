From Coq Require Import List String Bool.
From Verif Require Import Py.
Import ListNotations.
Local Open Scope string_scope.

Lemma dget_dset {V} k k' (v : V) d :
  dget k (dset k' v d) = if String.eqb k k' then Some v else dget k d.
Proof.
  induction d as [|[k0 v0] d IH]; cbn; [reflexivity|].
  destruct (String.eqb_spec k' k0) as [->|N]; cbn.
  - destruct (String.eqb k k0); reflexivity.
  - destruct (String.eqb_spec k k0) as [->|N2].
    + destruct (String.eqb_spec k0 k') as [E|]; [congruence|reflexivity].
    + exact IH.
Qed.
Lemma dget_ddel {V} k k' (d : list (string * V)) :
  dget k (ddel k' d) = if String.eqb k k' then None else dget k d.
Proof.
  induction d as [|[k0 v0] d IH]; cbn.
  - now destruct (String.eqb k k').
  - destruct (String.eqb_spec k' k0) as [->|N]; cbn.
    + fold (ddel k0 d). rewrite IH. destruct (String.eqb k k0); reflexivity.
    + fold (ddel k' d). rewrite IH.
      destruct (String.eqb_spec k k0) as [->|N2]; [|reflexivity].
      destruct (String.eqb_spec k0 k'); [congruence|reflexivity].
Qed.
Lemma dget_in {V} k (d : list (string * V)) : dget k d <> None <-> In k (map fst d).
Proof.
  induction d as [|[k0 v0] d IH]; cbn; [split; [congruence|tauto]|].
  destruct (String.eqb_spec k k0) as [->|N]; [split; [auto|congruence]|].
  rewrite IH. split; [auto|]. intros [E|H]; [congruence|exact H].
Qed.
Lemma dget_none {V} k (d : list (string * V)) : dget k d = None <-> ~ In k (map fst d).
Proof.
  rewrite <- dget_in. destruct (dget k d); split; try congruence.
  intros H. exfalso. apply H. discriminate.
Qed.
Lemma dget_app {V} k (d e : list (string * V)) :
  dget k (d ++ e) = match dget k d with Some v => Some v | None => dget k e end.
Proof. induction d as [|[k0 v0] d IH]; cbn; [reflexivity|]. destruct (String.eqb k k0); auto. Qed.
Lemma dmem_in {V} k (d : list (string * V)) : dmem k d = true <-> In k (map fst d).
Proof. rewrite <- dget_in. unfold dmem. destruct (dget k d); split; congruence. Qed.
Lemma smem_in k s : smem k s = true <-> In k s.
Proof.
  unfold smem. rewrite existsb_exists. split.
  - intros (x & Hx & E). apply String.eqb_eq in E. now subst.
  - intros H. exists k. split; [exact H|apply String.eqb_refl].
Qed.
Lemma in_sadd x k s : In x (sadd k s) <-> x = k \/ In x s.
Proof.
  unfold sadd. destruct (smem k s) eqn:E.
  - apply smem_in in E. split; [auto|]. intros [->|]; assumption.
  - rewrite in_app_iff. cbn. split; intros [H|H]; auto. destruct H as [<-|[]]. auto.
Qed.
Lemma in_supdate x s t : In x (supdate s t) <-> In x s \/ In x t.
Proof.
  unfold supdate. revert s. induction t as [|k t IH]; intros s; cbn; [tauto|].
  rewrite IH, in_sadd. intuition auto.
Qed.
Lemma in_sremove x k s : In x (sremove k s) <-> In x s /\ x <> k.
Proof.
  unfold sremove. rewrite filter_In. split; intros [H1 H2]; split; auto.
  - intros ->. rewrite String.eqb_refl in H2. discriminate.
  - destruct (String.eqb_spec k x); [congruence|reflexivity].
Qed.
Lemma in_sdiff x s t : In x (sdiff s t) <-> In x s /\ ~ In x t.
Proof.
  unfold sdiff. rewrite filter_In, <- (smem_in x t). destruct (smem x t); cbn; split;
    intros [H1 H2]; split; auto; try discriminate; try (exfalso; apply H2; reflexivity).
Qed.
Lemma nodup_sadd k s : NoDup s -> NoDup (sadd k s).
Proof.
  intros H. unfold sadd. destruct (smem k s) eqn:E; [exact H|].
  assert (~ In k s) by (rewrite <- smem_in; congruence).
  apply NoDup_rev in H. rewrite <- (rev_involutive (s ++ [k])). apply NoDup_rev.
  rewrite rev_app_distr. cbn. constructor; [|exact H]. now rewrite <- in_rev.
Qed.
Lemma nodup_supdate s t : NoDup s -> NoDup (supdate s t).
Proof.
  unfold supdate. revert s. induction t as [|k t IH]; intros s H; cbn; [exact H|].
  apply IH. now apply nodup_sadd.
Qed.
Lemma nodup_filter {A} f (l : list A) : NoDup l -> NoDup (filter f l).
Proof.
  induction 1 as [|x l Hx H IH]; cbn; [constructor|].
  destruct (f x); [|exact IH]. constructor; [|exact IH]. rewrite filter_In. tauto.
Qed.
Lemma NoDup_app_remove_r {A} (a b : list A) : NoDup (a ++ b)%list -> NoDup a.
Proof.
  induction a as [|x a IH]; cbn; intros H; [constructor|]. apply NoDup_cons_iff in H as [H1 H2].
  constructor; [|now apply IH]. intros C. apply H1. apply in_or_app. now left.
Qed.
Lemma NoDup_app_remove_l {A} (a b : list A) : NoDup (a ++ b)%list -> NoDup b.
Proof.
  induction a as [|x a IH]; cbn; intros H; [exact H|]. apply NoDup_cons_iff in H as [_ H]. now apply IH.
Qed.
