(** Proofs about the comparison and the text of surfaces. *)
From Coq Require Import String List Bool Arith Reals Ascii ZArith Lra Lia.
From Verif Require Import Py PyProofs SurfaceModel SurfaceProofs Flt EqualModel EqualSpec.
Import ListNotations.
Local Open Scope R_scope.

Lemma feqb_true a b : feqb a b = true <-> a = b /\ a <> NaN.
Proof.
  destruct a, b; cbn; split; intros H; try discriminate; try (destruct H as [H N]; discriminate); try (split; [reflexivity|discriminate]); try reflexivity.
  - apply Reqb_true in H. subst. split; [reflexivity|discriminate].
  - destruct H as [H _]. injection H as ->. apply Reqb_true. reflexivity.
  - destruct H as [_ N]. contradiction.
Qed.
Lemma all2_spec r c p : all2 r c p = true <-> forall i j, (i < r)%nat -> (j < c)%nat -> p i j = true.
Proof.
  unfold all2. rewrite forallb_forall. split.
  - intros H i j I J. specialize (H i ltac:(apply in_seq; lia)). rewrite forallb_forall in H. apply H. apply in_seq. lia.
  - intros H i I. apply in_seq in I. apply forallb_forall. intros j J. apply in_seq in J. apply H; lia.
Qed.
Lemma array_equal_spec p q : array_equal p q = true <-> same_heights p q.
Proof.
  unfold array_equal, same_heights. rewrite !andb_true_iff, !Nat.eqb_eq, all2_spec. split.
  - intros [[A B] H]. split; [exact A|]. split; [exact B|]. intros i j I J. apply feqb_true. apply H; assumption.
  - intros (A & B & H). split; [split; assumption|]. intros i j I J. apply feqb_true. apply H; assumption.
Qed.
Lemma same_heights_sym p q : same_heights p q -> same_heights q p.
Proof.
  intros (A & B & H). split; [auto|]. split; [auto|]. intros i j I J. rewrite <- A in I. rewrite <- B in J. destruct (H i j I J) as [E N].
  split; [auto|]. rewrite <- E. exact N.
Qed.
Lemma array_equal_sym p q : array_equal p q = array_equal q p.
Proof.
  apply eq_true_iff_eq. rewrite !array_equal_spec. split; apply same_heights_sym.
Qed.
Lemma Reqb_sym x y : Reqb x y = Reqb y x.
Proof. apply eq_true_iff_eq. rewrite !Reqb_true. split; auto. Qed.
Lemma same_spacing_spec a b : same_spacing a b = true <-> a = b.
Proof.
  destruct a, b; cbn; split; intros H; try discriminate; auto.
  - apply Reqb_true in H. congruence.
  - injection H as ->. apply Reqb_true. reflexivity.
Qed.
Lemma kind_eqb_spec a b : kind_eqb a b = true <-> a = b.
Proof. destruct a, b; cbn; split; intros H; try discriminate; reflexivity. Qed.
Lemma kind_eqb_refl a : kind_eqb a a = true.
Proof. destruct a; reflexivity. Qed.

Lemma list_eqb_spec a : forall b, list_eqb a b = true -> a = b.
Proof.
  unfold list_eqb. induction a as [|x a IH]; intros [|y b] H; cbn in H; try discriminate; [reflexivity|].
  apply andb_true_iff in H. destruct H as [L H]. apply andb_true_iff in H. destruct H as [E H]. apply Reqb_true in E. subst.
  f_equal. apply IH. rewrite L. exact H.
Qed.
Lemma list_eqb_refl a : list_eqb a a = true.
Proof. unfold list_eqb. rewrite Nat.eqb_refl. cbn. induction a as [|x a IH]; [reflexivity|]. cbn. rewrite IH, andb_true_r. apply Reqb_true. reflexivity. Qed.
Lemma refs_eqb_spec a : forall b, refs_eqb a b = true -> a = b.
Proof.
  unfold refs_eqb. induction a as [|x a IH]; intros [|y b] H; cbn in H; try discriminate; [reflexivity|].
  apply andb_true_iff in H. destruct H as [L H]. apply andb_true_iff in H. destruct H as [E H]. apply Nat.eqb_eq in E. subst.
  f_equal. apply IH. rewrite L. exact H.
Qed.

(** Values that compare equal look the same, unless they are arrays (of one element) with different functions behind. *)
Lemma veq_look h a b : veq h a b = Ok true ->
  a = b \/ exists i j, a = VArr i /\ b = VArr j /\ a_rows (arrays h i) = a_rows (arrays h j) /\ a_cols (arrays h i) = a_cols (arrays h j) /\
    forall r c, (r < a_rows (arrays h i))%nat -> (c < a_cols (arrays h i))%nat -> a_at (arrays h i) r c = a_at (arrays h j) r c.
Proof.
  assert (Ta : forall r c, truth_of_array r c (fun _ _ => false) <> Ok true).
  { intros r c H. unfold truth_of_array in H. destruct (r * c)%nat as [|[|k]] eqn:E; try discriminate. injection H as H.
    assert (r = 1%nat /\ c = 1%nat) as [-> ->] by (apply Nat.eq_mul_1 in E; exact E). discriminate. }
  intros H. destruct a, b; cbn [veq] in H; try discriminate; try (left; reflexivity); try (exfalso; eapply Ta; exact H).
  - left. f_equal. injection H as H. apply eqb_prop. exact H.
  - left. injection H as H. apply Reqb_true in H. congruence.
  - left. injection H as H. apply list_eqb_spec in H. congruence.
  - left. injection H as H. apply list_eqb_spec in H. congruence.
  - destruct (Nat.eqb id id0) eqn:E; [apply Nat.eqb_eq in E; subst; left; reflexivity|]. right. exists id, id0. split; [reflexivity|]. split; [reflexivity|].
    cbv zeta in H. destruct (Nat.eqb (a_rows _) _ && Nat.eqb (a_cols _) _) eqn:S0; [|discriminate].
    apply andb_true_iff in S0. destruct S0 as [A B]. apply Nat.eqb_eq in A, B. split; [exact A|]. split; [exact B|].
    unfold truth_of_array in H. destruct (a_rows (arrays h id) * a_cols (arrays h id))%nat as [|[|k]] eqn:P; try discriminate.
    injection H as H. intros r c R0 C0. apply all2_spec with (i := r) (j := c) in H; [|exact R0|exact C0]. apply feqb_true in H. apply H.
  - left. injection H as H. apply Nat.eqb_eq in H. congruence.
  - left. injection H as H. apply refs_eqb_spec in H. congruence.
  - left. injection H as H. apply String.eqb_eq in H. congruence.
Qed.

(** ** Dictionaries *)
Lemma entries_get h a b : entries_eq h a b = Ok true -> forall k v, dget k a = Some v -> exists w, dget k b = Some w /\ veq h v w = Ok true.
Proof.
  induction a as [|[k0 v0] a IH]; intros H k v G; [discriminate|]. cbn [entries_eq] in H. cbn [dget] in G.
  destruct (dget k0 b) as [w|] eqn:Gb; [|discriminate]. destruct (veq h v0 w) as [t|e] eqn:V; cbn [bind] in H; [|discriminate].
  destruct t; [|discriminate]. destruct (String.eqb k k0) eqn:E.
  - apply String.eqb_eq in E. subst. injection G as <-. exists w. auto.
  - apply (IH H k v G).
Qed.
Lemma dget_in {V} k (d : list (string * V)) : dget k d <> None <-> In k (map fst d).
Proof.
  induction d as [|[k0 v0] d IH]; cbn; [split; [contradiction|intros []]|]. destruct (String.eqb k k0) eqn:E.
  - apply String.eqb_eq in E. subst. split; [auto|discriminate].
  - rewrite IH. apply String.eqb_neq in E. split; [auto|]. intros [H|H]; [congruence|exact H].
Qed.
Lemma dict_get h a b : NoDup (map fst a) -> dict_eq h a b = Ok true ->
  forall k, match dget k a, dget k b with Some v, Some w => veq h v w = Ok true | None, None => True | _, _ => False end.
Proof.
  intros N H k. unfold dict_eq in H. destruct (Nat.eqb (List.length a) (List.length b)) eqn:L; [|discriminate]. apply Nat.eqb_eq in L.
  destruct (dget k a) as [v|] eqn:Ga.
  - destruct (entries_get h a b H k v Ga) as (w & -> & V). exact V.
  - destruct (dget k b) as [w|] eqn:Gb; [|exact I].
    assert (Inc : incl (map fst a) (map fst b)).
    { intros x X. apply dget_in in X. destruct (dget x a) as [u|] eqn:Gx; [|contradiction]. destruct (entries_get h a b H x u Gx) as (w' & W & _).
      apply dget_in. rewrite W. discriminate. }
    assert (Inc2 : incl (map fst b) (map fst a)) by (apply NoDup_length_incl; [exact N|rewrite !map_length; lia|exact Inc]).
    assert (In k (map fst b)) by (apply dget_in; rewrite Gb; discriminate). apply Inc2 in H0. apply dget_in in H0. rewrite Ga in H0. contradiction.
Qed.
Lemma dget_dset_same {V} k (v : V) d : dget k (dset k v d) = Some v.
Proof. induction d as [|[k0 v0] d IH]; cbn; [rewrite String.eqb_refl; reflexivity|]. destruct (String.eqb k k0) eqn:E; cbn; rewrite ?E, ?String.eqb_refl; auto. Qed.
Lemma dget_dset_other {V} k k' (v : V) d : k <> k' -> dget k (dset k' v d) = dget k d.
Proof.
  intros N. induction d as [|[k0 v0] d IH]; cbn.
  - apply String.eqb_neq in N. rewrite N. reflexivity.
  - destruct (String.eqb k' k0) eqn:E; cbn; [|rewrite IH; reflexivity]. apply String.eqb_eq in E. subst. apply String.eqb_neq in N. rewrite N. reflexivity.
Qed.
Lemma length_dset_new {V} k (v : V) d : dget k d = None -> List.length (dset k v d) = S (List.length d).
Proof.
  induction d as [|[k0 v0] d IH]; cbn; [reflexivity|]. destruct (String.eqb k k0) eqn:E; [discriminate|]. intros H. cbn. rewrite (IH H). reflexivity.
Qed.

(** ** Text *)
Lemma open_app a b : open_brackets (a ++ b) = (open_brackets a + open_brackets b)%Z.
Proof. induction a as [|c a IH]; [reflexivity|]. cbn [append open_brackets]. rewrite IH. lia. Qed.
Lemma str_app_nil a : (a ++ "" = a)%string.
Proof. induction a as [|c a IH]; cbn; [reflexivity|]. rewrite IH. reflexivity. Qed.
Lemma str_app_assoc a b c : ((a ++ b) ++ c = a ++ b ++ c)%string.
Proof. induction a as [|x a IH]; cbn; [reflexivity|]. rewrite IH. reflexivity. Qed.
Lemma str_length_app a b : String.length (a ++ b) = (String.length a + String.length b)%nat.
Proof. induction a as [|x a IH]; cbn; [reflexivity|]. rewrite IH. reflexivity. Qed.
Lemma substring_all a b : substring 0 (String.length a) (a ++ b) = a.
Proof. induction a as [|x a IH]; cbn; [destruct b; reflexivity|]. rewrite IH. reflexivity. Qed.
Lemma drop_last_app a b : drop_last (String.length b) (a ++ b) = a.
Proof.
  unfold drop_last. rewrite str_length_app. replace (String.length a + String.length b - String.length b)%nat with (String.length a) by lia.
  apply substring_all.
Qed.
