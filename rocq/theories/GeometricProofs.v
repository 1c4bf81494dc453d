(** Lemmas on geometric surfaces and stores of surfaces. *)
From Coq Require Import Reals List Bool Arith Lia Lra.
From Verif Require Import Py SurfaceModel SurfaceProofs GeometricModel GeometricSpec.
Import ListNotations.
Local Open Scope R_scope.

(** Objects refer to earlier ones only. *)
Definition refs (n : node) : list nat := match n with Plain _ => [] | Scaled _ o _ => [o] | Combined _ a b _ => [a; b] end.
Definition ordered (st : store) : Prop := forall k n, nth_error st k = Some n -> Forall (fun r => (r < k)%nat) (refs n).
Lemma ordered_nil : ordered [].
Proof. intros [|k] n H; discriminate. Qed.
Lemma ordered_snoc st n : ordered st -> Forall (fun r => (r < List.length st)%nat) (refs n) -> ordered (st ++ [n]).
Proof.
  intros O F k m H. destruct (Nat.lt_ge_cases k (List.length st)).
  - rewrite nth_error_app1 in H by assumption. now apply O.
  - rewrite nth_error_app2 in H by assumption. destruct (k - List.length st)%nat eqn:E; [|destruct n0; discriminate]. inversion H; subst m. replace k with (List.length st) by lia. exact F.
Qed.
Lemma replace_nth {A} k (x : A) l : forall i, nth_error (replace k x l) i = if Nat.eqb i k then (match nth_error l k with Some _ => Some x | None => None end) else nth_error l i.
Proof.
  revert k. induction l as [|y l IH]; intros k i; cbn [replace].
  - destruct i, k; cbn; try reflexivity. destruct (Nat.eqb i k); reflexivity.
  - destruct k, i; cbn; try reflexivity. apply IH.
Qed.
Lemma replace_length {A} k (x : A) l : List.length (replace k x l) = List.length l.
Proof. revert k. induction l as [|y l IH]; intros [|k]; cbn; auto. Qed.
Lemma ordered_move st k n s : ordered st -> nth_error st k = Some n -> ordered (replace k (set_own n s) st).
Proof.
  intros O H i m E. rewrite replace_nth in E. destruct (Nat.eqb_spec i k) as [->|].
  - rewrite H in E. inversion E; subst m. specialize (O k n H). destruct n; exact O.
  - now apply O.
Qed.
Lemma nth_lt st k (n : node) : nth_error st k = Some n -> (k < List.length st)%nat.
Proof. intro H. apply nth_error_Some. congruence. Qed.
Lemma act_ordered st a st' : ordered st -> act_step st a = Ok st' -> ordered st'.
Proof.
  intros O H. destruct a; cbn in H.
  - inversion H; subst. apply ordered_snoc; [exact O|constructor].
  - destruct (nth_error st k) eqn:E; inversion H; subst. apply ordered_snoc; [exact O|]. repeat constructor. now apply nth_lt in E.
  - destruct (nth_error st k) eqn:E; inversion H; subst. apply ordered_snoc; [exact O|]. repeat constructor. now apply nth_lt in E.
  - destruct (nth_error st k) eqn:E; inversion H; subst. apply ordered_snoc; [exact O|]. repeat constructor. now apply nth_lt in E.
  - discriminate.
  - discriminate.
  - destruct (nth_error st a) eqn:E; [|discriminate]. destruct (nth_error st b) eqn:E2; [|discriminate]. destruct (same_extent _ _); inversion H; subst. apply ordered_snoc; [exact O|]. apply nth_lt in E, E2. repeat constructor; assumption.
  - destruct (nth_error st a) eqn:E; [|discriminate]. destruct (nth_error st b) eqn:E2; [|discriminate]. destruct (same_extent _ _); inversion H; subst. apply ordered_snoc; [exact O|]. apply nth_lt in E, E2. repeat constructor; assumption.
  - destruct (nth_error st k) eqn:E; [|discriminate]. assert (X : st' = replace k (set_own n (astep (own n) o)) st) by congruence. rewrite X. now apply ordered_move.
Qed.
Lemma run_ordered l : forall st st', ordered st -> act_run st l = Ok st' -> ordered st'.
Proof.
  induction l as [|a l IH]; intros st st' O H; cbn in H; [inversion H; now subst|]. destruct (act_step st a) eqn:E; [|discriminate]. cbn in H. eapply IH; [|exact H]. eapply act_ordered; eassumption.
Qed.
Lemma height_base f g dx dy t e x y : (forall x y, f x y = g x y) -> height (Analytic f dx dy t e) x y = height (Analytic g dx dy t e) x y.
Proof. intro H. unfold height. cbn. apply H. Qed.
(** Enough fuel. *)
Lemma height_fuel st : ordered st -> forall n m k x y, (k < n)%nat -> (k < m)%nat -> height_of n st k x y = height_of m st k x y.
Proof.
  intro O. induction n as [|n IH]; intros m k x y N M; [lia|]. destruct m as [|m]; [lia|]. cbn [height_of]. destruct (nth_error st k) as [nd|] eqn:E; [|reflexivity]. pose proof (O k nd E) as F.
  destruct nd as [s|f o s|op a b s]; cbn in F; [reflexivity| |].
  - inversion F; subst. f_equal. apply IH; lia.
  - inversion F as [|? ? Fa Fr]; subst. inversion Fr; subst. apply height_base. intros. f_equal; apply IH; lia.
Qed.
Lemma height_plain st k s x y : nth_error st k = Some (Plain s) -> height_at st k x y = height s x y.
Proof. intro H. unfold height_at. cbn [height_of]. now rewrite H. Qed.
Lemma height_scaled st k f o s x y : ordered st -> nth_error st k = Some (Scaled f o s) -> height_at st k x y = f (height_at st o x y).
Proof.
  intros O H. unfold height_at at 1. cbn [height_of]. rewrite H. f_equal. unfold height_at. apply height_fuel; [exact O| |lia]. pose proof (O k _ H) as F. now inversion F.
Qed.
Lemma height_combined st k op a b s x y : ordered st -> nth_error st k = Some (Combined op a b s) ->
  height_at st k x y = height (Analytic (fun x y => op (height_at st a x y) (height_at st b x y)) (shift_x s) (shift_y s) (rotation s) (a_extent s)) x y.
Proof.
  intros O H. unfold height_at at 1. cbn [height_of]. rewrite H. pose proof (O k _ H) as F. inversion F as [|? ? Fa Fr]; subst. inversion Fr; subst. apply height_base. intros. unfold height_at. f_equal; apply height_fuel; auto; lia.
Qed.
(** Heights only depend on the objects up to the one looked at. *)
Lemma height_snoc st n k x y : ordered st -> (k < List.length st)%nat -> height_at (st ++ [n]) k x y = height_at st k x y.
Proof.
  intros O. unfold height_at. assert (H : forall fuel k x y, (k < List.length st)%nat -> height_of fuel (st ++ [n]) k x y = height_of fuel st k x y).
  { induction fuel as [|fuel IH]; intros k0 x0 y0 L; [reflexivity|]. cbn [height_of]. rewrite nth_error_app1 by exact L. destruct (nth_error st k0) as [nd|] eqn:E; [|reflexivity]. pose proof (O k0 nd E) as F.
    destruct nd as [s|f o s|op a b s]; cbn in F; [reflexivity| |].
    - inversion F; subst. f_equal. apply IH. lia.
    - inversion F as [|? ? Fa Fr]; subst. inversion Fr; subst. apply height_base. intros. f_equal; apply IH; lia. }
  intro L. now apply H.
Qed.
Lemma height_replace st k n j x y : ordered st -> nth_error st k <> None -> (j < k)%nat -> height_at (replace k n st) j x y = height_at st j x y.
Proof.
  intros O K. unfold height_at. assert (H : forall fuel j x y, (j < k)%nat -> height_of fuel (replace k n st) j x y = height_of fuel st j x y).
  { induction fuel as [|fuel IH]; intros k0 x0 y0 L; [reflexivity|]. cbn [height_of]. rewrite replace_nth. destruct (Nat.eqb_spec k0 k); [lia|]. destruct (nth_error st k0) as [nd|] eqn:E; [|reflexivity]. pose proof (O k0 nd E) as F.
    destruct nd as [s|f o s|op a b s]; cbn in F; [reflexivity| |].
    - inversion F; subst. f_equal. apply IH. lia.
    - inversion F as [|? ? Fa Fr]; subst. inversion Fr; subst. apply height_base. intros. f_equal; apply IH; lia. }
  intro L. now apply H.
Qed.
Lemma height_shift s dx dy x y : height (shift s (Some (dx, dy))) x y = height s (x + dx) (y + dy).
Proof. unfold height, shift. cbn. f_equal; ring. Qed.
Lemma height_rotate s t x y : height (rotate s t) x y =
  height s (- shift_x s + ((x - - shift_x s) * cos t - (y - - shift_y s) * sin t)) (- shift_y s + ((y - - shift_y s) * cos t + (x - - shift_x s) * sin t)).
Proof. unfold height, rotate. cbn. rewrite cos_plus, sin_plus. f_equal; ring. Qed.
