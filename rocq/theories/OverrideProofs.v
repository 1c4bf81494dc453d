(** Lemmas on the override of the CUDA flag. *)
From Coq Require Import List Bool Arith Lia.
From Verif Require Import OverrideModel OverrideSpec.
Import ListNotations.

Lemma seen_grows p : forall w, exists l, seen (fst (exec p w)) = seen w ++ l.
Proof.
  induction p; intro w; cbn.
  - exists []. now rewrite app_nil_r.
  - now exists [flag w].
  - exists []. now rewrite app_nil_r.
  - exists []. now rewrite app_nil_r.
  - destruct (objs w x); [|exists []; now rewrite app_nil_r].
    destruct (IHp (set_flag w (override_enter (flag w)))) as [l H].
    destruct (exec p _) as [w' r]. cbn in *. now exists l.
  - destruct (IHp (set_flag w (override_enter (flag w)))) as [l H].
    destruct (exec p _) as [w' r]. cbn in *. now exists l.
  - destruct (IHp1 w) as [l H]. destruct (exec p1 w) as [w' r]. cbn in H. destruct r; cbn.
    + now exists l.
    + destruct (IHp2 w') as [l' H']. exists (l ++ l'). now rewrite H', H, app_assoc.
  - destruct (IHp1 w) as [l H]. destruct (exec p1 w) as [w' r]. cbn in H. destruct r; cbn.
    + destruct (IHp2 w') as [l' H']. exists (l ++ l'). now rewrite H', H, app_assoc.
    + now exists l.
Qed.

Lemma tidy_flag p : tidy p -> forall w, flag (fst (exec p w)) = flag w.
Proof.
  induction p; cbn; intros T w; try easy.
  - destruct (exec p _) as [w' r]. reflexivity.
  - destruct T as [T1 T2]. specialize (IHp1 T1 w). destruct (exec p1 w) as [w' r]. cbn in IHp1.
    destruct r; cbn; [assumption|]. now rewrite (IHp2 T2).
  - destruct T as [T1 T2]. specialize (IHp1 T1 w). destruct (exec p1 w) as [w' r]. cbn in IHp1.
    destruct r; cbn; [|assumption]. now rewrite (IHp2 T2).
Qed.

Lemma tidy_reads p : tidy p -> forall w, flag w = false ->
  exists l, seen (fst (exec p w)) = seen w ++ l /\ forall b, In b l -> b = false.
Proof.
  induction p; cbn; intros T w F; try easy.
  - exists [flag w]. split; [reflexivity|]. intros b [<-|[]]. exact F.
  - exists []. split; [now rewrite app_nil_r|easy].
  - destruct (IHp T (set_flag w (override_enter (flag w))) eq_refl) as [l H].
    destruct (exec p _) as [w' r]. cbn in *. now exists l.
  - destruct T as [T1 T2]. pose proof (tidy_flag _ T1 w) as F1. destruct (IHp1 T1 w F) as [l [H L]].
    destruct (exec p1 w) as [w' r]. cbn in F1, H. destruct r; cbn; [now exists l|].
    destruct (IHp2 T2 w') as [l' [H' L']]; [congruence|]. exists (l ++ l').
    rewrite H', H, app_assoc. split; [reflexivity|]. intros b I.
    apply in_app_or in I. destruct I; auto.
  - destruct T as [T1 T2]. pose proof (tidy_flag _ T1 w) as F1. destruct (IHp1 T1 w F) as [l [H L]].
    destruct (exec p1 w) as [w' r]. cbn in F1, H. destruct r; cbn; [|now exists l].
    destruct (IHp2 T2 w') as [l' [H' L']]; [congruence|]. exists (l ++ l').
    rewrite H', H, app_assoc. split; [reflexivity|]. intros b I.
    apply in_app_or in I. destruct I; auto.
Qed.

(** Threads. *)
Lemma run_app s a b : run s (a ++ b) = run (run s a) b.
Proof. apply fold_left_app. Qed.
Definition kept (s s' : shared) : Prop := gflag s' = gflag s /\ forall t, stacks s' t = stacks s t.
Lemma bracketed_kept es : bracketed es -> forall s, kept s (run s es).
Proof.
  induction 1; intro s.
  - now split.
  - now split.
  - change (kept s (run (step (step s (t, Create)) (t, Enter)) (b ++ [(t, Exit)]))).
    rewrite run_app. destruct (IHbracketed (step (step s (t, Create)) (t, Enter))) as [F K].
    set (s1 := run (step (step s (t, Create)) (t, Enter)) b) in *. cbn.
    rewrite (K t). cbn. unfold put at 1. rewrite Nat.eqb_refl. split; cbn; [reflexivity|].
    intro u. unfold put. destruct (Nat.eqb_spec u t) as [->|N]; [reflexivity|].
    rewrite K. cbn. unfold put. now destruct (Nat.eqb_spec u t).
  - rewrite run_app. destruct (IHbracketed1 s) as [F K], (IHbracketed2 (run s a)) as [F' K'].
    split; [congruence|]. intro t. now rewrite K'.
Qed.

(** Off everywhere. *)
Definition all_off (s : shared) : Prop :=
  gflag s = false /\ (forall t b, In b (stacks s t) -> b = false) /\
  forall t b, In (t, b) (reads s) -> b = false.
Lemma step_off s e : all_off s -> all_off (step s e).
Proof.
  intros (F & K & R). destruct e as [t o]. destruct o; cbn.
  - split; [exact F|]. split; [|exact R]. cbn. intros u b. unfold put.
    destruct (Nat.eqb u t); [|apply K]. intros [<-|I]; [exact F|eauto].
  - now split.
  - destruct (stacks s t) as [|v r] eqn:E; [now split|]. split; cbn.
    + apply (K t). rewrite E. now left.
    + split; [|exact R]. intros u b. unfold put. destruct (Nat.eqb_spec u t) as [->|N]; [|apply K].
      intro I. apply (K t). rewrite E. now right.
  - split; [exact F|]. split; [exact K|]. cbn. intros u b I. apply in_app_or in I.
    destruct I as [I|[I|[]]]; [eauto|]. injection I as _ <-. exact F.
Qed.
Lemma run_off es : forall s, all_off s -> all_off (run s es).
Proof.
  induction es as [|e es IH]; intros s H; [exact H|]. cbn. apply IH, step_off, H.
Qed.
