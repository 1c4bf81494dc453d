(** C69: the temporary override of the CUDA flag. *)
From Coq Require Import List Bool Arith Lia.
From Verif Require Import OverrideModel OverrideSpec OverrideProofs.
Import ListNotations.

(** After [with OverRideCuda(): body] the flag is what it was before, whatever the body does to it
    and whether it raises or not; the exception of the body is passed on. *)
Theorem c69_restores (body : stmt) (w : world) :
  flag (fst (exec (WithNew body) w)) = flag w /\
  snd (exec (WithNew body) w) = snd (exec body (set_flag w false)) /\
  seen (fst (exec (WithNew body) w)) = seen (fst (exec body (set_flag w false))).
Proof.
  cbn. change (override_enter (flag w)) with false. now destruct (exec body _) as [w' r].
Qed.
Print Assumptions c69_restores.
(** A body that switches the flag on and raises. *)
Example c69_restores_example :
  let w := {| flag := true; objs := fun _ => None; seen := [] |} in
  let p := Try (Seq (WithNew (Seq Use (Seq (SetFlag true) Raise))) Use) Use in
  seen (fst (exec p w)) = [false; true] /\ snd (exec p w) = false.
Proof. now split. Qed.

(** Inside of it everything that reads the flag finds it off, if the body neither assigns the flag
    nor enters objects made elsewhere. *)
Theorem c69_off (body : stmt) (w : world) : tidy body ->
  exists l, seen (fst (exec (WithNew body) w)) = seen w ++ l /\ forall b, In b l -> b = false.
Proof.
  intro T. destruct (tidy_reads body T (set_flag w false) eq_refl) as [l H].
  exists l. cbn. change (override_enter (flag w)) with false.
  destruct (exec body _) as [w' r]. exact H.
Qed.
Print Assumptions c69_off.
Example c69_off_example :
  let body := Seq Use (Seq (Try (WithNew (Seq Use Raise)) Use) Use) in
  tidy body /\
  seen (fst (exec (WithNew body) {| flag := true; objs := fun _ => None; seen := [] |}))
  = [false; false; false; false].
Proof. cbn. tauto. Qed.

(** Programs which use overrides this way never change the flag, at any depth of nesting. *)
Theorem c69_nested (p : stmt) (w : world) : tidy p -> flag (fst (exec p w)) = flag w.
Proof. intro T. now apply tidy_flag. Qed.
Print Assumptions c69_nested.

(** An object made before leaves the flag as it was when the object was made... *)
Theorem c69_stored (x : nat) (between body : stmt) (w : world) :
  let '(w', r) := exec (Seq (New x) between) w in
  objs w' x = Some (flag w) ->
  flag (fst (exec (With x body) w')) = flag w.
Proof.
  destruct (exec (Seq (New x) between) w) as [w' r]. intro H. cbn. rewrite H.
  now destruct (exec body _) as [w'' r'].
Qed.
Print Assumptions c69_stored.
(** ... not as it was before the block: every change of the flag in between is lost. *)
Theorem c69_stored_refuted (x : nat) (b : bool) (body : stmt) (w : world) : b <> flag w ->
  flag (fst (exec (Seq (New x) (SetFlag b)) w)) = b /\
  flag (fst (exec (Seq (New x) (Seq (SetFlag b) (With x body))) w)) = negb b.
Proof.
  intro N. split; [reflexivity|]. cbn. rewrite Nat.eqb_refl. cbn.
  destruct (exec body _) as [w' r]. cbn. destruct b, (flag w); easy.
Qed.
Print Assumptions c69_stored_refuted.
Example c69_stored_example :
  let w := {| flag := true; objs := fun _ => None; seen := [] |} in
  flag (fst (exec (Seq (New 0) (Seq (SetFlag false) (With 0 Use))) w)) = true.
Proof. reflexivity. Qed.
(** Such an object also switches the flag on inside of another override. *)
Theorem c69_inside_refuted (x : nat) (w : world) : flag w = true ->
  seen (fst (exec (Seq (New x) (WithNew (Seq (With x Use) Use))) w)) = seen w ++ [false; true].
Proof.
  intro F. cbn. rewrite Nat.eqb_refl. cbn. rewrite F. cbn. now rewrite <- app_assoc.
Qed.
Print Assumptions c69_inside_refuted.

(** Several threads: as long as the blocks of all threads are nested in each other the flag is
    restored. *)
Theorem c69_threads_nested (es : list (nat * op)) (b : bool) : bracketed es ->
  gflag (run (start b) es) = b.
Proof. intro H. apply (bracketed_kept es H (start b)). Qed.
Print Assumptions c69_threads_nested.
Example c69_threads_nested_example :
  bracketed [(0, Create); (0, Enter); (1, Create); (1, Enter); (2, Read); (1, Exit); (0, Exit); (1, Read)].
Proof.
  apply (br_app [(0, Create); (0, Enter); (1, Create); (1, Enter); (2, Read); (1, Exit); (0, Exit)] [(1, Read)]);
    [|constructor].
  apply (br_with 0 [(1, Create); (1, Enter); (2, Read); (1, Exit)]).
  apply (br_with 1 [(2, Read)]). constructor.
Qed.
(** Without CUDA every schedule leaves the flag off and every read finds it off. *)
Theorem c69_threads_off (es : list (nat * op)) :
  gflag (run (start false) es) = false /\
  forall t b, In (t, b) (reads (run (start false) es)) -> b = false.
Proof.
  destruct (run_off es (start false)) as (F & _ & R); [|now split].
  split; [reflexivity|]. now split.
Qed.
Print Assumptions c69_threads_off.
(** With CUDA this fails for two threads with one block each: under some schedules the flag stays
    off after both have ended, under others a thread reads it switched on inside of its block. *)
Theorem c69_threads_refuted (t u : nat) : t <> u ->
  (exists es, schedule es /\ (forall e, In e es -> fst e = t \/ fst e = u) /\
              gflag (run (start true) es) = false) /\
  (exists es, schedule es /\
     steps_of u es = [Create; Enter; Read; Exit] /\ In (u, true) (reads (run (start true) es))).
Proof.
  intro N. assert (Hu : Nat.eqb u t = false) by now apply Nat.eqb_neq, not_eq_sym.
  assert (Ht : Nat.eqb t u = false) by now apply Nat.eqb_neq.
  assert (W : nested [Create; Enter; Exit]) by apply (nested_with [] nested_nil).
  assert (WR : nested [Create; Enter; Read; Exit]) by apply (nested_with [Read] nested_read).
  split.
  - exists [(t, Create); (t, Enter); (u, Create); (u, Enter); (t, Exit); (u, Exit)]. split; [|split].
    + intro v. unfold steps_of. cbn. destruct (Nat.eqb_spec t v) as [->|Nt]; cbn.
      * rewrite Hu. cbn. exact W.
      * destruct (Nat.eqb u v); cbn; [exact W|constructor].
    + intros e H. cbn in H. intuition (subst; cbn; auto).
    + cbn. unfold put. rewrite ?Nat.eqb_refl, ?Ht, ?Hu. cbn. rewrite ?Nat.eqb_refl, ?Ht, ?Hu. reflexivity.
  - exists [(t, Create); (t, Enter); (u, Create); (u, Enter); (t, Exit); (u, Read); (u, Exit)].
    split; [|split].
    + intro v. unfold steps_of. cbn. destruct (Nat.eqb_spec t v) as [->|Nt]; cbn.
      * rewrite Hu. cbn. exact W.
      * destruct (Nat.eqb u v); cbn; [exact WR|constructor].
    + unfold steps_of. cbn. rewrite Ht, Nat.eqb_refl. reflexivity.
    + cbn. unfold put. rewrite ?Nat.eqb_refl, ?Ht, ?Hu. cbn. rewrite ?Nat.eqb_refl, ?Ht, ?Hu. cbn.
      now left.
Qed.
Print Assumptions c69_threads_refuted.

(** A variable that was never set can't be entered: the block raises before its body and nothing changes. *)
Theorem c69_unset (x : nat) (body handler : stmt) (w : world) : objs w x = None ->
  exec (With x body) w = (w, true) /\ exec (Try (With x body) handler) w = exec handler w.
Proof. intro N. cbn. now rewrite N. Qed.
Print Assumptions c69_unset.
Example c69_unset_case : objs {| flag := true; objs := fun _ => None; seen := [] |} 3 = None.
Proof. reflexivity. Qed.
