(** Theorems for C11 to C14 (steps, output requests and the course of a solution). *)
From Coq Require Import String List Bool ZArith Reals Lia Lra Permutation.
From Verif Require Import Py PyProofs RequestModel ContactModel ContactSpec ContactProofs.
Import ListNotations.
Local Open Scope list_scope.

(** C11. In every history of calls on any number of models, after model [m] was made
    with the initial step [i], its steps are what list insertion of the added steps at
    the given positions gives, provided no step object is added twice and the names
    used in [m] are distinct. *)
Theorem c11_insertion_order :
  forall (step_name : nat -> string) (order : list string -> list string) (pre post : list mop) (m i : nat),
  NoDup (added_steps (pre ++ post)) -> ~ In m (new_models post) ->
  NoDup ("Initial"%string :: map (fun x => fst (snd x)) (adds_to step_name m post)) ->
  built [("Initial"%string, i)] (adds_to step_name m post)
        (steps_of (mrun step_name order (pre ++ MNew m i :: post)) m).
Proof.
  intros sn order pre post m i Hnd Hm Hn. unfold mrun. rewrite fold_left_app. cbn [fold_left].
  set (w0 := fold_left (mstep sn order) pre empty_world).
  pose proof (built_history sn order m post (new_model w0 m i)) as B.
  cbn [steps_of new_model] in B. rewrite upd_same in B. apply B; auto.
  - intros s Hs. cbn. unfold w0. apply (owner_none sn order pre); [reflexivity|].
    intros C. unfold added_steps in Hnd. rewrite flat_map_app in Hnd.
    apply in_split in C as (a & b & E). unfold added_steps in E. rewrite E in Hnd.
    rewrite <- app_assoc in Hnd. cbn in Hnd. apply NoDup_remove_2 in Hnd. apply Hnd.
    apply in_or_app. right. apply in_or_app. now right.
  - unfold added_steps in *. rewrite flat_map_app in Hnd. now apply NoDup_app_remove_l in Hnd.
Qed.
Print Assumptions c11_insertion_order.

(** The first step [f] stays first exactly when the position is not 0, not the name of
    the first step and not so negative that it reaches the front. *)
Theorem c11_first_step_kept :
  forall p f l x l', placed p (f :: l) x l' -> NoDup (map fst (f :: l)) -> x <> f ->
  (hd_error l' = Some f <->
   match p with
   | PNone => True
   | PStr k => k <> fst f
   | PInt z => (z <> 0 /\ - Z.of_nat (List.length (f :: l)) < z)%Z
   end).
Proof. exact placed_front_iff. Qed.
Print Assumptions c11_first_step_kept.

(** A solution that finishes solves every step once, in that order, each from the
    state the step before it returned, and returns the state of the last one. *)
Theorem c11_solved_in_order :
  forall (State Rec : Type) (time_of : State -> option R) step_solve w m verbose skip opens check rq rq' es r,
  solve State Rec time_of step_solve w m verbose skip opens check rq = (rq', es, Ok r) ->
  exists sts, List.length sts = List.length (steps_of w m) /\
    solve_calls es = combine (map snd (steps_of w m)) (None :: map Some sts) /\
    r = last (map Some sts) None /\
    forall k s st', nth_error (map snd (steps_of w m)) k = Some s -> nth_error sts k = Some st' ->
      exists rq0, snd (step_solve s (nth k (None :: map Some sts) None) rq0) = Ok st'.
Proof.
  intros State Rec time_of ss w m verbose skip opens check rq rq' es r H. unfold solve in H.
  destruct (if skip then Ok tt else check) as [u|e].
  - destruct (solve_steps State Rec time_of ss (outs_of w) (steps_of w m) None rq) as [[rq1 es1] r1] eqn:E.
    assert (G : r1 = Ok r /\ solve_calls es = solve_calls es1).
    { destruct verbose; [|destruct opens; [|discriminate]]; injection H as _ <- ->;
        (split; [reflexivity|]); unfold solve_calls; cbn; rewrite flat_map_app; cbn; now rewrite app_nil_r. }
    destruct G as [-> ->]. exact (chain_solve time_of ss (outs_of w) (steps_of w m) None rq rq1 es1 r E).
  - destruct verbose; [|destruct opens]; discriminate.
Qed.
Print Assumptions c11_solved_in_order.

(** C12. Once a step was given to [add_step] (whether that call succeeded or not), a
    further [add_step] with it, for any model and position, raises and changes nothing. *)
Theorem c12_second_add_raises :
  forall step_name order (os : list mop) s m p, In s (added_steps os) ->
  add_step step_name (mrun step_name order os) m s p = (mrun step_name order os, Err ValueError).
Proof.
  intros sn order os s m p H. unfold add_step.
  pose proof (added_owned sn order os s empty_world H) as O. unfold runs in O. unfold mrun.
  destruct (owner (fold_left (mstep sn order) os empty_world) s); [reflexivity|contradiction].
Qed.
Print Assumptions c12_second_add_raises.

(** In every history, a step that is not an initial step is in at most one model, at
    most once, and under its own name. *)
Theorem c12_at_most_one_model :
  forall step_name order (os : list mop) s m m' k k', ~ In s (initial_steps os) ->
  In (k, s) (steps_of (mrun step_name order os) m) ->
  In (k', s) (steps_of (mrun step_name order os) m') ->
  m = m' /\ k = k' /\ k = step_name s /\
  NoDup (map fst (steps_of (mrun step_name order os) m)).
Proof.
  intros sn order os s m m' k k' Hi H H'. destruct (inv_history sn order os) as [N I].
  destruct (I m k s H Hi) as [E1 E2]. destruct (I m' k' s H' Hi) as [E3 E4].
  repeat split; try congruence. apply N.
Qed.
Print Assumptions c12_at_most_one_model.

(** A call with an unknown name as position raises, leaves the steps of every model
    unchanged, but uses up the step: no later call can add it. *)
Theorem c12_unknown_position :
  forall step_name order (os : list mop) s m k, ~ In s (added_steps os) ->
  ~ In k (map fst (steps_of (mrun step_name order os) m)) ->
  exists w', add_step step_name (mrun step_name order os) m s (PStr k) = (w', Err ValueError) /\
  steps_of w' = steps_of (mrun step_name order os) /\
  forall m' p, add_step step_name w' m' s p = (w', Err ValueError).
Proof.
  intros sn order os s m k Hs Hk. unfold add_step at 1.
  assert (O : owner (mrun sn order os) s = None) by (apply (owner_none sn order os empty_world s); auto).
  rewrite O, place_step_eq. apply index_none in Hk. rewrite Hk. eexists. split; [reflexivity|].
  split; [reflexivity|]. intros m' p. unfold add_step. cbn. now rewrite upd_same.
Qed.
Print Assumptions c12_unknown_position.

(** Adding a step with a name that is in use: without a position the new step takes
    the place of the old one. With an index, when the index is not after the old step
    the NEW step is dropped and the old one moves to the index; otherwise the new one
    replaces the old one where that was. The other steps keep their order. *)
Theorem c12_name_reused :
  forall a name old b s, NoDup (map fst (a ++ (name, old) :: b)) ->
  let d := a ++ (name, old) :: b in
  place_step d name s PNone = Ok (a ++ (name, s) :: b) /\
  (forall a1 a2, a = a1 ++ a2 ->
     place_step d name s (PInt (Z.of_nat (List.length a1))) = Ok (a1 ++ (name, old) :: a2 ++ b)) /\
  (forall b1 b2, b = b1 ++ b2 ->
     place_step d name s (PInt (Z.of_nat (List.length (a ++ (name, old) :: b1)))) = Ok (a ++ (name, s) :: b)).
Proof.
  intros a name old b s N d. unfold d. split; [|split].
  - rewrite place_step_eq. rewrite dset_old; [reflexivity|].
    rewrite map_app in N. cbn in N. apply NoDup_remove_2 in N. intros C. apply N. apply in_or_app. now left.
  - intros a1 a2 ->. rewrite place_step_eq. rewrite <- app_assoc. rewrite insert_at_length.
    rewrite rebuild_dup_new; [reflexivity|]. now rewrite <- app_assoc in N.
  - intros b1 b2 ->. rewrite place_step_eq.
    replace (a ++ (name, old) :: b1 ++ b2) with ((a ++ (name, old) :: b1) ++ b2) by (now rewrite <- app_assoc).
    rewrite insert_at_length. rewrite <- app_assoc. cbn [app]. rewrite rebuild_dup_old; [reflexivity|exact N].
Qed.
Print Assumptions c12_name_reused.

(** C13. A list of known names: the request is appended to each step once per time its
    name is listed; nothing else changes. *)
Theorem c13_listed_steps :
  forall order w m o (names : list string),
  (forall n, In n names -> In n (map fst (steps_of w m))) ->
  let '(w', r) := add_output order w m o (AList names) in
  r = Ok tt /\ steps_of w' = steps_of w /\ owner w' = owner w /\
  forall s, outs_of w' s = outs_of w s ++
    repeat o (List.length (filter (fun n => match dget n (steps_of w m) with
                                             | Some s' => Nat.eqb s' s | None => false end) names)).
Proof.
  intros order w m o names H. destruct (add_output order w m o (AList names)) as [w' r] eqn:E.
  pose proof (add_output_keeps order w m o (AList names)) as [K1 K2]. rewrite E in K1, K2. cbn in K1, K2.
  cbn [add_output] in E.
  destruct (append_output_spec m o names w) as [R O].
  - intros n Hn. apply dget_in. now apply H.
  - rewrite E in R, O. cbn in R, O. repeat split; assumption.
Qed.
Print Assumptions c13_listed_steps.

(** An unknown name raises; the steps named before it have got the request. *)
Theorem c13_unknown_name :
  forall order w m o pre k post, (forall n, In n pre -> In n (map fst (steps_of w m))) ->
  ~ In k (map fst (steps_of w m)) ->
  add_output order w m o (AList (pre ++ k :: post)) = (fst (add_output order w m o (AList pre)), Err KeyError).
Proof.
  intros order w m o pre k post H Hk. cbn [add_output]. apply append_output_unknown.
  - intros n Hn. apply dget_in. now apply H.
  - now apply dget_none.
Qed.
Print Assumptions c13_unknown_name.

(** "all": every step except the initial one, once, whatever the order of the set. *)
Theorem c13_all_steps :
  forall order w m o, (forall l, Permutation (order l) l) ->
  NoDup (map fst (steps_of w m)) -> NoDup (map snd (steps_of w m)) ->
  In "Initial"%string (map fst (steps_of w m)) ->
  let '(w', r) := add_output order w m o (AStr "all") in
  r = Ok tt /\
  (forall k s, In (k, s) (steps_of w m) -> k <> "Initial"%string -> outs_of w' s = outs_of w s ++ [o]) /\
  (forall s, ~ In s (map snd (steps_of w m)) \/ In ("Initial"%string, s) (steps_of w m) ->
     outs_of w' s = outs_of w s).
Proof.
  intros order w m o Hp Nk Nv Hi. cbn [add_output].
  apply smem_in in Hi. rewrite Hi.
  set (names := order (sremove "Initial" (map fst (steps_of w m)))).
  assert (Hin : forall n, In n names <-> In n (map fst (steps_of w m)) /\ n <> "Initial"%string).
  { intros n. unfold names. rewrite <- in_sremove. split; intros H.
    - eapply Permutation_in; [apply Hp|exact H].
    - eapply Permutation_in; [symmetry; apply Hp|exact H]. }
  assert (Nn : NoDup names).
  { unfold names. eapply Permutation_NoDup; [symmetry; apply Hp|]. now apply nodup_filter. }
  destruct (append_output w m o names) as [w' r] eqn:E.
  destruct (append_output_spec m o names w) as [R O].
  { intros n Hn. apply dget_in. now apply Hin in Hn. }
  rewrite E in R, O. cbn in R, O. split; [exact R|]. split.
  - intros k s Hk Hne. rewrite O. rewrite (filter_single _ names k Nn); [reflexivity| | |].
    + apply Hin. split; [|exact Hne]. apply in_map_iff. now exists (k, s).
    + rewrite (dget_nodup_in k s _ Nk Hk). apply Nat.eqb_refl.
    + intros y Hy Hs. destruct (dget y (steps_of w m)) as [s'|] eqn:D; [|discriminate].
      apply Nat.eqb_eq in Hs. subst s'. apply dget_some_in in D.
      clear - D Hk Nv. induction (steps_of w m) as [|[k0 s0] l IH]; [destruct D|].
      cbn in Nv. apply NoDup_cons_iff in Nv as [N1 N2]. destruct D as [D|D], Hk as [Hk|Hk].
      * congruence.
      * exfalso. injection D as -> ->. apply N1. apply in_map_iff. now exists (k, s).
      * exfalso. injection Hk as -> ->. apply N1. apply in_map_iff. now exists (y, s).
      * now apply IH.
  - intros s Hs. rewrite O. rewrite filter_none; [apply app_nil_r|].
    intros y Hy. destruct (dget y (steps_of w m)) as [s'|] eqn:D; [|reflexivity].
    apply Nat.eqb_neq. intros ->. apply dget_some_in in D. destruct Hs as [Hs|Hs].
    + apply Hs. apply in_map_iff. now exists (y, s).
    + apply Hin in Hy as [_ Hy]. apply Hy.
      clear - D Hs Nv. induction (steps_of w m) as [|[k0 s0] l IH]; [destruct D|].
      cbn in Nv. apply NoDup_cons_iff in Nv as [N1 N2]. destruct D as [D|D], Hs as [Hs|Hs].
      * congruence.
      * exfalso. injection D as -> ->. apply N1. apply in_map_iff. now exists ("Initial"%string, s).
      * exfalso. injection Hs as -> ->. apply N1. apply in_map_iff. now exists (y, s).
      * now apply IH.
Qed.
Print Assumptions c13_all_steps.

(** C14. When every step moves the time by its duration, the run has the shape
    [course]: each request of a step is told the time at the start of the step, each
    step starts at the sum of the durations before it, up to the first step that raises. *)
Theorem c14_course :
  forall (State Rec : Type) (time_of : State -> option R) step_solve dur outs steps rq rq' (es : list (@event State Rec)) r,
  (forall s cur rq t st', match cur with Some st => time_of st = Some t | None => t = 0%R end ->
     snd (step_solve s cur rq) = Ok st' -> time_of st' = Some (t + dur s)%R) ->
  solve_steps State Rec time_of step_solve outs steps None rq = (rq', es, r) ->
  course time_of outs dur steps 0 None es r.
Proof.
  intros State Rec time_of ss dur outs steps rq rq' es r Ha H.
  pose proof (course_solve time_of ss dur outs steps Ha 0%R None rq eq_refl) as C.
  rewrite H in C. exact C.
Qed.
Print Assumptions c14_course.

Theorem c14_time_is_sum :
  forall (State Rec : Type) (time_of : State -> option R) step_solve dur outs steps rq rq' (es : list (@event State Rec)) r,
  (forall s cur rq t st', match cur with Some st => time_of st = Some t | None => t = 0%R end ->
     snd (step_solve s cur rq) = Ok st' -> time_of st' = Some (t + dur s)%R) ->
  solve_steps State Rec time_of step_solve outs steps None rq = (rq', es, r) ->
  (forall k s st, nth_error (solve_calls es) k = Some (s, Some st) ->
     nth_error (map snd steps) k = Some s /\
     time_of st = Some (sum_list (map (fun ks => dur (snd ks)) (firstn k steps)))) /\
  (forall st, r = Ok (Some st) -> time_of st = Some (sum_list (map (fun ks => dur (snd ks)) steps))).
Proof.
  intros State Rec time_of ss dur outs steps rq rq' es r Ha H.
  pose proof (c14_course State Rec time_of ss dur outs steps rq rq' es r Ha H) as C.
  split.
  - intros k s st Hk. destruct (course_times time_of dur outs steps 0%R None es r C eq_refl k s st Hk) as [E1 E2].
    now rewrite Rplus_0_l in E2.
  - intros st E. pose proof (course_final time_of dur outs steps 0%R None es r C eq_refl st E) as F.
    now rewrite Rplus_0_l in F.
Qed.
Print Assumptions c14_time_is_sum.

(** Whatever happens (failing data check, failing log file, failing step), the output
    file and the log file are closed and the standard output restored at the end, and
    every record is written while the output file is open. *)
Theorem c14_files_closed :
  forall (State Rec : Type) (time_of : State -> option R) step_solve w m verbose skip opens check rq,
  let es := snd (fst (solve State Rec time_of step_solve w m verbose skip opens check rq)) in
  saver_open es = 0%Z /\ log_open es = 0%Z /\ redirected es = 0%Z /\
  (forall a r b, es = a ++ EWrite r :: b -> saver_open a = 1%Z).
Proof. intros. eapply (solve_closes time_of step_solve (fun _ => 0%R)). reflexivity. Qed.
Print Assumptions c14_files_closed.

(** ** Examples *)
Definition ex_names (n : nat) : string := match n with 1 => "a" | 2 => "b" | _ => "c" end%string.
Definition ex_history : list mop :=
  [MNew 0 10; MAddStep 0 1 PNone; MAddStep 0 2 (PStr "a"); MAddStep 0 3 (PInt (-1)); MAddOutput 0 7 (AStr "all")].
Example c11_nonvacuous :
  NoDup (added_steps ex_history) /\
  steps_of (mrun ex_names (fun l => l) ex_history) 0 = [("Initial", 10); ("b", 2); ("c", 3); ("a", 1)]%string.
Proof. split; [|reflexivity]. cbn. repeat constructor; cbn; intuition discriminate. Qed.
Example c12_nonvacuous :
  In 2 (added_steps ex_history) /\
  place_step [("Initial", 10); ("a", 1)]%string "a"%string 5 (PInt 1) = Ok [("Initial", 10); ("a", 1)]%string.
Proof. split; [cbn; auto|reflexivity]. Qed.
Example c13_nonvacuous :
  map (outs_of (mrun ex_names (fun l => l) ex_history)) [10; 1; 2; 3] = [[]; [7]; [7]; [7]].
Proof. reflexivity. Qed.
(** Two steps of one time unit after the initial one; the second one raises or not. *)
Definition ex_solve (bad : bool) (s : nat) (cur : option R) (rq : store) : store * list nat * result R :=
  match s, cur with
  | 10, None => (rq, [], Ok 0%R)
  | 10, Some _ => (rq, [], Err ValueError)
  | 2, _ => if bad then (rq, [5], Err ValueError)
            else (rq, [5], Ok (match cur with Some t => t | None => 0 end + 1)%R)
  | _, _ => (rq, [6], Ok (match cur with Some t => t | None => 0 end + 1)%R)
  end.
Example c14_nonvacuous : forall rq,
  (forall bad s cur rq t st', match cur with Some st => Some st = Some t | None => t = 0%R end ->
     snd (ex_solve bad s cur rq) = Ok st' -> Some st' = Some (t + (if Nat.eqb s 10 then 0 else 1))%R) /\
  snd (solve_steps R nat Some (ex_solve false) (fun _ => []) [("I", 10); ("a", 1); ("b", 2)]%string None rq)
    = Ok (Some (0 + 1 + 1)%R) /\
  snd (fst (solve_steps R nat Some (ex_solve true) (fun s => if Nat.eqb s 2 then [4] else []) [("I", 10); ("a", 1); ("b", 2); ("c", 3)]%string None rq))
    = [ESolve 10 None; ESolve 1 (Some 0%R); EWrite 6; ENewStep 4 (0 + 1)%R; ESolve 2 (Some (0 + 1)%R); EWrite 5].
Proof.
  intros rq. split; [|split; reflexivity].
  intros bad s cur rq0 t st' Hc H.
  destruct (Nat.eqb_spec s 10) as [->|N].
  - destruct cur; [discriminate|]. cbn in H. injection H as <-. subst t. f_equal. lra.
  - assert (E : st' = (match cur with Some t => t | None => 0 end + 1)%R).
    { do 11 (destruct s as [|s]; [first [contradiction | cbn in H; destruct bad; cbn in H; congruence]|]).
      cbn in H. congruence. }
    rewrite E. destruct cur as [t0|]; [injection Hc as ->; reflexivity|subst t; reflexivity].
Qed.
