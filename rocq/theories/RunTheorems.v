(** C118: what is read after an analysis is what was computed. *)
From Coq Require Import List String Bool Reals Arith ZArith Lia Lra Permutation.
From Verif Require Import Py RequestModel SaveModel SaveSpec ContactModel OutputsModel OutputsSpec RunModel RunSpec RunProofs.
Import ListNotations.
Local Open Scope string_scope.

(** One record for each time point of a step with requests, in the order of computing: each
    can be read back and holds what the state had of what was asked for then. This also holds when a step
    raises on the way: what was computed before is in the files. *)
Theorem c118_records : forall bytes (points : nat -> option (@state (@value R bytes)) -> list state * result state)
    max_time params exec_raises order to_float np_has w m verbose skip_check opens check rq,
  (forall l, Permutation (order l) l) -> sensible_steps points np_has ->
  verbose = true \/ opens = true -> skip_check = true \/ check = Ok tt ->
  (match steps_of w m with (_, s) :: _ => outs_of w s = [] | [] => True end) ->
  let A := analyse points max_time params exec_raises order to_float w m verbose skip_check opens check rq in
  let course := course_of points (map snd (steps_of w m)) None in
  snd A = outcome points (map snd (steps_of w m)) None /\
  List.length (database (fst A)) = records_before (outs_of w) course /\
  forall pre s st post, course = (pre ++ Computed s st :: post)%list -> outs_of w s <> [] ->
    exists js d, nth_error (database (fst A)) (records_before (outs_of w) pre) = Some js /\ read_record np_has (archive (fst A)) js = Ok d /\
      faithful to_float (wanted max_time params (outs_of w) rq pre s st) st d.
Proof. intros bytes points max_time params exec_raises order to_float np_has w m verbose skip_check opens check rq O SN V K F. exact (records points max_time params exec_raises order O to_float np_has SN w m verbose skip_check opens check rq V K F). Qed.
Print Assumptions c118_records.

(** When the times are not negative and no two time points of steps with requests have the same time, the reader finds each of
    them by its time. *)
Theorem c118_by_time : forall bytes (points : nat -> option (@state (@value R bytes)) -> list state * result state)
    max_time params exec_raises order to_float np_has (num_eqb : R -> R -> bool) nonneg w m verbose skip_check opens check rq,
  (forall l, Permutation (order l) l) -> sensible_steps points np_has -> (forall x y, num_eqb x y = true <-> x = y) ->
  verbose = true \/ opens = true -> skip_check = true \/ check = Ok tt ->
  (match steps_of w m with (_, s) :: _ => outs_of w s = [] | [] => True end) ->
  let A := analyse points max_time params exec_raises order to_float w m verbose skip_check opens check rq in
  let course := course_of points (map snd (steps_of w m)) None in
  (forall s st, In (Computed s st) course -> nonneg (time st) = true) ->
  (forall pre s st mid s' st' post, course = (pre ++ Computed s st :: mid ++ Computed s' st' :: post)%list ->
     outs_of w s <> [] -> outs_of w s' <> [] -> time st <> time st') ->
  forall pre s st post, course = (pre ++ Computed s st :: post)%list -> outs_of w s <> [] ->
    exists d, reader_getitem np_has num_eqb nonneg (archive (fst A)) (database (fst A)) (ITime (time st)) = Ok (RAtTime d) /\
      faithful to_float (wanted max_time params (outs_of w) rq pre s st) st d.
Proof.
  intros bytes points max_time params exec_raises order to_float np_has num_eqb nonneg w m verbose skip_check opens check rq O SN E V K F A course NN D.
  apply (by_time points max_time params exec_raises order O to_float np_has SN num_eqb nonneg E w m verbose skip_check opens check rq V K F NN).
  exact (saved_times_nodup (outs_of w) course D).
Qed.
Print Assumptions c118_by_time.

(** A request for every [n]-th time point: counted over all steps it was added to, the records of time points 0, n, 2n, ...
    hold its names, and, when it is the only request of the step, the other records hold the time alone. *)
Theorem c118_interval : forall bytes (points : nat -> option (@state (@value R bytes)) -> list state * result state)
    max_time params exec_raises order to_float np_has w m verbose skip_check opens check rq o (n : BinInt.Z),
  (forall l, Permutation (order l) l) -> sensible_steps points np_has ->
  verbose = true \/ opens = true -> skip_check = true \/ check = Ok tt ->
  (match steps_of w m with (_, s) :: _ => outs_of w s = [] | [] => True end) ->
  (forall s, NoDup (outs_of w s)) -> new_request (Interval (IZR n)) = Some (rq o) ->
  let A := analyse points max_time params exec_raises order to_float w m verbose skip_check opens check rq in
  let course := course_of points (map snd (steps_of w m)) None in
  forall pre s st post, course = (pre ++ Computed s st :: post)%list -> In o (outs_of w s) ->
    exists js d, nth_error (database (fst A)) (records_before (outs_of w) pre) = Some js /\ read_record np_has (archive (fst A)) js = Ok d /\
      ((points_of (outs_of w) o pre mod Z.to_nat (Z.max n 1) = 0)%nat ->
         forall k v, available st k v -> asked st (params o) k -> exists v', dget k d = Some v' /\ reads_as to_float (as_value v) v') /\
      ((points_of (outs_of w) o pre mod Z.to_nat (Z.max n 1) <> 0)%nat -> outs_of w s = [o] -> forall k, k <> "time" -> dget k d = None).
Proof.
  intros bytes points max_time params exec_raises order to_float np_has w m verbose skip_check opens check rq o n O SN V K F ND Hr A course pre s st post E I.
  destruct (c118_records bytes points max_time params exec_raises order to_float np_has w m verbose skip_check opens check rq O SN V K F) as (_ & _ & Q).
  assert (NE : outs_of w s <> []) by (intros X; rewrite X in I; destruct I).
  destruct (Q pre s st post E NE) as (js & d & J1 & J2 & _ & req & D1 & D2 & _ & D3). exists js, d. split; [exact J1|]. split; [exact J2|].
  pose proof (interval_active max_time (outs_of w) rq pre s st o n ND I Hr) as AC. split.
  - intros H k v Av As. apply D2; [exact Av|]. apply (asked_mono st (params o) req); [|exact As]. intros x Hx. apply D1. right. exists o. split; [exact I|]. split; [now apply AC|exact Hx].
  - intros H X k Hk. apply D3. apply (asked_time st req); [|exact Hk]. intros x Hx. apply D1 in Hx as [Hx|(y & Y1 & Y2 & _)]; [exact Hx|]. exfalso. rewrite X in Y1.
    destruct Y1 as [<-|[]]. apply H. now apply AC.
Qed.
Print Assumptions c118_interval.

(** When the data check fails nothing is computed: no records, and its error is raised. The same holds when the log cannot be
    opened, and when a request was added to the first step: there is no time to tell it. *)
Theorem c118_nothing : forall bytes (points : nat -> option (@state (@value R bytes)) -> list state * result state)
    max_time params exec_raises order to_float w m verbose skip_check opens check rq,
  let A := analyse points max_time params exec_raises order to_float w m verbose skip_check opens check rq in
  (verbose = false -> opens = false -> A = (exit_ (enter new_saver), Err OSError)) /\
  (verbose = true \/ opens = true ->
    (forall e, skip_check = false -> check = Err e -> A = (exit_ (enter new_saver), Err e)) /\
    (skip_check = true \/ check = Ok tt -> forall nm s rest, steps_of w m = (nm, s) :: rest -> outs_of w s <> [] ->
       A = (exit_ (enter new_saver), Err TypeError))) /\
  database (exit_ (@enter R bytes new_saver)) = [].
Proof.
  intros bytes points max_time params exec_raises order to_float w m verbose skip_check opens check rq A. split; [|split; [|reflexivity]].
  - intros -> ->. unfold A, analyse, solve. cbv zeta. destruct (if skip_check then Ok tt else check); [|reflexivity]. now destruct (solve_steps _ _ _ _ _ _ _ _) as [[? ?] ?].
  - intros V. split.
    + intros e -> ->. unfold A, analyse, solve. destruct verbose; [reflexivity|]. destruct V as [V| ->]; [discriminate V|reflexivity].
    + intros K nm s rest E N. unfold A, analyse, solve. rewrite E. cbn [solve_steps]. destruct (outs_of w s) as [|y l]; [congruence|].
      assert (CK : (if skip_check then Ok tt else check) = Ok tt) by (destruct K as [->| ->]; [reflexivity|now destruct skip_check]). rewrite CK.
      destruct verbose; [reflexivity|]. destruct V as [V| ->]; [discriminate V|reflexivity].
Qed.
Print Assumptions c118_nothing.

(** ** A case: an initial step, then a step of three time points with one request for every second of them. *)
Definition ex_array : @value R nat := VArr (NdArray [2] "float64" 7).
Definition ex_state (t : R) : @state (@value R nat) :=
  [("time", STime t); ("loads", SVec (SPlain ex_array) (SPlain ex_array) (SPlain (VNum 5%R)))].
Definition ex_points (s : nat) (cur : option (@state (@value R nat))) : list state * result state :=
  match s with
  | 0 => ([], Ok [("time", STime 0%R)])
  | _ => ([ex_state 1%R; ex_state 2%R; ex_state 3%R], Ok (ex_state 3%R))
  end.
Definition ex_world : world := World (fun _ => None) (fun _ => [("initial", 0%nat); ("step", 1%nat)]) (fun s => match s with 1 => [0%nat] | _ => [] end).
Definition ex_np (s : string) : bool := String.eqb s "float64".
Example c118_sensible : sensible_steps ex_points ex_np.
Proof.
  assert (H : forall t, sensible ex_np (ex_state t)).
  { intros t. split; [split|split].
    - intros p Hp v. cbn in Hp. repeat destruct Hp as [<-|Hp]; try (intros X; discriminate X); [|destruct Hp]. intros [= <-]. now exists (SPlain ex_array), (SPlain ex_array), (SPlain (VNum 5%R)).
    - intros p Hp v. cbn in Hp. repeat destruct Hp as [<-|Hp]; try (intros X; discriminate X). destruct Hp.
    - now exists t.
    - intros k v [(p & a & u & H1 & H2 & H3)|(H1 & H2 & H3)].
      + unfold ex_state in H2. cbn [dget] in H2. destruct (String.eqb p "time"); [injection H2 as <-; destruct a; discriminate H3|].
        destruct (String.eqb p "loads"); [|discriminate H2]. injection H2 as <-. destruct a; injection H3 as <-; cbn; auto.
      + unfold ex_state in H2. cbn [dget] in H2. destruct (String.eqb k "time"); [injection H2 as <-; cbn; auto|].
        destruct (String.eqb_spec k "loads") as [->|]; [|discriminate H2]. exfalso. apply H1. now left. }
  intros s cur. destruct s as [|s]; cbn [ex_points fst snd].
  - split; [intros st []|]. intros st [= <-]. now exists 0%R.
  - split; [intros st [<-|[<-|[<-|[]]]]; apply H|]. intros st [= <-]. now exists 3%R.
Qed.
Definition ex_requests (o : nat) : request := Request (Interval 2%R) 2%R None [] 0%R None.
Definition ex_run := analyse ex_points (fun _ => 4%R) (fun _ => ["loads"]) (fun _ => false) (fun l => l) (fun _ _ => None) ex_world 0 true true true (Ok tt) ex_requests.
Example c118_read : List.length (database (fst ex_run)) = 3%nat /\ snd ex_run = Ok (Some (ex_state 3%R)) /\
  (exists js d, nth_error (database (fst ex_run)) 2 = Some js /\ read_record ex_np (archive (fst ex_run)) js = Ok d /\
     dget "loads_x" d = Some ex_array /\ dget "loads_z" d = Some (VNum 5%R)) /\
  (exists js d, nth_error (database (fst ex_run)) 1 = Some js /\ read_record ex_np (archive (fst ex_run)) js = Ok d /\ dget "loads_x" d = None).
Proof.
  assert (O : forall l : list string, Permutation l l) by (intros; apply Permutation_refl).
  destruct (c118_records nat ex_points (fun _ => 4%R) (fun _ => ["loads"]) (fun _ => false) (fun l => l) (fun _ _ => None) ex_np ex_world 0 true true true (Ok tt) ex_requests
    O c118_sensible (or_introl eq_refl) (or_introl eq_refl) eq_refl) as (R1 & R2 & _). fold ex_run in R1, R2.
  split; [exact R2|]. split; [exact R1|].
  assert (ND : forall s, NoDup (outs_of ex_world s)) by (intros [|[|s]]; repeat constructor; intros []).
  pose proof (c118_interval nat ex_points (fun _ => 4%R) (fun _ => ["loads"]) (fun _ => false) (fun l => l) (fun _ _ => None) ex_np ex_world 0 true true true (Ok tt) ex_requests 0 2
    O c118_sensible (or_introl eq_refl) (or_introl eq_refl) eq_refl ND eq_refl) as Q. cbv zeta in Q. fold ex_run in Q.
  assert (AV : forall a v t, In ("loads_" ++ a, ("loads", match a with "x" => X | "z" => Z | _ => Y end)) components ->
     component (SVec (SPlain ex_array) (SPlain ex_array) (SPlain (VNum 5%R))) (match a with "x" => X | "z" => Z | _ => Y end) = Some v ->
     available (ex_state t) ("loads_" ++ a) v /\ asked (ex_state t) ["loads"] ("loads_" ++ a)).
  { intros a v t I C. split; [left; eexists; eexists; eexists; split; [exact I|]; split; [reflexivity|exact C]|]. right. left. eexists; eexists. split; [exact I|now left]. }
  split.
  - destruct (Q [Begins 0 0%R; Begins 1 0%R; Computed 1 (ex_state 1%R); Computed 1 (ex_state 2%R)] 1%nat (ex_state 3%R) [] eq_refl (or_introl eq_refl)) as (js & d & J1 & J2 & J3 & _).
    exists js, d. split; [exact J1|]. split; [exact J2|]. split.
    + destruct (AV "x" (SPlain ex_array) 3%R) as [A1 A2]; [cbn; tauto|reflexivity|]. destruct (J3 eq_refl _ _ A1 A2) as (v' & VE & V). etransitivity; [exact VE|]. inversion V; subst; [discriminate|reflexivity].
    + destruct (AV "z" (SPlain (VNum 5%R)) 3%R) as [A1 A2]; [cbn; tauto|reflexivity|]. destruct (J3 eq_refl _ _ A1 A2) as (v' & VE & V). etransitivity; [exact VE|]. now inversion V; subst.
  - destruct (Q [Begins 0 0%R; Begins 1 0%R; Computed 1 (ex_state 1%R)] 1%nat (ex_state 2%R) [Computed 1 (ex_state 3%R)] eq_refl (or_introl eq_refl)) as (js & d & J1 & J2 & _ & J3).
    exists js, d. split; [exact J1|]. split; [exact J2|]. apply J3; [discriminate|reflexivity|discriminate].
Qed.
