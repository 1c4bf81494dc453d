(** Theorems for C09 and C10 (contents of the written records). *)
From Coq Require Import List String Ascii Bool Reals Lra Permutation.
From Verif Require Import Py PyProofs RequestModel SaveModel SaveSpec SaveProofs.
Import ListNotations.
Local Open Scope string_scope.

(** C09. A call writes exactly one record when there is a request: the requested
    fields that are available with their values, and nothing that was not asked for.
    Every request is asked once. [exec_raises] (what evaluating an attribute of the
    model does) and the set iteration order are arbitrary. *)
Theorem c09_one_record :
  forall (A : Type) (exec_raises : string -> bool) (order : list string -> list string)
    (outs : list (request * list string)) (max_time t : R) (st : @state A),
  (forall l, Permutation (order l) l) ->
  well_typed st -> outs <> [] -> dget "time" st = Some (STime t) ->
  exists rec req,
    save_outputs exec_raises order outs max_time st =
      (map (fun rp => (fst (is_active (fst rp) t max_time), snd rp)) outs, Ok [rec]) /\
    (forall k, In k req <-> requested_now outs t max_time k) /\
    NoDup (map fst rec) /\
    dget "time" rec = Some (STime t) /\
    (forall k v, available st k v -> asked st req k -> dget k rec = Some v) /\
    (forall k, ~ asked st req k -> dget k rec = None).
Proof.
  intros A er order outs T t st Ho W N Ht.
  destruct (ask_all_spec outs t T ["time"]) as (F & G & ND).
  assert (ND' : NoDup ["time"]) by (constructor; [intros []|constructor]).
  specialize (ND ND').
  destruct (build_record_spec er order Ho st (snd (ask_all outs t T ["time"])) W)
    as (rec & missing & B & N1 & _ & H1 & H2 & _).
  exists rec, (snd (ask_all outs t T ["time"])).
  split; [|split; [|split; [exact (N1 ND)|split; [|split; [exact H1|exact H2]]]]].
  - unfold save_outputs. destruct outs as [|o outs']; [congruence|]. rewrite Ht.
    rewrite <- F. destruct (ask_all (o :: outs') t T ["time"]) as [outs1 ps]. cbn [fst snd] in *.
    rewrite B. reflexivity.
  - intros k. rewrite G. unfold requested_now. cbn [In]. split.
    + intros [[H|[]]|H]; [left; congruence|now right].
    + intros [->|H]; [left; now left|now right].
  - apply H1.
    + right. split; [|split; [exact Ht|]].
      * cbn. intros H. repeat (destruct H as [H|H]; [discriminate H|]). exact H.
      * intros p a H. cbn in H. repeat (destruct H as [H|H]; [discriminate H|]). destruct H.
    + left. split; [apply G; left; now left|]. split; [|discriminate].
      cbn. intros H. repeat (destruct H as [H|H]; [discriminate H|]). exact H.
Qed.
Print Assumptions c09_one_record.

(** Without requests nothing is written. *)
Theorem c09_nothing_without_requests :
  forall (A : Type) exec_raises order max_time (st : @state A),
  save_outputs exec_raises order [] max_time st = ([], Ok []).
Proof. reflexivity. Qed.
Print Assumptions c09_nothing_without_requests.

(** C10. What is written for a requested field that is not available: with the
    missing names visited in some order, a name is written, with the string
    "surface_2_points" as its value, exactly when no surface attribute that cannot be
    evaluated comes before it (or is it). Otherwise it is not in the record. *)
Theorem c10_missing_field_value :
  forall (A : Type) (exec_raises : string -> bool) (order : list string -> list string)
    (st : @state A) (req : list string),
  (forall l, Permutation (order l) l) -> well_typed st ->
  exists rec missing, build_record exec_raises order st req = Ok rec /\
    (forall k, In k missing <-> asked st req k /\ forall v, ~ available st k v) /\
    forall k, In k missing ->
      ((exists pre post, order missing = (pre ++ k :: post)%list /\
          forall m, In m (pre ++ [k]) ->
            (String.prefix "surface" m && negb (has_char ";"%char m) && exec_raises m) = false) ->
        dget k rec = Some (SStr "surface_2_points")) /\
      (~ (exists pre post, order missing = (pre ++ k :: post)%list /\
          forall m, In m (pre ++ [k]) ->
            (String.prefix "surface" m && negb (has_char ";"%char m) && exec_raises m) = false) ->
        dget k rec = None).
Proof.
  intros A er order st req Ho W.
  destruct (build_record_spec er order Ho st req W) as (rec & missing & B & _ & M & _ & _ & H).
  exists rec, missing. split; [exact B|]. split; [exact M|]. intros k Hk. rewrite (H k Hk).
  pose proof (before_raise_prefix er (order missing) k) as P. unfold raising in P.
  destruct (smem k (before_raise er (order missing))) eqn:S.
  - split; [reflexivity|]. intros C. exfalso. apply C. apply P. now apply smem_in.
  - split; [|reflexivity]. intros C. exfalso. apply P in C. apply smem_in in C. congruence.
Qed.
Print Assumptions c10_missing_field_value.

(** So a single requested name that does not start with "surface" and is missing is
    always written as the string "surface_2_points": the intended property (missing
    fields are not written) is refuted for every such name and every state. *)
Theorem c10_missing_not_written_refuted :
  forall (A : Type) exec_raises (st : @state A) k,
  well_typed st -> ~ compound k -> k <> "all" -> (forall v, ~ available st k v) ->
  String.prefix "surface" k = false ->
  exists rec, build_record exec_raises (fun l => l) st [k] = Ok rec /\
    dget k rec = Some (SStr "surface_2_points").
Proof.
  intros A er st k W C N U P.
  destruct (build_record_spec er (fun l => l) (fun l => Permutation_refl l) st [k] W)
    as (rec & missing & B & _ & M & _ & _ & H).
  exists rec. split; [exact B|].
  assert (Hk : In k missing) by (apply M; split; [left; cbn; auto|exact U]).
  rewrite (H k Hk).
  assert (All : forall m, In m missing -> m = k \/ exists p a, In (m, (p, a)) components /\ In p [k]).
  { intros m Hm. apply M in Hm as [[(Hm & _)|[Hm|(Hm & _)]] _].
    - left. destruct Hm as [->|[]]. reflexivity.
    - now right.
    - exfalso. destruct Hm as [Hm|[]]. congruence. }
  assert (S : smem k (before_raise er missing) = true); [|now rewrite S].
  apply smem_in. apply before_raise_prefix.
  apply in_split in Hk as (pre & post & E). exists pre, post. split; [exact E|].
  intros m Hm.
  assert (Hin : In m missing).
  { rewrite E. apply in_app_or in Hm as [Hm|[->|[]]]; apply in_or_app; [now left|right; now left]. }
  destruct (All m Hin) as [->|(p & a & Hc & [<-|[]])].
  - unfold raising. rewrite P. reflexivity.
  - exfalso. apply C. cbn in Hc.
    repeat (destruct Hc as [Hc|Hc]; [injection Hc as <- <- <-; cbn; tauto|]). destruct Hc.
Qed.
Print Assumptions c10_missing_not_written_refuted.

(** A concrete call: loads asked for, one request active and one not. *)
Example c09_nonvacuous :
  let st : @state nat := [("loads", SVec (SPlain 1) (SPlain 2) (SPlain 3)); ("time", STime 0); ("gap", SPlain 4)] in
  well_typed st /\ exists r1 r2,
  new_request (Interval 1) = Some r1 /\ new_request (GlobalTimes [5; 6])%R = Some r2 /\
  snd (save_outputs (fun _ => false) (fun l => l) [(r1, ["loads"]); (r2, ["gap"])] 1 st)
  = Ok [[("time", STime 0); ("loads_x", SPlain 1); ("loads_y", SPlain 2); ("loads_z", SPlain 3)]].
Proof.
  split.
  - split; intros p Hp v; cbn in Hp;
      repeat (destruct Hp as [<-|Hp]; [cbn; intros H; try discriminate H; try (injection H as <-; eauto)|]);
      try destruct Hp.
  - eexists. eexists. split; [reflexivity|]. split; [reflexivity|].
    cbn. unfold is_active, begin_step, serve_next, Rltb, Rgeb. cbn.
    repeat match goal with
    | |- context [Rlt_dec ?a ?b] => destruct (Rlt_dec a b); try (exfalso; lra); cbn
    | |- context [Rle_dec ?a ?b] => destruct (Rle_dec a b); try (exfalso; lra); cbn
    end. reflexivity.
Qed.
Example c10_nonvacuous :
  build_record (fun m => String.eqb m "surface_1.wrong") (fun l => l)
    ([("time", STime 0)] : @state nat) ["time"; "typo"; "surface_1.wrong"; "typo2"]
  = Ok [("time", STime 0); ("typo", SStr "surface_2_points")].
Proof. reflexivity. Qed.
