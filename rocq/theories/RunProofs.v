From Coq Require Import List String Bool Reals Arith ZArith Lia Permutation Classical_Prop.
From Verif Require Import Py PyProofs RequestModel RequestSpec RequestProofs SaveModel SaveSpec SaveProofs ContactModel OutputsModel OutputsSpec OutputsProofs RunModel RunSpec.
Import ListNotations.
Local Open Scope string_scope.

Lemma run_request_app r a b : run_request r (a ++ b) =
  (fst (run_request (fst (run_request r a)) b), (snd (run_request r a) ++ snd (run_request (fst (run_request r a)) b))%list).
Proof.
  revert r. induction a as [|[t|t m] a IH]; intros r; cbn [List.app run_request].
  - cbn. now destruct (run_request r b).
  - exact (IH (new_step r t)).
  - destruct (is_active r t m) as [r1 x]. rewrite IH. destruct (run_request r1 a) as [r2 bs]. cbn [fst snd].
    destruct (run_request r2 b) as [r3 cs]. reflexivity.
Qed.

Section Run.
Context {bytes : Type}.
Notation value := (@value R bytes).
Notation state := (@state value).
Variable points : nat -> option state -> list state * result state.
Variable max_time : nat -> R.
Variable params : nat -> list string.
Variable exec_raises : string -> bool.
Variable order : list string -> list string.
Hypothesis order_perm : forall l, Permutation (order l) l.
Variable outs : nat -> list nat.
Variable np_has : string -> bool.
Hypothesis sane : sensible_steps points np_has.
Notation seen := (seen_by max_time outs).
Notation hist := (history_of max_time outs).
Notation wants := (wanted max_time params outs).

(** The store after some moments. *)
Definition after (rq : store) (ms : list (@moment bytes)) (o : nat) : request := fst (run_request (rq o) (hist o ms)).
Lemma after_app rq ms m o : after rq (ms ++ [m]) o = fst (run_request (after rq ms o) (seen o m)).
Proof. unfold after, history_of. rewrite flat_map_app, run_request_app. cbn [flat_map]. now rewrite app_nil_r. Qed.

Lemma ask_ids_spec os t T : forall rq ps,
  let r := ask_ids params os t T rq ps in
  (forall o, fst r o = fst (run_request (rq o) (map (fun _ => Ask t T) (filter (Nat.eqb o) os)))) /\
  (forall k, In k (snd r) <-> In k ps \/ exists o, In o os /\ In true (snd (run_request (rq o) (map (fun _ => Ask t T) (filter (Nat.eqb o) os)))) /\ In k (params o)) /\
  (NoDup ps -> NoDup (snd r)).
Proof.
  induction os as [|o os IH]; intros rq ps; cbn [ask_ids].
  - cbn. split; [reflexivity|]. split; [|auto]. intros k. split; [now left|]. intros [H|(o & [] & _)]. exact H.
  - destruct (is_active (rq o) t T) as [r b] eqn:E. specialize (IH (upd rq o r) (if b then supdate ps (params o) else ps)). cbv zeta in IH. destruct IH as (I1 & I2 & I3).
    cbv zeta. assert (U : forall x, run_request (rq x) (map (fun _ => Ask t T) (filter (Nat.eqb x) (o :: os))) =
      if Nat.eqb x o then (fst (run_request r (map (fun _ => Ask t T) (filter (Nat.eqb x) os))), b :: snd (run_request r (map (fun _ => Ask t T) (filter (Nat.eqb x) os))))
      else run_request (rq x) (map (fun _ => Ask t T) (filter (Nat.eqb x) os))).
    { intros x. cbn [filter]. destruct (Nat.eqb_spec x o) as [->|N]; [|reflexivity]. cbn [map run_request]. rewrite E. now destruct (run_request r _). }
    split; [|split].
    + intros x. rewrite I1, U. unfold upd. destruct (Nat.eqb_spec x o) as [->|N]; reflexivity.
    + intros k. rewrite I2. clear I1 I2 I3. assert (P : In k (if b then supdate ps (params o) else ps) <-> In k ps \/ (b = true /\ In k (params o))).
      { destruct b; [rewrite in_supdate|]; intuition congruence. }
      rewrite P. split.
      * intros [[H|[-> H]]|(x & H1 & H2 & H3)]; [now left| |].
        -- right. exists o. split; [now left|]. split; [|exact H]. rewrite U, Nat.eqb_refl. now left.
        -- right. exists x. split; [now right|]. split; [|exact H3]. rewrite U. unfold upd in H2. destruct (Nat.eqb_spec x o); [now right|exact H2].
      * intros [H|(x & H1 & H2 & H3)]; [now left; left|]. rewrite U in H2. unfold upd. destruct (Nat.eqb_spec x o) as [->|N].
        -- destruct H2 as [->|H2]; [left; right; now split|]. destruct (in_dec Nat.eq_dec o os) as [Io|No].
           ++ right. exists o. split; [exact Io|]. split; [|exact H3]. now rewrite Nat.eqb_refl.
           ++ exfalso. assert (F : filter (Nat.eqb o) os = []).
              { clear - No. induction os as [|y os IH]; [reflexivity|]. cbn. destruct (Nat.eqb_spec o y) as [->|]; [exfalso; apply No; now left|]. apply IH. intros X. apply No. now right. }
              rewrite F in H2. exact H2.
        -- right. destruct H1 as [->|H1]; [congruence|]. exists x. split; [exact H1|]. split; [|exact H3]. destruct (Nat.eqb_spec x o); [congruence|exact H2].
    + intros N. apply I3. destruct b; [|exact N]. apply nodup_supdate. exact N.
Qed.

(** A record of a time point. *)
Definition good_record (names : string -> Prop) (st rec : state) : Prop :=
  dget "time" rec = Some (STime (time st)) /\ NoDup (map fst rec) /\
  Forall (fun kv => storable np_has (snd kv)) (written_record rec) /\
  exists req, (forall k, In k req <-> names k) /\
    (forall k v, available st k v -> asked st req k -> dget k rec = Some v) /\
    (forall k, asked st req k -> (forall v, ~ available st k v) -> dget k rec = None \/ dget k rec = Some (SStr "surface_2_points")) /\
    (forall k, ~ asked st req k -> dget k rec = None).

Lemma save_spec rq before s st : outs s <> [] -> sensible np_has st ->
  exists rec rq', save params exec_raises order (outs s) (max_time s) st (after rq before) = (rq', Ok [rec]) /\
    (forall o, rq' o = after rq (before ++ [Computed s st]) o) /\ good_record (wants rq before s st) st rec.
Proof.
  intros O (W & (t & T) & V). unfold save. destruct (outs s) as [|o os] eqn:OS; [congruence|]. rewrite <- OS in *. rewrite T.
  pose proof (ask_ids_spec (outs s) t (max_time s) (after rq before) ["time"]) as A. cbv zeta in A.
  destruct (ask_ids params (outs s) t (max_time s) (after rq before) ["time"]) as [rq' ps]. cbn [fst snd] in A. destruct A as (A1 & A2 & A3).
  assert (TM : time st = t) by (unfold time; now rewrite T).
  destruct (build_record_spec exec_raises order order_perm st ps W) as (rec & missing & B & N & M & B1 & B2 & B3).
  rewrite B. cbn [bind]. exists rec, rq'. split; [reflexivity|]. split.
  { intros x. rewrite after_app, A1. unfold seen_by. now rewrite TM. }
  assert (TV : available st "time" (STime t)).
  { right. split; [cbn; intuition discriminate|]. split; [exact T|]. intros p a H. apply components_dget in H. discriminate H. }
  assert (TA : asked st ps "time").
  { left. split; [apply A2; left; now left|]. split; [cbn; intuition discriminate|discriminate]. }
  assert (ND : NoDup (map fst rec)) by (apply N, A3; constructor; [intros []|constructor]).
  split; [rewrite TM; exact (B1 _ _ TV TA)|]. split; [exact ND|]. split.
  - apply Forall_forall. intros [k w] Hin. apply in_map_iff in Hin as ((k' & v) & E & Hin). cbn [fst snd] in E. injection E as <- <-. cbn [snd].
    assert (D : dget k' rec = Some v). { clear - ND Hin. induction rec as [|[a b] rec IH]; [destruct Hin|]. cbn in *. inversion ND as [|x l H1 H2]; subst. destruct Hin as [E|Hin].
      - injection E as -> ->. now rewrite String.eqb_refl.
      - destruct (String.eqb_spec k' a) as [->|]; [|now apply IH]. exfalso. apply H1. apply in_map_iff. now exists (a, v). }
    assert (AS : asked st ps k').
    { assert (DEC : asked st ps k' \/ ~ asked st ps k') by apply classic. destruct DEC as [H|H]; [exact H|]. rewrite (B2 k' H) in D. discriminate D. }
    destruct (avail_f st k') as [v0|] eqn:F.
    + apply available_f in F; [|exact W]. rewrite (B1 _ _ F AS) in D. injection D as <-. exact (proj1 (V _ _ F)).
    + assert (Hm : In k' missing). { apply M. split; [exact AS|]. intros v0 H. apply available_f in H; [|exact W]. congruence. }
      rewrite (B3 _ Hm) in D. destruct (smem k' _); [|discriminate D]. injection D as <-. cbn. intros [x X]. discriminate X.
  - exists ps. split; [|split; [exact B1|split; [|exact B2]]].
    2: { intros k K1 K2. rewrite (B3 k (proj2 (M k) (Logic.conj K1 K2))). destruct (smem k _); [now right|now left]. }
    intros k. rewrite A2. unfold wanted, active_at. split.
    + intros [[<-|[]]|(x & X1 & X2 & X3)]; [now left|]. right. exists x. split; [exact X1|]. split; [|exact X3]. cbn [seen_by]. rewrite TM. exact X2.
    + intros [->|(x & X1 & X2 & X3)]; [left; now left|]. right. exists x. split; [exact X1|]. split; [|exact X3]. cbn [seen_by] in X2. rewrite TM in X2. exact X2.
Qed.

(** Records that belong to the moments of a course, after some moments before it. *)
Inductive matches (rq : store) : list moment -> list moment -> list state -> Prop :=
| matches_nil before : matches rq before [] []
| matches_skip before m ms recs : saves outs m = false -> matches rq (before ++ [m]) ms recs -> matches rq before (m :: ms) recs
| matches_save before s st rec ms recs : saves outs (Computed s st) = true -> good_record (wants rq before s st) st rec ->
    matches rq (before ++ [Computed s st]) ms recs -> matches rq before (Computed s st :: ms) (rec :: recs).

Lemma matches_app rq a before b ra rb : matches rq before a ra -> matches rq (before ++ a) b rb -> matches rq before (a ++ b) (ra ++ rb).
Proof.
  intros H. revert b rb. induction H as [before|before m ms recs S H IH|before s st rec ms recs S G H IH]; intros b rb K; cbn [List.app].
  - now rewrite app_nil_r in K.
  - apply matches_skip; [exact S|]. apply IH. now rewrite <- app_assoc.
  - apply matches_save; [exact S|exact G|]. apply IH. now rewrite <- app_assoc.
Qed.
Lemma matches_ext rq rq' before ms recs : (forall o, rq o = rq' o) -> matches rq before ms recs -> matches rq' before ms recs.
Proof.
  intros E H. induction H as [before|before m ms recs S H IH|before s st rec ms recs S G H IH]; [constructor|now constructor|].
  apply matches_save; [exact S| |exact IH]. destruct G as (G1 & G2 & G3 & req & G4 & G5). split; [exact G1|]. split; [exact G2|]. split; [exact G3|]. exists req. split; [|exact G5].
  intros k. rewrite G4. unfold wanted, active_at. split; (intros [H1|(o & O1 & O2 & O3)]; [now left|right; exists o]); [rewrite <- E|rewrite E]; now repeat split.
Qed.

Lemma save_points_spec rq0 s pts : (forall st, In st pts -> sensible np_has st) -> forall before (rq : store), (forall o, rq o = after rq0 before o) ->
  exists rq' recs, save_points params exec_raises order (outs s) (max_time s) pts rq = (rq', recs, None) /\
    (forall o, rq' o = after rq0 (before ++ map (Computed s) pts) o) /\ matches rq0 before (map (Computed s) pts) recs.
Proof.
  induction pts as [|st pts IH]; intros Hs before rq E; cbn [save_points map].
  - exists rq, []. split; [reflexivity|]. split; [intros o; now rewrite app_nil_r|constructor].
  - destruct (outs s) as [|o os] eqn:OS.
    + cbn [save]. assert (SK : saves outs (Computed s st) = false) by (cbn; now rewrite OS).
      assert (E' : forall x, rq x = after rq0 (before ++ [Computed s st]) x).
      { intros x. rewrite after_app. cbn [seen_by]. rewrite OS. cbn. apply E. }
      destruct (IH (fun x H => Hs x (or_intror H)) _ rq E') as (rq' & recs & P & Q & M). rewrite P. exists rq', recs.
      split; [reflexivity|]. split; [|now apply matches_skip]. intros x. rewrite Q, <- app_assoc. reflexivity.
    + rewrite <- OS in *. assert (NE : outs s <> []) by congruence.
      assert (X : save params exec_raises order (outs s) (max_time s) st rq = save params exec_raises order (outs s) (max_time s) st (after rq0 before) \/ True) by now right.
      clear X. destruct (save_spec rq0 before s st NE (Hs st (or_introl eq_refl))) as (rec & rq1 & S1 & S2 & S3).
      assert (SE : exists rq1', save params exec_raises order (outs s) (max_time s) st rq = (rq1', Ok [rec]) /\ forall o, rq1' o = rq1 o).
      { clear - S1 E. unfold save in *. destruct (outs s) as [|o' os']; [discriminate S1|]. destruct (dget "time" st) as [[]|]; try discriminate S1.
        assert (AE : forall l (a b : store) ps, (forall x, a x = b x) -> snd (ask_ids params l t (max_time s) a ps) = snd (ask_ids params l t (max_time s) b ps) /\
           forall x, fst (ask_ids params l t (max_time s) a ps) x = fst (ask_ids params l t (max_time s) b ps) x).
        { induction l as [|y l IH]; intros a b ps H; [now split|]. cbn [ask_ids]. rewrite (H y). destruct (is_active (b y) t (max_time s)) as [r x]. apply IH.
          intros z. unfold upd. destruct (Nat.eqb z y); [reflexivity|apply H]. }
        destruct (AE (o' :: os') rq (after rq0 before) ["time"] E) as [P Q].
        destruct (ask_ids params (o' :: os') t (max_time s) rq ["time"]) as [ra pa]. destruct (ask_ids params (o' :: os') t (max_time s) (after rq0 before) ["time"]) as [rb pb].
        cbn [fst snd] in P, Q. subst pa. injection S1 as S1 S1'. exists ra. rewrite S1'. split; [reflexivity|]. intros x. now rewrite Q, S1. }
      destruct SE as (rq1' & SE1 & SE2). rewrite SE1.
      assert (E' : forall x, rq1' x = after rq0 (before ++ [Computed s st]) x) by (intros x; now rewrite SE2).
      destruct (IH (fun x H => Hs x (or_intror H)) _ rq1' E') as (rq' & recs & P & Q & M). rewrite P. exists rq', (rec :: recs).
      split; [reflexivity|]. split; [intros x; rewrite Q, <- app_assoc; reflexivity|]. apply matches_save; [|exact S3|exact M]. cbn. destruct (outs s); congruence.
Qed.

Definition writes (es : list (@event state state)) : list state := flat_map (fun e => match e with EWrite r => [r] | _ => [] end) es.

Lemma tell_spec st t l : time_of st = Some t -> forall rq, exists rq' ev, tell_outputs state state time_of (Some st) l rq = (rq', ev, Ok tt) /\
  (forall o, rq' o = fst (run_request (rq o) (map (fun _ => NewStep t) (filter (Nat.eqb o) l)))) /\ file_ops ev = [].
Proof.
  intros T. induction l as [|y l IH]; intros rq; cbn [tell_outputs].
  - exists rq, []. now repeat split.
  - rewrite T. destruct (IH (upd rq y (new_step (rq y) t))) as (rq' & ev & E & P & W). rewrite E. exists rq', (ENewStep y t :: ev).
    split; [reflexivity|]. split; [|exact W]. intros o. rewrite P. unfold upd. cbn [filter]. destruct (Nat.eqb_spec o y) as [->|]; reflexivity.
Qed.

Lemma file_ops_app (a b : list (@event state state)) : file_ops (a ++ b) = (file_ops a ++ file_ops b)%list.
Proof. apply flat_map_app. Qed.
Lemma file_ops_writes (recs : list state) : file_ops (map EWrite recs) = map (fun r => Write (written_record r)) recs.
Proof. induction recs as [|r recs IH]; [reflexivity|]. cbn. now f_equal. Qed.

Lemma file_ops_solve s cur (recs : list state) : file_ops (ESolve s cur :: map EWrite recs) = map (fun r => Write (written_record r)) recs.
Proof. exact (file_ops_writes recs). Qed.

Lemma solve_steps_spec rq0 steps : forall (cur : option state) before (rq : store), (forall o, rq o = after rq0 before o) ->
  (match cur with None => match steps with (_, s) :: _ => outs s = [] | [] => True end | Some st => exists t, dget "time" st = Some (STime t) end) ->
  exists rq' es recs, solve_steps state state time_of (step_solve points max_time params exec_raises order outs) outs steps cur rq =
      (rq', es, outcome points (map snd steps) cur) /\
    file_ops es = map (fun r => Write (written_record r)) recs /\ matches rq0 before (course_of points (map snd steps) cur) recs.
Proof.
  induction steps as [|[nm s] steps IH]; intros cur before rq E Hc; cbn [solve_steps map snd course_of outcome].
  - exists rq, [], []. split; [reflexivity|]. split; [reflexivity|constructor].
  - set (t0 := match cur with Some st => time st | None => 0%R end).
    assert (T : exists rq1 ev1, tell_outputs state state time_of cur (outs s) rq = (rq1, ev1, Ok tt) /\
      (forall o, rq1 o = after rq0 (before ++ [Begins s t0]) o) /\ file_ops ev1 = []).
    { destruct cur as [st|].
      - destruct Hc as (t & Hc). assert (TO : time_of st = Some t) by (unfold time_of; now rewrite Hc).
        destruct (tell_spec st t (outs s) TO rq) as (rq1 & ev1 & P & Q & W). exists rq1, ev1. split; [exact P|]. split; [|exact W]. intros o.
        rewrite after_app, <- E, Q. cbn [seen_by]. unfold t0, time. now rewrite Hc.
      - rewrite Hc. exists rq, []. split; [reflexivity|]. split; [|reflexivity]. intros o. rewrite after_app. cbn [seen_by]. rewrite Hc. cbn. apply E. }
    destruct T as (rq1 & ev1 & T1 & T2 & T3). rewrite T1. destruct (sane s cur) as [SA SB].
    destruct (points s cur) as [pts r] eqn:P. cbn [fst snd] in SA, SB |- *.
    destruct (save_points_spec rq0 s pts SA _ rq1 T2) as (rq2 & recs & S1 & S2 & S3).
    assert (SS : step_solve points max_time params exec_raises order outs s cur rq1 = (rq2, recs, r)) by (unfold step_solve; now rewrite P, S1).
    rewrite SS. cbv iota.
    assert (M0 : matches rq0 before (Begins s t0 :: map (Computed s) pts) recs) by (now apply matches_skip).
    destruct r as [st|e].
    + destruct (IH (Some st) ((before ++ [Begins s t0]) ++ map (Computed s) pts)%list rq2 S2 (SB st eq_refl)) as (rq3 & es & recs3 & Q1 & Q2 & Q3).
      rewrite Q1. eexists. eexists. exists (recs ++ recs3)%list. split; [reflexivity|]. split.
      * now rewrite !file_ops_app, T3, Q2, map_app, file_ops_solve.
      * refine (matches_app rq0 (Begins s t0 :: map (Computed s) pts)%list before _ recs recs3 M0 _). now rewrite <- app_assoc in Q3.
    + eexists. eexists. exists recs. split; [reflexivity|]. split.
      * now rewrite !file_ops_app, T3, file_ops_solve.
      * now rewrite app_nil_r.
Qed.

Lemma matches_length rq before ms recs : matches rq before ms recs -> List.length recs = records_before outs ms.
Proof.
  unfold records_before. induction 1 as [before|before m ms recs S H IH|before s st rec ms recs S G H IH]; [reflexivity| |]; cbn [filter]; rewrite S; cbn [List.length]; now rewrite IH.
Qed.
Lemma matches_nth rq before ms recs : matches rq before ms recs -> forall pre s st post, ms = (pre ++ Computed s st :: post)%list -> outs s <> [] ->
  exists rec, nth_error recs (records_before outs pre) = Some rec /\ good_record (wants rq (before ++ pre) s st) st rec.
Proof.
  unfold records_before. induction 1 as [before|before m ms recs S H IH|before s st rec ms recs S G H IH]; intros pre s' st' post E O.
  - destruct pre; discriminate E.
  - destruct pre as [|m' pre]; cbn [List.app] in E; injection E as -> ->.
    + cbn in S. destruct (outs s'); congruence.
    + cbn [filter]. rewrite S. destruct (IH pre s' st' post eq_refl O) as (rec & R1 & R2). exists rec. split; [exact R1|]. now rewrite <- app_assoc in R2.
  - destruct pre as [|m' pre]; cbn [List.app] in E.
    + injection E as -> -> ->. exists rec. split; [reflexivity|]. now rewrite app_nil_r.
    + injection E as <- ->. cbn [filter]. rewrite S. destruct (IH pre s' st' post eq_refl O) as (rec' & R1 & R2). exists rec'. split; [exact R1|]. now rewrite <- app_assoc in R2.
Qed.
Lemma matches_storable rq before ms recs : matches rq before ms recs -> Forall (Forall (fun kv => storable np_has (snd kv))) (map written_record recs).
Proof. induction 1 as [before|before m ms recs S H IH|before s st rec ms recs S G H IH]; [constructor|exact IH|]. cbn. constructor; [apply G|exact IH]. Qed.
End Run.

Lemma reads_dget {bytes} to_float (r : @state (@value R bytes)) d : record_reads_as to_float (written_record r) d -> forall k,
  match dget k r with Some v => exists v', dget k d = Some v' /\ reads_as to_float (written v) v' | None => dget k d = None end.
Proof.
  revert d. induction r as [|[a b] r IH]; intros d H k; inversion H as [|x y l l' [H1 H2] H3 E1 E2]; subst.
  - reflexivity.
  - destruct y as [a' b']. cbn [fst snd] in H1, H2. subst a'. cbn [dget]. destruct (String.eqb k a); [now exists b'|]. now apply IH.
Qed.

Lemma good_faithful {bytes} to_float np_has names (st r : @state (@value R bytes)) d : record_reads_as to_float (written_record r) d ->
  good_record np_has names st r -> faithful to_float names st d.
Proof.
  intros H (G1 & _ & _ & req & G4 & G5 & G7 & G6). pose proof (reads_dget to_float r d H) as Q. split.
  - specialize (Q "time"). rewrite G1 in Q. destruct Q as (v' & Q1 & Q2). rewrite Q1. now inversion Q2.
  - exists req. split; [exact G4|]. split; [|split].
    + intros k v A B. specialize (Q k). rewrite (G5 k v A B) in Q. exact Q.
    + intros k K1 K2. specialize (Q k). destruct (G7 k K1 K2) as [G|G]; rewrite G in Q; [now left|right]. destruct Q as (v' & Q1 & Q2). rewrite Q1. now inversion Q2.
    + intros k N. specialize (Q k). now rewrite (G6 k N) in Q.
Qed.

Section Whole.
Context {bytes : Type}.
Notation value := (@value R bytes).
Notation state := (@state value).
Variable points : nat -> option state -> list state * result state.
Variable max_time : nat -> R.
Variable params : nat -> list string.
Variable exec_raises : string -> bool.
Variable order : list string -> list string.
Hypothesis order_perm : forall l, Permutation (order l) l.
Variable to_float : bytes -> string -> option R.
Variable np_has : string -> bool.
Hypothesis sane : sensible_steps points np_has.

Lemma analyse_spec w m verbose skip_check opens check rq :
  verbose = true \/ opens = true -> skip_check = true \/ check = Ok tt ->
  (match steps_of w m with (_, s) :: _ => outs_of w s = [] | [] => True end) ->
  let A := analyse points max_time params exec_raises order to_float w m verbose skip_check opens check rq in
  exists recs, snd A = outcome points (map snd (steps_of w m)) None /\
    database (fst A) = database (run to_float new_saver ([] ++ Enter :: map Write (map written_record recs))) /\
    archive (fst A) = archive (run to_float new_saver ([] ++ Enter :: map Write (map written_record recs))) /\
    matches max_time params (outs_of w) np_has rq [] (course_of points (map snd (steps_of w m)) None) recs.
Proof.
  intros V K F A. unfold A, analyse, solve.
  assert (CK : (if skip_check then Ok tt else check) = Ok tt) by (destruct K as [->| ->]; [reflexivity|now destruct skip_check]).
  cbv zeta. rewrite CK. cbv iota. destruct (solve_steps_spec points max_time params exec_raises order order_perm (outs_of w) np_has sane rq (steps_of w m) None [] rq (fun o => eq_refl) F) as (rq' & es & recs & S1 & S2 & S3).
  rewrite S1. exists recs.
  assert (X : forall tl : list (@event state state), file_ops tl = [Exit] -> forall hd, file_ops hd = [Enter] ->
     run to_float new_saver (file_ops (hd ++ es ++ tl)) = exit_ (run to_float new_saver (Enter :: map Write (map written_record recs)))).
  { intros tl T hd H. rewrite !file_ops_app, T, H, S2, map_map. unfold run. cbn [List.app fold_left]. now rewrite fold_left_app. }
  destruct verbose.
  - cbn [fst snd]. change (EOpenSaver :: es ++ [ECloseSaver])%list with ([EOpenSaver] ++ es ++ [ECloseSaver])%list. rewrite (X [ECloseSaver] eq_refl [EOpenSaver] eq_refl). now repeat split.
  - destruct V as [V| ->]; [discriminate V|]. cbn [fst snd].
    change (EOpenSaver :: EOpenLog :: ERedirect :: es ++ [ERestore; ECloseLog; ECloseSaver])%list with ([EOpenSaver; EOpenLog; ERedirect] ++ es ++ [ERestore; ECloseLog; ECloseSaver])%list.
    rewrite (X [ERestore; ECloseLog; ECloseSaver] eq_refl [EOpenSaver; EOpenLog; ERedirect] eq_refl). now repeat split.
Qed.

Lemma Forall2_len {A B} (P : A -> B -> Prop) l l' : Forall2 P l l' -> List.length l = List.length l'.
Proof. induction 1; cbn; congruence. Qed.

Lemma records w m verbose skip_check opens check rq :
  verbose = true \/ opens = true -> skip_check = true \/ check = Ok tt ->
  (match steps_of w m with (_, s) :: _ => outs_of w s = [] | [] => True end) ->
  let A := analyse points max_time params exec_raises order to_float w m verbose skip_check opens check rq in
  let course := course_of points (map snd (steps_of w m)) None in
  snd A = outcome points (map snd (steps_of w m)) None /\
  List.length (database (fst A)) = records_before (outs_of w) course /\
  forall pre s st post, course = (pre ++ Computed s st :: post)%list -> outs_of w s <> [] ->
    exists js d, nth_error (database (fst A)) (records_before (outs_of w) pre) = Some js /\ read_record np_has (archive (fst A)) js = Ok d /\
      faithful to_float (wanted max_time params (outs_of w) rq pre s st) st d.
Proof.
  intros V K F. cbv zeta. destruct (analyse_spec w m verbose skip_check opens check rq V K F) as (recs & A1 & A2 & A3 & M).
  rewrite A1, A2, A3. pose proof (matches_storable _ _ _ _ _ _ _ _ M) as ST.
  pose proof (round_trip to_float np_has [] (map written_record recs) ST) as RT. cbv zeta in RT.
  split; [reflexivity|]. split.
  - rewrite <- (Forall2_len _ _ _ RT), map_length. apply (matches_length _ _ _ _ _ _ _ _ M).
  - intros pre s st post E O. destruct (matches_nth _ _ _ _ _ _ _ _ M pre s st post E O) as (rec & R1 & R2).
    assert (N : nth_error (map written_record recs) (records_before (outs_of w) pre) = Some (written_record rec)) by (now apply map_nth_error).
    destruct (Forall2_nth_l _ _ _ _ _ RT N) as (js & J1 & d & D1 & D2). exists js, d. split; [exact J1|]. split; [exact D2|].
    exact (good_faithful to_float np_has _ st rec d D1 R2).
Qed.

Variable num_eqb : R -> R -> bool.
Variable nonneg : R -> bool.
Hypothesis eqb_spec : forall x y, num_eqb x y = true <-> x = y.

Fixpoint saved_times (outs : nat -> list nat) (ms : list (@moment bytes)) : list R :=
  match ms with
  | [] => []
  | Computed s st :: rest => if saves outs (Computed s st) then time st :: saved_times outs rest else saved_times outs rest
  | _ :: rest => saved_times outs rest
  end.
Lemma saved_times_matches outs rq before ms recs : matches max_time params outs np_has rq before ms recs ->
  Forall2 (fun r t => dget "time" (written_record r) = Some (VNum t)) recs (saved_times outs ms).
Proof.
  induction 1 as [before|before mo ms recs S H IH|before s st rec ms recs S G H IH].
  - constructor.
  - destruct mo as [s t|s st]; cbn [saved_times]; [exact IH|]. now rewrite S.
  - cbn [saved_times]. rewrite S. constructor; [|exact IH]. destruct G as (G & _). clear - G. revert G. induction rec as [|[a b] rec IH]; [discriminate|].
    cbn [dget written_record map fst snd]. destruct (String.eqb "time" a); [now intros [= ->]|exact IH].
Qed.
Lemma saved_times_nth outs pre s st post : outs s <> [] ->
  nth_error (saved_times outs (pre ++ Computed s st :: post)) (records_before outs pre) = Some (time st).
Proof.
  intros O. unfold records_before. induction pre as [|mo pre IH].
  - cbn. destruct (outs s); [congruence|reflexivity].
  - destruct mo as [s' t'|s' st']; [exact IH|]. cbn [List.app saved_times filter]. destruct (saves outs (Computed s' st')); exact IH.
Qed.

Lemma saved_times_in outs t ms : In t (saved_times outs ms) <-> exists s st, In (Computed s st) ms /\ outs s <> [] /\ time st = t.
Proof.
  induction ms as [|mo ms IH].
  - cbn. split; [intros []|intros (? & ? & [] & _)].
  - destruct mo as [s' t'|s' st']; cbn [saved_times In].
    + rewrite IH. split; intros (s & st & H1 & H2); exists s, st; (split; [|exact H2]); [now right|]. destruct H1 as [H1|H1]; [discriminate H1|exact H1].
    + destruct (saves outs (Computed s' st')) eqn:S; cbn [In]; rewrite IH; split.
      * intros [H|(s & st & H1 & H2)]; [exists s', st'; split; [now left|]; split; [|exact H]; cbn in S; destruct (outs s'); congruence|exists s, st; split; [now right|exact H2]].
      * intros (s & st & [H|H] & H2); [injection H as <- <-; left; apply H2|right; now exists s, st].
      * intros (s & st & H1 & H2). exists s, st. split; [now right|exact H2].
      * intros (s & st & [H|H] & H2 & H3); [injection H as <- <-; cbn in S; destruct (outs s'); congruence|now exists s, st].
Qed.

Lemma by_time w m verbose skip_check opens check rq :
  verbose = true \/ opens = true -> skip_check = true \/ check = Ok tt ->
  (match steps_of w m with (_, s) :: _ => outs_of w s = [] | [] => True end) ->
  let A := analyse points max_time params exec_raises order to_float w m verbose skip_check opens check rq in
  let course := course_of points (map snd (steps_of w m)) None in
  (forall s st, In (Computed s st) course -> nonneg (time st) = true) ->
  NoDup (saved_times (outs_of w) course) ->
  forall pre s st post, course = (pre ++ Computed s st :: post)%list -> outs_of w s <> [] ->
    exists d, reader_getitem np_has num_eqb nonneg (archive (fst A)) (database (fst A)) (ITime (time st)) = Ok (RAtTime d) /\
      faithful to_float (wanted max_time params (outs_of w) rq pre s st) st d.
Proof.
  intros V K F. cbv zeta. destruct (analyse_spec w m verbose skip_check opens check rq V K F) as (recs & A1 & A2 & A3 & M).
  rewrite A2, A3. pose proof (matches_storable _ _ _ _ _ _ _ _ M) as ST. intros NN ND pre s st post E O.
  destruct (matches_nth _ _ _ _ _ _ _ _ M pre s st post E O) as (rec & R1 & R2).
  assert (N : nth_error (map written_record recs) (records_before (outs_of w) pre) = Some (written_record rec)) by (now apply map_nth_error).
  assert (T : Forall2 (fun r t => dget "time" r = Some (VNum t) /\ nonneg t = true) (map written_record recs) (saved_times (outs_of w) (course_of points (map snd (steps_of w m)) None))).
  { pose proof (saved_times_matches _ _ _ _ _ M) as Q.
    assert (P : Forall (fun t => nonneg t = true) (saved_times (outs_of w) (course_of points (map snd (steps_of w m)) None))).
    { apply Forall_forall. intros t Ht. apply saved_times_in in Ht. destruct Ht as (s' & st' & H1 & _ & <-). now apply NN with s'. }
    clear - Q P. revert P. induction Q as [|r t rs ts Q1 Q IH]; intros P; [constructor|]. inversion P; subst. cbn [map]. constructor; [now split|]. now apply IH. }
  pose proof (reader_round_trip to_float np_has num_eqb nonneg eqb_spec [] (map written_record recs) _ ST T ND _ _ _ N
    (eq_trans (f_equal (fun l => nth_error (saved_times (outs_of w) l) _) E) (saved_times_nth _ _ _ _ _ O))) as (d & D1 & D2).
  exists d. split; [exact D2|]. exact (good_faithful to_float np_has _ st rec d D1 R2).
Qed.
End Whole.

Lemma saved_times_nodup {bytes} outs (ms : list (@moment bytes)) :
  (forall pre s st mid s' st' post, ms = (pre ++ Computed s st :: mid ++ Computed s' st' :: post)%list -> outs s <> [] -> outs s' <> [] -> time st <> time st') ->
  NoDup (saved_times outs ms).
Proof.
  induction ms as [|mo ms IH]; intros H; [constructor|].
  assert (T : NoDup (saved_times outs ms)).
  { apply IH. intros pre s st mid s' st' post E. apply (H (mo :: pre) s st mid s' st' post). now rewrite E. }
  destruct mo as [s t|s st]; [exact T|]. cbn [saved_times]. destruct (saves outs (Computed s st)) eqn:S; [|exact T]. constructor; [|exact T].
  intros X. apply saved_times_in in X. destruct X as (s' & st' & X1 & X2 & X3). apply in_split in X1. destruct X1 as (mid & post & X1).
  apply (H [] s st mid s' st' post); [now rewrite X1| |exact X2|now symmetry]. cbn in S. destruct (outs s); congruence.
Qed.
Lemma asked_mono {A} (st : @state A) a b k : (forall x, In x a -> In x b) -> asked st a k -> asked st b k.
Proof.
  intros H [(H1 & H2)|[(p & x & H1 & H2)|(H1 & H2)]]; [left|right; left; exists p, x|right; right]; (split; [|assumption || apply H; assumption]); [apply H|exact H1|apply H]; assumption.
Qed.
Lemma asked_time {A} (st : @state A) a k : (forall x, In x a -> x = "time") -> k <> "time" -> ~ asked st a k.
Proof.
  intros H N [(H1 & _)|[(p & x & H1 & H2)|(H1 & _)]].
  - now apply N, H.
  - apply H in H2. subst p. cbn in H1. repeat destruct H1 as [H1|H1]; try discriminate H1. destruct H1.
  - apply H in H1. discriminate H1.
Qed.

(** Requests with an interval. *)
Lemma seen_nodup {bytes} max_time outs o s (st : @state (@value R bytes)) : NoDup (outs s) -> In o (outs s) ->
  seen_by max_time outs o (Computed s st) = [Ask (time st) (max_time s)].
Proof.
  intros N I. cbn [seen_by]. assert (F : filter (Nat.eqb o) (outs s) = [o]); [|now rewrite F].
  induction (outs s) as [|x l IH]; [destruct I|]. inversion N; subst. cbn [filter]. destruct (Nat.eqb_spec o x) as [->|Ne].
  - f_equal. clear - H1. induction l as [|y l IH]; [reflexivity|]. cbn. destruct (Nat.eqb_spec x y) as [->|]; [exfalso; apply H1; now left|]. apply IH. intros X. apply H1. now right.
  - apply IH; [assumption|]. destruct I as [->|I]; [congruence|exact I].
Qed.
Lemma asks_app a b : asks (a ++ b) = (asks a ++ asks b)%list.
Proof. induction a as [|[]]; cbn; congruence. Qed.
Lemma asks_history {bytes} max_time outs o (ms : list (@moment bytes)) : (forall s, NoDup (outs s)) ->
  List.length (asks (history_of max_time outs o ms)) = points_of outs o ms.
Proof.
  intros N. unfold history_of, points_of. induction ms as [|mo ms IH]; [reflexivity|]. cbn [flat_map]. rewrite asks_app, app_length, IH. destruct mo as [s t|s st].
  - cbn [seen_by filter]. assert (Z : forall l : list nat, asks (map (fun _ => NewStep t) l) = []) by (intros l; now induction l). now rewrite Z.
  - cbn [filter]. destruct (existsb (Nat.eqb o) (outs s)) eqn:X.
    + apply existsb_exists in X. destruct X as (y & Y1 & Y2). apply Nat.eqb_eq in Y2. subst y. rewrite seen_nodup by (auto). reflexivity.
    + cbn [seen_by]. replace (filter (Nat.eqb o) (outs s)) with (@nil nat); [reflexivity|]. clear - X. induction (outs s) as [|y l IHl]; [reflexivity|]. cbn in *.
      apply orb_false_iff in X. destruct X as [X1 X2]. rewrite X1. now apply IHl.
Qed.
Lemma interval_active {bytes} max_time outs (rq : nat -> request) before s (st : @state (@value R bytes)) o (n : BinInt.Z) : (forall s, NoDup (outs s)) -> In o (outs s) ->
  new_request (Interval (IZR n)) = Some (rq o) ->
  (active_at max_time outs rq before s st o <-> (points_of outs o before mod Z.to_nat (Z.max n 1) = 0)%nat).
Proof.
  intros N I Hr. unfold active_at. rewrite (seen_nodup max_time outs o s st (N s) I).
  pose proof (interval_integer n (history_of max_time outs o before ++ [Ask (time st) (max_time s)]) (rq o) Hr) as [L Q].
  pose proof (interval_integer n (history_of max_time outs o before) (rq o) Hr) as [L' _]. rewrite (asks_history max_time outs o before N) in L'.
  rewrite run_request_app in Q. cbn [snd] in Q. cbn [run_request] in Q |- *. destruct (is_active _ _ _) as [r1 b]. cbn [snd fst] in Q |- *.
  specialize (Q (points_of outs o before) b). rewrite nth_error_app2, L', Nat.sub_diag in Q by (rewrite L'; apply le_n). specialize (Q eq_refl).
  rewrite <- Q. cbn [In]. split; [intros [H|[]]; exact H|now left].
Qed.
