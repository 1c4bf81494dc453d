(** C111: contact at a set interference. *)
From Coq Require Import List Bool Arith ZArith Reals Lra Lia Permutation.
From Verif Require Import Flt SurfaceProofs SolverProofs SolverSpec SolverTheorems InterferenceModel InterferenceSpec InterferenceProofs.
Import ListNotations.
Local Open Scope R_scope.
(** The name in SolverModel.v. *)
Local Notation scatter := SolverModel.scatter.

(** ** Ending *)
(** Whatever the materials answer, the solution ends after at most max_iter + 1 passes. *)
Theorem c111_stops : forall n big part mats h gap adh nodes max_iter tol initial rp pct,
  exists res, forall fuel, (Z.to_nat (Z.max 1 (max_iter + 1)) <= fuel)%nat ->
    solve_normal_interference fuel n big part mats h gap adh nodes max_iter tol initial rp pct = Some res.
Proof.
  intros n big part mats h gap adh nodes max_iter tol initial rp pct. unfold solve_normal_interference.
  set (z := wanted h gap). set (m := match nodes with Some m => m | None => _ end).
  destruct (negb (any n m)); [eexists; reflexivity|]. destruct mats as [p|solve].
  - match goal with |- context [match ?e with Ok _ => _ | Err _ => _ end] =>
      lazymatch type of e with result (vec * flt) => destruct e as [[x0 a]|e0] end end; [|eexists; reflexivity].
    destruct (c37_stops (List.length (filter m (seq 0 n))) (conv_domain p m) (gather (filter m (seq 0 n)) z) tol (Some max_iter)
      (gather (filter m (seq 0 n)) x0) a (fun _ => max_load p) 1) as ([v f] & H).
    eexists. intros fuel F. rewrite (H fuel F). reflexivity.
  - destruct (loop_stops n gap h adh solve part max_iter rp pct (Z.to_nat (Z.max 1 (max_iter + 1))) 0
      (match nodes with Some _ => true | None => false end) m None ltac:(lia) ltac:(lia)) as (res & H).
    exists res. intros fuel F. specialize (H (fuel - Z.to_nat (Z.max 1 (max_iter + 1)))%nat).
    replace (Z.to_nat (Z.max 1 (max_iter + 1)) + (fuel - Z.to_nat (Z.max 1 (max_iter + 1))))%nat with fuel in H by lia. exact H.
Qed.
Print Assumptions c111_stops.

(** Without a node in contact all loads and displacements are zero. *)
Theorem c111_no_contact : forall fuel n big part mats h gap adh max_iter tol initial rp pct,
  (forall i, (i < n)%nat -> fltb (Fin 0) (fsub h (gap i)) = false) ->
  exists o, solve_normal_interference fuel n big part mats h gap adh None max_iter tol initial rp pct = Some (Ok o) /\
    o_failed o = false /\ List.length (o_disps o) = 3%nat /\
    forall i, (i < n)%nat -> o_loads o i = Fin 0 /\ o_nodes o i = false /\ Forall (fun d => d i = Fin 0) (o_disps o).
Proof.
  intros fuel n big part mats h gap adh max_iter tol initial rp pct H. unfold solve_normal_interference.
  assert (E : any n (fun i => fltb (Fin 0) (wanted h gap i)) = false).
  { apply not_true_iff_false. intros T. apply any_spec in T. destruct T as (i & I & T). unfold wanted in T. rewrite (H i I) in T. discriminate. }
  rewrite E. cbn [negb]. eexists. split; [reflexivity|]. cbn. repeat split.
  - apply H. exact H0.
  - repeat constructor.
Qed.
Print Assumptions c111_no_contact.

(** ** Converged solutions for materials without influence matrices *)
(** The loads and displacements are what the material answers when it is asked for the overlap
    at the returned contact nodes, no contact node has a load below the pull off pressure, and
    outside of them at most the given share of the contact nodes overlap. *)
Theorem c111_converged : forall fuel n big part solve h gap adh nodes max_iter tol initial rp pct o,
  ~ is_function adh ->
  solve_normal_interference fuel n big part (Other solve) h gap adh nodes max_iter tol initial rp pct = Some (Ok o) ->
  o_failed o = false -> (exists i, (i < n)%nat /\ o_nodes o i = true) ->
  exists k asked total rest,
    (forall i, asked i = overlap h gap (o_nodes o) i) /\
    solve k asked = Ok (o_loads o, o_disps o) /\ o_disps o = total :: rest /\
    (forall i, (i < n)%nat -> o_nodes o i = true -> fltb (o_loads o i) (pull_off adh) = false) /\
    INR (number_of n (fun i => fltb (left_gap h gap total i) (Fin 0) && negb (o_nodes o i)))
      <= INR (number_of n (o_nodes o)) * pct.
Proof.
  intros fuel n big part solve h gap adh nodes max_iter tol initial rp pct o NF H F (i0 & I0 & T0). unfold solve_normal_interference in H.
  set (m := match nodes with Some m => m | None => _ end) in H. destruct (any n m) eqn:A.
  - cbn [negb] in H. apply loop_ends in H. destruct H as (k & last & al & loads & total & l & r & a & f & _ & S0 & C0 & D & _ & U).
    destruct (update n pct r a f last al) as [[next added']|] eqn:Up; [destruct U as (U & _); congruence|].
    destruct U as (_ & Nd & Ld). rewrite Nd, Ld, D. exists k, (request (wanted h gap) last), total, l.
    split; [apply request_overlap|]. split; [exact S0|]. split; [reflexivity|].
    unfold update in Up. destruct f; [discriminate|]. cbn [orb] in Up.
    destruct (any n r) eqn:Ar; [discriminate|]. cbn [orb] in Up.
    destruct (Rltb (INR (count n last) * pct) (INR (count n a))) eqn:Th; [discriminate|].
    rewrite (choose_number _ _ _ _ _ _ _ _ NF) in C0. cbv zeta in C0.
    destruct (Z.ltb _ _) in C0; [destruct (andb _ _) in C0; congruence|].
    assert (Er : (fun i => fltb (loads i) (pull_off adh) && last i) = r) by congruence.
    assert (Ea : (fun i => fltb (fadd (fsub (gap i) h) (total i)) (Fin 0) && negb (last i)) = a) by congruence.
    split.
    + intros i I T. pose proof (any_none n r Ar i I) as Q. rewrite <- Er in Q. cbv beta in Q. rewrite T, andb_true_r in Q. exact Q.
    + apply Rltb_false_iff in Th. rewrite <- Ea, !count_number in Th. exact Th.
  - cbn [negb] in H. assert (Q : o_nodes o = m) by (injection H as <-; reflexivity). rewrite Q in T0.
    rewrite (any_none n m A i0 I0) in T0. discriminate.
Qed.
Print Assumptions c111_converged.

(** If the material gives the displacements it is asked for, the gap closes at the contact nodes. *)
Theorem c111_closed : forall fuel n big part solve x g adh nodes max_iter tol initial rp pct o,
  ~ is_function adh ->
  (forall k v loads total rest i r, solve k v = Ok (loads, total :: rest) -> v i = Fin r -> total i = Fin r) ->
  solve_normal_interference fuel n big part (Other solve) (Fin x) (fun i => Fin (g i)) adh nodes max_iter tol initial rp pct = Some (Ok o) ->
  o_failed o = false -> forall i, (i < n)%nat -> o_nodes o i = true ->
  exists total rest, o_disps o = total :: rest /\ left_gap (Fin x) (fun i => Fin (g i)) total i = Fin 0.
Proof.
  intros fuel n big part solve x g adh nodes max_iter tol initial rp pct o NF Mat H F i I T.
  destruct (c111_converged fuel n big part solve _ _ adh nodes max_iter tol initial rp pct o NF H F (ex_intro _ i (conj I T)))
    as (k & asked & total & rest & As & Sv & D & _).
  exists total, rest. split; [exact D|]. rewrite D in Sv. specialize (As i). unfold overlap in As. rewrite T in As. cbn in As.
  unfold left_gap. rewrite (Mat k asked _ total rest i _ Sv As). cbn. f_equal. lra.
Qed.
Print Assumptions c111_closed.

(** ** Failed solutions *)
(** The loads are not a number anywhere, and the displacements are the answer for other nodes
    than the returned ones. *)
Theorem c111_failed : forall fuel n big part solve h gap adh nodes max_iter tol initial rp pct o,
  ~ is_function adh -> partitions n part -> 0 <= rp -> 0 <= pct ->
  (* the material has loads only at the nodes with a prescribed displacement, pulling nodes are off *)
  (forall k v loads disps i, solve k v = Ok (loads, disps) -> (i < n)%nat -> exists r, loads i = Fin r /\ (v i = NaN -> r = 0)) ->
  (exists a, pull_off adh = Fin a /\ a <= 0) ->
  solve_normal_interference fuel n big part (Other solve) h gap adh nodes max_iter tol initial rp pct = Some (Ok o) ->
  o_failed o = true ->
  (forall i, o_loads o i = NaN) /\
  exists k asked tried loads, (max_iter <= Z.of_nat k)%Z /\ (forall i, asked i = overlap h gap tried i) /\
    solve k asked = Ok (loads, o_disps o) /\ exists i, (i < n)%nat /\ tried i <> o_nodes o i.
Proof.
  intros fuel n big part solve h gap adh nodes max_iter tol initial rp pct o NF Pt Rp Pc Mat (a0 & Ea0 & A0) H F. unfold solve_normal_interference in H.
  set (m := match nodes with Some m => m | None => _ end) in H. destruct (any n m) eqn:A; cbn [negb] in H.
  2:{ exfalso. injection H as <-. discriminate F. }
  apply loop_ends in H. destruct H as (k & last & al & loads & total & l & r & a & f & _ & S0 & C0 & D & _ & U).
  destruct (update n pct r a f last al) as [[next added']|] eqn:Up; [|destruct U as (U & _); congruence].
  destruct U as (_ & Nd & Ld & Mx). rewrite Ld. split; [reflexivity|].
  exists k, (request (wanted h gap) last), last, loads. split; [lia|]. split; [apply request_overlap|]. rewrite D. split; [exact S0|].
  rewrite Nd. rewrite (choose_number _ _ _ _ _ _ _ _ NF) in C0. cbv zeta in C0. rewrite !count_number in C0.
  set (rem := fun i => fltb (loads i) (pull_off adh) && last i) in *.
  set (add := fun i => fltb (fadd (fsub (gap i) h) (total i)) (Fin 0) && negb (last i)) in *.
  unfold update in Up. set (cond := f || any n r || _) in Up. destruct cond eqn:Co; [|discriminate]. injection Up as En _.
  set (limit := max_remove rp (number_of n last) al) in *. destruct (limit_bounds rp (number_of n last) al Rp) as (L0 & _).
  fold limit in L0. destruct (limit <? Z.of_nat (number_of n rem))%Z eqn:Lt.
  - destruct (andb _ _) in C0; [|discriminate]. apply Z.ltb_lt in Lt.
    set (chosen := slice_from (- limit) (part (fun i => fneg (loads i)) (- limit)%Z)) in *.
    assert (Er : (fun i => existsb (Nat.eqb i) chosen) = r) by congruence.
    assert (Goal : exists i, (i < n)%nat /\ last i = true /\ In i chosen).
    { destruct (Z.eq_dec limit 0) as [Z0|Z0].
      - destruct (number_some n rem) as (i & I & Ri); [lia|]. unfold rem in Ri. apply andb_true_iff in Ri. destruct Ri as [_ Li].
        exists i. split; [exact I|split; [exact Li|]]. unfold chosen. rewrite Z0, slice_zero. destruct Pt as [Pm _].
        apply (Permutation_in _ (Permutation_sym (Pm _ _))). apply in_seq. lia.
      - pose (x := fun i => match loads i with Fin y => y | _ => 0 end).
        assert (X : forall i, (i < n)%nat -> loads i = Fin (x i)).
        { intros i I. destruct (Mat k _ _ _ i S0 I) as (y & Ey & _). unfold x. rewrite Ey. reflexivity. }
        assert (El : (- limit)%Z = (- Z.of_nat (Z.to_nat limit))%Z) by lia.
        destruct (chosen_smallest n part loads x (Z.to_nat limit) rem Pt X ltac:(lia) ltac:(lia)) as (ND & Len & Bd & Sm).
        rewrite <- El in ND, Len, Bd, Sm. fold chosen in ND, Len, Bd, Sm.
        destruct (number_subset n rem chosen ND Bd ltac:(lia)) as (j & J & Rj & NJ).
        destruct chosen as [|c0 rest] eqn:Ec; [cbn in Len; lia|]. exists c0. pose proof (Bd c0 (or_introl eq_refl)) as B0.
        split; [exact B0|]. split; [|left; reflexivity]. specialize (Sm c0 j (or_introl eq_refl) J NJ).
        unfold rem in Rj. apply andb_true_iff in Rj. destruct Rj as [Rj _]. rewrite (X j J), Ea0 in Rj. cbn in Rj. apply Rltb_true_iff in Rj.
        destruct (last c0) eqn:Lc; [reflexivity|]. exfalso.
        destruct (Mat k _ _ _ c0 S0 B0) as (y & Ey & Ny). rewrite (X c0 B0) in Ey. injection Ey as Ey. rewrite <- Ey in Ny.
        assert (x c0 = 0). { apply Ny. unfold request, put. rewrite Lc. reflexivity. } lra. }
    destruct Goal as (i & I & Li & Ci). exists i. split; [exact I|]. rewrite <- En. apply existsb_in in Ci. rewrite <- Er, Ci, Li.
    rewrite andb_false_r. discriminate.
  - assert (Er : rem = r) by congruence. assert (Ea : add = a) by congruence. assert (Ef : f = false) by congruence. subst f.
    cbn [orb] in cond. destruct (any n r) eqn:Ar.
    + apply any_spec in Ar. destruct Ar as (i & I & Ri). exists i. split; [exact I|]. rewrite <- En, Ri. rewrite <- Er in Ri. unfold rem in Ri.
      apply andb_true_iff in Ri. destruct Ri as [_ ->]. rewrite andb_false_r. discriminate.
    + unfold cond in Co. cbn [orb] in Co. apply Rltb_true_iff in Co. rewrite !count_number in Co.
      assert (P0 : 0 <= INR (number_of n last) * pct) by (apply Rmult_le_pos; [apply pos_INR|exact Pc]).
      destruct (number_some n a) as (i & I & Ai). { apply INR_lt. cbn [INR]. lra. }
      exists i. split; [exact I|]. pose proof (any_none n r Ar i I) as Ri. rewrite <- En, Ai, Ri, orb_true_r. rewrite <- Ea in Ai. unfold add in Ai.
      apply andb_true_iff in Ai. destruct Ai as [_ Ai]. destruct (last i); [discriminate|]. cbn. discriminate.
Qed.
Print Assumptions c111_failed.

(** ** Removing nodes *)
(** One pass, when at least one node may be removed: at most the given share of the contact nodes
    goes, at most half of the number added before, all of them are below the pull off pressure,
    and none of those which stay has a smaller load than one that goes. *)
Theorem c111_limit : forall n adh part rp pct loads x deformed nodes added r a f next added',
  ~ is_function adh -> partitions n part -> 0 <= rp ->
  (forall i, (i < n)%nat -> loads i = Fin (x i) /\ (nodes i = false -> x i = 0)) ->
  (exists p, pull_off adh = Fin p /\ p <= 0) ->
  1 <= INR (number_of n nodes) * rp -> match added with Some k => (2 <= k)%nat | None => True end ->
  choose n adh part rp loads deformed nodes added = Ok (r, a, f) ->
  update n pct r a f nodes added = Some (next, added') ->
  let gone := fun i => nodes i && negb (next i) in
  INR (number_of n gone) <= INR (number_of n nodes) * rp /\
  match added with Some k => 2 * INR (number_of n gone) <= INR k | None => True end /\
  (forall i, (i < n)%nat -> gone i = true -> fltb (loads i) (pull_off adh) = true) /\
  (forall i j, (i < n)%nat -> (j < n)%nat -> gone i = true -> nodes j = true -> next j = true -> x i <= x j).
Proof.
  intros n adh part rp pct loads x deformed nodes added r a f next added' NF Pt Rp X (p & Ep & P0) One Two C0 Up gone.
  rewrite (choose_number _ _ _ _ _ _ _ _ NF) in C0. cbv zeta in C0. rewrite !count_number in C0.
  set (rem := fun i => fltb (loads i) (pull_off adh) && nodes i) in *.
  set (add := fun i => fltb (deformed i) (Fin 0) && negb (nodes i)) in *.
  set (limit := max_remove rp (number_of n nodes) added) in *.
  destruct (limit_bounds rp (number_of n nodes) added Rp) as (L0 & L1 & L2). fold limit in L0, L1, L2.
  assert (LP : (1 <= limit)%Z).
  { unfold limit, max_remove. destruct added as [k|].
    - assert (K : 2 <= INR k). { change 2 with (INR 2). apply le_INR. exact Two. }
      destruct (Rltb (1 / 2 * INR k) (INR (number_of n nodes) * rp)).
      + destruct (trunc_le (1 / 2 * INR k) ltac:(lra)) as [_ [_ Q]]. assert (IZR 0 < IZR (trunc (1 / 2 * INR k))) by (cbn; lra). apply lt_IZR in H. lia.
      + destruct (trunc_le (INR (number_of n nodes) * rp) ltac:(lra)) as [_ [_ Q]].
        assert (IZR 0 < IZR (trunc (INR (number_of n nodes) * rp))) by (cbn; lra). apply lt_IZR in H. lia.
    - destruct (trunc_le (INR (number_of n nodes) * rp) ltac:(lra)) as [_ [_ Q]].
      assert (IZR 0 < IZR (trunc (INR (number_of n nodes) * rp))) by (cbn; lra). apply lt_IZR in H. lia. }
  unfold update in Up. destruct (orb _ _) eqn:Co in Up; [|discriminate]. injection Up as En _.
  assert (G1 : forall i, gone i = true -> nodes i = true /\ r i = true).
  { intros i G. unfold gone in G. rewrite <- En in G. destruct (nodes i), (r i); cbn in G; auto; discriminate. }
  assert (Bound : forall c, (number_of n gone <= c)%nat -> (Z.of_nat c <= limit)%Z ->
    INR (number_of n gone) <= INR (number_of n nodes) * rp /\ match added with Some k => 2 * INR (number_of n gone) <= INR k | None => True end).
  { intros c Q1 Q2. assert (INR (number_of n gone) <= IZR limit).
    { rewrite INR_IZR_INZ. apply IZR_le. lia. }
    split; [lra|]. destruct added; [lra|exact I]. }
  destruct (limit <? Z.of_nat (number_of n rem))%Z eqn:Lt.
  - destruct (andb _ _) in C0; [|discriminate]. apply Z.ltb_lt in Lt.
    set (chosen := slice_from (- limit) (part (fun i => fneg (loads i)) (- limit)%Z)) in *.
    assert (Er : (fun i => existsb (Nat.eqb i) chosen) = r) by congruence.
    assert (El : (- limit)%Z = (- Z.of_nat (Z.to_nat limit))%Z) by lia.
    destruct (chosen_smallest n part loads x (Z.to_nat limit) rem Pt (fun i I => proj1 (X i I)) ltac:(lia) ltac:(lia)) as (ND & Len & Bd & Sm).
    rewrite <- El in ND, Len, Bd, Sm. fold chosen in ND, Len, Bd, Sm.
    assert (Gc : forall i, gone i = true -> In i chosen).
    { intros i G. apply G1 in G. destruct G as [_ G]. rewrite <- Er in G. apply existsb_in. exact G. }
    destruct (Bound (List.length chosen)) as [B1 B2].
    { rewrite <- (number_list n chosen ND Bd). apply number_le. intros i I G. apply existsb_in. apply Gc, G. }
    { lia. }
    split; [exact B1|]. split; [exact B2|]. split.
    + intros i I G. destruct (number_subset n rem chosen ND Bd ltac:(lia)) as (j & J & Rj & NJ).
      specialize (Sm i j (Gc i G) J NJ). unfold rem in Rj. apply andb_true_iff in Rj. destruct Rj as [Rj _].
      rewrite (proj1 (X j J)), Ep in Rj. cbn in Rj. apply Rltb_true_iff in Rj. rewrite (proj1 (X i I)), Ep. cbn. apply Rltb_true_iff. lra.
    + intros i j I J G Nj Xj. apply Sm; [apply Gc, G|exact J|]. intros Cj. apply existsb_in in Cj. rewrite <- En, <- Er, Cj, andb_false_r in Xj. discriminate.
  - assert (Er : rem = r) by congruence. apply Z.ltb_ge in Lt.
    destruct (Bound (number_of n rem)) as [B1 B2]; [apply number_le; intros i I G; apply G1 in G; rewrite Er; apply G|exact Lt|].
    split; [exact B1|]. split; [exact B2|]. split.
    + intros i I G. apply G1 in G. destruct G as [_ G]. rewrite <- Er in G. unfold rem in G. apply andb_true_iff in G. apply G.
    + intros i j I J G Nj Xj. apply G1 in G. destruct G as [_ G]. rewrite <- Er in G. unfold rem in G. apply andb_true_iff in G. destruct G as [G _].
      rewrite (proj1 (X i I)), Ep in G. cbn in G. apply Rltb_true_iff in G.
      rewrite <- En, <- Er in Xj. apply andb_true_iff in Xj. destruct Xj as [_ Xj]. unfold rem in Xj. rewrite Nj, andb_true_r in Xj.
      rewrite (proj1 (X j J)), Ep in Xj. cbn in Xj. destruct (Rltb (x j) p) eqn:Q; [discriminate|]. apply Rltb_false_iff in Q. lra.
Qed.
Print Assumptions c111_limit.

(** The full statement, that a pass removes at most the given share of the nodes, is false: when
    the share is less than one node, or one node was added before, a single node below the pull
    off pressure makes all nodes lose contact, those just added included. *)
Theorem c111_limit_refuted : forall n adh part rp pct loads deformed nodes added,
  ~ is_function adh -> partitions n part -> 0 <= rp ->
  (INR (number_of n nodes) * rp < 1 \/ added = Some 1%nat) ->
  (exists i, (i < n)%nat /\ nodes i = true /\ fltb (loads i) (pull_off adh) = true) ->
  exists r a f next added', choose n adh part rp loads deformed nodes added = Ok (r, a, f) /\
    update n pct r a f nodes added = Some (next, added') /\ forall i, (i < n)%nat -> next i = false.
Proof.
  intros n adh part rp pct loads deformed nodes added NF [Pm _] Rp D (i0 & I0 & N0 & L0).
  rewrite (choose_number _ _ _ _ _ _ _ _ NF). cbv zeta. rewrite !count_number.
  rewrite (limit_zero rp (number_of n nodes) added Rp ltac:(tauto)).
  set (rem := fun i => fltb (loads i) (pull_off adh) && nodes i).
  assert (P : (0 < number_of n rem)%nat) by (apply (number_pos n rem i0 I0); unfold rem; rewrite L0, N0; reflexivity).
  assert (E : (0 <? Z.of_nat (number_of n rem))%Z = true) by (apply Z.ltb_lt; lia). rewrite E.
  assert (E2 : ((- Z.of_nat n <=? - 0) && (- 0 <? Z.of_nat n))%Z = true) by (apply andb_true_iff; split; [apply Z.leb_le; lia|apply Z.ltb_lt; lia]).
  rewrite E2. do 5 eexists. split; [reflexivity|]. unfold update. cbn [orb]. split; [reflexivity|].
  intros i I. cbv beta. rewrite slice_zero.
  assert (Q : existsb (Nat.eqb i) (part (fun i => fneg (loads i)) (- 0)%Z) = true).
  { apply existsb_in. apply (Permutation_in _ (Permutation_sym (Pm _ _))). apply in_seq. lia. }
  rewrite Q, andb_false_r. reflexivity.
Qed.
Print Assumptions c111_limit_refuted.

(** Then a material which doesn't deform when nothing is asked of it makes the solution start
    again: the next nodes are those with overlap in the undeformed gap. *)
Theorem c111_restart_refuted : forall n adh part rp pct x g loads total added,
  ~ is_function adh -> 0 <= rp -> (0 < number_of n (fun i => Rltb (g i) x))%nat ->
  (forall i, (i < n)%nat -> total i = Fin 0) ->
  exists r a f next added', choose n adh part rp loads (left_gap (Fin x) (fun i => Fin (g i)) total) (fun _ => false) added = Ok (r, a, f) /\
    update n pct r a f (fun _ => false) added = Some (next, added') /\
    (forall i, (i < n)%nat -> next i = Rltb (g i) x) /\ added' = Some (number_of n (fun i => Rltb (g i) x)).
Proof.
  intros n adh part rp pct x g loads total added NF Rp P T.
  rewrite (choose_number _ _ _ _ _ _ _ _ NF). cbv zeta. rewrite !count_number.
  assert (Z0 : number_of n (fun _ => false) = 0%nat).
  { destruct (number_of n (fun _ => false)) eqn:E; [reflexivity|]. destruct (number_some n (fun _ => false)) as (i & _ & F); [lia|discriminate]. }
  rewrite Z0. rewrite (limit_zero rp 0 added Rp ltac:(left; cbn [INR]; lra)).
  assert (Z1 : number_of n (fun i => fltb (loads i) (pull_off adh) && false) = 0%nat).
  { apply number_zero. intros i _. apply andb_false_r. }
  rewrite Z1. cbn [Z.of_nat Z.ltb Z.compare].
  set (add := fun i => fltb (left_gap (Fin x) (fun i => Fin (g i)) total i) (Fin 0) && negb false).
  assert (Ad : forall i, (i < n)%nat -> add i = Rltb (g i) x).
  { intros i I. unfold add, left_gap. rewrite (T i I). cbn. rewrite andb_true_r.
    destruct (Rltb (g i) x) eqn:E; [apply Rltb_true_iff in E; apply Rltb_true_iff; lra|apply Rltb_false_iff in E; apply Rltb_false_iff; lra]. }
  assert (Cn : count n add = number_of n (fun i => Rltb (g i) x)).
  { rewrite count_number. apply Nat.le_antisymm; apply number_le; intros i I Q; [rewrite <- Ad by exact I; exact Q|rewrite Ad by exact I; exact Q]. }
  do 5 eexists. split; [reflexivity|]. unfold update. cbn [orb]. rewrite Cn, count_number, Z0.
  assert (E : Rltb (INR 0 * pct) (INR (number_of n (fun i => Rltb (g i) x))) = true).
  { apply Rltb_true_iff. cbn [INR]. apply lt_INR in P. cbn [INR] in P. lra. }
  rewrite E, orb_true_r. split; [reflexivity|]. split.
  - intros i I. cbn [orb]. rewrite andb_false_r. cbn [negb]. rewrite andb_true_r. apply Ad, I.
  - destruct (Nat.eqb _ 0) eqn:Q; [apply Nat.eqb_eq in Q; lia|reflexivity].
Qed.
Print Assumptions c111_restart_refuted.

(** Cases: a partition of two numbers, two nodes that pull of which one goes, and one node of which
    the solution fails. *)
Definition part2 (v : vec) (_ : Z) : list nat := if fleb (v 0%nat) (v 1%nat) then [0; 1]%nat else [1; 0]%nat.
Example c111_partitions : partitions 2 part2.
Proof.
  split; [intros v k; unfold part2; destruct (fleb _ _); [apply Permutation_refl|apply perm_swap]|].
  intros v x k V K i j I J. assert (k = 1%nat \/ k = 2%nat) as [->| ->] by lia; [|lia].
  assert (i = 0%nat) by lia. assert (j = 1%nat) by lia. subst. unfold part2. rewrite (V 0%nat ltac:(lia)), (V 1%nat ltac:(lia)). cbn [fleb].
  destruct (Rleb (x 0%nat) (x 1%nat)) eqn:E; cbn [nth]; [apply Rleb_true in E; exact E|apply Rleb_false in E; lra].
Qed.
Example c111_limit_case : exists r a f next added', let loads := fun i => if Nat.eqb i 0 then Fin (-2) else Fin (-1) in
  choose 2 NoAdhesion part2 (1 / 2) loads (fun _ => Fin 0) (fun _ => true) None = Ok (r, a, f) /\
  update 2 (1 / 100) r a f (fun _ => true) None = Some (next, added') /\ next 0%nat = false /\ next 1%nat = true /\
  1 <= INR (number_of 2 (fun _ => true)) * (1 / 2).
Proof.
  pose (loads := fun i => if Nat.eqb i 0 then Fin (-2) else Fin (-1)).
  assert (L : max_remove (1 / 2) (number_of 2 (fun _ => true)) None = 1%Z).
  { unfold max_remove. cbn [number_of seq filter List.length INR]. destruct (trunc_le ((1 + 1) * (1 / 2)) ltac:(lra)) as [A B].
    assert (IZR 0 < IZR (trunc ((1 + 1) * (1 / 2)))) by (cbn; lra). assert (IZR (trunc ((1 + 1) * (1 / 2))) < IZR 2) by (cbn; lra).
    apply lt_IZR in H, H0. lia. }
  assert (N2 : fltb (Fin (-2)) (Fin 0) = true) by (apply Rltb_true_iff; lra). assert (N1 : fltb (Fin (-1)) (Fin 0) = true) by (apply Rltb_true_iff; lra).
  assert (P : part2 (fun i => fneg (loads i)) (- 1)%Z = [1; 0]%nat).
  { unfold part2, loads. cbn [Nat.eqb fneg fleb]. assert (E : Rleb (- (-2)) (- (-1)) = false) by (apply Rleb_false; lra). rewrite E. reflexivity. }
  assert (C2 : number_of 2 (fun i => fltb (loads i) (Fin 0) && true) = 2%nat).
  { unfold number_of, loads. cbn [seq filter Nat.eqb]. rewrite N1, N2. reflexivity. }
  do 5 eexists. cbv zeta. fold loads. split.
  { rewrite choose_number by (intros []). cbv zeta. rewrite !count_number, L. cbn [pull_off]. rewrite C2.
    cbn [Z.of_nat Pos.of_succ_nat Pos.succ Z.ltb Z.compare Pos.compare Pos.compare_cont Z.opp Z.leb andb]. rewrite P. reflexivity. }
  unfold update. cbn [orb]. split; [reflexivity|]. cbn. repeat split; lra.
Qed.
Definition pulling (_ : nat) (v : vec) : result (vec * list vec) :=
  Ok (fun i => match v i with NaN => Fin 0 | _ => Fin (-1) end, [fun i => match v i with Fin r => Fin r | _ => Fin 0 end]).
Example c111_failed_case : exists o,
  solve_normal_interference 1 2 1 part2 (Other pulling) (Fin 1) (fun _ => Fin 0) NoAdhesion None 0 (Fin 1) NoGuess (1 / 2) (1 / 100) = Some (Ok o) /\
  o_failed o = true /\
  forall k v loads disps i, pulling k v = Ok (loads, disps) -> exists r, loads i = Fin r /\ (v i = NaN -> r = 0).
Proof.
  assert (One : fltb (Fin 0) (Fin (1 + - 0)) = true) by (apply Rltb_true_iff; lra).
  unfold solve_normal_interference. unfold wanted. cbn [any fsub fneg fadd]. rewrite One. cbn [orb negb loop]. unfold pulling at 1.
  rewrite choose_number by (intros []). cbv zeta. rewrite !count_number. cbn [pull_off].
  set (rem := fun i => fltb _ (Fin 0) && _).
  assert (Rm : forall i, rem i = true).
  { intros i. unfold rem, request, put, wanted. cbn [fsub fneg fadd negb]. rewrite andb_true_r. apply Rltb_true_iff. lra. }
  assert (C2 : number_of 2 rem = 2%nat) by (unfold number_of; cbn [seq filter]; rewrite !Rm; reflexivity). rewrite C2.
  assert (L : max_remove (1 / 2) (number_of 2 (fun _ : nat => true)) None = 1%Z).
  { unfold max_remove. cbn [number_of seq filter List.length INR]. destruct (trunc_le ((1 + 1) * (1 / 2)) ltac:(lra)) as [A B].
    assert (IZR 0 < IZR (trunc ((1 + 1) * (1 / 2)))) by (cbn; lra). assert (IZR (trunc ((1 + 1) * (1 / 2))) < IZR 2) by (cbn; lra).
    apply lt_IZR in H, H0. lia. }
  rewrite L. cbn [Z.of_nat Pos.of_succ_nat Pos.succ Z.ltb Z.compare Pos.compare Pos.compare_cont Z.opp Z.leb andb].
  unfold update. cbn [orb]. eexists. split; [reflexivity|]. split; [reflexivity|].
  intros k v loads disps i H. unfold pulling in H. injection H as <- _. destruct (v i); eexists; split; try reflexivity; intros; try discriminate; reflexivity.
Qed.

(** ** The given contact nodes *)
(** The array of contact nodes that was passed in is changed: it is the returned one. *)
Theorem c111_nodes_changed : forall fuel n big part solve h gap adh given max_iter tol initial rp pct o,
  solve_normal_interference fuel n big part (Other solve) h gap adh (Some given) max_iter tol initial rp pct = Some (Ok o) ->
  o_passed o = Some (o_nodes o).
Proof.
  intros fuel n big part solve h gap adh given max_iter tol initial rp pct o H. unfold solve_normal_interference in H.
  destruct (any n given); cbn [negb] in H; [|injection H as <-; reflexivity].
  apply loop_ends in H. destruct H as (k & last & al & loads & total & l & r & a & f & _ & _ & _ & _ & P & _). exact P.
Qed.
Print Assumptions c111_nodes_changed.

(** Loading isn't confined to the given nodes: wherever they are, a material that answers point
    by point takes load at the others, too. *)
Definition springs (_ : nat) (v : vec) : result (vec * list vec) :=
  Ok (fun i => match v i with Fin r => Fin r | _ => Fin 0 end, [fun i => match v i with Fin r => Fin r | _ => Fin 0 end]).
Theorem c111_confined_refuted : forall n big part tol initial rp pct given i0 j,
  0 <= rp -> 0 <= pct -> (i0 < n)%nat -> given i0 = true -> (j < n)%nat -> given j = false ->
  INR (number_of n given) * pct < INR (number_of n (fun i => negb (given i))) ->
  exists o, solve_normal_interference 2 n big part (Other springs) (Fin 1) (fun _ => Fin 0) NoAdhesion (Some given) 1 tol initial rp pct = Some (Ok o) /\
    o_failed o = false /\ (exists r, o_loads o j = Fin r /\ 0 < r) /\ o_nodes o j = true.
Proof.
  intros n big part tol initial rp pct given i0 j Rp Pc I0 G0 J Gj Th. unfold solve_normal_interference.
  assert (An : any n given = true) by (apply any_spec; exists i0; auto). rewrite An. cbn [negb].
  set (z := wanted (Fin 1) (fun _ => Fin 0)).
  assert (Zr : forall nodes i, request z nodes i = if nodes i then Fin (1 + - 0) else NaN).
  { intros nodes i. unfold request, put, z, wanted. destruct (nodes i); reflexivity. }
  assert (NoRem : forall loads nodes, (forall i, (i < n)%nat -> exists r, loads i = Fin r /\ 0 <= r) ->
            number_of n (fun i => fltb (loads i) (Fin 0) && nodes i) = 0%nat).
  { intros loads nodes L. apply number_zero. intros i I. apply not_true_iff_false. intros F.
    apply andb_true_iff in F. destruct F as [F _]. destruct (L i I) as (r & Er & Pr). rewrite Er in F. cbn in F. apply Rltb_true_iff in F. lra. }
  assert (Pass : forall nodes added, choose n NoAdhesion part rp (fun i => match request z nodes i with Fin r => Fin r | _ => Fin 0 end)
            (fun i => fadd (fsub (Fin 0) (Fin 1)) (match request z nodes i with Fin r => Fin r | _ => Fin 0 end)) nodes added =
            Ok (fun i => fltb (match request z nodes i with Fin r => Fin r | _ => Fin 0 end) (Fin 0) && nodes i,
                fun i => fltb (fadd (fsub (Fin 0) (Fin 1)) (match request z nodes i with Fin r => Fin r | _ => Fin 0 end)) (Fin 0) && negb (nodes i), false)).
  { intros nodes added. rewrite choose_number by (intros []). cbv zeta. cbn [pull_off]. rewrite !count_number.
    rewrite NoRem.
    - destruct (limit_bounds rp (number_of n nodes) added Rp) as (L0 & _).
      assert (E : (max_remove rp (number_of n nodes) added <? Z.of_nat 0)%Z = false) by (apply Z.ltb_ge; cbn; exact L0). rewrite E. reflexivity.
    - intros i I. rewrite Zr. destruct (nodes i); [exists (1 + - 0)|exists 0]; split; try reflexivity; lra. }
  assert (NoAny : forall nodes, any n (fun i => fltb (match request z nodes i with Fin r => Fin r | _ => Fin 0 end) (Fin 0) && nodes i) = false).
  { intros nodes. apply not_true_iff_false. intros T. apply any_spec in T. destruct T as (i & I & T). apply andb_true_iff in T. destruct T as [T _].
    rewrite Zr in T. destruct (nodes i); cbn in T; apply Rltb_true_iff in T; lra. }
  assert (Ad : forall nodes i, fltb (fadd (fsub (Fin 0) (Fin 1)) (match request z nodes i with Fin r => Fin r | _ => Fin 0 end)) (Fin 0) && negb (nodes i) = negb (nodes i)).
  { intros nodes i. rewrite Zr. destruct (nodes i); [apply andb_false_r|]. cbn. rewrite andb_true_r. apply Rltb_true_iff. lra. }
  cbn [loop]. unfold springs at 1. fold z. rewrite Pass. unfold update at 1. rewrite NoAny. cbn [orb].
  rewrite !count_number.
  assert (Cn : number_of n (fun i => fltb (fadd (fsub (Fin 0) (Fin 1)) (match request z given i with Fin r => Fin r | _ => Fin 0 end)) (Fin 0) && negb (given i))
            = number_of n (fun i => negb (given i))).
  { apply Nat.le_antisymm; apply number_le; intros i _ Q; [rewrite Ad in Q|rewrite Ad]; exact Q. }
  rewrite Cn. assert (E : Rltb (INR (number_of n given) * pct) (INR (number_of n (fun i => negb (given i)))) = true) by (apply Rltb_true_iff; exact Th).
  rewrite E. cbn [Z.of_nat Pos.of_succ_nat Z.ltb Z.compare Pos.compare Pos.compare_cont].
  set (nodes := fun i => _ : bool). set (added := if Nat.eqb _ 0 then _ else _).
  assert (Al : forall i, (i < n)%nat -> nodes i = true).
  { intros i I. unfold nodes. rewrite Ad, Zr. destruct (given i); [|cbn; rewrite andb_false_r; reflexivity].
    assert (Q : fltb (Fin (1 + - 0)) (Fin 0) = false) by (apply Rltb_false_iff; lra). rewrite Q. reflexivity. }
  unfold springs. rewrite Pass. unfold update. rewrite NoAny. cbn [orb]. rewrite !count_number.
  assert (C2 : number_of n (fun i => fltb (fadd (fsub (Fin 0) (Fin 1)) (match request z nodes i with Fin r => Fin r | _ => Fin 0 end)) (Fin 0) && negb (nodes i)) = 0%nat).
  { apply number_zero. intros i I. rewrite Ad, (Al i I). reflexivity. }
  rewrite C2. assert (E2 : Rltb (INR (number_of n nodes) * pct) (INR 0) = false).
  { apply Rltb_false_iff. cbn [INR]. apply Rmult_le_pos; [apply pos_INR|exact Pc]. }
  rewrite E2. eexists. split; [reflexivity|]. cbn [o_failed o_loads o_nodes]. split; [reflexivity|]. split; [|apply Al, J].
  rewrite Zr, (Al j J). exists (1 + - 0). split; [reflexivity|lra].
Qed.
Print Assumptions c111_confined_refuted.

(** A case of it, of a converged solution and of the materials of [c111_closed]. *)
Example c111_springs : (exists o,
  solve_normal_interference 2 2 1 part2 (Other springs) (Fin 1) (fun _ => Fin 0) NoAdhesion (Some (fun i => Nat.eqb i 0)) 1 (Fin 1) NoGuess
    (1 / 2) (1 / 100) = Some (Ok o) /\ o_failed o = false /\ (exists r, o_loads o 1%nat = Fin r /\ 0 < r) /\ o_nodes o 1%nat = true) /\
  forall k v loads total rest i r, springs k v = Ok (loads, total :: rest) -> v i = Fin r -> total i = Fin r.
Proof.
  split.
  - apply (c111_confined_refuted 2 1 part2 (Fin 1) NoGuess (1 / 2) (1 / 100) (fun i => Nat.eqb i 0) 0 1); try lra; try lia; try reflexivity.
    cbn. lra.
  - intros k v loads total rest i r H V. unfold springs in H. injection H as _ <- _. rewrite V. reflexivity.
Qed.

(** ** Two materials with influence matrices *)
(** There the loads are confined to the domain and within the bounds 0 and the maximum load (to
    1e-14), whatever the adhesive pressure is: no pulling load is ever returned. The array that
    was passed in keeps its nodes. *)
Theorem c111_im : forall fuel n big part p h gap adh nodes max_iter tol initial rp pct o,
  solve_normal_interference fuel n big part (BothIm p) h gap adh nodes max_iter tol initial rp pct = Some (Ok o) ->
  non_negative (max_load p) ->
  let start := match nodes with Some m => m | None => fun i => fltb (Fin 0) (fsub h (gap i)) end in
  (forall i, (i < n)%nat ->
     (start i = false -> o_loads o i = Fin 0) /\
     (o_loads o i = NaN \/ (fleb (Fin (- / 10 ^ 14)) (o_loads o i) = true /\ fleb (o_loads o i) (fmul (max_load p) (Fin (1 + / 10 ^ 14))) = true)) /\
     (o_nodes o i = true -> start i = true)) /\
  o_passed o = nodes.
Proof.
  intros fuel n big part p h gap adh nodes max_iter tol initial rp pct o H M start. unfold solve_normal_interference in H.
  change (match nodes with Some m => m | None => fun i => fltb (Fin 0) (wanted h gap i) end) with start in H.
  assert (Zok : forall v, v = Fin 0 -> fleb (Fin (- / 10 ^ 14)) v = true /\ fleb v (fmul (max_load p) (Fin (1 + / 10 ^ 14))) = true).
  { intros v ->. assert (T : 0 < / 10 ^ 14) by (apply Rinv_0_lt_compat, pow_lt; lra). split; [cbn; apply Rleb_true; lra|].
    destruct (max_load p) as [m| | |]; cbn [non_negative] in M; try contradiction; cbn [fmul].
    - apply Rleb_true. apply Rmult_le_pos; lra.
    - unfold signed_inf. assert (E : Rltb 0 (1 + / 10 ^ 14) = true) by (apply Rltb_true_iff; lra). rewrite E. reflexivity. }
  destruct (any n start) eqn:A; cbn [negb] in H.
  2:{ injection H as <-. cbn [o_loads o_nodes o_passed]. split; [|reflexivity]. intros i I. split; [reflexivity|]. split; [right; apply Zok; reflexivity|].
      intros T. exact T. }
  match type of H with context [match ?e with Ok _ => _ | Err _ => _ end] =>
    lazymatch type of e with result (vec * flt) => destruct e as [[x0 a]|e0] end end; [|discriminate].
  destruct (bccg _ _ _ _ _ _ _ _ _ _) as [[v f]|] eqn:B; [|discriminate].
  set (dom := filter start (seq 0 n)) in *.
  assert (E : o = Outcome (scatter dom v) [conv_all p start v; conv_1 p (scatter dom v); conv_2 p (scatter dom v)]
     (fun i => fltb a (scatter dom v i) && negb (match scatter dom v i with Fin x => Reqb x 0 | _ => false end)) f nodes) by congruence.
  rewrite E. cbn [o_loads o_nodes o_passed]. split; [|reflexivity]. intros i I.
  assert (Off : start i = false -> scatter dom v i = Fin 0).
  { intros F. unfold SolverModel.scatter. assert (NI : ~ In i dom) by (intros Q; apply filter_In in Q; destruct Q; congruence).
    assert (P : position i dom = None).
    { clear - NI. induction dom as [|d l IH]; [reflexivity|]. cbn. destruct (Nat.eqb i d) eqn:Q; [apply Nat.eqb_eq in Q; exfalso; apply NI; left; auto|].
      rewrite IH; [reflexivity|]. intros X. apply NI. right. exact X. }
    rewrite P. reflexivity. }
  split; [exact Off|]. split.
  - unfold SolverModel.scatter at 1 2 3. destruct (position i dom) as [k|] eqn:P; [|right; apply Zok; reflexivity].
    exact (c37_bounds _ _ _ _ _ _ _ _ (fun _ => max_load p) 1%Z v f (Z.le_refl 1) B k M).
  - intros T. destruct (start i) eqn:S0; [reflexivity|]. rewrite (Off eq_refl) in T. apply andb_true_iff in T. destruct T as [_ T].
    assert (Q : Reqb 0 0 = true) by (unfold Reqb; destruct (Req_EM_T 0 0); [reflexivity|lra]). rewrite Q in T. discriminate.
Qed.
Print Assumptions c111_im.

(** The initial guess is documented as an array, but an array is refused. *)
Theorem c111_guess_array_refuted : forall fuel n big part p h (gap : vec) adh (nodes : option mask) max_iter tol a rp pct,
  (exists i, (i < n)%nat /\ match nodes with Some m => m i | None => fltb (Fin 0) (fsub h (gap i)) end = true) ->
  solve_normal_interference fuel n big part (BothIm p) h gap adh nodes max_iter tol (Array a) rp pct = Some (Err AttributeError).
Proof.
  intros fuel n big part p h gap adh nodes max_iter tol a rp pct (i & I & T). unfold solve_normal_interference. cbv zeta.
  set (start := match nodes with Some m => m | None => _ end).
  assert (An : any n start = true).
  { apply any_spec. exists i. split; [exact I|]. unfold start, wanted. destruct nodes; exact T. }
  rewrite An. reflexivity.
Qed.
Print Assumptions c111_guess_array_refuted.
(** A function as the adhesive pressure is refused for these materials, and for others if it
    returns two arrays as documented. *)
Theorem c111_function_refuted : forall fuel n big part p solve h (gap : vec) f (nodes : option mask) max_iter tol initial rp pct,
  (exists i, (i < n)%nat /\ match nodes with Some m => m i | None => fltb (Fin 0) (fsub h (gap i)) end = true) ->
  (im p <> [] -> match initial with Array _ => False | _ => True end ->
   solve_normal_interference fuel n big part (BothIm p) h gap (Function f) nodes max_iter tol initial rp pct = Some (Err TypeError)) /\
  ((forall l d m, exists r a, f l d m = Two r a) -> (0 < fuel)%nat ->
   (forall k v, exists loads total rest, solve k v = Ok (loads, total :: rest)) ->
   solve_normal_interference fuel n big part (Other solve) h gap (Function f) nodes max_iter tol initial rp pct = Some (Err ValueError)).
Proof.
  intros fuel n big part p solve h gap f nodes max_iter tol initial rp pct (i & I & T). unfold solve_normal_interference. cbv zeta.
  set (start := match nodes with Some m => m | None => _ end).
  assert (An : any n start = true).
  { apply any_spec. exists i. split; [exact I|]. unfold start, wanted. destruct nodes; exact T. }
  rewrite An. cbn [negb]. split.
  - intros Ne In. destruct initial; [|reflexivity|contradiction]. destruct (im p) as [|x l]; [contradiction|]. reflexivity.
  - intros D F Sv. destruct fuel as [|k]; [lia|]. cbn [loop].
    match goal with |- context [solve 0%nat ?v] => destruct (Sv 0%nat v) as (loads & total & rest & ->) end.
    cbn [choose]. match goal with |- context [f ?l ?d ?m] => destruct (D l d m) as (r & a & ->) end. reflexivity.
Qed.
Print Assumptions c111_function_refuted.

(** ** The first guess of the loads *)
(** It is the displacement times the largest entry of the influence matrix, zero where the
    displacement is not a number. *)
Theorem c111_guess : forall big d l m g, guess_loads big None None (Some d) None None (Some l) = Ok (None, None, Some g) ->
  In m l -> (forall x, In x l -> x <= m) ->
  forall i, (forall r, d i = Fin r -> g i = Fin (r * m)) /\ (d i = NaN -> g i = Fin 0).
Proof.
  intros big d l m g H M B i. cbn [guess_loads guess_direction bind] in H. unfold guess_loads in H. cbn [guess_direction bind] in H.
  destruct l as [|x l]; [contradiction|]. cbn [list_max bind] in H.
  assert (Mx : fold_left (fun m y => if Rltb m y then y else m) l x = m).
  { assert (G : forall l x, (In m (x :: l) -> (forall y, In y (x :: l) -> y <= m) -> fold_left (fun m y => if Rltb m y then y else m) l x = m)).
    { clear. induction l as [|y l IH]; intros x M B; cbn [fold_left]; [destruct M as [M|[]]; exact M|].
      apply IH.
      - destruct (Rltb x y) eqn:E; [apply Rltb_true_iff in E|apply Rltb_false_iff in E].
        + destruct M as [M|M]; [subst; specialize (B y (or_intror (or_introl eq_refl))); lra|exact M].
        + destruct M as [M|[M|M]]; [left; exact M| |right; exact M]. subst. specialize (B x (or_introl eq_refl)). left. lra.
      - intros w [W|W]; [|apply B; right; right; exact W]. subst w. destruct (Rltb x y); apply B; [right; left|left]; reflexivity. }
    apply G; assumption. }
  rewrite Mx in H. injection H as <-. split.
  - intros r ->. reflexivity.
  - intros ->. reflexivity.
Qed.
Print Assumptions c111_guess.
(** So it isn't the load that gives the displacement, not even where every point is a spring on
    its own: for the compliance m the load is d / m, and the guess is that only when m is 1. *)
Theorem c111_guess_refuted : forall big m d g, 0 < m -> m <> 1 -> d <> 0 ->
  guess_loads big None None (Some (fun _ => Fin d)) None None (Some [m]) = Ok (None, None, Some g) ->
  forall i load, m * load = d -> g i <> Fin load.
Proof.
  intros big m d g M M1 D H i load E G. cbn in H. injection H as <-. cbn in G. injection G as G. subst load.
  assert (Q : (m * m - 1) * d = 0) by lra. apply Rmult_integral in Q. destruct Q as [Q|Q]; [|contradiction].
  assert (F : (m - 1) * (m + 1) = 0) by lra. apply Rmult_integral in F. destruct F; [apply M1|]; lra.
Qed.
Print Assumptions c111_guess_refuted.

(** The guess of loads: each direction from its own displacement and component; it is made exactly when every direction with a
    displacement has a component with entries. *)
Theorem c111_guess_loads : forall big dx dy dz cx cy cz,
  (forall x y z, guess_loads big dx dy dz cx cy cz = Ok (x, y, z) -> guessed dx cx x /\ guessed dy cy y /\ guessed dz cz z) /\
  ((exists r, guess_loads big dx dy dz cx cy cz = Ok r) <->
   forall d c, In (d, c) [(dx, cx); (dy, cy); (dz, cz)] -> d = None \/ exists a l, c = Some (a :: l)).
Proof.
  intros big dx dy dz cx cy cz.
  assert (M : forall l m, list_max l = Ok m -> In m l /\ forall x, In x l -> x <= m).
  { intros [|a l] m E; [discriminate E|]. injection E as E. subst m. revert a. induction l as [|b l IH]; intros a.
    - cbn. split; [now left|]. intros x [<-|[]]. lra.
    - cbn [fold_left]. destruct (Rltb a b) eqn:L.
      + apply Rltb_true in L. destruct (IH b) as [I1 I2]. split; [right; exact I1|]. intros x [<-|H]; [|now apply I2]. specialize (I2 b (or_introl eq_refl)). lra.
      + apply Rltb_false in L. destruct (IH a) as [I1 I2]. split; [destruct I1 as [I1|I1]; [now left|right; now right]|].
        intros x [<-|[<-|H]]; [apply I2; now left| |apply I2; now right]. specialize (I2 a (or_introl eq_refl)). lra. }
  assert (G : forall d c r, guess_direction big d c = Ok r -> guessed d c r).
  { intros [d|] c r H; cbn [guess_direction] in H; [|injection H as <-; exact I]. destruct c as [l|]; [|discriminate H].
    destruct (list_max l) as [m|e] eqn:E; [|discriminate H]. injection H as <-. destruct (M l m E) as [M1 M2]. exists l, m. split; [reflexivity|split; [exact M1|split; [exact M2|]]].
    intros i. split; [intros a ->; reflexivity|intros ->; reflexivity]. }
  assert (Q : forall d c, (exists r, guess_direction big d c = Ok r) <-> d = None \/ exists a l, c = Some (a :: l)).
  { intros [d|] c; cbn [guess_direction]; [|split; [now left|intros _; eexists; reflexivity]]. destruct c as [[|a l]|]; cbn.
    - split; [intros [r H]; discriminate H|intros [H|(a & l & H)]; discriminate H].
    - split; [intros _; right; now exists a, l|intros _; eexists; reflexivity].
    - split; [intros [r H]; discriminate H|intros [H|(a & l & H)]; discriminate H]. }
  unfold guess_loads. split.
  - intros x y z H. destruct (guess_direction big dx cx) as [rx|] eqn:X; [|discriminate H]. destruct (guess_direction big dy cy) as [ry|] eqn:Y; [|discriminate H].
    destruct (guess_direction big dz cz) as [rz|] eqn:Z; [|discriminate H]. injection H as <- <- <-. auto.
  - split.
    + intros [r H]. destruct (guess_direction big dx cx) as [rx|] eqn:X; [|discriminate H]. destruct (guess_direction big dy cy) as [ry|] eqn:Y; [|discriminate H].
      destruct (guess_direction big dz cz) as [rz|] eqn:Z; [|discriminate H]. intros d c [E|[E|[E|[]]]]; injection E as <- <-; apply Q; eexists; eassumption.
    + intros H. destruct (proj2 (Q dx cx) (H dx cx (or_introl eq_refl))) as [rx ->]. destruct (proj2 (Q dy cy) (H dy cy (or_intror (or_introl eq_refl)))) as [ry ->].
      destruct (proj2 (Q dz cz) (H dz cz (or_intror (or_intror (or_introl eq_refl))))) as [rz ->]. eexists. reflexivity.
Qed.
Print Assumptions c111_guess_loads.
