(** Theorems about the sub models (C52 to C55, C91, C92). *)
From Coq Require Import String List Bool Arith ZArith Reals Lra Lia.
From Verif Require Import Py PyProofs SurfaceModel SurfaceSpec SurfaceProofs Flt SolverModel SolverSpec SolverProofs SolverTheorems SubsModel SubsSpec SubsProofs.
Import ListNotations.
Local Open Scope string_scope.
Local Open Scope R_scope.

(** ** C52: elastic perfectly plastic wear *)
(** The constructor accepts exactly the proportions from 0 to 1, when both are given. *)
Theorem c52_constructor : forall name p1 p2 nt,
  (exists e, new_epp name p1 p2 nt = Ok e) <-> 0 <= p1 <= 1 /\ exists q, p2 = Some q /\ 0 <= q <= 1.
Proof.
  intros name p1 p2 nt. split.
  - intros (e & H). destruct (new_epp_ok _ _ _ _ _ H) as (q & -> & _ & _ & P & Q & _). split; [exact P|]. exists q. auto.
  - intros (P & q & -> & Q). unfold new_epp.
    rewrite (proj2 (Rltb_false_ 1 p1)), (proj2 (Rltb_false_ p1 0)), (proj2 (Rltb_false_ 1 q)), (proj2 (Rltb_false_ q 0)) by lra. cbn [orb].
    destruct (Rltb 0 p1), (Rltb 0 q); eexists; reflexivity.
Qed.
Print Assumptions c52_constructor.
(** Refuted: the proportion of the second surface has a default, but leaving it out raises for every
    proportion of the first. *)
Theorem c52_default_refuted : forall name p1 nt, 0 <= p1 <= 1 -> new_epp name p1 None nt = Err TypeError.
Proof.
  intros name p1 nt P. unfold new_epp. rewrite (proj2 (Rltb_false_ 1 p1)), (proj2 (Rltb_false_ p1 0)) by lra. reflexivity.
Qed.
Print Assumptions c52_default_refuted.

(** A call on a state which is not flagged as not converged: exactly the plastic overlapping contact
    nodes are worn, each by its overlap times the proportion of each surface, and the reported
    deformation is the area of a grid cell times the sum of all these depths. *)
Theorem c52_deformation : forall N max1 max2 gs1 gs2 e s1 s2 st e' s1' s2' out,
  0 <= p_surf_1 e -> 0 <= p_surf_2 e -> ~ unconverged st ->
  epp_solve N max1 max2 gs1 gs2 e s1 s2 st = (e', s1', s2', Ok out) ->
  exists gap lx ly loads contact nodes,
    gap_used e st gap /\ has st "loads" (VTriple lx ly (Some loads)) /\ has st "contact_nodes" (VMask contact) /\
    lists N (plastic (Rmin max1 max2) loads gap contact) nodes /\
    let depth p i := - gap i * p in
    deformation out (gs1 * gs1 * (total (depth (p_surf_1 e)) nodes + total (depth (p_surf_2 e)) nodes)) /\
    (0 < p_surf_1 e -> has out "wear_plastic_surface_1" (VList (map (depth (p_surf_1 e)) nodes))) /\
    (0 < p_surf_2 e -> has out "wear_plastic_surface_2" (VList (map (depth (p_surf_2 e)) nodes))) /\
    (forall i, In i nodes -> 0 <= depth (p_surf_1 e) i /\ 0 <= depth (p_surf_2 e) i) /\
    0 <= gs1 * gs1 * (total (depth (p_surf_1 e)) nodes + total (depth (p_surf_2 e)) nodes).
Proof.
  intros N max1 max2 gs1 gs2 e s1 s2 st e' s1' s2' out P1 P2 C H.
  destruct (epp_inv _ _ _ _ _ _ _ _ _ _ _ _ _ C H) as (gap & lx & ly & z & contact & [G L K T S1 S2 _ _ _]).
  exists gap, lx, ly, z, contact, (epp_nodes N (Rmin max1 max2) z gap contact).
  pose proof (epp_nodes_lists N (Rmin max1 max2) z gap contact) as Ls.
  split; [exact G|]. split; [exact L|]. split; [exact K|]. split; [exact Ls|]. cbv zeta.
  assert (D : forall i, In i (epp_nodes N (Rmin max1 max2) z gap contact) -> 0 <= - gap i * p_surf_1 e /\ 0 <= - gap i * p_surf_2 e).
  { intros i Hi. apply Ls in Hi as (_ & _ & Hg & _). split; apply Rmult_le_pos; lra. }
  split; [|split; [|split; [|split]]].
  - unfold deformation. unfold has in *. rewrite T. do 2 f_equal. rewrite !total_scale. ring.
  - intros P. destruct (proj1 S1 P) as (y & x & _ & O & _). exact O.
  - intros P. destruct (proj1 S2 P) as (y & x & _ & O & _). exact O.
  - exact D.
  - apply Rmult_le_pos; [apply Rle_0_sqr|]. apply Rplus_le_le_0_compat; apply total_nonneg; intros i Hi; now apply D.
Qed.
Print Assumptions c52_deformation.

(** Volume: with one grid spacing and different cells below the worn nodes the volume taken off both
    surfaces is the reported deformation. *)
Theorem c52_volume : forall N max1 max2 gs e s1 s2 st e' s1' s2' out,
  0 <= p_surf_1 e -> 0 <= p_surf_2 e -> ~ unconverged st ->
  epp_solve N max1 max2 gs gs e s1 s2 st = (e', s1', s2', Ok out) ->
  (forall nodes gap lx ly loads contact, gap_used e st gap -> has st "loads" (VTriple lx ly (Some loads)) -> has st "contact_nodes" (VMask contact) ->
     lists N (plastic (Rmin max1 max2) loads gap contact) nodes ->
     different_cells (p_surf_1 e) gs st "surface_1_points" nodes /\ different_cells (p_surf_2 e) gs st "surface_2_points" nodes) ->
  deformation out (gs * gs * ((grid_sum (profile s1) - grid_sum (profile s1')) + (grid_sum (profile s2) - grid_sum (profile s2')))).
Proof.
  intros N max1 max2 gs e s1 s2 st e' s1' s2' out P1 P2 C H D.
  destruct (epp_inv _ _ _ _ _ _ _ _ _ _ _ _ _ C H) as (gap & lx & ly & z & contact & [G L K T S1 S2 _ _ _]).
  destruct (D _ _ _ _ _ _ G L K (epp_nodes_lists N (Rmin max1 max2) z gap contact)) as [D1 D2].
  rewrite (side_removed _ _ _ _ _ _ _ _ _ _ _ P1 S1 D1), (side_removed _ _ _ _ _ _ _ _ _ _ _ P2 S2 D2).
  unfold deformation. unfold has in *. rewrite T. do 2 f_equal. rewrite !total_scale. ring.
Qed.
Print Assumptions c52_volume.

(** Where it is taken off: a cell without a worn node keeps its height, the cell of a worn node that
    is not shared loses the depth of this node; a surface without a share is not changed at all. *)
Theorem c52_cells : forall N max1 max2 gs1 gs2 e s1 s2 st e' s1' s2' out,
  0 <= p_surf_1 e -> 0 <= p_surf_2 e -> ~ unconverged st ->
  epp_solve N max1 max2 gs1 gs2 e s1 s2 st = (e', s1', s2', Ok out) ->
  exists gap lx ly loads contact nodes,
    gap_used e st gap /\ has st "loads" (VTriple lx ly (Some loads)) /\ has st "contact_nodes" (VMask contact) /\
    lists N (plastic (Rmin max1 max2) loads gap contact) nodes /\
    forall p gs points s s', In (p, gs, points, s, s') [(p_surf_1 e, gs1, "surface_1_points", s1, s1'); (p_surf_2 e, gs2, "surface_2_points", s2, s2')] ->
      unworn s' = unworn s /\ (p = 0 -> s' = s) /\
      (0 < p -> exists y x, has st points (VPoints y x) /\
        (forall r c, (forall i, In i nodes -> cell gs y x i <> (r, c)) -> at_ (profile s') r c = at_ (profile s) r c) /\
        (NoDup (map (cell gs y x) nodes) -> forall i r c, In i nodes -> cell gs y x i = (r, c) ->
           at_ (profile s') r c = at_ (profile s) r c - - gap i * p)).
Proof.
  intros N max1 max2 gs1 gs2 e s1 s2 st e' s1' s2' out P1 P2 C H.
  destruct (epp_inv _ _ _ _ _ _ _ _ _ _ _ _ _ C H) as (gap & lx & ly & z & contact & [G L K T S1 S2 _ _ _]).
  exists gap, lx, ly, z, contact, (epp_nodes N (Rmin max1 max2) z gap contact).
  split; [exact G|]. split; [exact L|]. split; [exact K|]. split; [apply epp_nodes_lists|].
  assert (W : forall p gs points key s s', 0 <= p -> side p gs (e_name e) (epp_nodes N (Rmin max1 max2) z gap contact) gap points key st out s s' ->
    unworn s' = unworn s /\ (p = 0 -> s' = s) /\
    (0 < p -> exists y x, has st points (VPoints y x) /\
        (forall r c, (forall i, In i (epp_nodes N (Rmin max1 max2) z gap contact) -> cell gs y x i <> (r, c)) -> at_ (profile s') r c = at_ (profile s) r c) /\
        (NoDup (map (cell gs y x) (epp_nodes N (Rmin max1 max2) z gap contact)) -> forall i r c, In i (epp_nodes N (Rmin max1 max2) z gap contact) -> cell gs y x i = (r, c) ->
           at_ (profile s') r c = at_ (profile s) r c - - gap i * p))).
  { intros p gs points key s s' P [A B]. split; [|split].
    - destruct (Rlt_dec 0 p) as [Q|Q]; [|now rewrite (B ltac:(lra))]. destruct (A Q) as (y & x & _ & _ & -> & _). apply wear_unworn.
    - intros Q. apply B. lra.
    - intros Q. destruct (A Q) as (y & x & Hp & _ & -> & Ok). exists y, x. split; [exact Hp|].
      generalize (epp_nodes N (Rmin max1 max2) z gap contact) Ok. clear. intros nodes Ok. split.
      + intros r c Hn. apply wear_untouched. intros d Hin. unfold indices, worn_points in Hin. rewrite map_map in Hin.
        apply in_map_iff in Hin as (i & E & Hi). apply (Hn i Hi). unfold cell. congruence.
      + intros Nd i r c Hi E. rewrite (wear_profile _ _ _ _ Ok). cbn [at_ add_at].
        assert (Ld : last_depth (indices gs (worn_points nodes y x gap p)) r c = Some (- gap i * p)).
        { clear Ok. induction nodes as [|j l IH]; [destruct Hi|]. cbn [map] in Nd. inversion Nd as [|? ? N1 N2]; subst.
          unfold indices, worn_points in *. cbn [map last_depth]. destruct Hi as [->|Hi].
          - rewrite last_depth_none.
            + unfold cell in E. injection E as -> ->. rewrite !Nat.eqb_refl. reflexivity.
            + intros d Hin. rewrite map_map in Hin. apply in_map_iff in Hin as (j & E' & Hj). apply N1. rewrite E.
              apply in_map_iff. exists j. split; [|exact Hj]. unfold cell. congruence.
          - rewrite (IH N2 Hi). reflexivity. }
        rewrite Ld. ring. }
  intros p gs points s s' [Q|[Q|[]]]; injection Q as <- <- <- <- <-; eapply W; eauto.
Qed.
Print Assumptions c52_cells.

(** A state flagged as not converged is returned as it is and nothing changes. *)
Theorem c52_unconverged : forall N max1 max2 gs1 gs2 e s1 s2 st, unconverged st ->
  epp_solve N max1 max2 gs1 gs2 e s1 s2 st = (e, s1, s2, Ok st).
Proof. intros N max1 max2 gs1 gs2 e s1 s2 st C. unfold epp_solve. apply flag_iff in C. rewrite C. reflexivity. Qed.
Print Assumptions c52_unconverged.

(** Refuted: two worn nodes over the same cell. The surface loses strictly less than reported. *)
Theorem c52_shared_cell_refuted : forall N max1 max2 gs e s1 s2 st e' s1' s2' out,
  0 < gs -> 0 < p_surf_1 e -> p_surf_2 e = 0 -> ~ unconverged st ->
  epp_solve N max1 max2 gs gs e s1 s2 st = (e', s1', s2', Ok out) ->
  (forall nodes gap lx ly loads contact y x, gap_used e st gap -> has st "loads" (VTriple lx ly (Some loads)) -> has st "contact_nodes" (VMask contact) ->
     has st "surface_1_points" (VPoints y x) ->
     lists N (plastic (Rmin max1 max2) loads gap contact) nodes -> ~ NoDup (map (cell gs y x) nodes)) ->
  exists t, deformation out t /\
    gs * gs * ((grid_sum (profile s1) - grid_sum (profile s1')) + (grid_sum (profile s2) - grid_sum (profile s2'))) < t.
Proof.
  intros N max1 max2 gs e s1 s2 st e' s1' s2' out Hg P1 P2 C H D.
  destruct (epp_inv _ _ _ _ _ _ _ _ _ _ _ _ _ C H) as (gap & lx & ly & z & contact & [G L K T S1 S2 _ _ _]).
  pose proof (epp_nodes_lists N (Rmin max1 max2) z gap contact) as Ls.
  eexists. split; [exact T|]. rewrite (proj2 S2) by lra. destruct (proj1 S1 P1) as (y & x & Hp & _ & -> & W).
  specialize (D _ _ _ _ _ _ _ _ G L K Hp Ls).
  assert (R := removed_less gs s1 (e_name e) _ W). rewrite cells_indices, depths_points in R.
  assert (Q : Forall (fun p => 0 < snd p) (worn_points (epp_nodes N (Rmin max1 max2) z gap contact) y x gap (p_surf_1 e))).
  { apply Forall_forall. intros p Hin. apply in_map_iff in Hin as (i & <- & Hi). apply Ls in Hi as (_ & _ & Hn & _). cbn.
    apply Rmult_lt_0_compat; lra. }
  specialize (R Q D). rewrite total_scale in R. rewrite P2, Rplus_0_r.
  assert (0 < gs * gs) by (apply Rmult_lt_0_compat; exact Hg). nra.
Qed.
Print Assumptions c52_shared_cell_refuted.
(** Refuted: different grid spacings. When the second surface takes all the wear and has another
    spacing, its lost volume is not the reported deformation, whenever something is worn. *)
Theorem c52_spacing_refuted : forall N max1 max2 gs1 gs2 e s1 s2 st e' s1' s2' out,
  0 < gs1 -> 0 < gs2 -> gs1 <> gs2 -> p_surf_1 e = 0 -> 0 < p_surf_2 e -> ~ unconverged st ->
  epp_solve N max1 max2 gs1 gs2 e s1 s2 st = (e', s1', s2', Ok out) ->
  (forall nodes gap lx ly loads contact, gap_used e st gap -> has st "loads" (VTriple lx ly (Some loads)) -> has st "contact_nodes" (VMask contact) ->
     lists N (plastic (Rmin max1 max2) loads gap contact) nodes ->
     nodes <> [] /\ different_cells (p_surf_2 e) gs2 st "surface_2_points" nodes) ->
  ~ deformation out (gs2 * gs2 * (grid_sum (profile s2) - grid_sum (profile s2'))).
Proof.
  intros N max1 max2 gs1 gs2 e s1 s2 st e' s1' s2' out G1 G2 Ne P1 P2 C H D Q.
  destruct (epp_inv _ _ _ _ _ _ _ _ _ _ _ _ _ C H) as (gap & lx & ly & z & contact & [G L K T S1 S2 _ _ _]).
  pose proof (epp_nodes_lists N (Rmin max1 max2) z gap contact) as Ls.
  destruct (D _ _ _ _ _ _ G L K Ls) as [D1 D2].
  rewrite (side_removed _ _ _ _ _ _ _ _ _ _ _ (Rlt_le _ _ P2) S2 D2) in Q. pose proof (has_fun _ _ _ _ T Q) as E. injection E as E.
  rewrite total_scale, P1, Rplus_0_l in E.
  assert (Pos : 0 < total (fun i => - gap i) (epp_nodes N (Rmin max1 max2) z gap contact)).
  { destruct (epp_nodes N (Rmin max1 max2) z gap contact) as [|i l]; [contradiction|]. cbn.
    assert (0 < - gap i) by (destruct (proj1 (proj2 Ls i) (or_introl eq_refl)) as (_ & _ & ? & _); lra).
    assert (0 <= total (fun i => - gap i) l). { apply total_nonneg. intros j Hj. destruct (proj1 (proj2 Ls j) (or_intror Hj)) as (_ & _ & ? & _); lra. }
    lra. }
  apply Ne. set (t := total (fun i => - gap i) (epp_nodes N (Rmin max1 max2) z gap contact)) in *. assert (H0 : t * p_surf_2 e * (gs1 * gs1 - gs2 * gs2) = 0)
    by (replace (t * p_surf_2 e * (gs1 * gs1 - gs2 * gs2)) with (t * (gs1 * gs1) * p_surf_2 e - gs2 * gs2 * (t * p_surf_2 e)) by ring; rewrite E; ring).
  assert (0 < t * p_surf_2 e) by (apply Rmult_lt_0_compat; assumption).
  apply Rmult_integral in H0 as [H0|H0]; [lra|]. nra.
Qed.
Print Assumptions c52_spacing_refuted.

(** Without time: over a history of calls in one step the deformation kept at each point is the
    largest overlap at the load limit so far, so nothing is worn twice, and the reported deformations
    add up to it. *)
Theorem c52_history : forall N max1 max2 gs1 gs2 name p1 p2 e sts mos s1 s2 e' s1' s2' outs,
  new_epp name p1 (Some p2) true = Ok e ->
  Forall (fun st => ~ unconverged st) sts -> Forall (fun st => ~ starts_step st) (tl sts) ->
  Forall2 (describes (Rmin max1 max2)) sts mos -> sts <> [] ->
  epp_run N max1 max2 gs1 gs2 e s1 s2 sts = Some (e', s1', s2', outs) ->
  exists depth ts, plastic_def e' = Some depth /\ (forall i, deepest i (rev mos) (depth i)) /\
    Forall2 deformation outs ts /\ rsum ts = gs1 * gs1 * (p1 + p2) * total depth (seq 0 N).
Proof.
  intros N max1 max2 gs1 gs2 name p1 p2 e sts mos s1 s2 e' s1' s2' outs Ne C S D Nn H.
  destruct (new_epp_ok _ _ _ _ _ Ne) as (q & Eq & E1 & E2 & _ & _ & _ & Nt & Pd & _). injection Eq as <-.
  destruct (epp_history N max1 max2 gs1 gs2 sts e s1 s2 e' s1' s2' outs mos (fun _ => 0) Nt C D) as (d & ts & P & F & De & Su); auto.
  - destruct sts; [contradiction|]. unfold before. rewrite Pd. reflexivity.
  - exists d, ts. split; [exact P|]. split; [|split; [exact F|]].
    + intros i. rewrite <- (app_nil_r (rev mos)). apply De. constructor.
    + rewrite Su, E1, E2. rewrite (total_ext _ d) by (intros; ring). ring.
Qed.
Print Assumptions c52_history.

(** Examples: two surfaces of one row and two columns. The first node overlaps by 2 at the limit. *)
Definition ex_surface : worn := Worn (Grid 1 2 (fun _ _ => 5)) (Grid 1 2 (fun _ _ => 5)) [].
Definition ex_gap (i : nat) : R := match i with O => -2 | _ => 1 end.
Definition ex_x (i : nat) : R := INR i * 1.
Definition ex_points : val R := VPoints (fun _ => INR 0 * 1) ex_x.
Definition ex_loads : val R := VTriple None None (Some (fun _ => 3)).
Definition ex_time : state R := [("gap", VGrid ex_gap); ("loads", ex_loads); ("contact_nodes", VMask (fun _ => true));
  ("surface_1_points", ex_points); ("surface_2_points", ex_points); ("converged", VFlag true)].
Ltac decide_R := repeat match goal with
  | |- context [Rltb ?a ?b] => first [replace (Rltb a b) with true by (symmetry; apply Rltb_true_; lra)
                                     |replace (Rltb a b) with false by (symmetry; apply Rltb_false_; lra)]
  | |- context [Rleb ?a ?b] => first [replace (Rleb a b) with true by (symmetry; apply Rleb_true_; lra)
                                     |replace (Rleb a b) with false by (destruct (Rleb a b) eqn:?Q; [apply Rleb_true_ in Q; lra|reflexivity])]
  end.
Lemma ex_wear : forall s name gap p nodes, rows (profile s) = 1%nat -> cols (profile s) = 2%nat -> (forall i, In i nodes -> (i < 2)%nat) ->
  exists s', wear 1 s name (worn_points nodes (fun _ => INR 0 * 1) ex_x gap p) = (s', Ok tt) /\ rows (profile s') = 1%nat /\ cols (profile s') = 2%nat.
Proof.
  intros s name gap p nodes R C N. destruct (wear 1 s name (worn_points nodes (fun _ => INR 0 * 1) ex_x gap p)) as [s' r] eqn:W.
  assert (O : snd (wear 1 s name (worn_points nodes (fun _ => INR 0 * 1) ex_x gap p)) = Ok tt).
  { apply wear_ok. apply Forall_forall. intros q H. apply in_map_iff in H as (i & <- & Hi). apply N in Hi. unfold ex_x.
    rewrite R, C. rewrite (wear_index_grid' 1 0) by (first [lra|reflexivity]).
    rewrite (wear_index_grid' 1 i) by (first [lra|apply (Z.lt_trans _ 2); [lia|reflexivity]]). split; [lia|exact Hi]. }
  pose proof (wear_profile _ _ _ _ O) as P. rewrite W in O, P. cbn in O, P. subst r. exists s'. rewrite P. cbn. auto.
Qed.
Lemma ex_cells : forall i, cell 1 (fun _ => INR 0 * 1) ex_x i = (0%nat, wear_index 1 (INR i * 1)).
Proof. intros i. unfold cell. rewrite (wear_index_grid' 1 0) by (first [lra|reflexivity]). reflexivity. Qed.
Example c52_case : exists e e' s1' s2' out,
  new_epp "wear" (1 / 2) (Some (1 / 4)) false = Ok e /\ 0 <= p_surf_1 e /\ 0 <= p_surf_2 e /\ ~ unconverged ex_time /\
  epp_solve 2 3 4 1 1 e ex_surface ex_surface ex_time = (e', s1', s2', Ok out) /\
  (forall nodes gap lx ly loads contact, gap_used e ex_time gap -> has ex_time "loads" (VTriple lx ly (Some loads)) -> has ex_time "contact_nodes" (VMask contact) ->
     lists 2 (plastic (Rmin 3 4) loads gap contact) nodes ->
     different_cells (p_surf_1 e) 1 ex_time "surface_1_points" nodes /\ different_cells (p_surf_2 e) 1 ex_time "surface_2_points" nodes) /\
  exists t, deformation out t /\ t = 3 / 2.
Proof.
  assert (E : exists e, new_epp "wear" (1 / 2) (Some (1 / 4)) false = Ok e) by (apply c52_constructor; split; [lra|]; eexists; split; [reflexivity|lra]).
  destruct E as (e & E). pose proof E as E0. apply new_epp_ok in E0 as (q & Q & P1 & P2 & _ & _ & Nm & Nt & _). injection Q as <-.
  exists e.
  assert (C : ~ unconverged ex_time) by (unfold unconverged, has; cbn; discriminate).
  assert (R : Rmin 3 4 = 3) by (apply Rmin_left; lra).
  assert (H : exists e' s1' s2' out, epp_solve 2 3 4 1 1 e ex_surface ex_surface ex_time = (e', s1', s2', Ok out) /\ deformation out (3 / 2)).
  { unfold epp_solve. rewrite (proj2 (flag_not _ _ _) C), Nt, R, P1, P2, Nm. cbn [find_grid find bind dget ex_time String.eqb Ascii.eqb Bool.eqb find_z find_mask ex_loads seq filter ex_gap andb].
    unfold ex_gap. decide_R. cbn [andb map].
    unfold epp_surface. decide_R. cbn [find_points find bind dget ex_time String.eqb Ascii.eqb Bool.eqb ex_points].
    destruct (ex_wear ex_surface "wear" (fun i => match i with O => -2 | S _ => 1 end) (1 / 2) [0%nat]) as (t1 & W1 & R1 & C1); [reflexivity|reflexivity|cbn; lia|].
    destruct (ex_wear ex_surface "wear" (fun i => match i with O => -2 | S _ => 1 end) (1 / 4) [0%nat]) as (t2 & W2 & R2 & C2); [reflexivity|reflexivity|cbn; lia|].
    rewrite W1, W2. cbn [bind]. do 4 eexists. split; [reflexivity|]. unfold deformation, has. rewrite !dget_dset. cbn.
    f_equal. f_equal. lra. }
  destruct H as (e' & s1' & s2' & out & H & D). exists e', s1', s2', out. rewrite P1, P2.
  split; [exact E|]. split; [lra|]. split; [lra|]. split; [exact C|]. split; [exact H|]. split; [|exists (3 / 2); auto].
  intros nodes gap lx ly loads contact G L K [Nd Li].
  assert (Un : forall y x, VPoints y x = ex_points -> NoDup (map (cell 1 y x) nodes)).
  { intros y x Q. injection Q as -> ->. rewrite (map_ext _ _ ex_cells).
    apply nodup_map_in; [exact Nd|]. intros a b Ha Hb. apply Li in Ha as [Ha _]. apply Li in Hb as [Hb _].
    rewrite !wear_index_grid' by (first [lra|apply (Z.lt_trans _ 2); [lia|reflexivity]]). congruence. }
  split; intros _ y x Hp; apply Un; unfold has in Hp; cbn in Hp; congruence.
Qed.
(** Two nodes over one cell. *)
Definition ex_shared : state R := [("gap", VGrid (fun _ => -2)); ("loads", ex_loads); ("contact_nodes", VMask (fun _ => true));
  ("surface_1_points", VPoints (fun _ => INR 0 * 1) (fun _ => INR 0 * 1))].
Example c52_shared_case : exists e e' s1' s2' out,
  new_epp "wear" 1 (Some 0) false = Ok e /\ 0 < p_surf_1 e /\ p_surf_2 e = 0 /\ ~ unconverged ex_shared /\
  epp_solve 2 3 4 1 1 e ex_surface ex_surface ex_shared = (e', s1', s2', Ok out) /\
  (forall nodes gap lx ly loads contact y x, gap_used e ex_shared gap -> has ex_shared "loads" (VTriple lx ly (Some loads)) -> has ex_shared "contact_nodes" (VMask contact) ->
     has ex_shared "surface_1_points" (VPoints y x) ->
     lists 2 (plastic (Rmin 3 4) loads gap contact) nodes -> ~ NoDup (map (cell 1 y x) nodes)).
Proof.
  assert (E : exists e, new_epp "wear" 1 (Some 0) false = Ok e) by (apply c52_constructor; split; [lra|]; eexists; split; [reflexivity|lra]).
  destruct E as (e & E). pose proof E as E0. apply new_epp_ok in E0 as (q & Q & P1 & P2 & _ & _ & Nm & Nt & _). injection Q as <-.
  exists e.
  assert (C : ~ unconverged ex_shared) by (unfold unconverged, has; cbn; discriminate).
  assert (R : Rmin 3 4 = 3) by (apply Rmin_left; lra).
  assert (H : exists e' s1' s2' out, epp_solve 2 3 4 1 1 e ex_surface ex_surface ex_shared = (e', s1', s2', Ok out)).
  { unfold epp_solve. rewrite (proj2 (flag_not _ _ _) C), Nt, R, P1, P2, Nm. cbn [find_grid find bind dget ex_shared String.eqb Ascii.eqb Bool.eqb find_z find_mask ex_loads seq filter andb].
    decide_R. cbn [andb map]. unfold epp_surface. decide_R. cbn [find_points find bind dget ex_shared String.eqb Ascii.eqb Bool.eqb].
    destruct (wear 1 ex_surface "wear" (worn_points [0%nat; 1%nat] (fun _ => INR 0 * 1) (fun _ => INR 0 * 1) (fun _ => -2) 1)) as [s' r] eqn:W.
    assert (O : r = Ok tt).
    { replace r with (snd (wear 1 ex_surface "wear" (worn_points [0%nat; 1%nat] (fun _ => INR 0 * 1) (fun _ => INR 0 * 1) (fun _ => -2) 1))) by now rewrite W.
      apply wear_ok. apply Forall_forall. intros q H. apply in_map_iff in H as (i & <- & _).
      rewrite (wear_index_grid' 1 0) by (first [lra|reflexivity]). cbn. split; lia. }
    subst r. do 4 eexists. reflexivity. }
  destruct H as (e' & s1' & s2' & out & H). exists e', s1', s2', out. rewrite P1, P2.
  split; [exact E|]. split; [lra|]. split; [lra|]. split; [exact C|]. split; [exact H|].
  intros nodes gap lx ly loads contact y x G L K Hp [Nd Li]. unfold gap_used in G. rewrite Nt in G. unfold has in G, L, K, Hp. cbn in G, L, K, Hp.
  injection G as <-. injection L as <- <- <-. injection K as <-. injection Hp as <- <-. rewrite R in Li.
  assert (I0 : In 0%nat nodes) by (apply Li; split; [lia|]; repeat split; lra).
  assert (I1 : In 1%nat nodes) by (apply Li; split; [lia|]; repeat split; lra).
  clear -I0 I1. intros N. apply in_split in I0 as (l1 & l2 & ->). rewrite map_app in N. cbn [map] in N. apply NoDup_remove_2 in N. apply N.
  rewrite <- map_app. apply in_map_iff. exists 1%nat. split; [reflexivity|].
  apply in_app_iff in I1 as [I1|[I1|I1]]; [| discriminate |]; apply in_app_iff; auto.
Qed.
(** Two grid spacings. *)
Example c52_spacing_case : exists e e' s1' s2' out,
  new_epp "wear" 0 (Some 1) false = Ok e /\ p_surf_1 e = 0 /\ 0 < p_surf_2 e /\ ~ unconverged ex_time /\
  epp_solve 2 3 4 (1 / 2) 1 e ex_surface ex_surface ex_time = (e', s1', s2', Ok out) /\
  (forall nodes gap lx ly loads contact, gap_used e ex_time gap -> has ex_time "loads" (VTriple lx ly (Some loads)) -> has ex_time "contact_nodes" (VMask contact) ->
     lists 2 (plastic (Rmin 3 4) loads gap contact) nodes -> nodes <> [] /\ different_cells (p_surf_2 e) 1 ex_time "surface_2_points" nodes).
Proof.
  assert (E : exists e, new_epp "wear" 0 (Some 1) false = Ok e) by (apply c52_constructor; split; [lra|]; eexists; split; [reflexivity|lra]).
  destruct E as (e & E). pose proof E as E0. apply new_epp_ok in E0 as (q & Q & P1 & P2 & _ & _ & Nm & Nt & _). injection Q as <-.
  exists e.
  assert (C : ~ unconverged ex_time) by (unfold unconverged, has; cbn; discriminate).
  assert (R : Rmin 3 4 = 3) by (apply Rmin_left; lra).
  assert (H : exists e' s1' s2' out, epp_solve 2 3 4 (1 / 2) 1 e ex_surface ex_surface ex_time = (e', s1', s2', Ok out)).
  { unfold epp_solve. rewrite (proj2 (flag_not _ _ _) C), Nt, R, P1, P2, Nm. cbn [find_grid find bind dget ex_time String.eqb Ascii.eqb Bool.eqb find_z find_mask ex_loads seq filter ex_gap andb].
    unfold ex_gap. decide_R. cbn [andb map].
    unfold epp_surface. decide_R. cbn [find_points find bind dget ex_time String.eqb Ascii.eqb Bool.eqb ex_points].
    destruct (ex_wear ex_surface "wear" (fun i => match i with O => -2 | S _ => 1 end) 1 [0%nat]) as (t2 & W2 & R2 & C2); [reflexivity|reflexivity|cbn; lia|].
    rewrite W2. cbn [bind]. do 4 eexists. reflexivity. }
  destruct H as (e' & s1' & s2' & out & H). exists e', s1', s2', out. rewrite P1, P2.
  split; [exact E|]. split; [lra|]. split; [lra|]. split; [exact C|]. split; [exact H|].
  intros nodes gap lx ly loads contact G L K [Nd Li]. split.
  - intros ->. unfold gap_used in G. rewrite Nt in G. unfold has in G, L, K. cbn in G, L, K.
    injection G as <-. injection L as <- <- <-. injection K as <-. rewrite R in Li. apply (proj2 (Li 0%nat)). split; [lia|]. unfold ex_gap. repeat split; lra.
  - intros _ y x Hp. unfold has in Hp. cbn in Hp. injection Hp as <- <-. rewrite (map_ext _ _ ex_cells). apply nodup_map_in; [exact Nd|].
    intros a b Ha Hb. apply Li in Ha as [Ha _]. apply Li in Hb as [Hb _].
    rewrite !wear_index_grid' by (first [lra|apply (Z.lt_trans _ 2); [lia|reflexivity]]). congruence.
Qed.
(** A history without time: two calls with the interferences 2 and 3; the second one adds 1. *)
Definition ex_call (first : bool) (h : R) : state R := [("new_step", VFlag first); ("just_touching_gap", VGrid (fun i => INR i * 0)); ("interference", VNum h);
  ("total_displacement", VTriple None None (Some (fun _ => 0))); ("loads", ex_loads); ("contact_nodes", VMask (fun i => Nat.eqb i 0))].
Example c52_history_case : exists e mos e' s1' s2' outs,
  new_epp "wear" 0 (Some 0) true = Ok e /\
  Forall (fun st => ~ unconverged st) [ex_call true 2; ex_call false 3] /\ Forall (fun st => ~ starts_step st) (tl [ex_call true 2; ex_call false 3]) /\
  Forall2 (describes (Rmin 3 4)) [ex_call true 2; ex_call false 3] mos /\
  epp_run 2 3 4 1 1 e ex_surface ex_surface [ex_call true 2; ex_call false 3] = Some (e', s1', s2', outs) /\
  deepest 0 (rev mos) 3 /\ deepest 1 (rev mos) 0.
Proof.
  assert (E : exists e, new_epp "wear" 0 (Some 0) true = Ok e) by (apply c52_constructor; split; [lra|]; eexists; split; [reflexivity|lra]).
  destruct E as (e & E). pose proof E as E0. apply new_epp_ok in E0 as (q & Q & P1 & P2 & _ & _ & Nm & Nt & Pd & _). injection Q as <-.
  assert (R : Rmin 3 4 = 3) by (apply Rmin_left; lra).
  exists e, [Moment (fun _ => 2) (fun i => i = 0%nat); Moment (fun _ => 3) (fun i => i = 0%nat)].
  assert (H : forall e0 b h, no_time e0 = true -> p_surf_1 e0 = 0 -> p_surf_2 e0 = 0 -> exists e' out, epp_solve 2 3 4 1 1 e0 ex_surface ex_surface (ex_call b h) = (e', ex_surface, ex_surface, Ok out) /\
    no_time e' = true /\ p_surf_1 e' = 0 /\ p_surf_2 e' = 0).
  { intros e0 b h T Z1 Z2. unfold epp_solve. replace (flag_is false "converged" (ex_call b h)) with false by reflexivity. rewrite T, R, Z1, Z2.
    unfold epp_surface. cbn [find_grid find bind dget ex_call String.eqb Ascii.eqb Bool.eqb find_num find_z find_mask ex_loads].
    replace (Rltb 0 0) with false by (symmetry; apply Rltb_false_; lra). cbn. do 2 eexists. split; [reflexivity|]. cbn. auto. }
  destruct (H e true 2 Nt P1 P2) as (e1 & out1 & H1 & T1 & Z1 & Z1'). destruct (H e1 false 3 T1 Z1 Z1') as (e2 & out2 & H2 & _).
  exists e2, ex_surface, ex_surface, [out1; out2]. split; [exact E|]. split; [|split; [|split; [|split]]].
  - repeat constructor; unfold unconverged, has; cbn; discriminate.
  - repeat constructor; unfold starts_step, has; cbn; discriminate.
  - rewrite R. repeat constructor;
    [exists (fun i => INR i * 0), 2, None, None, (fun _ => 0), None, None, (fun _ => 3), (fun i => Nat.eqb i 0)
    |exists (fun i => INR i * 0), 3, None, None, (fun _ => 0), None, None, (fun _ => 3), (fun i => Nat.eqb i 0)];
    (split; [reflexivity|]; split; [reflexivity|]; split; [reflexivity|]; split; [reflexivity|]; split; [reflexivity|];
     split; [intros i; cbn; ring|intros i; cbn; rewrite Nat.eqb_eq; split; [intros ->; split; [lra|reflexivity]|intros [_ Q]; exact Q]]).
  - cbn [epp_run]. rewrite H1, H2. reflexivity.
  - cbn. split.
    + pose proof (deepest_more 0 (Moment (fun _ => 3) (fun i => i = 0%nat)) _ _
        (deepest_more 0 (Moment (fun _ => 2) (fun i => i = 0%nat)) _ _ (deepest_none 0) eq_refl) eq_refl) as D. cbn in D.
      rewrite (Rmax_right 0 2), (Rmax_right 2 3) in D by lra. exact D.
    + apply deepest_same; [apply deepest_same; [constructor|]|]; cbn; discriminate.
Qed.

(** ** C53: sub models provide exactly what they announce *)
(** Contact stiffness, for every option, formatting of numbers, solver and state. *)
Theorem c53_stiffness : forall show load unload dirn defn b m rows cols mp influence solver st out,
  new_stiffness show load unload dirn defn b = Ok m ->
  stiffness_solve show m rows cols mp influence solver st = Ok out -> exactly out (k_provides m).
Proof. exact stiffness_keys. Qed.
Print Assumptions c53_stiffness.
(** The names of the entries are the documented ones. *)
Theorem c53_stiffness_names : forall show load unload dirn defn b m, new_stiffness show load unload dirn defn b = Ok m ->
  forall name, In name (k_provides m) <-> exists l d, ((l = "loading" /\ load = true) \/ (l = "unloading" /\ unload = true)) /\
    ((d = "ml" /\ (lower defn = "mean lines" \/ lower defn = "both")) \/ (d = "fp" /\ (lower defn = "far points" \/ lower defn = "both"))) /\
    name = ("s_contact_stiffness_" ++ l ++ "_" ++ d ++ "_" ++ dirn ++ "_" ++ show b)%string.
Proof.
  intros show load unload dirn defn b m H name. unfold new_stiffness in H. apply bind_ok in H as (defs & Hd & H).
  destruct (smem dirn _); [|discriminate]. destruct (load || unload); [|discriminate]. injection H as <-. cbn [k_provides].
  assert (D : (defs = ["ml"; "fp"] /\ lower defn = "both") \/ (defs = ["ml"] /\ lower defn = "mean lines") \/ (defs = ["fp"] /\ lower defn = "far points")).
  { destruct (String.eqb_spec (lower defn) "both"); [injection Hd as <-; auto|]. destruct (String.eqb_spec (lower defn) "mean lines"); [injection Hd as <-; auto|].
    destruct (String.eqb_spec (lower defn) "far points"); [injection Hd as <-; auto|discriminate]. }
  assert (W : forall l d, In (l, d) (list_prod (app (if load then ["loading"] else []) (if unload then ["unloading"] else [])) defs) <->
     ((l = "loading" /\ load = true) \/ (l = "unloading" /\ unload = true)) /\
     ((d = "ml" /\ (lower defn = "mean lines" \/ lower defn = "both")) \/ (d = "fp" /\ (lower defn = "far points" \/ lower defn = "both")))).
  { intros l d. rewrite in_prod_iff.
    assert (A : In l (app (if load then ["loading"] else []) (if unload then ["unloading"] else [])) <-> (l = "loading" /\ load = true) \/ (l = "unloading" /\ unload = true)).
    { clear. destruct load, unload; cbn; split; intros; intuition (auto; try discriminate). }
    assert (B : In d defs <-> (d = "ml" /\ (lower defn = "mean lines" \/ lower defn = "both")) \/ (d = "fp" /\ (lower defn = "far points" \/ lower defn = "both"))).
    { clear -D. destruct D as [[-> ->]|[[-> ->]|[-> ->]]]; cbn; split; intros; intuition (auto; try discriminate). }
    rewrite A, B. reflexivity. }
  transitivity (exists l d, In (l, d) (list_prod (app (if load then ["loading"] else []) (if unload then ["unloading"] else [])) defs) /\ name = key show l d dirn b).
  - assert (Dd : defs = ["ml"; "fp"] \/ defs = ["ml"] \/ defs = ["fp"]) by tauto. clear -Dd. split.
    + intros H. destruct Dd as [->|[->| ->]], load, unload; cbn -[key] in *; unfold key in *; cbn in H;
        repeat match goal with H : _ \/ _ |- _ => destruct H as [H|H] end; try contradiction; subst name;
        first [exists "loading", "ml"; split; [cbn; tauto|reflexivity]|exists "loading", "fp"; split; [cbn; tauto|reflexivity]
              |exists "unloading", "ml"; split; [cbn; tauto|reflexivity]|exists "unloading", "fp"; split; [cbn; tauto|reflexivity]].
    + intros (l & d & H & ->). destruct Dd as [->|[->| ->]], load, unload; cbn in H;
        repeat match goal with H : _ \/ _ |- _ => destruct H as [H|H] end; try contradiction; injection H as <- <-; cbn; auto 10.
  - split; intros (l & d & H); exists l, d; [destruct H as [H ->]; apply W in H; tauto|]. destruct H as (H1 & H2 & ->).
    split; [apply W; split; assumption|reflexivity].
Qed.
Print Assumptions c53_stiffness_names.
(** Friction and sliding. *)
Theorem c53_friction : forall c st out, friction_solve (new_friction c) st = Ok out -> exactly out (f_provides (new_friction c)).
Proof. intros c st out H. unfold friction_solve in H. apply bind_ok in H as (z & _ & H). injection H as <-. intros k. cbn. tauto. Qed.
Print Assumptions c53_friction.
Theorem c53_sliding : forall d m st out, new_sliding d = Ok m -> sliding_solve m st = Ok out -> exactly out (s_provides m).
Proof.
  intros d m st out N H. unfold new_sliding in N. apply bind_ok in N as (l & _ & N). destruct l as [|y [|x [|]]]; try discriminate. injection N as <-.
  unfold sliding_solve in H. apply bind_ok in H as (lf & _ & H). apply bind_ok in H as (z & _ & H). injection H as <-. intros k. cbn. tauto.
Qed.
Print Assumptions c53_sliding.
(** The wear model, unless the state is flagged as not converged. *)
Theorem c53_wear : forall N max1 max2 gs1 gs2 name p1 p2 nt e s1 s2 st e' s1' s2' out,
  new_epp name p1 p2 nt = Ok e -> ~ unconverged st ->
  epp_solve N max1 max2 gs1 gs2 e s1 s2 st = (e', s1', s2', Ok out) -> exactly out (e_provides e).
Proof.
  intros N max1 max2 gs1 gs2 name p1 p2 nt e s1 s2 st e' s1' s2' out Ne C H.
  destruct (epp_inv _ _ _ _ _ _ _ _ _ _ _ _ _ C H) as (gap & lx & ly & z & contact & E). destruct (new_epp_ok _ _ _ _ _ Ne) as (q & _ & P1 & P2 & _ & _ & _ & _ & _ & Pr & _).
  unfold exactly. rewrite (ee_keys _ _ _ _ _ _ _ _ _ _ _ _ _ _ _ _ _ _ E), Pr, P1, P2. tauto.
Qed.
Print Assumptions c53_wear.
(** Refuted for a state that is not converged: the flag itself is returned, which is not announced. *)
Theorem c53_unconverged_refuted : forall N max1 max2 gs1 gs2 name p1 p2 nt e s1 s2 st e' s1' s2' out,
  new_epp name p1 p2 nt = Ok e -> unconverged st ->
  epp_solve N max1 max2 gs1 gs2 e s1 s2 st = (e', s1', s2', Ok out) -> ~ exactly out (e_provides e).
Proof.
  intros N max1 max2 gs1 gs2 name p1 p2 nt e s1 s2 st e' s1' s2' out Ne C H X. rewrite c52_unconverged in H by exact C. injection H as _ _ _ <-.
  destruct (new_epp_ok _ _ _ _ _ Ne) as (q & _ & _ & _ & _ & _ & _ & _ & _ & Pr & _). unfold exactly in X. rewrite Pr in X.
  assert (I : In "converged" (map fst st)) by (apply dget_in; unfold unconverged, has in C; rewrite C; discriminate).
  apply X in I. destruct (Rltb 0 p1), (Rltb 0 q); cbn in I; intuition discriminate.
Qed.
Print Assumptions c53_unconverged_refuted.
(** Refuted for partial slip: every solution is the whole state, with entries that are not announced. *)
Theorem c53_partial_slip_refuted : forall fuel N op im dirn load disp tol maxit m st out,
  new_partial dirn load disp tol maxit = Ok m -> partial_slip_solve fuel N op im m st = Some (Ok out) -> ~ exactly out (q_provides m).
Proof.
  intros fuel N op im dirn load disp tol maxit m st out Nm H X.
  assert (P : q_provides m = ["slip_distance"; "stick_nodes"]) by (unfold new_partial in Nm; destruct load, disp; try discriminate; injection Nm as <-; reflexivity).
  rewrite P in X. destruct (slip_inv _ _ _ _ _ _ _ H) as (_ & mx & contact & d & found & full & stick & slip & E).
  assert (I : In "loads" (map fst out)). { destruct (se_has_loads _ _ _ _ _ _ _ _ _ _ _ _ _ E) as (v & _ & L & _). apply dget_in. unfold has in L. rewrite L. discriminate. }
  apply X in I. cbn in I. intuition discriminate.
Qed.
Print Assumptions c53_partial_slip_refuted.

(** ** C54: friction and sliding *)
(** The limit is the coefficient times the normal load, exactly as numbers. *)
Theorem c54_limit : forall c st lx ly z, has st "loads" (VTriple lx ly (Some z)) ->
  exists mx, friction_solve (new_friction (Fin c)) st = Ok [("maximum_tangential_force", VGrid mx)] /\
    forall i p, z i = Fin p -> mx i = Fin (c * p).
Proof.
  intros c st lx ly z H. exists (fun i => fmul (z i) (Fin c)). split.
  - unfold friction_solve. rewrite (proj2 (find_z_ok _ _ z)) by eauto. reflexivity.
  - intros i p ->. cbn. f_equal. ring.
Qed.
Print Assumptions c54_limit.
(** Accepted directions. *)
Theorem c54_directions : forall d, (exists m, new_sliding d = Ok m) <->
  (exists s, d = DirStr s /\ (lower s = "x" \/ lower s = "y")) \/ (exists a b, d = DirSeq [a; b]).
Proof.
  intros d. split.
  - intros (m & H). unfold new_sliding in H. apply bind_ok in H as (l & L & H). destruct d as [s|l'|]; [left|right|discriminate].
    + exists s. split; [reflexivity|]. destruct (String.eqb_spec (lower s) "x"); [auto|]. destruct (String.eqb_spec (lower s) "y"); [auto|discriminate].
    + injection L as ->. destruct l as [|a [|b [|]]]; try discriminate. eauto.
  - intros [(s & -> & [E|E])|(a & b & ->)]; unfold new_sliding; [rewrite E| rewrite E |]; cbn; eauto.
Qed.
Print Assumptions c54_directions.
(** The vector (y, x) of a direction. *)
Definition points_to (d : dir) (y x : R) : Prop :=
  match d with
  | DirStr s => (lower s = "x" /\ y = 0 /\ x = 1) \/ (lower s = "y" /\ y = 1 /\ x = 0)
  | DirSeq l => l = [Fin y; Fin x]
  | DirOther => False
  end.
(** Friction and then sliding: at every point the tangential load has exactly the magnitude of the
    coefficient times the load, is parallel to the direction, does not point backwards for a positive
    coefficient and load; the normal load is kept. *)
Theorem c54_sliding : forall c d y x st lx ly z m,
  points_to d y x -> (y <> 0 \/ x <> 0) -> new_sliding d = Ok m -> has st "loads" (VTriple lx ly (Some z)) ->
  exists f, friction_solve (new_friction (Fin c)) st = Ok f /\
  exists out tx ty, sliding_solve m (f ++ st)%list = Ok out /\ has out "loads" (VTriple (Some tx) (Some ty) (Some z)) /\
    forall i p, z i = Fin p -> exists a b, tx i = Fin a /\ ty i = Fin b /\
      sqrt (a * a + b * b) = Rabs (c * p) /\ a * y = b * x /\ (0 <= c * p -> 0 <= a * x + b * y).
Proof.
  intros c d y x st lx ly z m P Z N H. exists [("maximum_tangential_force", VGrid (fun i => fmul (z i) (Fin c)))]. split.
  { unfold friction_solve. rewrite (proj2 (find_z_ok _ _ z)) by eauto. reflexivity. }
  set (n := sqrt (y * y + x * x)).
  assert (Q : 0 < y * y + x * x) by (destruct Z; nra).
  assert (Np : 0 < n) by (apply sqrt_lt_R0; exact Q).
  assert (Nn : n * n = y * y + x * x) by (apply sqrt_sqrt; lra).
  assert (M : d_y m = Fin (y / n) /\ d_x m = Fin (x / n)).
  { assert (G : m = Sliding (fdiv (Fin y) (fsqrt (fadd (fmul (Fin y) (Fin y)) (fmul (Fin x) (Fin x))))) (fdiv (Fin x) (fsqrt (fadd (fmul (Fin y) (Fin y)) (fmul (Fin x) (Fin x))))) ["maximum_tangential_force"] ["loads"]).
    { destruct d as [s|l|]; cbn in P; [|subst l|contradiction].
      - destruct P as [(E & -> & ->)|(E & -> & ->)]; unfold new_sliding in N; rewrite E in N; cbn in N; injection N as <-; reflexivity.
      - cbn in N. injection N as <-. reflexivity. }
    assert (S : fsqrt (fadd (fmul (Fin y) (Fin y)) (fmul (Fin x) (Fin x))) = Fin n).
    { cbn. destruct (Rltb _ 0) eqn:L; [apply Rltb_true_ in L; lra|reflexivity]. }
    rewrite S in G. rewrite G. cbn [d_y d_x]. rewrite !fdiv_fin by lra. auto. }
  destruct M as [My Mx].
  exists [("loads", VTriple (Some (fun i => fmul (d_x m) (fmul (z i) (Fin c)))) (Some (fun i => fmul (d_y m) (fmul (z i) (Fin c)))) (Some z))].
  eexists _, _. split; [|split; [unfold has; cbn; reflexivity|]].
  - unfold sliding_solve, find_grid, find. cbn [app dget String.eqb Ascii.eqb Bool.eqb bind].
    unfold has in H. rewrite H. cbn [bind]. reflexivity.
  - intros i p E. rewrite Mx, My, E. cbn. exists (x / n * (p * c)), (y / n * (p * c)). split; [reflexivity|]. split; [reflexivity|]. split; [|split].
    + replace (x / n * (p * c) * (x / n * (p * c)) + y / n * (p * c) * (y / n * (p * c))) with (Rsqr (c * p)).
      * apply sqrt_Rsqr_abs.
      * unfold Rsqr. replace (x / n * (p * c) * (x / n * (p * c)) + y / n * (p * c) * (y / n * (p * c))) with ((y * y + x * x) / (n * n) * (c * p * (c * p))) by (field; lra).
        rewrite <- Nn. field. lra.
    + field. lra.
    + intros K. replace (x / n * (p * c) * x + y / n * (p * c) * y) with ((c * p) * ((y * y + x * x) / n)) by (field; lra).
      apply Rmult_le_pos; [exact K|]. apply Rmult_le_pos; [lra|]. apply Rlt_le, Rinv_0_lt_compat, Np.
Qed.
Print Assumptions c54_sliding.
(** Refuted: the zero vector is accepted and every tangential load is lost. *)
Theorem c54_zero_direction_refuted : exists m, new_sliding (DirSeq [Fin 0; Fin 0]) = Ok m /\
  forall st out tx ty z, sliding_solve m st = Ok out -> has out "loads" (VTriple (Some tx) (Some ty) z) -> forall i, tx i = NaN /\ ty i = NaN.
Proof.
  assert (Z : fdiv (Fin 0) (fsqrt (fadd (fmul (Fin 0) (Fin 0)) (fmul (Fin 0) (Fin 0)))) = NaN).
  { cbn [fmul fadd]. replace (0 * 0 + 0 * 0) with 0 by ring. unfold fsqrt. destruct (Rltb 0 0) eqn:Q; [reflexivity|].
    rewrite sqrt_0. unfold fdiv, Reqb. destruct (Req_EM_T 0 0); [|lra]. unfold signed_inf. rewrite Q. reflexivity. }
  exists (Sliding NaN NaN ["maximum_tangential_force"] ["loads"]). split; [unfold new_sliding; cbn [bind]; rewrite Z; reflexivity|].
  intros st out tx ty z H L i. unfold sliding_solve in H. apply bind_ok in H as (lf & _ & H).
  apply bind_ok in H as (z' & _ & H). injection H as <-. unfold has in L. cbn in L. injection L as <- <- _. split; reflexivity.
Qed.
Print Assumptions c54_zero_direction_refuted.
(** Refuted: the coefficient must be greater than 0 by the documentation; a negative one is accepted
    and gives a negative limit wherever the load is positive. *)
Theorem c54_negative_refuted : forall c st lx ly z i p, c < 0 -> 0 < p -> has st "loads" (VTriple lx ly (Some z)) -> z i = Fin p ->
  exists mx v, friction_solve (new_friction (Fin c)) st = Ok [("maximum_tangential_force", VGrid mx)] /\ mx i = Fin v /\ v < 0.
Proof.
  intros c st lx ly z i p C P H Z. destruct (c54_limit c st lx ly z H) as (mx & E & V). exists mx, (c * p).
  split; [exact E|]. split; [apply V; exact Z|]. nra.
Qed.
Print Assumptions c54_negative_refuted.
Example c54_case : exists m, new_sliding (DirSeq [Fin 3; Fin (-4)]) = Ok m /\ points_to (DirSeq [Fin 3; Fin (-4)]) 3 (-4) /\
  has ([("loads", VTriple None None (Some (fun _ => Fin 7)))] : state flt) "loads" (VTriple None None (Some (fun _ => Fin 7))).
Proof. eexists. repeat split. Qed.
