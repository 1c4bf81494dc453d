(** Proofs about the sub models. *)
From Coq Require Import String List Bool Arith ZArith Reals Lra Lia Permutation.
From Verif Require Import Py PyProofs SurfaceModel SurfaceSpec SurfaceProofs Flt SolverModel SolverSpec SolverProofs SubsModel SubsSpec.
Import ListNotations.
Local Open Scope string_scope.
Local Open Scope R_scope.

Lemma Rltb_true_ a b : Rltb a b = true <-> a < b.
Proof. unfold Rltb. destruct (Rlt_dec a b); split; auto; discriminate. Qed.
Lemma Rltb_false_ a b : Rltb a b = false <-> b <= a.
Proof. unfold Rltb. destruct (Rlt_dec a b); split; intros; auto; try discriminate; lra. Qed.
Lemma Rleb_true_ a b : Rleb a b = true <-> a <= b.
Proof. unfold Rleb. destruct (Rle_dec a b); split; auto; discriminate. Qed.

Lemma flag_iff {F} b k (st : state F) : flag_is b k st = true <-> has st k (VFlag b).
Proof.
  unfold flag_is, has. destruct (dget k st) as [[| c | | | | |]|]; try (split; discriminate).
  destruct b, c; cbn; split; intros; congruence.
Qed.
Lemma flag_not {F} b k (st : state F) : flag_is b k st = false <-> ~ has st k (VFlag b).
Proof. rewrite <- (flag_iff b k st). destruct (flag_is b k st); split; intros; congruence. Qed.

Lemma bind_ok {A B} (r : result A) (f : A -> result B) b : bind r f = Ok b -> exists a, r = Ok a /\ f a = Ok b.
Proof. destruct r; cbn; [eauto|discriminate]. Qed.
Section Finds.
Context {F : Type}.
Variables (k : string) (st : state F).
Lemma find_ok v : find k st = Ok v <-> has st k v.
Proof. unfold find, has. destruct (dget k st); split; intros; congruence. Qed.
Lemma find_num_ok x : find_num k st = Ok x <-> has st k (VNum x).
Proof.
  unfold find_num. split.
  - intros H. apply bind_ok in H as (v & Hv & H). apply find_ok in Hv. destruct v; try discriminate. congruence.
  - intros H. apply find_ok in H. rewrite H. reflexivity.
Qed.
Lemma find_grid_ok x : find_grid k st = Ok x <-> has st k (VGrid x).
Proof.
  unfold find_grid. split.
  - intros H. apply bind_ok in H as (v & Hv & H). apply find_ok in Hv. destruct v; try discriminate. congruence.
  - intros H. apply find_ok in H. rewrite H. reflexivity.
Qed.
Lemma find_mask_ok x : find_mask k st = Ok x <-> has st k (VMask x).
Proof.
  unfold find_mask. split.
  - intros H. apply bind_ok in H as (v & Hv & H). apply find_ok in Hv. destruct v; try discriminate. congruence.
  - intros H. apply find_ok in H. rewrite H. reflexivity.
Qed.
Lemma find_points_ok y x : find_points k st = Ok (y, x) <-> has st k (VPoints y x).
Proof.
  unfold find_points. split.
  - intros H. apply bind_ok in H as (v & Hv & H). apply find_ok in Hv. destruct v; try discriminate. congruence.
  - intros H. apply find_ok in H. rewrite H. reflexivity.
Qed.
Lemma find_z_ok z : find_z k st = Ok z <-> exists x y, has st k (VTriple x y (Some z)).
Proof.
  unfold find_z. split.
  - intros H. apply bind_ok in H as (v & Hv & H). apply find_ok in Hv. destruct v as [| | | |x y [z'|]| |]; try discriminate. exists x, y. congruence.
  - intros (x & y & H). apply find_ok in H. rewrite H. reflexivity.
Qed.
End Finds.
Lemma has_fun {F} (st : state F) k a b : has st k a -> has st k b -> a = b.
Proof. unfold has. congruence. Qed.

(** ** Sums *)
Lemma rsum_total {A} (f : A -> R) l : rsum (map f l) = total f l.
Proof. unfold rsum. induction l; cbn; [reflexivity|]. now rewrite IHl. Qed.
Lemma total_scale {A} (f : A -> R) c l : total (fun a => f a * c) l = total f l * c.
Proof. induction l; cbn; [ring|]. rewrite IHl. ring. Qed.
Lemma total_ext {A} (f g : A -> R) l : (forall a, In a l -> f a = g a) -> total f l = total g l.
Proof. induction l; cbn; intros H; [reflexivity|]. rewrite H by auto. rewrite IHl by auto. reflexivity. Qed.
Lemma total_filter (f : nat -> R) (b : nat -> bool) l : total f (filter b l) = total (fun i => if b i then f i else 0) l.
Proof. induction l as [|a l IH]; cbn; [reflexivity|]. destruct (b a); cbn; rewrite IH; ring. Qed.
Lemma total_plus {A} (f g : A -> R) l : total (fun a => f a + g a) l = total f l + total g l.
Proof. induction l; cbn; [ring|]. rewrite IHl. ring. Qed.
Lemma total_zero {A} (l : list A) : total (fun _ => 0) l = 0.
Proof. induction l; cbn; [reflexivity|]. rewrite IHl. ring. Qed.
Lemma total_perm {A} (f : A -> R) l l' : Permutation l l' -> total f l = total f l'.
Proof. induction 1; cbn; lra. Qed.
Lemma total_nonneg {A} (f : A -> R) l : (forall a, In a l -> 0 <= f a) -> 0 <= total f l.
Proof. induction l; cbn; intros H; [lra|]. pose proof (H a (or_introl eq_refl)). assert (0 <= total f l) by auto. lra. Qed.

Lemma lists_filter N b P : (forall i, b i = true <-> P i) -> lists N P (filter b (seq 0 N)).
Proof.
  intros H. split.
  - apply NoDup_filter, seq_NoDup.
  - intros i. rewrite filter_In, in_seq, H. split; intros [A B]; split; auto; lia.
Qed.

Lemma nodup_map_in {A B} (f : A -> B) l : NoDup l -> (forall a b, In a l -> In b l -> f a = f b -> a = b) -> NoDup (map f l).
Proof.
  induction 1 as [|a l Ha Hl IH]; intros I; cbn; constructor.
  - intros H. apply in_map_iff in H as (b & E & Hb). apply Ha. rewrite <- (I b a); cbn; auto.
  - apply IH. intros; apply I; cbn; auto.
Qed.

(** ** What one call of the wear model does *)
Definition epp_nodes (N : nat) (limit : R) (z gap : nat -> R) (contact : nat -> bool) : list nat :=
  filter (fun i => Rleb limit (z i) && (Rltb (gap i) 0 && contact i)) (seq 0 N).
Lemma epp_nodes_lists N limit z gap contact : lists N (plastic limit z gap contact) (epp_nodes N limit z gap contact).
Proof.
  apply lists_filter. intros i. unfold plastic. rewrite !andb_true_iff, Rleb_true_, Rltb_true_. tauto.
Qed.
(** What happens to one surface. *)
Definition side (p gs : R) (name : string) (nodes : list nat) (gap : nat -> R) (points key : string) (st out : state R) (s s' : worn) : Prop :=
  (0 < p -> exists y x, has st points (VPoints y x) /\ has out key (VList (map (fun i => - gap i * p) nodes)) /\
      s' = fst (wear gs s name (worn_points nodes y x gap p)) /\ snd (wear gs s name (worn_points nodes y x gap p)) = Ok tt) /\
  (p <= 0 -> s' = s).
Record epp_effect N max1 max2 gs1 gs2 e s1 s2 (st : state R) e' s1' s2' (out : state R) gap lx ly z contact : Prop := {
  ee_gap : gap_used e st gap;
  ee_loads : has st "loads" (VTriple lx ly (Some z));
  ee_contact : has st "contact_nodes" (VMask contact);
  ee_total : has out "total_plastic_deformation"
     (VNum (total (fun i => - gap i) (epp_nodes N (Rmin max1 max2) z gap contact) * (gs1 * gs1) * (p_surf_1 e + p_surf_2 e)));
  ee_1 : side (p_surf_1 e) gs1 (e_name e) (epp_nodes N (Rmin max1 max2) z gap contact) gap "surface_1_points" "wear_plastic_surface_1" st out s1 s1';
  ee_2 : side (p_surf_2 e) gs2 (e_name e) (epp_nodes N (Rmin max1 max2) z gap contact) gap "surface_2_points" "wear_plastic_surface_2" st out s2 s2';
  ee_keys : map fst out = ("total_plastic_deformation" :: (if Rltb 0 (p_surf_1 e) then ["wear_plastic_surface_1"] else []) ++
                           (if Rltb 0 (p_surf_2 e) then ["wear_plastic_surface_2"] else []))%list;
  ee_same : p_surf_1 e' = p_surf_1 e /\ p_surf_2 e' = p_surf_2 e /\ e_name e' = e_name e /\ no_time e' = no_time e /\
            e_provides e' = e_provides e /\ e_requires e' = e_requires e;
  ee_def : if no_time e then exists d, before e st d /\ exists jt h ux uy u, has st "just_touching_gap" (VGrid jt) /\
             has st "interference" (VNum h) /\ has st "total_displacement" (VTriple ux uy (Some u)) /\
             gap = (fun i => jt i - h + u i + d i) /\
             plastic_def e' = Some (fun i => if Rleb (Rmin max1 max2) (z i) && (Rltb (gap i) 0 && contact i) then d i + - gap i else d i)
           else e' = e }.

Lemma epp_inv N max1 max2 gs1 gs2 e s1 s2 st e' s1' s2' out :
  ~ unconverged st -> epp_solve N max1 max2 gs1 gs2 e s1 s2 st = (e', s1', s2', Ok out) ->
  exists gap lx ly z contact, epp_effect N max1 max2 gs1 gs2 e s1 s2 st e' s1' s2' out gap lx ly z contact.
Proof.
  intros C H. unfold epp_solve in H. apply flag_not in C. rewrite C in H.
  set (keep := fun d => Epp (e_name e) (p_surf_1 e) (p_surf_2 e) (e_requires e) (e_provides e) d (no_time e)) in H.
  set (found := if no_time e then _ else _) in H.
  assert (G : forall e1 gap, found = (e1, Ok gap) -> gap_used e st gap /\
    (if no_time e then exists d, e1 = keep (Some d) /\ before e st d /\ exists jt h ux uy u, has st "just_touching_gap" (VGrid jt) /\
             has st "interference" (VNum h) /\ has st "total_displacement" (VTriple ux uy (Some u)) /\
             gap = (fun i => jt i - h + u i + d i) else e1 = e)).
  { intros e1 gap. unfold found, gap_used. destruct (no_time e) eqn:Nt.
    - destruct (find_grid "just_touching_gap" st) as [jt|] eqn:J; [|discriminate]. intros K.
      set (d := match plastic_def e with Some _ => _ | None => _ end) in K. injection K as <- K.
      apply bind_ok in K as (h & Hh & K). apply bind_ok in K as (u & Hu & K). injection K as <-.
      apply find_grid_ok in J. apply find_num_ok in Hh. apply find_z_ok in Hu as (ux & uy & Hu).
      assert (B : before e st d).
      { unfold before, d. destruct (plastic_def e) as [d'|]; [|reflexivity]. destruct (flag_is true "new_step" st) eqn:Ns.
        - left. apply flag_iff in Ns. auto.
        - right. apply flag_not in Ns. auto. }
      split; [exists jt, h, ux, uy, u, d; auto|]. exists d. split; [reflexivity|]. split; [exact B|]. exists jt, h, ux, uy, u. auto.
    - intros K. injection K as <- K. apply find_grid_ok in K. auto. }
  destruct found as [e1 [gap|x]]; [|discriminate]. destruct (G _ _ eq_refl) as [Gu Gd]. clear G.
  destruct (bind (find_z "loads" st) _) as [[z contact]|x] eqn:L; [|discriminate].
  apply bind_ok in L as (z0 & Hz & L). apply bind_ok in L as (c0 & Hc & L). injection L as -> ->.
  apply find_z_ok in Hz as (lx & ly & Hz). apply find_mask_ok in Hc.
  exists gap, lx, ly, z, contact.
  cbv zeta in H. fold (epp_nodes N (Rmin max1 max2) z gap contact) in H.
  set (nodes := epp_nodes N (Rmin max1 max2) z gap contact) in *.
  set (tpd := match map (fun i => - gap i) nodes with [] => 0 | _ => _ end) in H.
  assert (T : tpd = total (fun i => - gap i) nodes * (gs1 * gs1) * (p_surf_1 e + p_surf_2 e)).
  { unfold tpd. rewrite <- rsum_total. destruct (map _ nodes); [cbn; ring|reflexivity]. }
  clearbody tpd.
  pose (apply_ := epp_surface st (e_name e) nodes gap). fold apply_ in H.
  assert (A : forall p gs points key s res s' res', apply_ p gs points key s res = (s', Ok res') ->
    (0 < p /\ exists y x, has st points (VPoints y x) /\ res' = dset key (VList (map (fun i => - gap i * p) nodes)) res /\
      s' = fst (wear gs s (e_name e) (worn_points nodes y x gap p)) /\ snd (wear gs s (e_name e) (worn_points nodes y x gap p)) = Ok tt) \/
    (p <= 0 /\ s' = s /\ res' = res)).
  { intros p gs points key s res s' res'. unfold apply_, epp_surface. destruct (Rltb 0 p) eqn:P.
    - apply Rltb_true_ in P. destruct (find_points points st) as [[y x]|] eqn:Pt; [|discriminate]. apply find_points_ok in Pt.
      destruct (wear gs s (e_name e) (worn_points nodes y x gap p)) as [s0 [[]|]] eqn:W; [|discriminate].
      cbn [bind]. intros K. injection K as <- <-. left. split; [exact P|]. exists y, x. rewrite W. rewrite map_map. auto.
    - apply Rltb_false_ in P. intros K. injection K as <- <-. auto. }
  destruct (apply_ (p_surf_1 e) gs1 _ _ s1 _) as [s1a [res1|]] eqn:A1; [|discriminate].
  destruct (apply_ (p_surf_2 e) gs2 _ _ s2 res1) as [s2a r2] eqn:A2.
  injection H as He <- <- ->.
  apply A in A1. apply A in A2. clear A apply_.
  assert (K1 : dget "total_plastic_deformation" res1 = Some (VNum tpd) /\
     map fst res1 = ("total_plastic_deformation" :: (if Rltb 0 (p_surf_1 e) then ["wear_plastic_surface_1"] else []))%list /\
     (0 < p_surf_1 e -> dget "wear_plastic_surface_1" res1 = Some (VList (map (fun i => - gap i * p_surf_1 e) nodes)))).
  { destruct A1 as [(P & y & x & _ & -> & _)|(P & _ & ->)].
    - rewrite (proj2 (Rltb_true_ 0 (p_surf_1 e))) by exact P. cbn. auto.
    - rewrite (proj2 (Rltb_false_ 0 (p_surf_1 e))) by exact P. cbn. repeat split; auto. intros; lra. }
  destruct K1 as (K1 & K2 & K3).
  assert (Kk : dget "total_plastic_deformation" out = Some (VNum tpd) /\
     map fst out = ("total_plastic_deformation" :: (if Rltb 0 (p_surf_1 e) then ["wear_plastic_surface_1"] else []) ++ (if Rltb 0 (p_surf_2 e) then ["wear_plastic_surface_2"] else []))%list /\
     dget "wear_plastic_surface_1" out = dget "wear_plastic_surface_1" res1).
  { destruct A2 as [(P & y & x & _ & -> & _)|(P & _ & ->)].
    - rewrite (proj2 (Rltb_true_ 0 (p_surf_2 e))) by exact P. rewrite !dget_dset. cbn [String.eqb]. cbn.
      split; [exact K1|]. split; [|reflexivity]. clear -K2.
      destruct res1 as [|[k1 v1] [|[k2 v2] [|]]]; destruct (Rltb 0 (p_surf_1 e)); cbn in K2; try discriminate; injection K2; intros; subst; reflexivity.
    - rewrite (proj2 (Rltb_false_ 0 (p_surf_2 e))) by exact P. rewrite app_nil_r. auto. }
  destruct Kk as (Kt & Km & K1'). subst tpd.
  constructor; auto.
  - split.
    + intros P. destruct A1 as [(_ & y & x & Hp & _ & Hs & Hw)|(P' & _)]; [|lra]. exists y, x. unfold has. rewrite K1'. auto.
    + intros P. destruct A1 as [(P' & _)|(_ & -> & _)]; [lra|reflexivity].
  - split.
    + intros P. destruct A2 as [(_ & y & x & Hp & -> & Hs & Hw)|(P' & _)]; [|lra]. exists y, x.
      unfold has. rewrite dget_dset, String.eqb_refl. auto.
    + intros P. destruct A2 as [(P' & _)|(_ & -> & _)]; [lra|reflexivity].
  - destruct (no_time e) eqn:Nt.
    + destruct Gd as (d & -> & _). rewrite <- He. cbn. auto 10.
    + subst e1 e'. auto 10.
  - destruct (no_time e) eqn:Nt.
    + destruct Gd as (d & -> & B & R). exists d. split; [exact B|].
      destruct R as (jt & h & ux & uy & u & R1 & R2 & R3 & R4). exists jt, h, ux, uy, u. split; [exact R1|]. split; [exact R2|]. split; [exact R3|].
      split; [exact R4|]. rewrite <- He. cbn. reflexivity.
    + subst e1 e'. reflexivity.
Qed.

(** ** Volumes *)
Lemma dep_again r c d l i j : In (r, c) (map fst l) -> dep ((r, c, d) :: l) i j = dep l i j.
Proof.
  intros H. unfold dep. cbn. destruct (last_depth l i j) eqn:E; [reflexivity|].
  destruct (Nat.eqb_spec r i); [destruct (Nat.eqb_spec c j)|]; cbn; auto. subst. exfalso.
  clear -H E. induction l as [|[[r' c'] d'] l IH]; [destruct H|]. cbn in *.
  destruct (last_depth l i j); [discriminate|]. destruct H as [H|H]; [|auto].
  injection H as -> ->. rewrite !Nat.eqb_refl in E. discriminate.
Qed.
Lemma dep_less r c idx : Forall (fun p => match p with (a, b, _) => (a < r)%nat /\ (b < c)%nat end) idx ->
  Forall (fun p => 0 < snd p) idx ->
  sum_n r (fun i => sum_n c (fun j => dep idx i j)) <= fold_right (fun p acc => snd p + acc) 0 idx /\
  (~ NoDup (map fst idx) -> sum_n r (fun i => sum_n c (fun j => dep idx i j)) < fold_right (fun p acc => snd p + acc) 0 idx).
Proof.
  induction idx as [|[[a b] d] l IH]; intros Hb Hp.
  - cbn. rewrite (sum_n_ext r _ (fun _ => 0)) by (intros; apply sum_n_zero). rewrite sum_n_zero. split; [lra|].
    intros H. exfalso. apply H. constructor.
  - inversion Hb as [|? ? Hab Hb2]; subst. cbn in Hab. destruct Hab as [Ha Hb1]. inversion Hp as [|? ? Hd Hp2]; subst. cbn in Hd. cbn [fold_right snd map].
    destruct (IH Hb2 Hp2) as [I1 I2].
    destruct (in_dec (fun p q : nat * nat => ltac:(decide equality; apply Nat.eq_dec)) (a, b) (map fst l)) as [D|D].
    + rewrite (sum_n_ext r _ (fun i => sum_n c (fun j => dep l i j))) by (intros; apply sum_n_ext; intros; now apply dep_again).
      split; lra.
    + rewrite (sum_n_ext r _ (fun i => sum_n c (fun j => dep l i j) + (if Nat.eqb a i then d else 0))).
      * rewrite sum_n_add, sum_n_single by exact Ha. split; [lra|]. intros H.
        assert (~ NoDup (map fst l)) by (intros K; apply H; cbn; constructor; assumption). specialize (I2 H0). lra.
      * intros i Hi. rewrite (sum_n_ext c _ (fun j => dep l i j + (if Nat.eqb a i then (if Nat.eqb b j then d else 0) else 0)))
          by (intros; now apply dep_cons).
        rewrite sum_n_add. f_equal. destruct (Nat.eqb a i); [now apply sum_n_single|apply sum_n_zero].
Qed.
Lemma removed_less gs w name pts : snd (wear gs w name pts) = Ok tt -> Forall (fun p => 0 < snd p) pts -> ~ NoDup (map fst (indices gs pts)) ->
  grid_sum (profile w) - grid_sum (profile (fst (wear gs w name pts))) < depths pts.
Proof.
  intros Ho Hp Hn. pose proof (proj1 (wear_ok gs w name pts) Ho) as Hb. rewrite (wear_profile _ _ _ _ Ho).
  rewrite <- (depths_indices gs pts).
  assert (L : sum_n (rows (profile w)) (fun i => sum_n (cols (profile w)) (fun j => dep (indices gs pts) i j)) <
              fold_right (fun p acc => snd p + acc) 0 (indices gs pts)).
  { apply dep_less; [| |exact Hn].
    - apply Forall_forall. intros [[r c] d] Hin. apply in_map_iff in Hin as ([[x y] d'] & E & Hin). injection E as <- <- <-.
      rewrite Forall_forall in Hb. apply (Hb _ Hin).
    - apply Forall_forall. intros [[r c] d] Hin. apply in_map_iff in Hin as ([[x y] d'] & E & Hin). injection E as <- <- <-.
      rewrite Forall_forall in Hp. apply (Hp _ Hin). }
  unfold grid_sum. cbn [rows cols add_at].
  rewrite (sum_n_ext (rows (profile w)) (fun i => sum_n _ (fun j => at_ (add_at (-1) (profile w) (indices gs pts)) i j))
      (fun i => sum_n (cols (profile w)) (fun j => at_ (profile w) i j) + -1 * sum_n (cols (profile w)) (fun j => dep (indices gs pts) i j))).
  - rewrite sum_n_add, sum_n_scal. lra.
  - intros i _. rewrite <- sum_n_scal, <- sum_n_add. apply sum_n_ext. intros. apply add_at_dep.
Qed.
Lemma cells_indices gs nodes y x gap p : map fst (indices gs (worn_points nodes y x gap p)) = map (cell gs y x) nodes.
Proof. unfold indices, worn_points. rewrite !map_map. reflexivity. Qed.
Lemma depths_points nodes y x gap p : depths (worn_points nodes y x gap p) = total (fun i => - gap i * p) nodes.
Proof. unfold depths, worn_points. induction nodes as [|i l IH]; cbn; [reflexivity|]. now rewrite IH. Qed.

Lemma side_removed p gs name nodes gap points key st out s s' : 0 <= p ->
  side p gs name nodes gap points key st out s s' -> different_cells p gs st points nodes ->
  grid_sum (profile s) - grid_sum (profile s') = total (fun i => - gap i * p) nodes.
Proof.
  intros P [S1 S2] D. destruct (Rlt_dec 0 p) as [L|L].
  - destruct (S1 L) as (y & x & Hp & _ & -> & W). rewrite removed_sum; [apply depths_points|exact W|].
    rewrite cells_indices. apply (D L _ _ Hp).
  - rewrite (S2 ltac:(lra)). replace p with 0 by lra. rewrite (total_ext _ (fun _ => 0)) by (intros; ring). rewrite total_zero. ring.
Qed.

Lemma new_epp_ok name p1 p2 nt e : new_epp name p1 p2 nt = Ok e ->
  exists q, p2 = Some q /\ p_surf_1 e = p1 /\ p_surf_2 e = q /\ 0 <= p1 <= 1 /\ 0 <= q <= 1 /\ e_name e = name /\ no_time e = nt /\ plastic_def e = None /\
  e_provides e = ("total_plastic_deformation" :: (if Rltb 0 p1 then ["wear_plastic_surface_1"] else []) ++ (if Rltb 0 q then ["wear_plastic_surface_2"] else []))%list /\
  e_requires e = (["interference"; "total_displacement"; "just_touching_gap"] ++ (if Rltb 0 p1 then ["surface_1_points"] else []) ++ (if Rltb 0 q then ["surface_2_points"] else []))%list.
Proof.
  unfold new_epp. destruct (Rltb 1 p1 || Rltb p1 0) eqn:A; [discriminate|]. destruct p2 as [q|]; [|discriminate].
  destruct (Rltb 1 q || Rltb q 0) eqn:B; [discriminate|]. apply orb_false_iff in A as [A1 A2]. apply orb_false_iff in B as [B1 B2].
  apply Rltb_false_ in A1, A2, B1, B2. intros H. exists q.
  destruct (Rltb 0 p1), (Rltb 0 q); injection H as <-; cbn; repeat split; auto.
Qed.

(** ** Histories without time *)
Definition depth_after (limit : R) (mo : moment) (d d' : R) (i : nat) : Prop :=
  (at_limit mo i -> d' = Rmax d (overlap mo i)) /\ (~ at_limit mo i -> d' = d).
Lemma epp_no_time_step N max1 max2 gs1 gs2 e s1 s2 st e' s1' s2' out mo d :
  ~ unconverged st -> no_time e = true -> describes (Rmin max1 max2) st mo -> before e st d ->
  epp_solve N max1 max2 gs1 gs2 e s1 s2 st = (e', s1', s2', Ok out) ->
  no_time e' = true /\ p_surf_1 e' = p_surf_1 e /\ p_surf_2 e' = p_surf_2 e /\
  exists d', plastic_def e' = Some d' /\ (forall i, depth_after (Rmin max1 max2) mo (d i) (d' i) i) /\
    deformation out (total (fun i => d' i - d i) (seq 0 N) * (gs1 * gs1) * (p_surf_1 e + p_surf_2 e)).
Proof.
  intros C Nt D B H. destruct (epp_inv _ _ _ _ _ _ _ _ _ _ _ _ _ C H) as (gap & lx & ly & z & contact & E).
  destruct E as [E1 E2 E3 E4 _ _ _ E5 E6]. rewrite Nt in E6. destruct E6 as (d0 & B0 & jt & h & ux & uy & u & J & I & U & G & P).
  destruct E5 as (P1 & P2 & _ & Nt' & _). rewrite Nt in Nt'. split; [exact Nt'|]. split; [exact P1|]. split; [exact P2|].
  assert (d0 = d).
  { clear -B B0. unfold before in *. destruct (plastic_def e); [|congruence].
    destruct B as [[S1 ->]|[S1 ->]], B0 as [[S2 ->]|[S2 ->]]; auto; contradiction. }
  subst d0. eexists. split; [exact P|].
  destruct D as (jt' & h' & ux' & uy' & u' & lx' & ly' & z' & c' & J' & I' & U' & L' & K' & O & A).
  pose proof (has_fun _ _ _ _ J J') as X. injection X as <-. pose proof (has_fun _ _ _ _ I I') as X. injection X as <-.
  pose proof (has_fun _ _ _ _ U U') as X. injection X as <- <- <-. pose proof (has_fun _ _ _ _ E2 L') as X. injection X as <- <- <-.
  pose proof (has_fun _ _ _ _ E3 K') as X. injection X as <-. clear J' I' U' L' K'.
  assert (Gi : forall i, gap i = d i - overlap mo i) by (intros i; rewrite G, O; ring).
  split.
  - intros i. split.
    + intros Q. apply A in Q as [Q1 Q2]. cbn beta. rewrite (proj2 (Rleb_true_ _ _) Q1), Q2, andb_true_r. cbn [andb].
      destruct (Rltb (gap i) 0) eqn:S; [apply Rltb_true_ in S|apply Rltb_false_ in S]; rewrite Gi in *.
      * rewrite Rmax_right by lra. ring.
      * rewrite Rmax_left by lra. reflexivity.
    + intros Q. cbn beta. destruct (Rleb (Rmin max1 max2) (z i)) eqn:Q1; [|reflexivity]. destruct (contact i) eqn:Q2.
      * exfalso. apply Q, A. split; [now apply Rleb_true_|exact Q2].
      * rewrite andb_false_r. reflexivity.
  - unfold deformation. unfold has in E4 |- *. rewrite E4. do 2 f_equal. f_equal. f_equal. unfold epp_nodes. rewrite total_filter.
    apply total_ext. intros i _. cbn beta. destruct (_ && _); ring.
Qed.
Lemma epp_history N max1 max2 gs1 gs2 : forall sts e s1 s2 e' s1' s2' outs mos d,
  no_time e = true -> Forall (fun st => ~ unconverged st) sts -> Forall2 (describes (Rmin max1 max2)) sts mos ->
  (match sts with st :: _ => before e st d | [] => plastic_def e = Some d end) ->
  Forall (fun st => ~ starts_step st) (tl sts) ->
  epp_run N max1 max2 gs1 gs2 e s1 s2 sts = Some (e', s1', s2', outs) ->
  exists d' ts, plastic_def e' = Some d' /\ Forall2 deformation outs ts /\
    (forall i l, deepest i l (d i) -> deepest i (rev mos ++ l)%list (d' i)) /\
    rsum ts = total (fun i => d' i - d i) (seq 0 N) * (gs1 * gs1) * (p_surf_1 e + p_surf_2 e).
Proof.
  induction sts as [|st sts IH]; intros e s1 s2 e' s1' s2' outs mos d Nt C D B S H.
  - inversion D; subst. cbn in H. injection H as <- <- <- <-. exists d, []. split; [exact B|]. split; [constructor|].
    split; [auto|]. cbn. rewrite (total_ext _ (fun _ => 0)) by (intros; ring). rewrite total_zero. ring.
  - inversion D as [|? mo ? mos' D1 D2]; subst. inversion C as [|? ? C1 C2]; subst. cbn in H.
    destruct (epp_solve N max1 max2 gs1 gs2 e s1 s2 st) as [[[e1 t1] t2] [out|]] eqn:E; [|discriminate].
    destruct (epp_run N max1 max2 gs1 gs2 e1 t1 t2 sts) as [[[[e2 u1] u2] outs']|] eqn:R; [|discriminate].
    injection H as <- <- <- <-.
    destruct (epp_no_time_step _ _ _ _ _ _ _ _ _ _ _ _ _ _ _ C1 Nt D1 B E) as (Nt1 & P1 & P2 & d1 & Pd & Dd & T).
    destruct (IH e1 t1 t2 e2 u1 u2 outs' mos' d1 Nt1 C2 D2) as (d' & ts & Pd' & F & De & Su).
    + destruct sts as [|st' sts']; [exact Pd|]. unfold before. rewrite Pd. right. cbn in S. inversion S; subst. auto.
    + cbn in S. destruct sts; [constructor|]. cbn. inversion S; auto.
    + exact R.
    + exists d'. eexists (_ :: ts). split; [exact Pd'|]. split; [constructor; [exact T|exact F]|]. split.
      * intros i l L. cbn [rev]. rewrite <- app_assoc. apply De. cbn. destruct (Dd i) as [Q1 Q2].
        destruct (Classical_Prop.classic (at_limit mo i)) as [A|A].
        -- rewrite (Q1 A). constructor; assumption.
        -- rewrite (Q2 A). constructor; assumption.
      * unfold rsum in *. cbn. rewrite Su, P1, P2. rewrite <- Rmult_plus_distr_r, <- Rmult_plus_distr_r. f_equal. f_equal.
        rewrite <- total_plus. apply total_ext. intros. ring.
Qed.

(** ** Contact stiffness *)
Lemma new_stiffness_ok show load unload dirn defn b m : new_stiffness show load unload dirn defn b = Ok m ->
  (definition m = ["ml"; "fp"] \/ definition m = ["ml"] \/ definition m = ["fp"]) /\
  direction m = dirn /\ loading m = load /\ unloading m = unload /\ boarder m = b /\ k_requires m = ["contact_nodes"; "loads"] /\
  k_provides m = fold_left (fun s x => let s1 := if load then sadd (key show "loading" x dirn b) s else s in
                                       if unload then sadd (key show "unloading" x dirn b) s1 else s1) (definition m) [].
Proof.
  unfold new_stiffness. intros H. apply bind_ok in H as (defs & Hd & H).
  assert (D : defs = ["ml"; "fp"] \/ defs = ["ml"] \/ defs = ["fp"]).
  { destruct (lower defn =? "both"); [injection Hd as <-; auto|]. destruct (lower defn =? "mean lines"); [injection Hd as <-; auto|].
    destruct (lower defn =? "far points"); [injection Hd as <-; auto|discriminate]. }
  destruct (smem dirn _); [|discriminate]. destruct (load || unload); [|discriminate]. injection H as <-. cbn. auto 10.
Qed.
Lemma one_stiffness_ok m rows cols mp influence solver load st out :
  one_stiffness m rows cols mp influence solver load st = Ok out ->
  influence = true /\ exists all contact loads disp, has st "contact_nodes" (VMask all) /\ inner rows cols (boarder m) <> [] /\
    (if load then exists lx ly z, has st "loads" (VTriple lx ly (Some z)) /\ contact = (fun i => all i && Rltb (z i) (mp * (99999 / 100000)))
     else contact = all) /\ solver load (inner rows cols (boarder m)) contact = (loads, disp) /\
    let load_str := if load then "loading" else "unloading" in
    let k := Fin (rsum loads) in
    let size := Fin (INR (List.length (inner rows cols (boarder m)))) in
    let d1 := if smem "fp" (definition m) then dset ("s_contact_stiffness_" ++ load_str ++ "_fp_") (fdiv k size) [] else [] in
    out = (if smem "ml" (definition m) then
              let all_disp := map (fun i => if contact i then 1 else if Rltb 1 (disp i) then 1 else disp i) (inner rows cols (boarder m)) in
              dset ("s_contact_stiffness_" ++ load_str ++ "_ml_") (fdiv (fdiv k (fsub (Fin 1) (Fin (mean all_disp)))) size) d1
            else d1).
Proof.
  unfold one_stiffness. destruct influence; [|discriminate]. intros H. split; [reflexivity|].
  apply bind_ok in H as (all & Ha & H). apply bind_ok in H as (contact & Hc & H). apply find_mask_ok in Ha.
  cbv zeta in H. remember (inner rows cols (boarder m)) as points eqn:Ep. destruct points as [|i0 pts]; [discriminate|]. rewrite Ep in *.
  destruct (solver load _ contact) as [loads disp] eqn:S. injection H as <-.
  exists all, contact, loads, disp. split; [exact Ha|]. split; [rewrite <- Ep; discriminate|]. split.
  - destruct load; [|injection Hc as <-; reflexivity]. apply bind_ok in Hc as (z & Hz & Hc). injection Hc as <-.
    apply find_z_ok in Hz as (lx & ly & Hz). exists lx, ly, z. auto.
  - split; [exact S|]. reflexivity.
Qed.
Lemma stiffness_keys show load unload dirn defn b m rows cols mp influence solver st out :
  new_stiffness show load unload dirn defn b = Ok m ->
  stiffness_solve show m rows cols mp influence solver st = Ok out -> exactly out (k_provides m).
Proof.
  intros N H. apply new_stiffness_ok in N as (D & E1 & E2 & E3 & E4 & _ & Pr). rewrite Pr. clear Pr.
  unfold stiffness_solve in H. apply bind_ok in H as (r1 & H1 & H). rewrite E2 in H1. rewrite E3 in H.
  unfold add_keys in *. rewrite E1, E4 in *.
  assert (A : load = true -> exists s, one_stiffness m rows cols mp influence solver true st = Ok s /\ r1 = fold_left (fun r kv => dset (fst kv ++ dirn ++ "_" ++ show b) (snd kv) r) s []).
  { intros ->. apply bind_ok in H1 as (s & Hs & H1). injection H1 as <-. eauto. }
  assert (A' : load = false -> r1 = []) by (intros ->; injection H1 as <-; reflexivity). clear H1.
  assert (B : unload = true -> exists s, one_stiffness m rows cols mp influence solver false st = Ok s /\ out = fold_left (fun r kv => dset (fst kv ++ dirn ++ "_" ++ show b) (snd kv) r) s r1).
  { intros ->. apply bind_ok in H as (s & Hs & H). injection H as <-. eauto. }
  assert (B' : unload = false -> out = r1) by (intros ->; injection H as <-; reflexivity). clear H.
  assert (S : forall l s, one_stiffness m rows cols mp influence solver l st = Ok s ->
    map fst s = List.app (if smem "fp" (definition m) then ["s_contact_stiffness_" ++ (if l then "loading" else "unloading") ++ "_fp_"] else [])
                (if smem "ml" (definition m) then ["s_contact_stiffness_" ++ (if l then "loading" else "unloading") ++ "_ml_"] else [])).
  { intros l s Hs. apply one_stiffness_ok in Hs as (_ & all & contact & loads & disp & _ & _ & _ & _ & ->).
    destruct l, (smem "fp" (definition m)), (smem "ml" (definition m)); reflexivity. }
  unfold exactly, key. intros name.
  destruct load; [destruct (A eq_refl) as (s & Hs & ->); apply S in Hs|rewrite (A' eq_refl) in *];
  (destruct unload; [destruct (B eq_refl) as (s' & Hs' & ->); apply S in Hs'|rewrite (B' eq_refl) in *]); clear A A' B B' S;
  destruct D as [D|[D|D]]; rewrite D in *; cbn in *;
  repeat match goal with H : map fst ?s = _ |- _ =>
    destruct s as [|[? ?] [|[? ?] [|[? ?] ?]]]; cbn in H; try discriminate H; injection H; clear H; intros; subst end; cbn; tauto.
Qed.

(** The values. *)
Lemma mean_total l (f : nat -> R) : l <> [] -> mean (map f l) = total f l / INR (List.length l).
Proof. intros _. unfold mean. rewrite rsum_total, map_length. reflexivity. Qed.
Lemma length_pos {A} (l : list A) : l <> [] -> 0 < INR (List.length l).
Proof. intros H. destruct l; [contradiction|]. apply lt_0_INR. cbn. lia. Qed.
Lemma total_le {A} (f g : A -> R) l : (forall a, In a l -> f a <= g a) -> total f l <= total g l.
Proof. induction l; cbn; intros H; [lra|]. pose proof (H a (or_introl eq_refl)). assert (total f l <= total g l) by auto. lra. Qed.
Lemma total_one {A} (l : list A) : total (fun _ => 1) l = INR (List.length l).
Proof. induction l; [reflexivity|]. cbn [total List.length]. rewrite IHl, S_INR. ring. Qed.
Lemma fdiv_fin a b : b <> 0 -> fdiv (Fin a) (Fin b) = Fin (a / b).
Proof. intros H. unfold fdiv. destruct (Reqb b 0) eqn:E; [unfold Reqb in E; destruct (Req_EM_T b 0); [contradiction|discriminate]|reflexivity]. Qed.

(** ** Partial slip *)
Lemma position_none i dom : position i dom = None <-> ~ In i dom.
Proof.
  induction dom as [|j l IH]; cbn; [tauto|]. destruct (Nat.eqb_spec i j) as [->|E].
  - split; [discriminate|]. intros H. exfalso. auto.
  - destruct (position i l) as [k|]; cbn.
    + split; [discriminate|]. intros H. exfalso. assert (A : Some k = None) by (apply IH; auto). discriminate.
    + split; [|reflexivity]. intros _ [H|H]; [congruence|]. now apply (proj1 IH).
Qed.
Lemma position_some i dom k : position i dom = Some k -> (k < List.length dom)%nat /\ nth k dom 0%nat = i.
Proof.
  revert k. induction dom as [|j l IH]; cbn; intros k; [discriminate|]. destruct (Nat.eqb_spec i j) as [->|E].
  - intros H. injection H as <-. split; [lia|reflexivity].
  - destruct (position i l) as [k'|]; cbn; [|discriminate]. intros H. injection H as <-. destruct (IH k' eq_refl). split; [lia|assumption].
Qed.
Record slip_effect N op im m (st out : state flt) mx contact d (found : vec) full stick slip : Prop := {
  se_max : has st "maximum_tangential_force" (VGrid mx);
  se_contact : has st "contact_nodes" (VMask contact);
  se_disp : set_displacement m st = Ok d;
  se_run : exists fuel failed, bccg fuel (List.length (filter contact (seq 0 N))) (fun v => gather (filter contact (seq 0 N)) (op (scatter (filter contact (seq 0 N)) v)))
      (gather (filter contact (seq 0 N)) d) (q_tol m) (q_max_it m) (gather (filter contact (seq 0 N)) (fun i => fdiv (d i) im)) (Fin 0)
      (gather (filter contact (seq 0 N)) mx) 1 = Some (found, failed);
  se_full : full = scatter (filter contact (seq 0 N)) found;
  se_stick : stick = (fun i => contact i && fltb (full i) (fmul (Fin (99 / 100)) (mx i)));
  se_slip : slip = (fun i => if stick i || negb (contact i) then Fin 0 else fsub (d i) (op full i));
  se_has_stick : has out "stick_nodes" (VMask stick);
  se_has_slip : has out "slip_distance" (VGrid slip);
  se_has_loads : exists v v', has out "loads" v /\ set_component (component m) (Some full) v' = Ok v /\
      (dget "loads" st = Some v' \/ (dget "loads" st = None /\ v' = VTriple None None None));
  se_has_disp : exists v v', has out "total_displacement" v /\
      set_component (component m) (Some (match get_component (component m) v' with Some u => fun i => fadd (u i) (op full i) | None => op full end)) v' = Ok v /\
      (dget "total_displacement" st = Some v' \/ (dget "total_displacement" st = None /\ v' = VTriple None None None));
  se_rest : forall k, ~ In k ["stick_nodes"; "slip_distance"; "loads"; "total_displacement"] -> dget k out = dget k st }.
Lemma slip_inv fuel N op im m st out : partial_slip_solve fuel N op im m st = Some (Ok out) ->
  load_controlled m = false /\ exists mx contact d found full stick slip, slip_effect N op im m st out mx contact d found full stick slip.
Proof.
  unfold partial_slip_solve. destruct (find_grid "maximum_tangential_force" st) as [mx|] eqn:M; [|discriminate].
  destruct (find_mask "contact_nodes" st) as [contact|] eqn:C; [|discriminate]. destruct (load_controlled m); [discriminate|].
  destruct (set_displacement m st) as [d|] eqn:D; [|discriminate]. cbv zeta.
  destruct (bccg fuel _ _ _ _ _ _ _ _ _) as [[found failed]|] eqn:B; [|discriminate]. intros H. split; [reflexivity|].
  injection H as H. apply bind_ok in H as (loads & L & H). apply bind_ok in H as (disps & U & H). injection H as H.
  apply find_grid_ok in M. apply find_mask_ok in C.
  exists mx, contact, d, found, (scatter (filter contact (seq 0 N)) found). eexists. eexists.
  constructor; try eassumption; try reflexivity.
  - exists fuel, failed. exact B.
  - subst out. unfold has. rewrite !dget_dset. reflexivity.
  - subst out. unfold has. rewrite !dget_dset. reflexivity.
  - exists loads. eexists. split; [subst out; unfold has; rewrite !dget_dset; reflexivity|]. split; [exact L|].
    rewrite !dget_dset. cbn. destruct (dget "loads" st); auto.
  - exists disps. eexists. split; [subst out; unfold has; rewrite !dget_dset; reflexivity|]. split; [exact U|].
    rewrite !dget_dset. cbn. destruct (dget "total_displacement" st); auto.
  - intros k K. subst out. rewrite !dget_dset. cbn in K.
    repeat match goal with |- context[if (?a =? ?b)%string then _ else _] => destruct (String.eqb_spec a b); [exfalso; subst; tauto|] end. reflexivity.
Qed.
