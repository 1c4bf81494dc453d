(** Theorems about partial slip, the requirements of the sub models and the contact stiffness (C55, C91, C92). *)
From Coq Require Import String List Bool Arith ZArith Reals Lra Lia.
From Verif Require Import Py PyProofs SurfaceModel SurfaceSpec SurfaceProofs Flt SolverModel SolverSpec SolverProofs SolverTheorems SubsModel SubsSpec SubsProofs.
Import ListNotations.
Local Open Scope string_scope.
Local Open Scope R_scope.

(** ** C55: partial slip *)
(** The component of a load or displacement in the direction of the sub model. *)
Definition along (m : partial_slip) (out : state flt) (key : string) (g : vec) : Prop :=
  exists v, has out key v /\ get_component (component m) v = Some g.
Lemma component_set : forall c g v v', set_component c (Some g) v = Ok v' -> get_component c v' = Some g.
Proof.
  intros c g v v' H. destruct v; try discriminate. cbn in H.
  destruct (c =? "x")%string eqn:X; [injection H as <-; cbn; now rewrite X|].
  destruct (c =? "y")%string eqn:Y; [injection H as <-; cbn; now rewrite X, Y|].
  destruct (c =? "z")%string eqn:Z; [injection H as <-; cbn; now rewrite X, Y, Z|discriminate].
Qed.
Lemma out_of_contact : forall contact N v i, contact i = false -> scatter (filter contact (seq 0 N)) v i = Fin 0.
Proof.
  intros contact N v i H. unfold scatter. destruct (position i (filter contact (seq 0 N))) as [k|] eqn:E; [|reflexivity].
  apply position_some in E as [E1 E2]. assert (I : In i (filter contact (seq 0 N))) by (rewrite <- E2; apply nth_In; exact E1).
  apply filter_In in I as [_ I]. congruence.
Qed.
Lemma in_contact : forall contact N v i, contact i = true -> (i < N)%nat -> exists k, (k < List.length (filter contact (seq 0 N)))%nat /\
  nth k (filter contact (seq 0 N)) 0%nat = i /\ scatter (filter contact (seq 0 N)) v i = v k.
Proof.
  intros contact N v i H Hi. unfold scatter. destruct (position i (filter contact (seq 0 N))) as [k|] eqn:E.
  - apply position_some in E as [E1 E2]. eauto.
  - apply position_none in E. exfalso. apply E. apply filter_In. rewrite in_seq. split; [lia|exact H].
Qed.

(** Every solution, for every operator and state: a point out of contact has no load and no slip; a
    contact node either sticks, with no slip, or does not carry less than 99 percent of its limit. *)
Theorem c55_partition : forall fuel N op im m st out mx contact,
  has st "maximum_tangential_force" (VGrid mx) -> has st "contact_nodes" (VMask contact) ->
  partial_slip_solve fuel N op im m st = Some (Ok out) ->
  exists load stick slip, along m out "loads" load /\ has out "stick_nodes" (VMask stick) /\ has out "slip_distance" (VGrid slip) /\
    forall i, (i < N)%nat ->
      (contact i = false -> load i = Fin 0 /\ slip i = Fin 0 /\ stick i = false) /\
      (contact i = true -> stick i = true -> slip i = Fin 0 /\ fltb (load i) (fmul (Fin (99 / 100)) (mx i)) = true) /\
      (contact i = true -> stick i = false ->
         forall l p, load i = Fin l -> mx i = Fin p -> 99 / 100 * p <= l).
Proof.
  intros fuel N op im m st out mx contact M C H. destruct (slip_inv _ _ _ _ _ _ _ H) as (_ & mx' & contact' & d & found & full & stick & slip & E).
  destruct E as [M' C' _ _ Ef Es El S1 S2 (v & v' & L1 & L2 & _) _ _].
  pose proof (has_fun _ _ _ _ M M') as X. injection X as <-. pose proof (has_fun _ _ _ _ C C') as X. injection X as <-.
  exists full, stick, slip. split; [exists v; split; [exact L1|eapply component_set; exact L2]|]. split; [exact S1|]. split; [exact S2|].
  intros i Hi. subst stick slip. cbn beta. split; [|split].
  - intros K. rewrite K. cbn. rewrite Ef, out_of_contact by exact K. auto.
  - intros K S. rewrite K in *. cbn in *. rewrite S. auto.
  - intros K S l p E1 E2. rewrite K in S. cbn [andb] in S. rewrite E1, E2 in S. cbn in S. apply Rltb_false_ in S. exact S.
Qed.
Print Assumptions c55_partition.
(** The load is between 0 and the limit up to 1e-14, or not a number. *)
Theorem c55_bounds : forall fuel N op im m st out mx contact,
  has st "maximum_tangential_force" (VGrid mx) -> has st "contact_nodes" (VMask contact) ->
  partial_slip_solve fuel N op im m st = Some (Ok out) ->
  exists load, along m out "loads" load /\ forall i, (i < N)%nat -> non_negative (mx i) -> in_bounds (load i) (mx i).
Proof.
  intros fuel N op im m st out mx contact M C H. destruct (slip_inv _ _ _ _ _ _ _ H) as (_ & mx' & contact' & d & found & full & stick & slip & E).
  destruct E as [M' C' _ (f & failed & B) Ef _ _ _ _ (v & v' & L1 & L2 & _) _ _].
  pose proof (has_fun _ _ _ _ M M') as X. injection X as <-. pose proof (has_fun _ _ _ _ C C') as X. injection X as <-.
  exists full. split; [exists v; split; [exact L1|eapply component_set; exact L2]|]. intros i Hi Nn. subst full.
  assert (Sp : 0 < / 10 ^ 14) by (apply Rinv_0_lt_compat, pow_lt; lra).
  destruct (contact i) eqn:K.
  - destruct (in_contact contact N found i K Hi) as (k & Hk & Ek & ->).
    pose proof (c37_bounds _ _ _ _ _ _ _ _ _ _ _ _ (Z.le_refl 1) B k) as Q. unfold gather in Q. rewrite Ek in Q. exact (Q Nn).
  - rewrite out_of_contact by exact K. right. unfold small. set (eps := / 10 ^ 14) in *. clearbody eps. split.
    + cbn. apply Rleb_true_. lra.
    + destruct (mx i) as [p| | |]; cbn in Nn; try contradiction; cbn.
      * apply Rleb_true_. apply Rmult_le_pos; [exact Nn|]. lra.
      * unfold signed_inf. destruct (Rltb 0 (1 + eps)) eqn:Q; [reflexivity|]. apply Rltb_false_ in Q. lra.
Qed.
Print Assumptions c55_bounds.
(** All other entries of the state are kept, the displacement of the loads is added to the
    displacement in this direction, and the slip of a sliding node is the difference from the set displacement. *)
Theorem c55_state : forall fuel N op im m st out contact,
  has st "contact_nodes" (VMask contact) -> partial_slip_solve fuel N op im m st = Some (Ok out) ->
  (forall k, ~ In k ["stick_nodes"; "slip_distance"; "loads"; "total_displacement"] -> dget k out = dget k st) /\
  exists d load stick slip total, set_displacement m st = Ok d /\ along m out "loads" load /\ has out "stick_nodes" (VMask stick) /\
    has out "slip_distance" (VGrid slip) /\ along m out "total_displacement" total /\
    (forall before, along m st "total_displacement" before -> forall i, total i = fadd (before i) (op load i)) /\
    (dget "total_displacement" st = None -> forall i, total i = op load i) /\
    (forall i, contact i = true -> stick i = false -> slip i = fsub (d i) (op load i)).
Proof.
  intros fuel N op im m st out contact C H. destruct (slip_inv _ _ _ _ _ _ _ H) as (_ & mx & contact' & d & found & full & stick & slip & E).
  destruct E as [M C' D _ _ Es El S1 S2 (v & v' & L1 & L2 & _) (u & u' & U1 & U2 & U3) Re].
  pose proof (has_fun _ _ _ _ C C') as X. injection X as <-. split; [exact Re|].
  exists d, full, stick, slip. eexists. split; [exact D|]. split; [exists v; split; [exact L1|eapply component_set; exact L2]|].
  split; [exact S1|]. split; [exact S2|]. split; [exists u; split; [exact U1|eapply component_set; exact U2]|].
  split; [|split].
  - intros before (w & W1 & W2) i. unfold has in W1. destruct U3 as [U3|[U3 _]]; [|congruence]. rewrite U3 in W1. injection W1 as ->. rewrite W2. reflexivity.
  - intros N0 i. destruct U3 as [U3|[_ ->]]; [congruence|]. cbn.
    destruct (component m =? "x")%string; [reflexivity|]. destruct (component m =? "y")%string; [reflexivity|]. destruct (component m =? "z")%string; reflexivity.
  - intros i K S. subst slip. rewrite S, K. reflexivity.
Qed.
Print Assumptions c55_state.
(** A displacement controlled sub model always comes to an end, with one result. *)
Theorem c55_stops : forall N op im m st, exists res, exists bound, forall fuel, (bound <= fuel)%nat -> partial_slip_solve fuel N op im m st = Some res.
Proof.
  intros N op im m st. unfold partial_slip_solve. destruct (find_grid "maximum_tangential_force" st) as [mx|]; [|eexists; exists 0%nat; reflexivity].
  destruct (find_mask "contact_nodes" st) as [contact|]; [|eexists; exists 0%nat; reflexivity].
  destruct (load_controlled m); [eexists; exists 0%nat; reflexivity|]. destruct (set_displacement m st) as [d|]; [|eexists; exists 0%nat; reflexivity].
  cbv zeta. set (dom := filter contact (seq 0 N)).
  destruct (c37_stops (List.length dom) (fun v => gather dom (op (scatter dom v))) (gather dom d) (q_tol m) (q_max_it m)
    (gather dom (fun i => fdiv (d i) im)) (Fin 0) (gather dom mx) 1) as ([found failed] & S).
  eexists. eexists. intros fuel F. rewrite (S fuel F). reflexivity.
Qed.
Print Assumptions c55_stops.

(** Refuted: a load can be given, but no state is ever solved then. *)
Theorem c55_load_refuted : forall fuel N op im dirn load tol maxit m st out, load <> NotGiven ->
  new_partial dirn load NotGiven tol maxit = Ok m -> partial_slip_solve fuel N op im m st <> Some (Ok out).
Proof.
  intros fuel N op im dirn load tol maxit m st out L H S. destruct (slip_inv _ _ _ _ _ _ _ S) as [Q _].
  destruct load; [contradiction| |]; cbn in H; injection H as <-; discriminate.
Qed.
Print Assumptions c55_load_refuted.
(** Refuted: a rigid body displacement that is not positive. The loads of all contact nodes are lost
    and no node sticks, for every operator without response to no load. *)
Theorem c55_backwards_refuted : forall fuel N op im m st out mx contact x,
  has st "maximum_tangential_force" (VGrid mx) -> has st "contact_nodes" (VMask contact) ->
  (forall i, non_negative (mx i)) -> (forall v, (forall i, v i = Fin 0) -> forall i, op v i = Fin 0) ->
  set_displacement m st = Ok (fun _ => Fin x) -> x <= 0 -> 0 < im ->
  partial_slip_solve fuel N op (Fin im) m st = Some (Ok out) ->
  exists load stick, along m out "loads" load /\ has out "stick_nodes" (VMask stick) /\
    forall i, (i < N)%nat -> stick i = false /\ (contact i = true -> load i = NaN).
Proof.
  intros fuel N op im m st out mx contact x M C Nn Op D X I H. destruct (slip_inv _ _ _ _ _ _ _ H) as (_ & mx' & contact' & d & found & full & stick & slip & E).
  destruct E as [M' C' D' (f & failed & B) Ef Es El S1 S2 (v & v' & L1 & L2 & _) _ _].
  pose proof (has_fun _ _ _ _ M M') as Y. injection Y as <-. pose proof (has_fun _ _ _ _ C C') as Y. injection Y as <-.
  rewrite D in D'. injection D' as <-.
  exists full, stick. split; [exists v; split; [exact L1|eapply component_set; exact L2]|]. split; [exact S1|].
  set (dom := filter contact (seq 0 N)) in *.
  assert (A : (1 <= List.length dom)%nat -> forall k, (k < List.length dom)%nat -> found k = NaN).
  { intros Ld. unfold bccg in B. eapply alpha_nan_loop in B; [apply B|exact Ld|]. clear B.
    intros r p q alpha upd x1 x2 outer prj_0 prj_max g m0 mm changed free Q.
    destruct Q as [Pr Pp Pq Pa _ _ _ _ _ _ _ _ _ _ _].
    set (s := bccg_init _ _ _ _ _ _) in *.
    assert (Z : forall k, bx s k = Fin 0).
    { intros k. unfold s, bccg_init, bx. cbv zeta. unfold gather. rewrite fdiv_fin by lra.
      assert (L : x / im <= 0) by (unfold Rdiv; assert (0 < / im) by (apply Rinv_0_lt_compat; exact I); nra).
      cbn [fmax fltb]. specialize (Nn (nth k dom 0%nat)).
      replace (if Rltb (x / im) 0 then Fin 0 else Fin (x / im)) with (Fin 0).
      - destruct (mx (nth k dom 0%nat)) as [y| | |]; cbn in Nn |- *; try contradiction; [|reflexivity].
        destruct (Rltb y 0) eqn:Q; [apply Rltb_true_ in Q; lra|reflexivity].
      - destruct (Rltb (x / im) 0) eqn:Q; [reflexivity|]. apply Rltb_false_ in Q. f_equal. lra. }
    assert (G : forall k, bg s k = Fin (- x)).
    { intros k. change (bg s k) with (fsub (gather dom (op (scatter dom (bx s))) k) (gather dom (fun _ => Fin x) k)). unfold gather. rewrite Op.
      - cbn. f_equal. ring.
      - intros i. unfold scatter. destruct (position i dom); [apply Z|reflexivity]. }
    assert (Bd : forall k, msk_0 s k = true).
    { intros k. change (msk_0 s k) with (fleb (bx s k) (Fin 0) && fleb (Fin 0) (bg s k)). rewrite Z, G. cbn.
      apply andb_true_iff. split; apply Rleb_true_; lra. }
    assert (R : forall k, r k = Fin 0) by (intros k; rewrite Pr, Bd; reflexivity).
    assert (P : forall k, p k = Fin 0) by (intros k; rewrite Pp, Bd; reflexivity).
    rewrite Pa. destruct (zero_over (dot (List.length dom) p q) (dot_zeros _ p q (fun i _ => P i))) as [Z1 Z2].
    destruct (dot_zeros (List.length dom) r p (fun i _ => R i)) as [->| ->]; assumption. }
  intros i Hi. subst stick. cbn beta. destruct (contact i) eqn:K; [|split; [reflexivity|discriminate]].
  destruct (in_contact contact N found i K Hi) as (k & Hk & Ek & F). fold dom in Hk, Ek, F. rewrite <- Ef in F. rewrite F, A by lia. cbn. auto.
Qed.
Print Assumptions c55_backwards_refuted.
(** Refuted: after the end of a table the final value is not repeated, the last line is continued. *)
Theorem c55_extrapolation_refuted : forall dirn tol maxit ts vs t0 t1 v0 v1 m st t,
  new_partial dirn NotGiven (Table (ts ++ [t0; t1]) (vs ++ [v0; v1])) tol maxit = Ok m -> List.length ts = List.length vs ->
  (forall t', In t' (ts ++ [t0; t1]) -> t' <= t1) -> t0 < t1 -> t1 < t -> v0 <> v1 -> has st "time" (VNum (Fin t)) ->
  exists d, set_displacement m st = Ok d /\ forall i, d i = Fin (v1 + (v1 - v0) / (t1 - t0) * (t - t1)) /\ d i <> Fin v1.
Proof.
  intros dirn tol maxit ts vs t0 t1 v0 v1 m st t H Len Mx T01 T V Ht. cbn in H. injection H as <-.
  exists (fun _ => Fin (extrapolated (ts ++ [t0; t1]) (vs ++ [v0; v1]) t)). split.
  { unfold set_displacement. cbn [given]. rewrite (proj2 (find_num_ok _ _ _) Ht). reflexivity. }
  assert (E : extrapolated (ts ++ [t0; t1]) (vs ++ [v0; v1]) t = v1 + (v1 - v0) / (t1 - t0) * (t - t1)).
  { revert vs Len Mx. induction ts as [|a ts IH]; intros [|b vs] Len Mx; try discriminate.
    - cbn. field. lra.
    - injection Len as Len. specialize (IH vs Len (fun t' I => Mx t' (or_intror I))).
      cbn [app]. destruct ts as [|a' ts'], vs as [|b' vs']; try discriminate.
      + cbn [app]. change (extrapolated (a :: t0 :: [t1]) (b :: v0 :: [v1]) t) with
          (if Rleb t t0 then b + (v0 - b) / (t0 - a) * (t - a) else extrapolated [t0; t1] [v0; v1] t).
        destruct (Rleb t t0) eqn:Q; [apply Rleb_true_ in Q; lra|exact IH].
      + cbn [app] in *. assert (A : a' <= t1) by (apply Mx; cbn; auto).
        cbn [extrapolated]. cbn [extrapolated] in IH. destruct (ts' ++ [t0; t1])%list eqn:Q; [destruct ts'; discriminate|].
        destruct (Rleb t a') eqn:Q'; [apply Rleb_true_ in Q'; lra|]. exact IH. }
  intros i. rewrite E. split; [reflexivity|].
  intros K. injection K as K. assert (S : (v1 - v0) / (t1 - t0) * (t - t1) <> 0); [|lra].
  apply Rmult_integral_contrapositive_currified; [|lra]. unfold Rdiv. apply Rmult_integral_contrapositive_currified; [lra|]. apply Rinv_neq_0_compat. lra.
Qed.
Print Assumptions c55_extrapolation_refuted.

(** ** C91: the declared requirements are what a sub model needs *)
Section Typed.
Context {F : Type}.
Variable st : state F.
Hypothesis T : kept_types st.
Lemma typed_z k : k = "loads" \/ k = "total_displacement" -> (exists v, has st k v) -> exists z, find_z k st = Ok z.
Proof.
  intros K (v & H). pose proof (T _ _ H) as W. destruct v as [| | | |x y [z|]| |]; cbn in W; try (destruct K as [->| ->]; intuition discriminate).
  exists z. apply find_z_ok. eauto.
Qed.
Lemma typed_grid k : k = "maximum_tangential_force" \/ k = "just_touching_gap" \/ k = "gap" -> (exists v, has st k v) -> exists g, find_grid k st = Ok g.
Proof.
  intros K (v & H). pose proof (T _ _ H) as W. destruct v as [| |g | | | |]; cbn in W; try (destruct K as [->|[->| ->]]; intuition discriminate).
  exists g. apply find_grid_ok. exact H.
Qed.
Lemma typed_mask k : k = "contact_nodes" -> (exists v, has st k v) -> exists g, find_mask k st = Ok g.
Proof.
  intros -> (v & H). pose proof (T _ _ H) as W. destruct v as [| | |g | | |]; cbn in W; try (intuition discriminate).
  exists g. apply find_mask_ok. exact H.
Qed.
Lemma typed_num k : k = "interference" \/ k = "time" \/ k = "rigid_body_displacement" -> (exists v, has st k v) -> exists g, has st k (VNum g).
Proof.
  intros K (v & H). pose proof (T _ _ H) as W. destruct v as [g| | | | | |]; cbn in W; try (destruct K as [->|[->| ->]]; intuition discriminate).
  exists g. exact H.
Qed.
Lemma typed_points k : k = "surface_1_points" \/ k = "surface_2_points" -> (exists v, has st k v) -> exists y x, find_points k st = Ok (y, x).
Proof.
  intros K (v & H). pose proof (T _ _ H) as W. destruct v as [| | | | |y x|]; cbn in W; try (destruct K as [->| ->]; intuition discriminate).
  exists y, x. apply find_points_ok. exact H.
Qed.
Lemma typed_triple k : k = "loads" \/ k = "total_displacement" -> forall v, has st k v -> exists x y z, v = VTriple x y z.
Proof.
  intros K v H. pose proof (T _ _ H) as W. destruct v as [| | | |x y z| |]; cbn in W; try (destruct K as [->| ->]; intuition discriminate). eauto.
Qed.
End Typed.
(** Friction. *)
Theorem c91_friction : forall c st, kept_types st -> supplies st (f_requires (new_friction c)) -> exists out, friction_solve (new_friction c) st = Ok out.
Proof.
  intros c st T S. destruct (typed_z st T "loads") as (z & E); [auto|apply S; cbn; auto|]. unfold friction_solve. rewrite E. cbn. eauto.
Qed.
Print Assumptions c91_friction.
(** Contact stiffness. *)
Theorem c91_stiffness : forall show load unload dirn defn b m rows cols mp solver st,
  new_stiffness show load unload dirn defn b = Ok m -> kept_types st -> supplies st (k_requires m) -> inner rows cols b <> [] ->
  exists out, stiffness_solve show m rows cols mp true solver st = Ok out.
Proof.
  intros show load unload dirn defn b m rows cols mp solver st N T S I. apply new_stiffness_ok in N as (_ & _ & _ & _ & B & Rq & _).
  rewrite Rq in S. destruct (typed_z st T "loads") as (z & E); [auto|apply S; cbn; auto|]. destruct (typed_mask st T "contact_nodes") as (c & C); [auto|apply S; cbn; auto|].
  assert (O : forall l, exists o, one_stiffness m rows cols mp true solver l st = Ok o).
  { intros l. unfold one_stiffness. rewrite C. cbn [bind]. rewrite E. cbn [bind]. rewrite B. destruct (inner rows cols b) as [|i0 pts]; [contradiction|].
    destruct l; cbn [bind]; destruct (solver _ _ _); eauto. }
  unfold stiffness_solve. destruct (O true) as (o1 & ->), (O false) as (o2 & ->). destruct (loading m), (unloading m); cbn; eauto.
Qed.
Print Assumptions c91_stiffness.
(** Partial slip with a displacement, for the three directions. *)
Theorem c91_partial_slip : forall dirn disp tol maxit m N op im st, new_partial dirn NotGiven disp tol maxit = Ok m ->
  dirn = "x" \/ dirn = "y" \/ dirn = "z" -> kept_types st -> supplies st (q_requires m) ->
  exists out bound, forall fuel, (bound <= fuel)%nat -> partial_slip_solve fuel N op im m st = Some (Ok out).
Proof.
  intros dirn disp tol maxit m N op im st Nm Dn T S.
  assert (B : incl ["maximum_tangential_force"; "contact_nodes"; "time"] (q_requires m) /\ load_controlled m = false /\ component m = dirn /\
    (given m = NotGiven -> In "rigid_body_displacement" (q_requires m))).
  { destruct disp; cbn in Nm; injection Nm as <-; cbn; repeat split; try (intros K; discriminate); intros a; cbn; tauto. }
  destruct B as (B & L & Cp & Rg).
  destruct (typed_grid st T "maximum_tangential_force") as (mx & Mx); [auto|apply S, B; cbn; auto|].
  destruct (typed_mask st T "contact_nodes") as (c & C); [auto|apply S, B; cbn; auto|].
  assert (D : exists d, set_displacement m st = Ok d).
  { unfold set_displacement. destruct (given m) eqn:G; [| eauto |].
    - destruct (typed_num st T "rigid_body_displacement") as (g & Hg); [auto|apply S, Rg; reflexivity|]. unfold find. unfold has in Hg. rewrite Hg. cbn. eauto.
    - destruct (typed_num st T "time") as (g & Hg); [auto|apply S, B; cbn; auto|]. rewrite (proj2 (find_num_ok _ _ _) Hg). cbn. destruct g; eauto. }
  destruct D as (d & D).
  assert (Sc : forall g v x y z, v = VTriple x y z -> exists v', set_component (component m) g v = Ok v' /\ exists x y z, v' = VTriple x y z).
  { intros g v x y z ->. rewrite Cp. destruct Dn as [->|[->| ->]]; cbn; eauto 8. }
  destruct (c55_stops N op im m st) as (res & bound & E).
  enough (O : exists out, res = Ok out) by (destruct O as (out & ->); exists out, bound; exact E).
  specialize (E bound (le_n _)). unfold partial_slip_solve in E. rewrite Mx, C, L, D in E. cbv zeta in E.
  destruct (bccg _ _ _ _ _ _ _ _ _ _) as [[found failed]|]; [|discriminate]. injection E as <-.
  rewrite !dget_dset. cbn [String.eqb Ascii.eqb Bool.eqb].
  assert (V1 : exists x y z, (match dget "loads" st with Some v => v | None => VTriple None None None end) = VTriple x y z).
  { destruct (dget "loads" st) as [v|] eqn:Q; [|eauto]. apply (typed_triple st T "loads"); auto. }
  destruct V1 as (x & y & z & V1).
  match goal with |- context [set_component (component m) ?g ?v] => destruct (Sc g v _ _ _ V1) as (v1 & -> & _) end. cbn [bind].
  rewrite !dget_dset. cbn [String.eqb Ascii.eqb Bool.eqb].
  assert (V2 : exists x y z, (match dget "total_displacement" st with Some v => v | None => VTriple None None None end) = VTriple x y z).
  { destruct (dget "total_displacement" st) as [v|] eqn:Q; [|eauto]. apply (typed_triple st T "total_displacement"); auto. }
  destruct V2 as (x' & y' & z' & V2). 
  match goal with |- context [set_component (component m) ?g ?v] => destruct (Sc g v _ _ _ V2) as (v2 & -> & _) end. cbn. eauto.
Qed.
Print Assumptions c91_partial_slip.
(** Wear: enough together with the gap, the loads and the contact nodes. *)
Theorem c91_wear_partial : forall N max1 max2 gs1 gs2 name p1 p2 nt e s1 s2 st e' s1' s2' r, new_epp name p1 p2 nt = Ok e ->
  kept_types st -> supplies st (e_requires e) -> supplies st ["gap"; "loads"; "contact_nodes"] ->
  epp_solve N max1 max2 gs1 gs2 e s1 s2 st = (e', s1', s2', r) -> r <> Err KeyError.
Proof.
  intros N max1 max2 gs1 gs2 name p1 p2 nt e s1 s2 st e' s1' s2' r Ne T S S' H.
  destruct (new_epp_ok _ _ _ _ _ Ne) as (q & _ & P1 & P2 & _ & _ & _ & _ & _ & _ & Rq).
  destruct (typed_z st T "loads") as (z & Z); [auto|apply S'; cbn; auto|]. destruct (typed_mask st T "contact_nodes") as (c & C); [auto|apply S'; cbn; auto|].
  destruct (typed_grid st T "gap") as (g & G); [auto|apply S'; cbn; auto|].
  destruct (typed_grid st T "just_touching_gap") as (jt & J); [auto|apply S; rewrite Rq; cbn; auto|].
  destruct (typed_num st T "interference") as (h & I); [auto|apply S; rewrite Rq; cbn; auto|]. apply find_num_ok in I.
  destruct (typed_z st T "total_displacement") as (u & U); [auto|apply S; rewrite Rq; cbn; auto|].
  assert (Sf : forall name nodes gap p gs points key s res, (0 < p -> exists y x, find_points points st = Ok (y, x)) ->
    snd (epp_surface st name nodes gap p gs points key s res) <> Err KeyError).
  { intros nm nodes gap p gs points key s res Hp. unfold epp_surface. destruct (Rltb 0 p) eqn:Q; [|discriminate]. apply Rltb_true_ in Q.
    destruct (Hp Q) as (y & x & ->). unfold wear. destruct (forallb _ _) eqn:F.
    - fold (vols_of s nm). destruct (vols_has s nm) as (v & ->). discriminate.
    - discriminate. }
  assert (S1 : 0 < p_surf_1 e -> exists y x, find_points "surface_1_points" st = Ok (y, x)).
  { intros Q. apply typed_points; auto. apply S. rewrite Rq. rewrite P1 in Q. apply Rltb_true_ in Q. rewrite Q. cbn. auto. }
  assert (S2 : 0 < p_surf_2 e -> exists y x, find_points "surface_2_points" st = Ok (y, x)).
  { intros Q. apply typed_points; auto. apply S. rewrite Rq. rewrite P2 in Q. apply Rltb_true_ in Q. rewrite Q. rewrite !in_app_iff. cbn. auto. }
  unfold epp_solve in H. rewrite J, I, U, G, Z, C in H. cbn [bind] in H.
  destruct (flag_is false "converged" st); [injection H as _ _ _ <-; discriminate|].
  destruct (no_time e); cbv zeta in H;
  match type of H with context [epp_surface st (e_name e) ?n ?g (p_surf_1 e) gs1 ?p ?k s1 ?r] =>
    pose proof (Sf (e_name e) n g (p_surf_1 e) gs1 p k s1 r S1) as F1; destruct (epp_surface st (e_name e) n g (p_surf_1 e) gs1 p k s1 r) as [t1 [r1|x1]] end;
  try (injection H as _ _ _ <-; exact F1);
  match type of H with context [epp_surface st (e_name e) ?n ?g (p_surf_2 e) gs2 ?p ?k s2 ?r] =>
    pose proof (Sf (e_name e) n g (p_surf_2 e) gs2 p k s2 r S2) as F2; destruct (epp_surface st (e_name e) n g (p_surf_2 e) gs2 p k s2 r) as [t2 r2] end;
  injection H as _ _ _ <-; exact F2.
Qed.
Print Assumptions c91_wear_partial.
(** Refuted for wear: the gap is needed with time, the loads without, and neither is declared. *)
Theorem c91_wear_refuted : forall N max1 max2 gs1 gs2 name p1 p2 nt e s1 s2 st,
  new_epp name p1 p2 nt = Ok e -> ~ unconverged st -> kept_types st -> supplies st (e_requires e) ->
  dget (if nt then "loads" else "gap") st = None -> snd (epp_solve N max1 max2 gs1 gs2 e s1 s2 st) = Err KeyError.
Proof.
  intros N max1 max2 gs1 gs2 name p1 p2 nt e s1 s2 st Ne C T S K.
  destruct (new_epp_ok _ _ _ _ _ Ne) as (q & _ & _ & _ & _ & _ & _ & Nt & _ & _ & Rq).
  unfold epp_solve. rewrite (proj2 (flag_not _ _ _) C), Nt. destruct nt.
  - destruct (typed_grid st T "just_touching_gap") as (jt & J); [auto|apply S; rewrite Rq; cbn; auto|].
    destruct (typed_num st T "interference") as (h & I); [auto|apply S; rewrite Rq; cbn; auto|]. apply find_num_ok in I.
    destruct (typed_z st T "total_displacement") as (u & U); [auto|apply S; rewrite Rq; cbn; auto|].
    rewrite J, I, U. cbn [bind]. unfold find_z at 1, find at 1. rewrite K. reflexivity.
  - unfold find_grid, find. rewrite K. reflexivity.
Qed.
Print Assumptions c91_wear_refuted.
(** Refuted for sliding: the loads are needed. *)
Theorem c91_sliding_refuted : forall d m st, new_sliding d = Ok m -> kept_types st -> supplies st (s_requires m) -> dget "loads" st = None ->
  sliding_solve m st = Err KeyError.
Proof.
  intros d m st N T S K. assert (R : s_requires m = ["maximum_tangential_force"]).
  { unfold new_sliding in N. apply bind_ok in N as (l & _ & N). destruct l as [|y [|x [|]]]; try discriminate. injection N as <-. reflexivity. }
  destruct (typed_grid st T "maximum_tangential_force") as (g & G); [auto|apply S; rewrite R; cbn; auto|].
  unfold sliding_solve. rewrite G. cbn [bind]. unfold find. rewrite K. reflexivity.
Qed.
Print Assumptions c91_sliding_refuted.

(** Examples: states that satisfy the hypotheses. *)
Definition ex_slip : state flt := [("maximum_tangential_force", VGrid (fun _ => Fin 10)); ("contact_nodes", VMask (fun i => Nat.eqb i 0)); ("time", VNum (Fin 1));
  ("loads", VTriple None None (Some (fun _ => Fin 20)))].
Ltac types H := unfold has in H; cbn [dget] in H;
  repeat match type of H with (if String.eqb ?a ?b then _ else _) = _ => destruct (String.eqb_spec a b); [subst; injection H as <-; cbn; repeat split; auto; try discriminate|] end;
  try discriminate H.
Lemma ex_slip_types : kept_types ex_slip.
Proof. intros k v H. unfold ex_slip in H. types H. Qed.
Example c55_case : exists m out bound, new_partial "x" NotGiven (Number 1) (Fin (1 / 1000)) None = Ok m /\ kept_types ex_slip /\ supplies ex_slip (q_requires m) /\
  partial_slip_solve bound 2 (fun v => v) (Fin 1) m ex_slip = Some (Ok out).
Proof.
  eexists. assert (S : supplies ex_slip ["maximum_tangential_force"; "contact_nodes"; "time"]).
  { intros k [<-|[<-|[<-|[]]]]; eexists; reflexivity. }
  destruct (c91_partial_slip "x" (Number 1) (Fin (1 / 1000)) None _ 2 (fun v => v) (Fin 1) ex_slip eq_refl (or_introl eq_refl) ex_slip_types S) as (out & bound & H).
  exists out, bound. split; [reflexivity|]. split; [exact ex_slip_types|]. split; [exact S|]. apply H. lia.
Qed.
(** Backwards by 1: the contact node loses its load. *)
Example c55_backwards_case : exists m out bound load, new_partial "x" NotGiven (Number (-1)) (Fin (1 / 1000)) None = Ok m /\
  partial_slip_solve bound 2 (fun v => v) (Fin 1) m ex_slip = Some (Ok out) /\ along m out "loads" load /\ load 0%nat = NaN.
Proof.
  eexists. assert (S : supplies ex_slip ["maximum_tangential_force"; "contact_nodes"; "time"]).
  { intros k [<-|[<-|[<-|[]]]]; eexists; reflexivity. }
  destruct (c91_partial_slip "x" (Number (-1)) (Fin (1 / 1000)) None _ 2 (fun v => v) (Fin 1) ex_slip eq_refl (or_introl eq_refl) ex_slip_types S) as (out & bound & H).
  specialize (H bound (le_n _)).
  destruct (c55_backwards_refuted bound 2 (fun v => v) 1 (PartialSlip false (Number (-1)) "x" (Fin (1 / 1000)) None ["maximum_tangential_force"; "contact_nodes"; "time"] ["slip_distance"; "stick_nodes"]) ex_slip out _ _ (-1) eq_refl eq_refl (fun _ => ltac:(cbn; lra)) (fun v Z => Z) eq_refl ltac:(lra) ltac:(lra) H) as (load & stick & L & _ & Q).
  exists out, bound, load. split; [reflexivity|]. split; [exact H|]. split; [exact L|]. apply (Q 0%nat); [lia|reflexivity].
Qed.
Example c55_table_case : exists m d, new_partial "x" NotGiven (Table ([0] ++ [1; 2]) ([5] ++ [6; 8])) (Fin 1) None = Ok m /\
  set_displacement m [("time", VNum (Fin 3))] = Ok d /\ d 0%nat = Fin 10.
Proof.
  eexists. destruct (c55_extrapolation_refuted "x" (Fin 1) None [0] [5] 1 2 6 8 _ [("time", VNum (Fin 3))] 3 eq_refl eq_refl) as (d & D & V); try lra.
  - cbn. intros t' [<-|[<-|[<-|[]]]]; lra.
  - reflexivity.
  - exists d. split; [reflexivity|]. split; [exact D|]. rewrite (proj1 (V 0%nat)). f_equal. lra.
Qed.
(** Wear and sliding without what they do not declare. *)
Example c91_case : exists e m, new_epp "wear" 0 (Some 0) false = Ok e /\ new_sliding (DirStr "X") = Ok m /\
  let st : state R := [("interference", VNum 0); ("total_displacement", VTriple None None (Some (fun _ => 0))); ("just_touching_gap", VGrid (fun _ => 0))] in
  let st' : state flt := [("maximum_tangential_force", VGrid (fun _ => Fin 1))] in
  (~ unconverged st /\ kept_types st /\ supplies st (e_requires e) /\ dget "gap" st = None) /\
  kept_types st' /\ supplies st' (s_requires m) /\ dget "loads" st' = None.
Proof.
  assert (E : exists e, new_epp "wear" 0 (Some 0) false = Ok e /\ e_requires e = ["interference"; "total_displacement"; "just_touching_gap"]).
  { unfold new_epp. replace (Rltb 1 0) with false by (symmetry; apply Rltb_false_; lra). replace (Rltb 0 0) with false by (symmetry; apply Rltb_false_; lra). eexists. split; reflexivity. }
  destruct E as (e & E & Rq). exists e. eexists. split; [exact E|]. split; [reflexivity|]. rewrite Rq. cbv zeta. split; [split; [|split; [|split]]|split; [|split]].
  - unfold unconverged, has. cbn. discriminate.
  - intros k v H. types H.
  - intros k [<-|[<-|[<-|[]]]]; eexists; reflexivity.
  - reflexivity.
  - intros k v H. types H.
  - intros k [<-|[]]; eexists; reflexivity.
  - reflexivity.
Qed.

(** ** C92: contact stiffness values *)
(** Far points: the total load of unit displacement over the number of points. Mean lines: over the
    number of points less the displacements, which count as 1 in contact and never more than 1; at
    least the far points value when the loads and displacements are not negative. *)
Theorem c92_values : forall m rows cols mp influence solver load st out fp ml,
  one_stiffness m rows cols mp influence solver load st = Ok out ->
  let l := if load then "loading" else "unloading" in
  dget ("s_contact_stiffness_" ++ l ++ "_fp_") out = Some fp -> dget ("s_contact_stiffness_" ++ l ++ "_ml_") out = Some ml ->
  exists all contact loads disp, has st "contact_nodes" (VMask all) /\
    (load = false -> contact = all) /\
    (load = true -> exists lx ly z, has st "loads" (VTriple lx ly (Some z)) /\ forall i, contact i = true <-> all i = true /\ z i < mp * (99999 / 100000)) /\
    solver load (inner rows cols (boarder m)) contact = (loads, disp) /\
    let size := INR (List.length (inner rows cols (boarder m))) in
    let k := total (fun x => x) loads in
    let lowered := total (fun i => if contact i then 1 else Rmin 1 (disp i)) (inner rows cols (boarder m)) in
    fp = Fin (k / size) /\ lowered <= size /\
    (lowered < size -> ml = Fin (k / (size - lowered))) /\
    (lowered = size -> 0 < k -> ml = PInf) /\
    (lowered < size -> (forall x, In x loads -> 0 <= x) -> (forall i, In i (inner rows cols (boarder m)) -> 0 <= disp i) ->
       0 <= k / size /\ k / size <= k / (size - lowered)).
Proof.
  intros m rows cols mp influence solver load st out fp ml H l Hf Hm.
  destruct (one_stiffness_ok _ _ _ _ _ _ _ _ _ H) as (_ & all & contact & loads & disp & A & Ne & C & S & E). cbv zeta in E.
  exists all, contact, loads, disp. split; [exact A|]. split; [intros ->; exact C|]. split.
  { intros ->. destruct C as (lx & ly & z & Z & ->). exists lx, ly, z. split; [exact Z|]. intros i. rewrite andb_true_iff, Rltb_true_. tauto. }
  split; [exact S|]. cbv zeta. set (points := inner rows cols (boarder m)) in *.
  pose proof (length_pos points Ne) as Sp. set (size := INR (List.length points)) in *.
  assert (K : rsum loads = total (fun x => x) loads) by (rewrite <- rsum_total, map_id; reflexivity).
  set (k := total (fun x => x) loads) in *. set (low := total (fun i => if contact i then 1 else Rmin 1 (disp i)) points).
  assert (Mn : mean (map (fun i => if contact i then 1 else if Rltb 1 (disp i) then 1 else disp i) points) = low / size).
  { rewrite mean_total by exact Ne. unfold low. f_equal. apply total_ext. intros i _. destruct (contact i); [reflexivity|].
    destruct (Rltb 1 (disp i)) eqn:Q; [apply Rltb_true_ in Q; rewrite Rmin_left; lra|apply Rltb_false_ in Q; rewrite Rmin_right; lra]. }
  assert (Lo : low <= size). { unfold size. rewrite <- total_one. apply total_le. intros i _. destruct (contact i); [lra|apply Rmin_l]. }
  assert (Fs : smem "fp" (definition m) = true /\ smem "ml" (definition m) = true /\ fp = fdiv (Fin k) (Fin size) /\ ml = fdiv (fdiv (Fin k) (fsub (Fin 1) (Fin (low / size)))) (Fin size)).
  { rewrite Mn, K in E. rewrite E in Hf, Hm. unfold l in Hf, Hm. clear -Hf Hm.
    destruct load, (smem "fp" (definition m)), (smem "ml" (definition m)); cbn -[fdiv fsub] in Hf, Hm; try discriminate; injection Hf as <-; injection Hm as <-; auto. }
  destruct Fs as (_ & _ & -> & ->). split; [apply fdiv_fin; lra|]. split; [exact Lo|].
  assert (D : low < size -> fsub (Fin 1) (Fin (low / size)) = Fin ((size - low) / size) /\ (size - low) / size <> 0).
  { intros Q. cbn. split; [f_equal; field; lra|]. assert (0 < (size - low) / size); [|lra]. apply Rmult_lt_0_compat; [lra|]. apply Rinv_0_lt_compat. lra. }
  split; [|split].
  - intros Q. destruct (D Q) as [-> Dn]. rewrite fdiv_fin by exact Dn. rewrite fdiv_fin by lra. f_equal. field. split; lra.
  - intros Q Kp. rewrite Q. replace (size / size) with 1 by (field; lra). replace (fsub (Fin 1) (Fin 1)) with (Fin 0) by (cbn; f_equal; ring).
    unfold fdiv, Reqb. destruct (Req_EM_T 0 0); [|lra]. unfold signed_inf. destruct (Rltb 0 k) eqn:Q'; [|apply Rltb_false_ in Q'; lra]. destruct (Rltb size 0) eqn:Q2; [apply Rltb_true_ in Q2; lra|reflexivity].
  - intros Q Ln Dp. assert (Kn : 0 <= k) by (apply total_nonneg; exact Ln).
    assert (Ln' : 0 <= low). { apply total_nonneg. intros i Hi. destruct (contact i); [lra|]. apply Rmin_glb; [lra|apply Dp; exact Hi]. }
    split; [apply Rmult_le_pos; [exact Kn|]; apply Rlt_le, Rinv_0_lt_compat; lra|].
    apply Rmult_le_compat_l; [exact Kn|]. apply Rinv_le_contravar; lra.
Qed.
Print Assumptions c92_values.
(** The points: exactly those at least the boarder away from all four sides. *)
Theorem c92_points : forall rows cols b, NoDup (inner rows cols b) /\ forall r c, (c < cols)%nat ->
  (In (r * cols + c)%nat (inner rows cols b) <-> (b <= r /\ r + b < rows /\ b <= c /\ c + b < cols)%nat).
Proof.
  intros rows cols b. split; [apply NoDup_filter, seq_NoDup|]. intros r c Hc. unfold inner. rewrite filter_In, in_seq.
  rewrite Nat.div_add_l by lia. rewrite Nat.div_small by exact Hc. rewrite Nat.add_0_r.
  replace ((r * cols + c) mod cols)%nat with c by (rewrite Nat.add_comm, Nat.mod_add by lia; now rewrite Nat.mod_small).
  rewrite !andb_true_iff, !Nat.leb_le, !Nat.ltb_lt. split.
  - intros (_ & ((H1 & H2) & H3) & H4). lia.
  - intros (H1 & H2 & H3 & H4). split; [|lia]. assert (r < rows)%nat by lia. split; [lia|]. nia.
Qed.
Print Assumptions c92_points.
Example c92_case : exists m out fp ml, new_stiffness (fun _ => "1") true false "z" "Both" 1 = Ok m /\
  one_stiffness m 3 3 5 true (fun _ _ _ => ([2], fun _ => 1 / 2)) true
    [("contact_nodes", VMask (fun _ => true)); ("loads", VTriple None None (Some (fun _ => 5)))] = Ok out /\
  dget ("s_contact_stiffness_" ++ "loading" ++ "_fp_") out = Some fp /\ dget ("s_contact_stiffness_" ++ "loading" ++ "_ml_") out = Some ml.
Proof. eexists. eexists. eexists. eexists. split; [reflexivity|]. split; [cbn; reflexivity|]. split; reflexivity. Qed.

(** A load and a displacement cannot be given together; what is given is used, and without both the displacement of
    the solution is required. *)
Theorem c55_arguments : forall dirn load disp tol maxit,
  (load <> NotGiven /\ disp <> NotGiven -> new_partial dirn load disp tol maxit = Err ValueError) /\
  (load = NotGiven \/ disp = NotGiven -> exists m, new_partial dirn load disp tol maxit = Ok m /\
     component m = dirn /\ q_tol m = tol /\ q_max_it m = maxit /\
     (load_controlled m = true <-> load <> NotGiven) /\ given m = (match load with NotGiven => disp | _ => load end) /\
     forall k, In k (q_requires m) <-> In k ["maximum_tangential_force"; "contact_nodes"; "time"]%string \/
                 (k = "rigid_body_displacement"%string /\ load = NotGiven /\ disp = NotGiven)).
Proof.
  intros dirn load disp tol maxit. split.
  - intros [A B]. destruct load, disp; try contradiction; reflexivity.
  - intros H.
    assert (AD : forall k, In k (sadd "rigid_body_displacement" ["maximum_tangential_force"; "contact_nodes"; "time"]%string) <->
               In k ["maximum_tangential_force"; "contact_nodes"; "time"]%string \/ k = "rigid_body_displacement"%string).
    { intros k. cbn. intuition. }
    destruct load, disp; try (exfalso; destruct H; discriminate); eexists; (split; [reflexivity|]);
      (split; [reflexivity|split; [reflexivity|split; [reflexivity|split; [cbn; split; intros; (congruence || reflexivity)|split; [reflexivity|]]]]]);
      intros key; cbn [q_requires]; rewrite ?AD; intuition congruence.
Qed.
Print Assumptions c55_arguments.

(** The displacement that is used: the number given, or that of the state. *)
Theorem c55_displacement : forall dirn tol maxit m st,
  (forall x, new_partial dirn NotGiven (Number x) tol maxit = Ok m -> set_displacement m st = Ok (fun _ => Fin x)) /\
  (forall x, new_partial dirn NotGiven NotGiven tol maxit = Ok m -> has st "rigid_body_displacement" (VNum x) -> set_displacement m st = Ok (fun _ => x)) /\
  (forall g, new_partial dirn NotGiven NotGiven tol maxit = Ok m -> has st "rigid_body_displacement" (VGrid g) -> set_displacement m st = Ok g) /\
  (new_partial dirn NotGiven NotGiven tol maxit = Ok m -> dget "rigid_body_displacement" st = None -> set_displacement m st = Err KeyError).
Proof.
  intros dirn tol maxit m st. repeat split; intros; match goal with H : _ = Ok m |- _ => injection H as <- end; try reflexivity;
    unfold set_displacement, find; cbn [given]; match goal with H : _ |- _ => unfold has in H; rewrite H end; reflexivity.
Qed.
Print Assumptions c55_displacement.
(** Loads and displacements in the other directions are kept. *)
Theorem c55_components : forall fuel N op im m st out axis, partial_slip_solve fuel N op im m st = Some (Ok out) ->
  axis <> component m -> forall key, key = "loads" \/ key = "total_displacement" ->
  exists v, has out key v /\ get_component axis v = match dget key st with Some u => get_component axis u | None => None end.
Proof.
  intros fuel N op im m st out axis H A key K.
  assert (SC : forall g v v', set_component (component m) g v = Ok v' -> get_component axis v' = get_component axis v).
  { intros g v v' E. destruct v; try discriminate. cbn in E.
    destruct (String.eqb_spec (component m) "x") as [X|X]; [|destruct (String.eqb_spec (component m) "y") as [Y|Y]; [|destruct (String.eqb_spec (component m) "z") as [Z|Z]; [|discriminate]]];
      injection E as <-; cbn; destruct (String.eqb_spec axis "x"), (String.eqb_spec axis "y"), (String.eqb_spec axis "z"); try reflexivity; congruence. }
  destruct (slip_inv _ _ _ _ _ _ _ H) as (_ & mx & contact' & d & found & full & stick & slip & E).
  destruct E as [M C' D _ _ Es El S1 S2 (v & v' & L1 & L2 & L3) (u & u' & U1 & U2 & U3) Re].
  assert (NO : get_component axis (VTriple None None None : val flt) = None).
  { cbn. destruct (axis =? "x")%string; [reflexivity|]. destruct (axis =? "y")%string; [reflexivity|]. destruct (axis =? "z")%string; reflexivity. }
  destruct K as [-> | ->].
  - exists v. split; [exact L1|]. rewrite (SC _ _ _ L2). destruct L3 as [L3|[L3 ->]]; rewrite L3; [reflexivity|exact NO].
  - exists u. split; [exact U1|]. rewrite (SC _ _ _ U2). destruct U3 as [U3|[U3 ->]]; rewrite U3; [reflexivity|exact NO].
Qed.
Print Assumptions c55_components.
