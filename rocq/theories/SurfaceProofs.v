(** Proofs about surfaces. *)
From Coq Require Import String List Bool Arith ZArith Lia Reals Lra.
From Verif Require Import Py SurfaceModel SurfaceSpec PyProofs.
Import ListNotations.
Local Open Scope R_scope.

Lemma Rltb_true x y : Rltb x y = true <-> x < y.
Proof. unfold Rltb. destruct (Rlt_dec x y); split; congruence || tauto. Qed.
Lemma Rltb_false x y : Rltb x y = false <-> y <= x.
Proof. unfold Rltb. destruct (Rlt_dec x y); split; try congruence; lra. Qed.
Lemma Reqb_true x y : Reqb x y = true <-> x = y.
Proof. unfold Reqb. destruct (Req_EM_T x y); split; congruence || tauto. Qed.
Lemma Reqb_false x y : Reqb x y = false <-> x <> y.
Proof. unfold Reqb. destruct (Req_EM_T x y); split; congruence || tauto. Qed.

(** Truncation of a non negative number. *)
Lemma trunc_unique x (z : Z) : 0 <= x -> IZR z <= x < IZR z + 1 -> trunc x = z.
Proof.
  intros H0 Hz. unfold trunc. assert (Rltb x 0 = false) as -> by (apply Rltb_false; lra).
  unfold Int_part. assert (up x = (z + 1)%Z) as ->; [|lia]. symmetry. apply tech_up; rewrite plus_IZR; lra.
Qed.
Lemma trunc_bounds x : 0 <= x -> (0 <= trunc x)%Z /\ IZR (trunc x) <= x < IZR (trunc x) + 1.
Proof.
  intros H. unfold trunc. assert (Rltb x 0 = false) as -> by (apply Rltb_false; lra).
  destruct (base_Int_part x) as [B1 B2]. split; [|lra].
  assert (-1 < Int_part x)%Z; [|lia]. apply lt_IZR. lra.
Qed.
Lemma trunc_nat x (n : nat) : INR n <= x < INR n + 1 -> trunc x = Z.of_nat n.
Proof. intros H. apply trunc_unique; [pose proof (pos_INR n); lra|]. rewrite <- INR_IZR_INZ. exact H. Qed.
Lemma uint16_nat x (n : nat) : INR n <= x < INR n + 1 -> uint16 x = (n mod 65536)%nat.
Proof.
  intros H. unfold uint16. rewrite (trunc_nat x n H).
  replace 65536%Z with (Z.of_nat 65536) at 1 by reflexivity. rewrite <- Nat2Z.inj_mod. apply Nat2Z.id.
Qed.

(** ** Wear *)
Lemma vol_dset name (v v' : grid) d i j : dget name d = Some v ->
  fold_right (fun ng acc => at_ (snd ng) i j + acc) 0 (dset name v' d) =
  fold_right (fun ng acc => at_ (snd ng) i j + acc) 0 d - at_ v i j + at_ v' i j.
Proof.
  induction d as [|[n g] d IH]; cbn; [discriminate|]. destruct (String.eqb name n).
  - intros H. injection H as ->. cbn. lra.
  - intros H. cbn. rewrite (IH H). lra.
Qed.
Lemma vol_new name (v : grid) d i j : dget name d = None ->
  fold_right (fun ng acc => at_ (snd ng) i j + acc) 0 (dset name v d) =
  fold_right (fun ng acc => at_ (snd ng) i j + acc) 0 d + at_ v i j.
Proof.
  induction d as [|[n g] d IH]; cbn; [intros; lra|]. destruct (String.eqb name n); [discriminate|].
  intros H. cbn. rewrite (IH H). lra.
Qed.
Definition conserved (w : worn) : Prop := forall i j, at_ (profile w) i j + recorded w i j = at_ (unworn w) i j.
Definition vols_of (w : worn) (name : string) : list (string * grid) :=
  if dmem name (wear_volumes w) then wear_volumes w else dset name (zeros_like (profile w)) (wear_volumes w).
Lemma vols_same w name i j :
  fold_right (fun ng acc => at_ (snd ng) i j + acc) 0 (vols_of w name) = recorded w i j.
Proof.
  unfold vols_of, dmem, recorded. destruct (dget name (wear_volumes w)) eqn:E; [reflexivity|].
  rewrite vol_new by exact E. cbn. lra.
Qed.
Lemma vols_has w name : exists v, dget name (vols_of w name) = Some v.
Proof.
  unfold vols_of, dmem. destruct (dget name (wear_volumes w)) eqn:E; [eauto|].
  exists (zeros_like (profile w)). rewrite dget_dset, String.eqb_refl. reflexivity.
Qed.
Lemma conserved_wear gs w name pts : conserved w -> conserved (fst (wear gs w name pts)).
Proof.
  intros C. unfold wear. fold (vols_of w name).
  destruct (forallb _ _).
  - destruct (vols_has w name) as (v & Ev). rewrite Ev. cbn. intros i j. unfold recorded. cbn [profile unworn wear_volumes].
    rewrite (vol_dset name v _ _ i j Ev), vols_same. specialize (C i j). cbn.
    destruct (last_depth (indices gs pts) i j); lra.
  - cbn. intros i j. unfold recorded. cbn [profile unworn wear_volumes]. rewrite vols_same. apply C.
Qed.
Lemma conserved_run gs os : forall w, conserved w -> conserved (wrun gs w os).
Proof.
  unfold wrun. induction os as [|o os IH]; intros w C; [exact C|]. cbn. apply IH. destruct o; cbn.
  - now apply conserved_wear.
  - intros i j. cbn. lra.
Qed.
Lemma last_depth_none idx i j : (forall d, ~ In (i, j, d) idx) -> last_depth idx i j = None.
Proof.
  induction idx as [|[[r c] d] l IH]; intros H; [reflexivity|]. cbn. rewrite IH by (intros d' Hd; apply (H d'); now right).
  destruct (Nat.eqb_spec r i); [|reflexivity]. destruct (Nat.eqb_spec c j); [|reflexivity]. subst.
  exfalso. apply (H d). now left.
Qed.
Lemma wear_untouched gs w name pts i j : (forall d, ~ In (i, j, d) (indices gs pts)) ->
  at_ (profile (fst (wear gs w name pts))) i j = at_ (profile w) i j.
Proof.
  intros H. unfold wear. destruct (forallb _ _); [|reflexivity]. destruct (dget _ _); [|reflexivity].
  cbn. now rewrite last_depth_none.
Qed.
Lemma wear_unworn gs w name pts : unworn (fst (wear gs w name pts)) = unworn w.
Proof. unfold wear. destruct (forallb _ _); [|reflexivity]. destruct (dget _ _); reflexivity. Qed.

Lemma wear_ok gs w name pts :
  snd (wear gs w name pts) = Ok tt <->
  Forall (fun p => match p with (x, y, _) => (wear_index gs y < rows (profile w))%nat /\ (wear_index gs x < cols (profile w))%nat end) pts.
Proof.
  unfold wear. fold (vols_of w name). destruct (vols_has w name) as (v & Ev). rewrite Ev.
  destruct (forallb _ (indices gs pts)) eqn:F.
  - split; [intros _|reflexivity]. rewrite forallb_forall in F. apply Forall_forall. intros [[x y] d] Hin.
    specialize (F (wear_index gs y, wear_index gs x, d)). unfold indices in F.
    assert (Hi : In (wear_index gs y, wear_index gs x, d) (map (fun p => match p with (x, y, d) => (wear_index gs y, wear_index gs x, d) end) pts))
      by (apply in_map_iff; exists (x, y, d); auto).
    specialize (F Hi). cbn in F. apply andb_true_iff in F as [F1 F2]. apply Nat.ltb_lt in F1, F2. auto.
  - split; [discriminate|]. intros H. exfalso. rewrite <- not_true_iff_false in F. apply F. apply forallb_forall.
    intros [[r c] d] Hin. apply in_map_iff in Hin as ([[x y] d'] & E & Hin). injection E as <- <- <-.
    rewrite Forall_forall in H. specialize (H _ Hin). cbn in H. apply andb_true_iff. now rewrite !Nat.ltb_lt.
Qed.
Lemma wear_profile gs w name pts : snd (wear gs w name pts) = Ok tt ->
  profile (fst (wear gs w name pts)) = add_at (-1) (profile w) (indices gs pts).
Proof.
  unfold wear. fold (vols_of w name). destruct (vols_has w name) as (v & Ev). rewrite Ev.
  destruct (forallb _ _); [reflexivity|discriminate].
Qed.

(** Sums. *)
Lemma sum_n_ext n f g : (forall i, (i < n)%nat -> f i = g i) -> sum_n n f = sum_n n g.
Proof. induction n as [|n IH]; intros H; [reflexivity|]. cbn. rewrite IH, H by (intros; try apply H; lia). reflexivity. Qed.
Lemma sum_n_add n f g : sum_n n (fun i => f i + g i) = sum_n n f + sum_n n g.
Proof. induction n as [|n IH]; cbn; [lra|]. rewrite IH. lra. Qed.
Lemma sum_n_scal n c f : sum_n n (fun i => c * f i) = c * sum_n n f.
Proof. induction n as [|n IH]; cbn; [lra|]. rewrite IH. lra. Qed.
Lemma sum_n_zero n : sum_n n (fun _ => 0) = 0.
Proof. induction n as [|n IH]; cbn; [lra|]. rewrite IH. lra. Qed.
Lemma sum_n_single n k (c : R) : (k < n)%nat -> sum_n n (fun i => if Nat.eqb k i then c else 0) = c.
Proof.
  induction n as [|n IH]; intros H; [lia|]. cbn. destruct (Nat.eqb_spec k n) as [->|Hn].
  - assert (E : sum_n n (fun i => if Nat.eqb n i then c else 0) = 0).
    { transitivity (sum_n n (fun _ => 0)); [|apply sum_n_zero]. apply sum_n_ext. intros i Hi.
      destruct (Nat.eqb_spec n i); [lia|reflexivity]. }
    rewrite E. lra.
  - rewrite IH by lia. lra.
Qed.
Definition dep (idx : list (nat * nat * R)) (i j : nat) : R := match last_depth idx i j with Some d => d | None => 0 end.
Lemma dep_cons r c d l i j : ~ In (r, c) (map fst l) ->
  dep ((r, c, d) :: l) i j = dep l i j + (if Nat.eqb r i then (if Nat.eqb c j then d else 0) else 0).
Proof.
  intros H. unfold dep. cbn. destruct (Nat.eqb_spec r i); [destruct (Nat.eqb_spec c j)|]; cbn.
  - subst. rewrite last_depth_none; [lra|]. intros d' Hd. apply H. apply in_map_iff. exists (i, j, d'). auto.
  - destruct (last_depth l i j); lra.
  - destruct (last_depth l i j); lra.
Qed.
Lemma dep_total r c idx : NoDup (map fst idx) ->
  Forall (fun p => match p with (a, b, _) => (a < r)%nat /\ (b < c)%nat end) idx ->
  sum_n r (fun i => sum_n c (fun j => dep idx i j)) = fold_right (fun p acc => snd p + acc) 0 idx.
Proof.
  induction idx as [|[[a b] d] l IH]; intros Hn Hb.
  - cbn. rewrite (sum_n_ext r _ (fun _ => 0)); [apply sum_n_zero|]. intros. apply sum_n_zero.
  - cbn [map] in Hn. inversion Hn as [|? ? Hn1 Hn2]; subst. inversion Hb as [|? ? Hab Hb2]; subst. cbn in Hab. destruct Hab as [Ha Hb1]. cbn [fold_right snd].
    rewrite <- (IH Hn2 Hb2).
    rewrite (sum_n_ext r _ (fun i => sum_n c (fun j => dep l i j) + (if Nat.eqb a i then d else 0))).
    + rewrite sum_n_add, sum_n_single by exact Ha. lra.
    + intros i Hi. rewrite (sum_n_ext c _ (fun j => dep l i j + (if Nat.eqb a i then (if Nat.eqb b j then d else 0) else 0)))
        by (intros; now apply dep_cons).
      rewrite sum_n_add. f_equal. destruct (Nat.eqb a i); [now apply sum_n_single|apply sum_n_zero].
Qed.
Lemma add_at_dep g idx i j : at_ (add_at (-1) g idx) i j = at_ g i j + -1 * dep idx i j.
Proof. unfold dep. cbn. destruct (last_depth idx i j); lra. Qed.
Lemma depths_indices gs pts : fold_right (fun (p : nat * nat * R) acc => snd p + acc) 0 (indices gs pts) = depths pts.
Proof. unfold indices, depths. induction pts as [|[[x y] d] l IH]; cbn; [reflexivity|]. now rewrite IH. Qed.
Lemma removed_sum gs w name pts : snd (wear gs w name pts) = Ok tt -> NoDup (map fst (indices gs pts)) ->
  grid_sum (profile w) - grid_sum (profile (fst (wear gs w name pts))) = depths pts.
Proof.
  intros Ho Hn. pose proof (proj1 (wear_ok gs w name pts) Ho) as Hb. rewrite (wear_profile _ _ _ _ Ho).
  rewrite <- (depths_indices gs pts). rewrite <- (dep_total (rows (profile w)) (cols (profile w))); [|exact Hn|].
  - unfold grid_sum. cbn [rows cols add_at].
    rewrite (sum_n_ext (rows (profile w)) (fun i => sum_n _ (fun j => at_ (add_at (-1) (profile w) (indices gs pts)) i j))
      (fun i => sum_n (cols (profile w)) (fun j => at_ (profile w) i j) + -1 * sum_n (cols (profile w)) (fun j => dep (indices gs pts) i j))).
    + rewrite sum_n_add, sum_n_scal. lra.
    + intros i _. rewrite <- sum_n_scal, <- sum_n_add. apply sum_n_ext. intros. apply add_at_dep.
  - apply Forall_forall. intros [[r c] d] Hin. apply in_map_iff in Hin as ([[x y] d'] & E & Hin). injection E as <- <- <-.
    rewrite Forall_forall in Hb. apply (Hb _ Hin).
Qed.
Lemma wear_index_grid gs (k : nat) : 0 < gs -> (k < 65536)%nat -> gs < 2 -> wear_index gs (INR k * gs) = k.
Proof.
  intros Hg Hk H2. unfold wear_index. rewrite (uint16_nat _ k).
  - now apply Nat.mod_small.
  - replace (INR k * gs / gs) with (INR k) by (field; lra). lra.
Qed.

Lemma wear_index_grid' gs (k : nat) : 0 < gs < 2 -> (Z.of_nat k < 2 ^ 16)%Z -> wear_index gs (INR k * gs) = k.
Proof.
  intros [H0 H2] H. apply wear_index_grid; try lra.
  assert (E : (Z.of_nat 65536 = 2 ^ 16)%Z) by (vm_compute; reflexivity). rewrite <- E in H. now apply Nat2Z.inj_lt.
Qed.
Lemma indices_grid gs cells : 0 < gs < 2 ->
  (forall a b d, In (a, b, d) cells -> (Z.of_nat a < 2 ^ 16)%Z /\ (Z.of_nat b < 2 ^ 16)%Z) ->
  indices gs (map (fun c => match c with (a, b, d) => (INR b * gs, INR a * gs, d) end) cells) = cells.
Proof.
  intros Hg H. unfold indices. rewrite map_map. rewrite <- (map_id cells) at 2. apply map_ext_in.
  intros [[a b] d] Hin. destruct (H _ _ _ Hin). now rewrite !wear_index_grid'.
Qed.

(** ** Geometry *)
Definition ginv (g : geom) : Prop :=
  (forall s, prof g = Some s -> shape g = Some s) /\
  (extent g <> None -> shape g <> None -> spacing g <> None) /\
  (extent g <> None -> spacing g <> None -> shape g <> None) /\
  (shape g <> None -> spacing g <> None -> extent g <> None) /\
  (forall e s h, extent g = Some e -> shape g = Some s -> spacing g = Some h ->
     fst e = rn (fst s) * h /\
     (snd e = rn (snd s) * h \/
      (prof g <> None /\ snd e <> 0 /\ rn (snd s) <> 0 /\ Rabs (fst e / snd e - rn (fst s) / rn (snd s)) <= 1 / 10000))).

Ltac gtac :=
  repeat match goal with
  | |- _ /\ _ => split
  | |- forall _, _ => intro
  | H : Some _ = Some _ |- _ => injection H as H; subst
  | H : None = Some _ |- _ => discriminate H
  | H : Some _ = None |- _ => discriminate H
  | |- Some _ <> None => discriminate
  | H : ?x <> ?x |- _ => now contradiction H
  end.
Lemma ginv_step g o : ginv g -> snd (gstep g o) <> Err ZeroDivisionError -> ginv (fst (gstep g o)).
Proof.
  intros I Hz. destruct g as [e s h p]. pose proof I as (I1 & I2 & I3 & I4 & I5). cbn in I1, I2, I3, I4, I5.
  destruct o as [e'| |s'| |s'| |h'|]; cbn [gstep fst snd] in *.
  - (* extent *)
    unfold set_extent in *. cbn [prof shape spacing extent] in *. destruct p as [p|].
    + specialize (I1 p eq_refl). rewrite I1 in *. destruct p as [s0 s1].
      destruct (Reqb (rn s1) 0) eqn:E1; cbn [orb] in *; [now contradiction Hz|].
      destruct (Reqb (snd e') 0) eqn:E2; cbn [orb] in *; [now contradiction Hz|].
      destruct (aspect_differs _ _ _ _) eqn:Ea; [exact I|].
      destruct (Reqb (rn s0) 0) eqn:E0; [now contradiction Hz|]. apply Reqb_false in E0, E1, E2.
      unfold aspect_differs in Ea. apply Rltb_false in Ea.
      unfold ginv; cbn; gtac; try discriminate; try congruence.
      * cbn [fst]. field. exact E0.
      * right. repeat split; auto; discriminate.
    + assert (G : forall g2, prof g2 = None -> extent g2 = Some e' ->
        let r := match shape g2 with
          | Some (s0, s1) => if Reqb (rn s0) 0 then (g2, Err ZeroDivisionError)
              else (Geom (Some (rn s0 * (fst e' / rn s0), rn s1 * (fst e' / rn s0))) (shape g2) (Some (fst e' / rn s0)) None, Ok tt)
          | None => (g2, Ok tt) end in
        snd r <> Err ZeroDivisionError -> (spacing g2 <> None -> shape g2 <> None) -> ginv (fst r)).
      { intros g2 P2 X2 r Hr Hsh. unfold r in *. destruct (shape g2) as [[s0 s1]|] eqn:Es.
        - destruct (Reqb (rn s0) 0) eqn:E0; [now contradiction Hr|].
          unfold ginv; cbn; gtac; try discriminate; try congruence; auto.
        - cbn. unfold ginv. rewrite P2, X2, Es. destruct (spacing g2) as [hh|].
          + exfalso. apply Hsh; [discriminate|reflexivity].
          + gtac; congruence. }
      cbv zeta in Hz |- *. destruct h as [h|].
      * destruct (Reqb h 0); [now contradiction Hz|]. apply (G (Geom (Some e') (Some (npts (fst e') h, npts (snd e') h)) (Some h) None)); auto.
        intros _. discriminate.
      * apply (G (Geom (Some e') s None None)); auto.
  - (* del extent *)
    unfold ginv; cbn; destruct p as [p|]; gtac; try congruence; auto.
  - (* shape *)
    unfold set_shape in *. cbn [prof shape spacing extent] in *. destruct p as [p|]; [exact I|].
    destruct h as [h|].
    + unfold ginv; cbn; gtac; try congruence; cbn; try lra; auto.
    + destruct e as [e|]; [|unfold ginv; cbn; gtac; congruence].
      destruct (Reqb (rn (fst s')) 0) eqn:E0; [now contradiction Hz|].
      unfold ginv; cbn; gtac; try congruence; auto.
  - (* del shape *)
    unfold del_shape in *. cbn [prof] in *. destruct p as [p|]; [exact I|]. unfold ginv; cbn; gtac; congruence.
  - (* profile *)
    unfold set_prof in *. cbn [prof shape spacing extent] in *. destruct h as [h|].
    + unfold ginv; cbn; gtac; try congruence; cbn; try lra; try (left; lra); auto.
    + destruct e as [e|]; [|unfold ginv; cbn; gtac; congruence].
      destruct (Reqb (snd e) 0) eqn:E1; cbn [orb] in *; [now contradiction Hz|].
      destruct (Reqb (rn (snd s')) 0) eqn:E2; cbn [orb] in *; [now contradiction Hz|].
      destruct (Rltb _ _) eqn:Ea.
      * destruct (Reqb (rn (fst s')) 0) eqn:E0; [now contradiction Hz|].
        apply Rltb_true in Ea. apply Reqb_false in E0, E1, E2.
        unfold ginv; cbn; gtac; try congruence; auto.
        -- cbn [fst]. field. exact E0.
        -- right. repeat split; auto; [discriminate|lra].
      * unfold ginv; cbn; gtac; congruence.
  - (* del profile *)
    unfold ginv; cbn; gtac; congruence.
  - (* spacing *)
    unfold set_spacing in *. cbn [prof shape spacing extent] in *. destruct p as [p|].
    + specialize (I1 p eq_refl). rewrite I1 in *. unfold ginv; cbn; gtac; try congruence; auto.
    + destruct e as [e|].
      * destruct (Reqb h' 0); [now contradiction Hz|]. unfold ginv; cbn; gtac; try congruence; auto.
      * destruct s as [s|]; unfold ginv; cbn; gtac; try congruence; cbn; try lra; try (left; lra).
  - (* del spacing *)
    unfold del_spacing in *. destruct p as [p|]; unfold ginv; cbn; gtac; try congruence. now apply I1.
Qed.
Lemma ginv_run os : forall g g', ginv g -> gruns g os g' -> ginv g'.
Proof.
  induction os as [|o os IH]; intros g g' I H; cbn in H; [now subst|]. destruct H as [H1 H2].
  eapply IH; [|exact H2]. now apply ginv_step.
Qed.
Lemma ginv_new : ginv new_geom.
Proof. unfold ginv, new_geom. cbn. gtac; congruence. Qed.

(** ** Masks *)
Lemma mask_seq_false hs l : forall r, fold_left (fun acc item => bind acc (fun mask => bind (mask_of hs item) (fun m1 =>
        Ok (map (fun ab => andb (fst ab) (snd ab)) (combine m1 mask))))) l (Ok (map (fun _ => false) hs)) = Ok r ->
  Forall (fun b => b = false) r.
Proof.
  assert (G : forall acc, Forall (fun b => b = false) acc -> forall r,
    fold_left (fun acc item => bind acc (fun mask => bind (mask_of hs item) (fun m1 =>
        Ok (map (fun ab => andb (fst ab) (snd ab)) (combine m1 mask))))) l (Ok acc) = Ok r -> Forall (fun b => b = false) r).
  { induction l as [|m l IH]; intros acc Ha r H; cbn in H; [now injection H as <-|].
    destruct (mask_of hs m) as [m1|er]; cbn in H.
    - eapply IH; [|exact H]. apply Forall_forall. intros b Hb. apply in_map_iff in Hb as ([x y] & <- & Hin).
      apply in_combine_r in Hin. rewrite Forall_forall in Ha. cbn. rewrite (Ha _ Hin). apply andb_false_r.
    - exfalso. clear -H. assert (E : forall l, fold_left (fun acc item => bind acc (fun mask => bind (mask_of hs item) (fun m1 =>
        Ok (map (fun ab => andb (fst ab) (snd ab)) (combine m1 mask))))) l (Err er) = Err er) by (induction l0; auto).
      rewrite E in H. discriminate. }
  intros r H. eapply G; [|exact H]. apply Forall_forall. intros b Hb. apply in_map_iff in Hb as (x & <- & _). reflexivity.
Qed.

(** ** Analytical surfaces *)
Lemma arun_parts os : forall s,
  base (arun s os) = base s /\ a_extent (arun s os) = a_extent s /\
  shift_x (arun s os) = shift_x s + fst (total_shift (a_extent s) os) /\
  shift_y (arun s os) = shift_y s + snd (total_shift (a_extent s) os) /\
  rotation (arun s os) = rotation s + total_angle os.
Proof.
  unfold arun. induction os as [|o os IH]; intros s; [cbn; repeat split; lra|]. cbn [fold_left].
  destruct (IH (astep s o)) as (I1 & I2 & I3 & I4 & I5). rewrite I1, I2, I3, I4, I5.
  destruct o as [t|[[dx dy]|]]; cbn.
  - repeat split; lra.
  - destruct (total_shift (a_extent s) os) as [sx sy]. cbn. repeat split; lra.
  - destruct (a_extent s) as [[ex ey]|] eqn:E; cbn [a_extent base shift_x shift_y rotation].
    + destruct (total_shift (Some (ex, ey)) os) as [sx sy]. cbn. repeat split; lra.
    + rewrite E. destruct (total_shift None os) as [sx sy]. cbn. repeat split; lra.
Qed.
Lemma height_alt s x y : height s x y =
  base s (fst (turned (rotation s) (x + shift_x s, y + shift_y s))) (snd (turned (rotation s) (x + shift_x s, y + shift_y s))).
Proof. unfold height, turned. cbn. f_equal; lra. Qed.
