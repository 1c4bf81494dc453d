(** C128: the texture direction. *)
From Coq Require Import Reals List Bool Arith ZArith String Lia Lra.
From Verif Require Import Py SurfaceModel SurfaceProofs Flt SolverProofs RoughModel RoughSpec RoughProofs RoughTheorems AreaTheorems TextureSpec TextureProofs.
Import ListNotations.
Local Open Scope R_scope.

Lemma direction_angle p area q l i j : points (nrows p) (ncols p) = q :: l -> argmax (fun st => power p area (fst st) (snd st)) q l = (i, j) ->
  texture_direction p area = Ok (angle i j).
Proof.
  intros E M. unfold texture_direction. rewrite E, M. f_equal. destruct j as [|j].
  - cbn [INR]. unfold fdiv. assert (Z : Reqb 0 0 = true) by (unfold Reqb; destruct (Req_EM_T 0 0); [reflexivity|lra]). rewrite Z. unfold signed_inf.
    destruct i as [|i]; cbn [angle].
    + cbn [INR]. assert (F : Rltb 0 0 = false) by (apply Rltb_false; lra). rewrite ?F, ?Z. reflexivity.
    + assert (P : 0 < INR (S i)) by (apply lt_0_INR; lia). assert (F : Rltb 0 (INR (S i)) = true) by (apply Rltb_true; exact P).
      assert (F' : Rltb (INR (S i)) 0 = false) by (apply Rltb_false; lra). assert (F'' : Reqb (INR (S i)) 0 = false) by (unfold Reqb; destruct (Req_EM_T (INR (S i)) 0); [lra|reflexivity]).
      rewrite ?F, ?F', ?F''. f_equal. lra.
  - assert (P : 0 < INR (S j)) by (apply lt_0_INR; lia). unfold fdiv. assert (Z : Reqb (INR (S j)) 0 = false) by (unfold Reqb; destruct (Req_EM_T (INR (S j)) 0); [lra|reflexivity]). rewrite Z.
    assert (F : Rltb (atan (INR i / INR (S j))) (PI / 2) = true) by (apply Rltb_true; apply atan_bound). rewrite F. reflexivity.
Qed.
Lemma std_value w eta mk gs cut four n : lower n = "std"%string ->
  snd (one w eta mk gs cut four n) = match gs with None => Err TypeError | Some g => bind (texture_direction eta (INR (nrows eta * ncols eta) * (g * g))) (fun x => Ok (VNum x)) end.
Proof. intros Hn. unfold one. rewrite Hn. cbv zeta. cbn [is_in existsb String.eqb Ascii.eqb Bool.eqb orb andb snd]. destruct gs; reflexivity. Qed.
Lemma argmax_range p area : match points (nrows p) (ncols p) with [] => True | q :: l => forall i j, argmax (fun st => power p area (fst st) (snd st)) q l = (i, j) -> In (i, j) (q :: l) end.
Proof.
  destruct (points (nrows p) (ncols p)) as [|q l]; [exact I|]. intros i j E. assert (H : forall l q, In (argmax (fun st => power p area (fst st) (snd st)) q l) (q :: l)).
  { clear. induction l as [|x l IH]; intros q; [left; reflexivity|]. cbn [argmax]. destruct (is_nan _); [left; reflexivity|].
    match goal with |- In (argmax _ ?b l) _ => specialize (IH b); destruct IH as [IH|IH]; [rewrite <- IH; destruct (_ || _); cbn; auto|right; right; exact IH] end. }
  rewrite <- E. apply H.
Qed.

(** Whatever the profile, mask and flattening: the texture direction is a right angle, an angle that is not positive, or not a number. *)
Theorem c128_range : forall w s gs m curved nf cut four n x, lower n = "std"%string ->
  snd (roughness w s (Name n) gs m curved nf cut four) = Ok (VNum x) ->
  x = NaN \/ x = Fin (PI / 2) \/ exists y, x = Fin y /\ - (PI / 2) < y <= 0.
Proof.
  intros w s gs m curved nf cut four n x Hn H. destruct (rough_shape w s gs m curved nf cut four) as [(e & E)|(eta & mk & g & _ & _ & _ & E)]; [rewrite E in H; discriminate|].
  rewrite E in H. cbn [many] in H. rewrite std_value in H by exact Hn. destruct g as [g|]; [|discriminate].
  set (area := INR (nrows eta * ncols eta) * (g * g)) in *. destruct (points (nrows eta) (ncols eta)) as [|q l] eqn:P; [unfold texture_direction in H; rewrite P in H; discriminate|].
  destruct (argmax (fun st => power eta area (fst st) (snd st)) q l) as [i j] eqn:M. rewrite (direction_angle eta area q l i j P M) in H. cbn [bind] in H. injection H as <-.
  destruct j as [|j]; cbn [angle]; [destruct i; auto|]. right. right. eexists. split; [reflexivity|].
  pose proof (atan_bound (INR i / INR (S j))). split; [lra|]. assert (0 <= INR i / INR (S j)).
  { apply Rmult_le_pos; [apply pos_INR|]. left. apply Rinv_0_lt_compat, lt_0_INR. lia. }
  assert (0 <= atan (INR i / INR (S j))); [|lra]. rewrite <- atan_0. destruct (Req_dec (INR i / INR (S j)) 0) as [->|Ne]; [lra|]. left. apply atan_increasing. lra.
Qed.
Print Assumptions c128_range.

Lemma strength_power p z area s t : heights_are p everywhere z -> 0 < area -> power p area s t = Fin (strength (nrows p) (ncols p) z s t / area).
Proof.
  intros H Ha. unfold power. rewrite !(fourier_fin _ p z s t H). cbn [fmul fadd fdiv]. assert (Rn : Reqb area 0 = false) by (unfold Reqb; destruct (Req_EM_T area 0); [lra|reflexivity]). rewrite Rn. f_equal. f_equal.
  unfold strength. cbv zeta.
  assert (E : forall f, sum_to (nrows p) (fun a => sum_to (ncols p) (fun b => z a b * f (2 * PI * (INR (s * a) / INR (nrows p) + INR (t * b) / INR (ncols p))))) =
    sum_to (nrows p) (fun i => sum_to (ncols p) (fun j => z i j * f (2 * PI * (INR s * INR i / INR (nrows p) + INR t * INR j / INR (ncols p)))))).
  { intros f. apply sum_to_ext. intros a _. apply sum_to_ext. intros b _. rewrite !mult_INR. reflexivity. }
  rewrite !E. ring.
Qed.
Lemma argmax_best f (v : nat * nat -> R) : forall l best, (forall x, In x (best :: l) -> f x = Fin (v x)) -> forall x, In x (best :: l) -> v x <= v (argmax f best l).
Proof.
  induction l as [|q l IH]; intros best H x I; [destruct I as [->|[]]; cbn; lra|]. cbn [argmax]. rewrite (H best) by (left; reflexivity). rewrite (H q) by (right; left; reflexivity). cbn [is_nan orb fltb].
  destruct (Rltb (v best) (v q)) eqn:L.
  - apply Rltb_true in L. assert (Q : v q <= v (argmax f q l)) by (apply IH; [intros y J; apply H; right; exact J|left; reflexivity]).
    destruct I as [<-|[<-|I]]; [lra|exact Q|]. apply IH; [intros y J; apply H; right; exact J|right; exact I].
  - apply Rltb_false in L. assert (H' : forall y, In y (best :: l) -> f y = Fin (v y)) by (intros y [J|J]; apply H; [left; exact J|right; right; exact J]).
    assert (Q : v best <= v (argmax f best l)) by (apply IH; [exact H'|left; reflexivity]).
    destruct I as [<-|[<-|I]]; [exact Q|lra|]. apply IH; [exact H'|right; exact I].
Qed.
(** Without flattening and for any heights: the angle belongs to a wave that is as strong as any other in the profile, with its numbers of periods as they
    are counted by the transform. *)
Theorem c128_strongest : forall w s gs g curved cut four n z, lower n = "std"%string -> spacing s gs = Some g -> g <> 0 ->
  let p := profile_of s in heights_are p everywhere z -> (0 < nrows p)%nat -> (0 < ncols p)%nat ->
  exists i j, (i < nrows p)%nat /\ (j < ncols p)%nat /\
    (forall a b, (a < nrows p)%nat -> (b < ncols p)%nat -> strength (nrows p) (ncols p) z a b <= strength (nrows p) (ncols p) z i j) /\
    snd (roughness w s (Name n) gs NoMask curved true cut four) = Ok (VNum (angle i j)).
Proof.
  intros w s gs g curved cut four n z Hn Sp Hg p H Hr Hc.
  assert (E : snd (roughness w s (Name n) gs NoMask curved true cut four) = snd (one w p None (Some g) cut four n)).
  { unfold roughness. destruct (check_surface s gs) as [p' g'] eqn:Ck. pose proof (spacing_check s gs) as Q. rewrite Ck, Sp in Q. cbn [snd] in Q. subst g'.
    assert (p' = p) by (destruct s, gs; cbn in Ck; injection Ck as <- _; reflexivity). subst p'. cbn [norm_mask many]. reflexivity. }
  rewrite E, std_value by exact Hn. set (area := INR (nrows p * ncols p) * (g * g)).
  assert (Ha : 0 < area) by (unfold area; apply Rmult_lt_0_compat; [apply lt_0_INR; nia|]; fold (Rsqr g); apply Rsqr_pos_lt; exact Hg).
  pose proof (argmax_range p area) as Rg.
  destruct (points (nrows p) (ncols p)) as [|q l] eqn:P.
  { exfalso. assert (I : In (0, 0)%nat (points (nrows p) (ncols p))) by (apply in_points; lia). rewrite P in I. destruct I. }
  destruct (argmax (fun st => power p area (fst st) (snd st)) q l) as [i j] eqn:M. exists i, j. specialize (Rg i j eq_refl). rewrite <- P in Rg. apply in_points in Rg.
  split; [tauto|]. split; [tauto|]. split.
  - intros a b Ia Ib. pose proof (argmax_best (fun st => power p area (fst st) (snd st)) (fun st => strength (nrows p) (ncols p) z (fst st) (snd st) / area) l q) as B.
    rewrite M in B. cbn [fst snd] in B. specialize (B ltac:(intros x _; apply strength_power; assumption) (a, b)). rewrite <- P, in_points in B. specialize (B ltac:(auto)). cbn [fst snd] in B.
    apply Rmult_le_reg_r with (/ area); [apply Rinv_0_lt_compat; exact Ha|exact B].
  - rewrite (direction_angle p area q l i j P M). reflexivity.
Qed.
Print Assumptions c128_strongest.

(** A cosine wave of any amplitude and phase with [u] periods over the rows, less than half their number, and [v] over the
    columns: the angle is - atan (u / v), a right angle without periods over the columns. *)
Theorem c128_wave : forall w s gs g curved cut four n A phi u v, lower n = "std"%string -> spacing s gs = Some g -> g <> 0 ->
  let p := profile_of s in is_wave p A phi u v -> A <> 0 -> (u < nrows p)%nat -> (v < ncols p)%nat ->
  (0 < 2 * u < nrows p)%nat \/ (u = 0 /\ 0 < 2 * v < ncols p)%nat ->
  snd (roughness w s (Name n) gs NoMask curved true cut four) = Ok (VNum (Fin (if Nat.eqb v 0 then PI / 2 else - atan (INR u / INR v)))).
Proof.
  intros w s gs g curved cut four n A phi u v Hn Sp Hg p W Ha Hu Hv Half.
  assert (E : snd (roughness w s (Name n) gs NoMask curved true cut four) = snd (one w p None (Some g) cut four n)).
  { unfold roughness. destruct (check_surface s gs) as [p' g'] eqn:Ck. pose proof (spacing_check s gs) as Q. rewrite Ck, Sp in Q. cbn [snd] in Q. subst g'.
    assert (p' = p) by (destruct s, gs; cbn in Ck; injection Ck as <- _; reflexivity). subst p'. cbn [norm_mask many]. reflexivity. }
  rewrite E, std_value by exact Hn. set (area := INR (nrows p * ncols p) * (g * g)).
  assert (Har : 0 < area) by (unfold area; apply Rmult_lt_0_compat; [apply lt_0_INR; nia|]; fold (Rsqr g); apply Rsqr_pos_lt; exact Hg).
  destruct (wave_largest p A phi u v area W Ha Har Hu Hv Half) as (q & l & P & M). rewrite (direction_angle p area q l u v P M). cbn [bind]. do 2 f_equal.
  destruct v as [|v]; [|reflexivity]. destruct u; [lia|reflexivity].
Qed.
Print Assumptions c128_wave.

Lemma mirrored_wave p A phi u v : is_wave p A phi u v -> (0 < v < ncols p)%nat -> exists phi', is_wave (mirrored p) A phi' u (ncols p - v).
Proof.
  intros W Hv. exists (phi + 2 * PI * (INR v * (INR (ncols p) - 1) / INR (ncols p))). intros i j Hi Hj _. cbn [nrows ncols mirrored h_at] in *.
  rewrite (W i (ncols p - 1 - j)%nat) by (try reflexivity; lia). f_equal. f_equal.
  assert (P : 0 < INR (ncols p)) by (apply lt_0_INR; lia). rewrite !minus_INR by lia. cbn [INR].
  set (x := 2 * PI * (INR u * INR i / INR (nrows p) + INR v * (INR (ncols p) - 1 - INR j) / INR (ncols p)) + phi).
  rewrite <- (cos_period x j). f_equal. unfold x. unfold Rdiv. set (k := / INR (nrows p)). field. lra.
Qed.
(** The direction of the mirror image should be the opposite one. For every wave that is not along an axis it is negative again:
    the periods over the columns are counted from the other end. *)
Theorem c128_mirror_refuted : forall w p g curved cut four n A phi u v, lower n = "std"%string -> g <> 0 ->
  is_wave p A phi u v -> A <> 0 -> (0 < 2 * u < nrows p)%nat -> (0 < v < ncols p)%nat ->
  exists d d', snd (roughness w (OfArray p) (Name n) (Some g) NoMask curved true cut four) = Ok (VNum (Fin d)) /\
    snd (roughness w (OfArray (mirrored p)) (Name n) (Some g) NoMask curved true cut four) = Ok (VNum (Fin d')) /\
    d = - atan (INR u / INR v) /\ d' = - atan (INR u / INR (ncols p - v)) /\ d < 0 /\ d' < 0.
Proof.
  intros w p g curved cut four n A phi u v Hn Hg W Ha Hu Hv. destruct (mirrored_wave p A phi u v W Hv) as (phi' & W').
  pose proof (c128_wave w (OfArray p) (Some g) g curved cut four n A phi u v Hn eq_refl Hg W Ha) as E. cbn [profile_of] in E. specialize (E ltac:(lia) ltac:(lia) ltac:(lia)).
  pose proof (c128_wave w (OfArray (mirrored p)) (Some g) g curved cut four n A phi' u (ncols p - v) Hn eq_refl Hg W' Ha) as E'. cbn [profile_of] in E'. specialize (E' ltac:(cbn; lia) ltac:(cbn; lia) ltac:(cbn; lia)).
  assert (V1 : Nat.eqb v 0 = false) by (apply Nat.eqb_neq; lia). assert (V2 : Nat.eqb (ncols p - v) 0 = false) by (apply Nat.eqb_neq; lia). rewrite V1 in E. rewrite V2 in E'.
  eexists. eexists. split; [exact E|]. split; [exact E'|]. split; [reflexivity|]. split; [reflexivity|].
  assert (N : forall a b, (0 < a)%nat -> (0 < b)%nat -> - atan (INR a / INR b) < 0).
  { intros a b Pa Pb. assert (0 < INR a / INR b) by (apply Rdiv_lt_0_compat; apply lt_0_INR; assumption). pose proof (atan_increasing 0 _ H). rewrite atan_0 in *. lra. }
  split; apply N; lia.
Qed.
Print Assumptions c128_mirror_refuted.

(** A flat or tilted surface has no direction: the value is not a number. *)
Theorem c128_flat : forall w s gs g cut four n q, lower n = "std"%string -> spacing s gs = Some g -> g <> 0 ->
  let p := profile_of s in good_lstsq (lstsq w) -> whole p = false -> (0 < nrows p)%nat -> (0 < ncols p)%nat ->
  heights_are p everywhere (fun i j => polynomial 1 q (INR j) (INR i)) ->
  snd (roughness w s (Name n) gs NoMask false false cut four) = Ok (VNum NaN).
Proof.
  intros w s gs g cut four n q Hn Sp Hg p G Wp Hr Hc H.
  destruct (c59_flat w p 1 NoMask q G I Wp) as (eta & k & E & Z); [intros i j Hi Hj _; apply H; try assumption; reflexivity|].
  destruct (c59_polynomial w p 1 NoMask eta k E) as (Er & Ec & _).
  unfold roughness. destruct (check_surface s gs) as [p' g'] eqn:Ck. pose proof (spacing_check s gs) as Q. rewrite Ck, Sp in Q. cbn [snd] in Q. subst g'.
  assert (p' = p) by (destruct s, gs; cbn in Ck; injection Ck as <- _; reflexivity). subst p'. cbn [norm_mask]. rewrite E. cbn [snd many]. rewrite std_value by exact Hn.
  set (area := INR (nrows eta * ncols eta) * (g * g)).
  assert (Har : 0 < area) by (unfold area; apply Rmult_lt_0_compat; [apply lt_0_INR; nia|]; fold (Rsqr g); apply Rsqr_pos_lt; exact Hg).
  assert (Z' : heights_are eta everywhere (fun _ _ => 0)) by (intros i j Hi Hj _; apply Z; try congruence; reflexivity).
  assert (P0 : forall st, power eta area (fst st) (snd st) = Fin 0).
  { intros st. rewrite (strength_power eta _ area _ _ Z' Har). f_equal. unfold strength. cbv zeta.
    assert (S0 : forall f r c s t, sum_to r (fun i => sum_to c (fun j => 0 * f (2 * PI * (INR s * INR i / INR r + INR t * INR j / INR c)))) = 0).
    { intros f r c a b. rewrite (sum_to_ext r _ (fun _ => 0 * 0)); [rewrite sum_to_scal; ring|]. intros i _. rewrite sum_to_scal. ring. }
    rewrite !S0. unfold Rdiv. ring. }
  destruct (points_split (nrows eta) (ncols eta) 0 0 ltac:(lia) ltac:(lia)) as (l1 & l2 & P & B).
  destruct l1 as [|[a b] l1]; [|specialize (B a b (or_introl eq_refl)); lia].
  rewrite (direction_angle eta area (0, 0)%nat l2 0 0 P); [reflexivity|].
  apply (argmax_stays _ 0); [apply (P0 (0, 0)%nat)|]. intros x _. exists 0. split; [apply P0|lra].
Qed.
Print Assumptions c128_flat.

(** One wave over the rows and two over the columns of a grid of four by eight points: the direction is - atan (1 / 2), and for its mirror image - atan (1 / 6). *)
Example c128_case : exists p, is_wave p 3 1 1 2 /\ nrows p = 4%nat /\ ncols p = 8%nat /\ forall w,
  snd (roughness w (OfArray p) (Name "Std") (Some (1 / 10)) NoMask false true None false) = Ok (VNum (Fin (- atan (1 / 2)))) /\
  snd (roughness w (OfArray (mirrored p)) (Name "Std") (Some (1 / 10)) NoMask false true None false) = Ok (VNum (Fin (- atan (1 / 6)))).
Proof.
  set (p := Arr false 4 8 (fun i j => Fin (3 * cos (2 * PI * (INR 1 * INR i / INR 4 + INR 2 * INR j / INR 8) + 1)))).
  assert (W : is_wave p 3 1 1 2) by (intros i j _ _ _; reflexivity). exists p. split; [exact W|]. split; [reflexivity|]. split; [reflexivity|]. intros w.
  destruct (c128_mirror_refuted w p (1 / 10) false None false "Std" 3 1 1 2 eq_refl ltac:(lra) W ltac:(lra) ltac:(cbn; lia) ltac:(cbn; lia)) as (d & d' & E & E' & Ed & Ed' & _).
  rewrite E, E', Ed, Ed'. change (ncols p - 2)%nat with 6%nat.
  replace (INR 1 / INR 2) with (1 / 2) by (cbn; lra). replace (INR 1 / INR 6) with (1 / 6) by (cbn; lra). split; reflexivity.
Qed.
