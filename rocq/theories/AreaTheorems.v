(** Developed area (C94), correlation lengths (C95) and bearing parameters (C96). *)
From Coq Require Import Reals List Bool Arith ZArith String Lia Lra FunctionalExtensionality.
From Verif Require Import Py SurfaceModel SurfaceProofs Flt SolverProofs RoughModel RoughSpec RoughProofs RoughTheorems SummitTheorems.
Import ListNotations.
Local Open Scope R_scope.

(** The grid spacing of a call. *)
Definition spacing (s : source) (gs : option R) : option R := match s, gs with OfSurface _ g, None => g | _, _ => gs end.
Lemma spacing_check : forall s gs, snd (check_surface s gs) = spacing s gs.
Proof. intros [a|a g] [x|]; reflexivity. Qed.

(** ** C94: developed area *)
Lemma side_fin : forall g a b, fsqrt (fadd (Fin (g * g)) (fpow (fsub (Fin a) (Fin b)) 2)) = Fin (side g a b).
Proof.
  intros g a b. unfold fsub. cbn [fneg fadd fpow fmul]. unfold fsqrt. destruct (Rltb _ 0) eqn:L.
  - apply Rltb_true in L. pose proof (Rle_0_sqr g). pose proof (Rle_0_sqr (a - b)). unfold Rsqr in *. exfalso. lra.
  - f_equal. unfold side. f_equal. ring.
Qed.
Lemma side_sym : forall g a b, side g a b = side g b a.
Proof. intros. unfold side. f_equal. ring. Qed.
Lemma side_ge : forall g a b, Rabs g <= side g a b.
Proof. intros. unfold side. rewrite <- sqrt_Rsqr_abs. apply sqrt_le_1_alt. pose proof (pow2_ge_0 (a - b)). unfold Rsqr. lra. Qed.
Lemma side_flat : forall g a, side g a a = Rabs g.
Proof. intros. unfold side. rewrite <- sqrt_Rsqr_abs. f_equal. unfold Rsqr. ring. Qed.
Lemma cell_fin : forall p g z x y, heights_are p everywhere z -> (x + 1 < nrows p)%nat -> (y + 1 < ncols p)%nat ->
  cell_area p (g * g) (x, y) = Fin (cell g z x y).
Proof.
  intros p g z x y H Hx Hy. unfold cell_area. rewrite (H x y), (H x (y + 1)%nat), (H (x + 1)%nat y), (H (x + 1)%nat (y + 1)%nat) by (reflexivity || lia).
  rewrite !side_fin. cbn [fadd fmul]. f_equal. unfold cell. rewrite (side_sym g (z (x + 1)%nat (y + 1)%nat) (z (x + 1)%nat y)). lra.
Qed.
Lemma cell_ge : forall g z x y, g ^ 2 <= cell g z x y.
Proof.
  intros g z x y. unfold cell.
  pose proof (side_ge g (z x y) (z x (y + 1)%nat)). pose proof (side_ge g (z (x + 1)%nat y) (z (x + 1)%nat (y + 1)%nat)).
  pose proof (side_ge g (z x y) (z (x + 1)%nat y)). pose proof (side_ge g (z x (y + 1)%nat) (z (x + 1)%nat (y + 1)%nat)).
  rewrite <- (pow2_abs g). pose proof (Rabs_pos g). nra.
Qed.
Lemma cell_flat : forall g a x y, cell g (fun _ _ => a) x y = g ^ 2.
Proof. intros. unfold cell. rewrite !side_flat. rewrite <- (pow2_abs g). lra. Qed.
Lemma number_all : forall r c, number r c everywhere = INR r * INR c.
Proof.
  intros r c. unfold number, over. assert (K : forall n x, sum_to n (fun _ => x) = x * INR n).
  { induction n; intros x; cbn [sum_to]; [cbn; ring|]. rewrite IHn, S_INR. ring. }
  rewrite (sum_to_ext r _ (fun _ => INR c)); [rewrite K; ring|]. intros i _. rewrite (sum_to_ext c _ (fun _ => 1)) by reflexivity. rewrite K. ring.
Qed.
Lemma cells_ge : forall g r c z, g ^ 2 * (INR (r - 1) * INR (c - 1)) <= cells_area g r c z.
Proof. intros. unfold cells_area. rewrite <- number_all, <- over_const. apply over_le. intros. apply cell_ge. Qed.
Lemma one_sdr : forall w eta g cut four n z, lower n = "sdr"%string -> heights_are eta everywhere z -> g <> 0 ->
  (2 <= nrows eta)%nat -> (2 <= ncols eta)%nat ->
  snd (many w eta None (Some g) cut four (Name n)) =
    Ok (VNum (Fin ((cells_area g (nrows eta) (ncols eta) z - INR (nrows eta) * INR (ncols eta) * g ^ 2) / cells_area g (nrows eta) (ncols eta) z))).
Proof.
  intros w eta g cut four n z Hn H G R C. cbn [many]. unfold one. rewrite Hn. cbv zeta.
  cbn [is_in existsb String.eqb Ascii.eqb Bool.eqb orb andb snd].
  assert (P : points (nrows eta - 1) (ncols eta - 1) <> []).
  { intros Q. assert (I : In (0, 0)%nat (points (nrows eta - 1) (ncols eta - 1))) by (apply in_points; lia). rewrite Q in I. destruct I. }
  assert (A : 0 < cells_area g (nrows eta) (ncols eta) z).
  { pose proof (cells_ge g (nrows eta) (ncols eta) z). assert (1 <= INR (nrows eta - 1)) by (replace 1 with (INR 1) by reflexivity; apply le_INR; lia).
    assert (1 <= INR (ncols eta - 1)) by (replace 1 with (INR 1) by reflexivity; apply le_INR; lia). assert (0 < g ^ 2) by (assert (g ^ 2 <> 0) by (apply pow_nonzero; exact G); pose proof (pow2_ge_0 g); lra). assert (0 < g ^ 2 * (INR (nrows eta - 1) * INR (ncols eta - 1))) by (apply Rmult_lt_0_compat; [assumption|apply Rmult_lt_0_compat; lra]). lra. }
  assert (S : fsum (map (cell_area eta (g * g)) (points (nrows eta - 1) (ncols eta - 1))) = Fin (cells_area g (nrows eta) (ncols eta) z)).
  { rewrite (map_ext_in _ (fun xy => Fin (fst_snd (cell g z) xy))).
    - rewrite <- (map_map (fst_snd (cell g z)) Fin). rewrite fsum_fin. f_equal. unfold cells_area. rewrite <- total_over. f_equal. f_equal.
      symmetry. clear. induction (points _ _); [reflexivity|]. cbn. f_equal. assumption.
    - intros [x y] I. apply in_points in I. unfold fst_snd. cbn [fst snd]. apply cell_fin; [exact H|lia|lia]. }
  destruct (points (nrows eta - 1) (ncols eta - 1)) as [|q l] eqn:E; [contradiction|]. rewrite S. cbn [fsub fadd fneg].
  rewrite fdiv_fin' by lra. do 3 f_equal. rewrite mult_INR. field. lra.
Qed.
(** The value of the parameter 'sdr': the area of the cells minus the projected area of all points, over the area of
    the cells. It is less than one and not less than for a flat surface. *)
Theorem c94_value : forall w s gs g curved nf cut four z n, lower n = "sdr"%string -> spacing s gs = Some g -> g <> 0 ->
  let p := profile_of s in let r := nrows p in let c := ncols p in
  (nf = false -> good_lstsq (lstsq w) /\ whole p = false) -> heights_are p everywhere z -> (2 <= r)%nat -> (2 <= c)%nat ->
  exists zf x, (if nf : bool then zf = z else flattened (if curved : bool then 2%nat else 1%nat) r c everywhere z zf) /\
    snd (roughness w s (Name n) gs NoMask curved nf cut four) = Ok (VNum (Fin x)) /\
    x = (cells_area g r c zf - INR r * INR c * g ^ 2) / cells_area g r c zf /\
    1 - (INR r * INR c) / (INR (r - 1) * INR (c - 1)) <= x < 1.
Proof.
  intros w s gs g curved nf cut four z n Hn SP G p r c GL H R2 C2.
  destruct (rough_heights' w s gs NoMask curved nf cut four z GL I H) as (eta & mk & g' & zf & NM & GE & K & R & C & Hh & Fl & E).
  cbn in NM. injection NM as <-. rewrite spacing_check, SP in GE. subst g'. exists zf. eexists. split; [exact Fl|].
  rewrite E. rewrite (one_sdr w eta g cut four n zf Hn Hh G) by (fold p in R, C; fold r in R; fold c in C; lia).
  fold p in R, C. fold r in R. fold c in C. rewrite R, C. split; [reflexivity|split; [reflexivity|]].
  pose proof (cells_ge g r c zf) as L. set (A := cells_area g r c zf) in *.
  assert (R1 : 1 <= INR (r - 1)) by (replace 1 with (INR 1) by reflexivity; apply le_INR; lia).
  assert (C1 : 1 <= INR (c - 1)) by (replace 1 with (INR 1) by reflexivity; apply le_INR; lia).
  assert (RR : 0 < INR r) by (apply lt_0_INR; lia). assert (CC : 0 < INR c) by (apply lt_0_INR; lia).
  assert (G2 : 0 < g ^ 2) by (assert (g ^ 2 <> 0) by (apply pow_nonzero; exact G); pose proof (pow2_ge_0 g); lra).
  assert (M : 0 < INR (r - 1) * INR (c - 1)) by (apply Rmult_lt_0_compat; lra).
  assert (A0 : 0 < A) by (assert (0 < g ^ 2 * (INR (r - 1) * INR (c - 1))) by (apply Rmult_lt_0_compat; assumption); lra).
  assert (RC : 0 < INR r * INR c) by (apply Rmult_lt_0_compat; assumption).
  replace ((A - INR r * INR c * g ^ 2) / A) with (1 - INR r * INR c * (g ^ 2 / A)) by (field; lra).
  assert (Q : g ^ 2 / A <= / (INR (r - 1) * INR (c - 1))).
  { apply (Rmult_le_reg_r A); [exact A0|]. unfold Rdiv. rewrite Rmult_assoc, Rinv_l by lra. rewrite Rmult_1_r.
    apply (Rmult_le_reg_l (INR (r - 1) * INR (c - 1))); [exact M|]. rewrite <- Rmult_assoc, Rinv_r by lra. lra. }
  assert (Q0 : 0 < g ^ 2 / A) by (apply Rdiv_lt_0_compat; assumption). split.
  - unfold Rdiv. apply Rplus_le_compat_l. apply Ropp_le_contravar. apply Rmult_le_compat_l; [lra|exact Q].
  - assert (0 < INR r * INR c * (g ^ 2 / A)) by (apply Rmult_lt_0_compat; assumption). lra.
Qed.
Print Assumptions c94_value.
(** A flat surface should have no additional area: the value is a negative number for every shape. *)
Theorem c94_flat_refuted : forall w s gs g cut four a n, lower n = "sdr"%string -> spacing s gs = Some g -> g <> 0 ->
  let p := profile_of s in let r := nrows p in let c := ncols p in
  heights_are p everywhere (fun _ _ => a) -> (2 <= r)%nat -> (2 <= c)%nat ->
  exists x, snd (roughness w s (Name n) gs NoMask false true cut four) = Ok (VNum (Fin x)) /\
    x = 1 - (INR r * INR c) / (INR (r - 1) * INR (c - 1)) /\ x < 0.
Proof.
  intros w s gs g cut four a n Hn SP G p r c H R2 C2.
  destruct (c94_value w s gs g false true cut four (fun _ _ => a) n Hn SP G) as (zf & x & -> & E & X & _); try assumption; try discriminate.
  exists x. split; [exact E|]. fold p in X. fold r c in X.
  assert (R1 : 1 <= INR (r - 1)) by (replace 1 with (INR 1) by reflexivity; apply le_INR; lia).
  assert (C1 : 1 <= INR (c - 1)) by (replace 1 with (INR 1) by reflexivity; apply le_INR; lia).
  assert (RE : INR r = INR (r - 1) + 1) by (rewrite <- S_INR; f_equal; lia). assert (CE : INR c = INR (c - 1) + 1) by (rewrite <- S_INR; f_equal; lia).
  assert (AE : cells_area g r c (fun _ _ => a) = g ^ 2 * (INR (r - 1) * INR (c - 1))).
  { unfold cells_area. rewrite <- number_all, <- over_const. apply over_ext. intros. apply cell_flat. }
  assert (XE : x = 1 - (INR r * INR c) / (INR (r - 1) * INR (c - 1))).
  { rewrite X, AE. field. repeat split; lra || exact G. }
  split; [exact XE|]. rewrite XE. assert (M : 0 < INR (r - 1) * INR (c - 1)) by nra.
  apply (Rmult_lt_reg_r (INR (r - 1) * INR (c - 1))); [exact M|]. unfold Rdiv. rewrite Rmult_minus_distr_r, Rmult_assoc, Rinv_l by lra. nra.
Qed.
Print Assumptions c94_flat_refuted.
(** One row or column: an error. *)
Theorem c94_line : forall w p gs n, lower n = "sdr"%string -> nrows p = 1%nat \/ ncols p = 1%nat ->
  forall cut four curved, snd (roughness w (OfArray p) (Name n) (Some gs) NoMask curved true cut four) = Err ZeroDivisionError.
Proof.
  intros w p gs n Hn L cut four curved. unfold roughness. cbn [check_surface norm_mask many]. unfold one. rewrite Hn. cbv zeta.
  cbn [is_in existsb String.eqb Ascii.eqb Bool.eqb orb andb snd].
  replace (points (nrows p - 1) (ncols p - 1)) with (@nil (nat * nat)); [reflexivity|].
  destruct (points (nrows p - 1) (ncols p - 1)) as [|[i j] l] eqn:E; [reflexivity|]. exfalso.
  assert (I : In (i, j) (points (nrows p - 1) (ncols p - 1))) by (rewrite E; left; reflexivity). apply in_points in I. lia.
Qed.
Print Assumptions c94_line.
Example c94_case : spacing (OfSurface peak (Some 2)) None = Some 2. Proof. reflexivity. Qed.

(** ** C95: correlation lengths *)
Lemma shift_left : forall n d m f, sum_to m (fun a => if Nat.leb d a && Nat.ltb (a - d) n then f (a - d)%nat else 0) = sum_to (Nat.min (m - d) n) f.
Proof.
  intros n d m f. induction m; [reflexivity|]. cbn [sum_to]. rewrite IHm.
  destruct (Nat.leb_spec d m), (Nat.ltb_spec (m - d) n); cbn [andb].
  - replace (Nat.min (S m - d) n) with (S (m - d)) by lia. replace (Nat.min (m - d) n) with (m - d)%nat by lia. reflexivity.
  - replace (Nat.min (S m - d) n) with (Nat.min (m - d) n) by lia. ring.
  - replace (Nat.min (S m - d) n) with (Nat.min (m - d) n) by lia. ring.
  - replace (Nat.min (S m - d) n) with (Nat.min (m - d) n) by lia. ring.
Qed.
Lemma shift_right : forall n d m f, (d <= n)%nat -> sum_to m (fun a => if Nat.ltb (a + d) n then f (a + d)%nat else 0) + sum_to d f = sum_to (Nat.min (m + d) n) f.
Proof.
  intros n d m f L. induction m; [cbn [sum_to]; replace (Nat.min (0 + d) n) with d by lia; ring|]. cbn [sum_to].
  destruct (Nat.ltb_spec (m + d) n).
  - replace (Nat.min (S m + d) n) with (S (m + d)) by lia. replace (Nat.min (m + d) n) with (m + d)%nat in IHm by lia. cbn [sum_to]. lra.
  - replace (Nat.min (S m + d) n) with (Nat.min (m + d) n) by lia. lra.
Qed.
Lemma sum_to_mono : forall n m f, (n <= m)%nat -> (forall i, (i < m)%nat -> 0 <= f i) -> sum_to n f <= sum_to m f.
Proof.
  intros n m f L. induction m; intros P; [replace n with 0%nat by lia; cbn; lra|].
  destruct (Nat.eq_dec n (S m)) as [->|]; [lra|]. cbn [sum_to]. specialize (IHm ltac:(lia) ltac:(intros; apply P; lia)). specialize (P m ltac:(lia)). lra.
Qed.
(** A shifted sum of non negative numbers is not larger. *)
Lemma shifted_le : forall n i k f, (forall a, (a < n)%nat -> 0 <= f a) ->
  sum_to n (fun a => if Nat.leb i (a + k) && Nat.ltb (a + k - i) n then f (a + k - i)%nat else 0) <= sum_to n f.
Proof.
  intros n i k f P. destruct (Nat.le_gt_cases k i) as [L|L].
  - rewrite (sum_to_ext n _ (fun a => if Nat.leb (i - k) a && Nat.ltb (a - (i - k)) n then f (a - (i - k))%nat else 0)).
    + rewrite shift_left. apply sum_to_mono; [lia|exact P].
    + intros a _. replace (a + k - i)%nat with (a - (i - k))%nat by lia. replace (Nat.leb i (a + k)) with (Nat.leb (i - k) a); [reflexivity|].
      destruct (Nat.leb_spec (i - k) a), (Nat.leb_spec i (a + k)); try reflexivity; lia.
  - rewrite (sum_to_ext n _ (fun a => if Nat.ltb (a + (k - i)) n then f (a + (k - i))%nat else 0)).
    + destruct (Nat.le_gt_cases (k - i) n) as [Q|Q].
      * pose proof (shift_right n (k - i) n f Q) as E. assert (0 <= sum_to (k - i) f) by (apply sum_to_nonneg; intros; apply P; lia).
        replace (Nat.min (n + (k - i)) n) with n in E by lia. lra.
      * rewrite (sum_to_ext n _ (fun _ => 0)); [rewrite sum_to_zero; apply sum_to_nonneg, P|].
        intros a _. destruct (Nat.ltb_spec (a + (k - i)) n); [lia|reflexivity].
    + intros a _. replace (a + k - i)%nat with (a + (k - i))%nat by lia. destruct (Nat.leb_spec i (a + k)); [reflexivity|lia].
Qed.
Definition moved (r c i j : nat) (z : nat -> nat -> R) (a b : nat) : R :=
  if Nat.leb i (a + r / 2) && Nat.ltb (a + r / 2 - i) r && Nat.leb j (b + c / 2) && Nat.ltb (b + c / 2 - j) c
  then z (a + r / 2 - i)%nat (b + c / 2 - j)%nat else 0.
Lemma moved_squares : forall r c i j z, squares r c everywhere (moved r c i j z) <= squares r c everywhere z.
Proof.
  intros r c i j z. unfold squares, over. cbn [everywhere].
  set (row := fun a => sum_to c (fun b => z a b ^ 2)).
  apply Rle_trans with (sum_to r (fun a => if Nat.leb i (a + r / 2) && Nat.ltb (a + r / 2 - i) r then row (a + r / 2 - i)%nat else 0)).
  - apply sum_to_le. intros a _. destruct (Nat.leb i (a + r / 2) && Nat.ltb (a + r / 2 - i) r) eqn:E.
    + rewrite (sum_to_ext c _ (fun b => if Nat.leb j (b + c / 2) && Nat.ltb (b + c / 2 - j) c then z (a + r / 2 - i)%nat (b + c / 2 - j)%nat ^ 2 else 0)).
      * apply (shifted_le c j (c / 2) (fun b => z (a + r / 2 - i)%nat b ^ 2)). intros. apply pow2_ge_0.
      * intros b _. unfold everywhere, moved. rewrite E. cbn [andb]. destruct (Nat.leb j (b + c / 2) && Nat.ltb (b + c / 2 - j) c); [reflexivity|ring].
    + rewrite (sum_to_ext c _ (fun _ => 0)); [rewrite sum_to_zero; lra|]. intros b _. unfold everywhere, moved. rewrite E. cbn [andb]. ring.
  - apply (shifted_le r i (r / 2) row). intros a _. unfold row. apply sum_to_nonneg. intros. apply pow2_ge_0.
Qed.
Lemma acf_fin : forall p z i j, heights_are p everywhere z -> (0 < nrows p)%nat -> (0 < ncols p)%nat ->
  acf_at p i j = Fin (average (nrows p) (ncols p) everywhere (fun a b => z a b * moved (nrows p) (ncols p) i j z a b)).
Proof.
  intros p z i j H R C. unfold acf_at.
  rewrite (map_ext_in _ (fun ab => Fin (fst_snd (fun a b => z a b * moved (nrows p) (ncols p) i j z a b) ab))).
  - rewrite <- (map_map (fst_snd _) Fin), fsum_fin. rewrite mult_INR, <- number_all. rewrite fdiv_fin'.
    + f_equal. unfold average. f_equal. rewrite <- total_over. f_equal. f_equal. clear. induction (points _ _); [reflexivity|]. cbn. f_equal. assumption.
    + rewrite number_all. apply Rmult_integral_contrapositive_currified; apply not_0_INR; lia.
  - intros [a b] I. apply in_points in I. destruct I as [A B]. unfold entry, fst_snd. cbn [fst snd]. rewrite (H a b A B eq_refl). unfold lagged, moved.
    destruct (Nat.leb i (a + nrows p / 2) && Nat.ltb (a + nrows p / 2 - i) (nrows p) && Nat.leb j (b + ncols p / 2) && Nat.ltb (b + ncols p / 2 - j) (ncols p)) eqn:E; [|reflexivity].
    rewrite !andb_true_iff, !Nat.ltb_lt in E. rewrite H by (reflexivity || tauto). reflexivity.
Qed.
(** The correlation at a lag is not larger than the mean square. *)
Lemma acf_le : forall r c z i j, (0 < r)%nat -> (0 < c)%nat ->
  average r c everywhere (fun a b => z a b * moved r c i j z a b) <= average r c everywhere (fun a b => z a b ^ 2).
Proof.
  intros r c z i j R C. unfold average. assert (N : 0 < number r c everywhere).
  { rewrite number_all. apply Rmult_lt_0_compat; apply lt_0_INR; lia. }
  apply Rmult_le_compat_r; [apply Rlt_le, Rinv_0_lt_compat, N|].
  apply Rle_trans with (over r c everywhere (fun a b => / 2 * (z a b ^ 2 + moved r c i j z a b ^ 2))).
  - apply over_le. intros a b _ _ _. pose proof (pow2_ge_0 (z a b - moved r c i j z a b)). lra.
  - rewrite over_scal, over_plus. pose proof (moved_squares r c i j z) as M. unfold squares in M. lra.
Qed.
Lemma acf_centre : forall r c z, average r c everywhere (fun a b => z a b * moved r c (r / 2) (c / 2) z a b) = average r c everywhere (fun a b => z a b ^ 2).
Proof.
  intros. apply average_ext. intros a b A B _. unfold moved.
  replace (a + r / 2 - r / 2)%nat with a by lia. replace (b + c / 2 - c / 2)%nat with b by lia.
  rewrite (proj2 (Nat.leb_le (r / 2) (a + r / 2))), (proj2 (Nat.leb_le (c / 2) (b + c / 2))), (proj2 (Nat.ltb_lt a r)), (proj2 (Nat.ltb_lt b c)) by lia. cbn [andb]. ring.
Qed.
Lemma acf_ok : forall p, (4 <= nrows p)%nat -> (4 <= ncols p)%nat -> acf p = Ok (Arr false (nrows p) (ncols p) (acf_at p)).
Proof.
  intros p R C. unfold acf. destruct (Nat.ltb_spec (nrows p) 4); [lia|]. destruct (Nat.ltb_spec (ncols p) 4); [lia|]. reflexivity.
Qed.
(** Shapes that are not square: an error for both parameters. *)
Theorem c95_not_square_refuted : forall w p g n cut four curved, lower n = "sal"%string \/ lower n = "str"%string ->
  nrows p <> ncols p -> (4 <= nrows p)%nat -> (4 <= ncols p)%nat ->
  snd (roughness w (OfArray p) (Name n) (Some g) NoMask curved true cut four) = Err IndexError.
Proof.
  intros w p g n cut four curved Hn D R C. unfold roughness. cbn [check_surface norm_mask many]. unfold one.
  assert (DI : forall g sel, distances p g sel = Err IndexError).
  { intros g' sel. unfold distances. rewrite acf_ok by assumption. cbn [bind]. apply Nat.eqb_neq in D. rewrite D. reflexivity. }
  destruct Hn as [-> | ->]; cbv zeta; cbn [is_in existsb String.eqb Ascii.eqb Bool.eqb orb andb snd]; rewrite DI; reflexivity.
Qed.
Print Assumptions c95_not_square_refuted.
(** Square profiles with an even number of points and a mean square of less than 0.2 (in the square of the unit of the
    heights): the correlation length is zero and the texture aspect ratio is an error, whatever the heights. *)
Theorem c95_small_refuted : forall w p g n z cut four curved, (0 < n)%nat -> nrows p = (2 * n)%nat -> ncols p = (2 * n)%nat -> (4 <= 2 * n)%nat ->
  heights_are p everywhere z -> average (2 * n) (2 * n) everywhere (fun i j => z i j ^ 2) < 1 / 5 ->
  (forall name, lower name = "sal"%string -> snd (roughness w (OfArray p) (Name name) (Some g) NoMask curved true cut four) = Ok (VNum (Fin 0))) /\
  (forall name, lower name = "str"%string -> snd (roughness w (OfArray p) (Name name) (Some g) NoMask curved true cut four) = Err ValueError).
Proof.
  intros w p g n z cut four curved N R C L H M.
  assert (Z : forall i j, acf_at p i j = Fin (average (2 * n) (2 * n) everywhere (fun a b => z a b * moved (2 * n) (2 * n) i j z a b))).
  { intros i j. rewrite (acf_fin p z i j H) by lia. rewrite R, C. reflexivity. }
  assert (B : forall i j, average (2 * n) (2 * n) everywhere (fun a b => z a b * moved (2 * n) (2 * n) i j z a b) < 1 / 5).
  { intros i j. eapply Rle_lt_trans; [apply acf_le; lia|exact M]. }
  assert (DN : forall g, distances p g (fun x => fltb x (Fin (1 / 5))) = Ok (map (fun ab => Fin (centre_distance p g ab)) (points (2 * n) (2 * n)))).
  { intros g'. unfold distances. rewrite acf_ok by lia. cbn [bind]. rewrite R, C, Nat.eqb_refl. do 2 f_equal.
    assert (Q : forall ab, fltb (acf_at p (fst ab) (snd ab)) (Fin (1 / 5)) = true) by (intros [a b]; cbn [fst snd]; rewrite Z; cbn; apply Rltb_true, B).
    unfold entry. cbn [h_at]. clear - Q. induction (points (2 * n) (2 * n)) as [|q l IH]; [reflexivity|]. cbn [filter]. rewrite Q, IH. reflexivity. }
  assert (DF : forall g, distances p g (fun x => fltb (Fin (1 / 5)) x) = Ok []).
  { intros g'. unfold distances. rewrite acf_ok by lia. cbn [bind]. rewrite R, C, Nat.eqb_refl. f_equal.
    assert (Q : forall ab, fltb (Fin (1 / 5)) (acf_at p (fst ab) (snd ab)) = false).
    { intros [a b]; cbn [fst snd]; rewrite Z; unfold fltb. apply Rltb_false. specialize (B a b). lra. }
    unfold entry. cbn [h_at]. clear - Q. induction (points (2 * n) (2 * n)) as [|q l IH]; [reflexivity|]. cbn [filter]. rewrite Q. exact IH. }
  unfold roughness. cbn [check_surface norm_mask many]. unfold one. split; intros name Hn; rewrite Hn; cbv zeta; cbn [is_in existsb String.eqb Ascii.eqb Bool.eqb orb andb snd]; rewrite DN; cbn [bind].
  - rewrite <- (map_map (centre_distance p g) Fin).
    destruct (pymin_fin (map (centre_distance p g) (points (2 * n) (2 * n)))) as (x & E & I & Mi).
    + intros Q. apply map_eq_nil in Q. assert (I : In (0, 0)%nat (points (2 * n) (2 * n))) by (apply in_points; lia). rewrite Q in I. destruct I.
    + rewrite E. cbn [bind]. do 3 f_equal. apply Rle_antisym.
      * apply Rle_trans with (centre_distance p g (n, n)); [apply Mi, in_map, in_points; lia|].
        unfold centre_distance. cbn [fst snd]. rewrite R, C, mult_INR. change (INR 2) with (1 + 1).
        replace ((g * (INR n - (1 + 1) * INR n / 2)) ^ 2 + (g * (INR n - (1 + 1) * INR n / 2)) ^ 2) with 0 by field. rewrite sqrt_0. lra.
      * apply in_map_iff in I. destruct I as (ab & <- & _). apply sqrt_pos.
  - rewrite <- (map_map (centre_distance p 1) Fin).
    destruct (pymin_fin (map (centre_distance p 1) (points (2 * n) (2 * n)))) as (x & E & _).
    + intros Q. apply map_eq_nil in Q. assert (I : In (0, 0)%nat (points (2 * n) (2 * n))) by (apply in_points; lia). rewrite Q in I. destruct I.
    + rewrite E. cbn [bind]. rewrite DF. reflexivity.
Qed.
Print Assumptions c95_small_refuted.
(** In general: the correlation is largest without a lag, where it is the mean square of the heights. *)
Theorem c95_correlation : forall p z, heights_are p everywhere z -> (4 <= nrows p)%nat -> (4 <= ncols p)%nat ->
  exists a f, acf p = Ok a /\ nrows a = nrows p /\ ncols a = ncols p /\ (forall i j, h_at a i j = Fin (f i j)) /\
    f (nrows p / 2)%nat (ncols p / 2)%nat = average (nrows p) (ncols p) everywhere (fun i j => z i j ^ 2) /\
    forall i j, f i j <= f (nrows p / 2)%nat (ncols p / 2)%nat.
Proof.
  intros p z H R C. exists (Arr false (nrows p) (ncols p) (acf_at p)), (fun i j => average (nrows p) (ncols p) everywhere (fun a b => z a b * moved (nrows p) (ncols p) i j z a b)).
  split; [apply acf_ok; assumption|]. split; [reflexivity|split; [reflexivity|]]. split; [intros; apply acf_fin; [exact H|lia|lia]|].
  split; [apply acf_centre|]. intros i j. rewrite acf_centre. apply acf_le; lia.
Qed.
Print Assumptions c95_correlation.
Example c95_case : heights_are (Arr false 4 4 (fun _ j => Fin (if Nat.even j then 1 / 10 else - (1 / 10)))) everywhere (fun _ j => if Nat.even j then 1 / 10 else - (1 / 10)) /\
  average 4 4 everywhere (fun _ j => (if Nat.even j then 1 / 10 else - (1 / 10)) ^ 2) < 1 / 5.
Proof. split; [intros i j _ _ _; reflexivity|]. unfold average, number, over. cbn. lra. Qed.

(** ** C96: bearing parameters *)
Lemma subtract_shape : forall w p order m eta k, subtract_polynomial w p order m = Ok (eta, k) -> nrows eta = nrows p /\ ncols eta = ncols p.
Proof. intros w p order m eta k H. destruct (c59_polynomial _ _ _ _ _ _ H) as (A & B & _). auto. Qed.
Lemma rough_shape : forall w s gs m curved nf cut four, (exists e, forall name, snd (roughness w s name gs m curved nf cut four) = Err e) \/
  exists eta mk g, norm_mask (profile_of s) m = Ok mk /\ nrows eta = nrows (profile_of s) /\ ncols eta = ncols (profile_of s) /\
    forall name, snd (roughness w s name gs m curved nf cut four) = snd (many w eta mk g cut four name).
Proof.
  intros. destruct (rough_case w s gs m curved nf cut four) as [(e & E)|(eta & mk & g & NM & S & E)]; [left; exists e; intros; rewrite E; reflexivity|].
  right. exists eta, mk, g. split; [exact NM|]. assert (SH : nrows eta = nrows (profile_of s) /\ ncols eta = ncols (profile_of s)).
  { destruct nf; [subst eta; auto|]. destruct S as (k & S). eapply subtract_shape, S. }
  destruct SH. split; [assumption|split; [assumption|]]. intros. rewrite E. reflexivity.
Qed.
Lemma length_entries : forall p, List.length (entries p None) = (nrows p * ncols p)%nat.
Proof.
  intros p. apply INR_eq. unfold entries. rewrite map_length, (keep_fst_snd None everywhere) by reflexivity. rewrite length_over, number_all, mult_INR. reflexivity.
Qed.
(** Without a mask the valley fluid retention index and the bearing curve are never found for a profile of at least two
    rows and columns, and the core fluid retention index is never found for more than one point. *)
Theorem c96_bearing_refuted : forall w s gs curved nf cut four v,
  let p := profile_of s in (2 <= nrows p)%nat -> (2 <= ncols p)%nat ->
  forall name, lower name = "svi"%string \/ lower name = "stp"%string \/ lower name = "sci"%string ->
  snd (roughness w s (Name name) gs NoMask curved nf cut four) <> Ok v.
Proof.
  intros w s gs curved nf cut four v p R C name Hn E.
  destruct (rough_shape w s gs NoMask curved nf cut four) as [(e & Q)|(eta & mk & g & NM & R' & C' & Q)]; rewrite Q in E; [discriminate|].
  cbn in NM. injection NM as <-. fold p in R', C'. cbn [many] in E. unfold one in E. revert E.
  destruct Hn as [Hn|[Hn|Hn]]; rewrite Hn; cbv zeta; cbn [is_in existsb String.eqb Ascii.eqb Bool.eqb orb andb snd].
  - rewrite length_entries. unfold sorted_at. destruct (Nat.ltb_spec (4 * (nrows eta * ncols eta) / 5) (nrows eta)) as [L|L]; [|discriminate].
    exfalso. assert (B : (nrows eta <= 4 * (nrows eta * ncols eta) / 5)%nat); [|lia]. apply Nat.div_le_lower_bound; [lia|]. nia.
  - destruct (Nat.eqb_spec (nrows eta) 0); [discriminate|]. destruct (Nat.eqb_spec (nrows eta) 1); [lia|]. destruct (Nat.ltb_spec 1 (ncols eta)); [discriminate|lia].
  - destruct (sorted_at eta None _) as [h005|]; [|discriminate]. cbn [bind]. pose proof (length_entries eta) as L.
    destruct (entries eta None) as [|x [|y l]]; [cbn in L; nia|cbn in L; nia|]. destruct x; discriminate.
Qed.
Print Assumptions c96_bearing_refuted.
(** The bearing index of an unmasked profile is an array, one number for each column; there is no number. *)
Theorem c96_index_refuted : forall w s gs curved nf cut four v name, lower name = "sbi"%string ->
  snd (roughness w s (Name name) gs NoMask curved nf cut four) = Ok v -> exists l, v = VVec l /\ List.length l = ncols (profile_of s).
Proof.
  intros w s gs curved nf cut four v name Hn E.
  destruct (rough_shape w s gs NoMask curved nf cut four) as [(e & Q)|(eta & mk & g & NM & R' & C' & Q)]; rewrite Q in E; [discriminate|].
  cbn in NM. injection NM as <-. cbn [many] in E. unfold one in E. revert E. rewrite Hn. cbv zeta. cbn [is_in existsb String.eqb Ascii.eqb Bool.eqb orb andb snd].
  unfold sorted_at. destruct (Nat.ltb _ _); [|discriminate]. cbn [bind shape_like]. intros E. injection E as <-. eexists. split; [reflexivity|].
  rewrite map_length. assert (SL : forall l, List.length (fsort l) = List.length l).
  { assert (IL : forall x l, List.length (insert_sorted x l) = S (List.length l)).
    { intros x l. induction l as [|y l IH]; [reflexivity|]. cbn. destruct (before x y); [reflexivity|]. cbn. rewrite IH. reflexivity. }
    unfold fsort. induction l as [|x l IH]; [reflexivity|]. cbn [fold_right]. rewrite IL. cbn [List.length]. f_equal. exact IH. }
  rewrite SL, map_length, seq_length. exact C'.
Qed.
Print Assumptions c96_index_refuted.
(** The ten point height is an array, too. *)
Theorem c96_ten_point_refuted : forall w s gs m curved nf cut four v name, lower name = "sz"%string ->
  snd (roughness w s (Name name) gs m curved nf cut four) = Ok v -> exists l, v = VVec l /\ (List.length l <= 5)%nat.
Proof.
  intros w s gs m curved nf cut four v name Hn E.
  destruct (rough_shape w s gs m curved nf cut four) as [(e & Q)|(eta & mk & g & NM & R' & C' & Q)]; rewrite Q in E; [discriminate|].
  cbn [many] in E. unfold one in E. revert E. rewrite Hn. cbv zeta. cbn [is_in existsb String.eqb Ascii.eqb Bool.eqb orb andb snd].
  destruct (find_summits w eta g _ four cut) as [eta' [sm|]]; cbn [bind snd]; [|discriminate].
  destruct (snd (find_summits w _ g _ four cut)) as [va|]; cbn [bind]; [|discriminate]. destruct (_ && _); [|discriminate].
  destruct (broadcast _ _ _) as [out|] eqn:B; [|discriminate]. cbn [bind]. intros E. injection E as <-. exists out. split; [reflexivity|].
  unfold broadcast in B. set (a := map fabs (firstn 5 (fsort (map (entry eta') (marked va))))) in *.
  set (hs := fsort (map (entry eta') (marked sm))) in *. set (b := map (fun x => fdiv (fabs x) (Fin 5)) (skipn (List.length hs - 5) hs)) in *.
  assert (LA : (List.length a <= 5)%nat) by (unfold a; rewrite map_length; apply firstn_le_length).
  assert (LB : (List.length b <= 5)%nat) by (unfold b; rewrite map_length, skipn_length; lia).
  destruct (Nat.eqb (List.length a) (List.length b)); [injection B as <-; rewrite map_length, combine_length; lia|].
  destruct a as [|x [|x' a']], b as [|y [|y' b']]; try discriminate; injection B as <-; cbn [map List.length] in *; rewrite ?map_length; lia.
Qed.
Print Assumptions c96_ten_point_refuted.
Example c96_case : (2 <= nrows peak)%nat /\ (2 <= ncols peak)%nat. Proof. cbn. lia. Qed.
