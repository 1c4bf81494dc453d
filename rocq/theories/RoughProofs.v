From Coq Require Import Reals List Bool Arith ZArith String Lia Lra FunctionalExtensionality.
From Verif Require Import Py SurfaceModel SurfaceProofs Flt SolverProofs RoughModel RoughSpec.
Import ListNotations.
Local Open Scope R_scope.

Definition total (l : list R) : R := fold_right Rplus 0 l.
Definition fst_snd {A} (f : nat -> nat -> A) (ij : nat * nat) : A := f (fst ij) (snd ij).

(** ** Sums *)
Lemma total_app : forall a b, total (a ++ b) = total a + total b.
Proof. induction a; intros b; cbn; [unfold total; lra|]. fold (total a0) in *. unfold total in *. cbn. rewrite IHa. lra. Qed.
Lemma sum_to_ext : forall n f g, (forall i, (i < n)%nat -> f i = g i) -> sum_to n f = sum_to n g.
Proof. induction n; intros f g H; [reflexivity|]. cbn. rewrite (IHn f g), (H n) by (try lia; intros; apply H; lia). reflexivity. Qed.
Lemma sum_to_plus : forall n f g, sum_to n (fun i => f i + g i) = sum_to n f + sum_to n g.
Proof. induction n; intros; cbn; [lra|]. rewrite IHn. lra. Qed.
Lemma sum_to_scal : forall n a f, sum_to n (fun i => a * f i) = a * sum_to n f.
Proof. induction n; intros; cbn; [lra|]. rewrite IHn. lra. Qed.
Lemma sum_to_le : forall n f g, (forall i, (i < n)%nat -> f i <= g i) -> sum_to n f <= sum_to n g.
Proof. induction n; intros f g H; cbn; [lra|]. assert (f n <= g n) by (apply H; lia).
  assert (sum_to n f <= sum_to n g) by (apply IHn; intros; apply H; lia). lra. Qed.
Lemma sum_to_zero : forall n, sum_to n (fun _ => 0) = 0.
Proof. induction n; cbn; lra. Qed.
Lemma sum_to_nonneg : forall n f, (forall i, (i < n)%nat -> 0 <= f i) -> 0 <= sum_to n f.
Proof. intros n f H. rewrite <- (sum_to_zero n). apply sum_to_le, H. Qed.
Lemma sum_to_null : forall n f, (forall i, (i < n)%nat -> 0 <= f i) -> sum_to n f <= 0 -> forall i, (i < n)%nat -> f i = 0.
Proof.
  induction n; intros f H S i Hi; [lia|]. cbn in S. assert (0 <= f n) by (apply H; lia).
  assert (0 <= sum_to n f) by (apply sum_to_nonneg; intros; apply H; lia).
  destruct (Nat.eq_dec i n) as [->|]; [lra|]. apply (IHn f); try lia; [intros; apply H; lia|lra].
Qed.
Lemma sum_to_split : forall n m f, sum_to (n * m) f = sum_to n (fun a => sum_to m (fun b => f (a * m + b)%nat)).
Proof.
  induction n; intros m f; [reflexivity|]. cbn [sum_to]. rewrite <- IHn. replace (S n * m)%nat with (n * m + m)%nat by lia.
  generalize (n * m)%nat as q. intros q. induction m; [rewrite Nat.add_0_r; cbn; lra|].
  rewrite Nat.add_succ_r. cbn [sum_to]. rewrite IHm. lra.
Qed.

Lemma over_ext : forall r c u f g, (forall i j, (i < r)%nat -> (j < c)%nat -> u i j = true -> f i j = g i j) ->
  over r c u f = over r c u g.
Proof. intros r c u f g H. apply sum_to_ext. intros i Hi. apply sum_to_ext. intros j Hj. destruct (u i j) eqn:E; [apply H; assumption|reflexivity]. Qed.
Lemma over_mask : forall r c u v f, (forall i j, (i < r)%nat -> (j < c)%nat -> u i j = v i j) -> over r c u f = over r c v f.
Proof. intros r c u v f H. apply sum_to_ext. intros i Hi. apply sum_to_ext. intros j Hj. rewrite H by assumption. reflexivity. Qed.
Lemma over_plus : forall r c u f g, over r c u (fun i j => f i j + g i j) = over r c u f + over r c u g.
Proof.
  intros. unfold over. rewrite <- sum_to_plus. apply sum_to_ext. intros i _. rewrite <- sum_to_plus. apply sum_to_ext.
  intros j _. destruct (u i j); lra.
Qed.
Lemma over_scal : forall r c u a f, over r c u (fun i j => a * f i j) = a * over r c u f.
Proof.
  intros. unfold over. rewrite <- sum_to_scal. apply sum_to_ext. intros i _. rewrite <- sum_to_scal. apply sum_to_ext.
  intros j _. destruct (u i j); lra.
Qed.
Lemma over_le : forall r c u f g, (forall i j, (i < r)%nat -> (j < c)%nat -> u i j = true -> f i j <= g i j) -> over r c u f <= over r c u g.
Proof. intros r c u f g H. apply sum_to_le. intros i Hi. apply sum_to_le. intros j Hj. destruct (u i j) eqn:E; [apply H; assumption|lra]. Qed.
Lemma over_zero : forall r c u, over r c u (fun _ _ => 0) = 0.
Proof. intros. rewrite (over_ext r c u _ (fun _ _ => 0 * 0)) by (intros; lra). rewrite over_scal. lra. Qed.
Lemma over_nonneg : forall r c u f, (forall i j, (i < r)%nat -> (j < c)%nat -> u i j = true -> 0 <= f i j) -> 0 <= over r c u f.
Proof. intros r c u f H. rewrite <- (over_zero r c u). apply over_le, H. Qed.
Lemma over_null : forall r c u f, (forall i j, (i < r)%nat -> (j < c)%nat -> u i j = true -> 0 <= f i j) -> over r c u f <= 0 ->
  forall i j, (i < r)%nat -> (j < c)%nat -> u i j = true -> f i j = 0.
Proof.
  intros r c u f H S i j Hi Hj U.
  assert (A : sum_to c (fun b => if u i b then f i b else 0) = 0).
  { apply (sum_to_null r (fun a => sum_to c (fun b => if u a b then f a b else 0))); try assumption.
    intros a Ha. apply sum_to_nonneg. intros b Hb. destruct (u a b) eqn:E; [apply H; assumption|lra]. }
  assert (B := sum_to_null c (fun b => if u i b then f i b else 0)
    ltac:(intros b Hb; cbn; destruct (u i b) eqn:E; [apply H; assumption|lra]) ltac:(rewrite A; apply Rle_refl) j Hj). cbn in B. rewrite U in B. exact B.
Qed.
Lemma squares_nonneg : forall r c u z, 0 <= squares r c u z.
Proof. intros. apply over_nonneg. intros. apply pow2_ge_0. Qed.
Lemma number_pos : forall r c u, (exists i j, (i < r)%nat /\ (j < c)%nat /\ u i j = true) -> 0 < number r c u.
Proof.
  intros r c u (i & j & Hi & Hj & U). destruct (Rlt_le_dec 0 (number r c u)) as [|L]; [assumption|].
  assert (E := over_null r c u (fun _ _ => 1) ltac:(intros; lra) L i j Hi Hj U). cbn in E. lra.
Qed.

(** ** Points *)
Lemma list_prod_app : forall {A B} (a b : list A) (l : list B), list_prod (a ++ b) l = (list_prod a l ++ list_prod b l)%list.
Proof. induction a; intros b l; cbn; [reflexivity|]. rewrite IHa, app_assoc. reflexivity. Qed.
Lemma points_S : forall r c, points (S r) c = (points r c ++ map (fun j => (r, j)) (seq 0 c))%list.
Proof. intros. unfold points. rewrite seq_S, list_prod_app. cbn. rewrite app_nil_r. reflexivity. Qed.
Lemma in_points : forall r c i j, In (i, j) (points r c) <-> (i < r)%nat /\ (j < c)%nat.
Proof. intros. unfold points. rewrite in_prod_iff, !in_seq. lia. Qed.
Lemma total_row : forall c (u : nat -> bool) (f : nat -> R) i,
  total (map (fun ij : nat * nat => f (snd ij)) (filter (fun ij : nat * nat => u (snd ij)) (map (fun j => (i, j)) (seq 0 c)))) = sum_to c (fun j => if u j then f j else 0) :> R.
Proof.
  induction c; intros u f i; [reflexivity|]. rewrite seq_S, map_app, filter_app, map_app, total_app, IHc. cbn.
  destruct (u c); cbn; unfold total; cbn; lra.
Qed.
Lemma total_over : forall r c u f, total (map (fst_snd f) (filter (fst_snd u) (points r c))) = over r c u f.
Proof.
  induction r; intros c u f; [reflexivity|]. rewrite points_S, filter_app, map_app, total_app, IHr. unfold over at 2. cbn [sum_to].
  unfold over. f_equal. rewrite <- (total_row c (u r) (f r) r). f_equal.
  assert (E : forall l, map (fst_snd f) (filter (fst_snd u) (map (fun j => (r, j)) l)) =
            map (fun ij => f r (snd ij)) (filter (fun ij => u r (snd ij)) (map (fun j => (r, j)) l))).
  { induction l; [reflexivity|]. cbn. unfold fst_snd at 2. cbn. destruct (u r a); cbn; rewrite IHl; reflexivity. }
  apply E.
Qed.
Lemma map_filter_ext : forall {A B} (f g : A -> B) (u v : A -> bool) l,
  (forall x, In x l -> u x = v x) -> (forall x, In x l -> v x = true -> f x = g x) -> map f (filter u l) = map g (filter v l).
Proof.
  induction l; intros H K; [reflexivity|]. cbn. rewrite (H a) by (left; reflexivity). destruct (v a) eqn:E; cbn;
    rewrite IHl by (intros; first [apply H; right; assumption|apply K; [right; assumption|assumption]]); [|reflexivity].
  rewrite K by (try left; auto). reflexivity.
Qed.
Lemma length_over : forall r c u, INR (List.length (filter (fst_snd u) (points r c))) = number r c u.
Proof.
  intros. unfold number. rewrite <- total_over. generalize (filter (fst_snd u) (points r c)). induction l; [reflexivity|].
  cbn [List.length]. rewrite S_INR, IHl. cbn. fold (total (map (fst_snd (fun _ _ => 1)) l)). unfold total, fst_snd. cbn. lra.
Qed.
Lemma over_number : forall r c u, number r c u = 0 \/ 1 <= number r c u.
Proof.
  intros. rewrite <- length_over. destruct (List.length _) as [|n]; [left; reflexivity|right]. rewrite S_INR. pose proof (pos_INR n). lra.
Qed.

(** ** Masks *)
Lemma poly_mask_used : forall p m, fits p m -> exists mk, poly_mask p m = Ok mk /\ forall i j, keep mk (i, j) = used p m i j.
Proof.
  intros p [| x | z | r c f] F; cbn in *.
  - eauto.
  - destruct x; cbn; eauto.
  - eauto.
  - destruct F as [-> ->]. rewrite !Nat.eqb_refl. cbn. eauto.
Qed.
Lemma norm_mask_used : forall p m, fair p m -> exists mk, norm_mask p m = Ok mk /\ forall i j, keep mk (i, j) = used p m i j.
Proof.
  intros p [| x | z | r c f] F; cbn in *; try contradiction.
  - eauto.
  - subst. cbn. eauto.
  - destruct F as [-> ->]. rewrite !Nat.eqb_refl. cbn. eauto.
Qed.
Lemma norm_mask_poly : forall p m mk, norm_mask p m = Ok mk ->
  poly_mask p (match mk with None => NoMask | Some f => ArrMask (nrows p) (ncols p) f end) = Ok mk.
Proof. intros p m [f|] H; cbn; [rewrite !Nat.eqb_refl|]; reflexivity. Qed.
Lemma entries_fin : forall p mk u z, (forall i j, keep mk (i, j) = u i j) -> heights_are p u z ->
  entries p mk = map Fin (map (fst_snd z) (filter (fst_snd u) (points (nrows p) (ncols p)))).
Proof.
  intros p mk u z K H. unfold entries. rewrite map_map. apply map_filter_ext.
  - intros [i j] _. apply K.
  - intros [i j] I U. apply in_points in I. apply H; tauto.
Qed.

(** ** Arithmetic of finite numbers *)
Lemma fsum_fin : forall l, fsum (map Fin l) = Fin (total l).
Proof. induction l; [reflexivity|]. cbn. fold (fsum (map Fin l)). rewrite IHl. reflexivity. Qed.
Lemma fpow_fin : forall x n, fpow (Fin x) n = Fin (x ^ n).
Proof. induction n; [reflexivity|]. cbn. rewrite IHn. reflexivity. Qed.
Lemma fdiv_fin' : forall x y, y <> 0 -> fdiv (Fin x) (Fin y) = Fin (x / y).
Proof. intros x y H. cbn. destruct (Reqb y 0) eqn:E; [apply Reqb_true in E; contradiction|reflexivity]. Qed.
Lemma fmean_over : forall r c u (z : nat -> nat -> R) f g, (forall x, f (Fin x) = Fin (g x)) -> number r c u <> 0 ->
  fmean (map f (map Fin (map (fst_snd z) (filter (fst_snd u) (points r c))))) = Fin (average r c u (fun i j => g (z i j))).
Proof.
  intros r c u z f g F N. unfold fmean.
  replace (map f (map Fin (map (fst_snd z) (filter (fst_snd u) (points r c)))))
    with (map Fin (map (fst_snd (fun i j => g (z i j))) (filter (fst_snd u) (points r c)))).
  2:{ rewrite !map_map. apply map_ext. intros []. cbn. rewrite F. reflexivity. }
  rewrite fsum_fin, total_over, !map_length, length_over, fdiv_fin' by assumption. reflexivity.
Qed.
Lemma rms_over : forall r c u z, number r c u <> 0 ->
  root_mean_square (map Fin (map (fst_snd z) (filter (fst_snd u) (points r c)))) = Fin (rms r c u z).
Proof.
  intros. unfold root_mean_square. rewrite (fmean_over r c u z (fun x => fpow x 2) (fun x => x ^ 2)) by (try assumption; intros; apply fpow_fin).
  cbn [fsqrt]. destruct (Rltb _ 0) eqn:E; [|reflexivity]. apply Rltb_true in E. exfalso.
  destruct (over_number r c u) as [E'|L]; [contradiction|].
  assert (0 <= average r c u (fun i j => z i j ^ 2)); [|lra]. unfold average. apply Rmult_le_pos; [apply squares_nonneg|].
  apply Rlt_le, Rinv_0_lt_compat. lra.
Qed.

(** ** Polynomials *)
Lemma product_sum : forall row c, product c row = sum_to (List.length row) (fun k => nth k c 0 * nth k row 0).
Proof.
  intros row. induction row as [|x row IH] using rev_ind; intros c.
  - unfold product. rewrite combine_nil. reflexivity.
  - rewrite app_length, Nat.add_1_r. cbn [sum_to]. rewrite app_nth2, Nat.sub_diag by lia. cbn [nth].
    rewrite (sum_to_ext _ _ (fun k => nth k c 0 * nth k row 0)) by (intros; rewrite app_nth1 by lia; reflexivity).
    rewrite <- IH. clear IH. revert c. induction row as [|y row IH]; intros [|a c]; cbn.
    + unfold product. cbn. lra.
    + unfold product. cbn. rewrite combine_nil. cbn. lra.
    + unfold product. cbn. lra.
    + unfold product in *. cbn. rewrite IH. lra.
Qed.
Lemma nth_prod : forall n m a b d, (a < n)%nat -> (b < m)%nat -> nth (a * m + b) (list_prod (seq 0 n) (seq 0 m)) d = (a, b).
Proof.
  induction n; intros m a b d Ha Hb; [lia|]. rewrite seq_S, list_prod_app. cbn [list_prod Nat.add]. rewrite app_nil_r.
  assert (L : List.length (list_prod (seq 0 n) (seq 0 m)) = (n * m)%nat) by (rewrite prod_length, !seq_length; reflexivity).
  destruct (Nat.eq_dec a n) as [->|Hn].
  - rewrite app_nth2 by lia. rewrite L. replace (n * m + b - n * m)%nat with b by lia.
    rewrite (nth_indep _ _ ((fun y => (n, y)) 0%nat)) by (rewrite map_length, seq_length; lia).
    rewrite map_nth, seq_nth by lia. reflexivity.
  - rewrite app_nth1 by (rewrite L; nia). apply IHn; lia.
Qed.
Lemma basis_length : forall order ij, List.length (basis order ij) = (S order * S order)%nat.
Proof. intros. unfold basis, exponents. rewrite map_length, prod_length, !seq_length. reflexivity. Qed.
Lemma product_basis : forall order k i j, product k (basis order (i, j)) = polynomial order k (INR j) (INR i).
Proof.
  intros. rewrite product_sum, basis_length, sum_to_split. unfold polynomial. apply sum_to_ext. intros a Ha. apply sum_to_ext. intros b Hb.
  unfold basis. cbn [fst snd].
  rewrite (nth_indep (map (fun e : nat * nat => INR j ^ fst e * INR i ^ snd e) _) 0 ((fun e : nat * nat => INR j ^ fst e * INR i ^ snd e) (0, 0)%nat))
    by (unfold exponents; rewrite map_length, prod_length, !seq_length; nia).
  rewrite (map_nth (fun e : nat * nat => INR j ^ fst e * INR i ^ snd e)). unfold exponents. rewrite nth_prod by assumption. cbn [fst snd]. ring.
Qed.
Lemma poly_value_fin : forall k b, poly_value (map Fin k) b = Fin (product k b).
Proof.
  intros k b. unfold poly_value, product. replace (product k b) with (0 + product k b) by lra.
  assert (G : forall k b s, fold_left (fun s ab => fadd s (fmul (fst ab) (Fin (snd ab)))) (combine (map Fin k) b) (Fin s) =
     Fin (s + fold_right Rplus 0 (map (fun ab => fst ab * snd ab) (combine k b)))).
  { induction k0 as [|a k0 IH]; intros [|x b'] s; cbn; try (f_equal; lra). rewrite IH. f_equal. lra. }
  rewrite G. f_equal. unfold product. lra.
Qed.
(** Linear combinations of coefficients. *)
Definition blend (order : nat) (a : R) (k : list R) (b : R) (l : list R) : list R :=
  map (fun i => a * nth i k 0 + b * nth i l 0) (seq 0 (S order * S order)).
Lemma blend_length : forall order a k b l, List.length (blend order a k b l) = (S order * S order)%nat.
Proof. intros. unfold blend. rewrite map_length, seq_length. reflexivity. Qed.
Lemma poly_blend : forall order a k b l x y,
  polynomial order (blend order a k b l) x y = a * polynomial order k x y + b * polynomial order l x y.
Proof.
  intros. unfold polynomial. rewrite <- !sum_to_scal, <- sum_to_plus. apply sum_to_ext. intros i Hi.
  rewrite <- !sum_to_scal, <- sum_to_plus. apply sum_to_ext. intros j Hj. unfold blend.
  rewrite (nth_indep _ 0 ((fun q => a * nth q k 0 + b * nth q l 0) 0%nat)) by (rewrite map_length, seq_length; nia).
  rewrite (map_nth (fun q => a * nth q k 0 + b * nth q l 0)), seq_nth by nia. cbn [Nat.add]. ring.
Qed.
Lemma left_blend : forall order a k b l z i j, left_of order (blend order a k b l) z i j =
  z i j - (a * polynomial order k (INR j) (INR i) + b * polynomial order l (INR j) (INR i)).
Proof. intros. unfold left_of. rewrite poly_blend. reflexivity. Qed.
(** The constant polynomial. *)
Lemma poly_const : forall order t x y, polynomial order [t] x y = t.
Proof.
  intros. unfold polynomial.
  assert (G : forall n (f : nat -> R), (forall i, (0 < i)%nat -> f i = 0) -> sum_to (S n) f = f 0%nat).
  { induction n as [|n IH]; intros f H; [cbn; lra|].
    change (sum_to (S n) f + f (S n) = f 0%nat). rewrite IH by assumption. rewrite (H (S n)) by lia. lra. }
  rewrite (G order).
  - rewrite (G order); [cbn; lra|]. intros i Hi. rewrite nth_overflow by (cbn; nia). ring.
  - intros i Hi. rewrite (sum_to_ext _ _ (fun _ => 0)); [apply sum_to_zero|]. intros j _.
    rewrite nth_overflow by (cbn; nia). ring.
Qed.

(** ** Flattening *)
Section Flat.
Variables (order r c : nat) (u : bmask).
Lemma squares_ext : forall z z', (forall i j, (i < r)%nat -> (j < c)%nat -> u i j = true -> z i j = z' i j) -> squares r c u z = squares r c u z'.
Proof. intros z z' H. apply over_ext. intros. rewrite H by assumption. reflexivity. Qed.
Lemma squares_scal : forall a z, squares r c u (fun i j => a * z i j) = a ^ 2 * squares r c u z.
Proof. intros. unfold squares. rewrite <- over_scal. apply over_ext. intros. ring. Qed.
Lemma squares_null : forall z, squares r c u z <= 0 -> forall i j, (i < r)%nat -> (j < c)%nat -> u i j = true -> z i j = 0.
Proof.
  intros z H i j Hi Hj U. assert (E := over_null r c u (fun i j => z i j ^ 2) ltac:(intros; apply pow2_ge_0) H i j Hi Hj U). cbn in E. nra.
Qed.
Lemma flattened_unique : forall z z1 z2, flattened order r c u z z1 -> flattened order r c u z z2 ->
  forall i j, (i < r)%nat -> (j < c)%nat -> u i j = true -> z1 i j = z2 i j.
Proof.
  intros z z1 z2 (k1 & _ & E1 & M1) (k2 & _ & E2 & M2) i j Hi Hj U.
  assert (A : squares r c u z1 <= squares r c u z2) by (rewrite (squares_ext z2 (left_of order k2 z)) by assumption; apply M1).
  assert (B : squares r c u z2 <= squares r c u z1) by (rewrite (squares_ext z1 (left_of order k1 z)) by assumption; apply M2).
  assert (C := M1 (blend order (1/2) k1 (1/2) k2)).
  assert (D : squares r c u (left_of order (blend order (1/2) k1 (1/2) k2) z) =
     1/2 * squares r c u z1 + 1/2 * squares r c u z2 - 1/4 * squares r c u (fun i j => z1 i j - z2 i j)).
  { replace (1/2 * squares r c u z1 + 1/2 * squares r c u z2 - 1/4 * squares r c u (fun i j => z1 i j - z2 i j))
      with (1/2 * squares r c u z1 + (1/2 * squares r c u z2 + (-1/4) * squares r c u (fun i j => z1 i j - z2 i j))) by lra.
    unfold squares. rewrite <- !over_scal, <- !over_plus. apply over_ext. intros a b Ha Hb V.
    rewrite left_blend, E1, E2 by assumption. unfold left_of. field. }
  rewrite D in C. assert (S0 : squares r c u (fun i j => z1 i j - z2 i j) <= 0) by lra.
  assert (Z := squares_null _ S0 i j Hi Hj U). cbn in Z. lra.
Qed.
Lemma flattened_ext : forall z1 z1' z2 z2',
  (forall i j, (i < r)%nat -> (j < c)%nat -> u i j = true -> z1 i j = z2 i j) ->
  (forall i j, (i < r)%nat -> (j < c)%nat -> u i j = true -> z1' i j = z2' i j) ->
  flattened order r c u z1 z1' -> flattened order r c u z2 z2'.
Proof.
  intros z1 z1' z2 z2' E E' (k & L & F & M). exists k. split; [exact L|split].
  - intros i j Hi Hj U. rewrite <- E', F by assumption. unfold left_of. rewrite E by assumption. reflexivity.
  - intros k'. rewrite <- (squares_ext z1' z2') by assumption.
    rewrite <- (squares_ext (left_of order k' z1) (left_of order k' z2)) by (intros; unfold left_of; rewrite E by assumption; reflexivity). apply M.
Qed.
Lemma flattened_scale : forall a z z', flattened order r c u z z' -> flattened order r c u (fun i j => a * z i j) (fun i j => a * z' i j).
Proof.
  intros a z z' (k & L & F & M). exists (blend order a k 0 k). split; [apply blend_length|split].
  - intros i j Hi Hj U. rewrite F by assumption. rewrite left_blend. unfold left_of. ring.
  - intros k'. rewrite squares_scal. destruct (Req_dec a 0) as [->|N].
    + replace (0 ^ 2 * squares r c u z') with 0 by ring. apply squares_nonneg.
    + rewrite (squares_ext (left_of order k' (fun i j => a * z i j)) (fun i j => a * left_of order (blend order (/ a) k' 0 k') z i j)).
      * rewrite squares_scal. apply Rmult_le_compat_l; [apply pow2_ge_0|apply M].
      * intros i j _ _ _. rewrite left_blend. unfold left_of. field. exact N.
Qed.
Lemma flattened_tilt : forall q z z', flattened order r c u z z' ->
  flattened order r c u (fun i j => z i j + polynomial order q (INR j) (INR i)) z'.
Proof.
  intros q z z' (k & L & F & M). exists (blend order 1 k 1 q). split; [apply blend_length|split].
  - intros i j Hi Hj U. rewrite F by assumption. rewrite left_blend. unfold left_of. ring.
  - intros k'. rewrite (squares_ext (left_of order k' _) (left_of order (blend order 1 k' (-1) q) z)); [apply M|].
    intros i j _ _ _. rewrite left_blend. unfold left_of. ring.
Qed.
Lemma flattened_again : forall z z', flattened order r c u z z' -> flattened order r c u z' z'.
Proof.
  intros z z' (k & L & F & M). exists (blend order 0 k 0 k). split; [apply blend_length|split].
  - intros i j _ _ _. rewrite left_blend. ring.
  - intros k'. rewrite (squares_ext (left_of order k' z') (left_of order (blend order 1 k 1 k') z)); [apply M|].
    intros i j Hi Hj U. rewrite left_blend. unfold left_of. rewrite F by assumption. unfold left_of. ring.
Qed.
Lemma flattened_mean : forall z z', flattened order r c u z z' -> over r c u z' = 0.
Proof.
  intros z z' (k & L & F & M).
  assert (G : forall t, squares r c u z' <= squares r c u z' + (- 2 * t) * over r c u z' + t ^ 2 * number r c u).
  { intros t. eapply Rle_trans; [apply (M (blend order 1 k 1 [t]))|]. unfold squares, number.
    rewrite <- !over_scal, <- !over_plus. apply over_le. intros i j Hi Hj U. rewrite left_blend, poly_const.
    rewrite F by assumption. unfold left_of. apply Req_le. ring. }
  destruct (over_number r c u) as [E|E].
  - pose proof (G (over r c u z')) as H. rewrite E in H. nra.
  - specialize (G (over r c u z' / number r c u)). set (n := number r c u) in *. set (s := over r c u z') in *.
    assert (H : - 2 * (s / n) * s + (s / n) ^ 2 * n = - (s * s / n)) by (field; lra).
    assert (K : s * s / n <= 0) by lra. assert (0 < / n) by (apply Rinv_0_lt_compat; lra). unfold Rdiv in K.
    destruct (Req_dec s 0) as [|Ns]; [assumption|]. assert (0 < s * s) by (destruct (Rlt_le_dec 0 s); nra).
    pose proof (Rmult_lt_0_compat (s * s) (/ n)). lra.
Qed.
Lemma flattened_poly : forall q z z', (forall i j, (i < r)%nat -> (j < c)%nat -> u i j = true -> z i j = polynomial order q (INR j) (INR i)) ->
  flattened order r c u z z' -> forall i j, (i < r)%nat -> (j < c)%nat -> u i j = true -> z' i j = 0.
Proof.
  intros q z z' E (k & L & F & M). apply squares_null.
  eapply Rle_trans; [apply (M q)|]. rewrite (squares_ext (left_of order q z) (fun _ _ => 0 * 0)).
  - rewrite (squares_scal 0 (fun _ _ => 0)). nra.
  - intros i j Hi Hj U. unfold left_of. rewrite E by assumption. ring.
Qed.
End Flat.

(** ** The fit *)
Lemma misfit_points : forall order k (z : nat -> nat -> R) pts,
  misfit (map (basis order) pts) k (map (fst_snd z) pts) = total (map (fst_snd (fun i j => left_of order k z i j ^ 2)) pts).
Proof.
  intros. unfold misfit, total. induction pts as [|[i j] pts IH]; [reflexivity|].
  cbn [map combine fold_right fst snd]. rewrite IH. f_equal. rewrite product_basis. reflexivity.
Qed.
Lemma subtract_fin : forall w p order m z, good_lstsq (lstsq w) -> fits p m -> whole p = false -> heights_are p (used p m) z ->
  exists eta k, subtract_polynomial w p order m = Ok (eta, map Fin k) /\ nrows eta = nrows p /\ ncols eta = ncols p /\ whole eta = false /\
    List.length k = (S order * S order)%nat /\
    heights_are eta (used p m) (left_of order k z) /\
    flattened order (nrows p) (ncols p) (used p m) z (left_of order k z) /\
    (forall i j, used p m i j = false -> h_at eta i j = h_at p i j).
Proof.
  intros w p order m z G F W H. destruct (poly_mask_used p m F) as (mk & PM & K).
  unfold subtract_polynomial. rewrite PM. cbn [bind].
  set (pts := filter (keep mk) (points (nrows p) (ncols p))).
  assert (P : pts = filter (fst_snd (used p m)) (points (nrows p) (ncols p))) by (apply filter_ext; intros [i j]; apply K).
  assert (E : map (entry p) pts = map Fin (map (fst_snd z) pts)).
  { rewrite map_map. apply map_ext_in. intros [i j] I. rewrite P in I. apply filter_In in I. destruct I as [I U].
    apply in_points in I. apply H; tauto. }
  destruct (G (S order * S order)%nat (map (basis order) pts) (map (fst_snd z) pts)) as (k & Ek & Lk & Mk).
  { apply Forall_forall. intros row I. apply in_map_iff in I. destruct I as (ij & <- & _). apply basis_length. }
  { rewrite !map_length. reflexivity. }
  rewrite E, Ek.
  assert (NF : existsb not_finite (map Fin k) = false) by (clear; induction k; [reflexivity|exact IHk]).
  rewrite NF, W. cbn [andb].
  eexists _, k. repeat split; try reflexivity.
  - exact Lk.
  - intros i j Hi Hj U. cbn [h_at]. rewrite K, U, poly_value_fin, product_basis, (H i j) by assumption. reflexivity.
  - exists k. split; [exact Lk|split].
    + reflexivity.
    + intros k'. unfold squares. rewrite <- !total_over, <- P, <- !misfit_points.
      assert (B : misfit (map (basis order) pts) k' (map (fst_snd z) pts) =
                  misfit (map (basis order) pts) (blend order 1 k' 0 k') (map (fst_snd z) pts)).
      { rewrite !misfit_points. f_equal. apply map_ext. intros [i j]. unfold fst_snd. cbn [fst snd]. rewrite left_blend. unfold left_of. f_equal. ring. }
      rewrite B. apply Mk, blend_length.
  - intros i j U. cbn [h_at]. rewrite K, U. reflexivity.
Qed.

(** ** A least squares routine *)
(** Elimination of one column after the other, as a witness that such routines exist. *)
Fixpoint comb (cols : list (nat -> R)) (c : list R) (i : nat) : R :=
  match cols, c with a :: b, t :: c' => t * a i + comb b c' i | _, _ => 0 end.
Definition minus_times (t : R) (ed : R * R) : R := fst ed - t * snd ed.
Fixpoint lsq (m : nat) (cols : list (nat -> R)) (z : nat -> R) : list R :=
  match cols with
  | [] => []
  | a :: b =>
      let d := lsq m b a in
      let e := lsq m b z in
      let a' := fun i => a i - comb b d i in
      let n := sum_to m (fun i => a' i * a' i) in
      let t := if Reqb n 0 then 0 else sum_to m (fun i => a' i * (z i - comb b e i)) / n in
      t :: map (minus_times t) (combine e d)
  end.
Lemma lsq_length : forall m cols z, List.length (lsq m cols z) = List.length cols.
Proof. induction cols; intros z; [reflexivity|]. cbn. rewrite map_length, combine_length, !IHcols, Nat.min_id. reflexivity. Qed.
Lemma comb_minus : forall t cols e d i, List.length e = List.length cols -> List.length d = List.length cols ->
  comb cols (map (minus_times t) (combine e d)) i = comb cols e i - t * comb cols d i.
Proof.
  induction cols as [|a cols IH]; intros [|x e] [|y d] i E D; cbn in *; try discriminate; [lra|].
  rewrite IH by lia. unfold minus_times. cbn. ring.
Qed.
Lemma comb_orth : forall m x cols c, (forall a, In a cols -> sum_to m (fun i => a i * x i) = 0) -> sum_to m (fun i => comb cols c i * x i) = 0.
Proof.
  induction cols as [|a cols IH]; intros c H; cbn.
  - rewrite (sum_to_ext m _ (fun _ => 0)) by (intros; ring). apply sum_to_zero.
  - destruct c as [|t c]; [rewrite (sum_to_ext m _ (fun _ => 0)) by (intros; ring); apply sum_to_zero|].
    rewrite (sum_to_ext m _ (fun i => t * (a i * x i) + comb cols c i * x i)) by (intros; ring).
    rewrite sum_to_plus, sum_to_scal, IH by (intros; apply H; right; assumption). rewrite H by (left; reflexivity). ring.
Qed.
Lemma lsq_normal : forall m cols z b, In b cols -> sum_to m (fun i => b i * (z i - comb cols (lsq m cols z) i)) = 0.
Proof.
  induction cols as [|a cols IH]; intros z b I; [destruct I|]. cbn [lsq].
  set (d := lsq m cols a). set (e := lsq m cols z). set (n := sum_to m (fun i => (a i - comb cols d i) * (a i - comb cols d i))).
  set (t := if Reqb n 0 then 0 else sum_to m (fun i => (a i - comb cols d i) * (z i - comb cols e i)) / n).
  assert (R0 : forall i, z i - comb (a :: cols) (t :: map (minus_times t) (combine e d)) i = (z i - comb cols e i) + (- t) * (a i - comb cols d i)).
  { intros i. cbn [comb]. rewrite comb_minus by apply lsq_length. ring. }
  assert (O : forall q, In q cols -> sum_to m (fun i => q i * (z i - comb (a :: cols) (t :: map (minus_times t) (combine e d)) i)) = 0).
  { intros q Q. rewrite (sum_to_ext m _ (fun i => q i * (z i - comb cols e i) + (- t) * (q i * (a i - comb cols d i))))
      by (intros; rewrite R0; ring).
    rewrite sum_to_plus, sum_to_scal. unfold e, d. rewrite !IH by assumption. ring. }
  destruct I as [<-|I]; [|apply O, I].
  rewrite (sum_to_ext m _ (fun i => comb cols d i * (z i - comb (a :: cols) (t :: map (minus_times t) (combine e d)) i)
    + ((a i - comb cols d i) * (z i - comb cols e i) + (- t) * ((a i - comb cols d i) * (a i - comb cols d i))))).
  2:{ intros i _. rewrite R0. ring. }
  rewrite sum_to_plus, comb_orth by exact O. rewrite sum_to_plus, sum_to_scal. fold n.
  unfold t. destruct (Reqb n 0) eqn:E.
  - apply Reqb_true in E.
    assert (Z : forall i, (i < m)%nat -> a i - comb cols d i = 0).
    { intros i Hi. assert (Q := sum_to_null m (fun i => (a i - comb cols d i) * (a i - comb cols d i)) (fun i _ => Rle_0_sqr (a i - comb cols d i)) (Req_le _ _ E) i Hi).
      cbn beta in Q. destruct (Rmult_integral _ _ Q); assumption. }
    rewrite (sum_to_ext m _ (fun _ => 0)) by (intros; rewrite Z by assumption; ring). rewrite sum_to_zero. ring.
  - apply Reqb_false in E. field. exact E.
Qed.
Lemma lsq_best : forall m cols z c', List.length c' = List.length cols ->
  sum_to m (fun i => (z i - comb cols (lsq m cols z) i) ^ 2) <= sum_to m (fun i => (z i - comb cols c' i) ^ 2).
Proof.
  intros m cols z c' L. set (c := lsq m cols z).
  assert (D : forall i, comb cols (map (minus_times 1) (combine c c')) i = comb cols c i - comb cols c' i).
  { intros i. rewrite comb_minus; [ring|apply lsq_length|exact L]. }
  rewrite (sum_to_ext m (fun i => (z i - comb cols c' i) ^ 2)
    (fun i => (z i - comb cols c i) ^ 2 + (2 * (comb cols (map (minus_times 1) (combine c c')) i * (z i - comb cols c i))
       + comb cols (map (minus_times 1) (combine c c')) i ^ 2))) by (intros; rewrite D; ring).
  rewrite sum_to_plus, sum_to_plus, sum_to_scal, comb_orth by (intros; apply lsq_normal; assumption).
  assert (0 <= sum_to m (fun i => comb cols (map (minus_times 1) (combine c c')) i ^ 2)) by (apply sum_to_nonneg; intros; apply pow2_ge_0). lra.
Qed.
Definition column (g : list (list R)) (k i : nat) : R := nth k (nth i g []) 0.
Definition number_of (x : flt) : R := match x with Fin a => a | _ => 0 end.
Definition witness (n : nat) (g : list (list R)) (z : list flt) : option (list flt) :=
  Some (map Fin (lsq (List.length g) (map (column g) (seq 0 n)) (fun i => number_of (nth i z NaN)))).
Lemma comb_columns : forall g i n s c, comb (map (column g) (seq s n)) c i = sum_to n (fun k => nth k c 0 * column g (s + k) i).
Proof.
  intros g i. induction n; intros s c; [reflexivity|]. cbn [seq map]. destruct c as [|t c]; cbn [comb].
  - rewrite (sum_to_ext _ _ (fun _ => 0)); [rewrite sum_to_zero; reflexivity|]. intros [|k] _; cbn; ring.
  - rewrite IHn. clear IHn. revert c. induction n; intros c; cbn [sum_to].
    + rewrite Nat.add_0_r. cbn. ring.
    + cbn [sum_to] in IHn. rewrite <- Rplus_assoc, IHn. replace (S s + n)%nat with (s + S n)%nat by lia. reflexivity.
Qed.
Lemma misfit_sum : forall n g c z, Forall (fun row => List.length row = n) g -> List.length g = List.length z ->
  misfit g c z = sum_to (List.length g) (fun i => (nth i z 0 - comb (map (column g) (seq 0 n)) c i) ^ 2).
Proof.
  intros n g c. induction g as [|row g IH] using rev_ind; intros z F L; [reflexivity|].
  destruct z as [|x z _] using rev_ind; [rewrite app_length in L; cbn in L; lia|].
  rewrite !app_length, !Nat.add_1_r in L. injection L as L. apply Forall_app in F. destruct F as [F F1]. apply Forall_inv in F1.
  unfold misfit. assert (C : combine (g ++ [row]) (z ++ [x]) = (combine g z ++ [(row, x)])%list).
  { clear - L. revert z L. induction g; intros [|y z] L; cbn in *; try discriminate; [reflexivity|]. rewrite IHg by lia. reflexivity. }
  rewrite C, map_app, app_length, Nat.add_1_r. cbn [map fst snd sum_to].
  change (total (map (fun gz => (snd gz - product c (fst gz)) ^ 2) (combine g z) ++ [(x - product c row) ^ 2]) = 
          sum_to (List.length g) (fun i => (nth i (z ++ [x]) 0 - comb (map (column (g ++ [row])) (seq 0 n)) c i) ^ 2) +
          (nth (List.length g) (z ++ [x]) 0 - comb (map (column (g ++ [row])) (seq 0 n)) c (List.length g)) ^ 2).
  rewrite total_app. unfold total at 2. cbn [fold_right]. rewrite Rplus_0_r.
  change (total (map (fun gz => (snd gz - product c (fst gz)) ^ 2) (combine g z))) with (misfit g c z). rewrite (IH z) by assumption. f_equal.
  - apply sum_to_ext. intros i Hi. rewrite app_nth1 by lia. rewrite !comb_columns. f_equal. f_equal. apply sum_to_ext. intros k _.
    unfold column. rewrite app_nth1 by lia. reflexivity.
  - rewrite L at 1. rewrite app_nth2, Nat.sub_diag by lia. cbn [nth]. rewrite comb_columns, product_sum, F1. f_equal. f_equal.
    apply sum_to_ext. intros k _. unfold column. rewrite app_nth2, Nat.sub_diag by lia. reflexivity.
Qed.
Lemma witness_good : good_lstsq witness.
Proof.
  intros n g z F L. eexists. split; [reflexivity|]. split; [rewrite lsq_length, map_length, seq_length; reflexivity|].
  intros c' L'. rewrite !(misfit_sum n) by assumption.
  assert (E : forall i, number_of (nth i (map Fin z) NaN) = nth i z 0).
  { clear. intros i. revert i. induction z; intros [|i]; cbn; auto. }
  replace (fun i => number_of (nth i (map Fin z) NaN)) with (fun i => nth i z 0) by (apply functional_extensionality; intros; rewrite E; reflexivity).
  apply (lsq_best (List.length g) (map (column g) (seq 0 n)) (fun i => nth i z 0)). rewrite map_length, seq_length. exact L'.
Qed.

(** ** Calls of [roughness] *)
Lemma rough_case' : forall w s gs m curved nf cut four,
  (exists e, forall name, roughness w s name gs m curved nf cut four = (profile_of s, Err e)) \/
  (exists eta mk g, g = snd (check_surface s gs) /\ norm_mask (profile_of s) m = Ok mk /\
    (if nf then eta = profile_of s else exists k, subtract_polynomial w (profile_of s) (if curved then 2 else 1)
       (match mk with None => NoMask | Some f => ArrMask (nrows (profile_of s)) (ncols (profile_of s)) f end) = Ok (eta, k)) /\
    forall name, roughness w s name gs m curved nf cut four =
      (if nf then fst (many w eta mk g cut four name) else profile_of s, snd (many w eta mk g cut four name))).
Proof.
  intros. unfold roughness. replace (check_surface s gs) with (profile_of s, snd (check_surface s gs)) by (destruct s; reflexivity).
  set (g := snd (check_surface s gs)). set (p := profile_of s). destruct (norm_mask p m) as [mk|e]; [|left; eauto].
  destruct nf.
  - right. exists p, mk, g. split; [reflexivity|split; [reflexivity|split; [reflexivity|]]]. intros name. apply surjective_pairing.
  - destruct (subtract_polynomial _ _ _ _) as [[eta k]|e] eqn:E; [|left; eauto].
    right. exists eta, mk, g. split; [reflexivity|split; [reflexivity|split; [exists k; exact E|]]]. intros name. reflexivity.
Qed.
Lemma rough_case : forall w s gs m curved nf cut four,
  (exists e, forall name, roughness w s name gs m curved nf cut four = (profile_of s, Err e)) \/
  (exists eta mk g, norm_mask (profile_of s) m = Ok mk /\
    (if nf then eta = profile_of s else exists k, subtract_polynomial w (profile_of s) (if curved then 2 else 1)
       (match mk with None => NoMask | Some f => ArrMask (nrows (profile_of s)) (ncols (profile_of s)) f end) = Ok (eta, k)) /\
    forall name, roughness w s name gs m curved nf cut four =
      (if nf then fst (many w eta mk g cut four name) else profile_of s, snd (many w eta mk g cut four name))).
Proof.
  intros. destruct (rough_case' w s gs m curved nf cut four) as [H|(eta & mk & g & _ & H)]; [left; exact H|right; exists eta, mk, g; exact H].
Qed.
Lemma one_sq : forall w eta mk g cut four n, lower n = "sq"%string -> many w eta mk g cut four (Name n) = (eta, Ok (VNum (root_mean_square (entries eta mk)))).
Proof. intros. cbn [many]. unfold one. rewrite H. reflexivity. Qed.
Lemma one_sa : forall w eta mk g cut four n, lower n = "sa"%string -> many w eta mk g cut four (Name n) = (eta, Ok (VNum (fmean (map fabs (entries eta mk))))).
Proof. intros. cbn [many]. unfold one. rewrite H. reflexivity. Qed.
Lemma one_ssk : forall w eta mk g cut four n, lower n = "ssk"%string -> many w eta mk g cut four (Name n) =
  (eta, Ok (VNum (fdiv (fmean (map (fun x => fpow x 3) (entries eta mk))) (fpow (root_mean_square (entries eta mk)) 3)))).
Proof. intros. cbn [many]. unfold one. rewrite H. reflexivity. Qed.
Lemma one_sku : forall w eta mk g cut four n, lower n = "sku"%string -> many w eta mk g cut four (Name n) =
  (eta, Ok (VNum (fdiv (fmean (map (fun x => fpow x 4) (entries eta mk))) (fpow (root_mean_square (entries eta mk)) 4)))).
Proof. intros. cbn [many]. unfold one. rewrite H. reflexivity. Qed.
Lemma one_sv : forall w eta mk g cut four n, lower n = "sv"%string -> many w eta mk g cut four (Name n) =
  (eta, bind (npmin (entries eta mk)) (fun x => Ok (VNum x))).
Proof. intros. cbn [many]. unfold one. rewrite H. reflexivity. Qed.

(** ** Finite results come from finite heights *)
Lemma fsum_inv : forall l x, fsum l = Fin x -> exists lr, l = map Fin lr /\ x = total lr.
Proof.
  induction l; intros x H; [exists []; injection H as <-; split; reflexivity|]. cbn in H. fold (fsum l) in H.
  destruct (fadd_fin _ _ _ H) as (y & z & A & B & ->). destruct (IHl z B) as (lr & -> & ->). exists (y :: lr). subst. split; reflexivity.
Qed.
Lemma fmean_inv : forall l x, fmean l = Fin x -> exists lr, l = map Fin lr /\ lr <> [] /\ x = total lr / INR (List.length lr).
Proof.
  intros l x H. unfold fmean in H. destruct (fsum l) as [y| | |] eqn:E.
  - destruct (fsum_inv l y E) as (lr & -> & ->). rewrite map_length in H. destruct lr as [|a lr].
    + exfalso. cbn in H. unfold signed_inf in H. rewrite !(proj2 (Reqb_true 0 0)) in H by reflexivity.
      destruct (Rltb 0 0); discriminate.
    + exists (a :: lr). split; [reflexivity|split; [discriminate|]]. rewrite fdiv_fin' in H; [injection H as <-; reflexivity|].
      apply not_0_INR. discriminate.
  - exfalso. cbn in H. destruct (Rltb _ _); discriminate.
  - exfalso. cbn in H. destruct (Rltb _ _); discriminate.
  - exfalso. cbn in H. discriminate.
Qed.
Lemma map_fin_inv : forall f g, (forall x y, f x = Fin y -> exists a, x = Fin a) -> (forall a, f (Fin a) = Fin (g a)) ->
  forall l lr, map f l = map Fin lr -> exists l', l = map Fin l' /\ lr = map g l'.
Proof.
  intros f g I F. induction l; intros [|y lr] H; try discriminate.
  - exists []. split; reflexivity.
  - injection H as A B. destruct (I _ _ A) as (x & ->). destruct (IHl lr B) as (l' & -> & ->). exists (x :: l'). split; [reflexivity|].
    cbn. f_equal. rewrite F in A. injection A as <-. reflexivity.
Qed.
Lemma fpow_inv : forall n x y, fpow x (S n) = Fin y -> exists a, x = Fin a.
Proof. intros n x y H. cbn in H. destruct (fmul_fin _ _ _ H) as (a & b & -> & _). eauto. Qed.
Lemma fabs_inv : forall x y, fabs x = Fin y -> exists a, x = Fin a.
Proof. intros [a| | |] y H; cbn in H; try discriminate. eauto. Qed.
Definition moment (n : nat) (l : list R) : R := total (map (fun x => x ^ n) l) / INR (List.length l).
Lemma fmean_pow_inv : forall n l x, fmean (map (fun x => fpow x (S n)) l) = Fin x -> exists lr, l = map Fin lr /\ lr <> [] /\ x = moment (S n) lr.
Proof.
  intros n l x H. destruct (fmean_inv _ _ H) as (lr & E & N & ->).
  destruct (map_fin_inv (fun x => fpow x (S n)) (fun x => x ^ S n) (fpow_inv n) (fun a => fpow_fin a (S n)) l lr E) as (l' & -> & ->).
  exists l'. split; [reflexivity|split]; [intros ->; apply N; reflexivity|]. unfold moment. rewrite map_length. reflexivity.
Qed.
Lemma fmean_pow : forall n lr, lr <> [] -> fmean (map (fun x => fpow x n) (map Fin lr)) = Fin (moment n lr).
Proof.
  intros n lr N. unfold fmean. rewrite map_map. rewrite (map_ext _ (fun x => Fin (x ^ n))) by (intros; apply fpow_fin).
  rewrite <- (map_map (fun x => x ^ n) Fin), fsum_fin, !map_length, fdiv_fin'; [reflexivity|]. apply not_0_INR. destruct lr; [contradiction|discriminate].
Qed.
Lemma moment_even : forall l, 0 <= moment 2 l.
Proof.
  intros. unfold moment. destruct l as [|a l]; [cbn; unfold Rdiv; lra|]. apply Rmult_le_pos.
  - generalize (a :: l). induction l0; cbn; [unfold total; cbn; lra|]. fold (total (map (fun x => x ^ 2) l0)) in *. unfold total in *. cbn in *. nra.
  - apply Rlt_le, Rinv_0_lt_compat, lt_0_INR. cbn. lia.
Qed.
Lemma rms_list : forall lr, lr <> [] -> root_mean_square (map Fin lr) = Fin (sqrt (moment 2 lr)).
Proof.
  intros lr N. unfold root_mean_square. rewrite fmean_pow by assumption. cbn [fsqrt]. destruct (Rltb _ 0) eqn:E; [|reflexivity].
  apply Rltb_true in E. pose proof (moment_even lr). lra.
Qed.
Lemma rms_inv : forall l x, root_mean_square l = Fin x -> exists lr, l = map Fin lr /\ lr <> [] /\ x = sqrt (moment 2 lr).
Proof.
  intros l x H. unfold root_mean_square in H. destruct (fmean (map (fun x => fpow x 2) l)) as [y| | |] eqn:E; cbn in H; try discriminate.
  destruct (fmean_pow_inv 1 l y E) as (lr & -> & N & ->). exists lr. split; [reflexivity|split; [exact N|]].
  destruct (Rltb _ 0); [discriminate|]. injection H as <-. reflexivity.
Qed.

(** ** Inequalities of moments *)
Definition tot {A} (f : A -> R) (l : list A) : R := total (map f l).
Lemma tot_cons : forall {A} (f : A -> R) a l, tot f (a :: l) = f a + tot f l. Proof. reflexivity. Qed.
Lemma tot_ext : forall {A} (f g : A -> R) l, (forall x, In x l -> f x = g x) -> tot f l = tot g l.
Proof. intros. unfold tot. f_equal. apply map_ext_in. assumption. Qed.
Lemma tot_plus : forall {A} (f g : A -> R) l, tot (fun x => f x + g x) l = tot f l + tot g l.
Proof. induction l; [unfold tot, total; cbn; lra|]. rewrite !tot_cons, IHl. lra. Qed.
Lemma tot_scal : forall {A} a (f : A -> R) l, tot (fun x => a * f x) l = a * tot f l.
Proof. induction l; [unfold tot, total; cbn; lra|]. rewrite !tot_cons, IHl. lra. Qed.
Lemma tot_nonneg : forall {A} (f : A -> R) l, (forall x, 0 <= f x) -> 0 <= tot f l.
Proof. intros A f l H. induction l; [unfold tot, total; cbn; lra|]. rewrite tot_cons. specialize (H a). lra. Qed.
Lemma tot_null : forall {A} (f : A -> R) l, (forall x, 0 <= f x) -> tot f l <= 0 -> forall x, In x l -> f x = 0.
Proof.
  intros A f l H. induction l; intros S x I; [destruct I|]. rewrite tot_cons in S. pose proof (H a). pose proof (tot_nonneg f l H).
  destruct I as [<-|I]; [lra|]. apply IHl; [lra|assumption].
Qed.
Lemma cauchy : forall {A} (f g : A -> R) l, tot (fun x => f x * g x) l ^ 2 <= tot (fun x => f x ^ 2) l * tot (fun x => g x ^ 2) l.
Proof.
  intros A f g l. set (t := tot (fun x => f x * g x) l). set (F := tot (fun x => f x ^ 2) l). set (s := tot (fun x => g x ^ 2) l).
  assert (S0 : 0 <= s) by (apply tot_nonneg; intros; apply pow2_ge_0).
  assert (Q : 0 <= s * (s * F - t ^ 2)).
  { replace (s * (s * F - t ^ 2)) with (s ^ 2 * F + ((- 2 * s * t) * t + t ^ 2 * s)) by ring.
    unfold t at 2. unfold F. unfold s at 3. rewrite <- !tot_scal, <- !tot_plus. apply tot_nonneg. intros x.
    replace (s ^ 2 * f x ^ 2 + (-2 * s * t * (f x * g x) + t ^ 2 * g x ^ 2)) with ((s * f x - t * g x) ^ 2) by ring. apply pow2_ge_0. }
  destruct (Req_dec s 0) as [Z|Z].
  - assert (T : t = 0).
    { unfold t. rewrite (tot_ext _ (fun _ => 0 * 0)).
      - rewrite (tot_scal 0 (fun _ => 0)). ring.
      - intros x I. assert (E := tot_null (fun x => g x ^ 2) l ltac:(intros; apply pow2_ge_0) ltac:(fold s; lra) x I). cbn beta in E.
        assert (g x = 0) by nra. rewrite H. ring. }
    rewrite T, Z. lra.
  - nra.
Qed.
Lemma moment_tot : forall n l, moment n l = tot (fun x => x ^ n) l / INR (List.length l). Proof. reflexivity. Qed.
Lemma tot_one : forall {A} (l : list A), tot (fun _ => 1 ^ 2) l = INR (List.length l).
Proof. induction l; [reflexivity|]. cbn [List.length]. rewrite tot_cons, IHl, S_INR. ring. Qed.
Lemma length_pos : forall {A} (l : list A), l <> [] -> 0 < INR (List.length l).
Proof. intros A [|a l] H; [contradiction|]. apply lt_0_INR. cbn. lia. Qed.
Lemma mean_abs_le : forall l, l <> [] -> total (map Rabs l) / INR (List.length l) <= sqrt (moment 2 l).
Proof.
  intros l N. pose proof (length_pos l N) as P. set (n := INR (List.length l)) in *.
  assert (A0 : 0 <= tot Rabs l) by (apply tot_nonneg, Rabs_pos).
  assert (C := cauchy Rabs (fun _ => 1) l). rewrite tot_one in C. fold n in C.
  rewrite (tot_ext (fun x => Rabs x * 1) Rabs) in C by (intros; ring).
  rewrite (tot_ext (fun x => Rabs x ^ 2) (fun x => x ^ 2)) in C by (intros; apply pow2_abs).
  fold (tot Rabs l). apply Rsqr_incr_0_var; [|apply sqrt_pos]. rewrite Rsqr_sqrt by apply moment_even. rewrite moment_tot. fold n. unfold Rsqr.
  replace (tot Rabs l / n * (tot Rabs l / n)) with (tot Rabs l ^ 2 * (/ n * / n)) by (field; lra).
  replace (tot (fun x => x ^ 2) l / n) with ((tot (fun x => x ^ 2) l * n) * (/ n * / n)) by (field; lra).
  apply Rmult_le_compat_r; [|exact C]. assert (0 < / n) by (apply Rinv_0_lt_compat, P). nra.
Qed.
Lemma moment_24 : forall l, l <> [] -> moment 2 l ^ 2 <= moment 4 l.
Proof.
  intros l N. pose proof (length_pos l N) as P. rewrite !moment_tot. set (n := INR (List.length l)) in *.
  assert (C := cauchy (fun x => x ^ 2) (fun _ => 1) l). rewrite tot_one in C. fold n in C.
  rewrite (tot_ext (fun x => x ^ 2 * 1) (fun x => x ^ 2)) in C by (intros; ring).
  rewrite (tot_ext (fun x => (x ^ 2) ^ 2) (fun x => x ^ 4)) in C by (intros; ring).
  replace ((tot (fun x => x ^ 2) l / n) ^ 2) with (tot (fun x => x ^ 2) l ^ 2 * (/ n * / n)) by (field; lra).
  replace (tot (fun x => x ^ 4) l / n) with ((tot (fun x => x ^ 4) l * n) * (/ n * / n)) by (field; lra).
  apply Rmult_le_compat_r; [|exact C]. assert (0 < / n) by (apply Rinv_0_lt_compat, P). nra.
Qed.
Lemma moment_324 : forall l, l <> [] -> moment 3 l ^ 2 <= moment 2 l * moment 4 l.
Proof.
  intros l N. pose proof (length_pos l N) as P. rewrite !moment_tot. set (n := INR (List.length l)) in *.
  assert (C := cauchy (fun x => x) (fun x => x ^ 2) l).
  rewrite (tot_ext (fun x => x * x ^ 2) (fun x => x ^ 3)) in C by (intros; ring).
  rewrite (tot_ext (fun x => (x ^ 2) ^ 2) (fun x => x ^ 4)) in C by (intros; ring).
  replace ((tot (fun x => x ^ 3) l / n) ^ 2) with (tot (fun x => x ^ 3) l ^ 2 * (/ n * / n)) by (field; lra).
  replace (tot (fun x => x ^ 2) l / n * (tot (fun x => x ^ 4) l / n)) with ((tot (fun x => x ^ 2) l * tot (fun x => x ^ 4) l) * (/ n * / n)) by (field; lra).
  apply Rmult_le_compat_r; [|exact C]. assert (0 < / n) by (apply Rinv_0_lt_compat, P). nra.
Qed.
Lemma moment_centred : forall l, l <> [] -> total l = 0 -> moment 2 l <> 0 -> moment 3 l ^ 2 + moment 2 l ^ 3 <= moment 2 l * moment 4 l.
Proof.
  intros l N T0 M2. pose proof (length_pos l N) as P. set (a := moment 2 l) in *. set (b := moment 3 l).
  assert (A : 0 < a) by (pose proof (moment_even l); fold a in H; lra).
  assert (Q : 0 <= tot (fun x => (x ^ 2 - b / a * x - a) ^ 2) l) by (apply tot_nonneg; intros; apply pow2_ge_0).
  rewrite (tot_ext _ (fun x => x ^ 4 + ((- 2 * (b / a)) * x ^ 3 + (((b / a) ^ 2 - 2 * a) * x ^ 2 + ((2 * (b / a) * a) * x + a ^ 2 * 1 ^ 2))))) in Q
    by (intros; ring).
  rewrite !tot_plus, !tot_scal, tot_one in Q. replace (tot (fun x => x) l) with 0 in Q by (unfold tot; rewrite map_id; symmetry; exact T0).
  set (n := INR (List.length l)) in *.
  assert (E2 : tot (fun x => x ^ 2) l = n * a) by (unfold a; rewrite moment_tot; fold n; field; lra).
  assert (E3 : tot (fun x => x ^ 3) l = n * b) by (unfold b; rewrite moment_tot; fold n; field; lra).
  assert (E4 : tot (fun x => x ^ 4) l = n * moment 4 l) by (rewrite moment_tot; fold n; field; lra).
  rewrite E2, E3, E4 in Q.
  assert (W : n * moment 4 l + (-2 * (b / a) * (n * b) + (((b / a) ^ 2 - 2 * a) * (n * a) + (2 * (b / a) * a * 0 + a ^ 2 * n)))
          = n / a * (a * moment 4 l - b ^ 2 - a ^ 3)) by (field; lra).
  rewrite W in Q. assert (0 < n / a) by (apply Rdiv_lt_0_compat; lra).
  assert (0 <= a * moment 4 l - b ^ 2 - a ^ 3); [|lra].
  destruct (Rle_lt_dec 0 (a * moment 4 l - b ^ 2 - a ^ 3)) as [|L]; [assumption|exfalso].
  assert (n / a * (a * moment 4 l - b ^ 2 - a ^ 3) < 0) by nra. lra.
Qed.

(** ** Values *)
Lemma keep_fst_snd : forall mk u r c, (forall i j, keep mk (i, j) = u i j) -> filter (keep mk) (points r c) = filter (fst_snd u) (points r c).
Proof. intros. apply filter_ext. intros [i j]. apply H. Qed.
Lemma npmin_fin : forall l, l <> [] -> exists x, npmin (map Fin l) = Ok (Fin x) /\ In x l /\ forall y, In y l -> x <= y.
Proof.
  intros [|a l] N; [contradiction|]. cbn. clear N.
  assert (G : forall l a, exists x, fold_left fmin (map Fin l) (Fin a) = Fin x /\ In x (a :: l) /\ forall y, In y (a :: l) -> x <= y).
  { induction l0 as [|b l0 IH]; intros a0.
    - exists a0. cbn. repeat split; [left; reflexivity|]. intros y [->|[]]. lra.
    - cbn [map fold_left]. replace (fmin (Fin a0) (Fin b)) with (Fin (if Rltb b a0 then b else a0)) by (cbn; destruct (Rltb b a0); reflexivity).
      destruct (IH (if Rltb b a0 then b else a0)) as (x & E & I & M). exists x. split; [exact E|]. split.
      + destruct I as [<-|I]; [destruct (Rltb b a0); [right; left|left]; reflexivity|right; right; exact I].
      + assert (Q : x <= (if Rltb b a0 then b else a0)) by (apply M; left; reflexivity).
        intros y [<-|[<-|I']].
        * destruct (Rltb b a0) eqn:T; [apply Rltb_true in T|]; lra.
        * destruct (Rltb b a0) eqn:T; [|apply Rltb_false in T]; lra.
        * apply M. right. exact I'. }
  destruct (G l a) as (x & E & I & M). exists x. rewrite E. auto.
Qed.
Lemma chosen_nonempty : forall r c u (z : nat -> nat -> R), (exists i j, (i < r)%nat /\ (j < c)%nat /\ u i j = true) ->
  map (fst_snd z) (filter (fst_snd u) (points r c)) <> [].
Proof.
  intros r c u z (i & j & Hi & Hj & U) E. apply map_eq_nil in E.
  assert (I : In (i, j) (filter (fst_snd u) (points r c))) by (apply filter_In; split; [apply in_points; split; assumption|exact U]).
  rewrite E in I. destruct I.
Qed.
Lemma npmin_over : forall r c u z, (exists i j, (i < r)%nat /\ (j < c)%nat /\ u i j = true) ->
  exists x, npmin (map Fin (map (fst_snd z) (filter (fst_snd u) (points r c)))) = Ok (Fin x) /\ lowest r c u z x.
Proof.
  intros r c u z S. destruct (npmin_fin _ (chosen_nonempty r c u z S)) as (x & E & I & M). exists x. split; [exact E|split].
  - apply in_map_iff in I. destruct I as ([i j] & <- & I). apply filter_In in I. destruct I as [I U]. apply in_points in I. exists i, j. tauto.
  - intros i j Hi Hj U. apply M. apply in_map_iff. exists (i, j). split; [reflexivity|]. apply filter_In. split; [apply in_points; split; assumption|exact U].
Qed.
Lemma lowest_unique : forall r c u z x y, lowest r c u z x -> lowest r c u z y -> x = y.
Proof.
  intros r c u z x y ((i & j & Hi & Hj & U & ->) & A) ((i' & j' & Hi' & Hj' & U' & ->) & B). apply Rle_antisym; [apply A|apply B]; assumption.
Qed.
Lemma used_array : forall p m mk, norm_mask p m = Ok mk ->
  fits p (match mk with None => NoMask | Some f => ArrMask (nrows p) (ncols p) f end) /\
  forall q i j, used q (match mk with None => NoMask | Some f => ArrMask (nrows p) (ncols p) f end) i j = keep mk (i, j).
Proof. intros p m [f|] _; cbn; auto. Qed.

(** The flattened heights of a call. *)
Lemma rough_heights' : forall w s gs m (curved nf : bool) cut four z,
  (nf = false -> good_lstsq (lstsq w) /\ whole (profile_of s) = false) -> fair (profile_of s) m ->
  heights_are (profile_of s) (used (profile_of s) m) z ->
  exists eta mk g zf, norm_mask (profile_of s) m = Ok mk /\ g = snd (check_surface s gs) /\
    (forall i j, keep mk (i, j) = used (profile_of s) m i j) /\ nrows eta = nrows (profile_of s) /\ ncols eta = ncols (profile_of s) /\
    heights_are eta (used (profile_of s) m) zf /\
    (if nf then zf = z else flattened (if curved then 2 else 1) (nrows (profile_of s)) (ncols (profile_of s)) (used (profile_of s) m) z zf) /\
    forall name, snd (roughness w s name gs m curved nf cut four) = snd (many w eta mk g cut four name).
Proof.
  intros w s gs m curved nf cut four z G F H. destruct (norm_mask_used _ _ F) as (mk & NM & K).
  destruct (used_array _ _ _ NM) as [FA UA].
  destruct (rough_case' w s gs m curved nf cut four) as [(e & E)|(eta & mk' & g & GE & NM' & S & E)].
  - exfalso. unfold roughness in E. replace (check_surface s gs) with (profile_of s, snd (check_surface s gs)) in E by (destruct s; reflexivity).
    rewrite NM in E. destruct nf.
    + specialize (E (Names [])). cbn in E. discriminate.
    + destruct (G eq_refl) as [G1 G2]. destruct (subtract_fin w (profile_of s) (if curved then 2 else 1)%nat _ z G1 FA G2) as (eta & k & Q & _).
      { intros i j Hi Hj U. rewrite UA, K in U. apply H; assumption. }
      rewrite Q in E. specialize (E (Names [])). cbn in E. discriminate.
  - rewrite NM in NM'. injection NM' as <-. destruct nf.
    + exists eta, mk, g, z. subst eta. repeat split; try assumption; try reflexivity. intros name. rewrite E. reflexivity.
    + destruct (G eq_refl) as [G1 G2]. destruct S as (k & S).
      destruct (subtract_fin w (profile_of s) (if curved then 2 else 1)%nat _ z G1 FA G2) as (eta' & k' & Q & R & C & _ & _ & Hh & Fl & _).
      { intros i j Hi Hj U. rewrite UA, K in U. apply H; assumption. }
      rewrite Q in S. injection S as -> _.
      assert (UE : used (profile_of s) (match mk with None => NoMask | Some f => ArrMask (nrows (profile_of s)) (ncols (profile_of s)) f end) = used (profile_of s) m).
      { apply functional_extensionality. intros i. apply functional_extensionality. intros j. rewrite UA. apply K. }
      rewrite UE in Hh, Fl. exists eta, mk, g, (left_of (if curved then 2 else 1)%nat k' z). repeat split; try assumption.
      intros name. rewrite E. reflexivity.
Qed.
Lemma rough_heights : forall w s gs m (curved nf : bool) cut four z,
  (nf = false -> good_lstsq (lstsq w) /\ whole (profile_of s) = false) -> fair (profile_of s) m ->
  heights_are (profile_of s) (used (profile_of s) m) z ->
  exists eta mk g zf,
    (forall i j, keep mk (i, j) = used (profile_of s) m i j) /\ nrows eta = nrows (profile_of s) /\ ncols eta = ncols (profile_of s) /\
    heights_are eta (used (profile_of s) m) zf /\
    (if nf then zf = z else flattened (if curved then 2 else 1) (nrows (profile_of s)) (ncols (profile_of s)) (used (profile_of s) m) z zf) /\
    forall name, snd (roughness w s name gs m curved nf cut four) = snd (many w eta mk g cut four name).
Proof.
  intros w s gs m curved nf cut four z G F H. destruct (rough_heights' w s gs m curved nf cut four z G F H) as (eta & mk & g & zf & _ & _ & K).
  exists eta, mk, g, zf. exact K.
Qed.
