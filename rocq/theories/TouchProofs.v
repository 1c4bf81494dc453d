(** Lemmas for TouchTheorems.v. *)
From Coq Require Import String List Bool Arith ZArith Reals Lia Lra FunctionalExtensionality.
From Verif Require Import Flt SurfaceModel SurfaceProofs SolverModel SolverSpec SolverProofs SolverTheorems BoundSpec BoundProofs BoundTheorems ConvModel ConvSpec ConvProofs ConvTheorems TouchModel TouchSpec.
From Verif Require HeightModel HeightSpec HeightProofs.
Import ListNotations.
Local Open Scope R_scope.

(** ** Numbering of the points *)
Lemma pairs_seq m n : pairs m n = map (fun k => (k / n, k mod n)%nat) (seq 0 (m * n)).
Proof.
  unfold pairs. induction m as [|m IH]; [reflexivity|].
  rewrite seq_S, flat_map_app, IH. cbn [flat_map Nat.add]. rewrite app_nil_r.
  replace (S m * n)%nat with (m * n + n)%nat by lia. rewrite seq_app, map_app. f_equal. cbn [Nat.add].
  destruct n as [|n]; [reflexivity|].
  assert (E : forall s len, (s + len <= S n)%nat -> map (fun j => (m, j)) (seq s len) = map (fun k => (k / S n, k mod S n)%nat) (seq (m * S n + s) len)).
  { intros s len. revert s. induction len as [|len IL]; intros s H; [reflexivity|]. cbn [seq map]. f_equal.
    - rewrite Nat.div_add_l by lia. rewrite (Nat.add_comm (m * S n)), Nat.mod_add by lia. rewrite (Nat.div_small s) by lia. rewrite Nat.mod_small by lia. f_equal. lia.
    - rewrite (IL (S s)) by lia. do 2 f_equal. lia. }
  rewrite E by lia. do 2 f_equal. lia.
Qed.
Lemma point_back k m n : (k < m * n)%nat -> (k / n < m)%nat /\ (k mod n < n)%nat /\ (k / n * n + k mod n = k)%nat.
Proof.
  intros H. destruct n as [|n]; [lia|]. split; [apply Nat.div_lt_upper_bound; lia|]. split; [apply Nat.mod_upper_bound; lia|].
  pose proof (Nat.div_mod k (S n) ltac:(lia)). lia.
Qed.
Definition places (d : list bool) : list nat := filter (fun k => nth k d false) (seq 0 (List.length d)).
Lemma places_cons b d : places (b :: d) = ((if b then [0%nat] else []) ++ map S (places d))%list.
Proof.
  unfold places. cbn [List.length seq filter]. change (nth 0 (b :: d) false) with b. rewrite <- seq_shift.
  assert (E : forall l, filter (fun k => nth k (b :: d) false) (map S l) = map S (filter (fun k => nth k d false) l)).
  { induction l as [|x l IH]; [reflexivity|]. cbn [map filter]. change (nth (S x) (b :: d) false) with (nth x d false). rewrite IH. destruct (nth x d false); reflexivity. }
  rewrite E. destruct b; reflexivity.
Qed.
Lemma places_in d k : In k (places d) <-> nth k d false = true.
Proof.
  unfold places. rewrite filter_In, in_seq. split; [tauto|]. intros H. split; [|exact H]. split; [lia|].
  destruct (Nat.lt_ge_cases k (List.length d)) as [L|L]; [exact L|]. rewrite nth_overflow in H by exact L. discriminate.
Qed.
Lemma places_nodup d : NoDup (places d).
Proof. apply NoDup_filter, seq_NoDup. Qed.
Lemma places_lt d a : (a < List.length (places d))%nat -> (nth a (places d) 0 < List.length d)%nat /\ nth (nth a (places d) 0%nat) d false = true.
Proof.
  intros H. pose proof (nth_In (places d) 0%nat H) as I. unfold places in I at 2. apply filter_In in I as [I1 I2].
  apply in_seq in I1. split; [lia|exact I2].
Qed.
Lemma chosen_places m n d : List.length d = (m * n)%nat ->
  filter (fun p => as_mask n d (fst p) (snd p)) (pairs m n) = map (fun k => (k / n, k mod n)%nat) (places d).
Proof.
  intros L. rewrite pairs_seq. unfold places. rewrite L.
  assert (E : forall l, (forall k, In k l -> (k < m * n)%nat) ->
    filter (fun p => as_mask n d (fst p) (snd p)) (map (fun k => (k / n, k mod n)%nat) l) = map (fun k => (k / n, k mod n)%nat) (filter (fun k => nth k d false) l)).
  { induction l as [|x l IH]; intros H; [reflexivity|]. cbn [map filter fst snd]. rewrite IH by (intros; apply H; now right).
    unfold as_mask. destruct (point_back x m n (H x (or_introl eq_refl))) as (_ & _ & ->). destruct (nth x d false); reflexivity. }
  apply E. intros k Hk. apply in_seq in Hk. lia.
Qed.
Lemma domain_places m n d : List.length d = (m * n)%nat -> domain_size m n (as_mask n d) = List.length (places d).
Proof. intros L. unfold domain_size. rewrite chosen_places by exact L. apply map_length. Qed.
Lemma inside_places m n d g : List.length d = (m * n)%nat -> rows g = m -> cols g = n ->
  inside (as_mask n d) g = map (fun k => at_ g (k / n) (k mod n)) (places d).
Proof. intros L <- <-. unfold inside. rewrite chosen_places by exact L. rewrite map_map. reflexivity. Qed.

Lemma select_places d : forall z : list R, List.length z = List.length d -> HeightModel.select d z = map (fun k => nth k z 0) (places d).
Proof.
  induction d as [|b d IH]; intros [|x z] L; try discriminate; [reflexivity|]. cbn [HeightModel.select].
  rewrite places_cons, map_app, map_map. cbn [nth]. rewrite <- IH by (cbn in L; lia). destruct b; reflexivity.
Qed.
Lemma nodes_places d : List.length (filter (fun b => b) d) = List.length (places d).
Proof.
  induction d as [|b d IH]; [reflexivity|]. rewrite places_cons, app_length, map_length, <- IH. destruct b; reflexivity.
Qed.
Lemma scatter_off d : forall l k, nth k d false = false -> nth k (HeightModel.scatter d l) 0 = 0.
Proof.
  induction d as [|b d IH]; intros l k H; [destruct k; reflexivity|].
  destruct b, k as [|k]; cbn in H |- *; try discriminate; try reflexivity; destruct l; cbn; auto.
Qed.
Lemma scatter_on d : forall l, List.length l = List.length (places d) -> map (fun k => nth k (HeightModel.scatter d l) 0) (places d) = l.
Proof.
  induction d as [|b d IH]; intros l L; [destruct l; [reflexivity|discriminate]|].
  rewrite places_cons in L |- *. rewrite app_length, map_length in L. rewrite map_app, map_map. destruct b; cbn in L |- *.
  - destruct l as [|x l]; [discriminate|]. cbn. f_equal. apply IH. cbn in L. lia.
  - apply IH. exact L.
Qed.

(** ** Sums *)
Definition lsum (l : list R) : R := fold_right Rplus 0 l.
Lemma lsum_app a b : lsum (a ++ b) = lsum a + lsum b.
Proof. induction a as [|x a IH]; [cbn; fold (lsum b); ring|]. cbn [app]. change (x + lsum (a ++ b) = x + lsum a + lsum b). rewrite IH. ring. Qed.
Lemma total_lsum n f : total n f = lsum (map f (seq 0 n)).
Proof. induction n as [|n IH]; [reflexivity|]. rewrite seq_S, map_app, lsum_app. cbn. rewrite IH. lra. Qed.
Lemma sum_total n f : sum n f = total n f.
Proof. induction n as [|n IH]; [reflexivity|]. cbn. now rewrite IH. Qed.
Lemma lsum_filter (p : nat -> bool) f l : (forall k, p k = false -> f k = 0) -> lsum (map f (filter p l)) = lsum (map f l).
Proof. intros H. induction l as [|x l IH]; [reflexivity|]. cbn. destruct (p x) eqn:E; cbn; unfold lsum in IH; rewrite IH; [reflexivity|]. rewrite (H x E). lra. Qed.
Lemma map_nth_seq {A} (l : list A) z : map (fun a => nth a l z) (seq 0 (List.length l)) = l.
Proof.
  induction l as [|x l IH]; [reflexivity|]. cbn [List.length seq map nth]. f_equal. rewrite <- seq_shift, map_map. exact IH.
Qed.
Lemma total_places d f : (forall k, nth k d false = false -> f k = 0) ->
  total (List.length d) f = total (List.length (places d)) (fun a => f (nth a (places d) 0%nat)).
Proof.
  intros H. rewrite !total_lsum. rewrite <- (map_map (fun a => nth a (places d) 0%nat) f), map_nth_seq.
  unfold places. symmetry. apply lsum_filter. exact H.
Qed.
Lemma total2_flat m n f : total2 m n f = total (m * n) (fun k => f (k / n)%nat (k mod n)%nat).
Proof.
  unfold total2. induction m as [|m IH]; [reflexivity|]. cbn [total]. rewrite IH.
  replace (S m * n)%nat with (m * n + n)%nat by lia.
  assert (E : forall j, (j <= n)%nat -> total (m * n + j) (fun k => f (k / n)%nat (k mod n)%nat) = total (m * n) (fun k => f (k / n)%nat (k mod n)%nat) + total j (f m)).
  { induction j as [|j IJ]; intros L; [rewrite Nat.add_0_r; cbn; lra|]. rewrite Nat.add_succ_r. cbn [total]. rewrite IJ by lia.
    replace ((m * n + j) / n)%nat with m by (rewrite Nat.div_add_l by lia; rewrite Nat.div_small by lia; lia).
    replace ((m * n + j) mod n)%nat with j by (rewrite (Nat.add_comm (m * n)), Nat.mod_add, Nat.mod_small by lia; reflexivity). lra. }
  symmetry. apply E. lia.
Qed.

(** ** Convolutions *)
Lemma superposed_flat m n p0 p1 im g k : rows g = m -> cols g = n ->
  superposed p0 p1 im g (k / n) (k mod n) = total (m * n) (fun l => influence m n p0 p1 im k l * at_ g (l / n) (l mod n)).
Proof. intros <- <-. unfold superposed. rewrite total2_flat. apply total_ext. intros l _. unfold influence. ring. Qed.
Lemma flatten_pairs g : flatten g = map (fun p => at_ g (fst p) (snd p)) (pairs (rows g) (cols g)).
Proof.
  unfold flatten, pairs. rewrite flat_map_concat_map, flat_map_concat_map, concat_map, map_map. f_equal. apply map_ext. intros i. rewrite map_map. reflexivity.
Qed.
Lemma flatten_length g : List.length (flatten g) = (rows g * cols g)%nat.
Proof. rewrite flatten_pairs, map_length, pairs_seq, map_length, seq_length. reflexivity. Qed.
Lemma flatten_nth g k : (k < rows g * cols g)%nat -> nth k (flatten g) 0 = at_ g (k / cols g) (k mod cols g).
Proof.
  intros H. rewrite flatten_pairs, pairs_seq, map_map. cbn [fst snd].
  rewrite (nth_indep _ 0 (at_ g (0 / cols g) (0 mod cols g))) by (rewrite map_length, seq_length; exact H).
  rewrite (map_nth (fun k => at_ g (k / cols g) (k mod cols g))), seq_nth by exact H. reflexivity.
Qed.
Lemma coeff_sum c a b : rows (im_1 c) = rows (im_2 c) -> cols (im_1 c) = cols (im_2 c) ->
  coeff (total_im c) a b = coeff (im_1 c) a b + coeff (im_2 c) a b.
Proof.
  intros R Q. unfold coeff, total_im. cbn [rows cols at_]. rewrite <- R, <- Q. destruct (_ && _); lra.
Qed.
Lemma body_total c k l : rows (im_1 c) = rows (im_2 c) -> cols (im_1 c) = cols (im_2 c) -> body c (total_im c) k l = both_bodies c k l.
Proof. intros R Q. apply coeff_sum; assumption. Qed.

Lemma finite_numbers n : forall v x, numbers n v x -> finite n v = Some (map x (seq 0 n)).
Proof.
  induction n as [|n IH]; intros v x H; [reflexivity|]. cbn [finite]. rewrite (IH v x) by (intros i Hi; apply H; lia).
  rewrite (H n) by lia. rewrite seq_S, map_app. reflexivity.
Qed.
Definition usable (c : setup) (im : grid) : Prop :=
  (forall q, (q <= fft_size c q)%nat) /\ (periodic_0 c = true -> rows im = grid_rows c) /\ (periodic_1 c = true -> cols im = grid_cols c).
Lemma operator_matrix c im d : usable c im -> List.length d = points c -> exists f, plan c im (Some (as_mask (grid_cols c) d)) = Ok f /\
  is_matrix (List.length (places d)) (operator f (List.length (places d))) (fun a b => body c im (nth a (places d) 0%nat) (nth b (places d) 0%nat)).
Proof.
  intros (F & P0 & P1) L. unfold points in L. set (m := grid_rows c) in *. set (n := grid_cols c) in *.
  set (nn := List.length (places d)).
  assert (D : forall x : nat -> R, List.length (map x (seq 0 nn)) = domain_size m n (as_mask n d)) by (intros x; rewrite map_length, seq_length, domain_places by exact L; reflexivity).
  destruct (c34_domain (with_cuda c) (fft_size c) m n im (as_mask n d) (periodic_0 c) (periodic_1 c) (map (fun _ => 0) (seq 0 nn)) F P0 P1 (D _)) as (f & _ & _ & E & _).
  exists f. split; [exact E|]. intros v x V.
  destruct (c34_domain (with_cuda c) (fft_size c) m n im (as_mask n d) (periodic_0 c) (periodic_1 c) (map x (seq 0 nn)) F P0 P1 (D _)) as (f' & g & u & E' & R & Q & I & Z & _ & U & Ru & Cu & A).
  rewrite E in E'. injection E' as <-. intros a Ha. unfold operator. rewrite (finite_numbers nn v x V), U. f_equal.
  rewrite (inside_places m n) in I |- * by assumption.
  destruct (places_lt d a Ha) as [La Ta]. set (k := nth a (places d) 0%nat) in *.
  rewrite (nth_indep _ 0 (at_ u (0 / n) (0 mod n))) by (rewrite map_length; exact Ha).
  rewrite (map_nth (fun k => at_ u (k / n) (k mod n))). fold k.
  destruct (point_back k m n ltac:(lia)) as (B1 & B2 & _). rewrite A by assumption.
  rewrite superposed_flat with (m := m) by assumption. rewrite <- L.
  rewrite total_places.
  - fold nn. refine (total_ext nn _ (fun j => body c im k (nth j (places d) 0%nat) * x j) _). intros b Hb. unfold body. f_equal.
    assert (N : nth b (map x (seq 0 nn)) (at_ g (0 / n) (0 mod n)) = x b).
    { rewrite (nth_indep _ _ (x 0%nat)) by (rewrite map_length, seq_length; exact Hb). rewrite map_nth, seq_nth by exact Hb. reflexivity. }
    rewrite <- N, <- I. rewrite (map_nth (fun k => at_ g (k / n) (k mod n))). reflexivity.
  - intros l Hl. destruct (Nat.lt_ge_cases l (m * n)) as [Ll|Ll].
    + rewrite Z; [ring|]. unfold as_mask. destruct (point_back l m n Ll) as (_ & _ & ->). exact Hl.
    + rewrite Z; [ring|]. unfold as_mask. destruct n as [|n']; [rewrite Nat.mul_0_r; cbn; apply nth_overflow; lia|].
      pose proof (Nat.div_mod l (S n') ltac:(lia)). replace (l / S n' * S n' + l mod S n')%nat with l by lia. exact Hl.
Qed.
Lemma convolved_moved c im l : usable c im -> List.length l = points c ->
  List.length (convolved c im l) = points c /\
  forall k, (k < points c)%nat -> nth k (convolved c im l) 0 = moved_by (points c) (body c im) l k.
Proof.
  intros (F & P0 & P1) L. unfold points, convolved in *. set (m := grid_rows c) in *. set (n := grid_cols c) in *.
  destruct (c34_planned (with_cuda c) (fft_size c) m n im (periodic_0 c) (periodic_1 c) F P0 P1) as (f & E & A).
  change (plan c im None) with (plan_convolve (with_cuda c) (fft_size c) m n im None (Flags [periodic_0 c; periodic_1 c])). rewrite E.
  destruct (A (reshape m n l) eq_refl eq_refl) as (u & U & Ru & Cu & V). rewrite U.
  split; [rewrite flatten_length, Ru, Cu; reflexivity|]. intros k Hk. rewrite flatten_nth by (rewrite Ru, Cu; exact Hk). rewrite Cu.
  destruct (point_back k m n Hk) as (B1 & B2 & _). rewrite V by assumption. rewrite superposed_flat with (m := m) by reflexivity.
  unfold moved_by, body. apply total_ext. intros j Hj. f_equal. cbn [at_ reshape]. destruct (point_back j m n Hj) as (_ & _ & ->). reflexivity.
Qed.

(** ** The solver *)
Lemma position_place l : NoDup l -> forall a, (a < List.length l)%nat -> position (nth a l 0%nat) l = Some a.
Proof.
  induction l as [|x l IH]; intros N a H; [cbn in H; lia|]. inversion N as [|? ? Nx Nl]; subst. destruct a as [|a]; cbn.
  - rewrite Nat.eqb_refl. reflexivity.
  - cbn in H. destruct (Nat.eqb_spec (nth a l 0%nat) x) as [E|E]; [exfalso; apply Nx; rewrite <- E; apply nth_In; lia|].
    rewrite IH by (assumption || lia). reflexivity.
Qed.
Definition spot (d : list bool) (k : nat) : nat := match position k (places d) with Some a => a | None => 0%nat end.
Lemma spot_place d a : (a < List.length (places d))%nat -> spot d (nth a (places d) 0%nat) = a.
Proof. intros H. unfold spot. rewrite position_place by (apply places_nodup || exact H). reflexivity. Qed.
Lemma place_of d k : nth k d false = true -> exists a, (a < List.length (places d))%nat /\ nth a (places d) 0%nat = k.
Proof. intros H. apply places_in in H. apply In_nth. exact H. Qed.
Lemma start_zero n f b mn mp : match mn with Fin a => a <= 0 | NInf => True | _ => False end ->
  bccg_init n f b (fun _ => Fin 0) mn mp = bccg_init n f b (fun _ => Fin 0) (Fin 0) mp.
Proof.
  intros H. assert (E : fmax (Fin 0) mn = fmax (Fin 0) (Fin 0)).
  { destruct mn as [a| | |]; try contradiction; cbn.
    - destruct (Rltb 0 a) eqn:Ea; [apply Rltb_true in Ea; lra|]. destruct (Rltb 0 0) eqn:E0; [apply Rltb_true in E0; lra|reflexivity].
    - destruct (Rltb 0 0) eqn:E0; [apply Rltb_true in E0; lra|reflexivity]. }
  unfold bccg_init. rewrite E. reflexivity.
Qed.

Section Contact.
Variables (c : setup) (g : list R) (h t : R) (l : list R).
Let d : list bool := map (fun x => HeightModel.Rltb x h) g.
Hypothesis W : well_formed c g.
Hypothesis T : tol_inner c = Fin t.
Hypothesis S : solve_domain c d (HeightModel.select d (map (fun x => h - x) g)) = (l, false).
Lemma d_length : List.length d = points c.
Proof. unfold d. rewrite map_length. apply W. Qed.
Lemma d_nth k : (k < points c)%nat -> (nth k d false = true <-> nth k g 0 < h) /\ (nth k d false = false <-> h <= nth k g 0).
Proof.
  intros H. pose proof d_length as L. unfold d in *. rewrite map_length in L.
  rewrite (nth_indep _ false (HeightModel.Rltb 0 h)) by (rewrite map_length; lia). rewrite (map_nth (fun x => HeightModel.Rltb x h)).
  split; [apply HeightProofs.Rltb_true|apply HeightProofs.Rltb_false].
Qed.
Lemma contact_usable : usable c (total_im c) /\ usable c (im_1 c) /\ usable c (im_2 c).
Proof.
  destruct W as (_ & F & R & Q & P0 & P1 & _). repeat split; auto; cbn; try (intros E; rewrite <- R; auto); intros E; rewrite <- Q; auto.
Qed.
Lemma solved_contact : List.length l = List.length (places d) /\ contact_solution c g h t (HeightModel.scatter d l).
Proof.
  pose proof d_length as L. pose proof W as (Lg & _ & Rr & Rc & _ & _ & Ad & Mo).
  destruct (operator_matrix c (total_im c) d (proj1 contact_usable) L) as (f & P & M).
  set (nn := List.length (places d)) in *. set (ps := places d) in *.
  set (z := HeightModel.select d (map (fun x => h - x) g)) in *.
  assert (Ez : z = map (fun k => h - nth k g 0) ps).
  { unfold z. rewrite select_places by (unfold d; rewrite !map_length; reflexivity). apply map_ext_in. intros k Hk.
    apply places_in in Hk. assert (k < List.length g)%nat.
    { destruct (Nat.lt_ge_cases k (List.length d)) as [Lk|Lk]; [unfold d in Lk; rewrite map_length in Lk; exact Lk|].
      rewrite nth_overflow in Hk by exact Lk. discriminate. }
    rewrite (nth_indep _ 0 (h - 0)) by (rewrite map_length; assumption). rewrite (map_nth (fun x => h - x)). reflexivity. }
  assert (Lz : List.length z = nn) by (rewrite Ez; apply map_length).
  unfold solve_domain in S. rewrite P, Lz in S.
  destruct (bccg _ _ _ _ _ _ _ _ _ _) as [[v failed]|] eqn:B; [|discriminate]. injection S as <- ->.
  set (bb := fun a => h - nth (nth a ps 0%nat) g 0).
  assert (Nb : numbers nn (as_vec z) bb).
  { intros a Ha. unfold as_vec, bb. f_equal. rewrite Ez. rewrite (nth_indep _ 0 (h - nth 0%nat g 0)) by (rewrite map_length; exact Ha).
    rewrite (map_nth (fun k => h - nth k g 0)). reflexivity. }
  unfold bccg in B. rewrite start_zero in B by (destruct (least c) as [a|] eqn:Ea; [apply Ad; reflexivity|exact I]).
  match type of B with bccg_loop ?fuel _ _ _ _ _ _ _ _ = _ =>
    assert (B' : bccg fuel nn (operator f nn) (as_vec z) (tol_inner c) (max_it_inner c) (fun _ => Fin 0) (Fin 0) (fun _ => most c) 1 = Some (v, false)) by exact B end.
  destruct (c37_converged _ nn (operator f nn) (as_vec z) (tol_inner c) (max_it_inner c) (fun _ => Fin 0) (fun _ => most c) 1 _ bb t v M Nb
    (fun i _ => Mo) T B') as (it0 & st & x & y & _ & _ & Nx & _ & Sz & Or & Pt).
  assert (El : map (fun i => as_real (v i)) (seq 0 nn) = map x (seq 0 nn)).
  { apply map_ext_in. intros a Ha. apply in_seq in Ha. rewrite (Nx a) by lia. reflexivity. }
  rewrite El. assert (Ll : List.length (map x (seq 0 nn)) = nn) by (rewrite map_length, seq_length; reflexivity).
  split; [exact Ll|]. set (p := HeightModel.scatter d (map x (seq 0 nn))).
  assert (Off : forall k, nth k d false = false -> nth k p 0 = 0) by (intros k; apply scatter_off).
  assert (On : forall a, (a < nn)%nat -> nth (nth a ps 0%nat) p 0 = x a).
  { intros a Ha. pose proof (scatter_on d (map x (seq 0 nn)) Ll) as E. fold p ps in E.
    assert (N : nth a (map x (seq 0 nn)) (nth 0%nat p 0) = x a).
    { rewrite (nth_indep _ _ (x 0%nat)) by (rewrite Ll; exact Ha). rewrite map_nth, seq_nth by exact Ha. reflexivity. }
    rewrite <- N, <- E. rewrite (map_nth (fun k => nth k p 0)). reflexivity. }
  assert (Left : forall a, (a < nn)%nat -> left_over (points c) (both_bodies c) g h p (nth a ps 0%nat) =
     times nn (fun a b => body c (total_im c) (nth a ps 0%nat) (nth b ps 0%nat)) x a - bb a).
  { intros a Ha. unfold left_over, moved_by, bb, times. rewrite <- L. rewrite total_places by (intros k Hk; rewrite (Off k Hk); ring).
    fold nn ps. change sum with total.
    rewrite (total_ext nn _ (fun b => body c (total_im c) (nth a ps 0%nat) (nth b ps 0%nat) * x b)); [ring|].
    intros b Hb. rewrite (On b Hb), body_total by assumption. reflexivity. }
  assert (Sum : forall F G, (forall k, (k < points c)%nat -> nth k d false = false -> F k = 0) -> (forall a, (a < nn)%nat -> F (nth a ps 0%nat) = G a) ->
    total (points c) F = total nn G).
  { intros F G HF HG. rewrite (total_ext (points c) F (fun k => if nth k d false then F k else 0)) by (intros k Hk; destruct (nth k d false) eqn:E; [reflexivity|apply HF; assumption]).
    rewrite <- L, total_places by (intros k Hk; rewrite Hk; reflexivity). apply total_ext. intros a Ha. unfold ps in HG. rewrite (proj2 (places_lt d a Ha)). apply HG. exact Ha. }
  assert (In : forall k, (k < points c)%nat -> nth k g 0 < h -> exists a, (a < nn)%nat /\ nth a ps 0%nat = k /\ spot d k = a).
  { intros k Hk Hg. apply (d_nth k Hk) in Hg. destruct (place_of d k Hg) as (a & Ha & E). exists a. split; [exact Ha|]. split; [exact E|].
    rewrite <- E. apply spot_place. exact Ha. }
  assert (Adm : admissible (points c) g h (most c) p).
  { split; [unfold p; rewrite <- L; clear; generalize (map x (seq 0 nn)); induction d as [|[] e IH]; intros w; cbn; try reflexivity; try destruct w; cbn; rewrite IH; reflexivity|].
    split.
    { intros k Hk. destruct (Rlt_le_dec (nth k g 0) h) as [Hg|Hg].
      - destruct (In k Hk Hg) as (a & Ha & <- & _). rewrite (On a Ha). apply (Pt a Ha).
      - rewrite Off by (apply d_nth; assumption). assert (0 < / 10 ^ 14) by (apply Rinv_0_lt_compat, pow_lt; lra). lra. }
    split; [intros k Hk Hg; apply Off, d_nth; assumption|].
    intros k e Hk Hg He. destruct (In k Hk Hg) as (a & Ha & <- & _). rewrite (On a Ha). destruct (Pt a Ha) as ((_ & U) & _).
    rewrite He in U. cbn in U. apply Rltb_true in U. exact U. }
  split; [exact Adm|]. intros m Lu Bw Se. split; [exact Adm|].
  assert (Bd : between nn (fun a b => body c (total_im c) (nth a ps 0%nat) (nth b ps 0%nat)) m Lu).
  { destruct Bw as [Mp Bw]. split; [exact Mp|]. intros u. specialize (Bw (fun k => if nth k d false then u (spot d k) else 0)).
    set (u' := fun k => if nth k d false then u (spot d k) else 0) in *.
    assert (Ua : forall a, (a < nn)%nat -> u' (nth a ps 0%nat) = u a) by (intros a Ha; unfold u', ps; rewrite (proj2 (places_lt d a Ha)), (spot_place d a Ha); reflexivity).
    assert (Uo : forall k, nth k d false = false -> u' k = 0) by (intros k Hk; unfold u'; rewrite Hk; reflexivity).
    assert (Tm : forall a, (a < nn)%nat -> times (points c) (both_bodies c) u' (nth a ps 0%nat) = times nn (fun a b => body c (total_im c) (nth a ps 0%nat) (nth b ps 0%nat)) u a).
    { intros a Ha. unfold times. change sum with total. apply Sum; [intros k _ Hk; rewrite (Uo k Hk); ring|].
      intros e He. rewrite (Ua e He), body_total by assumption. reflexivity. }
    destruct Bw as [B1 B2]. unfold length2 in B2 |- *. change sum with total in *.
    rewrite (Sum (fun i => u' i * u' i) (fun a => u a * u a)) in B1, B2 by (intros; rewrite ?Uo, ?Ua by assumption; ring).
    rewrite (Sum (fun i => u' i * times (points c) (both_bodies c) u' i) (fun a => u a * times nn (fun a b => body c (total_im c) (nth a ps 0%nat) (nth b ps 0%nat)) u a)) in B1 by (intros; rewrite ?Uo, ?Ua, ?Tm by assumption; ring).
    split; [exact B1|]. eapply Rle_trans; [|exact B2]. apply sqrt_le_1_alt.
    rewrite <- (Sum (fun k => if nth k d false then times (points c) (both_bodies c) u' k * times (points c) (both_bodies c) u' k else 0)).
    - change total with sum. apply sum_le. intros k _. destruct (nth k d false); [lra|]. apply Rle_0_sqr.
    - intros k _ Hk. rewrite Hk. reflexivity.
    - intros a Ha. unfold ps. rewrite (proj2 (places_lt d a Ha)). fold ps. rewrite (Tm a Ha). reflexivity. }
  rewrite T in B'. destruct (c37_residual _ nn (operator f nn) (as_vec z) t (max_it_inner c) (fun _ => Fin 0) (fun _ => most c) _ bb m Lu v M Nb
    (fun i _ => Mo) Bd B') as (k1 & st1 & x1 & S1 & E1 & Nx1 & Near).
  assert (Ex : forall a, (a < nn)%nat -> x1 a = x a) by (intros a Ha; pose proof (Nx a Ha); pose proof (Nx1 a Ha); congruence).
  unfold settled_at in Se. fold d z in Se. cbv zeta in Se. rewrite Lz, T in Se. specialize (Near (Se f k1 st1 v P S1 E1)).
  assert (Tx : forall a, times nn (fun a b => body c (total_im c) (nth a ps 0%nat) (nth b ps 0%nat)) x1 a = times nn (fun a b => body c (total_im c) (nth a ps 0%nat) (nth b ps 0%nat)) x a).
  { intros a. apply times_ext. exact Ex. }
  destruct Near as (_ & zero & full & Hz & Hf & Sm).
  exists (fun k => zero (spot d k)), (fun k => full (spot d k)). split; [|split].
  - intros k Hk Hg. destruct (In k Hk Hg) as (a & Ha & <- & ->). intros Hu. rewrite (On a Ha), (Left a Ha), <- Tx, <- (Ex a Ha). exact (Hz a Ha Hu).
  - intros k Hk Hg. destruct (In k Hk Hg) as (a & Ha & <- & ->). intros Hu. rewrite (On a Ha), (Left a Ha), <- Tx, <- (Ex a Ha). exact (Hf a Ha Hu).
  - unfold size. rewrite (Sum (fun k => nth k p 0 * nth k p 0) (fun a => x1 a * x1 a)).
    2:{ intros k _ Hk. rewrite Off by exact Hk. ring. }
    2:{ intros a Ha. rewrite On, Ex by exact Ha. reflexivity. }
    eapply Rle_trans; [|exact Sm]. apply Req_le. unfold length2. change sum with total. f_equal. apply Sum.
    + intros k Kp Hk. destruct (Rlt_dec (nth k g 0) h) as [Hg|Hg]; [|ring].
      apply (d_nth k Kp) in Hg. congruence.
    + intros a Ha. destruct (places_lt d a Ha) as [La Ta]. fold ps in La, Ta. rewrite L in La. apply (d_nth _ La) in Ta.
      assert (Sp : spot d (nth a ps 0%nat) = a) by (apply spot_place; exact Ha).
      destruct (Rlt_dec (nth (nth a ps 0%nat) g 0) h) as [Hg|Hg]; [|contradiction]. rewrite Sp, (Left a Ha), Tx. reflexivity.
Qed.
End Contact.

(** ** Results of the height optimisation function *)
From Verif Require StepModel StepSpec StepProofs TouchHonest.
Lemma scatter_total d l : List.length l = List.length (places d) -> total (List.length d) (fun k => nth k (HeightModel.scatter d l) 0) = HeightModel.rsum l.
Proof.
  intros L. rewrite total_lsum. assert (E : List.length (HeightModel.scatter d l) = List.length d) by apply StepProofs.scatter_length.
  rewrite <- E, map_nth_seq. change (lsum (HeightModel.scatter d l)) with (HeightModel.rsum (HeightModel.scatter d l)).
  apply StepProofs.scatter_sum. rewrite nodes_places. exact L.
Qed.
Lemma free_solves c uc cl g t f : well_formed c g -> tol_inner c = Fin t -> TouchHonest.solved_free (contact_config c uc cl g) f ->
  contact_solution c g (HeightModel.r_interference f) t (HeightModel.r_loads f) /\
  displaces c (HeightModel.r_loads f) (HeightModel.r_disp1 f) (HeightModel.r_disp2 f) (HeightModel.r_total_disp f) /\
  HeightModel.r_total_load f = total (points c) (fun k => nth k (HeightModel.r_loads f) 0) * spacing c ^ 2.
Proof.
  intros W T (l & S & E). set (h := HeightModel.r_interference f) in *. cbn zeta in E. unfold HeightSpec.free_solution in S. cbn [HeightModel.solver contact_config] in S.
  set (d := HeightSpec.touching (contact_config c uc cl g) h) in *.
  destruct (solved_contact c g h t l W T S) as [L Q].
  change (map (fun x => HeightModel.Rltb x h) g) with d in *.
  destruct (contact_usable c g W) as (U & U1 & U2).
  assert (Ld : List.length d = points c) by (unfold d, HeightSpec.touching; rewrite map_length; apply W).
  rewrite E. cbn [HeightModel.r_loads HeightModel.r_disp1 HeightModel.r_disp2 HeightModel.r_total_disp HeightModel.r_total_load HeightModel.disp1 HeightModel.disp2 HeightModel.disp_total HeightModel.area contact_config].
  set (p := HeightModel.scatter d l) in *. assert (Lp : List.length p = points c) by apply Q.
  split; [exact Q|]. split.
  - destruct (convolved_moved c (im_1 c) p U1 Lp) as [A1 B1]. destruct (convolved_moved c (im_2 c) p U2 Lp) as [A2 B2]. destruct (convolved_moved c (total_im c) p U Lp) as [A B].
    split; [exact A1|]. split; [exact A2|]. split; [exact A|]. intros k Hk. split; [apply B1; exact Hk|]. split; [apply B2; exact Hk|].
    rewrite B, B1, B2 by exact Hk. unfold moved_by. rewrite <- total_add. apply total_ext. intros j _.
    rewrite body_total by apply W. unfold both_bodies. ring.
  - rewrite <- Ld. unfold p. rewrite scatter_total by exact L. reflexivity.
Qed.
