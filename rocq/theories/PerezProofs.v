(** Lemmas on surfaces with given heights and spectrum. *)
From Coq Require Import Reals List Bool Arith ZArith Lia Lra Permutation.
From Verif Require Import Py SurfaceModel SurfaceProofs ConvModel ConvSpec ConvProofs DftProofs FilterProofs PerezModel PerezSpec.
Import ListNotations.
Local Open Scope R_scope.
Add Ring cplx_ring_perez : cplx_ring.

(** ** Rank ordering *)
Lemma scatter_out idx v a p : ~ In p idx -> scatter idx v a p = a p.
Proof.
  revert v a. induction idx as [|i idx IH]; intros [|x v] a H; cbn [scatter]; try reflexivity.
  rewrite IH by (intro; apply H; now right). destruct (Nat.eqb_spec p i) as [->|]; [|reflexivity]. exfalso. apply H. now left.
Qed.
Lemma scatter_nth idx v a k : NoDup idx -> List.length v = List.length idx -> (k < List.length idx)%nat ->
  scatter idx v a (nth k idx O) = nth k v 0.
Proof.
  revert v a k. induction idx as [|i idx IH]; intros [|x v] a k D L K; cbn in L, K; try lia.
  inversion D; subst. destruct k as [|k]; cbn [scatter nth].
  - rewrite scatter_out by assumption. now rewrite Nat.eqb_refl.
  - apply IH; [assumption|lia|lia].
Qed.
Lemma map_nth_seq {A} (v : list A) d : map (fun k => nth k v d) (seq 0 (List.length v)) = v.
Proof.
  induction v as [|x v IH]; [reflexivity|]. cbn [List.length seq map nth]. f_equal. rewrite <- seq_shift, map_map. exact IH.
Qed.
Lemma scatter_map idx v a : NoDup idx -> List.length v = List.length idx -> map (scatter idx v a) idx = v.
Proof.
  intros D L. rewrite <- (map_nth_seq idx O) at 2. rewrite map_map, <- L.
  rewrite <- (map_nth_seq v 0) at 2. apply map_ext_in. intros k K. apply in_seq in K. apply scatter_nth; [assumption|assumption|lia].
Qed.

Lemma flatten_seq g : flatten g = map (fun p => at_ g (p / cols g) (p mod cols g)) (seq 0 (rows g * cols g)).
Proof.
  unfold flatten. set (n := cols g).
  assert (G : forall m k s, (s + k <= n)%nat -> map (fun j => at_ g m j) (seq s k) = map (fun p => at_ g (p / n) (p mod n)) (seq (m * n + s) k)).
  { intros m k. induction k as [|k IHk]; intros s S; [reflexivity|]. cbn [seq map]. f_equal.
    - rewrite Nat.div_add_l, Nat.div_small, Nat.add_0_r by lia. now rewrite Nat.add_comm, Nat.mod_add, Nat.mod_small by lia.
    - rewrite IHk by lia. now replace (m * n + Datatypes.S s)%nat with (Datatypes.S (m * n + s)%nat) by lia. }
  induction (rows g) as [|m IH]; [reflexivity|].
  rewrite seq_S, flat_map_app, IH. cbn [flat_map Nat.add]. rewrite app_nil_r.
  replace (S m * n)%nat with (m * n + n)%nat by lia. rewrite seq_app, map_app. f_equal. rewrite (G m n 0%nat) by lia. now rewrite Nat.add_0_r.
Qed.
Lemma flatten_length g : List.length (flatten g) = (rows g * cols g)%nat.
Proof. rewrite flatten_seq, map_length, seq_length. reflexivity. Qed.
Lemma flat_map_pairs {A} (f : nat -> nat -> A) r c : map (fun p => f (fst p) (snd p)) (pairs r c) = flat_map (fun i => map (f i) (seq 0 c)) (seq 0 r).
Proof.
  unfold pairs. induction (seq 0 r) as [|i l IH]; [reflexivity|]. cbn [flat_map]. rewrite map_app, map_map, IH. reflexivity.
Qed.
Lemma entries_flatten g : entries g = flatten g.
Proof. unfold entries. rewrite flat_map_pairs. reflexivity. Qed.

Lemma height_step_flat argsort sorted p : (0 < cols p)%nat ->
  flatten (height_step argsort sorted p) = map (scatter (argsort (flatten p)) sorted (fun q => nth q (flatten p) 0)) (seq 0 (rows p * cols p)).
Proof.
  intro C. rewrite flatten_seq. unfold height_step. cbn [rows cols at_]. apply map_ext. intro q. f_equal.
  rewrite Nat.mul_comm. symmetry. apply Nat.div_mod. lia.
Qed.
Lemma height_step_perm argsort sorted p : sorts argsort -> (0 < cols p)%nat -> List.length sorted = (rows p * cols p)%nat ->
  Permutation (flatten (height_step argsort sorted p)) sorted.
Proof.
  intros S C L. rewrite height_step_flat by assumption. destruct (S (flatten p)) as [P _]. rewrite flatten_length in P.
  set (idx := argsort (flatten p)) in *.
  assert (D : NoDup idx). { apply (Permutation_NoDup (Permutation_sym P)). apply seq_NoDup. }
  assert (LI : List.length idx = (rows p * cols p)%nat). { rewrite (Permutation_length P). apply seq_length. }
  rewrite <- (scatter_map idx sorted (fun q => nth q (flatten p) 0)) at 2; [|assumption|lia].
  apply Permutation_map. now apply Permutation_sym.
Qed.

(** The sorted heights are the heights, in order. *)
Lemma sorted_perm argsort g : sorts argsort -> Permutation (map (fun i => nth i g 0) (argsort g)) g.
Proof.
  intro S. destruct (S g) as [P _]. apply (Permutation_trans (Permutation_map (fun i => nth i g 0) P)). now rewrite map_nth_seq.
Qed.
Lemma sorted_order argsort g a b : sorts argsort -> (a <= b < List.length g)%nat ->
  nth a (map (fun i => nth i g 0) (argsort g)) 0 <= nth b (map (fun i => nth i g 0) (argsort g)) 0.
Proof.
  intros S AB. destruct (S g) as [P O].
  assert (L : List.length (argsort g) = List.length g). { rewrite (Permutation_length P). apply seq_length. }
  assert (N : forall k, (k < List.length g)%nat -> nth k (map (fun i => nth i g 0) (argsort g)) 0 = nth (nth k (argsort g) 0%nat) g 0).
  { intros k K. rewrite nth_indep with (d' := nth 0%nat g 0) by (rewrite map_length; lia). apply (map_nth (fun i => nth i g 0)). }
  rewrite !N by lia. now apply O.
Qed.
Lemma rank_order argsort v sorted a b : sorts argsort -> List.length sorted = List.length v ->
  (forall a b, (a <= b < List.length v)%nat -> nth a sorted 0 <= nth b sorted 0) ->
  (a < List.length v)%nat -> (b < List.length v)%nat -> nth a v 0 < nth b v 0 ->
  scatter (argsort v) sorted (fun q => nth q v 0) a <= scatter (argsort v) sorted (fun q => nth q v 0) b.
Proof.
  intros S L O A B AB. destruct (S v) as [P Q]. set (idx := argsort v) in *.
  assert (D : NoDup idx). { apply (Permutation_NoDup (Permutation_sym P)). apply seq_NoDup. }
  assert (LI : List.length idx = List.length v). { rewrite (Permutation_length P). apply seq_length. }
  assert (F : forall x, (x < List.length v)%nat -> exists k, (k < List.length v)%nat /\ nth k idx 0%nat = x).
  { intros x X. assert (I : In x idx). { apply (Permutation_in _ (Permutation_sym P)). apply in_seq. lia. }
    destruct (In_nth idx x 0%nat I) as (k & K & E). exists k. split; [lia|assumption]. }
  destruct (F a A) as (ka & KA & EA). destruct (F b B) as (kb & KB & EB).
  rewrite <- EA, <- EB. rewrite !scatter_nth by (try assumption; lia).
  destruct (le_lt_dec ka kb) as [H|H]; [apply O; lia|]. exfalso.
  specialize (Q kb ka ltac:(lia)). rewrite EA, EB in Q. lra.
Qed.

(** ** The loop *)
Lemma loop_out argsort eh ep ep0 left count acc ms power sorted hist height :
  (0 < rows power)%nat -> (0 < cols power)%nat ->
  let o := loop argsort eh ep ep0 left count acc ms power sorted hist height in
  (exists h, psd_of o = psd_step power h) /\ heights_of o = height_step argsort sorted (psd_of o) /\
  (S count <= passes o <= count + Nat.max 1 left)%nat /\
  (why o = HeightsGood -> eh (flatten (psd_of o)) < acc) /\
  (why o = PsdGood -> ep (heights_of o) < acc /\ ep0 (heights_of o) < acc).
Proof.
  intros R C. revert count hist height. induction left as [|left IH]; intros count hist height; cbn [loop].
  - cbn. split; [now exists height|]. split; [reflexivity|]. split; [lia|]. split; discriminate.
  - destruct left as [|left].
    + cbn. split; [now exists height|]. split; [reflexivity|]. split; [lia|]. split; discriminate.
    + destruct (Nat.ltb 2 (S (List.length hist)) && _ && _).
      { cbn. split; [now exists height|]. split; [reflexivity|]. split; [lia|]. split; discriminate. }
      destruct (Nat.ltb 2 (S (List.length hist)) && _).
      { cbn. split; [now exists height|]. split; [reflexivity|]. split; [lia|]. split; discriminate. }
      destruct (Rltb (eh _) acc) eqn:E1.
      { cbn. split; [now exists height|]. split; [reflexivity|]. split; [lia|]. split; [|discriminate]. intros _. now apply Rltb_true. }
      destruct (Rltb (ep _) acc && Rltb (ep0 _) acc) eqn:E2.
      { cbn. split; [now exists height|]. split; [reflexivity|]. split; [lia|]. split; [discriminate|]. intros _.
        apply andb_prop in E2. destruct E2 as [E2 E3]. split; now apply Rltb_true. }
      destruct (IH (S count) (eh (flatten (psd_step power height)) :: hist) (height_step argsort sorted (psd_step power height))) as (H1 & H2 & H3 & H4).
      split; [exact H1|]. split; [exact H2|]. split; [|exact H4]. clear - H3. cbn beta in H3. lia.
Qed.

(** ** The spectrum *)
Lemma phase_conj z : unit_phase (conj z) = conj (unit_phase z).
Proof.
  destruct z as [x y]. unfold unit_phase, conj. cbn [fst snd]. replace ((- y) ^ 2) with (y ^ 2) by ring.
  destruct (Reqb _ 0); cbn [fst snd]; [unfold c1; cbn; f_equal; ring|]. f_equal. unfold Rdiv. ring.
Qed.
Lemma phase_norm z : cnorm2 (unit_phase z) = 1.
Proof.
  unfold unit_phase, cnorm2. destruct (Reqb _ 0) eqn:E; cbn [fst snd c1]; [ring|]. apply Reqb_false in E.
  set (r := sqrt _) in *. assert (Q : r * r = fst z ^ 2 + snd z ^ 2).
  { apply sqrt_sqrt. pose proof (pow2_ge_0 (fst z)). pose proof (pow2_ge_0 (snd z)). lra. }
  replace ((fst z / r) ^ 2 + (snd z / r) ^ 2) with ((fst z ^ 2 + snd z ^ 2) / (r * r)) by (field; assumption). rewrite <- Q. field. assumption.
Qed.
Lemma opp_minus n k : (k < n)%nat -> opp n k = minus_freq n k.
Proof.
  intro K. unfold opp, minus_freq. destruct (Nat.eqb_spec k 0) as [->|E]; [rewrite Nat.sub_0_r; apply Nat.mod_same; lia|]. apply Nat.mod_small. lia.
Qed.
Lemma psd_step_fft power h k l : (k < rows power)%nat -> (l < cols power)%nat ->
  let p := psd_step power h in
  exists u, cnorm2 u = 1 /\ fft2 (rows power) (cols power) (fun i j => creal (at_ p i j)) k l =
    cmul (creal ((at_ power k l + at_ power (minus_freq (rows power) k) (minus_freq (cols power) l)) / 2)) u.
Proof.
  intros K L. cbv zeta. unfold psd_step. cbn [at_ rows cols]. set (m := rows power) in *. set (n := cols power) in *.
  set (f := fft2 m n (fun a b => creal (at_ h a b))). exists (unit_phase (f k l)). split; [apply phase_norm|].
  rewrite fft2_real_part by assumption.
  assert (F : f (opp m k) (opp n l) = conj (f k l)).
  { unfold f. rewrite <- (conj_conj (fft2 _ _ _ (opp m k) (opp n l))), <- fft2_conj_any by assumption. f_equal. apply fft2_ext. intros. now rewrite conj_real. }
  rewrite F, phase_conj, conj_mul, conj_conj, conj_real, !opp_minus by assumption.
  destruct (unit_phase (f k l)) as [x y]. unfold cmul, cadd, creal. cbn [fst snd]. f_equal; field.
Qed.

Lemma fft_parts m n x k l : (0 < m)%nat -> (0 < n)%nat ->
  let angle i j := 2 * PI * (INR (k * i) / INR m + INR (l * j) / INR n) in
  fft2 m n (fun i j => creal (x i j)) k l = (total2 m n (fun i j => x i j * cos (angle i j)), - total2 m n (fun i j => x i j * sin (angle i j))).
Proof.
  intros M N angle. unfold fft2.
  assert (S : forall r c (f g : nat -> nat -> R), csum r (fun i => csum c (fun j => (f i j, g i j))) = (total2 r c f, total2 r c g)).
  { assert (S1 : forall c (f g : nat -> R), csum c (fun j => (f j, g j)) = (total c f, total c g)).
    { induction c as [|c IH]; intros f g; cbn [csum total]; [reflexivity|]. rewrite IH. reflexivity. }
    intros r c f g. unfold total2. rewrite <- S1. apply csum_ext. intros. apply S1. }
  assert (NM : INR m <> 0 /\ INR n <> 0) by (split; apply not_0_INR; lia).
  rewrite (csum_ext m _ (fun i => csum n (fun j => (x i j * cos (angle i j), - (x i j * sin (angle i j)))))).
  - rewrite S. f_equal. rewrite (total2_ext m n (fun i j => - (x i j * sin (angle i j))) (fun i j => (-1) * (x i j * sin (angle i j)))) by (intros; ring).
    rewrite total2_scal. ring.
  - intros i _. apply csum_ext. intros j _. unfold root, cis. set (al := _ * IZR (Z.of_nat (k * i)) / _). set (be := _ * IZR (Z.of_nat (l * j)) / _).
    assert (A : angle i j = al + be). { unfold angle, al, be. rewrite <- !INR_IZR_INZ. field. tauto. }
    rewrite A, cos_plus, sin_plus, !cos_neg, !sin_neg. unfold creal, cmul. cbn [fst snd]. f_equal; ring.
Qed.
Lemma spectrum_fft g k l : (0 < rows g)%nat -> (0 < cols g)%nat ->
  spectrum g k l = sqrt (cnorm2 (fft2 (rows g) (cols g) (fun i j => creal (at_ g i j)) k l)).
Proof.
  intros R C. rewrite fft_parts by assumption. unfold spectrum, cnorm2. cbn [fst snd]. f_equal. ring.
Qed.
(** Scaling and shifting the heights. *)
Lemma fft_shift m n x a b k l : (k < m)%nat -> (l < n)%nat -> (k <> 0 \/ l <> 0)%nat ->
  fft2 m n (fun i j => creal (x i j * a + b)) k l = cmul (creal a) (fft2 m n (fun i j => creal (x i j)) k l).
Proof.
  intros K L NZ.
  rewrite (fft2_ext m n _ (fun i j => cmul c1 (cadd (cmul (creal a) (cadd (creal (x i j)) c0)) (creal b))))
    by (intros; unfold creal, cmul, cadd, c0, c1; cbn [fst snd]; f_equal; ring).
  rewrite (fft2_lin m n c1 (fun i j => cmul (creal a) (cadd (creal (x i j)) c0)) (fun _ _ => creal b)), (fft2_lin m n (creal a) (fun i j => creal (x i j)) (fun _ _ => c0)).
  assert (Z0 : fft2 m n (fun _ _ => c0) k l = c0).
  { unfold fft2. rewrite (csum_ext m _ (fun _ => c0)); [apply csum_zero|]. intros. rewrite (csum_ext n _ (fun _ => c0)); [apply csum_zero|]. intros. ring. }
  assert (Z1 : fft2 m n (fun _ _ => creal b) k l = c0).
  { unfold fft2. transitivity (cmul (creal b) (cmul (csum m (fun i => root m (Z.of_nat (k * i)))) (csum n (fun j => root n (Z.of_nat (l * j)))))).
    - rewrite <- csum_scal_r, <- csum_scal. apply csum_ext. intros i _. rewrite <- !csum_scal. reflexivity.
    - assert (O : forall q r, (r < q)%nat -> r <> 0%nat -> csum q (fun i => root q (Z.of_nat (r * i))) = c0).
      { intros q r RQ RN. assert (E := orthogonal_index q r 0 ltac:(lia) RQ). rewrite (proj2 (Nat.eqb_neq r 0) RN) in E. rewrite <- E. apply csum_ext.
        intros i _. rewrite Nat.mul_0_r. cbn [Z.of_nat Z.opp]. rewrite root_0, Nat.mul_comm. ring. }
      destruct NZ as [NZ|NZ]; [rewrite (O m k K NZ)|rewrite (O n l L NZ)]; ring. }
  rewrite Z0, Z1. ring.
Qed.
