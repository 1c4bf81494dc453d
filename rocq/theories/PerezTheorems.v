(** Surfaces with given heights and spectrum (C65). *)
From Coq Require Import Reals List Bool Arith ZArith Lia Lra Permutation Sorted.
From Verif Require Import Py SurfaceModel SurfaceProofs ConvModel ConvSpec ConvProofs DftProofs FilterProofs PerezModel PerezSpec PerezProofs.
Import ListNotations.
Local Open Scope R_scope.

(** There is a sorting function. *)
Example c65_sorts_exists : exists argsort, sorts argsort.
Proof.
  set (le v i j := nth i v 0 <= nth j v 0).
  set (ins := fix ins (v : list R) (i : nat) (l : list nat) :=
    match l with [] => [i] | j :: l' => if Rleb (nth i v 0) (nth j v 0) then i :: j :: l' else j :: ins v i l' end).
  assert (P : forall v i l, Permutation (ins v i l) (i :: l)).
  { intros v i l. induction l as [|j l IH]; cbn; [reflexivity|]. destruct (Rleb _ _); [reflexivity|].
    apply (Permutation_trans (perm_skip j IH)). apply perm_swap. }
  assert (S : forall v i l, StronglySorted (le v) l -> StronglySorted (le v) (ins v i l)).
  { intros v i l H. induction H as [|j l H IH F]; cbn; [repeat constructor|]. unfold Rleb. destruct (Rle_dec _ _) as [L|L].
    - constructor; [now constructor|]. constructor; [exact L|]. apply Forall_forall. intros x X. apply (proj1 (Forall_forall _ _) F) in X. unfold le in *. lra.
    - constructor; [exact IH|]. apply Forall_forall. intros x X. apply (Permutation_in _ (P v i l)) in X. destruct X as [<-|X]; [unfold le; lra|].
      now apply (proj1 (Forall_forall _ _) F). }
  exists (fun v => fold_right (ins v) [] (seq 0 (List.length v))). intro v.
  assert (PP : forall l, Permutation (fold_right (ins v) [] l) l).
  { induction l as [|i l IH]; cbn; [constructor|]. apply (Permutation_trans (P v i _)). now constructor. }
  assert (SS : forall l, StronglySorted (le v) (fold_right (ins v) [] l)).
  { induction l as [|i l IH]; cbn; [constructor|]. now apply S. }
  split; [apply PP|]. intros a b AB. set (r := fold_right _ _ _) in *.
  assert (L : List.length r = List.length v). { unfold r. rewrite (Permutation_length (PP _)). apply seq_length. }
  assert (G : forall l, StronglySorted (le v) l -> forall a b, (a <= b < List.length l)%nat -> le v (nth a l O) (nth b l O)).
  { clear. intros l H. induction H as [|j l H IH F]; intros a b AB; cbn in AB; [lia|]. destruct b as [|b].
    - replace a with 0%nat by lia. unfold le. lra.
    - destruct a as [|a]; cbn [nth]; [|apply IH; lia]. apply (proj1 (Forall_forall _ _) F). apply nth_In. lia. }
  apply (G r (SS _)). lia.
Qed.

Lemma lsum_app a b : lsum (a ++ b) = lsum a + lsum b.
Proof. induction a as [|x a IH]; cbn [app]; unfold lsum in *; cbn [fold_right]; [ring|]. rewrite IH. ring. Qed.
Lemma lsum_row f n : lsum (map f (seq 0 n)) = total n f.
Proof. induction n as [|n IH]; [reflexivity|]. rewrite seq_S, map_app, lsum_app, IH. cbn [map total Nat.add]. unfold lsum. cbn [fold_right]. ring. Qed.
Lemma lsum_flat f g : lsum (map f (flatten g)) = total2 (rows g) (cols g) (fun i j => f (at_ g i j)).
Proof.
  unfold flatten, total2. induction (rows g) as [|r IH]; [reflexivity|].
  rewrite seq_S, flat_map_app, map_app, lsum_app, IH. cbn [flat_map total Nat.add]. rewrite app_nil_r, map_map, lsum_row. reflexivity.
Qed.

Section Runs.
Variable argsort : list R -> list nat.
Variable error_h : list R -> R.
Variable error_ps error_ps0 : grid -> R.
Let run := discretise_perez argsort error_h error_ps error_ps0.

(** What a successful run computes. *)
Lemma run_inv psd st sample v acc mx ms exact sup rn ro p' out :
  (st = StoredHeights v \/ st = StoredDist /\ sample = v) ->
  run psd st sample acc mx ms exact sup rn ro = (p', Ok out) ->
  let mu := list_mean v in let sq := sqrt (list_variance v) in
  let g := map (fun x => (x - mu) / sq) v in
  let sorted := map (fun i => nth i g 0) (argsort g) in
  let o := outcome_out out in
  0 < sq /\ List.length v = (rows psd * cols psd)%nat /\ (0 < rows psd)%nat /\ (0 < cols psd)%nat /\
  o = loop argsort error_h error_ps error_ps0 mx 0 acc ms (scaled psd) sorted [] (reshape (rows psd) (cols psd) g) /\
  warned out = match why o with HeightsGood | PsdGood => false | _ => true end /\ (sup = false -> warned out = false) /\
  profile_out out = let guess := match exact with ExactPsd => psd_of o | ExactHeights => heights_of o
      | ExactBest => match why o with HeightsGood => heights_of o | _ => psd_of o end end in
    Grid (rows guess) (cols guess) (fun i j => at_ guess i j * sq + mu).
Proof.
  intros G E. unfold run, discretise_perez in E. destruct (ro && rn); [discriminate|]. apply (f_equal snd) in E. cbn [snd] in E.
  replace (match st with StoredDist => Ok sample | StoredHeights v => Ok v | StoredNothing => Err ValueError end) with (@Ok (list R) v) in E
    by (destruct G as [->|[-> ->]]; reflexivity).
  cbn [bind] in E. cbv zeta in E. change (mean v) with (list_mean v) in E. change (mean (map (fun x => (x - list_mean v) ^ 2) v)) with (list_variance v) in E.
  destruct (Reqb (sqrt (list_variance v)) 0) eqn:Q; [discriminate|]. apply Reqb_false in Q.
  rewrite map_length in E. destruct (Nat.eqb_spec (List.length v) (rows psd * cols psd)) as [L|L]; [cbn [negb] in E|discriminate].
  destruct (_ && negb sup) eqn:F in E; [discriminate|]. inversion E as [EO]. clear E EO. cbn [outcome_out warned profile_out].
  assert (V : (0 < List.length v)%nat). { destruct v; [|cbn; lia]. exfalso. apply Q. unfold list_variance, list_mean. cbn. unfold Rdiv. rewrite Rmult_0_l. apply sqrt_0. }
  split; [pose proof (sqrt_pos (list_variance v)); lra|]. split; [exact L|]. split; [nia|]. split; [nia|]. split; [reflexivity|]. split; [reflexivity|]. split.
  - intros ->. cbn [negb] in F. now rewrite andb_true_r in F.
  - destruct exact; try reflexivity. destruct (why _); reflexivity.
Qed.

(** When the heights are to be exact, the profile has exactly the given heights, each as often as it was given, in the
    shape of the spectrum, and they are in the order of the heights of the surface with the right spectrum. *)
Theorem c65_perez_heights : forall psd st sample v acc mx ms exact sup rn ro p' out, sorts argsort ->
  (st = StoredHeights v \/ st = StoredDist /\ sample = v) ->
  run psd st sample acc mx ms exact sup rn ro = (p', Ok out) ->
  (exact = ExactHeights \/ exact = ExactBest /\ why (outcome_out out) = HeightsGood) ->
  rows (profile_out out) = rows psd /\ cols (profile_out out) = cols psd /\ Permutation (entries (profile_out out)) v /\
  forall i j i' j', (i < rows psd)%nat -> (j < cols psd)%nat -> (i' < rows psd)%nat -> (j' < cols psd)%nat ->
    at_ (psd_of (outcome_out out)) i j < at_ (psd_of (outcome_out out)) i' j' -> at_ (profile_out out) i j <= at_ (profile_out out) i' j'.
Proof.
  intros psd st sample v acc mx ms exact sup rn ro p' out S G E X.
  destruct (run_inv _ _ _ _ _ _ _ _ _ _ _ _ _ G E) as (Q & L & R0 & C0 & O & _ & _ & P). cbv zeta in *.
  set (mu := list_mean v) in *. set (sq := sqrt (list_variance v)) in *. set (g := map _ v) in *. set (sorted := map _ (argsort g)) in *. set (o := outcome_out out) in *.
  assert (PO : profile_out out = Grid (rows (heights_of o)) (cols (heights_of o)) (fun i j => at_ (heights_of o) i j * sq + mu)).
  { rewrite P. destruct X as [->|[-> ->]]; reflexivity. }
  destruct (loop_out argsort error_h error_ps error_ps0 mx 0 acc ms (scaled psd) sorted [] (reshape (rows psd) (cols psd) g)) as ((h & PS) & HS & _); [exact R0|exact C0|].
  rewrite <- O in PS, HS.
  assert (R1 : rows (psd_of o) = rows psd) by (rewrite PS; reflexivity). assert (C1 : cols (psd_of o) = cols psd) by (rewrite PS; reflexivity).
  assert (LG : List.length g = (rows psd * cols psd)%nat) by (unfold g; now rewrite map_length).
  assert (SP := sorted_perm argsort g S). fold sorted in SP.
  assert (LS : List.length sorted = (rows psd * cols psd)%nat) by (now rewrite (Permutation_length SP)).
  rewrite PO, HS. cbn [rows cols at_]. split; [exact R1|]. split; [exact C1|]. split.
  - rewrite entries_flatten.
    assert (HP := height_step_perm argsort sorted (psd_of o) S ltac:(lia) ltac:(rewrite LS; congruence)).
    assert (M : forall a, flatten (Grid (rows a) (cols a) (fun i j => at_ a i j * sq + mu)) = map (fun x => x * sq + mu) (flatten a)).
    { intro a. rewrite !flatten_seq, map_map. reflexivity. }
    rewrite (M (height_step argsort sorted (psd_of o))).
    apply (Permutation_trans (Permutation_map (fun x => x * sq + mu) (Permutation_trans HP SP))).
    unfold g. rewrite map_map. rewrite (map_ext _ (fun x => x)) by (intro; field; lra). now rewrite map_id.
  - intros i j i' j' I J I' J' LT. apply Rplus_le_compat_r. apply Rmult_le_compat_r; [lra|]. unfold height_step. cbn [at_]. rewrite C1.
    set (w := flatten (psd_of o)).
    assert (LW : List.length w = (rows psd * cols psd)%nat) by (unfold w; rewrite flatten_length; congruence).
    assert (W : forall i j, (i < rows psd)%nat -> (j < cols psd)%nat -> nth (i * cols psd + j) w 0 = at_ (psd_of o) i j).
    { intros a b A B. unfold w. rewrite <- C1. unfold flatten. apply flat_cell; congruence || (rewrite ?R1, ?C1; assumption). }
    apply rank_order; try assumption.
    + congruence.
    + intros a b AB. apply sorted_order; [assumption|lia].
    + nia.
    + nia.
    + rewrite !W by assumption. exact LT.
Qed.

Lemma inv_nonneg x : 0 <= x -> 0 <= / x.
Proof. intros [H|H]; [left; now apply Rinv_0_lt_compat|]. subst. rewrite Rinv_0. lra. Qed.
Lemma scaled_at psd k l : (k <> 0 \/ l <> 0)%nat ->
  at_ (scaled psd) k l = at_ psd k l * (INR (rows psd) * INR (cols psd) / sqrt (power_of psd)).
Proof.
  intro NZ. unfold scaled. cbn [at_ centred rows cols]. rewrite lsum_flat. cbn [centred rows cols at_].
  replace (Nat.eqb k 0 && Nat.eqb l 0) with false by (destruct NZ as [NZ|NZ]; apply Nat.eqb_neq in NZ; rewrite NZ, ?andb_false_r; reflexivity).
  rewrite (total2_ext _ _ _ (fun i j => if Nat.eqb i 0 && Nat.eqb j 0 then 0 else at_ psd i j ^ 2)).
  - fold (power_of psd). unfold Rdiv. ring.
  - intros i j _ _. destruct (_ && _); [ring|reflexivity].
Qed.
Lemma scaled_zero psd : at_ (scaled psd) 0 0 = 0.
Proof. unfold scaled. cbn [at_ centred]. cbn [Nat.eqb andb]. unfold Rdiv. ring. Qed.
Lemma minus_zero n k : (k < n)%nat -> (minus_freq n k = 0 <-> k = 0)%nat.
Proof. unfold minus_freq. destruct (Nat.eqb_spec k 0); lia. Qed.

(** When the spectrum is to be exact, the mean height is right, and each Fourier coefficient has the magnitude of the
    average of the target at its frequency and at the opposite one, times one common factor. *)
Theorem c65_perez_spectrum : forall psd st sample v acc mx ms exact sup rn ro p' out,
  (st = StoredHeights v \/ st = StoredDist /\ sample = v) ->
  run psd st sample acc mx ms exact sup rn ro = (p', Ok out) ->
  (exact = ExactPsd \/ exact = ExactBest /\ why (outcome_out out) <> HeightsGood) ->
  let z := profile_out out in let m := rows psd in let n := cols psd in
  rows z = m /\ cols z = n /\ mean_height z = list_mean v /\
  forall k l, (k < m)%nat -> (l < n)%nat -> (k <> 0 \/ l <> 0)%nat ->
    spectrum z k l = sqrt (list_variance v) * (INR m * INR n / sqrt (power_of psd)) *
                     Rabs ((at_ psd k l + at_ psd (minus_freq m k) (minus_freq n l)) / 2).
Proof.
  intros psd st sample v acc mx ms exact sup rn ro p' out G E X.
  destruct (run_inv _ _ _ _ _ _ _ _ _ _ _ _ _ G E) as (Q & L & R0 & C0 & O & _ & _ & P). cbv zeta in *.
  set (mu := list_mean v) in *. set (sq := sqrt (list_variance v)) in *. set (g := map _ v) in *. set (sorted := map _ (argsort g)) in *. set (o := outcome_out out) in *.
  assert (PO : profile_out out = Grid (rows (psd_of o)) (cols (psd_of o)) (fun i j => at_ (psd_of o) i j * sq + mu)).
  { rewrite P. destruct X as [->|[-> X]]; [reflexivity|]. destruct (why o); try reflexivity. congruence. }
  destruct (loop_out argsort error_h error_ps error_ps0 mx 0 acc ms (scaled psd) sorted [] (reshape (rows psd) (cols psd) g)) as ((h & PS) & _); [exact R0|exact C0|].
  rewrite <- O in PS. set (m := rows psd) in *. set (n := cols psd) in *.
  assert (R1 : rows (psd_of o) = m) by (rewrite PS; reflexivity). assert (C1 : cols (psd_of o) = n) by (rewrite PS; reflexivity).
  rewrite PO. cbn [rows cols at_]. split; [exact R1|]. split; [exact C1|].
  assert (F := fun k l K LL => psd_step_fft (scaled psd) h k l K LL). cbv zeta in F. change (rows (scaled psd)) with m in F. change (cols (scaled psd)) with n in F. rewrite <- PS in F.
  assert (MN : INR m <> 0 /\ INR n <> 0) by (split; apply not_0_INR; lia). split.
  - unfold mean_height. cbn [rows cols at_]. rewrite R1, C1.
    rewrite (total2_ext m n _ (fun i j => sq * at_ (psd_of o) i j + mu * 1)) by (intros; ring). rewrite total2_add, !total2_scal.
    assert (Z : total2 m n (at_ (psd_of o)) = 0).
    { destruct (F 0%nat 0%nat R0 C0) as (u & _ & FU).
      change (minus_freq m 0) with 0%nat in FU. change (minus_freq n 0) with 0%nat in FU. rewrite scaled_zero in FU. rewrite fft_parts in FU by assumption.
      apply (f_equal fst) in FU. unfold cmul, creal in FU. cbn [fst snd] in FU. rewrite <- (total2_ext m n (fun i j => at_ (psd_of o) i j * cos (2 * PI * (INR (0 * i) / INR m + INR (0 * j) / INR n)))); [rewrite FU; lra|].
      intros i j _ _. cbn [Nat.mul INR]. unfold Rdiv. rewrite !Rmult_0_l, Rplus_0_l, Rmult_0_r, cos_0. ring. }
    assert (T1 : total2 m n (fun _ _ => 1) = INR m * INR n).
    { assert (O1 : forall k c, total k (fun _ => c) = INR k * c) by (induction k as [|k IH]; intro c; cbn [total]; [cbn; ring|rewrite IH, S_INR; ring]).
      unfold total2. rewrite !O1. ring. }
    rewrite Z, T1. field. tauto.
  - intros k l K LL NZ. rewrite spectrum_fft by (cbn [rows cols]; lia). cbn [rows cols at_]. rewrite R1, C1, fft_shift by assumption.
    destruct (F k l K LL) as (u & U & ->).
    rewrite !scaled_at by (try assumption; rewrite !minus_zero by assumption; assumption). fold m n. set (c := INR m * INR n / _).
    assert (CP : 0 <= c). { unfold c, Rdiv. apply Rmult_le_pos; [apply Rmult_le_pos; apply pos_INR|].
      apply inv_nonneg, sqrt_pos. }
    set (a := (at_ psd k l + at_ psd (minus_freq m k) (minus_freq n l)) / 2).
    replace ((at_ psd k l * c + at_ psd (minus_freq m k) (minus_freq n l) * c) / 2) with (a * c) by (unfold a; field).
    replace (cnorm2 (cmul (creal sq) (cmul (creal (a * c)) u))) with ((sq * c * a) ^ 2 * cnorm2 u)
      by (destruct u as [x y]; unfold cnorm2, cmul, creal; cbn [fst snd]; ring).
    rewrite U, Rmult_1_r, <- Rsqr_pow2, sqrt_Rsqr_abs, !Rabs_mult. rewrite (Rabs_pos_eq sq), (Rabs_pos_eq c) by lra. reflexivity.
Qed.

Lemma square_factor s c w x : 0 < w -> (s * (c / sqrt w)) ^ 2 * x ^ 2 = s ^ 2 * c ^ 2 / w * x ^ 2.
Proof.
  intro W. f_equal. assert (Q : sqrt w ^ 2 = w) by (apply pow2_sqrt; lra). assert (0 < sqrt w) by now apply sqrt_lt_R0.
  replace ((s * (c / sqrt w)) ^ 2) with (s ^ 2 * c ^ 2 / sqrt w ^ 2) by (field; lra). now rewrite Q.
Qed.
Lemma norm_case z m n mu a b k l : rows z = m -> cols z = n -> (k < m)%nat -> (l < n)%nat -> (k <> 0 \/ l <> 0)%nat ->
  spectrum z k l = a * b -> cnorm2 (fft2 m n (fun i j => creal (at_ z i j - mu)) k l) = a ^ 2 * b ^ 2.
Proof.
  intros R1 C1 K L NZ. rewrite spectrum_fft by lia. rewrite R1, C1. intro H.
  rewrite (fft2_ext m n _ (fun i j => creal (at_ z i j * 1 + - mu))) by (intros; f_equal; ring).
  rewrite fft_shift by assumption. set (y := fft2 _ _ _ _ _) in *.
  replace (cnorm2 (cmul (creal 1) y)) with (cnorm2 y) by (unfold cnorm2, cmul, creal; cbn [fst snd]; ring).
  rewrite <- Rpow_mult_distr, <- H, pow2_sqrt; [reflexivity|]. unfold cnorm2. pose proof (pow2_ge_0 (fst y)). pose proof (pow2_ge_0 (snd y)). lra.
Qed.
(** So for an even target (a target a real surface can have) the spectrum is exact, and so is the roughness. *)
Theorem c65_perez_even : forall psd st sample v acc mx ms exact sup rn ro p' out,
  (st = StoredHeights v \/ st = StoredDist /\ sample = v) ->
  run psd st sample acc mx ms exact sup rn ro = (p', Ok out) ->
  (exact = ExactPsd \/ exact = ExactBest /\ why (outcome_out out) <> HeightsGood) ->
  even_spectrum psd -> 0 < power_of psd ->
  let z := profile_out out in
  variance z = list_variance v /\
  forall k l, (k < rows psd)%nat -> (l < cols psd)%nat -> (k <> 0 \/ l <> 0)%nat ->
    spectrum z k l = sqrt (list_variance v) * (INR (rows psd) * INR (cols psd) / sqrt (power_of psd)) * Rabs (at_ psd k l).
Proof.
  intros psd st sample v acc mx ms exact sup rn ro p' out G E X EV PW z.
  destruct (c65_perez_spectrum _ _ _ _ _ _ _ _ _ _ _ _ _ G E X) as (R1 & C1 & MH & SP). cbv zeta in *. fold z in R1, C1, MH, SP.
  destruct (run_inv _ _ _ _ _ _ _ _ _ _ _ _ _ G E) as (Q & _ & R0 & C0 & _). cbv zeta in *. clear - R1 C1 MH SP Q R0 C0 EV PW.
  set (m := rows psd) in *. set (n := cols psd) in *. set (sq := sqrt (list_variance v)) in *.
  assert (SP2 : forall k l, (k < m)%nat -> (l < n)%nat -> (k <> 0 \/ l <> 0)%nat -> spectrum z k l = sq * (INR m * INR n / sqrt (power_of psd)) * Rabs (at_ psd k l)).
  { intros k l K L NZ. rewrite SP by assumption. f_equal. f_equal. unfold m, n. rewrite EV by assumption. field. }
  split; [|exact SP2].
  assert (MN : 0 < INR m /\ 0 < INR n) by (split; apply lt_0_INR; lia).
  unfold variance. rewrite MH, R1, C1. set (mu := list_mean v).
  assert (PV := parseval m n (fun i j => at_ z i j - mu) R0 C0). cbv beta in PV.
  rewrite (total2_ext m n (fun k l => cnorm2 _) (fun k l => sq ^ 2 * (INR m * INR n) ^ 2 / power_of psd * (if Nat.eqb k 0 && Nat.eqb l 0 then 0 else at_ psd k l ^ 2))) in PV.
  - rewrite total2_scal in PV. fold m n in PV. change (total2 m n (fun k l => if Nat.eqb k 0 && Nat.eqb l 0 then 0 else at_ psd k l ^ 2)) with (power_of psd) in PV.
    assert (SV : sq ^ 2 = list_variance v). { unfold sq. rewrite pow2_sqrt; [reflexivity|]. destruct (Rle_dec 0 (list_variance v)) as [H|H]; [exact H|]. exfalso.
      unfold sq in Q. rewrite sqrt_neg_0 in Q by lra. lra. }
    rewrite <- SV. set (t := total2 m n _) in *. assert (MNP : 0 < INR m * INR n) by now apply Rmult_lt_0_compat. apply Rmult_eq_reg_r with (INR m * INR n * (INR m * INR n)); [|apply Rgt_not_eq; now apply Rmult_lt_0_compat].
    replace (t / (INR m * INR n) * (INR m * INR n * (INR m * INR n))) with (t * (INR m * INR n)) by (field; lra). rewrite PV. field. lra.
  - intros k l K L. destruct (Nat.eqb_spec k 0) as [K0|K0].
    + destruct (Nat.eqb_spec l 0) as [L0|L0].
      * subst. cbn [andb]. rewrite fft_parts by assumption. unfold cnorm2. cbn [fst snd].
        assert (Z : total2 m n (fun i j => at_ z i j - mu) = 0).
        { rewrite (total2_ext m n _ (fun i j => at_ z i j + (- mu) * 1)) by (intros; ring). rewrite total2_add, total2_scal.
          assert (T1 : total2 m n (fun _ _ => 1) = INR m * INR n).
          { assert (O1 : forall k c, total k (fun _ => c) = INR k * c) by (induction k as [|k IH]; intro c; cbn [total]; [cbn; ring|rewrite IH, S_INR; ring]).
            unfold total2. rewrite !O1. ring. }
          rewrite T1. unfold mean_height in MH. rewrite R1, C1 in MH. fold mu in MH. rewrite <- MH. field. lra. }
        rewrite (total2_ext m n (fun i j => _ * cos _) (fun i j => at_ z i j - mu)).
        -- rewrite Z. rewrite (total2_ext m n (fun i j => _ * sin _) (fun _ _ => 0 * 0)); [rewrite total2_scal; ring|].
           intros i j _ _. cbn [Nat.mul INR]. unfold Rdiv. rewrite !Rmult_0_l, Rplus_0_l, Rmult_0_r, sin_0. ring.
        -- intros i j _ _. cbn [Nat.mul INR]. unfold Rdiv. rewrite !Rmult_0_l, Rplus_0_l, Rmult_0_r, cos_0. ring.
      * cbn [andb]. rewrite (norm_case z m n mu _ _ k l R1 C1 K L (or_intror L0) (SP2 k l K L (or_intror L0))), pow2_abs. apply square_factor; lra.
    + cbn [andb]. rewrite (norm_case z m n mu _ _ k l R1 C1 K L (or_introl K0) (SP2 k l K L (or_introl K0))), pow2_abs. apply square_factor; lra.
Qed.
(** With a target that is not even the spectrum asked for is not reached: it is reached at a frequency just when the
    target is the same at the opposite one. *)
Theorem c65_perez_uneven_refuted : forall psd st sample v acc mx ms exact sup rn ro p' out k l,
  (st = StoredHeights v \/ st = StoredDist /\ sample = v) ->
  run psd st sample acc mx ms exact sup rn ro = (p', Ok out) ->
  (exact = ExactPsd \/ exact = ExactBest /\ why (outcome_out out) <> HeightsGood) ->
  (forall k l, 0 <= at_ psd k l) -> 0 < power_of psd ->
  (k < rows psd)%nat -> (l < cols psd)%nat -> (k <> 0 \/ l <> 0)%nat ->
  (spectrum (profile_out out) k l = sqrt (list_variance v) * (INR (rows psd) * INR (cols psd) / sqrt (power_of psd)) * at_ psd k l <->
   at_ psd (minus_freq (rows psd) k) (minus_freq (cols psd) l) = at_ psd k l).
Proof.
  intros psd st sample v acc mx ms exact sup rn ro p' out k l G E X NN PW K L NZ.
  destruct (c65_perez_spectrum _ _ _ _ _ _ _ _ _ _ _ _ _ G E X) as (_ & _ & _ & SP). cbv zeta in SP.
  destruct (run_inv _ _ _ _ _ _ _ _ _ _ _ _ _ G E) as (Q & _ & R0 & C0 & _). cbv zeta in Q.
  rewrite SP by assumption. set (a := at_ psd k l). set (b := at_ psd (minus_freq _ k) _).
  assert (A : 0 <= a) by apply NN. assert (B : 0 <= b) by apply NN. rewrite Rabs_pos_eq by lra.
  assert (C : 0 < sqrt (list_variance v) * (INR (rows psd) * INR (cols psd) / sqrt (power_of psd))).
  { apply Rmult_lt_0_compat; [exact Q|]. apply Rdiv_lt_0_compat; [apply Rmult_lt_0_compat; now apply lt_0_INR|now apply sqrt_lt_R0]. }
  split; intro H; [apply Rmult_eq_reg_l in H; lra|]. f_equal. lra.
Qed.

(** At least one pass of the loop is made, and at most [max_it], or one if that is smaller. *)
Theorem c65_perez_passes : forall psd st sample acc mx ms exact sup rn ro p' out,
  run psd st sample acc mx ms exact sup rn ro = (p', Ok out) -> (1 <= passes (outcome_out out) <= Nat.max 1 mx)%nat.
Proof.
  intros psd st sample acc mx ms exact sup rn ro p' out E.
  assert (G : exists v, st = StoredHeights v \/ st = StoredDist /\ sample = v).
  { unfold run, discretise_perez in E. destruct (ro && rn); [discriminate|]. destruct st as [|v|]; [exists sample; now right|exists v; now left|discriminate]. }
  destruct G as [v G]. destruct (run_inv _ _ _ _ _ _ _ _ _ _ _ _ _ G E) as (_ & _ & R0 & C0 & O & _). cbv zeta in O. rewrite O.
  apply (loop_out argsort error_h error_ps error_ps0 mx 0 acc ms (scaled psd)); assumption.
Qed.

(** Unless errors are suppressed, a surface is only made if one of the two tests of convergence was met. With 'best', a
    small error of the heights of the surface with the exact spectrum yields the other surface, whose spectrum was not
    tested, and small errors of the spectrum of the surface with the exact heights yield the one with the exact
    spectrum, whose heights did not pass the test. *)
Theorem c65_perez_converged : forall psd st sample acc mx ms exact rn ro p' out,
  run psd st sample acc mx ms exact false rn ro = (p', Ok out) ->
  warned out = false /\
  (why (outcome_out out) = HeightsGood /\ error_h (entries (psd_of (outcome_out out))) < acc \/
   why (outcome_out out) = PsdGood /\ error_ps (heights_of (outcome_out out)) < acc /\ error_ps0 (heights_of (outcome_out out)) < acc).
Proof.
  intros psd st sample acc mx ms exact rn ro p' out E.
  assert (G : exists v, st = StoredHeights v \/ st = StoredDist /\ sample = v).
  { unfold run, discretise_perez in E. destruct (ro && rn); [discriminate|]. destruct st as [|v|]; [exists sample; now right|exists v; now left|discriminate]. }
  destruct G as [v G]. destruct (run_inv _ _ _ _ _ _ _ _ _ _ _ _ _ G E) as (_ & _ & R0 & C0 & O & W & NW & _). cbv zeta in O.
  split; [now apply NW|]. rewrite (NW eq_refl) in W. rewrite entries_flatten.
  destruct (loop_out argsort error_h error_ps error_ps0 mx 0 acc ms (scaled psd) (map (fun i => nth i (map (fun x => (x - list_mean v) / sqrt (list_variance v)) v) 0)
    (argsort (map (fun x => (x - list_mean v) / sqrt (list_variance v)) v))) [] (reshape (rows psd) (cols psd) (map (fun x => (x - list_mean v) / sqrt (list_variance v)) v)) R0 C0)
    as (_ & _ & _ & H1 & H2). rewrite <- O in H1, H2.
  destruct (why (outcome_out out)); try discriminate; [left|right]; auto.
Qed.
Theorem c65_perez_best_refuted : forall psd st sample v acc mx ms rn ro p' out,
  (st = StoredHeights v \/ st = StoredDist /\ sample = v) ->
  run psd st sample acc mx ms ExactBest false rn ro = (p', Ok out) ->
  let o := outcome_out out in
  let from g := forall i j, at_ (profile_out out) i j = at_ g i j * sqrt (list_variance v) + list_mean v in
  (error_h (entries (psd_of o)) < acc /\ from (heights_of o)) \/
  (error_ps (heights_of o) < acc /\ error_ps0 (heights_of o) < acc /\ from (psd_of o)).
Proof.
  intros psd st sample v acc mx ms rn ro p' out G E o from.
  destruct (c65_perez_converged _ _ _ _ _ _ _ _ _ _ _ E) as [_ C]. fold o in C.
  destruct (run_inv _ _ _ _ _ _ _ _ _ _ _ _ _ G E) as (_ & _ & _ & _ & _ & _ & _ & P). cbv zeta in P. fold o in P. unfold from.
  destruct C as [[W H]|(W & H1 & H2)]; rewrite W in P; [left|right]; rewrite P; auto.
Qed.

(** Runs with suppressed errors succeed for all heights which are not all the same and fit the shape. *)
Theorem c65_perez_succeeds : forall psd st sample v acc mx ms exact rn ro,
  (st = StoredHeights v \/ st = StoredDist /\ sample = v) -> (rn = false \/ ro = false) ->
  0 < list_variance v -> List.length v = (rows psd * cols psd)%nat ->
  exists p' out, run psd st sample acc mx ms exact true rn ro = (p', Ok out).
Proof.
  intros psd st sample v acc mx ms exact rn ro G F V L. unfold run, discretise_perez.
  replace (ro && rn) with false by (destruct F as [-> | ->]; rewrite ?andb_false_r; reflexivity).
  replace (match st with StoredDist => Ok sample | StoredHeights v => Ok v | StoredNothing => Err ValueError end) with (@Ok (list R) v)
    by (destruct G as [->|[-> ->]]; reflexivity).
  cbn [bind]. cbv zeta. change (mean v) with (list_mean v). change (mean (map (fun x => (x - list_mean v) ^ 2) v)) with (list_variance v).
  rewrite (proj2 (Reqb_false _ _)) by (apply Rgt_not_eq; now apply sqrt_lt_R0). rewrite map_length, L, Nat.eqb_refl. cbn [negb]. rewrite andb_false_r. eauto.
Qed.

(** Refused: both kinds of return value, an array of heights of the wrong size (only here, not when it was given), a
    constant list of heights, a list that does not fit. *)
Theorem c65_perez_refused : forall psd st sample acc mx ms exact sup rn ro,
  (ro = true /\ rn = true) \/ st = StoredNothing \/
  (exists v, (st = StoredHeights v \/ st = StoredDist /\ sample = v) /\ (list_variance v = 0 \/ List.length v <> (rows psd * cols psd)%nat)) ->
  snd (run psd st sample acc mx ms exact sup rn ro) = Err ValueError.
Proof.
  intros psd st sample acc mx ms exact sup rn ro H. unfold run, discretise_perez.
  destruct (ro && rn) eqn:F; [reflexivity|]. destruct H as [[-> ->]|[->|(v & G & B)]]; [discriminate|reflexivity|].
  replace (match st with StoredDist => Ok sample | StoredHeights v => Ok v | StoredNothing => Err ValueError end) with (@Ok (list R) v)
    by (destruct G as [->|[-> ->]]; reflexivity).
  cbn [bind snd]. cbv zeta. change (mean v) with (list_mean v). change (mean (map (fun x => (x - list_mean v) ^ 2) v)) with (list_variance v).
  destruct (Reqb (sqrt (list_variance v)) 0) eqn:Q; [reflexivity|]. apply Reqb_false in Q.
  destruct B as [B|B]; [rewrite B, sqrt_0 in Q; congruence|]. rewrite map_length, (proj2 (Nat.eqb_neq _ _) B). reflexivity.
Qed.

(** The spectrum of the caller is changed: its constant part is set to zero, even when the run fails later. *)
Theorem c65_perez_caller_refuted : forall psd st sample acc mx ms exact sup rn ro, (rn = false \/ ro = false) ->
  let psd' := fst (run psd st sample acc mx ms exact sup rn ro) in
  rows psd' = rows psd /\ cols psd' = cols psd /\ at_ psd' 0 0 = 0 /\
  forall k l, (k <> 0 \/ l <> 0)%nat -> at_ psd' k l = at_ psd k l.
Proof.
  intros psd st sample acc mx ms exact sup rn ro F. unfold run, discretise_perez.
  replace (ro && rn) with false by (destruct F as [-> | ->]; rewrite ?andb_false_r; reflexivity). cbn [fst centred rows cols at_].
  repeat split. intros k l NZ. destruct NZ as [NZ|NZ]; apply Nat.eqb_neq in NZ; rewrite NZ, ?andb_false_r; reflexivity.
Qed.
End Runs.
Print Assumptions c65_perez_heights.
Print Assumptions c65_perez_spectrum.
Print Assumptions c65_perez_even.
Print Assumptions c65_perez_uneven_refuted.
Print Assumptions c65_perez_passes.
Print Assumptions c65_perez_converged.
Print Assumptions c65_perez_best_refuted.
Print Assumptions c65_perez_succeeds.
Print Assumptions c65_perez_refused.
Print Assumptions c65_perez_caller_refuted.

(** Heights given to the constructor: a list must fit; an array which does not fit is forgotten without a word, so that
    later no surface can be made. *)
Theorem c65_perez_given : forall psd v len0,
  (List.length v = (rows psd * cols psd)%nat -> store_heights psd (FromList v) = Ok (StoredHeights v) /\
     store_heights psd (FromArray len0 v) = Ok (StoredHeights v)) /\
  (List.length v <> (rows psd * cols psd)%nat -> store_heights psd (FromList v) = Err ValueError) /\
  (List.length v <> (rows psd * cols psd)%nat -> len0 <> (rows psd * cols psd)%nat ->
     store_heights psd (FromArray len0 v) = Ok StoredNothing).
Proof.
  intros psd v len0. unfold store_heights. split; [|split].
  - intros ->. rewrite Nat.eqb_refl, orb_true_r. now split.
  - intros H. now rewrite (proj2 (Nat.eqb_neq _ _) H).
  - intros H H'. now rewrite (proj2 (Nat.eqb_neq _ _) H), (proj2 (Nat.eqb_neq _ _) H').
Qed.
Print Assumptions c65_perez_given.

(** A case: four heights, an even and an uneven spectrum of shape (1, 4). *)
Example c65_perez_case : let v := [0; 1; 2; 5] in let psd := Grid 1 4 (fun _ l => nth l [0; 1; 3; 1] 0) in
  let psd' := Grid 1 4 (fun _ l => nth l [0; 1; 3; 2] 0) in
  0 < list_variance v /\ List.length v = (rows psd * cols psd)%nat /\ even_spectrum psd /\ 0 < power_of psd /\
  ~ even_spectrum psd' /\ 0 < power_of psd'.
Proof.
  cbv zeta. split; [unfold list_variance, list_mean; cbn -[INR]; rewrite ?S_INR; cbn [INR]; lra|]. split; [reflexivity|].
  split. { intros k l K L. cbn in K, L. assert (k = 0)%nat by lia. subst k. destruct l as [|[|[|[|l]]]]; [reflexivity..|lia]. }
  split; [unfold power_of, total2; cbn; lra|]. split; [|unfold power_of, total2; cbn; lra].
  intro H. specialize (H 0%nat 1%nat). cbn in H. specialize (H ltac:(lia) ltac:(lia)). lra.
Qed.
