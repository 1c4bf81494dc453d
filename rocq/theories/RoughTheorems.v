(** Amplitude roughness parameters (C56) and flattening (C59). *)
From Coq Require Import Reals List Bool Arith ZArith String Lia Lra FunctionalExtensionality.
From Verif Require Import Py SurfaceModel SurfaceProofs Flt SolverProofs RoughModel RoughSpec RoughProofs.
Import ListNotations.
Local Open Scope R_scope.

(** ** C59: flattening *)

(** Whatever the least squares routine answers: points which are not used keep their height, the shape is kept,
    and a height at a used point is reduced by one and the same polynomial with finite coefficients. *)
Theorem c59_polynomial : forall w p order m adjusted coefs,
  subtract_polynomial w p order m = Ok (adjusted, coefs) ->
  nrows adjusted = nrows p /\ ncols adjusted = ncols p /\
  (forall i j, used p m i j = false -> h_at adjusted i j = h_at p i j) /\
  exists k, coefs = map Fin k /\
    forall i j z, used p m i j = true -> h_at p i j = Fin z ->
      h_at adjusted i j = Fin (z - polynomial order k (INR j) (INR i)).
Proof.
  intros w p order m adjusted coefs H.
  assert (F : fits p m).
  { destruct m; cbn; auto. unfold subtract_polynomial in H. cbn in H.
    destruct (Nat.eqb r (nrows p)) eqn:A, (Nat.eqb c (ncols p)) eqn:B; try discriminate. split; apply Nat.eqb_eq; assumption. }
  destruct (poly_mask_used p m F) as (mk & PM & K). unfold subtract_polynomial in H. rewrite PM in H. cbn [bind] in H.
  destruct (lstsq w _ _ _) as [cs|]; [|discriminate].
  destruct (existsb not_finite cs) eqn:NF; [discriminate|]. destruct (whole p && _); [discriminate|]. injection H as <- <-.
  assert (L : exists k, cs = map Fin k).
  { clear - NF. induction cs as [|a cs IH]; [exists []; reflexivity|]. cbn in NF. apply orb_false_iff in NF. destruct NF as [A B].
    destruct (IH B) as (k & ->). destruct a; try discriminate. exists (r :: k). reflexivity. }
  destruct L as (k & ->). cbn [nrows ncols]. split; [reflexivity|split; [reflexivity|split]].
  - intros i j U. cbn [h_at]. rewrite K, U. reflexivity.
  - exists k. split; [reflexivity|]. intros i j z U Z. cbn [h_at]. rewrite K, U, poly_value_fin, product_basis, Z. reflexivity.
Qed.
Print Assumptions c59_polynomial.

(** With a good least squares routine and finite heights at the used points, the polynomial is the one which
    leaves the least sum of squares. *)
Theorem c59_least_squares : forall w p order m z,
  good_lstsq (lstsq w) -> fits p m -> whole p = false -> heights_are p (used p m) z ->
  exists adjusted coefs zf, subtract_polynomial w p order m = Ok (adjusted, coefs) /\
    heights_are adjusted (used p m) zf /\ flattened order (nrows p) (ncols p) (used p m) z zf.
Proof.
  intros w p order m z G F W H. destruct (subtract_fin w p order m z G F W H) as (eta & k & E & _ & _ & _ & _ & Hh & Fl & _). eauto 10.
Qed.
Print Assumptions c59_least_squares.

(** A profile which is a polynomial at the used points is flattened to zero there. *)
Theorem c59_flat : forall w p order m q,
  good_lstsq (lstsq w) -> fits p m -> whole p = false ->
  heights_are p (used p m) (fun i j => polynomial order q (INR j) (INR i)) ->
  exists adjusted coefs, subtract_polynomial w p order m = Ok (adjusted, coefs) /\
    heights_are adjusted (used p m) (fun _ _ => 0).
Proof.
  intros w p order m q G F W H. destruct (subtract_fin w p order m _ G F W H) as (eta & k & E & R & C & _ & _ & Hh & Fl & _).
  exists eta, (map Fin k). split; [exact E|]. intros i j Hi Hj U. rewrite Hh by assumption. f_equal.
  apply (flattened_poly order (nrows p) (ncols p) (used p m) q _ _ ltac:(reflexivity) Fl); try assumption; congruence.
Qed.
Print Assumptions c59_flat.

(** The flattened heights have the mean zero. *)
Theorem c59_mean_zero : forall w p order m z adjusted coefs zf,
  good_lstsq (lstsq w) -> fits p m -> whole p = false -> heights_are p (used p m) z ->
  subtract_polynomial w p order m = Ok (adjusted, coefs) -> heights_are adjusted (used p m) zf ->
  over (nrows p) (ncols p) (used p m) zf = 0.
Proof.
  intros w p order m z adjusted coefs zf G F W H E Hf. destruct (subtract_fin w p order m _ G F W H) as (eta & k & E' & R & C & _ & _ & Hh & Fl & _).
  rewrite E in E'. injection E' as -> _. rewrite <- (flattened_mean _ _ _ _ _ _ Fl). apply over_ext. intros i j Hi Hj U.
  specialize (Hf i j ltac:(lia) ltac:(lia) U). rewrite Hh in Hf by (lia || assumption). injection Hf as <-. reflexivity.
Qed.
Print Assumptions c59_mean_zero.

(** Adding a polynomial (a tilt) to the used points, and any change of the other ones, does not change the flattened
    heights at the used points. *)
Theorem c59_tilt : forall w p p' order r c f z q,
  good_lstsq (lstsq w) -> whole p = false -> whole p' = false ->
  r = nrows p -> c = ncols p -> r = nrows p' -> c = ncols p' ->
  heights_are p f z -> heights_are p' f (fun i j => z i j + polynomial order q (INR j) (INR i)) ->
  exists a ca a' ca', subtract_polynomial w p order (ArrMask r c f) = Ok (a, ca) /\
    subtract_polynomial w p' order (ArrMask r c f) = Ok (a', ca') /\
    forall i j, (i < r)%nat -> (j < c)%nat -> f i j = true -> h_at a i j = h_at a' i j.
Proof.
  intros w p p' order r c f z q G W W' Hr Hc Hr' Hc' H H'.
  destruct (subtract_fin w p order (ArrMask r c f) z G (conj Hr Hc) W H) as (a & k & E & R & C & _ & _ & Hh & Fl & _).
  destruct (subtract_fin w p' order (ArrMask r c f) _ G (conj Hr' Hc') W' H') as (a' & k' & E' & R' & C' & _ & _ & Hh' & Fl' & _).
  exists a, (map Fin k), a', (map Fin k'). split; [exact E|split; [exact E'|]]. intros i j Hi Hj U.
  rewrite Hh, Hh' by (cbn; try assumption; lia). f_equal.
  rewrite <- Hr, <- Hc in Fl. rewrite <- Hr', <- Hc' in Fl'. cbn in Fl, Fl'.
  apply (flattened_unique order r c f (fun i j => z i j + polynomial order q (INR j) (INR i))); try assumption.
  apply flattened_tilt. exact Fl.
Qed.
Print Assumptions c59_tilt.

(** Flattening a second time changes nothing. *)
Theorem c59_idempotent : forall w p order r c f z a ca,
  good_lstsq (lstsq w) -> whole p = false -> heights_are p f z -> r = nrows p -> c = ncols p ->
  subtract_polynomial w p order (ArrMask r c f) = Ok (a, ca) ->
  exists a' ca', subtract_polynomial w a order (ArrMask r c f) = Ok (a', ca') /\
    forall i j, (i < r)%nat -> (j < c)%nat -> h_at a' i j = h_at a i j.
Proof.
  intros w p order r c f z a ca G W H Hr Hc E.
  destruct (subtract_fin w p order (ArrMask r c f) z G (conj Hr Hc) W H) as (a1 & k & E1 & R & C & W1 & _ & Hh & Fl & Un).
  rewrite E in E1. injection E1 as <- ->. cbn in *.
  destruct (subtract_fin w a order (ArrMask r c f) _ G (conj (eq_trans Hr (eq_sym R)) (eq_trans Hc (eq_sym C))) W1 Hh)
    as (a' & k' & E' & R' & C' & _ & _ & Hh' & Fl' & Un'). cbn in *.
  exists a', (map Fin k'). split; [exact E'|]. intros i j Hi Hj. destruct (f i j) eqn:U; [|apply Un', U].
  rewrite Hh', Hh by (try assumption; lia). f_equal. rewrite R, C in Fl'. symmetry.
  apply (flattened_unique order (nrows p) (ncols p) f (left_of order k z)); try assumption; try lia.
  eapply flattened_again. exact Fl.
Qed.
Print Assumptions c59_idempotent.

(** A profile of integers is never flattened: adding to the array made by [np.zeros_like] fails. *)
Theorem c59_integers_refuted : forall w p order m z,
  good_lstsq (lstsq w) -> fits p m -> whole p = true -> heights_are p (used p m) z ->
  subtract_polynomial w p order m = Err TypeError.
Proof.
  intros w p order m z G F W H.
  destruct (subtract_fin w (Arr false (nrows p) (ncols p) (h_at p)) order m z G) as (eta & k & E & _ & _ & _ & L & _).
  { destruct m; exact F. } { reflexivity. } { destruct m; exact H. }
  unfold subtract_polynomial in E |- *. cbn [nrows ncols whole h_at] in E.
  replace (poly_mask (Arr false (nrows p) (ncols p) (h_at p)) m) with (poly_mask p m) in E by (destruct m; reflexivity).
  destruct (poly_mask p m) as [mk|]; [|discriminate]. cbn [bind] in *.
  replace (map (entry (Arr false (nrows p) (ncols p) (h_at p)))) with (map (entry p)) in E by reflexivity.
  destruct (lstsq w _ _ _) as [cs|]; [|discriminate]. destruct (existsb not_finite cs); [discriminate|].
  cbn [andb] in E. injection E as _ ->. rewrite W, map_length, L. reflexivity.
Qed.
Print Assumptions c59_integers_refuted.

(** A tilted plane with an excluded spike. *)
Definition plane : arr := Arr false 3 4 (fun i j => if Nat.eqb (i + j) 3 then PInf else Fin (1 + 2 * INR j - INR i)).
Definition no_spike : bmask := fun i j => negb (Nat.eqb (i + j) 3).
Definition exact : world := World witness (fun x => x).
Example c59_case : good_lstsq (lstsq exact) /\ fits plane (ArrMask 3 4 no_spike) /\ whole plane = false /\
  heights_are plane (used plane (ArrMask 3 4 no_spike)) (fun i j => polynomial 1 [1; -1; 2; 0] (INR j) (INR i)) /\
  some_used plane (used plane (ArrMask 3 4 no_spike)).
Proof.
  split; [exact witness_good|]. split; [split; reflexivity|]. split; [reflexivity|]. split.
  - intros i j _ _ U. cbn in U |- *. unfold no_spike in U. apply negb_true_iff in U. rewrite U. f_equal. unfold polynomial. cbn. ring.
  - exists 0%nat, 0%nat. cbn. repeat split; lia.
Qed.
Example c59_integers_case : fits (Arr true 2 2 (fun i j => Fin (INR i))) NoMask /\
  heights_are (Arr true 2 2 (fun i j => Fin (INR i))) (used (Arr true 2 2 (fun i j => Fin (INR i))) NoMask) (fun i j => INR i).
Proof. split; [exact I|]. intros i j _ _ _. reflexivity. Qed.

(** ** C56: amplitude parameters *)

(** With a mask that is taken, finite heights at the used points and at least one of them: the parameters are those of the
    heights less the best fitting plane (or biquadratic), or of the heights themselves when flattening is switched off. *)
Theorem c56_values : forall w s gs m curved nf cut four z,
  let p := profile_of s in
  let u := used p m in
  let value n := snd (roughness w s (Name n) gs m curved nf cut four) in
  (nf = false -> good_lstsq (lstsq w) /\ whole p = false) -> fair p m -> heights_are p u z -> some_used p u ->
  exists zf,
    (if nf then zf = z else flattened (if curved then 2 else 1) (nrows p) (ncols p) u z zf) /\
    let average := average (nrows p) (ncols p) u in
    let sq := rms (nrows p) (ncols p) u zf in
    (forall n, lower n = "sq"%string -> value n = Ok (VNum (Fin sq))) /\
    (forall n, lower n = "sa"%string -> value n = Ok (VNum (Fin (average (fun i j => Rabs (zf i j)))))) /\
    (forall n, lower n = "ssk"%string -> value n = Ok (VNum (if Reqb sq 0 then NaN else Fin (average (fun i j => zf i j ^ 3) / sq ^ 3)))) /\
    (forall n, lower n = "sku"%string -> value n = Ok (VNum (if Reqb sq 0 then NaN else Fin (average (fun i j => zf i j ^ 4) / sq ^ 4)))) /\
    (forall n, lower n = "sv"%string -> exists x, value n = Ok (VNum (Fin x)) /\ lowest (nrows p) (ncols p) u zf x).
Proof.
  intros w s gs m curved nf cut four z p u value G F H SU.
  destruct (rough_heights w s gs m curved nf cut four z G F H) as (eta & mk & g & zf & K & R & C & Hh & Fl & E). fold p u in K, R, C, Hh, Fl.
  exists zf. split; [exact Fl|]. cbv zeta.
  assert (EN : entries eta mk = map Fin (map (fst_snd zf) (filter (fst_snd u) (points (nrows p) (ncols p))))).
  { rewrite (entries_fin eta mk u zf K Hh), R, C. reflexivity. }
  assert (NP := number_pos (nrows p) (ncols p) u SU). assert (NZ : number (nrows p) (ncols p) u <> 0) by lra.
  assert (A0 : forall n, (forall i j, (i < nrows p)%nat -> (j < ncols p)%nat -> u i j = true -> zf i j = 0) ->
     average (nrows p) (ncols p) u (fun i j => zf i j ^ S n) = 0).
  { intros n Z. unfold average. rewrite (over_ext _ _ _ _ (fun _ _ => 0)); [rewrite over_zero; unfold Rdiv; ring|].
    intros i j Hi Hj U. rewrite Z by assumption. rewrite pow_ne_zero by discriminate. reflexivity. }
  assert (Z0 : rms (nrows p) (ncols p) u zf = 0 -> forall n, average (nrows p) (ncols p) u (fun i j => zf i j ^ S n) = 0).
  { intros Q n. apply A0. apply squares_null. unfold rms in Q. apply sqrt_eq_0 in Q.
    - unfold average in Q. fold (squares (nrows p) (ncols p) u zf) in Q.
      apply Rmult_integral in Q. destruct Q as [Q|Q]; [lra|]. pose proof (Rinv_0_lt_compat _ NP). lra.
    - unfold average. apply Rmult_le_pos; [apply squares_nonneg|]. apply Rlt_le, Rinv_0_lt_compat, NP. }
  repeat split; intros n Hn; unfold value; rewrite E.
  - rewrite one_sq by exact Hn. cbn [snd]. rewrite EN, rms_over by exact NZ. reflexivity.
  - rewrite one_sa by exact Hn. cbn [snd]. rewrite EN, (fmean_over _ _ _ zf fabs Rabs) by (reflexivity || exact NZ). reflexivity.
  - rewrite one_ssk by exact Hn. cbn [snd]. rewrite EN, rms_over by exact NZ.
    rewrite (fmean_over _ _ _ zf (fun x => fpow x 3) (fun x => x ^ 3)) by (exact NZ || intros; apply fpow_fin). rewrite fpow_fin.
    destruct (Reqb (rms (nrows p) (ncols p) u zf) 0) eqn:Q.
    + apply Reqb_true in Q. rewrite (Z0 Q 2%nat), Q. unfold fdiv. rewrite pow_ne_zero by discriminate.
      rewrite (proj2 (Reqb_true 0 0) eq_refl). unfold signed_inf. rewrite (proj2 (Rltb_false 0 0)) by lra. reflexivity.
    + apply Reqb_false in Q. rewrite fdiv_fin' by (apply pow_nonzero, Q). reflexivity.
  - rewrite one_sku by exact Hn. cbn [snd]. rewrite EN, rms_over by exact NZ.
    rewrite (fmean_over _ _ _ zf (fun x => fpow x 4) (fun x => x ^ 4)) by (exact NZ || intros; apply fpow_fin). rewrite fpow_fin.
    destruct (Reqb (rms (nrows p) (ncols p) u zf) 0) eqn:Q.
    + apply Reqb_true in Q. rewrite (Z0 Q 3%nat), Q. unfold fdiv. rewrite pow_ne_zero by discriminate.
      rewrite (proj2 (Reqb_true 0 0) eq_refl). unfold signed_inf. rewrite (proj2 (Rltb_false 0 0)) by lra. reflexivity.
    + apply Reqb_false in Q. rewrite fdiv_fin' by (apply pow_nonzero, Q). reflexivity.
  - rewrite one_sv by exact Hn. cbn [snd]. rewrite EN. destruct (npmin_over (nrows p) (ncols p) u zf SU) as (x & X & L).
    rewrite X. cbn [bind]. eauto.
Qed.
Print Assumptions c56_values.
(** The names of the parameters are not case sensitive. *)
Theorem c56_case : forall w s gs m curved nf cut four a b, same_letters a b ->
  roughness w s (Name a) gs m curved nf cut four = roughness w s (Name b) gs m curved nf cut four.
Proof.
  intros w s gs m curved nf cut four a b L.
  assert (E : lower a = lower b).
  { induction L as [|c d a b H L IH]; [reflexivity|]. cbn. f_equal; [|exact IH].
    assert (A : forall i c d, get i capitals = Some c -> get i smalls = Some d -> lower_char c = lower_char d).
    { clear. intros i c d. do 26 (destruct i as [|i]; [cbn; intros [= <-] [= <-]; reflexivity|]). cbn. discriminate. }
    destruct H as [->|(i & [[H1 H2]|[H1 H2]])]; [reflexivity|eauto|symmetry; eauto]. }
  unfold roughness. destruct (check_surface s gs) as [p g].
  assert (M : forall eta mk, many w eta mk g cut four (Name a) = many w eta mk g cut four (Name b)).
  { intros. cbn [many]. unfold one. rewrite E. reflexivity. }
  destruct (norm_mask p m); [|reflexivity]. rewrite M. destruct nf; [reflexivity|].
  destruct (subtract_polynomial _ _ _ _) as [[eta c]|]; [|reflexivity]. rewrite M. reflexivity.
Qed.
Print Assumptions c56_case.
Example c56_case_example : same_letters "SsK" "ssk" /\ lower "SsK" = "ssk"%string.
Proof.
  split; [|reflexivity]. constructor; [|constructor; [|constructor; [|constructor]]].
  - right. exists 18%nat. now left.
  - now left.
  - right. exists 10%nat. now left.
Qed.

(** For every input: the mean amplitude is at most the root mean square. *)
Theorem c56_sa_sq : forall w s gs m curved nf cut four n1 n2 a q, lower n1 = "sa"%string -> lower n2 = "sq"%string ->
  snd (roughness w s (Name n1) gs m curved nf cut four) = Ok (VNum (Fin a)) ->
  snd (roughness w s (Name n2) gs m curved nf cut four) = Ok (VNum (Fin q)) ->
  0 <= a <= q.
Proof.
  intros w s gs m curved nf cut four n1 n2 a q H1 H2 A Q.
  destruct (rough_case w s gs m curved nf cut four) as [(e & E)|(eta & mk & g & _ & _ & E)]; rewrite E in A, Q; [discriminate|].
  rewrite one_sa in A by exact H1. rewrite one_sq in Q by exact H2. cbn [snd] in A, Q. injection A as A. injection Q as Q.
  destruct (rms_inv _ _ Q) as (lr & EN & N & ->). rewrite EN in A. rewrite map_map in A.
  rewrite <- (map_map Rabs Fin) in A. unfold fmean in A. rewrite fsum_fin, !map_length, fdiv_fin' in A by (pose proof (length_pos lr N); lra).
  injection A as <-. split; [|apply mean_abs_le, N].
  apply Rmult_le_pos; [apply tot_nonneg, Rabs_pos|]. apply Rlt_le, Rinv_0_lt_compat, length_pos, N.
Qed.
Print Assumptions c56_sa_sq.

Lemma cube_square : forall a b, 0 < b -> a ^ 2 / b ^ 3 = (a / sqrt b ^ 3) ^ 2.
Proof.
  intros a b P. assert (Q := sqrt_lt_R0 b P). replace (b ^ 3) with ((sqrt b ^ 2) ^ 3) by (rewrite <- Rsqr_pow2, Rsqr_sqrt by lra; reflexivity).
  field. lra.
Qed.
Lemma map_fin_inj : forall a b, map Fin a = map Fin b -> a = b.
Proof. induction a; intros [|y b] H; try discriminate; [reflexivity|]. injection H as -> H. f_equal. apply IHa, H. Qed.
Lemma skew_kurt : forall l s k, fdiv (fmean (map (fun x => fpow x 3) l)) (fpow (root_mean_square l) 3) = s ->
  fdiv (fmean (map (fun x => fpow x 4) l)) (fpow (root_mean_square l) 4) = Fin k ->
  exists lr, l = map Fin lr /\ lr <> [] /\ 0 < moment 2 lr /\ k = moment 4 lr / moment 2 lr ^ 2 /\
    s = Fin (moment 3 lr / (sqrt (moment 2 lr)) ^ 3).
Proof.
  intros l s k S H.
  assert (M : exists x, fmean (map (fun x => fpow x 4) l) = Fin x).
  { destruct (fmean (map (fun x => fpow x 4) l)) as [x| | |]; [eauto| | |]; exfalso; destruct (fpow (root_mean_square l) 4); cbn in H; try discriminate;
      destruct (Rltb _ _); discriminate. }
  destruct M as (x & M). destruct (fmean_pow_inv 3 l x M) as (lr & -> & N & ->). exists lr. split; [reflexivity|split; [exact N|]].
  rewrite M in H. rewrite rms_list in H, S by exact N. rewrite fpow_fin in H, S. rewrite (fmean_pow 3) in S by exact N.
  destruct (Req_dec (moment 2 lr) 0) as [Z|Z].
  - exfalso. rewrite Z, sqrt_0, pow_ne_zero in H by discriminate. unfold fdiv in H. rewrite (proj2 (Reqb_true 0 0) eq_refl) in H.
    unfold signed_inf in H. destruct (Rltb _ _); [discriminate|]. destruct (Rltb _ _); discriminate.
  - pose proof (moment_even lr) as P. assert (P' : 0 < moment 2 lr) by lra. assert (Q : sqrt (moment 2 lr) <> 0) by (pose proof (sqrt_lt_R0 _ P'); lra).
    split; [exact P'|]. rewrite fdiv_fin' in H, S by (apply pow_nonzero, Q). split; [|congruence]. injection H as <-.
    assert (D : sqrt (moment 2 lr) ^ 4 = moment 2 lr ^ 2); [|rewrite <- D; reflexivity].
    replace (sqrt (moment 2 lr) ^ 4) with ((sqrt (moment 2 lr) * sqrt (moment 2 lr)) ^ 2) by ring. rewrite sqrt_sqrt by lra. reflexivity.
Qed.

(** For every input: the kurtosis is at least one, and at least the square of the skew. *)
Theorem c56_sku : forall w s gs m curved nf cut four n2 k, lower n2 = "sku"%string ->
  snd (roughness w s (Name n2) gs m curved nf cut four) = Ok (VNum (Fin k)) ->
  1 <= k /\ forall n1, lower n1 = "ssk"%string ->
    exists t, snd (roughness w s (Name n1) gs m curved nf cut four) = Ok (VNum (Fin t)) /\ t ^ 2 <= k.
Proof.
  intros w s gs m curved nf cut four n2 k H2 Q.
  destruct (rough_case w s gs m curved nf cut four) as [(e & E)|(eta & mk & g & _ & _ & E)]; rewrite E in Q; [discriminate|].
  rewrite one_sku in Q by exact H2. cbn [snd] in Q. injection Q as Q.
  destruct (skew_kurt _ _ k eq_refl Q) as (lr & EN & N & P & -> & T). split.
  - pose proof (moment_24 lr N). apply (Rmult_le_reg_r (moment 2 lr ^ 2)); [apply pow_lt, P|]. rewrite Rmult_1_l. unfold Rdiv.
    rewrite Rmult_assoc, Rinv_l by (apply pow_nonzero; lra). lra.
  - intros n1 H1. eexists. split; [rewrite E, one_ssk by exact H1; cbn [snd]; rewrite T; reflexivity|].
    pose proof (moment_324 lr N) as M. replace ((moment 3 lr / sqrt (moment 2 lr) ^ 3) ^ 2) with (moment 3 lr ^ 2 / moment 2 lr ^ 3).
    2:{ apply cube_square, P. }
    apply (Rmult_le_reg_r (moment 2 lr ^ 3)); [apply pow_lt, P|]. replace (moment 3 lr ^ 2 / moment 2 lr ^ 3 * moment 2 lr ^ 3) with (moment 3 lr ^ 2) by (field; lra).
    replace (moment 4 lr / moment 2 lr ^ 2 * moment 2 lr ^ 3) with (moment 2 lr * moment 4 lr) by (field; lra). exact M.
Qed.
Print Assumptions c56_sku.

(** With flattening by a good routine the kurtosis is at least one plus the square of the skew. *)
Theorem c56_sku_ssk : forall w s gs m curved cut four z n1 n2 t k, lower n1 = "ssk"%string -> lower n2 = "sku"%string ->
  good_lstsq (lstsq w) -> whole (profile_of s) = false -> fair (profile_of s) m -> heights_are (profile_of s) (used (profile_of s) m) z ->
  snd (roughness w s (Name n1) gs m curved false cut four) = Ok (VNum (Fin t)) ->
  snd (roughness w s (Name n2) gs m curved false cut four) = Ok (VNum (Fin k)) ->
  t ^ 2 + 1 <= k.
Proof.
  intros w s gs m curved cut four z n1 n2 t k H1 H2 G W F H T K.
  destruct (rough_heights w s gs m curved false cut four z (fun _ => conj G W) F H) as (eta & mk & g & zf & Ke & R & C & Hh & Fl & E).
  rewrite E in T, K. rewrite one_ssk in T by exact H1. rewrite one_sku in K by exact H2. cbn [snd] in T, K. injection T as T. injection K as K.
  destruct (skew_kurt _ _ k T K) as (lr & EN & N & P & -> & TE). assert (TE' : t = moment 3 lr / sqrt (moment 2 lr) ^ 3) by (injection TE; auto). rewrite TE'. clear TE TE' T K.
  assert (T0 : total lr = 0).
  { rewrite (entries_fin eta mk _ zf Ke Hh) in EN.
    assert (EQ : map (fst_snd zf) (filter (fst_snd (used (profile_of s) m)) (points (nrows eta) (ncols eta))) = lr).
    { apply map_fin_inj. exact EN. }
    rewrite <- EQ, total_over, R, C. exact (flattened_mean _ _ _ _ _ _ Fl). }
  pose proof (moment_centred lr N T0 ltac:(lra)) as M.
  replace ((moment 3 lr / sqrt (moment 2 lr) ^ 3) ^ 2) with (moment 3 lr ^ 2 / moment 2 lr ^ 3).
  2:{ apply cube_square, P. }
  apply (Rmult_le_reg_r (moment 2 lr ^ 3)); [apply pow_lt, P|].
  replace ((moment 3 lr ^ 2 / moment 2 lr ^ 3 + 1) * moment 2 lr ^ 3) with (moment 3 lr ^ 2 + moment 2 lr ^ 3) by (field; lra).
  replace (moment 4 lr / moment 2 lr ^ 2 * moment 2 lr ^ 3) with (moment 2 lr * moment 4 lr) by (field; lra). exact M.
Qed.
Print Assumptions c56_sku_ssk.

(** A constant profile which is not flattened: the skew is one or minus one and the kurtosis is one. *)
Theorem c56_no_flattening_refuted : forall w p x gs cut four n1 n2, lower n1 = "ssk"%string -> lower n2 = "sku"%string ->
  (0 < nrows p)%nat -> (0 < ncols p)%nat -> x <> 0 -> heights_are p everywhere (fun _ _ => x) ->
  exists t, snd (roughness w (OfArray p) (Name n1) gs NoMask false true cut four) = Ok (VNum (Fin t)) /\ t ^ 2 = 1 /\
    snd (roughness w (OfArray p) (Name n2) gs NoMask false true cut four) = Ok (VNum (Fin 1)).
Proof.
  intros w p x gs cut four n1 n2 H1 H2 R C X H.
  assert (S : some_used p (used p NoMask)) by (exists 0%nat, 0%nat; auto).
  destruct (c56_values w (OfArray p) gs NoMask false true cut four (fun _ _ => x) ltac:(discriminate) I H S) as (zf & -> & _ & _ & K & U & _).
  cbn [profile_of] in *. assert (NP := number_pos _ _ _ S).
  assert (AV : forall y, average (nrows p) (ncols p) (used p NoMask) (fun _ _ => y) = y).
  { intros y. unfold average. rewrite (over_ext _ _ _ _ (fun _ _ => y * 1)) by (intros; ring). rewrite over_scal.
    fold (number (nrows p) (ncols p) (used p NoMask)). field. lra. }
  assert (Q : rms (nrows p) (ncols p) (used p NoMask) (fun _ _ => x) = Rabs x).
  { unfold rms. rewrite AV. rewrite <- Rsqr_pow2. apply sqrt_Rsqr_abs. }
  rewrite Q in K, U. rewrite AV in K, U. assert (AP : Rabs x <> 0) by (apply Rabs_no_R0, X).
  rewrite (proj2 (Reqb_false _ _) AP) in K, U. exists (x ^ 3 / Rabs x ^ 3). split; [apply K, H1|]. split.
  - assert (A2 : Rabs x ^ 2 = x ^ 2) by apply pow2_abs. replace ((x ^ 3 / Rabs x ^ 3) ^ 2) with ((x ^ 2) ^ 3 / (Rabs x ^ 2) ^ 3) by (field; exact AP).
    rewrite A2. field. exact X.
  - rewrite U by exact H2. do 3 f_equal. assert (A2 : Rabs x ^ 2 = x ^ 2) by apply pow2_abs.
    replace (Rabs x ^ 4) with ((Rabs x ^ 2) ^ 2) by ring. rewrite A2. field. exact X.
Qed.
Print Assumptions c56_no_flattening_refuted.

(** Scaling a profile. *)
Definition scaled (a : R) (p : arr) : arr := Arr (whole p) (nrows p) (ncols p) (fun i j => fmul (Fin a) (h_at p i j)).
Lemma used_scaled : forall a p m, a <> 0 -> fair p m -> used (scaled a p) m = used p m.
Proof.
  intros a p m A F. apply functional_extensionality. intros i. apply functional_extensionality. intros j. destruct m; cbn in *; try reflexivity; try contradiction.
  subst x. f_equal. destruct (h_at p i j); cbn; unfold signed_inf; try reflexivity;
    destruct (Rltb 0 a) eqn:P; destruct (Rltb a 0) eqn:Q; destruct (Rltb 0 (- a)) eqn:P'; destruct (Rltb (- a) 0) eqn:Q'; try reflexivity;
    repeat match goal with H : Rltb _ _ = false |- _ => apply Rltb_false in H end; exfalso; lra.
Qed.
Lemma average_ext : forall r c u f g, (forall i j, (i < r)%nat -> (j < c)%nat -> u i j = true -> f i j = g i j) -> average r c u f = average r c u g.
Proof. intros. unfold average. rewrite (over_ext r c u f g) by assumption. reflexivity. Qed.
Lemma average_scal : forall r c u a f, average r c u (fun i j => a * f i j) = a * average r c u f.
Proof. intros. unfold average. rewrite over_scal. unfold Rdiv. ring. Qed.
Lemma rms_scal : forall r c u a z, rms r c u (fun i j => a * z i j) = Rabs a * rms r c u z.
Proof.
  intros. unfold rms. rewrite (average_ext _ _ _ _ (fun i j => a ^ 2 * z i j ^ 2)) by (intros; ring). rewrite average_scal.
  rewrite sqrt_mult_alt by apply pow2_ge_0. rewrite <- Rsqr_pow2, sqrt_Rsqr_abs. reflexivity.
Qed.
Lemma rms_ext : forall r c u f g, (forall i j, (i < r)%nat -> (j < c)%nat -> u i j = true -> f i j = g i j) -> rms r c u f = rms r c u g.
Proof. intros. unfold rms. f_equal. apply average_ext. intros. rewrite H by assumption. reflexivity. Qed.

(** Scaling the heights by a number other than zero: Sq and Sa are scaled by its absolute value, the kurtosis is the same,
    the skew is the same or, when the surface is inverted, has the other sign. *)
Theorem c56_scale : forall w s gs m curved nf cut four z a,
  let p := profile_of s in
  let value n := snd (roughness w s (Name n) gs m curved nf cut four) in
  let value' n := snd (roughness w (with_profile s (scaled a p)) (Name n) gs m curved nf cut four) in
  a <> 0 ->
  (nf = false -> good_lstsq (lstsq w) /\ whole p = false) -> fair p m -> heights_are p (used p m) z -> some_used p (used p m) ->
  (forall n, lower n = "sq"%string \/ lower n = "sa"%string ->
    exists x, value n = Ok (VNum (Fin x)) /\ value' n = Ok (VNum (Fin (Rabs a * x)))) /\
  (forall n, lower n = "sku"%string -> value' n = value n) /\
  (forall n, lower n = "ssk"%string ->
    exists x, value n = Ok (VNum x) /\ value' n = Ok (VNum (if Rltb 0 a then x else fneg x))) /\
  (forall n, lower n = "sv"%string -> 0 < a ->
    exists x, value n = Ok (VNum (Fin x)) /\ value' n = Ok (VNum (Fin (a * x)))).
Proof.
  intros w s gs m curved nf cut four z a p value value' A G F H SU.
  destruct (c56_values w s gs m curved nf cut four z G F H SU) as (zf & Fl & V1 & V2 & V3 & V4 & V5).
  assert (PE : profile_of (with_profile s (scaled a p)) = scaled a p) by (destruct s; reflexivity).
  assert (H' : heights_are (scaled a p) (used (scaled a p) m) (fun i j => a * z i j)).
  { intros i j Hi Hj U. rewrite used_scaled in U by assumption. cbn. rewrite (H i j Hi Hj U). reflexivity. }
  destruct (c56_values w (with_profile s (scaled a p)) gs m curved nf cut four (fun i j => a * z i j)) as (zf' & Fl' & V1' & V2' & V3' & V4' & V5');
    rewrite ?PE; [exact G|destruct m; exact F|exact H'|rewrite used_scaled by assumption; exact SU|].
  rewrite PE in *. rewrite used_scaled in * by assumption. cbn [nrows ncols scaled] in *. fold p in Fl, V1, V2, V3, V4, V5.
  set (u := used p m) in *. set (r := nrows p) in *. set (c := ncols p) in *.
  assert (Z : forall i j, (i < r)%nat -> (j < c)%nat -> u i j = true -> zf' i j = a * zf i j).
  { destruct nf; [subst zf zf'; reflexivity|]. apply (flattened_unique (if curved then 2 else 1)%nat r c u (fun i j => a * z i j)); [exact Fl'|].
    apply flattened_scale. exact Fl. }
  assert (Q : rms r c u zf' = Rabs a * rms r c u zf) by (rewrite (rms_ext _ _ _ zf' (fun i j => a * zf i j)) by exact Z; apply rms_scal).
  assert (AP : Rabs a <> 0) by (apply Rabs_no_R0, A).
  assert (QZ : Reqb (rms r c u zf') 0 = Reqb (rms r c u zf) 0).
  { rewrite Q. destruct (Reqb (rms r c u zf) 0) eqn:E.
    - apply Reqb_true in E. rewrite E. apply Reqb_true. ring.
    - apply Reqb_false in E. apply Reqb_false. apply Rmult_integral_contrapositive_currified; assumption. }
  rewrite QZ in V3', V4'. rewrite Q in V1', V3', V4'.
  rewrite (average_ext _ _ _ (fun i j => Rabs (zf' i j)) (fun i j => Rabs a * Rabs (zf i j))) in V2' by (intros; rewrite Z, Rabs_mult by assumption; reflexivity).
  rewrite (average_ext _ _ _ (fun i j => zf' i j ^ 3) (fun i j => a ^ 3 * zf i j ^ 3)) in V3' by (intros; rewrite Z by assumption; ring).
  rewrite (average_ext _ _ _ (fun i j => zf' i j ^ 4) (fun i j => a ^ 4 * zf i j ^ 4)) in V4' by (intros; rewrite Z by assumption; ring).
  rewrite average_scal in V2', V3', V4'. repeat split.
  - intros n [Hn|Hn]; eexists; (split; [first [apply V1, Hn|apply V2, Hn]|first [apply V1', Hn|apply V2', Hn]]).
  - intros n Hn. unfold value', value. rewrite V4', V4 by exact Hn. destruct (Reqb _ 0) eqn:E; [reflexivity|]. apply Reqb_false in E. do 3 f_equal.
    rewrite Rpow_mult_distr. assert (A4 : Rabs a ^ 4 = a ^ 4) by (replace 4%nat with (2 * 2)%nat by reflexivity; rewrite !pow_mult, pow2_abs; reflexivity).
    rewrite A4. field. split; assumption.
  - intros n Hn. eexists. split; [apply V3, Hn|]. unfold value'. rewrite V3' by exact Hn. do 2 f_equal. destruct (Reqb _ 0) eqn:E.
    + destruct (Rltb 0 a); reflexivity.
    + apply Reqb_false in E. destruct (Rltb 0 a) eqn:P.
      * apply Rltb_true in P. f_equal. rewrite Rabs_pos_eq by lra. field. split; assumption.
      * apply Rltb_false in P. cbn [fneg]. f_equal. rewrite Rabs_left by lra. field. repeat split; try assumption; lra.
  - intros n Hn AP'. destruct (V5 n Hn) as (x & E & L). destruct (V5' n Hn) as (x' & E' & L'). exists x. split; [exact E|]. unfold value'. rewrite E'. do 3 f_equal.
    apply (lowest_unique r c u zf'); [exact L'|]. destruct L as ((i & j & Hi & Hj & U & ->) & B). split.
    + exists i, j. rewrite Z by assumption. auto.
    + intros i' j' Hi' Hj' U'. rewrite Z by assumption. apply Rmult_le_compat_l; [lra|]. apply B; assumption.
Qed.
Print Assumptions c56_scale.

(** A tilt (or, for curved surfaces, a biquadratic form) does not change the amplitude parameters. *)
Theorem c56_tilt : forall w s p' gs m curved cut four z q n,
  let p := profile_of s in
  good_lstsq (lstsq w) -> whole p = false -> whole p' = false -> fair p m -> fair p' m ->
  nrows p' = nrows p -> ncols p' = ncols p -> used p' m = used p m ->
  heights_are p (used p m) z ->
  heights_are p' (used p m) (fun i j => z i j + polynomial (if (curved : bool) then 2%nat else 1%nat) q (INR j) (INR i)) ->
  In (lower n) amplitude ->
  snd (roughness w (with_profile s p') (Name n) gs m curved false cut four) = snd (roughness w s (Name n) gs m curved false cut four).
Proof.
  intros w s p' gs m curved cut four z q n p G W W' F F' R C U H H' In_n.
  assert (PE : profile_of (with_profile s p') = p') by (destruct s; reflexivity).
  destruct (rough_heights w s gs m curved false cut four z (fun _ => conj G W) F H) as (eta & mk & g & zf & K & Re & Ce & Hh & Fl & E).
  destruct (rough_heights w (with_profile s p') gs m curved false cut four
     (fun i j => z i j + polynomial (if curved then 2%nat else 1%nat) q (INR j) (INR i))) as (eta' & mk' & g' & zf' & K' & Re' & Ce' & Hh' & Fl' & E');
    rewrite ?PE in *; [intros _; split; assumption|exact F'|rewrite U; intros i j Hi Hj; apply H'; assumption|].  rewrite U in Fl', Hh', K'. fold p in Fl, Hh, K, Re, Ce. rewrite R in Fl', Re'. rewrite C in Fl', Ce'.
  assert (Z := flattened_unique _ _ _ _ _ _ _ Fl' (flattened_tilt _ _ _ _ q _ _ Fl)).
  assert (EN : entries eta' mk' = entries eta mk).
  { rewrite (entries_fin eta mk _ zf K Hh), (entries_fin eta' mk' _ zf' K' Hh'), Re, Ce, Re', Ce'. f_equal. apply map_filter_ext; [reflexivity|].
    intros [i j] I V. apply in_points in I. apply Z; tauto. }
  rewrite E, E'. destruct In_n as [N|[N|[N|[N|[N|[]]]]]]; symmetry in N.
  - rewrite !one_sq by exact N. cbn [snd]. rewrite EN. reflexivity.
  - rewrite !one_sa by exact N. cbn [snd]. rewrite EN. reflexivity.
  - rewrite !one_ssk by exact N. cbn [snd]. rewrite EN. reflexivity.
  - rewrite !one_sku by exact N. cbn [snd]. rewrite EN. reflexivity.
  - rewrite !one_sv by exact N. cbn [snd]. rewrite EN. reflexivity.
Qed.
Print Assumptions c56_tilt.

(** A mask given as a value, documented for all parameters, fails for every profile of floats unless it is not a number. *)
Theorem c56_value_mask_refuted : forall w s name gs x curved nf cut four, whole (profile_of s) = false -> x <> NaN ->
  snd (roughness w s name gs (FloatMask x) curved nf cut four) = Err TypeError.
Proof.
  intros w s name gs x curved nf cut four W X. unfold roughness.
  replace (check_surface s gs) with (profile_of s, snd (check_surface s gs)) by (destruct s; reflexivity).
  unfold norm_mask. rewrite W. destruct x; [reflexivity|reflexivity|reflexivity|contradiction].
Qed.
Print Assumptions c56_value_mask_refuted.

(** ** C93: sequences of parameters *)
Lemma one_keeps : forall w eta g cut four n, fst (one w eta None g cut four n) = eta.
Proof.
  intros. assert (FS : forall eta gs, fst (find_summits w eta gs NoMask four cut) = eta).
  { intros e gs. unfold find_summits. cbn [norm_mask]. destruct (match cut with Some c => _ | None => _ end); reflexivity. }
  unfold one. cbv zeta. specialize (FS eta g). destruct (find_summits w eta g NoMask four cut) as [e r]. cbn [fst] in FS. subst e.
  repeat match goal with |- fst (if ?b then _ else _) = _ => destruct b; [reflexivity|] end. reflexivity.
Qed.
Fixpoint go_many (w : world) (mk : option bmask) (g : option R) (cut : option R) (four : bool) (a : arr) (l : list pname) : arr * result (list rval) :=
  match l with
  | [] => (a, Ok [])
  | x :: t => match many w a mk g cut four x with
              | (a', Ok v) => let (a'', r) := go_many w mk g cut four a' t in (a'', bind r (fun vs => Ok (v :: vs)))
              | (a', Err e) => (a', Err e)
              end
  end.
Lemma many_names : forall w eta mk g cut four l, many w eta mk g cut four (Names l) =
  (fst (go_many w mk g cut four eta l), bind (snd (go_many w mk g cut four eta l)) (fun vs => Ok (VList vs))).
Proof.
  intros. cbn [many]. set (go := fix go (a : arr) (l : list pname) : arr * result (list rval) := _).
  assert (G : forall l a, go a l = go_many w mk g cut four a l).
  { induction l0; intros a0; [reflexivity|]. cbn. destruct (many w a0 mk g cut four a) as [a' [v|e]]; [|reflexivity]. rewrite IHl0. reflexivity. }
  rewrite G. destruct (go_many w mk g cut four eta l). reflexivity.
Qed.
Fixpoint pname_size (n : pname) : nat := match n with Names l => S (fold_right (fun x s => pname_size x + s)%nat 0%nat l) | _ => 1%nat end.
Lemma many_keeps : forall w eta g cut four n, fst (many w eta None g cut four n) = eta.
Proof.
  intros w eta g cut four n. remember (pname_size n) as k eqn:Hk. assert (L : (pname_size n <= k)%nat) by lia. clear Hk. revert n L.
  induction k; intros n L; [destruct n; cbn in L; lia|]. destruct n as [s|l|]; [apply one_keeps| |reflexivity].
  rewrite many_names. cbn [fst]. cbn [pname_size] in L. apply le_S_n in L. revert L. induction l as [|x l IHl]; intros L; [reflexivity|].
  cbn [fold_right] in L. cbn [go_many]. assert (A : fst (many w eta None g cut four x) = eta) by (apply IHk; lia).
  destruct (many w eta None g cut four x) as [a' [v|e]]; cbn in A; subst a'; [|reflexivity].
  specialize (IHl ltac:(lia)). destruct (go_many w None g cut four eta l). exact IHl.
Qed.
(** Without a mask a sequence of names gives the list of the single values, or the first error, and the profile is
    not changed. *)
Theorem c93_sequence : forall w s l gs curved nf cut four, l <> [] ->
  snd (roughness w s (Names l) gs NoMask curved nf cut four) =
    bind (all_ok (map (fun n => snd (roughness w s n gs NoMask curved nf cut four)) l)) (fun vs => Ok (VList vs)).
Proof.
  intros w s l gs curved nf cut four L.
  destruct (rough_case w s gs NoMask curved nf cut four) as [(e & E)|(eta & mk & g & NM & S & E)].
  - rewrite E. destruct l as [|x l]; [contradiction|]. cbn [map all_ok]. rewrite E. reflexivity.
  - cbn in NM. injection NM as <-.
    assert (Q : forall l, bind (snd (go_many w None g cut four eta l)) (fun vs => Ok (VList vs)) =
                  bind (all_ok (map (fun n => snd (many w eta None g cut four n)) l)) (fun vs => Ok (VList vs))).
    { intros l0. f_equal. induction l0 as [|x t IH]; [reflexivity|]. cbn [go_many map all_ok].
      pose proof (many_keeps w eta g cut four x) as A. destruct (many w eta None g cut four x) as [a' [v|e]]; cbn in A |- *; subst a'; [|reflexivity].
      rewrite <- IH. destruct (go_many w None g cut four eta t) as [? [vs|]]; reflexivity. }
    rewrite E. cbn [snd]. rewrite many_names. cbn [snd]. rewrite Q.
    f_equal. f_equal. apply map_ext. intros n. rewrite E. reflexivity.
Qed.
Print Assumptions c93_sequence.
(** The profile of the caller is the same after a call without a mask, or with flattening. *)
Theorem c93_unchanged : forall w s n gs m curved nf cut four, m = NoMask \/ nf = false ->
  fst (roughness w s n gs m curved nf cut four) = profile_of s.
Proof.
  intros w s n gs m curved nf cut four H.
  destruct (rough_case w s gs m curved nf cut four) as [(e & E)|(eta & mk & g & NM & S & E)]; rewrite E; [reflexivity|].
  cbn [fst]. destruct nf; [|reflexivity]. destruct H as [->|]; [|discriminate]. cbn in NM. injection NM as <-. subst eta. apply many_keeps.
Qed.
Print Assumptions c93_unchanged.
Lemma one_sds : forall w eta f g four n, lower n = "sds"%string -> whole eta = false ->
  exists x, many w eta (Some f) g None four (Name n) = (blank eta f, Ok (VNum x)).
Proof.
  intros w eta f g four n Hn W. cbn [many]. unfold one. rewrite Hn. cbv zeta. cbn [is_in existsb String.eqb Ascii.eqb Bool.eqb orb andb].
  unfold find_summits. cbn [norm_mask]. rewrite !Nat.eqb_refl, W. cbn [andb]. eexists. reflexivity.
Qed.
(** With a mask which marks a point, asking for the summit density without flattening removes the points which are used
    from the profile of the caller, and the value of a parameter found after the summit density in a sequence is lost:
    it is not a number, whatever it is alone. *)
Theorem c93_mask_refuted : forall w p gs f curved four n1 n2, whole p = false -> lower n1 = "sds"%string -> lower n2 = "sq"%string ->
  some_used p f ->
  let m := ArrMask (nrows p) (ncols p) f in
  (forall i j, h_at (fst (roughness w (OfArray p) (Name n1) gs m curved true None four)) i j = if f i j then NaN else h_at p i j) /\
  (exists x, snd (roughness w (OfArray p) (Names [Name n1; Name n2]) gs m curved true None four) = Ok (VList [VNum x; VNum NaN])) /\
  forall z, heights_are p f z ->
    snd (roughness w (OfArray p) (Name n2) gs m curved true None four) = Ok (VNum (Fin (rms (nrows p) (ncols p) f z))).
Proof.
  intros w p gs f curved four n1 n2 W H1 H2 SU m.
  assert (E : forall name, roughness w (OfArray p) name gs m curved true None four = many w p (Some f) gs None four name).
  { intros name. unfold roughness, m. cbn [check_surface norm_mask]. rewrite !Nat.eqb_refl. reflexivity. }
  destruct (one_sds w p f gs four n1 H1 W) as (x & Q). split; [|split].
  - intros i j. rewrite E, Q. reflexivity.
  - exists x. rewrite E, many_names. cbn [go_many]. rewrite Q, one_sq by exact H2.
    assert (NN : root_mean_square (entries (blank p f) (Some f)) = NaN).
    { assert (IE : In NaN (entries (blank p f) (Some f))).
      { destruct SU as (i & j & Hi & Hj & U). unfold entries. apply in_map_iff. exists (i, j). split; [unfold entry; cbn; rewrite U; reflexivity|].
        apply filter_In. split; [apply in_points; auto|exact U]. }
      revert IE. generalize (entries (blank p f) (Some f)). intros l IE. unfold root_mean_square, fmean.
      assert (SN : fsum (map (fun x => fpow x 2) l) = NaN).
      { induction l as [|a l IH]; [destruct IE|]. cbn [map fsum fold_right]. destruct IE as [->|IE].
        - cbn. destruct (fold_right fadd (Fin 0) (map (fun x0 => fpow x0 2) l)); reflexivity.
        - change (fold_right fadd (Fin 0) (map (fun x0 => fpow x0 2) l)) with (fsum (map (fun x0 => fpow x0 2) l)). rewrite (IH IE). destruct (fpow a 2); reflexivity. }
      rewrite SN. reflexivity. }
    rewrite NN. reflexivity.
  - intros z H. destruct (c56_values w (OfArray p) gs m curved true None four z ltac:(discriminate) (conj eq_refl eq_refl) H SU) as (zf & -> & V & _).
    apply V. exact H2.
Qed.
Print Assumptions c93_mask_refuted.
Example c93_case : some_used plane no_spike /\ heights_are plane no_spike (fun i j => 1 + 2 * INR j - INR i).
Proof.
  split; [exists 0%nat, 0%nat; cbn; repeat split; lia|]. intros i j _ _ U. cbn [h_at plane]. unfold no_spike in U.
  destruct (Nat.eqb (i + j) 3); [discriminate|reflexivity].
Qed.
