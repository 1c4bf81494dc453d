(** Theorems on surfaces made of waves, C110. *)
From Coq Require Import Reals List Bool Arith ZArith Lia Lra.
From Verif Require Import Py SurfaceModel ConvModel FreqModel FreqSpec.
Import ListNotations.
Local Open Scope R_scope.

(** C110: the heights are the sum of the waves, along x only. *)
Theorem c110_waves : forall l : list (R * R * R), exists s,
  new_disc_freq (Sequence (map (fun w => fst (fst w)) l)) (map (fun w => Plain (snd (fst w))) l) (map snd l) = Ok s /\
  forall x y, disc_freq_height s x y = waves l x.
Proof.
  intro l. unfold new_disc_freq. assert (C : existsb is_complex (map (fun w : R * R * R => Plain (snd (fst w))) l) = false) by (induction l; cbn; auto). rewrite C, !map_length, !Nat.eqb_refl. cbn [andb]. eexists. split; [reflexivity|]. clear C.
  intros x y. induction l as [|[[f a] p] l IH]; [reflexivity|]. cbn [map combine fst snd disc_freq_height as_complex waves fold_right wave]. rewrite IH. f_equal. unfold cmul, cis, creal. cbn [fst snd]. rewrite cos_neg, sin_neg. replace (2 * PI * f * x - p) with (f * x * 2 * PI - p) by ring. rewrite cos_minus. ring.
Qed.
Print Assumptions c110_waves.
(** C110: complex amplitudes are the usual ones, cosine and sine parts. *)
Theorem c110_complex : forall (l : list (R * cplx)) phases, l <> [] ->
  exists s, new_disc_freq (Sequence (map fst l)) (map (fun w => Complex (snd w)) l) phases = Ok s /\
  forall x y, disc_freq_height s x y = fold_right (fun w t => fst (snd w) * cos (2 * PI * fst w * x) + snd (snd w) * sin (2 * PI * fst w * x) + t) 0 l.
Proof.
  intros l ph N. unfold new_disc_freq. assert (C : existsb is_complex (map (fun w : R * cplx => Complex (snd w)) l) = true) by (destruct l; [now elim N|reflexivity]). rewrite C, !map_length, !Nat.eqb_refl. eexists. split; [reflexivity|]. clear C N.
  intros x y. induction l as [|[f [a b]] l IH]; [reflexivity|]. cbn [map combine fst snd disc_freq_height as_complex fold_right]. rewrite IH. f_equal. unfold cmul, cis. cbn [fst snd]. rewrite cos_neg, sin_neg. replace (2 * PI * f * x) with (f * x * 2 * PI) by ring. ring.
Qed.
Print Assumptions c110_complex.
(** C110: with a whole number of waves of each frequency in a length, the surface repeats after that length. *)
Theorem c110_periodic : forall fs amps phases s t x y, new_disc_freq fs amps phases = Ok s -> (forall l f, fs = Sequence l -> In f l -> exists k : Z, f * t = IZR k) ->
  disc_freq_height s (x + t) y = disc_freq_height s x y.
Proof.
  intros fs amps phases s t x y H K.
  assert (G : forall l (zs : list cplx), (forall f, In f l -> exists k : Z, f * t = IZR k) -> disc_freq_height (combine l zs) (x + t) y = disc_freq_height (combine l zs) x y).
  { induction l as [|f l IH]; intros zs Q; [reflexivity|]. destruct zs as [|z zs]; [reflexivity|]. cbn [combine disc_freq_height]. rewrite IH by (intros; apply Q; now right). f_equal. destruct (Q f (or_introl eq_refl)) as (k & E). unfold cmul, cis. cbn [fst snd]. rewrite !cos_neg, !sin_neg.
    assert (P : forall n : Z, forall a, cos (a + 2 * IZR n * PI) = cos a /\ sin (a + 2 * IZR n * PI) = sin a).
    { clear. intros n a. destruct (Z_le_gt_dec 0 n).
      - rewrite <- (Z2Nat.id n) by lia. rewrite <- INR_IZR_INZ. split; [apply cos_period|apply sin_period].
      - replace n with (- Z.of_nat (Z.to_nat (- n)))%Z by lia. rewrite opp_IZR, <- INR_IZR_INZ. set (m := Z.to_nat (- n)). split; [rewrite <- (cos_period (a + 2 * - INR m * PI) m)|rewrite <- (sin_period (a + 2 * - INR m * PI) m)]; f_equal; ring. }
    replace (f * (x + t) * 2 * PI) with (f * x * 2 * PI + 2 * IZR k * PI) by (rewrite <- E; ring). destruct (P k (f * x * 2 * PI)) as [-> ->]. reflexivity. }
  unfold new_disc_freq in H. destruct fs as [l|]; [|discriminate]. specialize (K l). destruct (existsb is_complex amps).
  - destruct (Nat.eqb _ _); [|discriminate]. inversion H. apply G. intros; now apply K.
  - destruct (_ && _); [|discriminate]. inversion H. apply G. intros; now apply K.
Qed.
Print Assumptions c110_periodic.
(** C110: lists that don't have the same length are refused, and nothing else is. *)
Theorem c110_refused : forall fs amps phases, new_disc_freq fs amps phases = Err ValueError <->
  (forall l, fs = Sequence l -> List.length l <> List.length amps \/ List.length l <> List.length phases /\ forall z, ~ In (Complex z) amps).
Proof.
  intros fs amps phases. unfold new_disc_freq. destruct fs as [l|]; [|split; [discriminate|reflexivity]].
  assert (EX : existsb is_complex amps = true <-> exists z, In (Complex z) amps).
  { rewrite existsb_exists. split; [intros (a & I & C); destruct a; [discriminate|eauto]|intros (z & I); eauto]. }
  destruct (existsb is_complex amps) eqn:E.
  - destruct (proj1 EX eq_refl) as (z & I). destruct (Nat.eqb_spec (List.length l) (List.length amps)) as [L|L]; split; try discriminate; try reflexivity.
    + intro H. destruct (H l eq_refl) as [X|[_ X]]; [now elim X|now elim (X z)].
    + intros _ l' X. inversion X; subst. now left.
  - assert (NO : forall z, ~ In (Complex z) amps) by (intros z I; destruct EX as [_ EX]; discriminate EX; eauto). destruct (Nat.eqb_spec (List.length l) (List.length amps)) as [L|L]; cbn [andb].
    + destruct (Nat.eqb_spec (List.length amps) (List.length phases)) as [M|M]; split; try discriminate; try reflexivity.
      * intro H. destruct (H l eq_refl) as [X|[X _]]; [now elim X|elim X; congruence].
      * intros _ l' X. inversion X; subst. right. split; [congruence|exact NO].
    + split; [|reflexivity]. intros _ l' X. inversion X; subst. now left.
Qed.
Print Assumptions c110_refused.
(** Refuted: a phase given with a complex amplitude has an effect. *)
Theorem c110_phases_refuted : forall fs amps p q, (exists z, In (Complex z) amps) -> new_disc_freq fs amps p = new_disc_freq fs amps q.
Proof. intros fs amps p q (z & I). unfold new_disc_freq. replace (existsb is_complex amps) with true; [reflexivity|]. symmetry. apply existsb_exists. exists (Complex z). split; [exact I|reflexivity]. Qed.
Print Assumptions c110_phases_refuted.
(** Refuted: the example of the documentation, where the frequency is a number, and frequencies in a tuple. *)
Theorem c110_number_refuted : forall amps phases, new_disc_freq NoSequence amps phases = Err ValueError.
Proof. reflexivity. Qed.
(** Refuted: random surfaces with given probabilities of the frequencies can be made. There is no array of coordinates for
    which they have a height. *)
Theorem c110_random_refuted : forall allclose x y, exists e, prob_freq_height allclose x y = Err e.
Proof. intros ac x y. unfold prob_freq_height. destruct (check_coords ac x) as [[[? ?] ?]|e]; cbn [bind]; eauto. Qed.
Print Assumptions c110_random_refuted.
(** Also for the coordinates of every square surface, which are as documented: it starts at zero and is evenly spaced. *)
Theorem c110_square_refuted : forall allclose x, (2 <= rows x)%nat -> cols x = rows x -> check_coords allclose x = Err ValueError.
Proof.
  intros ac x N E. unfold check_coords. rewrite E. rewrite (proj2 (Nat.eqb_neq (rows x) 0)) by lia. destruct (seq 0 (rows x - 1)) as [|k l] eqn:S0; [apply (f_equal (@List.length nat)) in S0; rewrite seq_length in S0; cbn in S0; lia|]. cbn [map]. destruct (negb _); [reflexivity|]. destruct (negb _); [reflexivity|]. rewrite Nat.eqb_refl. reflexivity.
Qed.
Print Assumptions c110_square_refuted.
(** For evenly spaced coordinates of other shapes, the spacing, the extent and the number of points of the first row are found (for both directions). *)
Theorem c110_even : forall allclose x d, (forall l a, (forall b, In b l -> b = a) -> allclose l a = true) -> d <> 0 -> (2 <= rows x)%nat -> (2 <= cols x)%nat -> rows x <> cols x ->
  (forall j, (j < cols x)%nat -> at_ x 0 j = INR j * d) ->
  check_coords allclose x = Ok (d, (INR (cols x - 1) * d, INR (cols x - 1) * d), (INR (cols x), INR (cols x))).
Proof.
  intros ac x d A D N M NE X. unfold check_coords. rewrite (proj2 (Nat.eqb_neq (rows x) 0)) by lia.
  assert (DD : map (fun j => at_ x 0 (S j) - at_ x 0 j) (seq 0 (cols x - 1)) = map (fun _ => d) (seq 0 (cols x - 1))).
  { apply map_ext_in. intros j J. apply in_seq in J. rewrite !X by lia. rewrite S_INR. ring. }
  rewrite DD. destruct (cols x - 1)%nat as [|c] eqn:C; [lia|]. cbn [seq map].
  rewrite A; [|intros b [<-|I]; [reflexivity|]; apply in_map_iff in I; destruct I as (? & <- & _); reflexivity]. cbn [negb].
  rewrite (X 0%nat) by lia. change (INR 0) with 0. rewrite Rmult_0_l. destruct (Reqb 0 0) eqn:Z; [|exfalso; unfold Reqb in Z; destruct (Req_EM_T 0 0); [discriminate|auto]]. cbn [negb].
  rewrite (proj2 (Nat.eqb_neq (rows x) (cols x))), (proj2 (Nat.eqb_neq (rows x) 1)) by lia. cbn [orb]. rewrite X by lia.
  assert (K : INR (S c) * d / d + 1 = INR (cols x)) by (replace (cols x) with (S (S c)) by lia; rewrite (S_INR (S c)); field; exact D). rewrite K. reflexivity.
Qed.
Print Assumptions c110_even.
Example c110_even_case : exists x : grid, (2 <= rows x)%nat /\ (2 <= cols x)%nat /\ rows x <> cols x /\ forall j, (j < cols x)%nat -> at_ x 0 j = INR j * 3.
Proof. exists (Grid 2 5 (fun i j => INR j * 3)). cbn. repeat split; try lia; reflexivity. Qed.

Example c110_case : exists s, new_disc_freq (Sequence [1; 2]) [Plain 3; Plain 1] [0; PI] = Ok s /\ disc_freq_height s 0 5 = 2 /\ (forall l f, Sequence [1; 2] = Sequence l -> In f l -> exists k : Z, f * 1 = IZR k).
Proof.
  destruct (c110_waves [(1, 3, 0); (2, 1, PI)]) as (s & A & B). exists s. split; [exact A|]. split.
  - rewrite B. cbn. rewrite !Rmult_0_r, Rminus_0_r, cos_0. replace (0 - PI) with (- PI) by ring. rewrite cos_neg, cos_PI. lra.
  - intros l f E I. inversion E; subst. destruct I as [<-|[<-|[]]]; [exists 1%Z|exists 2%Z]; lra.
Qed.
