(** Theorems on the plots of surfaces, C115. *)
From Coq Require Import Reals String Ascii List Bool Arith Lia Lra ZArith.
From Verif Require Import Py SurfaceModel SurfaceProofs ConvModel ConvSpec ConvProofs SpectraModel SpectraSpec SpectraProofs Flt ShowModel ShowSpec ShowProofs.
From Verif Require RoughSpec.
Import ListNotations.
Local Open Scope R_scope.

(** C115: a surface or mesh plot of the profile has every height over its own point and nothing else, and changes nothing;
    that of the unworn profile likewise. *)
Theorem c115_profile (dist : Type) : forall s p h (d : option dist) st plot, ready s p h -> plot = "surface"%string \/ plot = "mesh"%string ->
  (exists a, show_one s "profile" plot None d st = (s, Ok a) /\ xlabel a = "x"%string /\ ylabel a = "y"%string /\ zlabel a = Some "Height"%string /\
     plotted a (rows p) (cols p) (fun i => h * INR i) (fun j => h * INR j) (fun i j => Fin (at_ p i j))) /\
  (forall u, unworn s = Some u -> rows u = rows p -> cols u = cols p ->
     exists a, show_one s "unworn_profile" plot None d st = (s, Ok a) /\
     plotted a (rows p) (cols p) (fun i => h * INR i) (fun j => h * INR j) (fun i j => Fin (at_ u i j))).
Proof.
  intros s p h d st plot Rd T. split.
  - rewrite (show_ready s p h) by (reflexivity || exact Rd). change (lower "profile") with "profile"%string. cbn [content_of String.eqb Ascii.eqb Bool.eqb bind].
    destruct (draw_both (dist := dist) "profile" plot st (finite p) (fun i => h * INR i) (fun j => h * INR j) (rows p) (cols p) "x" "y" "Height" eq_refl eq_refl eq_refl eq_refl T) as (a & A & X & Y & Z & _ & P).
    exists a. cbv zeta. rewrite A. tauto.
  - intros u U N M. rewrite (show_ready s p h) by (reflexivity || exact Rd). change (lower "unworn_profile") with "unworn_profile"%string. cbn [content_of String.eqb Ascii.eqb Bool.eqb bind]. rewrite U.
    destruct (draw_both (dist := dist) "unworn_profile" plot st (finite u) (fun i => h * INR i) (fun j => h * INR j) (rows p) (cols p) "x" "y" "Height" N M eq_refl eq_refl T) as (a & A & X & Y & Z & _ & P).
    exists a. cbv zeta. rewrite A. tauto.
Qed.
Print Assumptions c115_profile.

Lemma centred_lag n h i : (0 < n)%nat -> h * INR i - h * INR (n - 1) / 2 = h * (IZR (lag n i) + if Nat.even n then /2 else 0).
Proof.
  intros N. unfold lag. rewrite minus_IZR, <- !INR_IZR_INZ, half_INR, minus_INR by lia. change (INR 1) with 1. destruct (Nat.even n); field.
Qed.
(** C115: an autocorrelation that was not found before is that of the profile, found for the plot and kept; over each point is
    its size at the lag of the point, half a spacing away where the number of points is even. *)
Theorem c115_acf (dist : Type) : forall s p h (d : option dist) st plot, ready s p h -> plot = "surface"%string \/ plot = "mesh"%string ->
  acf_kept s = None -> 0 <= h -> (4 <= rows p)%nat -> (4 <= cols p)%nat ->
  exists s' a k, show_one s "acf" plot None d st = (s', Ok a) /\ acf_kept s' = Some k /\ fft_kept s' = fft_kept s /\ psd_kept s' = psd_kept s /\
    (forall i j, (i < rows p)%nat -> (j < cols p)%nat -> at_ k i j = autocovariance p (lag (rows p) i) (lag (cols p) j)) /\
    xlabel a = "x"%string /\ ylabel a = "y"%string /\
    plotted a (rows p) (cols p) (fun i => h * (IZR (lag (rows p) i) + if Nat.even (rows p) then /2 else 0))
      (fun j => h * (IZR (lag (cols p) j) + if Nat.even (cols p) then /2 else 0)) (fun i j => Fin (Rabs (autocovariance p (lag (rows p) i) (lag (cols p) j)))).
Proof.
  intros s p h d st plot Rd T K H N M. rewrite (show_ready s p h) by (reflexivity || exact Rd). change (lower "acf") with "acf"%string. cbn [content_of String.eqb Ascii.eqb Bool.eqb bind]. rewrite K. unfold find_acf.
  rewrite (proj2 (Nat.ltb_lt 3 (rows p))), (proj2 (Nat.ltb_lt 3 (cols p))) by lia. cbn [andb]. rewrite !centred_is by (lia || exact H). cbn [bind].
  destruct (draw_both (dist := dist) "acf" plot st (FGrid (rows (acf_array p)) (cols (acf_array p)) (fun i j => Fin (Rabs (at_ (acf_array p) i j)))) (fun i => h * INR i - h * INR (rows p - 1) / 2) (fun j => h * INR j - h * INR (cols p - 1) / 2) (rows p) (cols p) "x" "y" "Surface auto correlation" eq_refl eq_refl eq_refl eq_refl T) as (a & A & X & Y & Z & _ & P3 & P).
  eexists _, a, (acf_array p). cbv zeta. rewrite A. split; [reflexivity|]. split; [reflexivity|]. split; [reflexivity|]. split; [reflexivity|]. split; [intros; now apply acf_is|]. split; [exact X|]. split; [exact Y|]. split; [exact P3|].
  intros px py pz. rewrite P. cbn [fat]. split; intros (i & j & I & J & -> & -> & ->); exists i, j; rewrite acf_is, !centred_lag by (assumption || lia); tauto.
Qed.
Print Assumptions c115_acf.
(** What is shown is never negative, though autocorrelations are, and for even numbers of points none of it is over the lag of zero. *)
Theorem c115_acf_refuted (dist : Type) : forall s p h (d : option dist) st plot, ready s p h -> plot = "surface"%string \/ plot = "mesh"%string ->
  acf_kept s = None -> 0 < h -> (4 <= rows p)%nat -> (4 <= cols p)%nat ->
  exists s' a, show_one s "acf" plot None d st = (s', Ok a) /\
    (forall i j, (i < rows p)%nat -> (j < cols p)%nat -> autocovariance p (lag (rows p) i) (lag (cols p) j) < 0 ->
       ~ corner a (h * (IZR (lag (rows p) i) + if Nat.even (rows p) then /2 else 0)) (h * (IZR (lag (cols p) j) + if Nat.even (cols p) then /2 else 0)) (Fin (autocovariance p (lag (rows p) i) (lag (cols p) j)))) /\
    (Nat.even (rows p) = true -> forall y z, ~ corner a 0 y z).
Proof.
  intros s p h d st plot Rd T K H N M. destruct (c115_acf dist s p h d st plot Rd T K ltac:(lra) N M) as (s' & a & k & E & _ & _ & _ & _ & _ & _ & _ & P). exists s', a. split; [exact E|]. split.
  - intros i j I J L C. apply P in C. destruct C as (i' & j' & _ & _ & _ & _ & F). injection F as F. pose proof (Rabs_pos (autocovariance p (lag (rows p) i') (lag (cols p) j'))). lra.
  - intros Ev y z C. apply P in C. destruct C as (i & j & _ & _ & F & _). rewrite Ev in F. symmetry in F. apply Rmult_integral in F. destruct F as [F|F]; [lra|].
    assert (F2 : IZR (2 * lag (rows p) i + 1) = 0) by (rewrite plus_IZR, mult_IZR; lra). apply eq_IZR_R0 in F2. lia.
Qed.
Print Assumptions c115_acf_refuted.

(** C115: a mesh plot of the transform, and of the power spectrum, has every magnitude (the logarithm of it) at its own
    frequency; a transform not found before is found for it and kept. *)
Theorem c115_spectrum (dist : Type) : forall s p h (d : option dist) st, ready s p h ->
  (fft_kept s = None -> exists s' a, show_one s "fft2d" "mesh" None d st = (s', Ok a) /\ fft_kept s' = Some (CGrid (rows p) (cols p) (fft2 (rows p) (cols p) (fun i j => creal (at_ p i j)))) /\
     psd_kept s' = psd_kept s /\ acf_kept s' = acf_kept s /\ xlabel a = "u"%string /\ ylabel a = "v"%string /\
     plotted a (rows p) (cols p) (frequency (rows p) h) (frequency (cols p) h) (fun k l => Fin (cabs (fft2 (rows p) (cols p) (fun i j => creal (at_ p i j)) k l)))) /\
  (psd_kept s = None -> acf_kept s = None -> (4 <= rows p)%nat -> (4 <= cols p)%nat -> exists s' a, show_one s "psd" "mesh" None d st = (s', Ok a) /\
     fft_kept s' = fft_kept s /\ (exists k, acf_kept s' = Some k) /\ (exists k, psd_kept s' = Some k) /\ xlabel a = "u"%string /\ ylabel a = "v"%string /\
     plotted a (rows p) (cols p) (frequency (rows p) h) (frequency (cols p) h)
       (fun k l => logarithm (cabs (fft2 (rows p) (cols p) (fun i j => creal (autocovariance p (lag (rows p) i) (lag (cols p) j))) k l)))).
Proof.
  intros s p h d st Rd.
  assert (W : forall (a : axis dist) (v : nat -> nat -> flt), plotted a (rows p) (cols p) (fftfreq (rows p) h) (fftfreq (cols p) h) v -> plotted a (rows p) (cols p) (frequency (rows p) h) (frequency (cols p) h) v).
  { intros a v (P3 & P). split; [exact P3|]. intros px py pz. rewrite P. split; intros (i & j & I & J & -> & -> & ->); exists i, j; rewrite !freq_is by assumption; tauto. }
  split.
  - intros K. rewrite (show_ready s p h) by (reflexivity || exact Rd). change (lower "fft2d") with "fft2d"%string. cbn [content_of String.eqb Ascii.eqb Bool.eqb bind]. rewrite K. cbn [find_fft with_spectra fft_kept]. cbn [negb orb]. cbv zeta.
    change (negb (("mesh" =? "image")%string || ("mesh" =? "default")%string)) with true. cbn [bind]. cbv zeta. rewrite draw_mesh_shifted by (auto; reflexivity).
    eexists _, _. split; [reflexivity|]. split; [reflexivity|]. do 4 (split; [reflexivity|]). apply W. apply plotted_shifted; reflexivity.
  - intros K1 K2 N M. rewrite (show_ready s p h) by (reflexivity || exact Rd). change (lower "psd") with "psd"%string. cbn [content_of String.eqb Ascii.eqb Bool.eqb bind]. rewrite K1. unfold find_psd. rewrite K2. unfold find_acf.
    rewrite (proj2 (Nat.ltb_lt 3 (rows p))), (proj2 (Nat.ltb_lt 3 (cols p))) by lia. cbn [andb]. cbv zeta. cbn [bind]. change (negb (("mesh" =? "image")%string || ("mesh" =? "default")%string)) with true. rewrite draw_mesh_shifted by (auto; reflexivity).
    eexists _, _. split; [reflexivity|]. split; [reflexivity|]. split; [eexists; reflexivity|]. split; [eexists; reflexivity|]. do 2 (split; [reflexivity|]). apply W. apply plotted_shifted; try reflexivity.
    intros i j I J. rewrite <- log_is. cbn [fat cat cshift cgrid_of crows ccols acf_array rows cols]. do 2 f_equal. unfold fft_of. cbn [rows cols]. apply fft2_ext. intros a b A B. f_equal. now apply (acf_is p).
Qed.
Print Assumptions c115_spectrum.
(** A surface plot of them does not: what is over the frequency of zero is the value of another one, and the sum of the
    heights, which belongs there, stands somewhere else. *)
Theorem c115_spectrum_surface_refuted (dist : Type) : forall s p h (d : option dist) st, ready s p h -> 0 < h -> (2 <= rows p)%nat -> (2 <= cols p)%nat -> fft_kept s = None ->
  exists s' a, show_one s "fft2d" "surface" None d st = (s', Ok a) /\
    (forall z, corner a 0 0 z <-> z = Fin (cabs (fft2 (rows p) (cols p) (fun i j => creal (at_ p i j)) ((rows p + 1) / 2) ((cols p + 1) / 2)))) /\
    exists u v, u <> 0 /\ v <> 0 /\ corner a u v (Fin (cabs (fft2 (rows p) (cols p) (fun i j => creal (at_ p i j)) 0 0))).
Proof.
  intros s p h d st Rd H N M K. rewrite (show_ready s p h) by (reflexivity || exact Rd). change (lower "fft2d") with "fft2d"%string. cbn [content_of String.eqb Ascii.eqb Bool.eqb bind]. rewrite K. cbn [find_fft with_spectra fft_kept]. cbv zeta.
  change (negb (("surface" =? "image")%string || ("surface" =? "default")%string)) with true. cbn [bind]. cbv zeta. rewrite draw_surface by reflexivity. eexists _, _. split; [reflexivity|].
  unfold corner. cbn [drawn transpose mesh_x mesh_y frows fcols fat at_ cgrid_of crows ccols cat cshift].
  assert (Z0 : forall n k, (0 < n)%nat -> (k < n)%nat -> 0 = fftfreq n h k -> k = 0%nat). { intros n k A B E. rewrite freq_is in E by exact B. destruct k; [reflexivity|]. exfalso. apply (freq_nonzero n h (S k)); [exact H|lia|now symmetry]. }
  assert (Hb : forall n, (2 <= n)%nat -> (0 < n / 2 < n)%nat) by (intros n A; pose proof (half_both n); pose proof (Nat.div_mod n 2); pose proof (Nat.mod_upper_bound n 2); lia).
  split.
  - assert (Sh : forall n, (2 <= n)%nat -> shifted n 0 = ((n + 1) / 2)%nat) by (intros n A; rewrite shifted_is by lia; rewrite (proj2 (Nat.ltb_lt 0 (n / 2))) by (apply Hb, A); reflexivity).
    intros z. split.
    + intros (j & i & J & I & A & B & ->). apply Z0 in A; [|lia|lia]. apply Z0 in B; [|lia|lia]. subst. rewrite !Sh by assumption. reflexivity.
    + intros ->. exists 0%nat, 0%nat. rewrite !Sh by assumption. rewrite !freq_is, !freq_zero by lia. repeat split; lia.
  - pose proof (Hb _ N). pose proof (Hb _ M). exists (frequency (rows p) h (rows p / 2)), (frequency (cols p) h (cols p / 2)). split; [apply freq_nonzero; [exact H|lia]|]. split; [apply freq_nonzero; [exact H|lia]|].
    exists (cols p / 2)%nat, (rows p / 2)%nat. split; [lia|]. split; [lia|]. rewrite !freq_is by lia. split; [reflexivity|]. split; [reflexivity|].
    rewrite !shifted_is by lia. rewrite !Nat.ltb_irrefl, !Nat.sub_diag. reflexivity.
Qed.
Print Assumptions c115_spectrum_surface_refuted.

(** C115: plots are images unless another kind is asked for, although surfaces are promised; the axis named x goes along the
    second coordinate, and the first row is on top: the larger the first coordinate, the lower it is shown. *)
Theorem c115_image_refuted (dist : Type) : forall s p h (d : option dist) st plot, ready s p h -> plot = "image"%string \/ plot = "default"%string -> 0 < h -> (2 <= rows p)%nat -> (1 <= cols p)%nat ->
  exists a, show_one s "profile" plot None d st = (s, Ok a) /\ three_d a = false /\ xlabel a = "x"%string /\ ylabel a = "y"%string /\
    drawn a = DImage (finite p) 0 (h * INR (cols p - 1)) 0 (h * INR (rows p - 1)) /\
    forall i j, (i < rows p)%nat -> (j < cols p)%nat -> exists x y, pixel a i j = Some (x, y, Fin (at_ p i j)) /\
      x = h * INR (cols p - 1) * ((INR j + /2) / INR (cols p)) /\ y = h * INR (rows p - 1) * (1 - (INR i + /2) / INR (rows p)) /\
      (forall i', (i < i' < rows p)%nat -> exists x' y', pixel a i' j = Some (x', y', Fin (at_ p i' j)) /\ y' < y).
Proof.
  intros s p h d st plot Rd T H N M. rewrite (show_ready s p h) by (reflexivity || exact Rd). change (lower "profile") with "profile"%string. cbn [content_of String.eqb Ascii.eqb Bool.eqb bind]. cbv zeta.
  rewrite (draw_image _ "profile" plot st (finite p) (fun i => h * INR i) (fun i => h * INR i) (rows p) (cols p) "x" "y" "Height" 0 (h * INR (cols p - 1)) 0 (h * INR (rows p - 1)) T).
  2: rewrite min_line by (lia || apply line_up; lra); cbn; now rewrite Rmult_0_r.
  2: now rewrite max_line by (lia || apply line_up; lra).
  2: rewrite min_line by (lia || apply line_up; lra); cbn; now rewrite Rmult_0_r.
  2: now rewrite max_line by (lia || apply line_up; lra).
  eexists. split; [reflexivity|]. split; [destruct T as [-> | ->]; reflexivity|]. do 3 (split; [reflexivity|]).
  assert (NR : 0 < INR (rows p)) by (apply lt_0_INR; lia). assert (MR : 0 < INR (cols p)) by (apply lt_0_INR; lia).
  assert (PX : forall i j, (i < rows p)%nat -> (j < cols p)%nat -> pixel (Axis dist (negb ((plot =? "image")%string || (plot =? "default")%string)) (DImage (finite p) 0 (h * INR (cols p - 1)) 0 (h * INR (rows p - 1))) "x" "y" None) i j =
     Some (h * INR (cols p - 1) * ((INR j + /2) / INR (cols p)), h * INR (rows p - 1) * (1 - (INR i + /2) / INR (rows p)), Fin (at_ p i j))).
  { intros i j I J. unfold pixel. cbn [drawn finite frows fcols fat]. rewrite (proj2 (Nat.ltb_lt i _) I), (proj2 (Nat.ltb_lt j _) J). cbn [andb]. do 3 f_equal; field; lra. }
  intros i j I J. do 2 eexists. split; [now apply PX|]. split; [reflexivity|]. split; [reflexivity|]. intros i' L. do 2 eexists. split; [apply PX; lia|].
  apply Rmult_lt_compat_l; [apply Rmult_lt_0_compat; [exact H|apply lt_0_INR; lia]|]. assert (INR i < INR i') by (apply lt_INR; lia).
  assert ((INR i + / 2) / INR (rows p) < (INR i' + / 2) / INR (rows p)); [|lra]. unfold Rdiv. apply Rmult_lt_compat_r; [now apply Rinv_0_lt_compat|lra].
Qed.
Print Assumptions c115_image_refuted.

(** Spectra that were found before are shown again, whatever the profile is by now. *)
Theorem c115_stale_refuted (dist : Type) : forall s p q h (d : option dist) st plot prop ax, ready s p h -> turned s = false ->
  prop = "fft2d"%string /\ fft_kept s <> None \/ prop = "psd"%string /\ psd_kept s <> None \/ prop = "acf"%string /\ acf_kept s <> None ->
  snd (show_one (with_profile s (Some q)) prop plot ax d st) = snd (show_one s prop plot ax d st).
Proof.
  intros s p q h d st plot prop ax (P & G & Sh) Q K. apply own_of in P. unfold show_one. rewrite P. replace (own_profile (with_profile s (Some q))) with (Ok (Some q)) by (unfold own_profile; cbn [with_profile held turned]; now rewrite Q). cbn [with_profile gs shp]. rewrite G, Sh.
  destruct K as [(-> & K)|[(-> & K)|(-> & K)]].
  - change (lower "fft2d") with "fft2d"%string. cbn [mem types2d types1d existsb String.eqb Ascii.eqb Bool.eqb orb negb content_of with_profile fft_kept]. destruct (fft_kept s) as [f|] eqn:F; [|congruence]. cbv zeta. cbn [with_profile fft_kept]. rewrite F. reflexivity.
  - change (lower "psd") with "psd"%string. cbn [mem types2d types1d existsb String.eqb Ascii.eqb Bool.eqb orb negb content_of with_profile psd_kept]. destruct (psd_kept s); [reflexivity|congruence].
  - change (lower "acf") with "acf"%string. cbn [mem types2d types1d existsb String.eqb Ascii.eqb Bool.eqb orb negb content_of with_profile acf_kept]. destruct (acf_kept s); [reflexivity|congruence].
Qed.
Print Assumptions c115_stale_refuted.

(** A scatter of frequencies fails unless the transform was found before, although it is promised to be found. *)
Theorem c115_fft1d_refuted (dist : Type) : forall s p h (d : option dist) st plot ax, ready s p h -> fft_kept s = None ->
  show_one s "fft1d" plot ax d st = (s, Err TypeError).
Proof. intros s p h d st plot ax Rd K. rewrite (show_ready1 s p h) by (reflexivity || exact Rd). unfold draw1d. cbn. now rewrite K. Qed.
Print Assumptions c115_fft1d_refuted.
(** C115: with it, the points of a square surface have the sum of the two frequencies of a magnitude. *)
Theorem c115_scatter (dist : Type) : forall s p h (d : option dist) st plot f, ready s p h -> fft_kept s = Some f -> crows f = rows p -> ccols f = cols p -> (0 < rows p)%nat -> rows p = cols p ->
  exists a x y r t, show_one s "fft1d" plot None d st = (s, Ok a) /\ drawn a = DScatter x y r t /\ length x = (rows p * cols p)%nat /\ length y = (rows p * cols p)%nat /\
    forall k l, (k < rows p)%nat -> (l < cols p)%nat -> nth_error y (k * cols p + l) = Some (cabs (cat f k l)) /\
      nth_error x (k * cols p + l) = Some (frequency (rows p) h k + frequency (cols p) h l).
Proof.
  intros s p h d st plot f Rd K F1 F2 N E. rewrite (show_ready1 s p h) by (reflexivity || exact Rd). unfold draw1d. cbn. rewrite K. rewrite !flatten_length, F1, F2, <- E, Nat.eqb_refl. cbn [negb].
  destruct (py_max_some (flatten (rows p) (rows p) (fun j i => fftfreq (rows p) h i + fftfreq (rows p) h j))) as (r & Hr). { intros X. apply (f_equal (@length R)) in X. rewrite flatten_length in X. cbn in X. nia. }
  destruct (py_max_some (flatten (rows p) (rows p) (fun i j => cabs (cat f i j)))) as (t & Ht). { intros X. apply (f_equal (@length R)) in X. rewrite flatten_length in X. cbn in X. nia. }
  rewrite Hr, Ht. cbn [bind]. do 5 eexists. split; [reflexivity|]. split; [reflexivity|]. split; [apply flatten_length|]. split; [apply flatten_length|].
  intros k l Kk Ll. rewrite !flatten_nth by lia. split; [reflexivity|]. rewrite !freq_is by lia. now rewrite Rplus_comm.
Qed.
Print Assumptions c115_scatter.
(** On surfaces that are not square magnitudes and frequencies are mixed up: the second magnitude, of the first frequency
    across, stands at the first frequency down. *)
Theorem c115_scatter_refuted (dist : Type) : forall s p h (d : option dist) st plot f, ready s p h -> fft_kept s = Some f -> crows f = rows p -> ccols f = cols p -> (3 <= rows p)%nat -> (3 <= cols p)%nat -> rows p <> cols p -> 0 < h ->
  exists a x y r t, show_one s "fft1d" plot None d st = (s, Ok a) /\ drawn a = DScatter x y r t /\
    nth_error y 1 = Some (cabs (cat f 0 1)) /\ nth_error x 1 = Some (frequency (rows p) h 1 + frequency (cols p) h 0) /\
    frequency (rows p) h 1 + frequency (cols p) h 0 <> frequency (rows p) h 0 + frequency (cols p) h 1.
Proof.
  intros s p h d st plot f Rd K F1 F2 N M E H. rewrite (show_ready1 s p h) by (reflexivity || exact Rd). unfold draw1d. cbn. rewrite K. rewrite !flatten_length, F1, F2, (Nat.mul_comm (cols p)), Nat.eqb_refl. cbn [negb].
  destruct (py_max_some (flatten (cols p) (rows p) (fun j i => fftfreq (rows p) h i + fftfreq (cols p) h j))) as (r & Hr). { intros X. apply (f_equal (@length R)) in X. rewrite flatten_length in X. cbn in X. nia. }
  destruct (py_max_some (flatten (rows p) (cols p) (fun i j => cabs (cat f i j)))) as (t & Ht). { intros X. apply (f_equal (@length R)) in X. rewrite flatten_length in X. cbn in X. nia. }
  rewrite Hr, Ht. cbn [bind]. do 5 eexists. split; [reflexivity|]. split; [reflexivity|].
  pose proof (flatten_nth (rows p) (cols p) (fun i j => cabs (cat f i j)) 0 1 ltac:(lia) ltac:(lia)) as A. pose proof (flatten_nth (cols p) (rows p) (fun j i => fftfreq (rows p) h i + fftfreq (cols p) h j) 0 1 ltac:(lia) ltac:(lia)) as B. cbn [Nat.mul Nat.add] in A, B.
  split; [exact A|]. rewrite <- !freq_is by lia. split; [exact B|]. rewrite !freq_is by lia. rewrite !freq_zero by lia. unfold frequency. rewrite (proj2 (Nat.ltb_lt (2 * 1) (rows p))), (proj2 (Nat.ltb_lt (2 * 1) (cols p))) by lia. change (INR 1) with 1.
  intros X. apply E. apply INR_eq. assert (0 < INR (rows p)) by (apply lt_0_INR; lia). assert (0 < INR (cols p)) by (apply lt_0_INR; lia).
  assert (Y : 1 / (INR (rows p) * h) = 1 / (INR (cols p) * h)) by lra. apply (f_equal (fun v => v * (INR (rows p) * INR (cols p) * h))) in Y. replace (1 / (INR (rows p) * h) * (INR (rows p) * INR (cols p) * h)) with (INR (cols p)) in Y by (field; lra). replace (1 / (INR (cols p) * h) * (INR (rows p) * INR (cols p) * h)) with (INR (rows p)) in Y by (field; lra). now symmetry.
Qed.
Print Assumptions c115_scatter_refuted.

(** The angular power spectrum, though offered, is never shown. *)
Theorem c115_apsd_refuted (dist : Type) : forall s p h (d : option dist) st plot ax, ready s p h -> In plot ["surface"; "mesh"; "image"; "default"]%string ->
  exists e, snd (show_one s "apsd" plot ax d st) = Err e.
Proof.
  intros s p h d st plot ax Rd I. rewrite (show_ready s p h) by (reflexivity || exact Rd). change (lower "apsd") with "apsd"%string. cbn [content_of String.eqb Ascii.eqb Bool.eqb bind]. cbv zeta. cbn [snd].
  destruct (centred (rows p) h) as [x|e]; [|eexists; reflexivity]. cbn [bind]. destruct (centred (cols p) h) as [y|e]; [|eexists; reflexivity]. cbn [bind].
  assert (Z : forall T (r : result T) e, (exists e', bind r (fun _ => Err e) = @Err T e') ) by (intros T [v|e1] e; eexists; reflexivity).
  destruct I as [<-|[<-|[<-|[<-|[]]]]]; unfold draw2d; cbn [String.eqb Ascii.eqb Bool.eqb orb].
  - destruct (negb _); eexists; reflexivity.
  - destruct (negb _); eexists; reflexivity.
  - destruct (py_min (values_of (cols p) y)), (py_max (values_of (cols p) y)), (py_min (values_of (rows p) x)), (py_max (values_of (rows p) x)); eexists; reflexivity.
  - destruct (py_min (values_of (cols p) y)), (py_max (values_of (cols p) y)), (py_min (values_of (rows p) x)), (py_max (values_of (rows p) x)); eexists; reflexivity.
Qed.
Print Assumptions c115_apsd_refuted.
(** A kind of plot that does not exist is no error: an empty plot with its labels is shown. *)
Theorem c115_type_refuted (dist : Type) : forall s p h (d : option dist) st plot, ready s p h -> ~ In plot ["surface"; "mesh"; "image"; "default"]%string ->
  show_one s "profile" plot None d st = (s, Ok (Axis dist true DNothing "x" "y" None)).
Proof.
  intros s p h d st plot Rd I. rewrite (show_ready s p h) by (reflexivity || exact Rd). change (lower "profile") with "profile"%string. cbn [content_of String.eqb Ascii.eqb Bool.eqb bind]. cbv zeta.
  assert (E : forall t, In t ["surface"; "mesh"; "image"; "default"]%string -> String.eqb plot t = false) by (intros t A; apply String.eqb_neq; intros ->; now apply I).
  unfold draw2d. rewrite !E by (cbn; tauto). reflexivity.
Qed.
Print Assumptions c115_type_refuted.

(** C115: names of properties are taken in capitals or not; other names, and surfaces without a profile or a spacing, are
    refused, and nothing is changed. Whatever is shown, nothing but the kept spectra changes. *)
Lemma lower_letters a b : RoughSpec.same_letters a b -> lower a = lower b.
Proof.
  intros L. induction L as [|c d a b H L IH]; [reflexivity|]. cbn [lower]. f_equal; [|exact IH].
  assert (A : forall i c d, String.get i RoughSpec.capitals = Some c -> String.get i RoughSpec.smalls = Some d -> lower_char c = lower_char d).
  { clear. intros i c d. do 26 (destruct i as [|i]; [cbn; intros [= <-] [= <-]; reflexivity|]). cbn. discriminate. }
  destruct H as [->|(i & [[H1 H2]|[H1 H2]])]; [reflexivity|eauto|symmetry; eauto].
Qed.
Lemma letters_lower a : RoughSpec.same_letters a (lower a).
Proof.
  induction a as [|c a IH]; cbn [lower]; constructor; [|exact IH].
  assert (A : c = lower_char c \/ String.get (nat_of_ascii c - 65) RoughSpec.capitals = Some c /\ String.get (nat_of_ascii c - 65) RoughSpec.smalls = Some (lower_char c)).
  { destruct c as [[] [] [] [] [] [] [] []]; first [left; reflexivity|right; split; reflexivity]. }
  destruct A as [A|A]; [left; exact A|right; eexists; left; exact A].
Qed.
Theorem c115_names (dist : Type) : forall s prop plot ax (d : option dist) st,
  (forall prop', RoughSpec.same_letters prop prop' -> show_one s prop plot ax d st = show_one s prop' plot ax d st) /\
  (forall p h, ready s p h -> (forall t, In t ["profile"; "unworn_profile"; "fft2d"; "psd"; "acf"; "apsd"; "histogram"; "hist"; "fft1d"; "qq"]%string -> ~ RoughSpec.same_letters prop t) ->
     show_one s prop plot ax d st = (s, Err ValueError)) /\
  (held s = None /\ turned s = false \/ gs s = None /\ held s <> None -> show_one s prop plot ax d st = (s, Err AttributeError)) /\
  same_but_spectra s (fst (show_one s prop plot ax d st)).
Proof.
  intros s prop plot ax d st. split; [intros prop' L; unfold show_one; now rewrite (lower_letters _ _ L)|]. split; [|split; [|apply show_keeps]].
  - intros p h (P & G & Sh) I. apply own_of in P. unfold show_one. rewrite P, G.
    assert (E : forall t, In t ["profile"; "unworn_profile"; "fft2d"; "psd"; "acf"; "apsd"; "histogram"; "hist"; "fft1d"; "qq"]%string -> String.eqb (lower prop) t = false) by (intros t A; apply String.eqb_neq; intros X; apply (I t A); rewrite <- X; apply letters_lower).
    unfold mem, types2d, types1d. cbn [existsb]. rewrite !E by (cbn; tauto). reflexivity.
  - intros [(P & T)|(G & P)]; unfold show_one, own_profile; [now rewrite P, T|]. destruct (held s) as [g|]; [|congruence]. destruct (turned s); now rewrite G.
Qed.
Print Assumptions c115_names.
(** C115: the histogram, and the probability plot against the distribution that is given, are of all heights. *)
Theorem c115_heights (dist : Type) : forall s p h (d : option dist) st plot, ready s p h ->
  exists l, length l = (rows p * cols p)%nat /\ (forall i j, (i < rows p)%nat -> (j < cols p)%nat -> nth_error l (i * cols p + j) = Some (at_ p i j)) /\
    (forall prop, prop = "histogram"%string \/ prop = "hist"%string -> exists a, show_one s prop plot None d st = (s, Ok a) /\ drawn a = DHistogram l 100 /\ three_d a = false) /\
    exists a, show_one s "qq" plot None d st = (s, Ok a) /\ drawn a = DProbability l d /\ three_d a = false.
Proof.
  intros s p h d st plot Rd. exists (flatten (rows p) (cols p) (at_ p)). split; [apply flatten_length|]. split; [intros; now apply flatten_nth|]. split.
  - intros prop [-> | ->]; rewrite (show_ready1 s p h) by (reflexivity || exact Rd); eexists; repeat split.
  - rewrite (show_ready1 s p h) by (reflexivity || exact Rd); eexists; repeat split.
Qed.
Print Assumptions c115_heights.

(** C115: up to nine properties are shown together, each on a place of its own, in order, and what is shown is what the
    property shows alone, on an axis for its kind. *)
Lemma places n k : (1 <= n <= 9)%nat -> (k < n)%nat -> place (first_number n + k) = Ok (n_rows n, n_cols n, S k).
Proof.
  intros N K. assert (n = 1 \/ n = 2 \/ n = 3 \/ n = 4 \/ n = 5 \/ n = 6 \/ n = 7 \/ n = 8 \/ n = 9)%nat as E by lia.
  assert (k = 0 \/ k = 1 \/ k = 2 \/ k = 3 \/ k = 4 \/ k = 5 \/ k = 6 \/ k = 7 \/ k = 8)%nat as F by lia.
  decompose [or] E; subst n; decompose [or] F; subst k; try lia; reflexivity.
Qed.
Lemma tenth n : (10 <= n)%nat -> place (first_number n + 9) = Err ValueError.
Proof.
  intros N. unfold place. assert (C : n_cols n = 3%nat). { unfold n_cols. destruct (Nat.ltb_spec n 5); [lia|reflexivity]. } assert (F : first_number n = (31 + n_rows n * 100)%nat) by (unfold first_number; rewrite C; lia). rewrite F.
  replace (31 + n_rows n * 100 + 9)%nat with ((4 + n_rows n * 10) * 10)%nat by lia. rewrite Nat.mod_mul by lia. cbn [Nat.leb]. rewrite !andb_false_r. reflexivity.
Qed.
Section Lists.
Context {dist : Type}.
Lemma each_ok (one : surface -> string -> string -> bool -> surface * result (axis dist)) (Rel : surface -> surface -> Prop) :
  (forall s, Rel s s) -> (forall a b c, Rel a b -> Rel b c -> Rel a c) -> (forall s prop t b, Rel s (fst (one s prop t b))) ->
  forall props s types number, Rel s (fst (show_each one s props types number)) /\
  forall l, snd (show_each one s props types number) = Ok l -> length l = length props /\ forall k prop, nth_error props k = Some prop ->
    exists pl a t s1 s2, nth_error l k = Some (pl, a) /\ place (number + k) = Ok pl /\ nth_error types k = Some t /\ Rel s s1 /\ Rel s1 s2 /\
      one s1 prop t (mem types2d (lower prop) && negb (String.eqb t "image" || String.eqb t "default")) = (s2, Ok a).
Proof.
  intros R0 RT RO. induction props as [|prop props IH]; intros s types number.
  - cbn. split; [apply R0|]. intros l E. injection E as <-. split; [reflexivity|]. intros [|k] prop E; discriminate.
  - cbn [show_each]. destruct types as [|t types]; [split; [apply R0|discriminate]|]. destruct (place number) as [pl|e] eqn:P; [|split; [apply R0|discriminate]].
    pose proof (RO s prop t (mem types2d (lower prop) && negb (String.eqb t "image" || String.eqb t "default"))) as O.
    destruct (one s prop t (mem types2d (lower prop) && negb (String.eqb t "image" || String.eqb t "default"))) as [s1 [a|e]] eqn:E1; [|split; [exact O|discriminate]]. cbn [fst] in O.
    destruct (IH s1 types (S number)) as (K & L). destruct (show_each one s1 props types (S number)) as [s2 [l2|e]]; cbn [fst snd bind] in *; [|split; [eauto|discriminate]].
    split; [eauto|]. intros l E. injection E as <-. destruct (L l2 eq_refl) as (Ln & Nt). split; [cbn; congruence|]. intros [|k] pr Hk.
    + cbn in Hk. injection Hk as <-. exists pl, a, t, s, s1. rewrite Nat.add_0_r. repeat split; auto.
    + cbn in Hk. destruct (Nt k pr Hk) as (pl' & a' & t' & s1' & s2' & A & B & C' & D & F & G). exists pl', a', t', s1', s2'. replace (number + S k)%nat with (S number + k)%nat by lia. repeat split; eauto.
Qed.
End Lists.
Lemma types_long n t k : (k < n)%nat -> nth_error (types_for n t) k = Some (match t with OneType t => t | Types l => nth k l "default"%string end).
Proof.
  intros K. destruct t as [t|l]; cbn [types_for].
  - rewrite (nth_error_nth' _ t) by (rewrite repeat_length; exact K). now rewrite nth_repeat.
  - destruct (Nat.ltb_spec (length l) n) as [L|L].
    + destruct (le_lt_dec (length l) k) as [G|G].
      * rewrite nth_error_app2 by exact G. rewrite (nth_error_nth' _ "default"%string) by (rewrite repeat_length; lia). rewrite nth_repeat. now rewrite nth_overflow.
      * rewrite nth_error_app1 by exact G. now apply nth_error_nth'.
    + apply nth_error_nth'. lia.
Qed.
Lemma same_trans a b c : same_but_spectra a b -> same_but_spectra b c -> same_but_spectra a c.
Proof. unfold same_but_spectra. intros A B. rewrite B, A. reflexivity. Qed.
Theorem c115_list (dist : Type) : forall s props t s' l, show_all (dist := dist) s props t = (s', Ok l) ->
  same_but_spectra s s' /\ length l = length props /\ (length props <= 9)%nat /\
  forall k prop, nth_error props k = Some prop ->
    exists r c a s1 s2, nth_error l k = Some ((r, c, S k), a) /\ (length props <= r * c)%nat /\ r = n_rows (length props) /\ c = n_cols (length props) /\
      same_but_spectra s s1 /\ same_but_spectra s1 s2 /\
      show_one s1 prop (match t with OneType t => t | Types l => nth k l "default"%string end) None None None = (s2, Ok a).
Proof.
  intros s props t s' l E. unfold show_all in E. destruct (own_profile s) as [[p|]|] eqn:P; try discriminate. destruct (gs s) as [h|] eqn:G; [|discriminate].
  destruct (each_ok (fun s prop t three => show_one (dist := dist) s prop t (Some three) None None) same_but_spectra same_refl same_trans (fun s prop t b => show_keeps s prop t (Some b) None None) props s (types_for (length props) t) (first_number (length props))) as (K & L).
  rewrite E in K, L. cbn [fst snd] in K, L. destruct (L l eq_refl) as (Ln & Nt). split; [exact K|]. split; [exact Ln|].
  assert (N9 : (length props <= 9)%nat). { destruct (le_lt_dec (length props) 9) as [?|B]; [assumption|]. exfalso. destruct (nth_error props 9) as [pr|] eqn:H9; [|apply nth_error_None in H9; lia]. destruct (Nt 9%nat pr H9) as (pl & a & t' & s1 & s2 & _ & F & _). rewrite tenth in F by lia. discriminate. }
  split; [exact N9|]. intros k prop Hk. destruct (Nt k prop Hk) as (pl & a & t' & s1 & s2 & A & B & C' & D & F & O).
  assert (Kl : (k < length props)%nat) by (apply nth_error_Some; congruence). rewrite places in B by lia. injection B as <-. rewrite types_long in C' by exact Kl. injection C' as <-.
  exists (n_rows (length props)), (n_cols (length props)), a, s1, s2. split; [exact A|]. split.
  { assert (length props = 1 \/ length props = 2 \/ length props = 3 \/ length props = 4 \/ length props = 5 \/ length props = 6 \/ length props = 7 \/ length props = 8 \/ length props = 9)%nat as X by lia. decompose [or] X; match goal with H : length props = _ |- _ => rewrite H end; cbn; lia. }
  do 2 (split; [reflexivity|]). split; [exact D|]. split; [exact F|]. rewrite <- O. unfold show_one. destruct (own_profile s1) as [[p1|]|]; try reflexivity. destruct (gs s1); [|reflexivity]. destruct (mem types2d (lower prop)), (mem types1d (lower prop)); cbn [orb negb andb]; reflexivity.
Qed.
Print Assumptions c115_list.
(** Ten or more are always an error. *)
Theorem c115_list_refuted (dist : Type) : forall s props t, (10 <= length props)%nat -> exists e, snd (show_all (dist := dist) s props t) = Err e.
Proof.
  intros s props t N. destruct (show_all (dist := dist) s props t) as [s' [l|e]] eqn:E; [|eexists; reflexivity]. apply c115_list in E. destruct E as (_ & _ & F & _). lia.
Qed.
Print Assumptions c115_list_refuted.

(** ** Analytical surfaces *)
(** Nothing changed but the profile and the kept spectra. *)
Definition same_frame (s s' : surface) : Prop := s' = with_spectra (with_profile s (held s')) (fft_kept s') (psd_kept s') (acf_kept s').
Lemma frame_refl s : same_frame s s. Proof. destruct s; reflexivity. Qed.
Lemma frame_trans a b c : same_frame a b -> same_frame b c -> same_frame a c.
Proof. unfold same_frame. intros A B. rewrite B, A. reflexivity. Qed.
Lemma frame_of s s' : same_but_spectra s s' -> same_frame s s'.
Proof. unfold same_but_spectra, same_frame. intros E. rewrite E. destruct s; reflexivity. Qed.
Lemma around_keeps A height n (inner : surface -> surface * result A) s : (forall s, same_frame s (fst (inner s))) -> held s = None ->
  (gs s = None <-> shp s = None) -> fst (around height n inner s) = s.
Proof.
  intros K H E. unfold around. destruct (gs s) as [h|] eqn:G, (shp s) as [[a b]|] eqn:Sh.
  - destruct (ext s) as [e|]; [|reflexivity]. pose proof (K (with_profile s (Some (heights_on height h a b)))) as K1. destruct (inner _) as [s1 r]. cbn [fst] in K1 |- *. unfold same_frame in K1. rewrite K1. destruct s. cbn in *. now subst.
  - exfalso. assert (Some h = None); [|discriminate]. apply E. reflexivity.
  - exfalso. assert (Some (a, b) = None); [|discriminate]. apply E. reflexivity.
  - destruct (ext s) as [e|] eqn:X; [|reflexivity]. destruct (Nat.eqb n 0); [reflexivity|]. destruct (dummy e _) as [[[h' a] b]|]; [|reflexivity].
    match goal with |- fst (let '(_, _) := inner ?s1 in _) = _ => pose proof (K s1) as K1; destruct (inner s1) as [s2 r] end. cbn [fst] in K1 |- *. unfold same_frame in K1. rewrite K1. destruct s. cbn in *. now subst.
Qed.
Lemma around_frame A height n (inner : surface -> surface * result A) s : (forall s, same_frame s (fst (inner s))) -> gs s <> None -> shp s <> None -> same_frame s (fst (around height n inner s)).
Proof.
  intros K G Sh. unfold around. destruct (gs s) as [h|]; [|congruence]. destruct (shp s) as [[a b]|]; [|congruence]. destruct (ext s); [|apply frame_refl].
  pose proof (K (with_profile s (Some (heights_on height h a b)))) as K1. destruct (inner _) as [s1 r]. cbn [fst] in K1 |- *. unfold same_frame in *. rewrite K1. destruct s; reflexivity.
Qed.
(** C115: showing an analytical surface that is not discrete, one property or a list of them, leaves it as it was, whether it
    works or fails. *)
Theorem c115_restored (dist : Type) : forall height n_pts s, held s = None -> (gs s = None <-> shp s = None) ->
  (forall prop plot ax (d : option dist) st, fst (show_analytic height n_pts s prop plot ax d st) = s) /\
  (forall props t, fst (show_all_analytic (dist := dist) height n_pts s props t) = s).
Proof.
  intros height n s H E. split.
  - intros prop plot ax d st. unfold show_analytic. apply around_keeps; [|exact H|exact E]. intros s1. apply frame_of, show_keeps.
  - intros props t. unfold show_all_analytic, around. destruct (gs s) as [h|] eqn:G, (shp s) as [[a b]|] eqn:Sh.
    + destruct (ext s) as [e|]; [|reflexivity].
      assert (Fr : forall s0 prop t b, gs s0 = Some h -> shp s0 <> None -> same_frame s0 (fst (show_analytic (dist := dist) height 100 s0 prop t (Some b) None None))) by (intros; apply around_frame; [intros; apply frame_of, show_keeps|congruence|assumption]).
      match goal with |- fst (let '(_, _) := show_each ?o ?s0 _ _ _ in _) = _ => assert (K1 : same_frame s0 (fst (show_each o s0 props (types_for (length props) t) (first_number (length props))))) end.
      { eapply (fun X Y Z => proj1 (each_ok _ (fun u v => gs u <> None /\ shp u <> None -> same_frame u v) X Y Z props _ (types_for (length props) t) (first_number (length props)))).
        - intros; apply frame_refl.
        - intros u v w A B C'. specialize (A C'). apply (frame_trans u v w A). apply B. unfold same_frame in A. rewrite A. cbn. exact C'.
        - intros s0 prop t0 b0 (G0 & S0). apply around_frame; [intros; apply frame_of, show_keeps|assumption|assumption].
        - cbn. rewrite G, Sh. split; discriminate. }
      destruct (show_each _ _ _ _ _) as [s1 r]. cbn [fst] in K1 |- *. unfold same_frame in K1. rewrite K1. destruct s. cbn in *. now subst.
    + exfalso. assert (Some h = None); [|discriminate]. apply E. reflexivity.
    + exfalso. assert (Some (a, b) = None); [|discriminate]. apply E. reflexivity.
    + destruct (ext s) as [e|] eqn:X; [|reflexivity]. destruct (Nat.eqb n 0); [reflexivity|]. destruct (dummy e _) as [[[h' a] b]|]; [|reflexivity].
      match goal with |- fst (let '(_, _) := show_each ?o ?s0 _ _ _ in _) = _ => assert (K1 : same_frame s0 (fst (show_each o s0 props (types_for (length props) t) (first_number (length props))))) end.
      { eapply (fun X Y Z => proj1 (each_ok _ (fun u v => gs u <> None /\ shp u <> None -> same_frame u v) X Y Z props _ (types_for (length props) t) (first_number (length props)))).
        - intros; apply frame_refl.
        - intros u v w A B C'. specialize (A C'). apply (frame_trans u v w A). apply B. unfold same_frame in A. rewrite A. cbn. exact C'.
        - intros s0 prop t0 b0 (G0 & S0). apply around_frame; [intros; apply frame_of, show_keeps|assumption|assumption].
        - cbn. split; discriminate. }
      destruct (show_each _ _ _ _ _) as [s1 r]. cbn [fst] in K1 |- *. unfold same_frame in K1. rewrite K1. destruct s. cbn in *. now subst.
Qed.
Print Assumptions c115_restored.

Lemma npts_bounds v h : 0 <= v -> 0 < h -> h * INR (npts v h) <= v < h * (INR (npts v h) + 1).
Proof.
  intros V H. unfold npts. assert (Q : 0 <= v / h) by (apply Rmult_le_pos; [exact V|left; now apply Rinv_0_lt_compat]). destruct (trunc_bounds (v / h) Q) as (Z0 & B). rewrite INR_IZR_INZ, Z2Nat.id by exact Z0.
  assert (E : v = h * (v / h)) by (field; lra). destruct B as (B1 & B2). split.
  - apply Rle_trans with (h * (v / h)); [apply Rmult_le_compat_l; lra|lra].
  - apply Rle_lt_trans with (h * (v / h)); [lra|apply Rmult_lt_compat_l; lra].
Qed.
Lemma npts_own n e : 0 < e -> (0 < n)%nat -> npts e (e / INR n) = n.
Proof.
  intros E N. assert (0 < INR n) by (now apply lt_0_INR). unfold npts. replace (e / (e / INR n)) with (INR n) by (field; lra). rewrite (trunc_nat (INR n) n) by lra. apply Nat2Z.id.
Qed.
Lemma analytic_profile (dist : Type) height n_pts s (d : option dist) st plot h h' n m :
  plot = "surface"%string \/ plot = "mesh"%string -> turned s = false ->
  (gs s = None -> shp s = None -> forall e, ext s = Some e -> n_pts <> 0%nat /\ h = Rmin (fst e) (snd e) / INR n_pts /\ dummy e h = Ok (h', n, m) /\ npts (fst e) h = n /\ npts (snd e) h = m) ->
  (gs s = None <-> shp s = None) -> (gs s <> None -> gs s = Some h /\ h' = h /\ shp s = Some (n, m)) -> ext s <> None ->
  exists a, snd (show_analytic height n_pts s "profile" plot None d st) = Ok a /\
    plotted a n m (fun i => h * INR i) (fun j => h * INR j) (fun i j => Fin (height (h' * INR i) (h' * INR j))).
Proof.
  intros T Tn A B C' X. unfold show_analytic, around. destruct (ext s) as [e|] eqn:E; [|congruence].
  assert (Go : forall s1, turned s1 = false -> gs s1 = Some h -> shp s1 = Some (n, m) -> exists a, snd (show_one (with_profile s1 (Some (heights_on height h' n m))) "profile" plot None d st) = Ok a /\ plotted a n m (fun i => h * INR i) (fun j => h * INR j) (fun i j => Fin (height (h' * INR i) (h' * INR j)))).
  { intros s1 T1 G1 S1. destruct (c115_profile dist (with_profile s1 (Some (heights_on height h' n m))) (heights_on height h' n m) h d st plot) as ((a & P & _ & _ & _ & Q) & _); [|exact T|].
    - split; [|auto]. apply own_of. unfold own_profile. cbn. rewrite T1. reflexivity.
    - exists a. rewrite P. split; [reflexivity|exact Q]. }
  destruct (gs s) as [g|] eqn:G.
  - destruct C' as (G1 & -> & S1); [congruence|]. injection G1 as ->. rewrite S1. destruct (Go s) as (a & P & Q); auto. exists a. destruct (show_one _ _ _ _ _ _) as [s1 r]. cbn [snd] in *. auto.
  - rewrite (proj1 B eq_refl) in *. destruct (A eq_refl eq_refl e eq_refl) as (N0 & Hh & D & Nn & Mm). rewrite (proj2 (Nat.eqb_neq n_pts 0) N0). rewrite <- Hh, D, Nn, Mm.
    destruct (Go (with_spacing s (Some h) (Some (n, m)))) as (a & P & Q); [destruct s; exact Tn|destruct s; reflexivity|destruct s; reflexivity|]. exists a. destruct (show_one _ _ _ _ _ _) as [s1 r]. cbn [snd] in *. auto.
Qed.
(** C115: a surface or mesh plot of it has the heights of the surface over their points, for a grid that was set, and for as
    many points as asked for along the shorter side, if that is the first; the other side gets what fits. *)
Theorem c115_analytic (dist : Type) : forall height s (d : option dist) st plot, plot = "surface"%string \/ plot = "mesh"%string -> turned s = false ->
  (forall n_pts h n m, gs s = Some h -> shp s = Some (n, m) -> ext s <> None -> exists a, snd (show_analytic height n_pts s "profile" plot None d st) = Ok a /\
     plotted a n m (fun i => h * INR i) (fun j => h * INR j) (fun i j => Fin (height (h * INR i) (h * INR j)))) /\
  (forall n_pts e0 e1, gs s = None -> shp s = None -> ext s = Some (e0, e1) -> 0 < e0 <= e1 -> (0 < n_pts)%nat -> let h := e0 / INR n_pts in
     exists a m, snd (show_analytic height n_pts s "profile" plot None d st) = Ok a /\ h * INR m <= e1 < h * (INR m + 1) /\
     plotted a n_pts m (fun i => h * INR i) (fun j => h * INR j) (fun i j => Fin (height (h * INR i) (h * INR j)))).
Proof.
  intros height s d st plot T Tn. split.
  - intros n_pts h n m G Sh E. apply (analytic_profile dist height n_pts s d st plot h h n m T Tn); [congruence|rewrite G, Sh; split; discriminate|auto|exact E].
  - intros n_pts e0 e1 G Sh E B N h. assert (0 < INR n_pts) by (now apply lt_0_INR). assert (H0 : 0 < h) by (apply Rdiv_lt_0_compat; lra).
    destruct (analytic_profile dist height n_pts s d st plot h h n_pts (npts e1 h) T Tn) as (a & P & Q).
    + intros _ _ e Ee. rewrite E in Ee. injection Ee as <-. cbn [fst snd]. split; [lia|]. rewrite Rmin_left by lra. split; [reflexivity|]. assert (Ne : npts e0 h = n_pts) by (apply npts_own; [lra|exact N]). unfold dummy. cbn [fst snd]. rewrite (proj2 (Reqb_false h 0)) by lra. rewrite !Ne. rewrite (proj2 (Nat.eqb_neq n_pts 0)) by lia. repeat split.
    + rewrite G, Sh. tauto.
    + rewrite G. congruence.
    + congruence.
    + exists a, (npts e1 h). split; [exact P|]. split; [apply npts_bounds; lra|exact Q].
Qed.
Print Assumptions c115_analytic.
(** If the first side is the longer one and no multiple of the spacing, the heights shown are those of other points, further out. *)
Theorem c115_analytic_refuted (dist : Type) : forall height s (d : option dist) st plot n_pts e0 e1, plot = "surface"%string \/ plot = "mesh"%string -> turned s = false ->
  gs s = None -> shp s = None -> ext s = Some (e0, e1) -> 0 < e1 < e0 -> (0 < n_pts)%nat -> let h := e1 / INR n_pts in (forall k : nat, e0 <> h * INR k) ->
  exists a h' n, snd (show_analytic height n_pts s "profile" plot None d st) = Ok a /\ h < h' /\ (n_pts <= n)%nat /\
     plotted a n n_pts (fun i => h * INR i) (fun j => h * INR j) (fun i j => Fin (height (h' * INR i) (h' * INR j))).
Proof.
  intros height s d st plot n_pts e0 e1 T Tn G Sh E B N h Mu. assert (0 < INR n_pts) by (now apply lt_0_INR). assert (H0 : 0 < h) by (apply Rdiv_lt_0_compat; lra).
  assert (M1 : npts e1 h = n_pts) by (apply npts_own; [lra|exact N]). destruct (npts_bounds e0 h ltac:(lra) H0) as (B1 & B2).
  assert (EN : h * INR n_pts = e1) by (unfold h; field; lra).
  assert (LN : (n_pts <= npts e0 h)%nat). { apply INR_le. assert (h * INR n_pts < h * (INR (npts e0 h) + 1)) by lra. apply Rmult_lt_reg_l in H1; [|exact H0]. rewrite <- S_INR in H1. apply INR_lt in H1. apply le_INR. lia. }
  assert (PN : 0 < INR (npts e0 h)) by (apply lt_0_INR; lia).
  destruct (analytic_profile dist height n_pts s d st plot h (e0 / INR (npts e0 h)) (npts e0 h) n_pts T Tn) as (a & P & Q).
  + intros _ _ e Ee. rewrite E in Ee. injection Ee as <-. cbn [fst snd]. split; [lia|]. rewrite Rmin_right by lra. split; [reflexivity|]. split; [|split; [reflexivity|exact M1]]. unfold dummy. cbn [fst snd]. rewrite (proj2 (Reqb_false h 0)) by lra. rewrite (proj2 (Nat.eqb_neq (npts e0 h) 0)) by lia. rewrite M1. reflexivity.
  + rewrite G, Sh. tauto.
  + rewrite G. congruence.
  + congruence.
  + exists a, (e0 / INR (npts e0 h)), (npts e0 h). split; [exact P|]. split; [|split; [exact LN|exact Q]]. assert (h * INR (npts e0 h) < e0) by (destruct B1 as [?|X]; [assumption|exfalso; now apply (Mu (npts e0 h))]).
    apply (Rmult_lt_reg_r (INR (npts e0 h))); [exact PN|]. replace (e0 / INR (npts e0 h) * INR (npts e0 h)) with e0 by (field; lra). assumption.
Qed.
Print Assumptions c115_analytic_refuted.
(** The unworn profile of it can't be shown. *)
Theorem c115_unworn_refuted (dist : Type) : forall height n_pts s prop plot (d : option dist) st, unworn s = None -> turned s = false -> lower prop = "unworn_profile"%string -> In plot ["surface"; "mesh"; "image"; "default"]%string ->
  exists e, snd (show_analytic height n_pts s prop plot None d st) = Err e.
Proof.
  intros height n_pts s prop plot d st U Tn L I. unfold show_analytic, around.
  assert (Go : forall s1, unworn s1 = None -> exists e, snd (show_one s1 prop plot None d st) = Err e).
  { intros s1 U1. unfold show_one. rewrite L. destruct (own_profile s1) as [[p|]|]; try (eexists; reflexivity). destruct (gs s1) as [h|]; [|eexists; reflexivity]. cbn [mem types2d types1d existsb String.eqb Ascii.eqb Bool.eqb orb negb]. destruct (shp s1) as [[n m]|]; [|eexists; reflexivity].
    cbn [content_of String.eqb Ascii.eqb Bool.eqb]. rewrite U1. cbn [snd bind]. destruct I as [<-|[<-|[<-|[<-|[]]]]]; unfold draw2d; cbn [String.eqb Ascii.eqb Bool.eqb orb negb]; try (eexists; reflexivity);
    destruct (py_min (values_of m (fun i => h * INR i))), (py_max (values_of m (fun i => h * INR i))), (py_min (values_of n (fun i => h * INR i))), (py_max (values_of n (fun i => h * INR i))); eexists; reflexivity. }
  destruct (gs s) as [h|], (shp s) as [[n m]|]; destruct (ext s) as [e|]; try (eexists; reflexivity);
  try (match goal with |- context [Nat.eqb n_pts 0] => destruct (Nat.eqb n_pts 0); [eexists; reflexivity|]; destruct (dummy e _) as [[[h' n'] m']|]; [|eexists; reflexivity] end);
  match goal with |- context [show_one ?s1 prop plot None d st] => destruct (Go s1) as (er & Er); [destruct s; exact U|]; destruct (show_one s1 prop plot None d st) as [s2 r]; exists er; exact Er end.
Qed.
Print Assumptions c115_unworn_refuted.

(** ** The hypotheses are met *)
Definition bumps : grid := Grid 4 6 (fun i j => INR i - 2 * INR j).
Definition bumpy : surface := Surface (Some bumps) false (Some bumps) (Some (1/10)) (Some (4, 6)%nat) (Some (4/10, 6/10)) None None None.
Example c115_ready : ready bumpy bumps (1/10). Proof. split; [|split; reflexivity]. eexists. split; reflexivity. Qed.
Example c115_nine : exists s' l, show_all (dist := unit) bumpy ["Profile"; "qq"; "hist"; "profile"; "histogram"; "profile"; "qq"; "unworn_profile"; "PROFILE"]%string (Types ["mesh"; "default"]%string) = (s', Ok l) /\ length l = 9%nat.
Proof.
  destruct (show_all (dist := unit) bumpy ["Profile"; "qq"; "hist"; "profile"; "histogram"; "profile"; "qq"; "unworn_profile"; "PROFILE"]%string (Types ["mesh"; "default"]%string)) as [s' r] eqn:E. cbv -[Rmult Rdiv Rplus Rminus Ropp INR Rmax Rmin IZR Rlt_dec Rinv] in E. injection E as <- <-. do 2 eexists. split; reflexivity.
Qed.
Definition ball : surface := Surface None false None None None (Some (1, 2)) None None None.
Example c115_ball : held ball = None /\ (gs ball = None <-> shp ball = None) /\ turned ball = false /\ unworn ball = None. Proof. cbn. intuition discriminate. Qed.
Example c115_longer : exists s e0 e1, gs s = None /\ shp s = None /\ ext s = Some (e0, e1) /\ 0 < e1 < e0 /\ forall k : nat, e0 <> e1 / INR 2 * INR k.
Proof.
  exists (Surface None false None None None (Some (5/4, 1)) None None None), (5/4), 1. do 3 (split; [reflexivity|]). split; [lra|]. intros k E. assert (F : 2 * INR k = 5) by (cbn [INR] in E; lra).
  rewrite INR_IZR_INZ in F. assert (F2 : IZR (2 * Z.of_nat k) = IZR 5) by (rewrite mult_IZR; exact F). apply eq_IZR in F2. lia.
Qed.

(** The magnitudes in the plots of spectra are the lengths of the complex numbers. *)
Theorem c115_magnitude : forall z, 0 <= cabs z /\ cabs z * cabs z = fst z * fst z + snd z * snd z.
Proof. intros z. unfold cabs. split; [apply sqrt_pos|]. rewrite sqrt_sqrt; nra. Qed.
Print Assumptions c115_magnitude.

(** The places of up to nine plots: one row of up to three, two by two for four, and then rows of three. *)
Theorem c115_layout : map (fun n => (n_rows n, n_cols n)) [1; 2; 3; 4; 5; 6; 7; 8; 9]%nat =
  [(1, 1); (1, 2); (1, 3); (2, 2); (2, 3); (2, 3); (3, 3); (3, 3); (3, 3)]%nat.
Proof. reflexivity. Qed.
Print Assumptions c115_layout.
(** An unworn profile of another shape than the profile is refused, and so is an image of a surface without points. *)
Theorem c115_shape (dist : Type) : forall s p h (d : option dist) st, ready s p h ->
  (forall plot u, plot = "surface"%string \/ plot = "mesh"%string -> unworn s = Some u -> rows u <> rows p \/ cols u <> cols p ->
     show_one s "unworn_profile" plot None d st = (s, Err ValueError)) /\
  (forall plot, plot = "image"%string \/ plot = "default"%string -> rows p = 0%nat \/ cols p = 0%nat ->
     show_one s "profile" plot None d st = (s, Err ValueError)).
Proof.
  intros s p h d st Rd. split.
  - intros plot u T U N. rewrite (show_ready s p h) by (reflexivity || exact Rd). change (lower "unworn_profile") with "unworn_profile"%string. cbn [content_of String.eqb Ascii.eqb Bool.eqb bind]. rewrite U.
    assert (E : forall x, rows x = cols p -> cols x = rows p -> same_shape x (transpose (finite u)) = false).
    { intros x X Y. unfold same_shape. cbn [transpose finite frows fcols]. rewrite X, Y. destruct (Nat.eqb_spec (cols p) (cols u)); [|reflexivity].
      destruct (Nat.eqb_spec (rows p) (rows u)); [lia|reflexivity]. }
    destruct T as [-> | ->]; unfold draw2d; cbn [String.eqb Ascii.eqb Bool.eqb orb negb]; rewrite E by reflexivity; reflexivity.
  - intros plot T N. rewrite (show_ready s p h) by (reflexivity || exact Rd). change (lower "profile") with "profile"%string. cbn [content_of String.eqb Ascii.eqb Bool.eqb bind].
    destruct T as [-> | ->]; unfold draw2d; cbn [String.eqb Ascii.eqb Bool.eqb orb negb]; unfold values_of; destruct N as [N|N]; rewrite N.
    1, 3: destruct (cols p); reflexivity.
    all: reflexivity.
Qed.
Print Assumptions c115_shape.
