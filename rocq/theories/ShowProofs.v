(** Lemmas on plots. *)
From Coq Require Import Reals String Ascii List Bool Arith Lia Lra ZArith.
From Verif Require Import Py SurfaceModel SurfaceProofs ConvModel SpectraModel SpectraSpec SpectraProofs Flt ShowModel ShowSpec.
Import ListNotations.
Local Open Scope R_scope.

Lemma half_both n : (n / 2 + (n + 1) / 2 = n)%nat.
Proof. pose proof (Nat.div_mod n 2). pose proof (Nat.div_mod (n + 1) 2). pose proof (Nat.mod_upper_bound n 2). pose proof (Nat.mod_upper_bound (n + 1) 2). lia. Qed.
Lemma shifted_is n k : (k < n)%nat -> shifted n k = if Nat.ltb k (n / 2) then (k + (n + 1) / 2)%nat else (k - n / 2)%nat.
Proof.
  intros K. unfold shifted. pose proof (half_both n). destruct (Nat.ltb_spec k (n / 2)).
  - rewrite Nat.mod_small by lia. lia.
  - replace (k + (n - n / 2))%nat with ((k - n / 2) + 1 * n)%nat by lia. rewrite Nat.mod_add by lia. apply Nat.mod_small. lia.
Qed.
Lemma shifted_lt n k : (k < n)%nat -> (shifted n k < n)%nat.
Proof. intros K. unfold shifted. apply Nat.mod_upper_bound. lia. Qed.
Lemma shifted_onto n i : (i < n)%nat -> exists k, (k < n)%nat /\ shifted n k = i.
Proof.
  intros I. pose proof (half_both n). destruct (le_lt_dec ((n + 1) / 2) i) as [L|L].
  - exists (i - (n + 1) / 2)%nat. split; [lia|]. rewrite shifted_is by lia. destruct (Nat.ltb_spec (i - (n + 1) / 2) (n / 2)); lia.
  - exists (i + n / 2)%nat. split; [lia|]. rewrite shifted_is by lia. destruct (Nat.ltb_spec (i + n / 2) (n / 2)); lia.
Qed.
Lemma freq_is n d k : (k < n)%nat -> fftfreq n d k = frequency n d k.
Proof.
  intros K. unfold fftfreq, frequency. pose proof (half_both n). pose proof (Nat.div_mod (n + 1) 2). pose proof (Nat.mod_upper_bound (n + 1) 2).
  destruct (Nat.ltb_spec k ((n + 1) / 2)), (Nat.ltb_spec (2 * k) n); try lia; [reflexivity|]. rewrite minus_INR by lia. f_equal. ring.
Qed.
Lemma freq_zero n d : (0 < n)%nat -> frequency n d 0 = 0.
Proof. intros N. unfold frequency. rewrite (proj2 (Nat.ltb_lt (2 * 0) n)) by lia. cbn. unfold Rdiv. ring. Qed.
Lemma freq_nonzero n d k : 0 < d -> (0 < k < n)%nat -> frequency n d k <> 0.
Proof.
  intros D K. unfold frequency. assert (0 < INR n * d) by (apply Rmult_lt_0_compat; [apply lt_0_INR; lia|exact D]).
  destruct (Nat.ltb (2 * k) n).
  - apply Rgt_not_eq, Rdiv_lt_0_compat; [apply lt_0_INR; lia|assumption].
  - apply Rlt_not_eq. assert (0 < INR (n - k) / (INR n * d)) by (apply Rdiv_lt_0_compat; [apply lt_0_INR; lia|assumption]). unfold Rdiv in *. lra.
Qed.

(** ** Coordinates *)
Lemma fold_max_up n f : (forall i, (i < n)%nat -> f i <= f (S i)) -> fold_left Rmax (map f (seq 1 n)) (f 0%nat) = f n.
Proof.
  intros M. induction n as [|n IH]; [reflexivity|]. rewrite seq_S, map_app, fold_left_app, IH by (intros; apply M; lia). cbn. apply Rmax_right. apply M. lia.
Qed.
Lemma fold_min_up n f : (forall i, (i < n)%nat -> f 0%nat <= f (S i)) -> fold_left Rmin (map f (seq 1 n)) (f 0%nat) = f 0%nat.
Proof.
  intros M. induction n as [|n IH]; [reflexivity|]. rewrite seq_S, map_app, fold_left_app, IH by (intros; apply M; lia). cbn. apply Rmin_left. apply M. lia.
Qed.
Lemma max_line n f : (0 < n)%nat -> (forall i j, (i <= j)%nat -> f i <= f j) -> py_max (values_of n f) = Ok (f (n - 1)%nat).
Proof.
  intros N M. destruct n as [|n]; [lia|]. unfold values_of. cbn [seq map py_max]. rewrite fold_max_up by (intros; apply M; lia). do 2 f_equal. lia.
Qed.
Lemma min_line n f : (0 < n)%nat -> (forall i j, (i <= j)%nat -> f i <= f j) -> py_min (values_of n f) = Ok (f 0%nat).
Proof.
  intros N M. destruct n as [|n]; [lia|]. unfold values_of. cbn [seq map py_min]. rewrite fold_min_up by (intros; apply M; lia). reflexivity.
Qed.
Lemma line_up h : 0 <= h -> forall i j, (i <= j)%nat -> h * INR i <= h * INR j.
Proof. intros H i j L. apply Rmult_le_compat_l; [exact H|]. now apply le_INR. Qed.
Lemma centred_is n h : 0 <= h -> (0 < n)%nat -> centred n h = Ok (fun i => h * INR i - h * INR (n - 1) / 2).
Proof. intros H N. unfold centred. rewrite (max_line n (fun i => h * INR i)) by (auto using line_up). reflexivity. Qed.

(** ** What is drawn *)
Section Draw.
Context {dist : Type}.
Lemma plotted_meshes three (d : ShowModel.drawing dist) n m x y z xl yl zl : three = true -> (exists st, d = DWire (mesh_x n m x) (mesh_y n m y) (transpose z) st) \/ d = DSurface (mesh_x n m x) (mesh_y n m y) (transpose z) ->
  frows z = n -> fcols z = m -> plotted (Axis dist three d xl yl zl) n m x y (fat z).
Proof.
  intros T D F G. split; [exact T|]. intros px py pz. unfold corner. cbn [drawn].
  destruct D as [[st ->]| ->]; cbn [transpose mesh_x mesh_y frows fcols fat at_]; rewrite F, G; (split; [intros (j & i & J & I & P)|intros (i & j & I & J & P)]; [exists i, j|exists j, i]; tauto).
Qed.
Lemma plotted_shifted three n m x y z st xl yl zl : three = true -> frows z = n -> fcols z = m ->
  forall v, (forall i j, (i < n)%nat -> (j < m)%nat -> fat z i j = v (shifted n i) (shifted m j)) ->
  plotted (Axis dist three (DWire (gshift (mesh_x n m x)) (gshift (mesh_y n m y)) (transpose z) st) xl yl zl) n m x y v.
Proof.
  intros T F G v V. split; [exact T|]. intros px py pz. unfold corner. cbn [drawn]. cbn [transpose gshift mesh_x mesh_y frows fcols fat at_ rows cols]. rewrite F, G. split.
  - intros (j & i & J & I & -> & -> & ->). exists (shifted n i), (shifted m j). rewrite V by assumption. repeat split; apply shifted_lt || reflexivity; assumption.
  - intros (i & j & I & J & -> & -> & ->). destruct (shifted_onto n i I) as (i' & I' & <-). destruct (shifted_onto m j J) as (j' & J' & <-). exists j', i'. rewrite V by assumption. tauto.
Qed.

Lemma own_of s p : profile_of s p <-> own_profile s = Ok (Some p).
Proof.
  unfold profile_of, own_profile. split.
  - intros (g & -> & ->). destruct (turned s); reflexivity.
  - destruct (held s) as [g|], (turned s); intros E; try discriminate; injection E as <-; eauto.
Qed.
Lemma log_is x : np_log x = logarithm x.
Proof. unfold np_log, logarithm, Rltb. destruct (Rlt_dec 0 x); reflexivity. Qed.
Lemma show_ready s p h prop plot ax (d : option dist) st : ready s p h -> mem types2d (lower prop) = true ->
  show_one s prop plot ax d st =
    (let three := match ax with Some b => b | None => negb (String.eqb plot "image" || String.eqb plot "default") end in
     let '(s', r) := content_of (lower prop) s p h (rows p) (cols p) in
     (s', bind r (fun r => let '(c, x, y, labels) := r in draw2d three (lower prop) plot st c x y (rows p) (cols p) labels))).
Proof. intros (P & G & S') M. apply own_of in P. unfold show_one. rewrite P, G, S', M. cbn [orb negb]. reflexivity. Qed.
Lemma show_ready1 s p h prop plot ax (d : option dist) st : ready s p h -> mem types2d (lower prop) = false -> mem types1d (lower prop) = true ->
  show_one s prop plot ax d st = (s, draw1d (match ax with Some b => b | None => false end) (lower prop) d s p h (rows p) (cols p)).
Proof. intros (P & G & S') M N. apply own_of in P. unfold show_one. rewrite P, G, S', M, N. cbn [orb negb]. reflexivity. Qed.

Lemma same_refl s : same_but_spectra s s. Proof. destruct s. reflexivity. Qed.
Lemma content_keeps prop s p h n m : same_but_spectra s (fst (content_of prop s p h n m)).
Proof.
  assert (A : forall s, same_but_spectra s (fst (find_acf s p))) by (intros s0; unfold find_acf; destruct (_ && _); [reflexivity|apply same_refl]).
  assert (F : forall s, same_but_spectra s (match fft_kept s with None => find_fft s p | Some _ => s end)) by (intros s0; destruct (fft_kept s0); [apply same_refl|reflexivity]).
  unfold content_of. destruct (String.eqb prop "profile"); [apply same_refl|]. destruct (String.eqb prop "unworn_profile"); [apply same_refl|].
  destruct (String.eqb prop "fft2d"); [cbv zeta; destruct (fft_kept (match fft_kept s with None => _ | Some _ => _ end)); apply F|].
  destruct (String.eqb prop "psd").
  - destruct (psd_kept s); [apply same_refl|]. unfold find_psd. destruct (acf_kept s) as [a|].
    + reflexivity.
    + pose proof (A s) as K. destruct (find_acf s p) as [s1 [a|e]]; cbn [fst] in *; [|exact K]. rewrite K. reflexivity.
  - destruct (String.eqb prop "acf").
    + destruct (acf_kept s) as [a|]; [apply same_refl|]. pose proof (A s) as K. destruct (find_acf s p) as [s1 [a|e]]; exact K.
    + destruct (String.eqb prop "apsd"); [apply F|apply same_refl].
Qed.
Lemma show_keeps s prop plot ax (d : option dist) st : same_but_spectra s (fst (show_one s prop plot ax d st)).
Proof.
  unfold show_one. destruct (own_profile s) as [[p|]|]; try apply same_refl. destruct (gs s) as [h|] eqn:G; [|apply same_refl].
  destruct (negb _); [apply same_refl|]. destruct (shp s) as [[n m]|] eqn:S'; [|apply same_refl]. destruct (mem types2d (lower prop)); [|apply same_refl].
  pose proof (content_keeps (lower prop) s p h n m) as K. destruct (content_of (lower prop) s p h n m) as [s1 r]. exact K.
Qed.
End Draw.

(** ** Names *)
Lemma lower_idem s : lower (lower s) = lower s.
Proof.
  induction s as [|c s IH]; [reflexivity|]. cbn [lower]. rewrite IH. f_equal. clear. destruct c as [[] [] [] [] [] [] [] []]; reflexivity.
Qed.

(** ** Flattened arrays *)
Lemma flatten_length n m f : length (flatten n m f) = (n * m)%nat.
Proof.
  unfold flatten. enough (E : forall a, length (flat_map (fun i => map (f i) (seq 0 m)) (seq a n)) = (n * m)%nat) by apply E.
  induction n as [|n IH]; intros a; [reflexivity|]. cbn [seq flat_map]. rewrite app_length, map_length, seq_length, IH. reflexivity.
Qed.
Lemma flatten_nth n m f : forall i j, (i < n)%nat -> (j < m)%nat -> nth_error (flatten n m f) (i * m + j) = Some (f i j).
Proof.
  unfold flatten. enough (E : forall n a i j, (i < n)%nat -> (j < m)%nat -> nth_error (flat_map (fun i => map (f i) (seq 0 m)) (seq a n)) (i * m + j) = Some (f (a + i)%nat j)) by (intros i j I J; now rewrite E).
  clear. induction n as [|n IH]; intros a i j I J; [lia|]. cbn [seq flat_map]. destruct i as [|i].
  - rewrite nth_error_app1 by (rewrite map_length, seq_length; lia). cbn [Nat.mul Nat.add]. rewrite Nat.add_0_r. rewrite nth_error_map. rewrite (nth_error_nth' _ 0%nat) by (rewrite seq_length; lia). rewrite seq_nth by lia. reflexivity.
  - rewrite nth_error_app2 by (rewrite map_length, seq_length; lia). rewrite map_length, seq_length. replace (S i * m + j - m)%nat with (i * m + j)%nat by lia. rewrite IH by lia. do 2 f_equal. lia.
Qed.
Lemma py_max_some l : l <> [] -> exists r, py_max l = Ok r.
Proof. destruct l; [congruence|]. intros _. eexists. reflexivity. Qed.

Section Kinds.
Context {dist : Type}.
Lemma draw_surface prop st z x y n m l1 l2 l3 : frows z = n -> fcols z = m ->
  draw2d (dist := dist) true prop "surface" st (Heights z) x y n m [l1; l2; l3] = Ok (Axis dist true (DSurface (mesh_x n m x) (mesh_y n m y) (transpose z)) l1 l2 (Some l3)).
Proof. intros F G. unfold draw2d, same_shape. cbn -[Nat.eqb]. rewrite F, G, !Nat.eqb_refl. reflexivity. Qed.
Definition stride_of (st : option nat) : nat := match st with Some (S k) => S k | _ => 25 end.
Lemma draw_mesh prop st z x y n m l1 l2 l3 : frows z = n -> fcols z = m -> String.eqb prop "psd" = false -> String.eqb prop "fft2d" = false ->
  draw2d (dist := dist) true prop "mesh" st (Heights z) x y n m [l1; l2; l3] = Ok (Axis dist true (DWire (mesh_x n m x) (mesh_y n m y) (transpose z) (stride_of st)) l1 l2 (Some l3)).
Proof. intros F G A B. unfold draw2d, same_shape. rewrite A, B. cbn -[Nat.eqb]. rewrite F, G, !Nat.eqb_refl. reflexivity. Qed.
Lemma draw_mesh_shifted prop st z x y n m l1 l2 l3 : frows z = n -> fcols z = m -> prop = "psd"%string \/ prop = "fft2d"%string ->
  draw2d (dist := dist) true prop "mesh" st (Heights z) x y n m [l1; l2; l3] = Ok (Axis dist true (DWire (gshift (mesh_x n m x)) (gshift (mesh_y n m y)) (transpose z) (stride_of st)) l1 l2 (Some l3)).
Proof. intros F G A. destruct A as [-> | ->]; unfold draw2d, same_shape; cbn -[Nat.eqb]; rewrite F, G, !Nat.eqb_refl; reflexivity. Qed.
Lemma draw_image three prop plot st z x y n m l1 l2 l3 a b c e : plot = "image"%string \/ plot = "default"%string ->
  py_min (values_of m y) = Ok a -> py_max (values_of m y) = Ok b -> py_min (values_of n x) = Ok c -> py_max (values_of n x) = Ok e ->
  draw2d (dist := dist) three prop plot st (Heights z) x y n m [l1; l2; l3] = Ok (Axis dist three (DImage z a b c e) l1 l2 None).
Proof. intros P A B C' E. destruct P as [-> | ->]; unfold draw2d; rewrite A, B, C', E; reflexivity. Qed.
(** Both kinds of plots at once *)
Lemma draw_both prop plot st z x y n m l1 l2 l3 : frows z = n -> fcols z = m -> String.eqb prop "psd" = false -> String.eqb prop "fft2d" = false ->
  plot = "surface"%string \/ plot = "mesh"%string ->
  exists a, draw2d (dist := dist) (negb (String.eqb plot "image" || String.eqb plot "default")) prop plot st (Heights z) x y n m [l1; l2; l3] = Ok a /\
    xlabel a = l1 /\ ylabel a = l2 /\ zlabel a = Some l3 /\ (plot = "mesh"%string -> exists u v w, drawn a = DWire u v w (stride_of st)) /\ plotted a n m x y (fat z).
Proof.
  intros F G A B [-> | ->]; eexists.
  - split; [now apply draw_surface|]. do 3 (split; [reflexivity|]). split; [discriminate|]. apply plotted_meshes; auto.
  - split; [now apply draw_mesh|]. do 3 (split; [reflexivity|]). split; [cbn; eauto|]. apply plotted_meshes; eauto.
Qed.
End Kinds.
