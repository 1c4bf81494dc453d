(** C34 and C35: displacements are the superposition of point load responses. *)
From Coq Require Import String List Bool Arith ZArith Reals Lia Lra.
From Verif Require Import Py SurfaceModel ConvModel ConvSpec ConvProofs.
Import ListNotations.
Local Open Scope R_scope.

(** For every grid and every span, with or without periodic axes and with both libraries: the
    planned function returns at each point the sum over all loaded points of load times the
    coefficient of the index difference. [fast] is the transform size for at least the given
    number of points. *)
Theorem c34_planned : forall cuda fast nl0 nl1 im p0 p1,
  (forall q, (q <= fast q)%nat) -> (p0 = true -> rows im = nl0) -> (p1 = true -> cols im = nl1) ->
  exists f, plan_convolve cuda fast nl0 nl1 im None (Flags [p0; p1]) = Ok f /\
  forall loads, rows loads = nl0 -> cols loads = nl1 ->
  exists u, run_full f (Full loads) = Ok (Full u) /\ rows u = nl0 /\ cols u = nl1 /\
    forall i j, (i < nl0)%nat -> (j < nl1)%nat -> at_ u i j = superposed p0 p1 im loads i j.
Proof.
  intros cuda fast nl0 nl1 im p0 p1 F P0 P1.
  assert (S0 : exists m, axis_size fast p0 nl0 (rows im) = Ok m).
  { unfold axis_size. destruct p0; [rewrite (P0 eq_refl), Nat.eqb_refl|]; eexists; reflexivity. }
  assert (S1 : exists n, axis_size fast p1 nl1 (cols im) = Ok n).
  { unfold axis_size. destruct p1; [rewrite (P1 eq_refl), Nat.eqb_refl|]; eexists; reflexivity. }
  destruct S0 as [m E0], S1 as [n E1]. unfold plan_convolve. cbn [both bind]. rewrite E0, E1. cbn [bind].
  eexists. split; [reflexivity|]. intros loads <- <-. cbn [run_full]. rewrite !Nat.eqb_refl. cbn [andb].
  eexists. split; [reflexivity|]. split; [destruct cuda; reflexivity|]. split; [destruct cuda; reflexivity|].
  intros i j Hi Hj.
  replace ((if cuda then apply_cuda m n im else apply_fftw m n im) loads)
    with (if cuda then apply_cuda m n im loads else apply_fftw m n im loads) by (destruct cuda; reflexivity).
  apply (apply_spec cuda fast); assumption.
Qed.
Print Assumptions c34_planned.

(** Non periodic: no wrap around, for every grid shape and every span. *)
Theorem c34_non_periodic : forall cuda fast nl0 nl1 im,
  (forall q, (q <= fast q)%nat) ->
  exists f, plan_convolve cuda fast nl0 nl1 im None (Flag false) = Ok f /\
  forall loads, rows loads = nl0 -> cols loads = nl1 ->
  exists u, run_full f (Full loads) = Ok (Full u) /\ rows u = nl0 /\ cols u = nl1 /\
    forall i j, (i < nl0)%nat -> (j < nl1)%nat ->
      at_ u i j = total2 nl0 nl1 (fun i' j' =>
        at_ loads i' j' * coeff im (Z.of_nat i - Z.of_nat i') (Z.of_nat j - Z.of_nat j')).
Proof.
  intros cuda fast nl0 nl1 im F. destruct (c34_planned cuda fast nl0 nl1 im false false F) as (f & P & Q); try discriminate.
  exists f. split; [exact P|]. intros loads E0 E1. destruct (Q loads E0 E1) as (u & U & U0 & U1 & V).
  exists u. split; [exact U|]. split; [exact U0|]. split; [exact U1|]. intros i j Hi Hj. rewrite V by assumption.
  unfold superposed, difference. rewrite E0, E1. reflexivity.
Qed.
Print Assumptions c34_non_periodic.

(** One loaded point: its load times the influence matrix centred at that point. *)
Theorem c34_point_load : forall cuda fast nl0 nl1 im a b x f loads,
  (forall q, (q <= fast q)%nat) -> plan_convolve cuda fast nl0 nl1 im None (Flag false) = Ok f ->
  rows loads = nl0 -> cols loads = nl1 -> (a < nl0)%nat -> (b < nl1)%nat ->
  at_ loads a b = x -> (forall i j, (i, j) <> (a, b) -> at_ loads i j = 0) ->
  exists u, run_full f (Full loads) = Ok (Full u) /\ forall i j, (i < nl0)%nat -> (j < nl1)%nat ->
    at_ u i j = x * coeff im (Z.of_nat i - Z.of_nat a) (Z.of_nat j - Z.of_nat b).
Proof.
  intros cuda fast nl0 nl1 im a b x f loads F P E0 E1 Ha Hb Hx Hz.
  destruct (c34_non_periodic cuda fast nl0 nl1 im F) as (f' & P' & Q). rewrite P in P'. injection P' as <-.
  destruct (Q loads E0 E1) as (u & U & _ & _ & V). exists u. split; [exact U|]. intros i j Hi Hj. rewrite V by assumption.
  unfold total2. rewrite (total_single nl0 a); [|exact Ha|].
  - rewrite (total_single nl1 b); [rewrite Hx; reflexivity|exact Hb|].
    intros j' _ N. rewrite Hz by congruence. ring.
  - intros i' _ N. rewrite <- (total_zero nl1). apply total_ext. intros j' _. rewrite Hz by congruence. ring.
Qed.
Print Assumptions c34_point_load.

(** Restricting to a domain equals zero filling outside of the domain and selecting inside of
    it; with ignore_domain the whole array is returned. *)
Theorem c34_domain : forall cuda fast nl0 nl1 im d p0 p1 v,
  (forall q, (q <= fast q)%nat) -> (p0 = true -> rows im = nl0) -> (p1 = true -> cols im = nl1) ->
  List.length v = domain_size nl0 nl1 d ->
  exists f loads u, plan_convolve cuda fast nl0 nl1 im (Some d) (Flags [p0; p1]) = Ok f /\
    rows loads = nl0 /\ cols loads = nl1 /\ inside d loads = v /\
    (forall i j, d i j = false -> at_ loads i j = 0) /\
    run_domain f v true = Ok (Full u) /\ run_domain f v false = Ok (Flat (inside d u)) /\
    rows u = nl0 /\ cols u = nl1 /\
    forall i j, (i < nl0)%nat -> (j < nl1)%nat -> at_ u i j = superposed p0 p1 im loads i j.
Proof.
  intros cuda fast nl0 nl1 im d p0 p1 v F P0 P1 L.
  assert (S0 : exists m, axis_size fast p0 nl0 (rows im) = Ok m).
  { unfold axis_size. destruct p0; [rewrite (P0 eq_refl), Nat.eqb_refl|]; eexists; reflexivity. }
  assert (S1 : exists n, axis_size fast p1 nl1 (cols im) = Ok n).
  { unfold axis_size. destruct p1; [rewrite (P1 eq_refl), Nat.eqb_refl|]; eexists; reflexivity. }
  destruct S0 as [m E0], S1 as [n E1]. unfold plan_convolve. cbn [both bind]. rewrite E0, E1. cbn [bind].
  destruct (fill_spec nl0 nl1 d v L) as (g & G & <- & <- & I & Z).
  set (u := (if cuda then apply_cuda m n im else apply_fftw m n im) g).
  eexists; exists g, u. split; [reflexivity|]. cbn [run_domain]. rewrite G. cbn [bind].
  split; [reflexivity|]. split; [reflexivity|]. split; [exact I|]. split; [exact Z|].
  split; [reflexivity|]. split; [reflexivity|]. split; [subst u; destruct cuda; reflexivity|].
  split; [subst u; destruct cuda; reflexivity|]. intros i j Hi Hj. unfold u.
  replace ((if cuda then apply_cuda m n im else apply_fftw m n im) g)
    with (if cuda then apply_cuda m n im g else apply_fftw m n im g) by (destruct cuda; reflexivity).
  apply (apply_spec cuda fast); assumption.
Qed.
Print Assumptions c34_domain.

(** Loads of several directions: the displacement of each direction is the sum of the
    responses to the components of this direction. *)
Theorem c34_several_directions : forall loads comps m n,
  (exists d, get loads d <> None) ->
  (forall d g, get loads d = Some g -> rows g = m /\ cols g = n) ->
  (forall c, In c comps -> get loads (snd (fst c)) <> None) ->
  exists u, solve_im_loading loads comps = Ok u /\ forall d, rows (u d) = m /\ cols (u d) = n /\
    forall i j, (i < m)%nat -> (j < n)%nat ->
      at_ (u d) i j = fold_right (fun c acc =>
        match c with (dis, ld, im) =>
          (if dir_eqb d dis then match get loads ld with Some g => superposed false false im g i j | None => 0 end else 0) + acc
        end) 0 comps.
Proof.
  intros loads comps m n [d0 D] S H.
  assert (E : first_shape loads = Ok (m, n)).
  { unfold first_shape. pose proof (S Dx) as X. pose proof (S Dy) as Y. pose proof (S Dz) as Z. cbn [get] in *.
    destruct (vx loads) as [g|] eqn:Ex; [destruct (X g eq_refl); subst; reflexivity|].
    destruct (vy loads) as [g|] eqn:Ey; [destruct (Y g eq_refl); subst; reflexivity|].
    destruct (vz loads) as [g|] eqn:Ez; [destruct (Z g eq_refl); subst; reflexivity|].
    exfalso. apply D. destruct d0; assumption. }
  unfold solve_im_loading. rewrite E. cbn [bind].
  destruct (solve_im_spec loads m n comps (fun _ => Grid m n (fun _ _ => 0)) S H) as (u & U & V); [split; reflexivity|].
  exists u. split; [exact U|]. intros d. destruct (V d) as (V0 & V1 & V2). split; [exact V0|]. split; [exact V1|].
  intros i j Hi Hj. rewrite V2 by assumption. cbn [at_]. unfold responses. lra.
Qed.
Print Assumptions c34_several_directions.

(** A component of a direction without loads is an error. *)
Theorem c34_missing_load : forall loads comps c,
  In c comps -> get loads (snd (fst c)) = None -> solve_im_loading loads comps = Err ValueError \/
  solve_im_loading loads comps = Err IndexError.
Proof.
  intros loads comps c Hc Hn. unfold solve_im_loading.
  destruct (first_shape loads) as [[m n]|e] eqn:E.
  - left. cbn [bind]. generalize (fun _ : dirn => Grid m n (fun _ _ => 0)) as acc.
    induction comps as [|[[dis ld] im] l IH]; intros acc; [contradiction|]. cbn [solve_im].
    destruct Hc as [<-|Hc]; [cbn [fst snd] in Hn; rewrite Hn; reflexivity|].
    destruct (get loads ld); [|reflexivity]. destruct (_ && _); [|reflexivity]. apply IH. exact Hc.
  - right. unfold first_shape in E. destruct (vx loads), (vy loads), (vz loads); try discriminate. injection E as <-. reflexivity.
Qed.
Print Assumptions c34_missing_load.

(** The transform sizes used with CUDA are large enough. *)
Theorem c34_cuda_sizes : forall q, (q <= n_pow_2 q)%nat.
Proof.
  intros q. unfold n_pow_2. destruct (Nat.leb_spec q 1) as [H|H].
  - destruct q as [|[|q]]; cbn; lia.
  - apply Nat.log2_up_spec. exact H.
Qed.
Print Assumptions c34_cuda_sizes.

(** C35: periodic axes. *)
Theorem c35_periodic : forall cuda fast im,
  (forall q, (q <= fast q)%nat) ->
  exists f, plan_convolve cuda fast (rows im) (cols im) im None (Flag true) = Ok f /\
  forall loads, rows loads = rows im -> cols loads = cols im ->
  exists u, run_full f (Full loads) = Ok (Full u) /\ rows u = rows im /\ cols u = cols im /\
    forall i j, (i < rows im)%nat -> (j < cols im)%nat ->
      at_ u i j = total2 (rows im) (cols im) (fun i' j' =>
        at_ loads i' j' * coeff im (wrap (rows im) (Z.of_nat i - Z.of_nat i')) (wrap (cols im) (Z.of_nat j - Z.of_nat j'))).
Proof.
  intros cuda fast im F. destruct (c34_planned cuda fast (rows im) (cols im) im true true F) as (f & P & Q); try reflexivity.
  exists f. split; [exact P|]. intros loads E0 E1. destruct (Q loads E0 E1) as (u & U & U0 & U1 & V).
  exists u. split; [exact U|]. split; [exact U0|]. split; [exact U1|]. intros i j Hi Hj. rewrite V by assumption.
  unfold superposed, difference. rewrite E0, E1. reflexivity.
Qed.
Print Assumptions c35_periodic.

(** The index difference that counts is the one modulo the grid in the span of the matrix. *)
Theorem c35_wrap : forall n d, (0 < n)%nat ->
  (exists k, wrap n d = d + k * Z.of_nat n)%Z /\
  (- Z.of_nat ((n - 1) / 2) <= wrap n d < Z.of_nat n - Z.of_nat ((n - 1) / 2))%Z /\
  forall d', (exists k, d' = d + k * Z.of_nat n)%Z ->
    (- Z.of_nat ((n - 1) / 2) <= d' < Z.of_nat n - Z.of_nat ((n - 1) / 2))%Z -> d' = wrap n d.
Proof.
  intros n d Hn. unfold wrap. set (s := Z.of_nat ((n - 1) / 2)). clearbody s.
  pose proof (Z.mod_pos_bound (d + s) (Z.of_nat n) ltac:(lia)). pose proof (Z.div_mod (d + s) (Z.of_nat n) ltac:(lia)).
  split; [exists (- ((d + s) / Z.of_nat n))%Z; lia|]. split; [lia|].
  intros d' [k ->] B. replace (d + s)%Z with (d + k * Z.of_nat n + s + (- k) * Z.of_nat n)%Z by lia.
  rewrite Z.mod_add, Z.mod_small by lia. lia.
Qed.
Print Assumptions c35_wrap.

(** Shifting the loads cyclically shifts the displacements. *)
Theorem c35_shift : forall cuda fast im f loads a b,
  (forall q, (q <= fast q)%nat) -> plan_convolve cuda fast (rows im) (cols im) im None (Flag true) = Ok f ->
  rows loads = rows im -> cols loads = cols im ->
  exists u v, run_full f (Full loads) = Ok (Full u) /\ run_full f (Full (shifted loads a b)) = Ok (Full v) /\
    forall i j, (i < rows im)%nat -> (j < cols im)%nat -> at_ v i j = at_ (shifted u a b) i j.
Proof.
  intros cuda fast im f loads a b F P E0 E1.
  destruct (c35_periodic cuda fast im F) as (f' & P' & Q). rewrite P in P'. injection P' as <-.
  destruct (Q loads E0 E1) as (u & U & U0 & U1 & V). destruct (Q (shifted loads a b) E0 E1) as (v & W & W0 & W1 & X).
  exists u, v. split; [exact U|]. split; [exact W|]. intros i j Hi Hj. rewrite X by assumption.
  unfold shifted at 2. cbn [at_]. rewrite U0, U1.
  fold (zmod (rows im) (Z.of_nat i - a)) (zmod (cols im) (Z.of_nat j - b)).
  rewrite V by (apply zmod_lt; lia). unfold total2, shifted. cbn [at_]. rewrite E0, E1.
  set (m := rows im) in *. set (n := cols im) in *.
  set (F' i' j' := at_ loads i' j' * coeff im (wrap m (Z.of_nat (zmod m (Z.of_nat i - a)) - Z.of_nat i'))
    (wrap n (Z.of_nat (zmod n (Z.of_nat j - b)) - Z.of_nat j'))).
  transitivity (total m (fun i' => total n (F' i'))); [|reflexivity].
  rewrite <- (total_shift m (fun i' => total n (F' i')) a) by lia. apply total_ext. intros i' Hi'. cbn beta.
  rewrite <- (total_shift n (F' (zmod m (Z.of_nat i' - a))) b) by lia. apply total_ext. intros j' Hj'. unfold F', zmod.
  f_equal.
  assert (Wc : forall q x y k, (0 < q)%nat -> (x = y + k * Z.of_nat q)%Z -> wrap q x = wrap q y).
  { intros q x y k Hq ->. unfold wrap.
    replace (y + k * Z.of_nat q + Z.of_nat ((q - 1) / 2))%Z with (y + Z.of_nat ((q - 1) / 2) + k * Z.of_nat q)%Z by lia.
    rewrite Z.mod_add by lia. reflexivity. }
  fold (zmod m (Z.of_nat i - a)) (zmod m (Z.of_nat i' - a)) (zmod n (Z.of_nat j - b)) (zmod n (Z.of_nat j' - b)).
  destruct (zmod_spec m (Z.of_nat i - a) ltac:(lia)) as [k1 K1]. destruct (zmod_spec m (Z.of_nat i' - a) ltac:(lia)) as [k2 K2].
  destruct (zmod_spec n (Z.of_nat j - b) ltac:(lia)) as [k3 K3]. destruct (zmod_spec n (Z.of_nat j' - b) ltac:(lia)) as [k4 K4].
  rewrite (Wc m _ (Z.of_nat (zmod m (Z.of_nat i - a)) - Z.of_nat (zmod m (Z.of_nat i' - a)))%Z (k2 - k1)%Z) by lia.
  rewrite (Wc n _ (Z.of_nat (zmod n (Z.of_nat j - b)) - Z.of_nat (zmod n (Z.of_nat j' - b)))%Z (k4 - k3)%Z) by lia.
  reflexivity.
Qed.
Print Assumptions c35_shift.

(** A periodic axis needs loads and influence matrix of the same size, and circular two
    entries. *)
Theorem c35_checks : forall cuda fast nl0 nl1 im d,
  (rows im <> nl0 -> plan_convolve cuda fast nl0 nl1 im d (Flag true) = Err AssertionError) /\
  (cols im <> nl1 -> plan_convolve cuda fast nl0 nl1 im d (Flag true) = Err AssertionError) /\
  forall l, List.length l <> 2%nat -> plan_convolve cuda fast nl0 nl1 im d (Flags l) = Err ValueError.
Proof.
  intros cuda fast nl0 nl1 im d. split; [|split].
  - intros H. unfold plan_convolve, axis_size. cbn [both bind]. destruct (Nat.eqb_spec nl0 (rows im)); [congruence|reflexivity].
  - intros H. unfold plan_convolve, axis_size. cbn [both bind]. destruct (Nat.eqb nl0 (rows im)); [|reflexivity].
    cbn [bind]. destruct (Nat.eqb_spec nl1 (cols im)); [congruence|reflexivity].
  - intros l H. destruct l as [|x [|y [|z l]]]; try reflexivity. cbn in H. congruence.
Qed.
Print Assumptions c35_checks.

(** A concrete case: a 3 by 2 grid, a 4 by 3 influence matrix, one load. *)
Example c34_case : let im := Grid 4 3 (fun i j => INR (3 * i + j)) in
  let loads := Grid 3 2 (fun i j => if Nat.eqb i 2 && Nat.eqb j 0 then 2 else 0) in
  superposed false false im loads 0 1 = 0 /\ superposed false false im loads 1 1 = 4 /\
  superposed false false im loads 2 0 = 8.
Proof.
  cbn zeta. unfold superposed, total2, coeff, difference. cbn [total rows cols at_ Nat.eqb andb].
  repeat split; cbn; unfold Pos.to_nat; cbn; lra.
Qed.
Example c35_case : let im := Grid 3 2 (fun i j => INR (2 * i + j)) in
  let loads := Grid 3 2 (fun i j => if Nat.eqb i 2 && Nat.eqb j 1 then 2 else 0) in
  superposed true true im loads 0 0 = 10 /\ superposed true true im loads 1 1 = 0.
Proof.
  cbn zeta. unfold superposed, total2, coeff, difference, wrap. cbn [total rows cols at_ Nat.eqb andb].
  repeat split; cbn; unfold Pos.to_nat; cbn; lra.
Qed.
Example c34_domain_case : domain_size 3 2 (fun i j => Nat.eqb i j) = 2%nat.
Proof. reflexivity. Qed.
