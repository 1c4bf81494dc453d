From Coq Require Import List Bool Arith ZArith Reals Lia Lra.
From Verif Require Import SurfaceModel SurfaceProofs Flt SolverModel SolverSpec.
Import ListNotations.
Local Open Scope R_scope.

Lemma Rleb_true : forall x y, Rleb x y = true <-> x <= y.
Proof. intros. unfold Rleb. destruct (Rle_dec x y); split; intros; congruence || lra. Qed.
Lemma Rleb_false : forall x y, Rleb x y = false <-> y < x.
Proof. intros. unfold Rleb. destruct (Rle_dec x y); split; intros; congruence || lra. Qed.
Lemma small_pos : 0 < small.
Proof. unfold small. apply Rinv_0_lt_compat, pow_lt. lra. Qed.

(** ** Floats *)
Lemma fadd_fin : forall a b x, fadd a b = Fin x -> exists y z, a = Fin y /\ b = Fin z /\ x = y + z.
Proof. intros [y| | |] [z| | |] x H; cbn in H; try discriminate. injection H as <-. eauto. Qed.
Lemma fmul_fin : forall a b x, fmul a b = Fin x -> exists y z, a = Fin y /\ b = Fin z /\ x = y * z.
Proof.
  intros [y| | |] [z| | |] x H; cbn in H; unfold signed_inf in H;
    repeat match type of H with context [if ?c then _ else _] => destruct c end; try discriminate.
  injection H as <-. eauto.
Qed.
Lemma fneg_fin : forall a x, fneg a = Fin x -> a = Fin (- x).
Proof. intros [y| | |] x H; cbn in H; try discriminate. injection H as <-. f_equal. ring. Qed.
Lemma fadd_nan_l : forall b, fadd NaN b = NaN. Proof. intros []; reflexivity. Qed.
Lemma fadd_nan_r : forall a, fadd a NaN = NaN. Proof. intros []; reflexivity. Qed.
Lemma fmul_nan_l : forall b, fmul NaN b = NaN. Proof. intros []; reflexivity. Qed.
Lemma fmul_nan_r : forall a, fmul a NaN = NaN. Proof. intros []; reflexivity. Qed.
Lemma fdiv_nan_l : forall b, fdiv NaN b = NaN. Proof. intros []; reflexivity. Qed.
Lemma fdiv_nan_r : forall a, fdiv a NaN = NaN. Proof. intros []; reflexivity. Qed.
Lemma fltb_nan_l : forall b, fltb NaN b = false. Proof. intros []; reflexivity. Qed.
Lemma fltb_nan_r : forall b, fltb b NaN = false. Proof. intros []; reflexivity. Qed.
Lemma fleb_nan_l : forall b, fleb NaN b = false. Proof. intros []; reflexivity. Qed.
Lemma fleb_nan_r : forall b, fleb b NaN = false. Proof. intros []; reflexivity. Qed.

Lemma dot_nan : forall n a b i, (i < n)%nat -> fmul (a i) (b i) = NaN -> dot n a b = NaN.
Proof.
  induction n; intros a b i H E; [lia|]. cbn [dot]. destruct (Nat.eq_dec i n) as [->|Hn].
  - rewrite E. apply fadd_nan_r.
  - rewrite (IHn a b i) by (lia || assumption). apply fadd_nan_l.
Qed.
Lemma dot_ext : forall n a b a' b', (forall i, (i < n)%nat -> a i = a' i) -> (forall i, (i < n)%nat -> b i = b' i) ->
  dot n a b = dot n a' b'.
Proof.
  induction n; intros a b a' b' H K; [reflexivity|]. cbn [dot]. rewrite (IHn a b a' b') by (intros; apply H || apply K; lia).
  rewrite H, K by lia. reflexivity.
Qed.
Lemma dot_numbers : forall n a b x y, numbers n a x -> numbers n b y -> dot n a b = Fin (sum n (fun i => x i * y i)).
Proof.
  induction n; intros a b x y H K; [reflexivity|]. cbn [dot sum]. rewrite (IHn a b x y), H, K by (try lia; intros i Hi; apply H || apply K; lia).
  reflexivity.
Qed.
(** A finite product sum has finite products. *)
Lemma dot_fin : forall n a b x, dot n a b = Fin x -> forall i, (i < n)%nat -> exists u v, a i = Fin u /\ b i = Fin v.
Proof.
  induction n; intros a b x H i Hi; [lia|]. cbn [dot] in H. destruct (fadd_fin _ _ _ H) as (y & z & D & M & _).
  destruct (Nat.eq_dec i n) as [->|Hn].
  - destruct (fmul_fin _ _ _ M) as (u & v & U & V & _). eauto.
  - apply (IHn a b y D). lia.
Qed.
Lemma sum_ext : forall n f g, (forall i, (i < n)%nat -> f i = g i) -> sum n f = sum n g.
Proof. induction n; intros f g H; [reflexivity|]. cbn. rewrite (IHn f g), (H n) by (try lia; intros; apply H; lia). reflexivity. Qed.
Lemma sum_squares_pos : forall n f, 0 <= sum n (fun i => f i * f i).
Proof. induction n; intros f; cbn; [lra|]. specialize (IHn f). nra. Qed.
Lemma norm_numbers : forall n a x, numbers n a x -> norm n a = Fin (length2 n x).
Proof.
  intros n a x H. unfold norm. rewrite (dot_numbers n a a x x H H). cbn [fsqrt].
  destruct (Rltb _ _) eqn:E; [|reflexivity]. apply Rltb_true in E. pose proof (sum_squares_pos n x). lra.
Qed.
(** The square length of a vector is finite, infinite when an entry is and no other is not a number. *)
Lemma dot_self : forall n a, (exists x, dot n a a = Fin x /\ 0 <= x) \/ dot n a a = PInf \/ dot n a a = NaN.
Proof.
  induction n; intros a; [left; exists 0; split; [reflexivity|lra]|]. cbn [dot].
  assert (M : (exists x, fmul (a n) (a n) = Fin x /\ 0 <= x) \/ fmul (a n) (a n) = PInf \/ fmul (a n) (a n) = NaN)
    by (destruct (a n) as [x| | |]; cbn; eauto; left; exists (x * x); split; [reflexivity|nra]).
  destruct (IHn a) as [(x & E & X)|[E|E]], M as [(y & F & Y)|[F|F]]; rewrite E, F; cbn; eauto.
  left. exists (x + y). split; [reflexivity|lra].
Qed.
Lemma any_spec : forall n m, any n m = true <-> exists i, (i < n)%nat /\ m i = true.
Proof.
  induction n; intros m; cbn [any].
  - split; [discriminate|]. intros (i & H & _). lia.
  - rewrite orb_true_iff, IHn. split.
    + intros [(i & H & E)|E]; [exists i|exists n]; split; lia || assumption.
    + intros (i & H & E). destruct (Nat.eq_dec i n) as [->|]; [right; assumption|left; exists i; split; [lia|assumption]].
Qed.
Lemma any_none : forall n m, any n m = false -> forall i, (i < n)%nat -> m i = false.
Proof.
  intros n m H i Hi. destruct (m i) eqn:E; [|reflexivity]. assert (any n m = true) by (apply any_spec; eauto). congruence.
Qed.
(** Not below a tolerance unless all is finite. *)
Lemma fltb_upd : forall n x y tol c,
  fltb (fdiv (fdiv (norm n (fun i => fsub (x i) (y i))) c) (fdiv (norm n x) c)) tol = true ->
  forall i, (i < n)%nat -> exists u, x i = Fin u.
Proof.
  intros n x y tol c H i Hi.
  destruct (dot_self n x) as [(s & E & S)|[E|E]].
  - destruct (dot_fin n x x s E i Hi) as (u & v & U & _). eauto.
  - exfalso. revert H. unfold norm at 2. rewrite E. cbn [fsqrt].
    assert (N : norm n (fun i => fsub (x i) (y i)) = PInf \/ norm n (fun i => fsub (x i) (y i)) = NaN).
    { unfold norm. destruct (dot_self n (fun i => fsub (x i) (y i))) as [(d & D & _)|[D|D]]; rewrite D; cbn; auto.
      exfalso. assert (F : exists u, dot n x x = Fin u).
      { assert (exists u, numbers n x u) as (u & U).
        { exists (fun i => match x i with Fin r => r | _ => 0 end). intros k Hk.
          destruct (dot_fin n _ _ d D k Hk) as (a & _ & A & _). cbn beta in A.
          destruct (fadd_fin _ _ _ A) as (a1 & a2 & -> & _). reflexivity. }
        eexists. apply dot_numbers; exact U. }
      destruct F as (u & F). congruence. }
    destruct N as [N|N]; rewrite N; destruct c as [c| | |]; cbn; try discriminate; try (destruct (Rltb c 0)); cbn;
      destruct tol; discriminate.
  - exfalso. revert H. unfold norm at 2. rewrite E. cbn [fsqrt]. rewrite fdiv_nan_l, fdiv_nan_r, fltb_nan_l. discriminate.
Qed.

(** ** Bounded number of iterations *)
Section Loop.
Variables (n : nat) (f : vec -> vec) (b : vec) (tol : flt) (max_it : Z) (mp : vec) (k_inn : Z).
Let step := bccg_step n f b tol max_it mp k_inn.
Lemma step_it : forall s s', step s = inl s' -> it s' = (it s + 1)%Z /\ (it s' <= max_it)%Z.
Proof.
  intros s s' H. unfold step, bccg_step in H. cbv zeta in H.
  destruct (Z.eqb _ _) in H; [discriminate|]. destruct (Z.ltb max_it (it s + 1)) eqn:E in H; [discriminate|].
  match type of H with (if ?c then _ else _) = _ => destruct c; [discriminate|] end.
  injection H as <-. cbn [it]. split; [reflexivity|]. apply Z.ltb_ge in E. exact E.
Qed.
Lemma loop_stops : forall fuel s, (1 <= fuel)%nat -> (max_it + 1 <= it s + Z.of_nat fuel)%Z ->
  exists res, forall more, bccg_loop (fuel + more) n f b tol max_it mp k_inn s = Some res.
Proof.
  induction fuel; intros s H K; [lia|]. cbn [bccg_loop Nat.add]. fold step.
  destruct (step s) as [s'|res] eqn:E; [|eauto]. destruct (step_it _ _ E) as [I M].
  apply IHfuel; lia.
Qed.
(** Induction over the states of a run. *)
Lemma loop_inv : forall (I : bcg -> Prop) (P : vec * bool -> Prop),
  (forall s s', I s -> step s = inl s' -> I s') -> (forall s r, I s -> step s = inr r -> P r) ->
  forall fuel s r, I s -> bccg_loop fuel n f b tol max_it mp k_inn s = Some r -> P r.
Proof.
  intros I P Hs Hr. induction fuel; intros s r H K; [discriminate|]. cbn [bccg_loop] in K. fold step in K.
  destruct (step s) as [s'|res] eqn:E; [eauto|]. injection K as <-. eauto.
Qed.
End Loop.

Tactic Notation "let1" hyp(H) ident(y) :=
  match type of H with (let x := ?a in @?b x) = ?r => pose (y := a); change (b y = r) in H; cbv beta in H end.

Section Step.
Variables (n : nat) (f : vec -> vec) (b : vec) (tol : flt) (max_it : Z) (mp : vec) (k_inn : Z).
Let step := bccg_step n f b tol max_it mp k_inn.
Let loop fuel := bccg_loop fuel n f b tol max_it mp k_inn.

(** The parts of one pass. *)
Record pass (s : bcg) (res : bcg + (vec * bool)) (r p q : vec) (alpha upd : flt) (x1 x2 : vec) (outer : bool)
    (prj_0 prj_max : nat -> bool) (g : vec) (m0 mm : nat -> bool) (changed : bool) (free : Z) : Prop := {
  pass_r : forall i, r i = if msk_0 s i || msk_max s i then Fin 0 else fneg (bg s i);
  pass_p : forall i, p i = if msk_0 s i || msk_max s i then Fin 0 else
      if (1 <? it s + 1)%Z then fadd (r i) (fmul (fmax (fdiv (fsub (dot n r r) (dot n r (br s))) (rho s)) (Fin 0)) (bp s i)) else r i;
  pass_q : forall i, q i = if (it_inn s + 1 <? k_inn)%Z then if msk_0 s i || msk_max s i then NaN else f p i else f p i;
  pass_alpha : alpha = fdiv (dot n r p) (dot n p q);
  pass_x1 : forall i, x1 i = if prj_0 i then Fin 0 else fadd (bx s i) (fmul alpha (p i));
  pass_upd : upd = fdiv (fdiv (norm n (fun i => fsub (fadd (bx s i) (fmul alpha (p i))) (bx s i))) (fsqrt (Fin (IZR (n_free s)))))
                        (fdiv (norm n (fun i => fadd (bx s i) (fmul alpha (p i)))) (fsqrt (Fin (IZR (n_free s)))));
  pass_outer : outer = (k_inn <=? it_inn s + 1)%Z || fltb upd tol;
  pass_prj_0 : forall i, prj_0 i = outer && fltb (fadd (bx s i) (fmul alpha (p i))) (Fin (- small));
  pass_prj_max : forall i, prj_max i = outer && fleb (fmul (mp i) (Fin (1 + small))) (x1 i);
  pass_x2 : forall i, x2 i = if prj_max i then mp i else x1 i;
  pass_g : g = if any n prj_0 || any n prj_max || (outer && (1 <? k_inn)%Z) then fun i => fsub (f x2 i) (b i)
               else fun i => fadd (bg s i) (fmul alpha (q i));
  pass_m0 : forall i, m0 i = msk_0 s i || prj_0 i;
  pass_mm : forall i, mm i = msk_max s i || prj_max i;
  pass_changed : changed = any n prj_0 || any n prj_max ||
      any n (fun i => outer && ((m0 i && fltb (g i) (Fin (- small))) || (mm i && fltb (Fin small) (g i))));
  pass_res : res = if (free =? 0)%Z then inr (x2, true) else if (max_it <? it s + 1)%Z then inr (x2, true) else
      if outer && negb changed && fltb upd tol then inr (x2, false) else
      inl (Bcg (it s + 1) (if outer then 0 else it_inn s + 1)%Z x2 g r p (dot n r r)
         (fun i => m0 i && negb (outer && ((m0 i && fltb (g i) (Fin (- small))) || (mm i && fltb (Fin small) (g i)))))
         (fun i => mm i && negb (outer && ((m0 i && fltb (g i) (Fin (- small))) || (mm i && fltb (Fin small) (g i))))) free);
  pass_free : changed = false -> free = n_free s
}.
Lemma step_pass : forall s, exists r p q alpha upd x1 x2 outer prj_0 prj_max g m0 mm changed free,
  pass s (step s) r p q alpha upd x1 x2 outer prj_0 prj_max g m0 mm changed free.
Proof.
  intros s. remember (step s) as res eqn:H. symmetry in H. cbv delta [step bccg_step] in H. cbv beta in H.
  let1 H it'. let1 H inn. let1 H bound. let1 H r. let1 H rho'. let1 H p. let1 H q. let1 H alpha. let1 H x. let1 H root_free. let1 H rms_xk. let1 H rms_upd. let1 H upd. let1 H outer. let1 H prj_0. let1 H x1. let1 H prj_max. let1 H x2. let1 H m0. let1 H mm. let1 H moved. let1 H g. let1 H rel. let1 H m0'. let1 H mm'. let1 H changed. let1 H free.
  exists r, p, q, alpha, upd, x1, x2, outer, prj_0, prj_max, g, m0, mm, changed, free.
  constructor; try reflexivity.
  - intros i. unfold p, put. change (msk_0 s i || msk_max s i) with (bound i). destruct (bound i); [reflexivity|].
    change (it s + 1)%Z with it'. destruct (1 <? it')%Z; reflexivity.
  - intros i. unfold q, put. change (it_inn s + 1)%Z with inn. destruct (inn <? k_inn)%Z; reflexivity.
  - symmetry. exact H.
  - intros E. unfold free. rewrite E. reflexivity.
Qed.

(** *** Every load is in the bounds after an outer iteration *)
Lemma projected_in_bounds : forall s res r p q alpha upd x1 x2 prj_0 prj_max g m0 mm changed free,
  pass s res r p q alpha upd x1 x2 true prj_0 prj_max g m0 mm changed free ->
  forall i, non_negative (mp i) -> in_bounds (x2 i) (mp i).
Proof.
  intros s res r p q alpha upd x1 x2 prj_0 prj_max g m0 mm changed free P i M. pose proof small_pos as SP.
  destruct P as [Pr Pp Pq Pa Px1 Pu Po P0 Pm Px2 Pg Pm0 Pmm Pc Pres Pfree]. rewrite Px2. specialize (Pm i). specialize (P0 i). specialize (Px1 i).
  cbn [andb] in *. destruct (prj_max i).
  - right. destruct (mp i) as [m| | |]; cbn in M |- *; try contradiction.
    + split; apply Rleb_true; nra.
    + split; [reflexivity|]. unfold signed_inf. destruct (Rltb 0 (1 + small)) eqn:E; [reflexivity|]. apply Rltb_false in E. lra.
  - rewrite Px1 in *. destruct (prj_0 i).
    + right. split; [cbn; apply Rleb_true; lra|]. destruct (mp i) as [m| | |]; cbn in M |- *; try contradiction.
      * apply Rleb_true. nra.
      * unfold signed_inf. destruct (Rltb 0 (1 + small)) eqn:E; [reflexivity|]. apply Rltb_false in E. lra.
    + set (v := fadd _ _) in *. clearbody v. destruct v as [v| | |]; [| | |left; reflexivity]; right.
      * cbn [fltb] in P0. symmetry in P0. apply Rltb_false in P0.
        split; [cbn; apply Rleb_true; lra|]. destruct (mp i) as [m| | |]; cbn in M, Pm |- *; try contradiction.
        -- symmetry in Pm. apply Rleb_false in Pm. apply Rleb_true. lra.
        -- unfold signed_inf. destruct (Rltb 0 (1 + small)) eqn:E; [reflexivity|]. apply Rltb_false in E. lra.
      * split; [reflexivity|]. destruct (mp i) as [m| | |]; cbn in M, Pm |- *; try contradiction; try discriminate.
        unfold signed_inf in *. destruct (Rltb 0 (1 + small)) eqn:E; [reflexivity|]. apply Rltb_false in E. lra.
      * discriminate.
Qed.

Lemma outer_true : forall s, (k_inn <= 1)%Z -> (0 <= it_inn s)%Z -> forall u, (k_inn <=? it_inn s + 1)%Z || u = true.
Proof. intros s K I u. apply orb_true_intro. left. apply Z.leb_le. lia. Qed.

Lemma loop_bounds : (k_inn <= 1)%Z -> forall fuel s v failed, (0 <= it_inn s)%Z -> loop fuel s = Some (v, failed) ->
  forall i, non_negative (mp i) -> in_bounds (v i) (mp i).
Proof.
  intros K fuel s v failed I H.
  pose (P := fun r : vec * bool => forall i, non_negative (mp i) -> in_bounds (fst r i) (mp i)).
  change (P (v, failed)). revert H.
  apply (loop_inv n f b tol max_it mp k_inn (fun s => (0 <= it_inn s)%Z)); [| |exact I]; clear s I.
  - intros s s' I E. fold step in E. destruct (step_pass s) as (r & p & q & alpha & upd & x1 & x2 & outer & prj_0 & prj_max & g & m0 & mm & changed & free & Q).
    rewrite E in Q. pose proof (pass_res _ _ _ _ _ _ _ _ _ _ _ _ _ _ _ _ _ Q) as R.
    repeat match type of R with _ = (if ?c then _ else _) => destruct c; [discriminate|] end.
    injection R as ->. cbn [it_inn]. destruct outer; lia.
  - intros s res I E. fold step in E. destruct (step_pass s) as (r & p & q & alpha & upd & x1 & x2 & outer & prj_0 & prj_max & g & m0 & mm & changed & free & Q).
    rewrite E in Q. pose proof (pass_res _ _ _ _ _ _ _ _ _ _ _ _ _ _ _ _ _ Q) as R.
    pose proof (pass_outer _ _ _ _ _ _ _ _ _ _ _ _ _ _ _ _ _ Q) as O. rewrite outer_true in O by assumption. subst outer.
    intros i M. assert (F : fst res = x2).
    { repeat match type of R with _ = (if ?c then _ else _) => destruct c end; try discriminate; injection R as ->; reflexivity. }
    rewrite F. eapply projected_in_bounds; eassumption.
Qed.

(** *** Not a number never goes away *)
Lemma nan_pass : forall s, (1 <= n)%nat -> (forall i, (i < n)%nat -> bx s i = NaN) ->
  match step s with
  | inl s' => forall i, (i < n)%nat -> bx s' i = NaN
  | inr (v, failed) => failed = true /\ forall i, (i < n)%nat -> v i = NaN
  end.
Proof.
  intros s N H. destruct (step_pass s) as (r & p & q & alpha & upd & x1 & x2 & outer & prj_0 & prj_max & g & m0 & mm & changed & free & Q).
  destruct Q as [Pr Pp Pq Pa Px1 Pu Po P0 Pm Px2 Pg Pm0 Pmm Pc Pres Pfree].
  assert (X0 : forall i, (i < n)%nat -> x1 i = NaN).
  { intros i Hi. rewrite Px1, P0, H by exact Hi. rewrite fadd_nan_l, fltb_nan_l, andb_false_r. reflexivity. }
  assert (X2 : forall i, (i < n)%nat -> x2 i = NaN).
  { intros i Hi. rewrite Px2, Pm, X0 by exact Hi. rewrite fleb_nan_r, andb_false_r. reflexivity. }
  assert (U : upd = NaN).
  { rewrite Pu. unfold norm at 2. rewrite (dot_nan n _ _ 0) by (lia || (rewrite H by lia; rewrite fadd_nan_l; reflexivity)).
    cbn [fsqrt]. rewrite fdiv_nan_l. apply fdiv_nan_r. }
  rewrite U, fltb_nan_l, andb_false_r in Pres. rewrite Pres.
  destruct (free =? 0)%Z; [split; [reflexivity|exact X2]|].
  destruct (max_it <? it s + 1)%Z; [split; [reflexivity|exact X2]|]. exact X2.
Qed.
Lemma nan_loop : forall fuel s v failed, (1 <= n)%nat -> (forall i, (i < n)%nat -> bx s i = NaN) ->
  loop fuel s = Some (v, failed) -> failed = true /\ forall i, (i < n)%nat -> v i = NaN.
Proof.
  intros fuel s v failed N H.
  pose (P := fun r : vec * bool => snd r = true /\ forall i, (i < n)%nat -> fst r i = NaN).
  change (loop fuel s = Some (v, failed) -> P (v, failed)).
  apply (loop_inv n f b tol max_it mp k_inn (fun s => forall i, (i < n)%nat -> bx s i = NaN)); [| |exact H]; clear s H.
  - intros s s' I E. fold step in E. pose proof (nan_pass s N I) as K. rewrite E in K. exact K.
  - intros s [v' f'] I E. fold step in E. pose proof (nan_pass s N I) as K. rewrite E in K. exact K.
Qed.
(** The step length is not a number: all loads are lost. *)
Lemma alpha_nan_loop : forall fuel s v failed, (1 <= n)%nat ->
  (forall r p q alpha upd x1 x2 outer prj_0 prj_max g m0 mm changed free,
     pass s (step s) r p q alpha upd x1 x2 outer prj_0 prj_max g m0 mm changed free -> alpha = NaN) ->
  loop fuel s = Some (v, failed) -> failed = true /\ forall i, (i < n)%nat -> v i = NaN.
Proof.
  intros [|fuel] s v failed N A H; [discriminate|]. unfold loop in H. cbn [bccg_loop] in H. fold step in H.
  destruct (step_pass s) as (r & p & q & alpha & upd & x1 & x2 & outer & prj_0 & prj_max & g & m0 & mm & changed & free & Q).
  pose proof (A _ _ _ _ _ _ _ _ _ _ _ _ _ _ _ Q) as ->.
  destruct Q as [Pr Pp Pq Pa Px1 Pu Po P0 Pm Px2 Pg Pm0 Pmm Pc Pres Pfree].
  assert (X0 : forall i, x1 i = NaN).
  { intros i. rewrite Px1, P0, fmul_nan_l, fadd_nan_r, fltb_nan_l, andb_false_r. reflexivity. }
  assert (X2 : forall i, x2 i = NaN).
  { intros i. rewrite Px2, Pm, X0, fleb_nan_r, andb_false_r. reflexivity. }
  assert (U : upd = NaN).
  { rewrite Pu. unfold norm at 2. rewrite (dot_nan n _ _ 0) by (lia || (rewrite fmul_nan_l, fadd_nan_r; reflexivity)).
    cbn [fsqrt]. rewrite fdiv_nan_l. apply fdiv_nan_r. }
  rewrite U, fltb_nan_l, andb_false_r in Pres. rewrite Pres in H.
  destruct (free =? 0)%Z; [injection H as <- <-; split; [reflexivity|intros; apply X2]|].
  destruct (max_it <? it s + 1)%Z; [injection H as <- <-; split; [reflexivity|intros; apply X2]|].
  eapply nan_loop; [exact N| |exact H]. intros; apply X2.
Qed.
End Step.

(** ** Sums *)
Lemma sum_zero : forall n, sum n (fun _ => 0) = 0.
Proof. induction n; cbn; lra. Qed.
Lemma sum_plus : forall n f g, sum n (fun i => f i + g i) = sum n f + sum n g.
Proof. induction n; intros; cbn; [lra|]. rewrite IHn. lra. Qed.
Lemma sum_mult : forall n c f, sum n (fun i => c * f i) = c * sum n f.
Proof. induction n; intros; cbn; [lra|]. rewrite IHn. lra. Qed.
Lemma times_line : forall n A x y c i, times n A (fun j => x j + c * y j) i = times n A x i + c * times n A y i.
Proof.
  intros. unfold times. rewrite <- sum_mult, <- sum_plus. apply sum_ext. intros. ring.
Qed.
Lemma times_ext : forall n A x y i, (forall j, (j < n)%nat -> x j = y j) -> times n A x i = times n A y i.
Proof. intros. apply sum_ext. intros. rewrite H by assumption. reflexivity. Qed.

(** ** A converged result satisfies the complementarity conditions *)
Section Converged.
Variables (n : nat) (f : vec -> vec) (b : vec) (tol : flt) (max_it : Z) (mp : vec) (k_inn : Z).
Variables (A : nat -> nat -> R) (bb : nat -> R).
Hypothesis HA : is_matrix n f A.
Hypothesis Hb : numbers n b bb.
Hypothesis Hm : forall i, (i < n)%nat -> non_negative (mp i).
Let step := bccg_step n f b tol max_it mp k_inn.

Record consistent (s : bcg) : Prop := {
  con_g : forall x, numbers n (bx s) x -> numbers n (bg s) (fun i => times n A x i - bb i);
  con_0 : forall i, (i < n)%nat -> msk_0 s i = true -> bx s i = Fin 0 \/ bx s i = NaN;
  con_max : forall i, (i < n)%nat -> msk_max s i = true -> bx s i = mp i \/ bx s i = NaN }.

Lemma residual_numbers : forall v x, numbers n v x -> numbers n (fun i => fsub (f v i) (b i)) (fun i => times n A x i - bb i).
Proof. intros v x H i Hi. rewrite (HA v x H i Hi), (Hb i Hi). reflexivity. Qed.

Lemma init_consistent : forall x0, consistent (bccg_init n f b x0 (Fin 0) mp).
Proof.
  intros x0. set (x := fun i => fmin (fmax (x0 i) (Fin 0)) (mp i)).
  assert (X : forall i, (i < n)%nat -> x i = NaN \/ (fleb (Fin 0) (x i) = true /\ fleb (x i) (mp i) = true)).
  { intros i Hi. specialize (Hm i Hi). unfold x. destruct (x0 i) as [u| | |], (mp i) as [m| | |]; cbn in Hm |- *; try contradiction; try (left; reflexivity).
    all: repeat (cbn; match goal with |- context [Rltb ?a ?b] => destruct (Rltb a b) eqn:? end); cbn;
      repeat match goal with H : Rltb _ _ = true |- _ => apply Rltb_true in H | H : Rltb _ _ = false |- _ => apply Rltb_false in H end;
      right; split; try reflexivity; apply Rleb_true; lra. }
  constructor; cbn [bccg_init bx bg msk_0 msk_max]; cbv zeta; fold x.
  - intros y Hy. apply residual_numbers. exact Hy.
  - intros i Hi H. apply andb_true_iff in H. destruct H as [H _]. change (fmin (fmax (x0 i) (Fin 0)) (mp i)) with (x i) in H |- *.
    destruct (X i Hi) as [E|[E _]]; [auto|].
    destruct (x i) as [u| | |]; cbn in H, E; try discriminate. apply Rleb_true in H, E. left. f_equal. lra.
  - intros i Hi H. apply andb_true_iff in H. destruct H as [H _]. change (fmin (fmax (x0 i) (Fin 0)) (mp i)) with (x i) in H |- *.
    destruct (X i Hi) as [E|[_ E]]; [auto|].
    destruct (x i) as [u| | |], (mp i) as [m| | |]; cbn in H, E; try discriminate; auto.
    apply Rleb_true in H, E. left. f_equal. lra.
Qed.

(** What a finite result of a pass says about its parts. *)
Lemma finite_pass : forall s res r p q alpha upd x1 x2 outer prj_0 prj_max g m0 mm changed free,
  pass n f b tol max_it mp k_inn s res r p q alpha upd x1 x2 outer prj_0 prj_max g m0 mm changed free -> consistent s -> (1 <= n)%nat ->
  forall x, numbers n (fun i => fadd (bx s i) (fmul alpha (p i))) x ->
  exists y a d, numbers n (bx s) y /\ alpha = Fin a /\ numbers n p d /\ numbers n q (times n A d) /\
    forall i, (i < n)%nat -> x i = y i + a * d i.
Proof.
  intros s res r p q alpha upd x1 x2 outer prj_0 prj_max g m0 mm changed free Q C N x H.
  destruct Q as [Pr Pp Pq Pa Px1 Pu Po P0 Pm Px2 Pg Pm0 Pmm Pc Pres Pfree].
  destruct (fadd_fin _ _ _ (H 0%nat ltac:(lia))) as (_ & z & _ & Z & _). destruct (fmul_fin _ _ _ Z) as (a & _ & Ea & _).
  set (y := fun i => match bx s i with Fin v => v | _ => 0 end). set (d := fun i => match p i with Fin v => v | _ => 0 end).
  assert (Y : numbers n (bx s) y /\ numbers n p d /\ forall i, (i < n)%nat -> x i = y i + a * d i).
  { repeat split; intros i Hi; destruct (fadd_fin _ _ _ (H i Hi)) as (u & w & U & W & E); destruct (fmul_fin _ _ _ W) as (a' & v & A' & V & F);
      unfold y, d; rewrite ?U, ?V; try reflexivity. assert (a' = a) by congruence. congruence. }
  destruct Y as (Y & D & X). exists y, a, d. repeat split; try assumption.
  assert (NB : forall i, (i < n)%nat -> (it_inn s + 1 <? k_inn)%Z && (msk_0 s i || msk_max s i) = false).
  { intros i Hi. destruct (it_inn s + 1 <? k_inn)%Z eqn:K; [|reflexivity]. cbn [andb]. destruct (msk_0 s i || msk_max s i) eqn:B; [|reflexivity].
    exfalso. assert (E : alpha = NaN); [|congruence]. rewrite Pa, (dot_nan n p q i Hi); [apply fdiv_nan_r|].
    rewrite Pq, B, fmul_nan_r. reflexivity. }
  intros i Hi. specialize (NB i Hi). rewrite Pq. transitivity (f p i); [|exact (HA p d D i Hi)].
  destruct (it_inn s + 1 <? k_inn)%Z; [|reflexivity]. cbn [andb] in NB. rewrite NB. reflexivity.
Qed.

Lemma pass_consistent : forall s res r p q alpha upd x1 x2 outer prj_0 prj_max g m0 mm changed free,
  pass n f b tol max_it mp k_inn s res r p q alpha upd x1 x2 outer prj_0 prj_max g m0 mm changed free -> consistent s ->
  (forall x, numbers n x2 x -> numbers n g (fun i => times n A x i - bb i)) /\
  (forall i, (i < n)%nat -> m0 i = true -> x2 i = Fin 0 \/ x2 i = NaN) /\
  (forall i, (i < n)%nat -> mm i = true -> x2 i = mp i \/ x2 i = NaN).
Proof.
  intros s res r p q alpha upd x1 x2 outer prj_0 prj_max g m0 mm changed free Q C. pose proof small_pos as SP.
  pose proof Q as Q'. destruct Q as [Pr Pp Pq Pa Px1 Pu Po P0 Pm Px2 Pg Pm0 Pmm Pc Pres Pfree].
  assert (T : forall i, fleb (fmul (mp i) (Fin (1 + small))) (Fin 0) = true -> (i < n)%nat -> mp i = Fin 0).
  { intros i E Hi. specialize (Hm i Hi). destruct (mp i) as [m| | |]; cbn in Hm, E; try contradiction.
    - apply Rleb_true in E. f_equal. nra.
    - unfold signed_inf in E. destruct (Rltb 0 (1 + small)); [discriminate|]. destruct (Rltb (1 + small) 0) eqn:F; [|discriminate].
      apply Rltb_true in F. lra. }
  assert (S0 : forall v, v = Fin 0 \/ v = NaN -> fadd v (fmul alpha (Fin 0)) = Fin 0 \/ fadd v (fmul alpha (Fin 0)) = NaN).
  { intros v [->| ->]; [|right; apply fadd_nan_l].
    assert (Z : signed_inf 0 = NaN) by (unfold signed_inf; destruct (Rltb 0 0) eqn:E; [apply Rltb_true in E; lra|reflexivity]).
    assert (Z' : signed_inf (- 0) = NaN) by (rewrite Ropp_0; exact Z).
    destruct alpha as [a| | |]; cbn; rewrite ?Z, ?Z'; cbn; auto. left. f_equal. ring. }
  split; [|split].
  - intros x H. rewrite Pg. destruct (any n prj_0 || any n prj_max || (outer && (1 <? k_inn)%Z)) eqn:M; [apply residual_numbers; exact H|].
    apply orb_false_iff in M. destruct M as [M _]. apply orb_false_iff in M. destruct M as [M1 M2].
    assert (E : forall i, (i < n)%nat -> x2 i = fadd (bx s i) (fmul alpha (p i))).
    { intros i Hi. rewrite Px2, (any_none _ _ M2 i Hi), Px1, (any_none _ _ M1 i Hi). reflexivity. }
    intros i Hi.
    destruct (finite_pass s res r p q alpha upd x1 x2 outer prj_0 prj_max g m0 mm changed free Q' C ltac:(lia) x) as (y & a & d & Y & Ea & D & Qn & X).
    { intros k Hk. rewrite <- E by exact Hk. apply H. exact Hk. }
    rewrite (con_g s C y Y i Hi), (Qn i Hi), Ea. cbn. f_equal.
    rewrite (times_ext n A x (fun j => y j + a * d j) i X), times_line. ring.
  - intros i Hi H. rewrite Px2. rewrite Pm0 in H. destruct (prj_0 i) eqn:F.
    + destruct (prj_max i) eqn:G; [|left; rewrite Px1, F; reflexivity]. rewrite Pm, Px1, F in G. apply andb_true_iff in G.
      left. apply T; tauto.
    + rewrite orb_false_r in H. pose proof (con_0 s C i Hi H) as B.
      assert (V : x1 i = Fin 0 \/ x1 i = NaN).
      { rewrite Px1, F, Pp, H. cbn [orb]. apply S0. exact B. }
      destruct (prj_max i) eqn:G; [|exact V]. rewrite Pm in G. apply andb_true_iff in G. destruct G as [_ G].
      destruct V as [V|V]; rewrite V in G; [left; apply T; assumption|]. rewrite fleb_nan_r in G. discriminate.
  - intros i Hi H. rewrite Px2. rewrite Pmm in H. destruct (prj_max i) eqn:F; [auto|]. rewrite orb_false_r in H.
    pose proof (con_max s C i Hi H) as B. rewrite Px1, P0, Pp, H, orb_true_r.
    assert (V : fadd (bx s i) (fmul alpha (Fin 0)) = mp i \/ fadd (bx s i) (fmul alpha (Fin 0)) = NaN).
    { destruct B as [B|B]; rewrite B; [|right; apply fadd_nan_l].
      assert (Z : signed_inf 0 = NaN) by (unfold signed_inf; destruct (Rltb 0 0) eqn:E; [apply Rltb_true in E; lra|reflexivity]).
      assert (Z' : signed_inf (- 0) = NaN) by (rewrite Ropp_0; exact Z).
      destruct alpha as [a| | |]; cbn; rewrite ?Z, ?Z', ?fadd_nan_r; auto. rewrite Rmult_0_r.
      left. destruct (mp i); cbn; try reflexivity. f_equal. ring. }
    destruct V as [V|V]; rewrite V.
    + specialize (Hm i Hi). destruct (mp i) as [m| | |]; cbn in Hm |- *; try contradiction.
      * destruct (Rltb m (- small)) eqn:E; [apply Rltb_true in E; lra|]. rewrite andb_false_r. auto.
      * rewrite andb_false_r. auto.
    + rewrite fltb_nan_l, andb_false_r. auto.
Qed.

Lemma step_consistent : forall s s', consistent s -> step s = inl s' -> consistent s'.
Proof.
  intros s s' C E. destruct (step_pass n f b tol max_it mp k_inn s) as (r & p & q & alpha & upd & x1 & x2 & outer & prj_0 & prj_max & g & m0 & mm & changed & free & Q).
  destruct (pass_consistent _ _ _ _ _ _ _ _ _ _ _ _ _ _ _ _ _ Q C) as (G & Z & M).
  pose proof (pass_res _ _ _ _ _ _ _ _ _ _ _ _ _ _ _ _ _ _ _ _ _ _ _ _ Q) as R. unfold step in E. rewrite E in R.
  repeat match type of R with _ = (if ?c then _ else _) => destruct c; [discriminate|] end.
  injection R as ->. constructor; cbn [bx bg msk_0 msk_max]; [exact G| |]; intros i Hi H; apply andb_true_iff in H; [apply Z|apply M]; tauto.
Qed.

Lemma fin_div : forall x c, c <> 0 -> fdiv (Fin x) (Fin c) = Fin (x / c).
Proof. intros x c H. cbn. destruct (Reqb c 0) eqn:E; [apply Reqb_true in E; contradiction|reflexivity]. Qed.
Lemma length2_pos : forall m x, 0 <= length2 m x.
Proof. intros. apply sqrt_pos. Qed.
(** A relative update below the tolerance. *)
Lemma upd_small : forall u w c t, 0 <= u -> 0 <= w ->
  fltb (fdiv (fdiv (Fin u) (fsqrt (Fin (IZR c)))) (fdiv (Fin w) (fsqrt (Fin (IZR c))))) (Fin t) = true -> u < t * w.
Proof.
  intros u w c t Hu Hw H. unfold fsqrt in H. destruct (Rltb (IZR c) 0) eqn:E; [rewrite fdiv_nan_r in H; discriminate|].
  apply Rltb_false in E. destruct (Req_dec (IZR c) 0) as [Z|Z].
  - rewrite Z, sqrt_0 in H. exfalso. revert H. unfold fdiv. destruct (Reqb 0 0) eqn:F; [|apply Reqb_false in F; lra].
    unfold signed_inf. destruct (Rltb 0 u), (Rltb u 0), (Rltb 0 w), (Rltb w 0); discriminate.
  - assert (0 < sqrt (IZR c)) by (apply sqrt_lt_R0; lra). rewrite !fin_div in H by lra.
    destruct (Req_dec w 0) as [W|W].
    + exfalso. revert H. rewrite W. unfold Rdiv at 2. rewrite Rmult_0_l. cbn. destruct (Reqb 0 0) eqn:F; [|apply Reqb_false in F; lra].
      unfold signed_inf. set (z := u / sqrt (IZR c)). destruct (Rltb 0 z), (Rltb z 0) eqn:G; try discriminate. unfold z in G. apply Rltb_true in G.
      assert (0 <= u / sqrt (IZR c)) by (apply Rmult_le_pos; [lra|left; apply Rinv_0_lt_compat; lra]). lra.
    + assert (0 < w / sqrt (IZR c)) by (apply Rmult_lt_0_compat; [lra|apply Rinv_0_lt_compat; lra]).
      rewrite fin_div in H by lra. cbn in H. apply Rltb_true in H.
      replace (u / sqrt (IZR c) / (w / sqrt (IZR c))) with (u / w) in H by (field; lra).
      apply Rmult_lt_compat_r with (r := w) in H; [|lra]. replace (u / w * w) with u in H by (field; lra). exact H.
Qed.

Lemma sum_opp : forall m h, sum m (fun i => - h i) = - sum m h.
Proof. induction m; intros h; cbn; [lra|]. rewrite IHm. lra. Qed.

Lemma converged_step : forall s v t, consistent s -> tol = Fin t -> step s = inr (v, false) ->
  exists x y, numbers n v x /\ numbers n (bx s) y /\
    length2 n (fun i => x i - y i) < t * length2 n x /\
    sum n (fun i => (times n A x i - bb i) * (x i - y i)) = 0 /\
    forall i, (i < n)%nat ->
      (- small <= x i /\ fltb (Fin (x i)) (fmul (mp i) (Fin (1 + small))) = true) /\
      (msk_0 s i = true -> x i = 0 /\ y i = 0 /\ - small <= times n A x i - bb i) /\
      (msk_max s i = true -> mp i = Fin (x i) /\ y i = x i /\ times n A x i - bb i <= small).
Proof.
  intros s v t C T E. pose proof small_pos as SP. destruct (step_pass n f b tol max_it mp k_inn s) as (r & p & q & alpha & upd & x1 & x2 & outer & prj_0 & prj_max & g & m0 & mm & changed & free & Q).
  pose proof Q as Q'.
  destruct (pass_consistent _ _ _ _ _ _ _ _ _ _ _ _ _ _ _ _ _ Q C) as (G & Z & M).
  destruct Q as [Pr Pp Pq Pa Px1 Pu Po P0 Pm Px2 Pg Pm0 Pmm Pc Pres Pfree]. unfold step in E. rewrite E in Pres.
  destruct (free =? 0)%Z; [discriminate|]. destruct (max_it <? it s + 1)%Z; [discriminate|].
  destruct (outer && negb changed && fltb upd tol) eqn:O; [|discriminate]. injection Pres as ->.
  apply andb_true_iff in O. destruct O as [O U]. apply andb_true_iff in O. destruct O as [-> O]. apply negb_true_iff in O. subst changed.
  apply orb_false_iff in O. destruct O as [O R]. apply orb_false_iff in O. destruct O as [N0 Nm].
  assert (X : forall i, (i < n)%nat -> x2 i = fadd (bx s i) (fmul alpha (p i))).
  { intros i Hi. rewrite Px2, (any_none _ _ Nm i Hi), Px1, (any_none _ _ N0 i Hi). reflexivity. }
  set (x := fun i => match x2 i with Fin u => u | _ => 0 end).
  assert (NX : numbers n x2 x).
  { intros i Hi. rewrite Pu in U. destruct (fltb_upd _ _ _ _ _ U i Hi) as (u & F). unfold x. rewrite X, F by exact Hi. reflexivity. }
  assert (N1 : (1 <= n)%nat).
  { destruct n; [|lia]. rewrite Pu, T in U. unfold norm in U. cbn [dot] in U. unfold fsqrt in U at 1 3.
    destruct (Rltb 0 0) eqn:F; [apply Rltb_true in F; lra|]. rewrite sqrt_0 in U. apply upd_small in U; lra. }
  assert (NX' : numbers n (fun i => fadd (bx s i) (fmul alpha (p i))) x).
  { intros i Hi. rewrite <- X by exact Hi. apply NX. exact Hi. }
  destruct (finite_pass s (inr (x2, false)) r p q alpha upd x1 x2 true prj_0 prj_max g m0 mm _ free
    ltac:(rewrite <- E; exact Q') C N1 x NX') as (y & a & d & Y & Ea & D & Qn & L).
  pose proof (G x NX) as Gx.
  exists x, y. split; [exact NX|]. split; [exact Y|]. split; [|split].
  - rewrite Pu, T in U. rewrite (norm_numbers n _ x NX') in U.
    rewrite (norm_numbers n (fun i => fsub (fadd (bx s i) (fmul alpha (p i))) (bx s i)) (fun i => x i - y i)) in U.
    + apply upd_small in U; [exact U|apply length2_pos|apply length2_pos].
    + intros i Hi. rewrite NX', Y by exact Hi. reflexivity.
  - pose proof (con_g s C y Y) as Gy.
    rewrite (sum_ext n _ (fun i => a * ((times n A y i - bb i) * d i + a * (d i * times n A d i)))).
    2: { intros i Hi. rewrite (times_ext n A x (fun j => y j + a * d j) i L), times_line, (L i Hi). ring. }
    rewrite sum_mult, sum_plus, sum_mult.
    assert (RP : dot n r p = Fin (- sum n (fun i => (times n A y i - bb i) * d i))).
    { rewrite <- sum_opp.
      set (rr := fun i => if msk_0 s i || msk_max s i then 0 else - (times n A y i - bb i)).
      rewrite (dot_numbers n r p rr d); [|intros i Hi; rewrite Pr; unfold rr; destruct (msk_0 s i || msk_max s i); [reflexivity|rewrite (Gy i Hi); reflexivity]|exact D].
      f_equal. apply sum_ext. intros i Hi. unfold rr. destruct (msk_0 s i || msk_max s i) eqn:B; [|ring].
      assert (d i = 0); [|nra]. pose proof (D i Hi) as Di. rewrite Pp, B in Di. congruence. }
    rewrite RP, (dot_numbers n p q d (times n A d) D Qn) in Pa. rewrite Ea in Pa.
    set (u := sum n (fun i => (times n A y i - bb i) * d i)) in *. set (w := sum n (fun i => d i * times n A d i)) in *.
    destruct (Req_dec w 0) as [W|W].
    + exfalso. rewrite W in Pa. unfold fdiv in Pa. destruct (Reqb 0 0) eqn:F; [|apply Reqb_false in F; lra].
      unfold signed_inf in Pa. destruct (Rltb 0 (- u)), (Rltb (- u) 0); discriminate.
    + rewrite fin_div in Pa by exact W. injection Pa as Pa. rewrite Pa. field. exact W.
  - intros i Hi. specialize (Pm i). specialize (P0 i). rewrite (any_none _ _ Nm i Hi) in Pm. rewrite (any_none _ _ N0 i Hi) in P0.
    cbn [andb] in Pm, P0. rewrite <- X in P0 by exact Hi.
    assert (X1 : x1 i = x2 i) by (rewrite Px2, (any_none _ _ Nm i Hi); reflexivity). rewrite X1 in Pm. rewrite (NX i Hi) in Pm, P0.
    pose proof (any_none _ _ R i Hi) as Ri. cbn [andb] in Ri. apply orb_false_iff in Ri. destruct Ri as [R0 Rm].
    rewrite (Gx i Hi) in R0, Rm. cbn [fltb] in R0, Rm.
    assert (Q0 : msk_0 s i || msk_max s i = true -> y i = x i).
    { intros B. pose proof (D i Hi) as Di. rewrite Pp, B in Di. rewrite (L i Hi). injection Di as <-. ring. }
    split; [split|split].
    + symmetry in P0. apply Rltb_false in P0. lra.
    + specialize (Hm i Hi). destruct (mp i) as [mx| | |]; cbn in Hm, Pm |- *; try contradiction.
      * symmetry in Pm. apply Rleb_false in Pm. apply Rltb_true. exact Pm.
      * unfold signed_inf. destruct (Rltb 0 (1 + small)) eqn:F; [reflexivity|]. apply Rltb_false in F. lra.
    + intros B. assert (B' : m0 i = true) by (rewrite Pm0, B; reflexivity). rewrite B' in R0. cbn [andb] in R0. apply Rltb_false in R0.
      assert (x i = 0) by (destruct (Z i Hi B') as [F|F]; rewrite (NX i Hi) in F; congruence).
      split; [assumption|]. split; [rewrite Q0 by (rewrite B; reflexivity); assumption|lra].
    + intros B. assert (B' : mm i = true) by (rewrite Pmm, B; reflexivity). rewrite B' in Rm. cbn [andb] in Rm. apply Rltb_false in Rm.
      split; [destruct (M i Hi B') as [F|F]; rewrite (NX i Hi) in F; congruence|].
      split; [apply Q0; rewrite B, orb_true_r; reflexivity|lra].
Qed.

Lemma converged_loop : forall t fuel s v, consistent s -> tol = Fin t -> bccg_loop fuel n f b tol max_it mp k_inn s = Some (v, false) ->
  exists k s', state_after k n f b tol max_it mp k_inn s = Some s' /\ consistent s' /\ step s' = inr (v, false).
Proof.
  intros t. induction fuel; intros s v C T H; [discriminate|]. cbn [bccg_loop] in H. fold step in H.
  destruct (step s) as [s'|res] eqn:E.
  - destruct (IHfuel s' v (step_consistent s s' C E) T H) as (k & s2 & K & C2 & S2). exists (S k), s2.
    cbn [state_after]. fold step. rewrite E. auto.
  - injection H as ->. exists 0%nat, s. auto.
Qed.
End Converged.
