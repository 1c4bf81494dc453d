From Coq Require Import List Bool Arith ZArith Reals Lia Lra.
From Verif Require Import SurfaceModel SurfaceProofs Flt SolverModel SolverSpec SolverProofs.
Import ListNotations.
Local Open Scope R_scope.

(** ** Number of iterations *)
Lemma cg_stops : forall fuel dom op tol max_it s, (1 <= fuel)%nat -> (max_it + 1 <= itnum s + Z.of_nat fuel)%Z ->
  exists res, forall more, cg_loop (fuel + more) dom op tol max_it s = Some res.
Proof.
  induction fuel; intros dom op tol max_it s H K; [lia|]. cbn [cg_loop Nat.add].
  destruct (fleb tol (norm (length dom) (residual s))); [|eauto]. cbv zeta.
  destruct (max_it <? itnum (cg_step dom op s))%Z eqn:E; [eauto|]. apply Z.ltb_ge in E.
  assert (I : itnum (cg_step dom op s) = (itnum s + 1)%Z) by reflexivity. rewrite I in E.
  apply IHfuel; rewrite ?I; lia.
Qed.

(** ** Positions *)
Lemma position_none : forall dom i, position i dom = None <-> ~ In i dom.
Proof.
  induction dom as [|j l]; intros i; cbn; [tauto|]. destruct (Nat.eqb_spec i j); [subst; split; [discriminate|intros H; exfalso; auto]|].
  destruct (position i l) eqn:E; cbn; split; try discriminate; try tauto.
  - intros H. exfalso. assert (~ In i l) by tauto. apply IHl in H0. congruence.
  - intros _ [->|H]; [congruence|]. apply IHl in H; [exact H|exact E].
Qed.
Lemma position_some : forall dom i k, position i dom = Some k -> (k < length dom)%nat /\ nth k dom 0%nat = i.
Proof.
  induction dom as [|j l]; intros i k H; cbn in H; [discriminate|]. destruct (Nat.eqb_spec i j); [injection H as <-; subst; cbn; split; [lia|reflexivity]|].
  destruct (position i l) as [m|] eqn:E; [|discriminate]. cbn in H. injection H as <-. destruct (IHl _ _ E). cbn. split; [lia|assumption].
Qed.
Lemma position_nth : forall dom k, NoDup dom -> (k < length dom)%nat -> position (nth k dom 0%nat) dom = Some k.
Proof.
  induction dom as [|j l]; intros k N H; cbn in H; [lia|]. inversion_clear N as [|? ? N1 N2]. destruct k as [|k]; cbn.
  - rewrite Nat.eqb_refl. reflexivity.
  - destruct (Nat.eqb_spec (nth k l 0%nat) j) as [E|E].
    + exfalso. apply N1. rewrite <- E. apply nth_In. lia.
    + rewrite IHl by (assumption || lia). reflexivity.
Qed.

(** ** Points that are not prescribed keep their load *)
Lemma step_outside : forall dom op s i, ~ In i dom -> loads (cg_step dom op s) i = loads s i.
Proof. intros dom op s i H. cbn. unfold add_to. apply position_none in H. rewrite H. reflexivity. Qed.
Lemma loop_outside : forall fuel dom op tol max_it s l w i, ~ In i dom -> cg_loop fuel dom op tol max_it s = Some (l, w) -> l i = loads s i.
Proof.
  induction fuel; intros dom op tol max_it s l w i H E; [discriminate|]. cbn [cg_loop] in E.
  destruct (fleb _ _); [|injection E as <- <-; reflexivity]. cbv zeta in E.
  destruct (max_it <? _)%Z; [injection E as <- <-; apply step_outside; exact H|].
  rewrite (IHfuel _ _ _ _ _ _ _ _ H E). apply step_outside. exact H.
Qed.

(** ** The residual is the one of the loads *)
Section Residual.
Variables (N : nat) (dom : list nat) (op : vec -> vec) (B : nat -> nat -> R) (d : nat -> R).
Hypothesis HB : is_matrix N op B.
Hypothesis Hd : NoDup dom.
Hypothesis Hin : forall i, In i dom -> (i < N)%nat.
Let n := length dom.
Definition fits (s : cgs) : Prop := forall l, numbers N (loads s) l ->
  numbers n (residual s) (fun k => d (nth k dom 0%nat) - times N B l (nth k dom 0%nat)).
Definition spread (v : nat -> R) (i : nat) : R := match position i dom with Some k => v k | None => 0 end.

Lemma scatter_numbers : forall v x, numbers n v x -> numbers N (scatter dom v) (spread x).
Proof.
  intros v x H i _. unfold scatter, spread. destruct (position i dom) eqn:E; [|reflexivity].
  apply H. apply position_some in E. apply E.
Qed.
Lemma nth_bound : forall k, (k < n)%nat -> (nth k dom 0 < N)%nat.
Proof. intros k H. apply Hin, nth_In. exact H. Qed.
Lemma spread_nth : forall x k, (k < n)%nat -> spread x (nth k dom 0%nat) = x k.
Proof. intros x k H. unfold spread. rewrite position_nth by assumption. reflexivity. Qed.

Lemma step_fits : forall s, fits s -> fits (cg_step dom op s).
Proof.
  intros s F l' L' k Hk. cbn [cg_step loads residual] in *. fold n in L' |- *.
  set (z := gather dom (op (scatter dom (search s)))) in *.
  set (alpha := fdiv (dot n (residual s) (residual s)) (dot n (search s) z)) in *.
  assert (K : forall k, (k < n)%nat -> exists y u, loads s (nth k dom 0%nat) = Fin y /\ fmul alpha (search s k) = Fin u).
  { intros j Hj. pose proof (L' _ (nth_bound j Hj)) as E. unfold add_to in E. rewrite position_nth in E by assumption.
    destruct (fadd_fin _ _ _ E) as (y & u & Y & U & _). eauto. }
  destruct (K k Hk) as (_ & u0 & _ & U0). destruct (fmul_fin _ _ _ U0) as (a & _ & Ea & _).
  set (p := fun k => match search s k with Fin v => v | _ => 0 end).
  assert (P : numbers n (search s) p).
  { intros j Hj. destruct (K j Hj) as (_ & u & _ & U). destruct (fmul_fin _ _ _ U) as (_ & v & _ & V & _). unfold p. rewrite V. reflexivity. }
  set (l := fun i => match loads s i with Fin v => v | _ => 0 end).
  assert (L : numbers N (loads s) l).
  { intros i Hi. unfold l. pose proof (L' i Hi) as E. unfold add_to in E. destruct (position i dom); [|rewrite E; reflexivity].
    destruct (fadd_fin _ _ _ E) as (y & _ & -> & _). reflexivity. }
  assert (LL : forall i, (i < N)%nat -> l' i = l i + a * spread p i).
  { intros i Hi. pose proof (L' i Hi) as E. unfold add_to in E. rewrite (L i Hi) in E. unfold spread. destruct (position i dom) as [j|] eqn:J.
    - apply position_some in J. destruct J as [J _]. rewrite Ea, (P j J) in E. cbn in E. injection E as <-. reflexivity.
    - injection E as <-. ring. }
  rewrite (F l L k Hk). unfold z, gather. rewrite (HB _ _ (scatter_numbers _ _ P) _ (nth_bound k Hk)), Ea. cbn. f_equal.
  rewrite (times_ext N B l' (fun i => l i + a * spread p i) _ LL), times_line. unfold times. ring.
Qed.
Lemma loop_fits : forall fuel t max_it s l x, fits s -> cg_loop fuel dom op (Fin t) max_it s = Some (l, false) -> numbers N l x ->
  length2 n (fun k => d (nth k dom 0%nat) - times N B x (nth k dom 0%nat)) < t.
Proof.
  induction fuel; intros t max_it s l x F H L; [discriminate|]. cbn [cg_loop] in H. fold n in H.
  destruct (fleb (Fin t) (norm n (residual s))) eqn:E.
  - cbv zeta in H. destruct (max_it <? _)%Z; [discriminate|]. exact (IHfuel t max_it _ l x (step_fits s F) H L).
  - injection H as <-. rewrite (norm_numbers n _ _ (F x L)) in E. cbn in E. apply Rleb_false in E. exact E.
Qed.
Lemma init_fits : forall disp guess, (forall i, In i dom -> disp i = Fin (d i)) -> fits (cg_init dom op disp guess).
Proof.
  intros disp guess H l L k Hk. cbn in *. unfold gather. rewrite H by (apply nth_In; exact Hk).
  rewrite (HB _ _ L _ (nth_bound k Hk)). reflexivity.
Qed.

(** ** Symmetric positive definite: at most as many iterations as unknowns *)
Definition M (i j : nat) : R := B (nth i dom 0%nat) (nth j dom 0%nat).
Definition ip (x y : nat -> R) : R := sum n (fun i => x i * y i).
Lemma ip_sym : forall x y, ip x y = ip y x.
Proof. intros. apply sum_ext. intros. ring. Qed.
Lemma ip_line : forall x y c z, ip (fun i => x i + c * y i) z = ip x z + c * ip y z.
Proof. intros. unfold ip. rewrite <- sum_mult, <- sum_plus. apply sum_ext. intros. ring. Qed.
Lemma ip_ext : forall x y x' y', (forall i, (i < n)%nat -> x i = x' i) -> (forall i, (i < n)%nat -> y i = y' i) -> ip x y = ip x' y'.
Proof. intros x y x' y' H K. apply sum_ext. intros. rewrite H, K by assumption. reflexivity. Qed.
Lemma sum_exchange : forall m k (h : nat -> nat -> R), sum m (fun i => sum k (h i)) = sum k (fun j => sum m (fun i => h i j)).
Proof.
  induction m; intros k h; cbn; [symmetry; apply sum_zero|]. rewrite IHm, <- sum_plus. reflexivity.
Qed.
Lemma sum_over_nth : forall (l : list nat) h, sum_over l h = sum (length l) (fun k => h (nth k l 0%nat)).
Proof.
  assert (S0 : forall m g, sum (S m) g = g 0%nat + sum m (fun k => g (S k))).
  { induction m; intros g; [cbn; lra|]. change (sum (S (S m)) g) with (sum (S m) g + g (S m)). rewrite IHm. cbn. lra. }
  induction l as [|i l]; intros h; [reflexivity|]. cbn [length sum_over]. rewrite S0, IHl. reflexivity.
Qed.
Lemma sum_over_position : forall h, (forall i, ~ In i dom -> h i = 0) -> sum N h = sum n (fun k => h (nth k dom 0%nat)).
Proof.
  intros h H. transitivity (sum_over dom h); [|apply sum_over_nth].
  assert (G : forall l m (h : nat -> R), NoDup l -> (forall i, In i l -> (i < m)%nat) -> (forall i, ~ In i l -> h i = 0) -> sum m h = sum_over l h).
  { clear h H. induction l as [|j l]; intros m h ND Hl H.
    - rewrite (sum_ext m h (fun _ => 0)) by (intros; apply H; auto). apply sum_zero.
    - inversion_clear ND as [|? ? N1 N2]. cbn [sum_over].
      rewrite (sum_ext m h (fun i => (if Nat.eqb i j then h j else 0) + (if Nat.eqb i j then 0 else h i))).
      2: { intros i _. destruct (Nat.eqb_spec i j); [subst|]; ring. }
      rewrite sum_plus. f_equal.
      + assert (Hj : (j < m)%nat) by (apply Hl; left; reflexivity). clear - Hj. induction m; [lia|]. cbn [sum].
        destruct (Nat.eqb_spec m j) as [->|E].
        * rewrite (sum_ext j _ (fun _ => 0)); [rewrite sum_zero; ring|]. intros i Hi. destruct (Nat.eqb_spec i j); [lia|reflexivity].
        * rewrite IHm by lia. ring.
      + rewrite (IHl m (fun i => if Nat.eqb i j then 0 else h i) N2).
        * clear - N1. induction l as [|k l IH]; [reflexivity|]. cbn [sum_over]. f_equal.
          -- destruct (Nat.eqb_spec k j); [subst; exfalso; apply N1; left; reflexivity|reflexivity].
          -- apply IH. intros K. apply N1. right. exact K.
        * intros i Hi. apply Hl. right. exact Hi.
        * intros i Hi. destruct (Nat.eqb_spec i j); [reflexivity|]. apply H. intros [->|K]; tauto. }
  apply G; assumption.
Qed.
Lemma times_spread : forall x k, (k < n)%nat -> times N B (spread x) (nth k dom 0%nat) = times n M x k.
Proof.
  intros x k Hk. unfold times. rewrite sum_over_position.
  - apply sum_ext. intros j Hj. rewrite spread_nth by exact Hj. reflexivity.
  - intros i Hi. unfold spread. apply position_none in Hi. rewrite Hi. ring.
Qed.
Hypothesis Sym : symmetric_on dom B.
Hypothesis Pos : positive_on dom B.
Lemma M_sym : forall x y, ip x (times n M y) = ip y (times n M x).
Proof.
  intros x y. unfold ip, times. rewrite (sum_ext n _ (fun i => sum n (fun j => x i * M i j * y j))).
  2: { intros i _. rewrite <- sum_mult. apply sum_ext. intros. ring. }
  rewrite sum_exchange. apply sum_ext. intros i Hi. rewrite <- sum_mult. apply sum_ext. intros j Hj. unfold M.
  rewrite (Sym (nth j dom 0%nat) (nth i dom 0%nat)) by (apply nth_In; assumption). ring.
Qed.
Lemma M_pos : forall x, (exists k, (k < n)%nat /\ x k <> 0) -> 0 < ip x (times n M x).
Proof.
  intros x (k & Hk & X).
  assert (P : 0 < sum_over dom (fun i => sum_over dom (fun j => spread x i * B i j * spread x j))).
  { apply Pos. exists (nth k dom 0%nat). split; [apply nth_In; exact Hk|]. rewrite spread_nth by exact Hk. exact X. }
  rewrite sum_over_nth in P. fold n in P. unfold ip, times.
  rewrite (sum_ext n _ (fun i => sum_over dom (fun j => spread x (nth i dom 0%nat) * B (nth i dom 0%nat) j * spread x j))); [exact P|].
  intros i Hi. rewrite sum_over_nth. fold n. rewrite <- sum_mult. apply sum_ext. intros j Hj. rewrite !spread_nth by assumption. unfold M. ring.
Qed.
Lemma ip_pos : forall x, 0 <= ip x x.
Proof. intros. apply sum_squares_pos. Qed.
Lemma sum_squares_zero : forall m (x : nat -> R), sum m (fun i => x i * x i) = 0 -> forall i, (i < m)%nat -> x i = 0.
Proof.
  induction m; intros x H i Hi; [lia|]. cbn in H. pose proof (sum_squares_pos m x). assert (0 <= x m * x m) by nra.
  destruct (Nat.eq_dec i m) as [->|]; [|apply IHm; [lra|lia]]. assert (x m * x m = 0) by lra. nra.
Qed.
Lemma ip_zero : forall x, ip x x = 0 -> forall i, (i < n)%nat -> x i = 0.
Proof. intros x. apply sum_squares_zero. Qed.

(** The iteration in real numbers. *)
Fixpoint cgr (r0 : nat -> R) (k : nat) : (nat -> R) * (nat -> R) :=
  match k with
  | O => (r0, r0)
  | S k' => let '(r, p) := cgr r0 k' in
            let a := ip r r / ip p (times n M p) in
            let r' := fun i => r i - a * times n M p i in
            let be := ip r' r' / ip r r in
            (r', fun i => r' i + be * p i)
  end.
Definition rr r0 k := fst (cgr r0 k).
Definition pp r0 k := snd (cgr r0 k).
Definition al r0 k := ip (rr r0 k) (rr r0 k) / ip (pp r0 k) (times n M (pp r0 k)).
Definition be r0 k := ip (rr r0 (S k)) (rr r0 (S k)) / ip (rr r0 k) (rr r0 k).
Lemma rr_S : forall r0 k i, rr r0 (S k) i = rr r0 k i - al r0 k * times n M (pp r0 k) i.
Proof. intros. unfold al, rr, pp. cbn [cgr]. destruct (cgr r0 k). reflexivity. Qed.
Lemma pp_S : forall r0 k i, pp r0 (S k) i = rr r0 (S k) i + be r0 k * pp r0 k i.
Proof. intros. unfold be, rr, pp. cbn [cgr]. destruct (cgr r0 k). reflexivity. Qed.

Record orth r0 (k : nat) : Prop := {
  o_rp : forall i, (i < k)%nat -> ip (rr r0 k) (pp r0 i) = 0;
  o_rr : forall i, (i < k)%nat -> ip (rr r0 k) (rr r0 i) = 0;
  o_pp : forall i, (i < k)%nat -> ip (pp r0 k) (times n M (pp r0 i)) = 0;
  o_rpk : ip (rr r0 k) (pp r0 k) = ip (rr r0 k) (rr r0 k) }.

Lemma pAp_pos : forall r0 k, orth r0 k -> ip (rr r0 k) (rr r0 k) <> 0 -> 0 < ip (pp r0 k) (times n M (pp r0 k)).
Proof.
  intros r0 k O H. apply M_pos. rewrite <- (o_rpk _ _ O) in H.
  assert (D : forall m, (exists i, (i < m)%nat /\ pp r0 k i <> 0) \/ (forall i, (i < m)%nat -> pp r0 k i = 0)).
  { induction m; [right; intros; lia|]. destruct IHm as [(i & Hi & E)|E]; [left; exists i; split; [lia|exact E]|].
    destruct (Req_dec (pp r0 k m) 0) as [Z|Z]; [|left; exists m; split; [lia|exact Z]].
    right. intros i Hi. destruct (Nat.eq_dec i m) as [->|]; [exact Z|apply E; lia]. }
  destruct (D n) as [E|E]; [exact E|]. exfalso. apply H. unfold ip.
  rewrite (sum_ext n _ (fun _ => 0)); [apply sum_zero|]. intros i Hi. rewrite E by exact Hi. ring.
Qed.

Lemma orth_all : forall r0 k, (forall j, (j < k)%nat -> ip (rr r0 j) (rr r0 j) <> 0) -> forall j, (j <= k)%nat -> orth r0 j.
Proof.
  intros r0. induction k; intros NZ j Hj.
  - assert (j = 0)%nat by lia. subst. constructor; intros; try lia. reflexivity.
  - assert (IH : forall j, (j <= k)%nat -> orth r0 j) by (apply IHk; intros; apply NZ; lia).
    destruct (Nat.eq_dec j (S k)) as [->|]; [|apply IH; lia]. clear Hj IHk.
    pose proof (IH k (le_n k)) as O. assert (Z : ip (rr r0 k) (rr r0 k) <> 0) by (apply NZ; lia).
    pose proof (pAp_pos r0 k O Z) as PA.
    assert (AZ : forall i, (i <= k)%nat -> al r0 i <> 0).
    { intros i Hi. unfold al. pose proof (pAp_pos r0 i (IH i Hi) (NZ i ltac:(lia))). apply Rmult_integral_contrapositive_currified; [apply NZ; lia|].
      apply Rinv_neq_0_compat. lra. }
    assert (R1 : forall z, ip (rr r0 (S k)) z = ip (rr r0 k) z - al r0 k * ip (times n M (pp r0 k)) z).
    { intros z. rewrite (ip_ext (rr r0 (S k)) z (fun i => rr r0 k i + (- al r0 k) * times n M (pp r0 k) i) z); [|intros; rewrite rr_S; ring|reflexivity].
      rewrite ip_line. ring. }
    assert (RP : forall i, (i < S k)%nat -> ip (rr r0 (S k)) (pp r0 i) = 0).
    { intros i Hi. rewrite R1. rewrite (ip_sym (times n M (pp r0 k))). destruct (Nat.eq_dec i k) as [->|].
      - rewrite (o_rpk _ _ O). unfold al. field. lra.
      - rewrite (o_rp _ _ O) by lia. rewrite M_sym, (o_pp _ _ O) by lia. ring. }
    assert (RR : forall i, (i < S k)%nat -> ip (rr r0 (S k)) (rr r0 i) = 0).
    { intros [|i] Hi; [apply (RP 0%nat); lia|].
      assert (E : ip (rr r0 (S k)) (pp r0 (S i)) = ip (rr r0 (S k)) (rr r0 (S i)) + be r0 i * ip (rr r0 (S k)) (pp r0 i)).
      { rewrite (ip_sym _ (pp r0 (S i))), (ip_sym _ (rr r0 (S i))), (ip_sym _ (pp r0 i)). rewrite <- ip_line.
        apply ip_ext; [|reflexivity]. intros; apply pp_S. }
      rewrite RP in E by lia. rewrite RP in E by lia. lra. }
    assert (RA : forall i, (i < S k)%nat -> ip (rr r0 (S k)) (times n M (pp r0 i)) = (ip (rr r0 (S k)) (rr r0 i) - ip (rr r0 (S k)) (rr r0 (S i))) / al r0 i).
    { intros i Hi. assert (E : ip (rr r0 (S k)) (rr r0 (S i)) = ip (rr r0 (S k)) (rr r0 i) + (- al r0 i) * ip (rr r0 (S k)) (times n M (pp r0 i))).
      { rewrite (ip_sym _ (rr r0 (S i))), (ip_sym _ (rr r0 i)), (ip_sym _ (times n M (pp r0 i))). rewrite <- ip_line.
        apply ip_ext; [|reflexivity]. intros; rewrite rr_S; ring. }
      rewrite E. field. apply AZ. lia. }
    constructor.
    + exact RP.
    + exact RR.
    + intros i Hi.
      rewrite (ip_ext (pp r0 (S k)) (times n M (pp r0 i)) (fun j => rr r0 (S k) j + be r0 k * pp r0 k j) (times n M (pp r0 i))); [|intros; apply pp_S|reflexivity].
      rewrite ip_line, RA by exact Hi. rewrite (RR i Hi). destruct (Nat.eq_dec i k) as [->|].
      * unfold be, al. field. split; lra.
      * rewrite (RR (S i)) by lia. rewrite (o_pp _ _ O) by lia. unfold Rdiv. ring.
    + assert (E : ip (rr r0 (S k)) (pp r0 (S k)) = ip (rr r0 (S k)) (rr r0 (S k)) + be r0 k * ip (rr r0 (S k)) (pp r0 k)).
      { rewrite (ip_sym _ (pp r0 (S k))). rewrite (ip_sym _ (pp r0 k)). rewrite <- ip_line.
        apply ip_ext; [|reflexivity]. intros; apply pp_S. }
      rewrite E, RP by lia. ring.
Qed.

(** At most n orthogonal vectors that are not zero. *)
Lemma ip_line_r : forall x y c z, ip z (fun i => x i + c * y i) = ip z x + c * ip z y.
Proof. intros. rewrite (ip_sym z x), (ip_sym z y), <- ip_line. apply ip_sym. Qed.
Lemma ip_unit : forall i z, (i < n)%nat -> ip (fun k => if Nat.eqb k i then 1 else 0) z = z i.
Proof.
  intros i z Hi. unfold ip. rewrite (sum_ext n _ (fun k => if Nat.eqb k i then z i else 0)).
  2: { intros k _. destruct (Nat.eqb_spec k i); [subst|]; ring. }
  assert (G : forall m, (i < m)%nat -> sum m (fun k => if Nat.eqb k i then z i else 0) = z i); [|apply G; exact Hi].
  induction m; intros H; [lia|]. cbn [sum]. destruct (Nat.eqb_spec m i) as [->|E].
  - rewrite (sum_ext i _ (fun _ => 0)); [rewrite sum_zero; ring|]. intros k Hk. destruct (Nat.eqb_spec k i); [lia|reflexivity].
  - rewrite IHm by lia. ring.
Qed.
Lemma orthogonal_bound : forall (u : nat -> nat -> R) m,
  (forall j l, (j < m)%nat -> (l < m)%nat -> j <> l -> ip (u j) (u l) = 0) ->
  (forall j, (j < m)%nat -> ip (u j) (u j) <> 0) -> (m <= n)%nat.
Proof.
  intros u m O Z.
  assert (W : forall i, (i < n)%nat -> forall k, (k <= m)%nat -> exists w,
    ip w w = 1 - sum k (fun j => u j i * u j i / ip (u j) (u j)) /\ forall l, (k <= l)%nat -> (l < m)%nat -> ip w (u l) = u l i).
  { intros i Hi. induction k; intros Hk.
    - exists (fun k => if Nat.eqb k i then 1 else 0). split; [|intros; apply ip_unit; exact Hi].
      rewrite ip_unit by exact Hi. rewrite Nat.eqb_refl. cbn. ring.
    - destruct IHk as (w & W1 & W2); [lia|]. exists (fun a => w a + (- (u k i / ip (u k) (u k))) * u k a). split.
      + rewrite ip_line, !ip_line_r, W1, (ip_sym (u k) w), W2 by lia. cbn [sum]. specialize (Z k ltac:(lia)). field. exact Z.
      + intros l H1 H2. rewrite ip_line, W2 by lia. rewrite (O k l) by lia. ring. }
  assert (BB : 0 <= sum n (fun i => 1 - sum m (fun j => u j i * u j i / ip (u j) (u j)))).
  { assert (G : forall a h, (forall i, (i < a)%nat -> 0 <= h i) -> 0 <= sum a h).
    { induction a; intros h H; cbn; [lra|]. specialize (IHa h ltac:(intros; apply H; lia)). specialize (H a ltac:(lia)). lra. }
    apply G. intros i Hi. destruct (W i Hi m (le_n m)) as (w & W1 & _). rewrite <- W1. apply ip_pos. }
  assert (C : forall a c, sum a (fun _ => c) = INR a * c).
  { induction a; intros c; [cbn; ring|]. cbn [sum]. rewrite IHa, S_INR. ring. }
  rewrite (sum_ext n _ (fun i => 1 + -1 * sum m (fun j => u j i * u j i / ip (u j) (u j)))) in BB by (intros; ring).
  rewrite sum_plus, sum_mult, C, sum_exchange in BB.
  rewrite (sum_ext m _ (fun _ => 1)) in BB.
  - rewrite C in BB. apply INR_le. lra.
  - intros j Hj. rewrite (sum_ext n _ (fun i => / ip (u j) (u j) * (u j i * u j i))) by (intros; unfold Rdiv; ring).
    rewrite sum_mult. fold (ip (u j) (u j)). field. apply Z. exact Hj.
Qed.

Lemma residual_vanishes : forall r0 m, (forall j, (j < m)%nat -> ip (rr r0 j) (rr r0 j) <> 0) -> (m <= n)%nat.
Proof.
  intros r0 m Z. apply (orthogonal_bound (rr r0) m); [|exact Z]. intros j l Hj Hl E.
  assert (O : forall j, (j <= m)%nat -> orth r0 j) by (apply orth_all; exact Z).
  destruct (Nat.lt_total j l) as [L|[L|L]]; [|contradiction|].
  - rewrite ip_sym. apply (o_rr _ _ (O l ltac:(lia))). exact L.
  - apply (o_rr _ _ (O j ltac:(lia))). exact L.
Qed.

Lemma spd_loop : forall t max_it, 0 < t -> (Z.of_nat n <= max_it)%Z -> forall r0 fuel j s l, (n + 1 <= fuel + j)%nat -> (1 <= fuel)%nat ->
  itnum s = Z.of_nat j -> numbers n (residual s) (rr r0 j) -> numbers n (search s) (pp r0 j) -> numbers N (loads s) l ->
  (forall i, (i < j)%nat -> ip (rr r0 i) (rr r0 i) <> 0) ->
  exists l' x, cg_loop fuel dom op (Fin t) max_it s = Some (l', false) /\ numbers N l' x.
Proof.
  intros t max_it T MI r0. induction fuel; intros j s l F F1 I Rn Pn Ln Z; [lia|]. cbn [cg_loop]. fold n.
  rewrite (norm_numbers n _ _ Rn). cbn [fleb]. destruct (Rleb t (length2 n (rr r0 j))) eqn:E; [|eauto].
  apply Rleb_true in E.
  assert (Z0 : ip (rr r0 j) (rr r0 j) <> 0).
  { intros Z0. unfold length2 in E. fold (ip (rr r0 j) (rr r0 j)) in E. rewrite Z0, sqrt_0 in E. lra. }
  assert (Z1 : forall i, (i < S j)%nat -> ip (rr r0 i) (rr r0 i) <> 0).
  { intros i Hi. destruct (Nat.eq_dec i j) as [->|]; [exact Z0|apply Z; lia]. }
  pose proof (residual_vanishes r0 (S j) Z1) as J.
  pose proof (pAp_pos r0 j (orth_all r0 j Z j (le_n j)) Z0) as PA.
  cbv zeta. assert (I' : itnum (cg_step dom op s) = Z.of_nat (S j)) by (cbn; rewrite I; lia).
  destruct (max_it <? itnum (cg_step dom op s))%Z eqn:W; [apply Z.ltb_lt in W; lia|].
  assert (Zn : numbers n (gather dom (op (scatter dom (search s)))) (times n M (pp r0 j))).
  { intros k Hk. unfold gather. rewrite (HB _ _ (scatter_numbers _ _ Pn) _ (nth_bound k Hk)). f_equal. apply (times_spread (pp r0 j) k Hk). }
  assert (A : fdiv (dot n (residual s) (residual s)) (dot n (search s) (gather dom (op (scatter dom (search s))))) = Fin (al r0 j)).
  { rewrite (dot_numbers _ _ _ _ _ Rn Rn), (dot_numbers _ _ _ _ _ Pn Zn). cbn [fdiv].
    fold (ip (rr r0 j) (rr r0 j)). fold (ip (pp r0 j) (times n M (pp r0 j))).
    destruct (Reqb _ 0) eqn:Q; [apply Reqb_true in Q; lra|]. reflexivity. }
  assert (Rn' : numbers n (residual (cg_step dom op s)) (rr r0 (S j))).
  { intros k Hk. cbn [cg_step residual]. fold n. rewrite A, (Rn k Hk), (Zn k Hk), rr_S. reflexivity. }
  apply (IHfuel (S j) _ (fun i => l i + al r0 j * spread (pp r0 j) i)); try assumption; try lia.
  - intros k Hk. rewrite pp_S.
    change (search (cg_step dom op s) k) with (fadd (residual (cg_step dom op s) k)
      (fmul (fdiv (dot n (residual (cg_step dom op s)) (residual (cg_step dom op s))) (dot n (residual s) (residual s))) (search s k))).
    rewrite (dot_numbers _ _ _ _ _ Rn' Rn'), (dot_numbers _ _ _ _ _ Rn Rn), (Rn' k Hk), (Pn k Hk). cbn [fdiv].
    fold (ip (rr r0 j) (rr r0 j)). destruct (Reqb _ 0) eqn:Q; [apply Reqb_true in Q; contradiction|]. reflexivity.
  - intros i Hi. cbn [cg_step loads]. fold n. unfold add_to, spread. rewrite A, (Ln i Hi). destruct (position i dom) as [k|] eqn:K; [|f_equal; ring].
    apply position_some in K. destruct K as [K _]. rewrite (Pn k K). reflexivity.
Qed.
End Residual.
