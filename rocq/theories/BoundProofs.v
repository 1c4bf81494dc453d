(** Lemmas for BoundTheorems.v. *)
From Coq Require Import List Bool Arith ZArith Reals Lia Lra.
From Verif Require Import Flt SurfaceModel SurfaceProofs SolverModel SolverSpec SolverProofs BoundSpec.
Import ListNotations.
Local Open Scope R_scope.

(** ** Lengths *)
Notation sq n u := (sum n (fun i => u i * u i)).
Lemma sum_nonneg n u : (forall i, (i < n)%nat -> 0 <= u i) -> 0 <= sum n u.
Proof. induction n as [|n IH]; intros H; cbn; [lra|]. specialize (IH ltac:(intros; apply H; lia)). specialize (H n ltac:(lia)). lra. Qed.
Lemma sum_le n u v : (forall i, (i < n)%nat -> u i <= v i) -> sum n u <= sum n v.
Proof. induction n as [|n IH]; intros H; cbn; [lra|]. specialize (IH ltac:(intros; apply H; lia)). specialize (H n ltac:(lia)). lra. Qed.
Lemma sq_pos n u : 0 <= sq n u.
Proof. apply sum_squares_pos. Qed.
Lemma sq_zero n u : sq n u = 0 -> forall i, (i < n)%nat -> u i = 0.
Proof.
  induction n as [|n IH]; intros H i Hi; [lia|]. cbn in H. pose proof (sq_pos n u). pose proof (Rle_0_sqr (u n)) as Q. unfold Rsqr in Q.
  destruct (Nat.eq_dec i n) as [->|Ne]; [nra|]. apply IH; [lra|lia].
Qed.
Lemma cauchy_schwarz n u v : sum n (fun i => u i * v i) * sum n (fun i => u i * v i) <= sq n u * sq n v.
Proof.
  set (c := sum n (fun i => u i * v i)). destruct (Req_dec (sq n v) 0) as [Z|Z].
  - assert (c = 0). { unfold c. rewrite (sum_ext n _ (fun _ => 0)); [apply sum_zero|]. intros i Hi. rewrite (sq_zero n v Z i Hi). ring. }
    rewrite Z. nra.
  - pose proof (sq_pos n v) as P. assert (P' : 0 < sq n v) by lra. set (s := - c / sq n v).
    assert (Q : 0 <= sq n u + 2 * s * c + s * s * sq n v).
    { pose proof (sq_pos n (fun i => u i + s * v i)) as Q. rewrite (sum_ext n _ (fun i => u i * u i + (2 * s * (u i * v i) + s * s * (v i * v i)))) in Q by (intros; ring).
      rewrite !sum_plus, !sum_mult in Q. fold c in Q. lra. }
    replace (sq n u + 2 * s * c + s * s * sq n v) with (sq n u - c * c / sq n v) in Q by (unfold s; field; lra).
    assert (c * c / sq n v <= sq n u) by lra. apply Rmult_le_compat_r with (r := sq n v) in H; [|lra].
    replace (c * c / sq n v * sq n v) with (c * c) in H by (field; lra). exact H.
Qed.
Lemma length2_sq n u : length2 n u * length2 n u = sq n u.
Proof. apply sqrt_sqrt, sq_pos. Qed.
Lemma length2_le n u c : 0 <= c -> sq n u <= c * c -> length2 n u <= c.
Proof. intros H Q. unfold length2. rewrite <- (sqrt_square c H). apply sqrt_le_1_alt. exact Q. Qed.
Lemma dot_le n u v : sum n (fun i => u i * v i) <= length2 n u * length2 n v.
Proof.
  pose proof (cauchy_schwarz n u v) as C. rewrite <- (length2_sq n u), <- (length2_sq n v) in C. set (c := sum n (fun i => u i * v i)) in *.
  pose proof (length2_pos n u). pose proof (length2_pos n v). assert (0 <= length2 n u * length2 n v) by (apply Rmult_le_pos; assumption). nra.
Qed.
Lemma length2_add n u v : length2 n (fun i => u i + v i) <= length2 n u + length2 n v.
Proof.
  pose proof (length2_pos n u). pose proof (length2_pos n v). apply length2_le; [lra|].
  rewrite (sum_ext n _ (fun i => u i * u i + (2 * (u i * v i) + v i * v i))) by (intros; ring). rewrite !sum_plus, sum_mult.
  rewrite <- (length2_sq n u), <- (length2_sq n v). pose proof (dot_le n u v). nra.
Qed.
Lemma length2_ext n u v : (forall i, (i < n)%nat -> u i = v i) -> length2 n u = length2 n v.
Proof. intros H. unfold length2. f_equal. apply sum_ext. intros i Hi. rewrite H by exact Hi. reflexivity. Qed.
Lemma length2_scale n c u : length2 n (fun i => c * u i) = Rabs c * length2 n u.
Proof.
  unfold length2. rewrite (sum_ext n _ (fun i => (c * c) * (u i * u i))) by (intros; ring). rewrite sum_mult, sqrt_mult by (try apply sq_pos; nra).
  f_equal. fold (Rsqr c). apply sqrt_Rsqr_abs.
Qed.
Lemma length2_mask n (m : nat -> bool) u : length2 n (fun i => if m i then 0 else u i) <= length2 n u.
Proof. apply sqrt_le_1_alt, sum_le. intros i _. destruct (m i); nra. Qed.

(** ** One direction *)
Section Direction.
Variables (n : nat) (A : nat -> nat -> R) (m L : R).
Hypothesis B : between n A m L.
Let ip (u v : nat -> R) := sum n (fun i => u i * v i).
Lemma energy_low z : m * (length2 n z * length2 n z) <= ip z (times n A z).
Proof. rewrite length2_sq. apply B. Qed.
Lemma energy_high z : ip z (times n A z) <= L * (length2 n z * length2 n z).
Proof. pose proof (dot_le n z (times n A z)). destruct B as [_ Q]. destruct (Q z) as [_ Q2]. pose proof (length2_pos n z). unfold ip. nra. Qed.
Lemma L_above z : ip z (times n A z) <> 0 -> m <= L /\ 0 < length2 n z.
Proof.
  intros N. pose proof (energy_low z). pose proof (energy_high z). pose proof (length2_pos n z). destruct B as [Mp _].
  destruct (Req_dec (length2 n z) 0) as [Z|Z]; [rewrite Z in *; exfalso; apply N; nra|]. assert (0 < length2 n z) by lra. split; [|assumption].
  assert (0 < length2 n z * length2 n z) by nra. nra.
Qed.

(** The direction after a quiet pass is not much longer than the residual. *)
Lemma next_direction rp dp ap r d beta :
  ip dp (times n A dp) <> 0 -> ip rp dp = sq n rp -> ap * ip dp (times n A dp) = ip rp dp ->
  (forall i, (i < n)%nat -> r i * (r i - rp i) = - ap * (r i * times n A dp i)) -> ip r dp = 0 ->
  sq n rp <> 0 -> beta * sq n rp = sq n r - ip r rp -> (forall i, (i < n)%nat -> d i = r i + Rmax beta 0 * dp i) ->
  ip r d = sq n r /\ length2 n d <= (1 + L / m) * length2 n r.
Proof.
  intros W O1 Al E O2 Nz Be D. destruct B as [Mp Q]. set (g := Rmax beta 0) in *.
  destruct (L_above dp W) as [ML Pd]. pose proof (length2_pos n r) as Pr. set (w := ip dp (times n A dp)) in *.
  assert (Lm : 0 < L / m) by (apply Rdiv_lt_0_compat; lra).
  split.
  - unfold ip. rewrite (sum_ext n _ (fun i => r i * r i + g * (r i * dp i))) by (intros i Hi; rewrite (D i Hi); ring).
    rewrite sum_plus, sum_mult. fold (ip r dp). rewrite O2. ring.
  - rewrite (length2_ext n d _ D). eapply Rle_trans; [apply length2_add|]. rewrite length2_scale.
    assert (G : Rabs g * length2 n dp <= L / m * length2 n r); [|lra].
    assert (G0 : 0 <= g) by (unfold g; apply Rmax_r). rewrite (Rabs_pos_eq g G0).
    assert (Pn : 0 < sq n rp) by (pose proof (sq_pos n rp); lra).
    assert (Wp : 0 < w). { pose proof (energy_low dp). fold w in H. nra. }
    assert (Ap : 0 < ap). { rewrite O1 in Al. destruct (Rlt_le_dec 0 ap) as [?|?]; [assumption|nra]. }
    destruct (Rle_lt_dec beta 0) as [Hb|Hb]; [unfold g; rewrite Rmax_right by lra; nra|].
    assert (Eg : g = beta) by (unfold g; apply Rmax_left; lra). rewrite Eg.
    assert (U : beta * sq n rp <= ap * (length2 n r * (L * length2 n dp))).
    { rewrite Be. unfold ip. replace (sq n r - sum n (fun i => r i * rp i)) with (sum n (fun i => r i * (r i - rp i))).
      2:{ rewrite (sum_ext n _ (fun i => r i * r i + -1 * (r i * rp i))) by (intros; ring). rewrite sum_plus, sum_mult. ring. }
      rewrite (sum_ext n _ (fun i => ap * (- r i * times n A dp i))) by (intros i Hi; rewrite (E i Hi); ring). rewrite sum_mult.
      apply Rmult_le_compat_l; [lra|]. eapply Rle_trans; [apply (dot_le n (fun i => - r i))|].
      replace (length2 n (fun i => - r i)) with (length2 n r).
      2:{ unfold length2. f_equal. apply sum_ext. intros. ring. }
      apply Rmult_le_compat_l; [exact Pr|apply Q]. }
    (* ap = sq rp / w and m |dp|^2 <= w *)
    rewrite O1 in Al. pose proof (energy_low dp) as Lo. fold w in Lo.
    assert (V : ap * (m * (length2 n dp * length2 n dp)) <= sq n rp).
    { rewrite <- Al. apply Rmult_le_compat_l; lra. }
    apply Rmult_le_reg_l with (m * sq n rp); [apply Rmult_lt_0_compat; lra|].
    replace (m * sq n rp * (L / m * length2 n r)) with (L * length2 n r * sq n rp) by (field; lra).
    apply Rle_trans with (m * length2 n dp * (ap * (length2 n r * (L * length2 n dp)))).
    + replace (m * sq n rp * (beta * length2 n dp)) with (m * length2 n dp * (beta * sq n rp)) by ring.
      apply Rmult_le_compat_l; [apply Rmult_le_pos; lra|exact U].
    + replace (m * length2 n dp * (ap * (length2 n r * (L * length2 n dp)))) with (L * length2 n r * (ap * (m * (length2 n dp * length2 n dp)))) by ring.
      apply Rmult_le_compat_l; [apply Rmult_le_pos; lra|exact V].
Qed.

(** A step along such a direction bounds the residual before and after it. *)
Lemma step_bounds r d a q : ip d (times n A d) <> 0 -> a * ip d (times n A d) = ip r d -> ip r d = sq n r -> length2 n d <= (1 + L / m) * length2 n r ->
  (forall i, (i < n)%nat -> q i = 0 \/ q i = r i - a * times n A d i) ->
  length2 n q <= L * (2 + L / m) * length2 n (fun i => a * d i).
Proof.
  intros W Al O Dl Qr. destruct B as [Mp Qb]. destruct (L_above d W) as [ML Pd]. set (w := ip d (times n A d)) in *.
  assert (Lm : 0 < L / m) by (apply Rdiv_lt_0_compat; lra). pose proof (length2_pos n r) as Pr.
  assert (Wp : 0 < w). { pose proof (energy_low d). fold w in H. nra. }
  assert (Ap : 0 <= a). { pose proof (sq_pos n r). destruct (Rle_lt_dec 0 a) as [?|?]; [assumption|]. nra. }
  rewrite length2_scale, (Rabs_pos_eq a Ap).
  assert (R1 : length2 n r <= L * (1 + L / m) * (a * length2 n d)).
  { destruct (Req_dec (length2 n r) 0) as [Z|Z].
    - rewrite Z. apply Rmult_le_pos; [apply Rmult_le_pos; lra|apply Rmult_le_pos; lra].
    - pose proof (energy_high d) as Hi. fold w in Hi. rewrite <- (length2_sq n r) in O. rewrite O in Al.
      apply Rmult_le_reg_l with (length2 n r); [lra|].
      apply Rle_trans with (a * (L * (length2 n d * length2 n d))); [rewrite <- Al; apply Rmult_le_compat_l; lra|].
      replace (a * (L * (length2 n d * length2 n d))) with (a * L * length2 n d * length2 n d) by ring.
      replace (length2 n r * (L * (1 + L / m) * (a * length2 n d))) with (a * L * length2 n d * ((1 + L / m) * length2 n r)) by ring.
      apply Rmult_le_compat_l; [apply Rmult_le_pos; [apply Rmult_le_pos; lra|lra]|exact Dl]. }
  assert (R2 : length2 n (fun i => - a * times n A d i) <= L * (a * length2 n d)).
  { rewrite length2_scale, Rabs_Ropp, (Rabs_pos_eq a Ap). destruct (Qb d) as [_ Q2]. nra. }
  assert (R3 : length2 n q <= length2 n (fun i => r i + - a * times n A d i)).
  { apply sqrt_le_1_alt, sum_le. intros i Hi. destruct (Qr i Hi) as [->| ->].
    - rewrite Rmult_0_l. apply Rle_0_sqr.
    - right. ring. }
  eapply Rle_trans; [exact R3|]. eapply Rle_trans; [apply length2_add|].
  replace (L * (2 + L / m) * (a * length2 n d)) with (L * (1 + L / m) * (a * length2 n d) + L * (a * length2 n d)) by ring. lra.
Qed.
End Direction.

(** ** Quiet passes *)
Section Quiet.
Variables (n : nat) (f : vec -> vec) (b : vec) (tol : flt) (max_it : Z) (mp : vec).
Variables (A : nat -> nat -> R) (bb : nat -> R).
Hypothesis HA : is_matrix n f A.
Hypothesis Hb : numbers n b bb.
Hypothesis Hm : forall i, (i < n)%nat -> non_negative (mp i).
Let step := bccg_step n f b tol max_it mp 1.
Let con := consistent n mp A bb.
Definition held (s : bcg) (i : nat) : bool := msk_0 s i || msk_max s i.
Definition left_at (s : bcg) (y : nat -> R) (i : nat) : R := if held s i then 0 else - (times n A y i - bb i).
Notation ip u v := (sum n (fun i => u i * v i)).

(** What is known about a pass whose loads went straight along the direction [d], from [y] by [a d]. *)
Record straight (s : bcg) (y d : nat -> R) (a : R) : Prop := {
  st_y : numbers n (bx s) y;
  st_w : ip d (times n A d) <> 0;
  st_a : a * ip d (times n A d) = ip (left_at s y) d;
  st_held : forall i, (i < n)%nat -> held s i = true -> d i = 0;
  st_first : it s = 0%Z -> forall i, (i < n)%nat -> d i = left_at s y i;
  st_next : it s <> 0%Z -> forall rp dp rh, numbers n (br s) rp -> numbers n (bp s) dp -> rho s = Fin rh -> rh <> 0 ->
    forall i, (i < n)%nat -> held s i = false -> d i = left_at s y i + Rmax ((sq n (left_at s y) - ip (left_at s y) rp) / rh) 0 * dp i }.

Lemma pass_straight s res r p q alpha upd x1 x2 outer prj_0 prj_max g m0 mm changed free x :
  pass n f b tol max_it mp 1 s res r p q alpha upd x1 x2 outer prj_0 prj_max g m0 mm changed free -> con s -> (1 <= n)%nat -> (0 <= it s)%Z ->
  numbers n (fun i => fadd (bx s i) (fmul alpha (p i))) x ->
  exists y d a, straight s y d a /\ numbers n p d /\ numbers n r (left_at s y) /\ forall i, (i < n)%nat -> x i = y i + a * d i.
Proof.
  intros Q C N It X. pose proof Q as Q'.
  destruct (finite_pass n f b tol max_it mp 1 A bb HA s res r p q alpha upd x1 x2 outer prj_0 prj_max g m0 mm changed free Q C N x X) as (y & a & d & Y & Ea & D & Qn & L).
  destruct Q as [Pr Pp Pq Pa Px1 Pu Po P0 Pm Px2 Pg Pm0 Pmm Pc Pres Pfree].
  pose proof (con_g _ _ _ _ s C y Y) as Gy.
  assert (Nr : numbers n r (left_at s y)).
  { intros i Hi. rewrite Pr. unfold left_at, held. destruct (msk_0 s i || msk_max s i); [reflexivity|]. rewrite (Gy i Hi). reflexivity. }
  exists y, d, a. split; [|split; [exact D|split; [exact Nr|exact L]]].
  rewrite (dot_numbers n r p _ d Nr D), (dot_numbers n p q d (times n A d) D Qn), Ea in Pa.
  assert (W : ip d (times n A d) <> 0).
  { intros W. rewrite W in Pa. unfold fdiv in Pa. destruct (Reqb 0 0) eqn:F; [|apply Reqb_false in F; lra].
    unfold signed_inf in Pa. repeat match type of Pa with context [if ?c then _ else _] => destruct c end; discriminate. }
  rewrite fin_div in Pa by exact W. injection Pa as Pa.
  constructor.
  - exact Y.
  - exact W.
  - rewrite Pa. field. exact W.
  - intros i Hi H. pose proof (D i Hi) as Di. unfold held in H. rewrite Pp, H in Di. congruence.
  - intros Z i Hi. pose proof (D i Hi) as Di. rewrite Pp, Z in Di. change (1 <? 0 + 1)%Z with false in Di. rewrite (Nr i Hi) in Di. unfold left_at, held in *.
    destruct (msk_0 s i || msk_max s i); congruence.
  - intros Z rp dp rh Rp Dp Rh Nz i Hi Hh. pose proof (D i Hi) as Di. unfold held in Hh. rewrite Pp, Hh in Di.
    replace (1 <? it s + 1)%Z with true in Di by (symmetry; apply Z.ltb_lt; lia).
    rewrite (dot_numbers n r r _ _ Nr Nr), (dot_numbers n r (br s) _ _ Nr Rp), Rh in Di. cbn [fsub fadd fneg] in Di. rewrite fin_div in Di by exact Nz.
    rewrite (Nr i Hi), (Dp i Hi) in Di. set (be := _ / rh) in Di. assert (Eb : fmax (Fin be) (Fin 0) = Fin (Rmax be 0)).
    { cbn. unfold Rmax. destruct (Rltb be 0) eqn:E, (Rle_dec be 0); try reflexivity; [apply Rltb_true in E; lra|apply Rltb_false in E; f_equal; lra]. }
    rewrite Eb in Di. cbn in Di. injection Di as <-. reflexivity.
Qed.

Lemma zero_step alpha v : v = Fin 0 \/ v = NaN -> fltb (fadd v (fmul alpha (Fin 0))) (Fin (- small)) = false.
Proof.
  pose proof small_pos. intros [->| ->]; [|rewrite fadd_nan_l; apply fltb_nan_l].
  assert (Z : signed_inf 0 = NaN) by (unfold signed_inf; destruct (Rltb 0 0) eqn:E; [apply Rltb_true in E; lra|reflexivity]).
  assert (Z' : signed_inf (- 0) = NaN) by (rewrite Ropp_0; exact Z).
  destruct alpha as [a| | |]; cbn; rewrite ?Z, ?Z'; cbn; try reflexivity. apply Rltb_false. lra.
Qed.
Lemma full_step alpha v w : non_negative w -> v = w \/ v = NaN ->
  fltb (fadd v (fmul alpha (Fin 0))) (Fin (- small)) = false /\ (fadd v (fmul alpha (Fin 0)) = w \/ fadd v (fmul alpha (Fin 0)) = NaN).
Proof.
  pose proof small_pos. intros N [->| ->]; [|rewrite fadd_nan_l; split; [apply fltb_nan_l|auto]].
  assert (Z : signed_inf 0 = NaN) by (unfold signed_inf; destruct (Rltb 0 0) eqn:E; [apply Rltb_true in E; lra|reflexivity]).
  assert (Z' : signed_inf (- 0) = NaN) by (rewrite Ropp_0; exact Z).
  destruct w as [u| | |]; cbn in N; try contradiction; destruct alpha as [a| | |]; cbn; rewrite ?Z, ?Z'; cbn; auto.
  replace (u + a * 0) with u by ring. split; [apply Rltb_false; lra|auto].
Qed.
(** A quiet pass does not cut off any load. *)
Lemma quiet_line s r p q alpha upd x1 x2 outer prj_0 prj_max g m0 mm changed free s' :
  pass n f b tol max_it mp 1 s (step s) r p q alpha upd x1 x2 outer prj_0 prj_max g m0 mm changed free -> con s -> step s = inl s' -> quiet n mp s s' ->
  forall y' i, numbers n (bx s') y' -> (i < n)%nat -> fadd (bx s i) (fmul alpha (p i)) = bx s' i.
Proof.
  intros Q C E H y' i Y' Hi. destruct Q as [Pr Pp Pq Pa Px1 Pu Po P0 Pm Px2 Pg Pm0 Pmm Pc Pres Pfree]. rewrite E in Pres.
  repeat match type of Pres with _ = (if ?c then _ else _) => destruct c; [discriminate|] end. injection Pres as ->.
  unfold quiet in H. cbn [bx msk_0 msk_max] in *. destruct (H i Hi) as (H0 & H1 & H2). specialize (Hm i Hi). specialize (Y' i Hi).
  destruct (msk_0 s i) eqn:K0.
  - (* held at zero *)
    pose proof (con_0 _ _ _ _ s C i Hi K0) as B. assert (Ep : p i = Fin 0) by (rewrite Pp, K0; reflexivity).
    assert (F0 : prj_0 i = false) by (rewrite P0, Ep, (zero_step alpha _ B); apply andb_false_r).
    destruct (prj_max i) eqn:Fm; [|rewrite Px2, Fm, Px1, F0; reflexivity].
    rewrite Pm, Px1, F0, Ep in Fm. apply andb_true_iff in Fm as [_ Fm].
    assert (V : fadd (bx s i) (fmul alpha (Fin 0)) = Fin 0 \/ fadd (bx s i) (fmul alpha (Fin 0)) = NaN).
    { apply (full_step alpha (bx s i) (Fin 0)); [cbn; lra|exact B]. }
    destruct V as [V|V]; rewrite V in Fm; [|rewrite fleb_nan_r in Fm; discriminate].
    assert (mp i = Fin 0).
    { pose proof small_pos. destruct (mp i) as [m| | |]; cbn in Hm, Fm; try contradiction.
      - apply Rleb_true in Fm. f_equal. nra.
      - unfold signed_inf in Fm. destruct (Rltb 0 (1 + small)) eqn:F; [discriminate|]. apply Rltb_false in F. lra. }
    rewrite Px2, Ep, V. destruct (prj_max i); [congruence|]. rewrite Px1, F0, Ep, V. reflexivity.
  - destruct (msk_max s i) eqn:K1.
    + pose proof (con_max _ _ _ _ s C i Hi K1) as B. assert (Ep : p i = Fin 0) by (rewrite Pp, K0, K1; reflexivity).
      destruct (full_step alpha _ _ Hm B) as [F V].
      assert (F0 : prj_0 i = false) by (rewrite P0, Ep, F; apply andb_false_r).
      rewrite Px2, Ep. destruct (prj_max i) eqn:Fm; [|rewrite Px1, F0, Ep; reflexivity].
      rewrite Px2, Fm in Y'. destruct V as [V|V]; [exact V|]. rewrite Pm, Px1, F0, Ep, V, fleb_nan_r, andb_false_r in Fm. discriminate.
    + destruct (H2 H0 H1) as [N0 N1]. assert (Fm : prj_max i = false) by (destruct (prj_max i) eqn:Fm; [exfalso; apply N1; rewrite Px2, Fm; reflexivity|reflexivity]).
      assert (F0 : prj_0 i = false) by (destruct (prj_0 i) eqn:F0; [exfalso; apply N0; rewrite Px2, Fm, Px1, F0; reflexivity|reflexivity]).
      rewrite Px2, Fm, Px1, F0. reflexivity.
Qed.
Lemma quiet_straight s s' y' : con s -> (1 <= n)%nat -> (0 <= it s)%Z -> step s = inl s' -> quiet n mp s s' -> numbers n (bx s') y' ->
  exists y d a, straight s y d a /\ numbers n (bp s') d /\ numbers n (br s') (left_at s y) /\ rho s' = Fin (sq n (left_at s y)) /\
    (forall i, (i < n)%nat -> y' i = y i + a * d i) /\ it s' = (it s + 1)%Z.
Proof.
  intros C N It E H Y'. destruct (step_pass n f b tol max_it mp 1 s) as (r & p & q & alpha & upd & x1 & x2 & outer & prj_0 & prj_max & g & m0 & mm & changed & free & Q).
  assert (X : numbers n (fun i => fadd (bx s i) (fmul alpha (p i))) y').
  { intros i Hi. cbv beta. rewrite (quiet_line s r p q alpha upd x1 x2 outer prj_0 prj_max g m0 mm changed free s' Q C E H y' i Y' Hi). apply Y'. exact Hi. }
  destruct (pass_straight _ _ _ _ _ _ _ _ _ _ _ _ _ _ _ _ _ y' Q C N It X) as (y & d & a & St & D & Nr & L).
  pose proof (pass_res _ _ _ _ _ _ _ _ _ _ _ _ _ _ _ _ _ _ _ _ _ _ _ _ Q) as Pres. unfold step in E. rewrite E in Pres.
  repeat match type of Pres with _ = (if ?c then _ else _) => destruct c; [discriminate|] end. injection Pres as ->. cbn [bp br rho it].
  exists y, d, a. split; [exact St|]. split; [exact D|]. split; [exact Nr|]. split; [apply dot_numbers; exact Nr|]. split; [exact L|reflexivity].
Qed.

(** The residual of the state after a quiet pass. *)
Lemma left_next s s' y d a y' : quiet n mp s s' -> straight s y d a -> (forall i, (i < n)%nat -> y' i = y i + a * d i) ->
  (forall i, (i < n)%nat -> left_at s' y' i = if held s i then 0 else left_at s y i - a * times n A d i) /\
  sum n (fun i => left_at s' y' i * d i) = 0.
Proof.
  intros H St L. assert (E : forall i, (i < n)%nat -> left_at s' y' i = if held s i then 0 else left_at s y i - a * times n A d i).
  { intros i Hi. unfold left_at, held. destruct (H i Hi) as (H0 & H1 & _). rewrite H0, H1. destruct (msk_0 s i || msk_max s i); [reflexivity|].
    rewrite (times_ext n A y' (fun j => y j + a * d j) i L), times_line. ring. }
  split; [exact E|]. rewrite (sum_ext n _ (fun i => left_at s y i * d i + - a * (d i * times n A d i))).
  - rewrite sum_plus, sum_mult. pose proof (st_a _ _ _ _ St). cbn beta in *. lra.
  - intros i Hi. rewrite (E i Hi). destruct (held s i) eqn:K; [rewrite (st_held _ _ _ _ St i Hi K)|]; ring.
Qed.
(** The direction of a straight pass that was the first, or that follows a quiet pass that was the first or follows a quiet pass. *)
Variables (m L : R).
Hypothesis B : between n A m L.
Definition good_direction (s : bcg) (y d : nat -> R) : Prop := sum n (fun i => left_at s y i * d i) = sq n (left_at s y).
Lemma first_good s y d a : straight s y d a -> it s = 0%Z -> good_direction s y d.
Proof. intros St Z. apply sum_ext. intros i Hi. rewrite (st_first _ _ _ _ St Z i Hi). reflexivity. Qed.
(** After a quiet pass. *)
Lemma after_quiet s s' y d a y' d' a' : (0 <= it s)%Z -> quiet n mp s s' -> straight s y d a -> numbers n (bp s') d -> numbers n (br s') (left_at s y) ->
  rho s' = Fin (sq n (left_at s y)) -> (forall i, (i < n)%nat -> y' i = y i + a * d i) -> it s' = (it s + 1)%Z -> straight s' y' d' a' ->
  sq n (left_at s' y') <> 0 -> good_direction s' y' d' /\ (good_direction s y d -> length2 n d' <= (1 + L / m) * length2 n (left_at s' y')).
Proof.
  intros It H St D Br Rh Ly Is St' Nz. destruct (left_next s s' y d a y' H St Ly) as [E O].
  assert (Np : sq n (left_at s y) <> 0).
  { intros Z. apply Nz. pose proof (sq_zero n _ Z) as Z'. assert (Az : a = 0).
    { pose proof (st_a _ _ _ _ St) as Al. cbn beta in Al. rewrite (sum_ext n (fun i => left_at s y i * d i) (fun _ => 0)) in Al by (intros i Hi; rewrite (Z' i Hi); ring).
      rewrite sum_zero in Al. pose proof (st_w _ _ _ _ St). cbn beta in *. apply Rmult_integral in Al. tauto. }
    rewrite (sum_ext n _ (fun _ => 0)); [apply sum_zero|]. intros i Hi. rewrite (E i Hi), (Z' i Hi), Az. destruct (held s i); ring. }
  assert (Dn : forall i, (i < n)%nat -> d' i = left_at s' y' i + Rmax ((sq n (left_at s' y') - sum n (fun i => left_at s' y' i * left_at s y i)) / sq n (left_at s y)) 0 * d i).
  { intros i Hi. destruct (held s' i) eqn:K.
    - rewrite (st_held _ _ _ _ St' i Hi K). assert (K' : held s i = true) by (unfold held in *; destruct (H i Hi) as (<- & <- & _); exact K).
      rewrite (st_held _ _ _ _ St i Hi K'). unfold left_at at 1. rewrite K. ring.
    - apply (st_next _ _ _ _ St' ltac:(lia) _ _ _ Br D Rh Np i Hi K). }
  set (be := _ / sq n (left_at s y)) in Dn. split.
  - unfold good_direction. rewrite (sum_ext n _ (fun i => left_at s' y' i * left_at s' y' i + Rmax be 0 * (left_at s' y' i * d i))) by (intros i Hi; rewrite (Dn i Hi); ring).
    rewrite sum_plus, sum_mult, O. ring.
  - intros G. apply (next_direction n A m L B (left_at s y) d a (left_at s' y') d' be).
    + exact (st_w _ _ _ _ St).
    + exact G.
    + exact (st_a _ _ _ _ St).
    + intros i Hi. rewrite (E i Hi). destruct (held s i); ring.
    + exact O.
    + exact Np.
    + unfold be. field. exact Np.
    + exact Dn.
Qed.

Lemma state_before k : forall s0 s, state_after (S k) n f b tol max_it mp 1 s0 = Some s ->
  exists s1, state_after k n f b tol max_it mp 1 s0 = Some s1 /\ step s1 = inl s.
Proof.
  induction k as [|k IH]; intros s0 s H.
  - cbn in H. fold step in H. exists s0. split; [reflexivity|]. destruct (step s0); [congruence|discriminate].
  - cbn [state_after] in H. fold step in H. destruct (step s0) as [s2|] eqn:E; [|discriminate]. destruct (IH s2 s H) as (s1 & H1 & H2).
    exists s1. split; [|exact H2]. cbn [state_after]. fold step. rewrite E. exact H1.
Qed.
Lemma state_con k : forall s0 s, con s0 -> it s0 = 0%Z -> state_after k n f b tol max_it mp 1 s0 = Some s -> con s /\ it s = Z.of_nat k.
Proof.
  induction k as [|k IH]; intros s0 s C I H; [cbn in H; injection H as <-; split; [exact C|rewrite I; reflexivity]|].
  destruct (state_before k s0 s H) as (s1 & H1 & E). destruct (IH s0 s1 C I H1) as [C1 I1]. split.
  - exact (step_consistent n f b tol max_it mp 1 A bb HA Hb Hm s1 s C1 E).
  - destruct (step_it n f b tol max_it mp 1 s1 s E) as [-> _]. lia.
Qed.

(** The last pass of a settled run. *)
Lemma settled_direction s0 k s x y d a : con s0 -> it s0 = 0%Z -> (1 <= n)%nat -> state_after k n f b tol max_it mp 1 s0 = Some s -> settled n f b tol max_it mp s0 k ->
  straight s y d a -> (forall i, (i < n)%nat -> x i = y i + a * d i) -> sq n (left_at s y) <> 0 ->
  good_direction s y d /\ length2 n d <= (1 + L / m) * length2 n (left_at s y).
Proof.
  intros C I N S Se St Lx Nz. assert (Lm : 0 < L / m).
  { destruct (L_above n A m L B d (st_w _ _ _ _ St)) as [ML _]. destruct B as [Mp _]. apply Rdiv_lt_0_compat; lra. }
  destruct k as [|k].
  - cbn in S. injection S as <-. split; [exact (first_good s0 y d a St I)|].
    rewrite (length2_ext n d (left_at s0 y) (st_first _ _ _ _ St I)). pose proof (length2_pos n (left_at s0 y)). nra.
  - destruct (state_before k s0 s S) as (s1 & S1 & E1). destruct (state_con k s0 s1 C I S1) as [C1 I1].
    assert (Q1 : quiet n mp s1 s) by (apply (Se k s1 s); [lia|lia|exact S1|exact S]).
    destruct (quiet_straight s1 s y C1 N ltac:(lia) E1 Q1 (st_y _ _ _ _ St)) as (y1 & d1 & a1 & St1 & D1 & Br1 & Rh1 & L1 & It1).
    destruct (after_quiet s1 s y1 d1 a1 y d a ltac:(lia) Q1 St1 D1 Br1 Rh1 L1 It1 St Nz) as [G1 G2]. split; [exact G1|]. apply G2.
    destruct k as [|k].
    + cbn in S1. injection S1 as <-. exact (first_good s0 y1 d1 a1 St1 I).
    + destruct (state_before k s0 s1 S1) as (s2 & S2 & E2). destruct (state_con k s0 s2 C I S2) as [C2 I2].
      assert (Q2 : quiet n mp s2 s1) by (apply (Se k s2 s1); [lia|lia|exact S2|exact S1]).
      destruct (quiet_straight s2 s1 y1 C2 N ltac:(lia) E2 Q2 (st_y _ _ _ _ St1)) as (y2 & d2 & a2 & St2 & D2 & Br2 & Rh2 & L2 & It2).
      destruct (Req_dec (sq n (left_at s1 y1)) 0) as [Z|Z].
      * exfalso. apply Nz. pose proof (sq_zero n _ Z) as Z'. destruct (left_next s1 s y1 d1 a1 y Q1 St1 L1) as [E O]. assert (Az : a1 = 0).
        { pose proof (st_a _ _ _ _ St1) as Al. cbn beta in Al. rewrite (sum_ext n (fun i => left_at s1 y1 i * d1 i) (fun _ => 0)) in Al by (intros i Hi; rewrite (Z' i Hi); ring).
          rewrite sum_zero in Al. pose proof (st_w _ _ _ _ St1). cbn beta in *. apply Rmult_integral in Al. tauto. }
        rewrite (sum_ext n _ (fun _ => 0)); [apply sum_zero|]. intros i Hi. rewrite (E i Hi), (Z' i Hi), Az. destruct (held s1 i); ring.
      * exact (proj1 (after_quiet s2 s1 y2 d2 a2 y1 d1 a1 ltac:(lia) Q2 St2 D2 Br2 Rh2 L2 It2 St1 Z)).
Qed.
Lemma converged_straight s v t : con s -> (0 <= it s)%Z -> tol = Fin t -> step s = inr (v, false) ->
  (1 <= n)%nat /\ exists x y d a, numbers n v x /\ straight s y d a /\ forall i, (i < n)%nat -> x i = y i + a * d i.
Proof.
  intros C It T E. destruct (step_pass n f b tol max_it mp 1 s) as (r & p & q & alpha & upd & x1 & x2 & outer & prj_0 & prj_max & g & m0 & mm & changed & free & Q).
  pose proof Q as Q'. destruct Q as [Pr Pp Pq Pa Px1 Pu Po P0 Pm Px2 Pg Pm0 Pmm Pc Pres Pfree]. unfold step in E. rewrite E in Pres.
  destruct (free =? 0)%Z; [discriminate|]. destruct (max_it <? it s + 1)%Z; [discriminate|].
  destruct (outer && negb changed && fltb upd tol) eqn:O; [|discriminate]. injection Pres as ->.
  apply andb_true_iff in O. destruct O as [O U]. apply andb_true_iff in O. destruct O as [_ O]. apply negb_true_iff in O. rewrite Pc in O.
  apply orb_false_iff in O. destruct O as [O _]. apply orb_false_iff in O. destruct O as [N0 Nm].
  assert (X : forall i, (i < n)%nat -> x2 i = fadd (bx s i) (fmul alpha (p i))).
  { intros i Hi. rewrite Px2, (any_none _ _ Nm i Hi), Px1, (any_none _ _ N0 i Hi). reflexivity. }
  set (x := fun i => match x2 i with Fin u => u | _ => 0 end).
  assert (NX : numbers n x2 x).
  { intros i Hi. rewrite Pu in U. destruct (fltb_upd _ _ _ _ _ U i Hi) as (u & F). unfold x. rewrite X, F by exact Hi. reflexivity. }
  assert (N1 : (1 <= n)%nat).
  { destruct n; [|lia]. rewrite Pu, T in U. unfold norm in U. cbn [dot] in U. unfold fsqrt in U at 1 3.
    destruct (Rltb 0 0) eqn:F; [apply Rltb_true in F; lra|]. rewrite sqrt_0 in U. apply upd_small in U; lra. }
  split; [exact N1|].
  assert (NX' : numbers n (fun i => fadd (bx s i) (fmul alpha (p i))) x).
  { intros i Hi. rewrite <- X by exact Hi. apply NX. exact Hi. }
  destruct (pass_straight _ _ _ _ _ _ _ _ _ _ _ _ _ _ _ _ _ x Q' C N1 It NX') as (y & d & a & St & _ & _ & Lx).
  exists x, y, d, a. auto.
Qed.
End Quiet.
