(** C39 and C40: tridiagonal and cyclic tridiagonal systems. *)
From Coq Require Import Bool Arith ZArith Reals Lia Lra.
From Verif Require Import Py SurfaceModel SurfaceProofs SolverProofs GapProofs TdmaModel TdmaSpec TdmaProofs.
Local Open Scope R_scope.

(** ** C39 *)
(** The tridiagonal solver solves every regular system of every size. The lower diagonal of the
    call starts at row 1. *)
Theorem c39_tdma : forall n lower main upper rhs,
  let row x := tri_row n (fun i => lower (i - 1)%nat) main upper x in
  regular n row -> solves n row rhs (tdma n lower main upper rhs).
Proof.
  intros n lower main upper rhs row R. unfold tdma.
  destruct (gtsv_regular n (fun i => lower (i - 1)%nat) main upper rhs R) as (x & -> & S). exact S.
Qed.
Print Assumptions c39_tdma.

(** The cyclic solver solves every regular cyclic system of size at least two whose modified
    matrix (first and last diagonal entry changed) is regular too. *)
Theorem c39_cyclic : forall n lower main upper rhs, (2 <= n)%nat ->
  regular n (fun x => cyclic_row n lower main upper x) ->
  regular n (fun x => tri_row n lower (modified n lower main upper) upper x) ->
  solves n (fun x => cyclic_row n lower main upper x) rhs (fst (cyclic_tdma (fun v => v) (fun v => v) n lower main upper rhs)).
Proof.
  intros n l d u rhs Hn Rc Rm. unfold cyclic_tdma.
  set (gamma := if Reqb (d 0%nat) 0 then 1 else - d 0%nat).
  set (main2 := set (set d 0 (d 0%nat - gamma)) (n - 1) _).
  assert (Eg : gamma = if Req_EM_T (d 0%nat) 0 then 1 else - d 0%nat).
  { unfold gamma. destruct (Reqb (d 0%nat) 0) eqn:E; [apply Reqb_true in E|apply Reqb_false in E]; destruct (Req_EM_T (d 0%nat) 0); congruence. }
  assert (G : gamma <> 0) by (rewrite Eg; destruct (Req_EM_T (d 0%nat) 0); lra).
  assert (Em : forall i, (i < n)%nat -> main2 i = modified n l d u i).
  { intros i Hi. unfold main2, modified, set. rewrite <- Eg. destruct (Nat.eqb_spec i 0), (Nat.eqb_spec i (n - 1)), (Nat.eqb_spec (i + 1) n); try lia.
    - subst i. lra.
    - subst i. destruct (Nat.eqb_spec (n - 1) 0); [lia|]. lra.
    - lra. }
  assert (Er : forall x i, (i < n)%nat -> tri_row n l main2 u x i = tri_row n l (modified n l d u) u x i) by (intros; apply tri_row_ext; auto).
  assert (Rm2 : regular n (fun x => tri_row n l main2 u x)).
  { intros x H. apply Rm. intros i Hi. rewrite <- Er by exact Hi. apply H. exact Hi. }
  destruct (gtsv_regular n l main2 u rhs Rm2) as (x & -> & X).
  set (uu := set (set (fun _ => 0) 0 gamma) (n - 1) (u (n - 1)%nat)).
  destruct (gtsv_regular n l main2 u uu Rm2) as (z & -> & Z). cbn [fst].
  assert (Euu : forall i, (i < n)%nat -> uu i = if Nat.eqb i 0 then gamma else if Nat.eqb (i + 1) n then u (n - 1)%nat else 0).
  { intros i Hi. unfold uu, set. destruct (Nat.eqb_spec i 0), (Nat.eqb_spec i (n - 1)), (Nat.eqb_spec (i + 1) n); try lia; reflexivity. }
  assert (Sp : forall y i, (i < n)%nat -> cyclic_row n l d u y i = tri_row n l main2 u y i + uu i * (y 0%nat + y (n - 1)%nat * l 0%nat / gamma)).
  { intros y i Hi. rewrite Euu, Er, Eg by exact Hi. apply cyclic_split; assumption. }
  set (v := fun y : arr => y 0%nat + y (n - 1)%nat * l 0%nat / gamma).
  assert (Dn : 1 + z 0%nat + z (n - 1)%nat * l 0%nat / gamma <> 0).
  { intros E. assert (K : forall i, (i < n)%nat -> cyclic_row n l d u z i = 0).
    { intros i Hi. rewrite Sp, (Z i Hi) by exact Hi. fold (v z). replace (v z) with (- 1) by (unfold v; lra). lra. }
    pose proof (Rc z K) as Z0. pose proof (Z 0%nat ltac:(lia)) as C0. cbn beta in C0. rewrite Euu in C0 by lia. cbn [Nat.eqb] in C0.
    assert (T : tri_row n l main2 u z 0 = 0).
    { unfold tri_row. cbn [Nat.eqb]. rewrite (Z0 0%nat) by lia. destruct (Nat.eqb_spec (0 + 1) n); [lia|]. rewrite (Z0 (0 + 1)%nat) by lia. lra. }
    lra. }
  intros i Hi. rewrite Sp by exact Hi. rewrite tri_row_linear, (X i Hi), (Z i Hi). field_simplify_eq; [|split; [exact G|]].
  - ring.
  - intros E. apply Dn. apply (Rmult_eq_reg_r gamma); [|exact G]. rewrite Rmult_0_l.
    replace ((1 + z 0%nat + z (n - 1)%nat * l 0%nat / gamma) * gamma) with (gamma + z 0%nat * gamma + z (n - 1)%nat * l 0%nat) by (field; exact G). lra.
Qed.
Print Assumptions c39_cyclic.

(** Every strictly diagonally dominant cyclic system is solved, and the solution is the only
    one. *)
Theorem c39_dominant : forall n lower main upper rhs, (2 <= n)%nat ->
  (forall i, (i < n)%nat -> Rabs (lower i) + Rabs (upper i) < Rabs (main i)) ->
  let x := fst (cyclic_tdma (fun v => v) (fun v => v) n lower main upper rhs) in
  solves n (fun x => cyclic_row n lower main upper x) rhs x /\
  forall y, solves n (fun x => cyclic_row n lower main upper x) rhs y -> forall i, (i < n)%nat -> y i = x i.
Proof.
  intros n lower main upper rhs Hn D x.
  assert (S : solves n (fun x => cyclic_row n lower main upper x) rhs x).
  { apply c39_cyclic; [exact Hn|apply dominant_cyclic; assumption|apply dominant_modified; assumption]. }
  split; [exact S|]. intros y Y. apply (regular_unique n lower main upper rhs y x); [apply dominant_cyclic; assumption|exact Y|exact S].
Qed.
Print Assumptions c39_dominant.
Example c39_dominant_case : forall i, (i < 4)%nat -> Rabs (-1) + Rabs 2 < Rabs 4.
Proof. intros. rewrite (Rabs_left (-1)), !Rabs_pos_eq by lra. lra. Qed.

(** Refuted: a regular cyclic system whose modified matrix is singular. No error is raised and
    the result is wrong for every right hand side with a last entry other than zero. *)
Theorem c39_singular_refuted : exists lower main upper,
  regular 3 (fun x => cyclic_row 3 lower main upper x) /\
  forall rhs, rhs 2%nat <> 0 ->
    ~ solves 3 (fun x => cyclic_row 3 lower main upper x) rhs (fst (cyclic_tdma (fun v => v) (fun v => v) 3 lower main upper rhs)).
Proof.
  set (l := fun i : nat => match i with O => 1 | _ => 0 end). set (d := fun i : nat => match i with 2%nat => -1 | _ => 1 end).
  set (u := fun i : nat => match i with 2%nat => 1 | _ => 0 end).
  exists l, d, u. split.
  - intros x H. pose proof (H 0%nat ltac:(lia)) as H0. pose proof (H 1%nat ltac:(lia)) as H1. pose proof (H 2%nat ltac:(lia)) as H2.
    unfold cyclic_row, tri_row, l, d, u in H0, H1, H2. cbn in H0, H1, H2. intros [|[|[|i]]] Hi; try lia; lra.
  - intros rhs N S. specialize (S 0%nat ltac:(lia)). cbn beta in S. revert S.
    assert (G : Reqb 1 0 = false) by (apply Reqb_false; lra).
    assert (A : Rleb (Rabs 0) (Rabs (1 - - (1))) = true) by (apply Rleb_true; rewrite Rabs_R0; apply Rabs_pos).
    assert (A1 : Reqb (1 - - (1)) 0 = false) by (apply Reqb_false; lra).
    assert (B : Rleb (Rabs 0) (Rabs (1 - 0 / (1 - - (1)) * 0)) = true) by (apply Rleb_true; rewrite Rabs_R0; apply Rabs_pos).
    assert (B1 : Reqb (1 - 0 / (1 - - (1)) * 0) 0 = false) by (apply Reqb_false; lra).
    assert (C : Reqb (-1 - 1 * 1 / - (1) - 0 / (1 - 0 / (1 - - (1)) * 0) * 0) 0 = true) by (apply Reqb_true; field; lra).
    unfold cyclic_row, tri_row, cyclic_tdma, gtsv. cbn [Nat.sub Nat.eqb Nat.add].
    change (d 0%nat) with 1. change (l 0%nat) with 1. change (u 2%nat) with 1. rewrite G.
    set (main2 := set (set d 0 (1 - - (1))) 2 _). assert (M0 : main2 0%nat = 1 - - (1)) by reflexivity.
    assert (M1 : main2 1%nat = 1) by reflexivity. assert (M2 : main2 2%nat = -1 - 1 * 1 / - (1)) by reflexivity. clearbody main2.
    cbn [eliminate]. rewrite M0, M1, M2. change (l 1%nat) with 0. change (l 2%nat) with 0. change (u 0%nat) with 0. change (u 1%nat) with 0.
    rewrite A, A1, B, B1, C. cbn [fst Nat.eqb]. unfold set. cbn [Nat.eqb]. intros S. apply N. 
    assert (Q : rhs 2%nat - 0 / (1 - 0 / (1 - - (1)) * 0) * (rhs 1%nat - 0 / (1 - - (1)) * rhs 0%nat) = rhs 2%nat) by (field; lra).
    rewrite Q in S. clear Q.
    replace (1 - 0 / (1 - 0 / (1 - - (1)) * 0) * (0 - 0 / (1 - - (1)) * - (1))) with 1 in S by (field; lra).
    replace (1 + - (1) + 1 * 1 / - (1)) with (-1) in S by (field; lra).
    replace ((rhs 0%nat + rhs 2%nat * 1 / - (1)) / -1) with (rhs 2%nat - rhs 0%nat) in S by (field; lra).
    lra.
Qed.
Print Assumptions c39_singular_refuted.

(** Refuted: arrays of integers. The changed diagonal entries are cut to integers when they are
    stored, so the diagonally dominant system of two unknowns with an integer c on the diagonal
    and corners 1 is not solved. *)
Theorem c39_integer_refuted : forall c : Z, (2 <= c)%Z ->
  let lower := fun i : nat => match i with O => 1 | _ => 0 end in
  let upper := fun i : nat => match i with 1%nat => 1 | _ => 0 end in
  let main := fun _ : nat => IZR c in
  let rhs := fun _ : nat => 1 in
  let store := fun v => IZR (trunc v) in
  ~ solves 2 (fun x => cyclic_row 2 lower main upper x) rhs (fst (cyclic_tdma store store 2 lower main upper rhs)).
Proof.
  intros c Hc l u d b store S. specialize (S 1%nat ltac:(lia)). cbn beta in S. revert S.
  assert (C : 2 <= IZR c) by (apply IZR_le in Hc; exact Hc). set (r := IZR c) in *.
  assert (Tz : forall z, store (IZR z) = IZR z).
  { intros z. unfold store. f_equal. unfold trunc. destruct (Rltb (IZR z) 0).
    - rewrite <- opp_IZR. rewrite Int_part_IZR. lia.
    - apply Int_part_IZR. }
  assert (T0 : store (r - - r) = 2 * r). { replace (r - - r) with (IZR (2 * c)) by (unfold r; rewrite mult_IZR; lra). rewrite Tz. unfold r. rewrite mult_IZR. lra. }
  assert (T1 : store (r - 1 * 1 / - r) = r).
  { unfold store, trunc. replace (r - 1 * 1 / - r) with (r + / r) by (field; lra).
    assert (0 < / r < 1). { split; [apply Rinv_0_lt_compat; lra|]. rewrite <- Rinv_1. apply Rinv_lt_contravar; lra. }
    rewrite (proj2 (Rltb_false _ _)) by lra. unfold r at 3. f_equal. apply Int_part_unique. fold r. lra. }
  assert (T2 : store (- r) = - r) by (unfold r; rewrite <- opp_IZR; apply Tz). assert (T3 : store 1 = 1) by apply (Tz 1%Z).
  unfold cyclic_row, tri_row, cyclic_tdma, gtsv. cbn [Nat.sub Nat.eqb Nat.add].
  change (d 0%nat) with r. change (l 0%nat) with 1. change (u 1%nat) with 1. change (d 1%nat) with r. change (l 1%nat) with 0.
  rewrite (proj2 (Reqb_false r 0)) by lra. unfold set at 1 2 3 4 5 6 7. cbn [Nat.eqb].
  match goal with |- context [eliminate 1 0 _ _ _ l ?m u] => set (main2 := m) end.
  assert (M1 : main2 1%nat = r) by (unfold main2, set; cbn [Nat.eqb]; exact T1). clearbody main2.
  cbn [eliminate]. rewrite M1. unfold set. cbn [Nat.eqb]. change (l 1%nat) with 0. change (u 0%nat) with 0. change (d 1%nat) with r. rewrite !T0, ?T1, !T2, !T3.
  assert (A : Rleb (Rabs 0) (Rabs (2 * r)) = true) by (apply Rleb_true; rewrite Rabs_R0; apply Rabs_pos).
  assert (A1 : Reqb (2 * r) 0 = false) by (apply Reqb_false; lra).
  assert (B1 : Reqb (r - 0 / (2 * r) * 0) 0 = false) by (apply Reqb_false; lra).
  rewrite ?A, ?A1, ?B1. unfold b. cbn [fst Nat.eqb].
  match goal with |- context [?a / (1 + ?z0 + ?zb)] => set (q := a / (1 + z0 + zb)) end.
  assert (P : 0 < r * r - 2) by nra.
  assert (Q : q = (r - 2) / (r * r - 2)) by (unfold q; field; repeat split; nra). clearbody q. subst q. intros S.
  apply (f_equal (fun t => t * (2 * r * (r * r - 2)))) in S.
  match type of S with ?lhs = ?rh => assert (S2 : lhs - rh = 0) by lra end.
  match type of S2 with ?lhs = 0 => replace lhs with (2 * (r - 1)) in S2 by (field; nra) end. nra.
Qed.
Print Assumptions c39_integer_refuted.

(** ** C40 *)
(** Refuted: the cyclic solver changes the first diagonal entry of the caller for every input
    of floats, and the last one whenever both corners are not zero. *)
Theorem c40_mutation_refuted : forall n lower main upper rhs, (2 <= n)%nat ->
  let after := snd (cyclic_tdma (fun v => v) (fun v => v) n lower main upper rhs) in
  after 0%nat <> main 0%nat /\
  (lower 0%nat <> 0 -> upper (n - 1)%nat <> 0 -> after (n - 1)%nat <> main (n - 1)%nat) /\
  forall i, (0 < i < n - 1)%nat -> after i = main i.
Proof.
  intros n l d u rhs Hn after. unfold after, cyclic_tdma. cbn [snd].
  set (gamma := if Reqb (d 0%nat) 0 then 1 else - d 0%nat).
  assert (G : gamma <> 0). { unfold gamma. destruct (Reqb (d 0%nat) 0) eqn:E; [lra|]. apply Reqb_false in E. lra. }
  unfold set. split; [|split].
  - destruct (Nat.eqb_spec 0 (n - 1)); [lia|]. cbn [Nat.eqb]. lra.
  - intros L U. rewrite Nat.eqb_refl. destruct (Nat.eqb_spec (n - 1) 0); [lia|]. intros E.
    assert (l 0%nat * u (n - 1)%nat / gamma = 0) by lra. apply (Rmult_integral_contrapositive_currified _ (/ gamma)) in H; auto using Rinv_neq_0_compat.
  - intros i Hi. destruct (Nat.eqb_spec i (n - 1)); [lia|]. destruct (Nat.eqb_spec i 0); [lia|reflexivity].
Qed.
Print Assumptions c40_mutation_refuted.

(** Refuted: calling it twice with the same arrays gives the same answer. Whenever both calls
    solve the systems they are given, the second answer is another one, unless the first unknown
    is zero. *)
Theorem c40_twice_refuted : forall n lower main upper rhs, (3 <= n)%nat ->
  let call d := cyclic_tdma (fun v => v) (fun v => v) n lower d upper rhs in
  let x := fst (call main) in let after := snd (call main) in let y := fst (call after) in
  solves n (fun x => cyclic_row n lower main upper x) rhs x ->
  solves n (fun x => cyclic_row n lower after upper x) rhs y ->
  x 0%nat <> 0 -> exists i, (i < n)%nat /\ y i <> x i.
Proof.
  intros n l d u rhs Hn call x after y Sx Sy N.
  destruct (Req_dec (y 0%nat) (x 0%nat)) as [E0|]; [|exists 0%nat; split; [lia|assumption]].
  destruct (Req_dec (y 1%nat) (x 1%nat)) as [E1|]; [|exists 1%nat; split; [lia|assumption]].
  destruct (Req_dec (y (n - 1)%nat) (x (n - 1)%nat)) as [E2|]; [|exists (n - 1)%nat; split; [lia|assumption]].
  exfalso. specialize (Sx 0%nat ltac:(lia)). specialize (Sy 0%nat ltac:(lia)). unfold cyclic_row, tri_row in Sx, Sy. cbn [Nat.eqb] in Sx, Sy.
  destruct (Nat.eqb_spec (0 + 1) n); [lia|]. cbn [Nat.add] in Sx, Sy. rewrite E0, E1, E2 in Sy.
  destruct (c40_mutation_refuted n l d u rhs ltac:(lia)) as [M _]. fold (call d) in M. fold after in M.
  apply M. apply (Rmult_eq_reg_r (x 0%nat)); [|exact N]. lra.
Qed.
Print Assumptions c40_twice_refuted.
(** A case that meets the conditions: n = 3, diagonal 5, neighbours 1, right hand side 7. *)
Example c40_twice_case : let f (c : R) := fun _ : nat => c in
  let call d := cyclic_tdma (fun v => v) (fun v => v) 3 (f 1) d (f 1) (f 7) in
  let x := fst (call (f 5)) in let after := snd (call (f 5)) in let y := fst (call after) in
  solves 3 (fun x => cyclic_row 3 (f 1) (f 5) (f 1) x) (f 7) x /\ solves 3 (fun x => cyclic_row 3 (f 1) after (f 1) x) (f 7) y /\ x 0%nat <> 0.
Proof.
  intros f call x after y.
  assert (D : forall i, (i < 3)%nat -> Rabs (f 1 i) + Rabs (f 1 i) < Rabs (f 5 i)) by (intros; unfold f; rewrite !Rabs_pos_eq by lra; lra).
  destruct (c39_dominant 3 (f 1) (f 5) (f 1) (f 7) ltac:(lia) D) as [S U]. fold (call (f 5)) in S, U. fold x in S, U.
  split; [exact S|]. split.
  - refine (proj1 (c39_dominant 3 (f 1) after (f 1) (f 7) ltac:(lia) _)). intros i Hi.
    assert (A : 5 <= after i).
    { unfold after, call, cyclic_tdma, set, f. cbn [snd Nat.sub]. rewrite (proj2 (Reqb_false 5 0)) by lra. destruct i as [|[|[|i]]]; try lia; cbn [Nat.eqb]; try replace (1 * 1 / - (5)) with (-1 / 5) by field; lra. }
    unfold f. rewrite !Rabs_pos_eq by lra. lra.
  - assert (E : x 0%nat = 1); [|lra]. symmetry. apply (U (fun _ => 1)); [|lia]. intros i Hi.
    unfold cyclic_row, tri_row, f. destruct i as [|[|[|i]]]; try lia; cbn; lra.
Qed.
