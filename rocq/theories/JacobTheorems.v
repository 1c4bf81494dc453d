(** C121: Jacobians of the displacements with respect to the loads. *)
From Coq Require Import List Bool Arith ZArith Reals Lia Lra.
From Verif Require Import Py SurfaceModel ConvModel ConvSpec ConvProofs JacobModel JacobSpec JacobProofs.
Import ListNotations.
Local Open Scope R_scope.

Lemma odd_not_even n : Nat.odd n = true -> Nat.even n = false.
Proof. unfold Nat.odd. now destruct (Nat.even n). Qed.
Lemma odd_pos n : Nat.odd n = true -> (0 < n)%nat.
Proof. destruct n; [discriminate|lia]. Qed.
Lemma total2_ext m n f g : (forall i j, (i < m)%nat -> (j < n)%nat -> f i j = g i j) -> total2 m n f = total2 m n g.
Proof. intros H. apply total_ext. intros i Hi. apply total_ext. intros j Hj. auto. Qed.
Lemma total2_none m n f : (forall i j, (i < m)%nat -> (j < n)%nat -> f i j = 0) -> total2 m n f = 0.
Proof. intros H. transitivity (total m (fun _ => 0)); [|apply total_zero]. apply total_ext. intros i Hi. transitivity (total n (fun _ => 0)); [|apply total_zero]. apply total_ext. auto. Qed.

(** Surfaces that are not periodic: for influence matrices that are the same on both sides of a middle, of any span, the Jacobian
    gives the displacements of all loads. *)
Theorem c121_plain : forall im loads, has_middle im -> even_im im ->
  exists J, jac_im false (rows loads) (cols loads) im = Ok J /\ square (rows loads) (cols loads) J /\
    forall i j, (i < rows loads)%nat -> (j < cols loads)%nat -> by_jacobian J loads i j = superposed false false im loads i j.
Proof.
  intros im loads [O0 O1] E. eexists. split; [reflexivity|]. split; [apply plain_square; now apply odd_pos|].
  intros i j Hi Hj. unfold by_jacobian, superposed. apply total2_ext. intros p q Hp Hq.
  rewrite plain_entry by auto using odd_pos. rewrite !odd_not_even by assumption. rewrite !Z.add_0_r, Rmult_comm. f_equal.
  cbn [difference]. rewrite <- E. f_equal; lia.
Qed.
Print Assumptions c121_plain.

(** Rows and columns are swapped: for influence matrices with opposite signs on both sides (components such as xz) every
    displacement has the wrong sign. *)
Theorem c121_sign_refuted : forall im loads, has_middle im -> odd_im im ->
  exists J, jac_im false (rows loads) (cols loads) im = Ok J /\
    forall i j, (i < rows loads)%nat -> (j < cols loads)%nat -> by_jacobian J loads i j = - superposed false false im loads i j.
Proof.
  intros im loads [O0 O1] E. eexists. split; [reflexivity|]. intros i j Hi Hj. unfold by_jacobian, superposed, total2.
  rewrite <- (Rmult_1_l (total _ _)), <- (Ropp_involutive (1 * _)), Ropp_mult_distr_l, <- total_scal. f_equal. apply total_ext. intros p Hp.
  rewrite <- total_scal. apply total_ext. intros q Hq.
  rewrite plain_entry by auto using odd_pos. rewrite !odd_not_even by assumption. rewrite !Z.add_0_r.
  cbn [difference]. replace (Z.of_nat p - Z.of_nat i)%Z with (- (Z.of_nat i - Z.of_nat p))%Z by lia.
  replace (Z.of_nat q - Z.of_nat j)%Z with (- (Z.of_nat j - Z.of_nat q))%Z by lia. rewrite E. ring.
Qed.
Print Assumptions c121_sign_refuted.
Definition slope : grid := Grid 3 1 (fun i _ => match i with O => -1 | 1%nat => 0 | _ => 1 end).
Example c121_sign_case : has_middle slope /\ odd_im slope /\ superposed false false slope (Grid 2 1 (fun i _ => INR i)) 0 0 = -1.
Proof.
  split; [now split|]. split.
  - intros di dj. unfold coeff, slope. cbn [rows cols at_]. change (Z.of_nat ((3 - 1) / 2)) with 1%Z. change (Z.of_nat ((1 - 1) / 2)) with 0%Z. cbv zeta.
    change (Z.of_nat 3) with 3%Z. change (Z.of_nat 1) with 1%Z.
    repeat match goal with |- context [Z.leb ?a ?b] => destruct (Z.leb_spec a b) | |- context [Z.ltb ?a ?b] => destruct (Z.ltb_spec a b) end; cbn [andb]; try (exfalso; lia); try lra.
    assert (D : (di = -1 \/ di = 0 \/ di = 1)%Z) by lia. destruct D as [-> | [-> | ->]]; cbn; unfold Pos.to_nat; cbn; lra.
  - unfold superposed, total2, coeff, slope. cbn. lra.
Qed.

(** Influence matrices without a middle are used one point off: for the matrix of a point that only displaces itself, the
    displacement of a point is the load of the point before it. *)
Definition itself : grid := Grid 2 2 (fun i j => if Nat.eqb i 0 && Nat.eqb j 0 then 1 else 0).
Theorem c121_even_span_refuted : forall loads i j, (i < rows loads)%nat -> (j < cols loads)%nat ->
  superposed false false itself loads i j = at_ loads i j /\
  exists J, jac_im false (rows loads) (cols loads) itself = Ok J /\
    by_jacobian J loads i j = if Nat.eqb i 0 || Nat.eqb j 0 then 0 else at_ loads (i - 1) (j - 1).
Proof.
  intros loads i j Hi Hj.
  assert (C : forall di dj, coeff itself di dj = if Z.eqb di 0 && Z.eqb dj 0 then 1 else 0).
  { intros di dj. unfold coeff, itself. cbn [rows cols at_]. change (Z.of_nat ((2 - 1) / 2)) with 0%Z. change (Z.of_nat 2) with 2%Z. cbv zeta. rewrite !Z.add_0_r.
    destruct (Z.eqb_spec di 0) as [->|Ni]; [destruct (Z.eqb_spec dj 0) as [->|Nj]; [reflexivity|]|];
    repeat match goal with |- context [Z.leb ?a ?b] => destruct (Z.leb_spec a b) | |- context [Z.ltb ?a ?b] => destruct (Z.ltb_spec a b) end; cbn [andb]; try reflexivity.
    - replace dj with 1%Z by lia. reflexivity.
    - replace di with 1%Z by lia. reflexivity. }
  assert (S2 : forall f i j, (i < rows loads)%nat -> (j < cols loads)%nat -> (forall p q, (p < rows loads)%nat -> (q < cols loads)%nat -> p <> i \/ q <> j -> f p q = 0) -> total2 (rows loads) (cols loads) f = f i j).
  { clear. intros f i j Hi Hj H. unfold total2. rewrite total_single with (k := i); [|exact Hi|].
    - apply total_single; [exact Hj|]. intros. apply H; auto.
    - intros p Hp Np. rewrite <- (total_zero (cols loads)). apply total_ext. intros q Hq. apply H; auto. }
  split.
  - unfold superposed. rewrite S2 with (i := i) (j := j); auto.
    + rewrite C. cbn [difference]. rewrite !Z.sub_diag. cbn. ring.
    + intros p q Hp Hq N. rewrite C. cbn [difference]. destruct (Z.eqb_spec (Z.of_nat i - Z.of_nat p) 0), (Z.eqb_spec (Z.of_nat j - Z.of_nat q) 0); cbn; try ring. lia.
  - eexists. split; [reflexivity|]. unfold by_jacobian.
    assert (X : forall p q, (p < rows loads)%nat -> (q < cols loads)%nat ->
      entry (jac_plain (rows loads) (cols loads) itself) (number (cols loads) i j) (number (cols loads) p q) = if Nat.eqb (p + 1) i && Nat.eqb (q + 1) j then 1 else 0).
    { intros p q Hp Hq. rewrite plain_entry by (auto; cbn; lia). cbn [itself rows cols Nat.even]. rewrite C.
      destruct (Nat.eqb_spec (p + 1) i), (Nat.eqb_spec (q + 1) j), (Z.eqb_spec (Z.of_nat p - Z.of_nat i + 1) 0), (Z.eqb_spec (Z.of_nat q - Z.of_nat j + 1) 0); try reflexivity; exfalso; lia. }
    rewrite total2_ext with (g := fun p q => (if Nat.eqb (p + 1) i && Nat.eqb (q + 1) j then 1 else 0) * at_ loads p q) by (intros p q Hp Hq; now rewrite X).
    destruct (Nat.eqb_spec i 0) as [->|Ni]; cbn [orb].
    { apply total2_none. intros p q Hp Hq.
      destruct (Nat.eqb_spec (p + 1) 0); [lia|]. cbn. ring. }
    destruct (Nat.eqb_spec j 0) as [->|Nj].
    { apply total2_none. intros p q Hp Hq.
      destruct (Nat.eqb_spec (q + 1) 0); [lia|]. rewrite andb_false_r. ring. }
    rewrite S2 with (i := (i - 1)%nat) (j := (j - 1)%nat); try lia.
    + rewrite !Nat.sub_add by lia. rewrite !Nat.eqb_refl. cbn. ring.
    + intros p q Hp Hq N. destruct (Nat.eqb_spec (p + 1) i), (Nat.eqb_spec (q + 1) j); cbn; try ring. lia.
Qed.
Print Assumptions c121_even_span_refuted.

(** ** Periodic surfaces *)
(** Refused: sizes that are even, and influence matrices that are larger by an odd number of points. *)
Theorem c121_periodic_refused : forall s0 s1 im,
  jac_im true s0 s1 im = Err ValueError <->
  Nat.odd s0 = false \/ Nat.odd s1 = false \/
  ((s0 < rows im)%nat /\ Nat.odd (rows im - s0) = true) \/ ((s1 < cols im)%nat /\ Nat.odd (cols im - s1) = true).
Proof.
  intros s0 s1 im. unfold jac_im, jac_periodic.
  assert (A : forall s r, Nat.ltb s (r - 2 * Z.to_nat ((Z.of_nat r - Z.of_nat s) ÷ 2)) = true <-> (s < r)%nat /\ Nat.odd (r - s) = true).
  { intros s r. rewrite Nat.ltb_lt. destruct (Nat.lt_ge_cases s r) as [H|H].
    - assert (E : ((Z.of_nat r - Z.of_nat s) ÷ 2 = Z.of_nat ((r - s) / 2))%Z).
      { rewrite <- Nat2Z.inj_sub by lia. rewrite Z.quot_div_nonneg by lia. now rewrite Nat2Z.inj_div. }
      rewrite E, Nat2Z.id. pose proof (half_bounds (r - s)). split.
      + intros L. split; [exact H|]. apply Nat.odd_spec. exists ((r - s) / 2)%nat. lia.
      + intros [_ O]. apply Nat.odd_spec in O as (k & O). lia.
    - assert (E : Z.to_nat ((Z.of_nat r - Z.of_nat s) ÷ 2) = O).
      { assert (((Z.of_nat r - Z.of_nat s) ÷ 2) <= 0)%Z; [|lia]. replace (Z.of_nat r - Z.of_nat s)%Z with (- (Z.of_nat (s - r)))%Z by lia.
        rewrite Z.quot_opp_l by lia. rewrite Z.quot_div_nonneg by lia. pose proof (Z.div_pos (Z.of_nat (s - r)) 2). lia. }
      rewrite E. split; intros; [exfalso; lia|]. lia. }
  destruct (Nat.odd s0) eqn:O0; cbn [andb negb]; [|split; [tauto|reflexivity]].
  destruct (Nat.odd s1) eqn:O1; cbn [andb negb]; [|split; [tauto|reflexivity]].
  cbv zeta. cbn [rows cols cut]. pose proof (A s0 (rows im)) as A0. pose proof (A s1 (cols im)) as A1.
  destruct (Nat.ltb s0 (rows im - _)); cbn [orb].
  - split; [intros _; right; right; left; now apply A0|reflexivity].
  - destruct (Nat.ltb s1 (cols im - _)).
    + split; [intros _; right; right; right; now apply A1|reflexivity].
    + split; [discriminate|]. intros [H|[H|[H|H]]]; try discriminate; [apply A0 in H|apply A1 in H]; discriminate.
Qed.
Print Assumptions c121_periodic_refused.

Lemma wrap_opp n d : Nat.odd n = true -> wrap n (- d) = (- wrap n d)%Z.
Proof.
  intros O. destruct (odd_half n O) as [H H']. unfold wrap. rewrite H'. set (h := (n / 2)%nat) in *.
  assert (B := Z.mod_pos_bound (d + Z.of_nat h) (Z.of_nat n) ltac:(lia)).
  assert (D := Z.div_mod (d + Z.of_nat h) (Z.of_nat n) ltac:(lia)).
  assert (E : ((- d + Z.of_nat h) mod Z.of_nat n = 2 * Z.of_nat h - (d + Z.of_nat h) mod Z.of_nat n)%Z).
  { symmetry. apply Z.mod_unique_pos with (q := (- ((d + Z.of_nat h) / Z.of_nat n))%Z); lia. }
  lia.
Qed.
(** For surfaces of one row or one column the Jacobian gives the displacements of all loads. *)
Theorem c121_periodic : forall im loads, has_middle im -> even_im im -> rows loads = rows im -> cols loads = cols im -> rows im = 1%nat \/ cols im = 1%nat ->
  exists J, jac_im true (rows loads) (cols loads) im = Ok J /\ square (rows loads) (cols loads) J /\
    forall i j, (i < rows loads)%nat -> (j < cols loads)%nat -> by_jacobian J loads i j = superposed true true im loads i j.
Proof.
  intros im loads [O0 O1] E HR HC One. rewrite HR, HC. pose proof (odd_pos _ O0). pose proof (odd_pos _ O1).
  destruct (periodic_entry im 0 0 0 0) as (J & HJ & SQ & _); auto. exists J. split; [exact HJ|]. split; [exact SQ|].
  intros i j Hi Hj. unfold by_jacobian, superposed. rewrite HR, HC. apply total2_ext. intros p q Hp Hq.
  destruct (periodic_entry im i j p q) as (J' & HJ' & _ & X); auto. rewrite HJ' in HJ. injection HJ as ->. rewrite X, Rmult_comm. f_equal.
  cbn [difference]. rewrite <- E, <- !wrap_opp by assumption. f_equal; [|f_equal; lia].
  destruct (Nat.ltb_spec q j); [|f_equal; lia].
  destruct One as [One|One]; [|exfalso; lia]. rewrite One. unfold wrap. cbn. now rewrite !Z.mod_1_r.
Qed.
Print Assumptions c121_periodic.

(** For all others it does not: rows are rolled as one line, so a load in an earlier column than the displacement counts
    for the row before. *)
Definition sideways (m n : nat) : grid :=
  Grid m n (fun i j => if Nat.eqb i ((m - 1) / 2) && (Nat.eqb j ((n - 1) / 2 - 1) || Nat.eqb j ((n - 1) / 2 + 1)) then 1 else 0).
Theorem c121_periodic_refuted : forall m n, Nat.odd m = true -> Nat.odd n = true -> (3 <= m)%nat -> (3 <= n)%nat ->
  let im := sideways m n in let loads := Grid m n (fun i j => if Nat.eqb i 0 && Nat.eqb j 0 then 1 else 0) in
  has_middle im /\ even_im im /\ exists J, jac_im true m n im = Ok J /\
  superposed true true im loads 0 1 = 1 /\ by_jacobian J loads 0 1 = 0 /\ by_jacobian J loads (m - 1) 1 = 1.
Proof.
  intros m n O0 O1 Hm Hn im loads. destruct (odd_half m O0) as [H0 H0']. destruct (odd_half n O1) as [H1 H1'].
  assert (C : forall di dj, coeff im di dj = if Z.eqb di 0 && (Z.eqb dj 1 || Z.eqb dj (-1)) then 1 else 0).
  { intros di dj. unfold coeff, im, sideways. cbn [rows cols at_]. cbv zeta. rewrite H0', H1'.
    set (h := (m / 2)%nat) in *. set (k := (n / 2)%nat) in *.
    destruct (Z.eqb_spec di 0), (Z.eqb_spec dj 1), (Z.eqb_spec dj (-1)); cbn [andb orb]; try (exfalso; lia);
    repeat match goal with |- context [Z.leb ?a ?b] => destruct (Z.leb_spec a b) | |- context [Z.ltb ?a ?b] => destruct (Z.ltb_spec a b) end; cbn [andb]; try (exfalso; lia); try reflexivity;
    repeat match goal with |- context [Nat.eqb ?a ?b] => destruct (Nat.eqb_spec a b) end; cbn [andb orb]; try reflexivity; exfalso; lia. }
  split; [split; assumption|]. split.
  { intros di dj. rewrite !C. destruct (Z.eqb_spec di 0), (Z.eqb_spec (- di) 0), (Z.eqb_spec dj 1), (Z.eqb_spec (- dj) 1), (Z.eqb_spec dj (-1)), (Z.eqb_spec (- dj) (-1)); try reflexivity; exfalso; lia. }
  destruct (periodic_entry im 0 0 0 0) as (J & HJ & _ & _); try assumption; try (cbn; lia). exists J. split; [exact HJ|].
  assert (S2 : forall f, total2 m n (fun p q => f p q * at_ loads p q) = f O O).
  { intros f. unfold total2. rewrite total_single with (k := O); [|lia|].
    - rewrite total_single with (k := O); [cbn; ring|lia|]. intros q Hq Nq. cbn. destruct (Nat.eqb_spec q 0); [lia|]. ring.
    - intros p Hp Np. rewrite <- (total_zero n). apply total_ext. intros q Hq. cbn. destruct (Nat.eqb_spec p 0); [lia|]. cbn. ring. }
  assert (W : forall s d, Nat.odd s = true -> (- Z.of_nat (s / 2) <= d <= Z.of_nat (s / 2))%Z -> wrap s d = d).
  { intros s d O D. destruct (odd_half s O) as [H H']. unfold wrap. rewrite H'. rewrite Z.mod_small by lia. lia. }
  assert (X : forall a, (a < m)%nat -> by_jacobian J loads a 1 = coeff im (wrap m (Z.of_nat 0 - Z.of_nat a - 1)) (wrap n (-1))).
  { intros a Ha. unfold by_jacobian. cbn [rows cols loads]. rewrite S2. destruct (periodic_entry im a 1 0 0) as (J' & HJ' & _ & X); try assumption; try (cbn; lia).
    rewrite HJ' in HJ. injection HJ as ->. exact X. }
  split; [|split].
  - unfold superposed. cbn [rows cols loads]. rewrite total2_ext with (g := fun p q => coeff im (difference true m 0 p) (difference true n 1 q) * at_ loads p q) by (intros; ring).
    rewrite S2. cbn [difference]. rewrite !W by (assumption || lia). rewrite C. reflexivity.
  - rewrite X by lia. rewrite !W by (assumption || lia). rewrite C. reflexivity.
  - rewrite X by lia. rewrite (W n) by (assumption || lia). rewrite C.
    assert (wrap m (Z.of_nat 0 - Z.of_nat (m - 1) - 1) = 0%Z) as ->; [|reflexivity].
    unfold wrap. rewrite H0'. replace (Z.of_nat 0 - Z.of_nat (m - 1) - 1 + Z.of_nat (m / 2))%Z with (Z.of_nat (m / 2) + (-1) * Z.of_nat m)%Z by lia.
    rewrite Z.mod_add by lia. rewrite Z.mod_small by lia. lia.
Qed.
Print Assumptions c121_periodic_refuted.
(** The hypotheses are met: a matrix with ones around the middle, and a periodic row. *)
Definition spread : grid := Grid 1 3 (fun _ _ => 1).
Example c121_case : has_middle spread /\ even_im spread /\ superposed false false spread (Grid 1 3 (fun _ j => INR j)) 0 0 = 1 /\
  superposed true true spread (Grid 1 3 (fun _ j => INR j)) 0 0 = 3.
Proof.
  split; [now split|]. split.
  - intros di dj. unfold coeff, spread. cbn [rows cols at_]. change (Z.of_nat ((3 - 1) / 2)) with 1%Z. change (Z.of_nat ((1 - 1) / 2)) with 0%Z. cbv zeta.
    change (Z.of_nat 3) with 3%Z. change (Z.of_nat 1) with 1%Z.
    repeat match goal with |- context [Z.leb ?a ?b] => destruct (Z.leb_spec a b) | |- context [Z.ltb ?a ?b] => destruct (Z.ltb_spec a b) end; cbn [andb]; try (exfalso; lia); reflexivity.
  - split; unfold superposed, total2, coeff, spread, wrap; cbn; lra.
Qed.
