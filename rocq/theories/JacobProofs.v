(** Proofs about Jacobians. *)
From Coq Require Import List Bool Arith ZArith Reals Lia Lra.
From Verif Require Import Py SurfaceModel ConvModel ConvSpec ConvProofs JacobModel JacobSpec.
Import ListNotations.
Local Open Scope R_scope.

Lemma flat_map_nth {A} (f : nat -> nat -> A) (d : A) n : forall m k i j, (i < m)%nat -> (j < n)%nat ->
  nth (i * n + j) (flat_map (fun i => map (f i) (seq 0 n)) (seq k m)) d = f (k + i)%nat j.
Proof.
  induction m as [|m IH]; intros k i j Hi Hj; [lia|]. cbn [seq flat_map]. destruct i as [|i].
  - rewrite app_nth1 by (rewrite map_length, seq_length; lia). rewrite Nat.add_0_r.
    rewrite nth_indep with (d' := f k O) by (rewrite map_length, seq_length; lia). rewrite map_nth with (d := O). rewrite seq_nth by lia. reflexivity.
  - rewrite app_nth2 by (rewrite map_length, seq_length; cbn; lia). rewrite map_length, seq_length.
    replace (S i * n + j - n)%nat with (i * n + j)%nat by (cbn; lia). rewrite IH by lia. f_equal; lia.
Qed.
Lemma flat_map_len {A} (f : nat -> nat -> A) n : forall m k, List.length (flat_map (fun i => map (f i) (seq 0 n)) (seq k m)) = (m * n)%nat.
Proof. induction m as [|m IH]; intros k; [reflexivity|]. cbn. rewrite app_length, map_length, seq_length, IH. reflexivity. Qed.
Lemma flatten_nth g i j : (i < rows g)%nat -> (j < cols g)%nat -> nth (i * cols g + j) (flatten g) 0 = at_ g i j.
Proof. intros. unfold flatten. rewrite flat_map_nth by lia. reflexivity. Qed.
Lemma flatten_len g : List.length (flatten g) = (rows g * cols g)%nat.
Proof. apply flat_map_len. Qed.

(** ** Surfaces that are not periodic *)
Lemma half_bounds n : (2 * (n / 2) <= n < 2 * (n / 2) + 2)%nat.
Proof. pose proof (Nat.div_mod n 2). pose proof (Nat.mod_upper_bound n 2). lia. Qed.
Lemma half_before n : (0 < n)%nat -> ((n - 1) / 2 = n / 2 - (if Nat.even n then 1 else 0))%nat.
Proof.
  intros H. destruct (Nat.even n) eqn:E.
  - apply Nat.even_spec in E as (k & ->). replace (2 * k)%nat with (k * 2)%nat by lia. rewrite Nat.div_mul by lia.
    symmetry. apply Nat.div_unique with (r := 1%nat); lia.
  - assert (O : Nat.odd n = true) by (unfold Nat.odd; now rewrite E). apply Nat.odd_spec in O as (k & ->).
    replace (2 * k + 1 - 1)%nat with (k * 2)%nat by lia. rewrite Nat.div_mul by lia. replace (k * 2 + 1)%nat with (1 + k * 2)%nat by lia.
    rewrite Nat.sub_0_r. apply Nat.div_unique with (r := 1%nat); lia.
Qed.
Lemma plain_entry s0 s1 im n m p q : (n < s0)%nat -> (m < s1)%nat -> (p < s0)%nat -> (q < s1)%nat -> (0 < rows im)%nat -> (0 < cols im)%nat ->
  entry (jac_plain s0 s1 im) (number s1 n m) (number s1 p q) =
  coeff im (Z.of_nat p - Z.of_nat n + (if Nat.even (rows im) then 1 else 0)) (Z.of_nat q - Z.of_nat m + (if Nat.even (cols im) then 1 else 0)).
Proof.
  intros Hn Hm Hp Hq R0 C0. unfold entry, number, jac_plain. cbv zeta.
  pose proof (half_bounds (rows im)) as HR. pose proof (half_bounds (cols im)) as HC.
  pose proof (half_before (rows im) R0) as BR. pose proof (half_before (cols im) C0) as BC.
  set (hr := (rows im / 2)%nat) in *. set (hc := (cols im / 2)%nat) in *.
  set (P := pad_by _ _ _ _ _).
  assert (PR : (2 * s0 <= rows P)%nat) by (unfold P, pad_by, cut; cbn [rows cols]; lia). assert (PC : (2 * s1 <= cols P)%nat) by (unfold P, pad_by, cut; cbn [rows cols]; lia).
  rewrite flat_map_nth by lia.
  set (W := window _ _ _ _ P). assert (WR : rows W = s0) by (unfold W, window; cbn [rows]; lia). assert (WC : cols W = s1) by (unfold W, window; cbn [cols]; lia).
  pose proof (flatten_nth W p q) as F. rewrite WR, WC in F. rewrite F by lia. unfold W, window. cbn [at_].
  unfold P, pad_by. cbn [at_ rows cols cut]. unfold coeff. cbv zeta. rewrite BR, BC.
  assert (ER : (Nat.even (rows im) = true -> rows im = 2 * hr)%nat /\ (Nat.even (rows im) = false -> rows im = 2 * hr + 1)%nat).
  { destruct (Nat.even (rows im)) eqn:E; split; intros X; try discriminate.
    - apply Nat.even_spec in E as (k & E). lia.
    - assert (O : Nat.odd (rows im) = true) by (unfold Nat.odd; now rewrite E). apply Nat.odd_spec in O as (k & O). lia. }
  assert (EC : (Nat.even (cols im) = true -> cols im = 2 * hc)%nat /\ (Nat.even (cols im) = false -> cols im = 2 * hc + 1)%nat).
  { destruct (Nat.even (cols im)) eqn:E; split; intros X; try discriminate.
    - apply Nat.even_spec in E as (k & E). lia.
    - assert (O : Nat.odd (cols im) = true) by (unfold Nat.odd; now rewrite E). apply Nat.odd_spec in O as (k & O). lia. }
  set (u := (Z.of_nat p - Z.of_nat n + Z.of_nat hr)%Z). set (v := (Z.of_nat q - Z.of_nat m + Z.of_nat hc)%Z).
  replace (Z.of_nat p - Z.of_nat n + (if Nat.even (rows im) then 1 else 0) + Z.of_nat (hr - (if Nat.even (rows im) then 1 else 0)))%Z with u
    by (destruct (Nat.even (rows im)); destruct ER as [E1 E2]; try specialize (E1 eq_refl); lia).
  replace (Z.of_nat q - Z.of_nat m + (if Nat.even (cols im) then 1 else 0) + Z.of_nat (hc - (if Nat.even (cols im) then 1 else 0)))%Z with v
    by (destruct (Nat.even (cols im)); destruct EC as [E1 E2]; try specialize (E1 eq_refl); lia).
  clear ER EC BR BC F.
  repeat match goal with |- context [Nat.leb ?a ?b] => destruct (Nat.leb_spec a b) | |- context [Nat.ltb ?a ?b] => destruct (Nat.ltb_spec a b)
    | |- context [Z.leb ?a ?b] => destruct (Z.leb_spec a b) | |- context [Z.ltb ?a ?b] => destruct (Z.ltb_spec a b) end; cbn [andb]; try reflexivity; try (exfalso; lia).
  f_equal; lia.
Qed.
Lemma plain_square s0 s1 im : (0 < rows im)%nat -> (0 < cols im)%nat -> square s0 s1 (jac_plain s0 s1 im).
Proof.
  intros R0 C0. split; [apply flat_map_len|]. intros row Hin. unfold jac_plain in Hin. cbv zeta in Hin.
  pose proof (half_bounds (rows im)) as HR. pose proof (half_bounds (cols im)) as HC.
  apply in_flat_map in Hin as (n & Hn & Hin). apply in_map_iff in Hin as (m & <- & Hm). apply in_seq in Hn, Hm.
  rewrite flatten_len. unfold window, pad_by, cut. cbn [rows cols]. f_equal; lia.
Qed.

(** ** Periodic surfaces *)
Lemma roll_nth k v i : (i < List.length v)%nat -> nth i (roll_flat k v) 0 = nth (Z.to_nat ((Z.of_nat i - Z.of_nat k) mod Z.of_nat (List.length v))) v 0.
Proof.
  intros H. unfold roll_flat. set (f := fun i => _). rewrite nth_indep with (d' := f O) by (rewrite map_length, seq_length; exact H).
  rewrite map_nth. rewrite seq_nth by exact H. reflexivity.
Qed.
Lemma roll_len k v : List.length (roll_flat k v) = List.length v.
Proof. unfold roll_flat. now rewrite map_length, seq_length. Qed.
Lemma odd_half n : Nat.odd n = true -> (n = 2 * (n / 2) + 1 /\ (n - 1) / 2 = n / 2)%nat.
Proof.
  intros O. pose proof (half_bounds n). assert (E : Nat.even n = false) by (unfold Nat.odd in O; now destruct (Nat.even n)).
  apply Nat.odd_spec in O as (k & O). split; [lia|]. rewrite half_before by lia. rewrite E. lia.
Qed.
(** The entries when the influence matrix has the shape of the surface. [borrow] is one where the column
    of the load comes before that of the displacement. *)
Lemma periodic_entry im n m p q (s0 := rows im) (s1 := cols im) :
  Nat.odd s0 = true -> Nat.odd s1 = true -> (n < s0)%nat -> (m < s1)%nat -> (p < s0)%nat -> (q < s1)%nat ->
  exists J, jac_periodic s0 s1 im = Ok J /\ square s0 s1 J /\
    let borrow := if Nat.ltb q m then 1%Z else 0%Z in
    entry J (number s1 n m) (number s1 p q) = coeff im (wrap s0 (Z.of_nat p - Z.of_nat n - borrow)) (wrap s1 (Z.of_nat q - Z.of_nat m)).
Proof.
  intros O0 O1 Hn Hm Hp Hq. unfold jac_periodic. rewrite O0, O1. cbn [negb andb].
  fold s0 s1. rewrite !Z.sub_diag. cbn [Z.quot Z.to_nat].
  assert (cut_rows : rows (cut 0 0 im) = s0) by (cbn; lia). assert (cut_cols : cols (cut 0 0 im) = s1) by (cbn; lia).
  change (Z.to_nat (0 ÷ 2)) with O. cbv zeta. rewrite cut_rows, cut_cols, !Nat.ltb_irrefl. cbn [orb].
  eexists. split; [reflexivity|]. set (G := Grid s0 s1 _). assert (L : List.length (flatten G) = (s0 * s1)%nat) by (rewrite flatten_len; reflexivity).
  split.
  - split; [now rewrite map_length, seq_length|]. intros row Hin. apply in_map_iff in Hin as (k & <- & _). now rewrite roll_len, L.
  - unfold entry, number. set (f := fun k => roll_flat k (flatten G)).
    assert (I : (n * s1 + m < s0 * s1)%nat) by nia. assert (I' : (p * s1 + q < s0 * s1)%nat) by nia.
    rewrite nth_indep with (d' := f O) by (rewrite map_length, seq_length; exact I). rewrite map_nth, seq_nth by exact I. unfold f. cbn [Nat.add].
    rewrite roll_nth by (rewrite L; exact I'). rewrite L.
    set (b := if Nat.ltb q m then 1%Z else 0%Z).
    set (i := Z.to_nat ((Z.of_nat p - Z.of_nat n - b) mod Z.of_nat s0)). set (j := Z.to_nat ((Z.of_nat q - Z.of_nat m) mod Z.of_nat s1)).
    assert (Bi := Z.mod_pos_bound (Z.of_nat p - Z.of_nat n - b) (Z.of_nat s0) ltac:(lia)).
    assert (Bj := Z.mod_pos_bound (Z.of_nat q - Z.of_nat m) (Z.of_nat s1) ltac:(lia)).
    assert (Hi : (i < s0)%nat) by lia. assert (Hj : (j < s1)%nat) by lia.
    assert (Ej : ((Z.of_nat q - Z.of_nat m) mod Z.of_nat s1 = Z.of_nat q - Z.of_nat m + b * Z.of_nat s1)%Z).
    { unfold b. destruct (Nat.ltb_spec q m).
      - symmetry. apply Z.mod_unique_pos with (q := (-1)%Z); lia.
      - symmetry. apply Z.mod_unique_pos with (q := 0%Z); lia. }
    assert (E : (Z.to_nat ((Z.of_nat (p * s1 + q) - Z.of_nat (n * s1 + m)) mod Z.of_nat (s0 * s1)) = i * s1 + j)%nat).
    { apply Nat2Z.inj. rewrite Z2Nat.id by (apply Z.mod_pos_bound; lia).
      rewrite (Nat2Z.inj_add (i * s1) j), (Nat2Z.inj_mul i s1). unfold i, j. rewrite !Z2Nat.id by lia.
      assert (D := Z.div_mod (Z.of_nat p - Z.of_nat n - b) (Z.of_nat s0) ltac:(lia)).
      symmetry. apply Z.mod_unique_pos with (q := ((Z.of_nat p - Z.of_nat n - b) / Z.of_nat s0)%Z).
      - split; [nia|]. rewrite Nat2Z.inj_mul.
        assert (((Z.of_nat p - Z.of_nat n - b) mod Z.of_nat s0) * Z.of_nat s1 <= (Z.of_nat s0 - 1) * Z.of_nat s1)%Z by (apply Z.mul_le_mono_nonneg_r; lia). lia.
      - rewrite Ej. rewrite !Nat2Z.inj_add, !Nat2Z.inj_mul.
        set (Q := ((Z.of_nat p - Z.of_nat n - b) / Z.of_nat s0)%Z) in *. set (M := ((Z.of_nat p - Z.of_nat n - b) mod Z.of_nat s0)%Z) in *.
        replace (Z.of_nat p) with (Z.of_nat n + b + (Z.of_nat s0 * Q + M))%Z by lia. ring. }
    rewrite E. pose proof (flatten_nth G i j Hi Hj) as F. cbn [cols] in F. change (cols G) with s1 in F. rewrite F. unfold G. cbn [at_]. unfold roll.
    destruct (odd_half s0 O0) as [H0 H0']. destruct (odd_half s1 O1) as [H1 H1'].
    set (i' := Nat.modulo (i + s0 / 2) s0). set (j' := Nat.modulo (j + s1 / 2) s1).
    assert (Hi' : (i' < s0)%nat) by (apply Nat.mod_upper_bound; lia). assert (Hj' : (j' < s1)%nat) by (apply Nat.mod_upper_bound; lia).
    unfold pad_by. cbn [at_ rows cols cut]. fold s0 s1. rewrite !Nat.mul_0_r, !Nat.sub_0_r, !Nat.add_0_r, !Nat.add_0_l.
    assert ((i' <? s0)%nat = true) as -> by (apply Nat.ltb_lt; exact Hi'). assert ((j' <? s1)%nat = true) as -> by (apply Nat.ltb_lt; exact Hj'). cbn [Nat.leb andb].
    unfold coeff, wrap. fold s0 s1. rewrite H0', H1'. cbv zeta. rewrite !Z.sub_add.
    assert (Ei' : ((Z.of_nat p - Z.of_nat n - b + Z.of_nat (s0 / 2)) mod Z.of_nat s0 = Z.of_nat i')%Z).
    { unfold i'. rewrite Nat2Z.inj_mod, Nat2Z.inj_add. unfold i. rewrite Z2Nat.id by lia. now rewrite Zplus_mod_idemp_l. }
    assert (Ej' : ((Z.of_nat q - Z.of_nat m + Z.of_nat (s1 / 2)) mod Z.of_nat s1 = Z.of_nat j')%Z).
    { unfold j'. rewrite Nat2Z.inj_mod, Nat2Z.inj_add. unfold j. rewrite Z2Nat.id by lia. now rewrite Zplus_mod_idemp_l. }
    rewrite Ei', Ej'.
    assert ((0 <=? Z.of_nat i')%Z && (Z.of_nat i' <? Z.of_nat s0)%Z && (0 <=? Z.of_nat j')%Z && (Z.of_nat j' <? Z.of_nat s1)%Z = true) as ->.
    { rewrite !andb_true_iff, !Z.leb_le, !Z.ltb_lt. lia. }
    now rewrite !Nat2Z.id.
Qed.
