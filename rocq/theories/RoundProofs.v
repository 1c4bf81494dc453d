(** Proofs about grids in double precision (C122). *)
From Coq Require Import List Bool Arith ZArith Reals Lia Lra Psatz.
From Flocq Require Import Core Relative.
From Verif Require Import Py SurfaceModel RoundModel RoundSpec.
Import ListNotations.
Local Open Scope R_scope.

#[local] Instance prec53 : Prec_gt_0 53 := eq_refl.
Notation fmt := (generic_format radix2 (FLX_exp 53)).

(** ** Rounding *)
Lemma double_fmt : forall x, double x <-> fmt x.
Proof.
  intros x. split.
  - intros (m & e & -> & H). apply generic_format_FLX. exists (Float radix2 m e); [ reflexivity | exact H ].
  - intros H. apply FLX_format_generic in H; [ | exact prec53 ]. destruct H as [[m e] -> H]. exists m, e. split; [ reflexivity | exact H ].
Qed.
Lemma fmt_fl : forall x, fmt (fl x).
Proof. intros. apply generic_format_round; typeclasses eauto. Qed.
Lemma fl_id : forall x, fmt x -> fl x = x.
Proof. intros. apply round_generic; [ typeclasses eauto | assumption ]. Qed.
Lemma fl_le : forall x y, x <= y -> fl x <= fl y.
Proof. intros. apply round_le; [ typeclasses eauto .. | assumption ]. Qed.
Lemma fl_0 : fl 0 = 0.
Proof. apply round_0. typeclasses eauto. Qed.
Lemma fl_err : forall x, Rabs (fl x - x) <= bpow radix2 (-53) * Rabs x.
Proof.
  intros x. eapply Rle_trans; [ apply relative_error_N_FLX; exact prec53 | ].
  apply Rmult_le_compat_r; [ apply Rabs_pos | ]. change (-53 + 1)%Z with (1 + -53)%Z. rewrite bpow_plus. change (bpow radix2 1) with 2. change (bpow radix2 (- (53))) with (bpow radix2 (-53)). lra.
Qed.
Lemma u_small : 0 < bpow radix2 (-53) <= / 2 ^ 53.
Proof. split; [ apply bpow_gt_0 | right; change (-53)%Z with (- (53))%Z; rewrite bpow_opp; f_equal; rewrite <- IZR_Zpower by lia; rewrite pow_IZR; reflexivity ]. Qed.
Lemma fl_between : forall x, 0 <= x -> x * (1 - / 2 ^ 53) <= fl x <= x * (1 + / 2 ^ 53).
Proof.
  intros x H. pose proof (fl_err x) as E. rewrite (Rabs_pos_eq x H) in E.
  assert (bpow radix2 (-53) * x <= / 2 ^ 53 * x) by (apply Rmult_le_compat_r; [ assumption | apply u_small ]).
  apply Rabs_le_inv in E. lra.
Qed.
Lemma fmt_Z : forall m, (Z.abs m < 2 ^ 53)%Z -> fmt (IZR m).
Proof. intros m H. apply double_fmt. exists m, 0%Z. split; [ simpl; ring | exact H ]. Qed.
Lemma fmt_nat : forall n, (Z.of_nat n <= 2 ^ 31)%Z -> fmt (INR n).
Proof. intros. rewrite INR_IZR_INZ. apply fmt_Z. lia. Qed.
Lemma INR_31 : forall n, (Z.of_nat n <= 2 ^ 31)%Z -> 0 <= INR n <= 2 ^ 31.
Proof.
  intros n H. split; [ apply pos_INR | ]. rewrite INR_IZR_INZ. apply IZR_le in H. rewrite pow_IZR. exact H.
Qed.
Lemma fmt_bpow : forall x k, fmt x -> fmt (x * bpow radix2 k).
Proof.
  intros x k H. apply double_fmt in H. destruct H as (m & e & -> & H). apply double_fmt. exists m, (e + k)%Z.
  split; [ rewrite bpow_plus; ring | exact H ].
Qed.
Lemma fl_scale : forall x k, fl (x * bpow radix2 k) = fl x * bpow radix2 k.
Proof.
  intros x k. destruct (Req_dec x 0) as [-> | H].
  { rewrite Rmult_0_l, fl_0. ring. }
  unfold fl, round, scaled_mantissa, F2R, cexp, FLX_exp. simpl Fnum; simpl Fexp.
  rewrite mag_mult_bpow by assumption.
  replace (x * bpow radix2 k * bpow radix2 (- (mag radix2 x + k - 53))) with (x * bpow radix2 (- (mag radix2 x - 53))).
  2:{ rewrite Rmult_assoc, <- bpow_plus. do 2 f_equal. ring. }
  rewrite Rmult_assoc, <- bpow_plus. do 2 f_equal. ring.
Qed.
Lemma fl_eq : forall x m e, (2 ^ 52 <= m < 2 ^ 53)%Z -> IZR m * bpow radix2 e - bpow radix2 e / 2 < x < IZR m * bpow radix2 e + bpow radix2 e / 2 ->
  bpow radix2 (e + 52) <= x < bpow radix2 (e + 53) -> fl x = IZR m * bpow radix2 e.
Proof.
  intros x m e Hm Hx Hb.
  assert (M : (mag radix2 x : Z) = (e + 53)%Z).
  { apply mag_unique. rewrite Rabs_pos_eq by (eapply Rle_trans; [ apply bpow_ge_0 | apply Hb ]).
    replace (e + 53 - 1)%Z with (e + 52)%Z by ring. exact Hb. }
  unfold fl, round, scaled_mantissa, F2R, cexp, FLX_exp. simpl Fnum; simpl Fexp. rewrite M.
  replace (e + 53 - 53)%Z with e by ring. f_equal. f_equal. apply Znearest_imp.
  rewrite bpow_opp. pose proof (bpow_gt_0 radix2 e) as P. set (b := bpow radix2 e) in *.
  replace (x * / b - IZR m) with ((x - IZR m * b) / b) by (field; lra).
  apply Rabs_lt. split; (apply (Rmult_lt_reg_r b); [ assumption | ]); unfold Rdiv; rewrite Rmult_assoc, Rinv_l, Rmult_1_r by lra; lra.
Qed.

(** ** Quotients *)
Lemma trunc_nonneg : forall x k, 0 <= x -> IZR k <= x < IZR k + 1 -> Ztrunc x = k.
Proof. intros x k H Hk. rewrite Ztrunc_floor by assumption. apply Zfloor_imp. rewrite plus_IZR. exact Hk. Qed.
(** The index a multiple of the spacing gets *)
Definition quot (n : nat) (h : R) : R := fl (fl (INR n * h) / h).
Lemma quot_near : forall n h, 0 < h -> (Z.of_nat n <= 2 ^ 31)%Z -> INR n - / 2 < quot n h < INR n + / 2.
Proof.
  intros n h Hh Hn. apply INR_31 in Hn. unfold quot.
  assert (P : 0 <= INR n * h) by (apply Rmult_le_pos; lra).
  pose proof (fl_between _ P) as [A B].
  assert (A' : INR n * (1 - / 2 ^ 53) <= fl (INR n * h) / h).
  { apply (Rmult_le_reg_r h); [ assumption | ]. unfold Rdiv. rewrite (Rmult_assoc _ (/ h)), Rinv_l by lra. lra. }
  assert (B' : fl (INR n * h) / h <= INR n * (1 + / 2 ^ 53)).
  { apply (Rmult_le_reg_r h); [ assumption | ]. unfold Rdiv. rewrite (Rmult_assoc _ (/ h)), Rinv_l by lra. lra. }
  assert (Q : 0 <= fl (INR n * h) / h) by (eapply Rle_trans; [ | exact A' ]; apply Rmult_le_pos; lra).
  pose proof (fl_between _ Q) as [C D]. set (q := fl (INR n * h) / h) in *. split; nra.
Qed.
Lemma quot_pos : forall n h, 0 < h -> (Z.of_nat n <= 2 ^ 31)%Z -> 0 <= quot n h.
Proof.
  intros n h Hh Hn. unfold quot. rewrite <- fl_0. apply fl_le. apply Rmult_le_pos; [ | left; apply Rinv_0_lt_compat; assumption ].
  rewrite <- fl_0. apply fl_le. apply Rmult_le_pos; [ apply pos_INR | lra ].
Qed.
Lemma quot_exact : forall n h, 0 < h -> (Z.of_nat n <= 2 ^ 31)%Z -> fl (INR n * h) = INR n * h -> quot n h = INR n.
Proof.
  intros n h Hh Hn E. unfold quot. rewrite E. replace (INR n * h / h) with (INR n) by (field; lra). apply fl_id, fmt_nat, Hn.
Qed.
Lemma quot_small : forall n h, 0 < h -> double h -> (n <= 2)%nat -> quot n h = INR n.
Proof.
  intros n h Hh Hd Hn. apply quot_exact; [ assumption | lia | ]. apply double_fmt in Hd.
  destruct n as [ | [ | [ | n ]]]; [ | | | lia ].
  - simpl. rewrite Rmult_0_l. apply fl_0.
  - simpl. rewrite Rmult_1_l. apply fl_id, Hd.
  - apply fl_id. replace (INR 2 * h) with (h * bpow radix2 1) by (change (bpow radix2 1) with 2; simpl; ring). apply fmt_bpow, Hd.
Qed.
Lemma quot_eq_exact : forall n h, 0 < h -> (Z.of_nat n <= 2 ^ 31)%Z -> Ztrunc (quot n h) = Z.of_nat n <-> INR n <= quot n h.
Proof.
  intros n h Hh Hn. pose proof (quot_near n h Hh Hn) as N. pose proof (quot_pos n h Hh Hn) as P. split; intros H.
  - rewrite Ztrunc_floor in H by assumption. rewrite INR_IZR_INZ, <- H. apply Zfloor_lb.
  - apply trunc_nonneg; [ assumption | ]. rewrite <- INR_IZR_INZ. lra.
Qed.
Lemma quot_low : forall n h, 0 < h -> (Z.of_nat n <= 2 ^ 31)%Z -> quot n h < INR n -> Ztrunc (quot n h) = (Z.of_nat n - 1)%Z /\ Zceil (quot n h) = Z.of_nat n.
Proof.
  intros n h Hh Hn H. pose proof (quot_near n h Hh Hn) as N. pose proof (quot_pos n h Hh Hn) as P. split.
  - apply trunc_nonneg; [ assumption | ]. rewrite minus_IZR, <- INR_IZR_INZ. lra.
  - apply Zceil_imp. rewrite minus_IZR, <- INR_IZR_INZ. lra.
Qed.
Lemma quot_high : forall n h, 0 < h -> (Z.of_nat n <= 2 ^ 31)%Z -> INR n < quot n h -> Ztrunc (quot n h) = Z.of_nat n /\ Zceil (quot n h) = (Z.of_nat n + 1)%Z.
Proof.
  intros n h Hh Hn H. pose proof (quot_near n h Hh Hn) as N. pose proof (quot_pos n h Hh Hn) as P. split.
  - apply trunc_nonneg; [ assumption | ]. rewrite <- INR_IZR_INZ. lra.
  - apply Zceil_imp. replace (Z.of_nat n + 1 - 1)%Z with (Z.of_nat n) by ring. rewrite plus_IZR, <- INR_IZR_INZ. lra.
Qed.
Lemma quot_same : forall n h, (0 < n)%nat -> quot n h = INR n -> Ztrunc (quot n h) = Z.of_nat n /\ Zceil (quot n h) = Z.of_nat n.
Proof.
  intros n h Hn ->. rewrite INR_IZR_INZ, Ztrunc_IZR, Zceil_IZR. split; reflexivity.
Qed.
Lemma index_near : forall n h, 0 < h -> (Z.of_nat n <= 2 ^ 31)%Z -> Ztrunc (quot n h) = Z.of_nat n \/ (0 < n)%nat /\ Ztrunc (quot n h) = (Z.of_nat n - 1)%Z.
Proof.
  intros n h Hh Hn. destruct (Rlt_le_dec (quot n h) (INR n)) as [H | H].
  - right. split; [ | apply quot_low; assumption ]. destruct n; [ | lia ]. pose proof (quot_pos 0 h Hh Hn). simpl in H. lra.
  - left. apply quot_eq_exact; assumption.
Qed.
Lemma fits_exact : forall n h i, fits n h -> (i <= n)%nat -> fl (INR i * h) = INR i * h.
Proof.
  intros n h i (m & e & -> & Hm & Hb) Hi. apply fl_id, double_fmt. exists (Z.of_nat i * m)%Z, e.
  split; [ rewrite mult_IZR, INR_IZR_INZ; ring | ]. nia.
Qed.
Lemma fits_pos : forall n h, fits n h -> 0 < h.
Proof. intros n h (m & e & -> & Hm & _). apply Rmult_lt_0_compat; [ apply IZR_lt; assumption | apply bpow_gt_0 ]. Qed.
Lemma fits_double : forall n h, (0 < n)%nat -> fits n h -> double h.
Proof. intros n h Hn (m & e & -> & Hm & Hb). exists m, e. split; [ reflexivity | nia ]. Qed.
Lemma fits_quot : forall n h i, fits n h -> (i <= n)%nat -> (Z.of_nat n <= 2 ^ 31)%Z -> quot i h = INR i.
Proof.
  intros n h i H Hi Hn. apply quot_exact; [ eapply fits_pos; eassumption | lia | eapply fits_exact; eassumption ].
Qed.

(** ** Pieces of the code *)
Lemma int_div_extent : forall n h, int_div (fextent n h) h = Ztrunc (quot n h).
Proof. intros. unfold int_div, fextent, quot. rewrite (Rmult_comm h). reflexivity. Qed.
Lemma arange_len_extent : forall n h, farange_len 0 (fextent n h) h = Z.to_nat (Zceil (quot n h)).
Proof.
  intros. unfold farange_len, fextent, quot. rewrite Rminus_0_r, (fl_id (fl (h * INR n))) by apply fmt_fl.
  rewrite (Rmult_comm h). reflexivity.
Qed.
Lemma farange_0 : forall h i, double h -> farange 0 h i = fl (INR i * h).
Proof.
  intros h i H. apply double_fmt in H. unfold farange. rewrite Rplus_0_l, (fl_id h H), Rminus_0_r, (fl_id h H).
  destruct i as [ | [ | i ]].
  - simpl. rewrite Rmult_0_l, fl_0. reflexivity.
  - simpl INR. rewrite Rmult_1_l, (fl_id h H). reflexivity.
  - rewrite Rplus_0_l. apply fl_id, fmt_fl.
Qed.
Lemma fextent_nonneg : forall n h, 0 < h -> 0 <= fextent n h.
Proof. intros. unfold fextent. rewrite <- fl_0. apply fl_le. apply Rmult_le_pos; [ lra | apply pos_INR ]. Qed.
Lemma fextent_mono : forall n m h, 0 < h -> (n <= m)%nat -> fextent n h <= fextent m h.
Proof. intros. unfold fextent. apply fl_le. apply Rmult_le_compat_l; [ lra | apply le_INR; assumption ]. Qed.
Lemma index_in : forall k n, (k < n)%nat -> index (Z.of_nat k) n = Some k.
Proof.
  intros k n H. unfold index.
  destruct (Z.ltb_spec (Z.of_nat k) (- Z.of_nat n)); [ lia | ]. destruct (Z.leb_spec (Z.of_nat n) (Z.of_nat k)); [ lia | ].
  destruct (Z.ltb_spec (Z.of_nat k) 0); [ lia | ]. cbn [orb]. f_equal. lia.
Qed.
Lemma index_out : forall n, index (Z.of_nat n) n = None.
Proof.
  intros n. unfold index. destruct (Z.leb_spec (Z.of_nat n) (Z.of_nat n)); [ | lia ]. rewrite orb_true_r. reflexivity.
Qed.
Lemma bound_nat : forall k n, (k <= n)%nat -> bound (Z.of_nat k) n = k.
Proof. intros k n H. unfold bound. destruct (Z.ltb_spec (Z.of_nat k) 0); lia. Qed.
Lemma int_div_0 : forall h, int_div 0 h = 0%Z.
Proof. intros. unfold int_div, Rdiv. rewrite Rmult_0_l, fl_0. apply (Ztrunc_IZR 0). Qed.

(** The same grid, no off set: one axis *)
Definition row_of (h : R) (n i : nat) : option nat := index (Ztrunc (quot i h)) n.
Lemma row_of_in : forall h n i, 0 < h -> (Z.of_nat n <= 2 ^ 31)%Z -> (i < n)%nat -> exists k, row_of h n i = Some k /\ (k = i \/ S k = i).
Proof.
  intros h n i Hh Hn Hi. unfold row_of. destruct (index_near i h Hh ltac:(lia)) as [-> | [P ->]].
  - exists i. split; [ apply index_in; assumption | left; reflexivity ].
  - exists (i - 1)%nat. replace (Z.of_nat i - 1)%Z with (Z.of_nat (i - 1)) by lia. split; [ apply index_in; lia | right; lia ].
Qed.
Lemma fgap_plain_same : forall s1 s2, 0 < step s1 -> double (step s1) -> step s2 = step s1 ->
  rows (heights s2) = rows (heights s1) -> cols (heights s2) = cols (heights s1) ->
  let m := rows (heights s1) in let n := cols (heights s1) in let h := step s1 in
  fgap_plain s1 s2 (0, 0) =
  difference_of
    (let m' := Z.to_nat (Zceil (quot m h)) in let n' := Z.to_nat (Zceil (quot n h)) in
     if forallb (fun i => match row_of h m i with Some _ => true | None => false end) (seq 0 m') &&
        forallb (fun j => match row_of h n j with Some _ => true | None => false end) (seq 0 n') || Nat.eqb (m' * n') 0
     then Ok (Grid m' n' (fun i j => match row_of h m i, row_of h n j with Some a, Some b => at_ (heights s2) a b | _, _ => 0 end))
     else Err IndexError)
    (Grid (bound (Ztrunc (quot m h)) m) (bound (Ztrunc (quot n h)) n) (fun i j => at_ (heights s1) i j)).
Proof.
  intros s1 s2 Hh Hd Hs Hr Hc m n h. unfold fgap_plain. cbn [fst snd]. rewrite Hs, Hr, Hc. fold m n h.
  unfold Rltb. destruct (Rlt_dec (fextent m h) (fextent m h)); [ lra | ]. destruct (Rlt_dec (fextent n h) (fextent n h)); [ lra | ].
  cbn [orb]. rewrite Ropp_0, Rmax_left, !Rminus_0_r by lra.
  assert (E : forall k, Rmin (fextent k h) (fl (fextent k h)) = fextent k h).
  { intros k. rewrite (fl_id (fextent k h)) by apply fmt_fl. apply Rmin_left. lra. }
  rewrite !E, !int_div_0, !int_div_extent, !arange_len_extent. change (bound 0 m) with (bound (Z.of_nat 0) m).
  change (bound 0 n) with (bound (Z.of_nat 0) n). rewrite !bound_nat, !Nat.sub_0_r by lia.
  unfold fnearest. rewrite Hs, Hr, Hc. fold m n h. cbv zeta.
  assert (A : forall i k, index (int_div (fl (farange 0 h i + 0)) h) k = row_of h k i).
  { intros i k. rewrite Rplus_0_r, (farange_0 h i Hd), (fl_id (fl _)) by apply fmt_fl. reflexivity. }
  assert (B : forall k l, forallb (fun i => match index (int_div (fl (farange 0 h i + 0)) h) k with Some _ => true | None => false end) l =
                          forallb (fun i => match row_of h k i with Some _ => true | None => false end) l).
  { intros k l. induction l as [ | a l IH]; [ reflexivity | ]. cbn [forallb]. rewrite A, IH. reflexivity. }
  rewrite !B.
  destruct (_ || _); [ | reflexivity ]. unfold difference_of, bind. cbn [rows cols at_].
  unfold fminus. cbn [rows cols at_].
  destruct (same_size _ _); [ | reflexivity ]. destruct (same_size _ _); [ | reflexivity ].
  cbn [rows cols]. destruct (Nat.eqb _ 0); [ reflexivity | ]. f_equal. f_equal.
  apply FunctionalExtensionality.functional_extensionality. intros i.
  apply FunctionalExtensionality.functional_extensionality. intros j. rewrite !A. reflexivity.
Qed.

Lemma forallb_rows : forall h n m, 0 < h -> (Z.of_nat n <= 2 ^ 31)%Z -> (m <= n)%nat ->
  forallb (fun i => match row_of h n i with Some _ => true | None => false end) (seq 0 m) = true.
Proof.
  intros h n m Hh Hn Hm. apply forallb_forall. intros i Hi. apply in_seq in Hi.
  destruct (row_of_in h n i Hh Hn ltac:(lia)) as (k & -> & _). reflexivity.
Qed.
Lemma forallb_rows_out : forall h n, 0 < h -> (Z.of_nat n <= 2 ^ 31)%Z -> INR n < quot n h ->
  forallb (fun i => match row_of h n i with Some _ => true | None => false end) (seq 0 (S n)) = false.
Proof.
  intros h n Hh Hn H. apply not_true_iff_false. intros F. rewrite forallb_forall in F.
  specialize (F n ltac:(apply in_seq; lia)). unfold row_of in F.
  rewrite (proj1 (quot_high n h Hh Hn H)), index_out in F. discriminate.
Qed.
Lemma difference_ok : forall g2 g1, rows g2 = rows g1 -> cols g2 = cols g1 -> (0 < rows g1)%nat -> (0 < cols g1)%nat ->
  exists d, difference_of (Ok g2) g1 = Ok d /\ rows d = rows g1 /\ cols d = cols g1 /\
  forall i j, (i < rows g1)%nat -> (j < cols g1)%nat -> at_ d i j = fl (- at_ g2 i j - at_ g1 i j).
Proof.
  intros g2 g1 Hr Hc Pr Pc. unfold difference_of, bind, fminus. cbn [rows cols at_]. rewrite Hr, Hc. unfold same_size.
  rewrite !Nat.eqb_refl. cbn [rows cols]. destruct (Nat.eqb_spec (rows g1 * cols g1) 0); [ nia | ].
  eexists. split; [ reflexivity | ]. cbn [rows cols at_]. split; [ reflexivity | ]. split; [ reflexivity | ].
  intros i j Hi Hj. destruct (Nat.eqb_spec (rows g1) 1); destruct (Nat.eqb_spec (cols g1) 1);
    try (replace i with O by lia); try (replace j with O by lia); reflexivity.
Qed.
(** Both quotients are the numbers of points: the gap is found. *)
Lemma plain_found : forall s1 s2, 0 < step s1 -> double (step s1) -> step s2 = step s1 ->
  rows (heights s2) = rows (heights s1) -> cols (heights s2) = cols (heights s1) ->
  (0 < rows (heights s1))%nat -> (0 < cols (heights s1))%nat ->
  (Z.of_nat (rows (heights s1)) <= 2 ^ 31)%Z -> (Z.of_nat (cols (heights s1)) <= 2 ^ 31)%Z ->
  quot (rows (heights s1)) (step s1) = INR (rows (heights s1)) -> quot (cols (heights s1)) (step s1) = INR (cols (heights s1)) ->
  exists d, fgap_plain s1 s2 (0, 0) = Ok d /\ rows d = rows (heights s1) /\ cols d = cols (heights s1) /\
  forall i j a b, (i < rows (heights s1))%nat -> (j < cols (heights s1))%nat ->
    row_of (step s1) (rows (heights s1)) i = Some a -> row_of (step s1) (cols (heights s1)) j = Some b ->
    at_ d i j = fl (- at_ (heights s2) a b - at_ (heights s1) i j).
Proof.
  intros s1 s2 Hh Hd Hs Hr Hc Pr Pc Br Bc Qr Qc. rewrite (fgap_plain_same s1 s2 Hh Hd Hs Hr Hc). cbv zeta.
  destruct (quot_same _ _ Pr Qr) as [-> ->]. destruct (quot_same _ _ Pc Qc) as [-> ->]. rewrite !Nat2Z.id, !bound_nat by lia.
  rewrite !forallb_rows by (try assumption; lia). cbn [andb orb].
  match goal with |- context [difference_of (Ok ?a) ?b] => destruct (difference_ok a b eq_refl eq_refl Pr Pc) as (d & -> & R1 & C1 & A) end.
  exists d. split; [ reflexivity | ]. split; [ exact R1 | ]. split; [ exact C1 | ].
  intros i j a b Hi Hj Ra Rb. rewrite (A i j Hi Hj). cbn [at_]. rewrite Ra, Rb. reflexivity.
Qed.
(** A quotient that is not: it is not found. *)
Lemma same_size_pred : forall n, (3 <= n)%nat -> same_size n (n - 1) = None.
Proof.
  intros n H. unfold same_size. destruct (Nat.eqb_spec n (n - 1)); [ lia | ]. destruct (Nat.eqb_spec n 1); [ lia | ].
  destruct (Nat.eqb_spec (n - 1) 1); [ lia | reflexivity ].
Qed.
Lemma axis_low : forall n h, 0 < h -> double h -> (Z.of_nat n <= 2 ^ 31)%Z -> quot n h < INR n ->
  Z.to_nat (Zceil (quot n h)) = n /\ bound (Ztrunc (quot n h)) n = (n - 1)%nat /\ (3 <= n)%nat.
Proof.
  intros n h Hh Hd Hn H. assert (3 <= n)%nat.
  { destruct (Nat.le_gt_cases 3 n); [ assumption | ]. rewrite (quot_small n h Hh Hd ltac:(lia)) in H. lra. }
  destruct (quot_low n h Hh Hn H) as [-> ->]. rewrite Nat2Z.id. replace (Z.of_nat n - 1)%Z with (Z.of_nat (n - 1)) by lia.
  rewrite bound_nat by lia. auto.
Qed.
Lemma axis_ge : forall n h, 0 < h -> (Z.of_nat n <= 2 ^ 31)%Z -> INR n <= quot n h -> (0 < n)%nat -> (n <= Z.to_nat (Zceil (quot n h)))%nat.
Proof.
  intros n h Hh Hn [H | H] P.
  - rewrite (proj2 (quot_high n h Hh Hn H)). lia.
  - rewrite (proj2 (quot_same n h P (eq_sym H))). lia.
Qed.
Lemma plain_low : forall s1 s2, 0 < step s1 -> double (step s1) -> step s2 = step s1 ->
  rows (heights s2) = rows (heights s1) -> cols (heights s2) = cols (heights s1) ->
  (0 < rows (heights s1))%nat -> (0 < cols (heights s1))%nat ->
  (Z.of_nat (rows (heights s1)) <= 2 ^ 31)%Z -> (Z.of_nat (cols (heights s1)) <= 2 ^ 31)%Z ->
  quot (rows (heights s1)) (step s1) <= INR (rows (heights s1)) -> quot (cols (heights s1)) (step s1) <= INR (cols (heights s1)) ->
  quot (rows (heights s1)) (step s1) < INR (rows (heights s1)) \/ quot (cols (heights s1)) (step s1) < INR (cols (heights s1)) ->
  fgap_plain s1 s2 (0, 0) = Err ValueError.
Proof.
  intros s1 s2 Hh Hd Hs Hr Hc Pr Pc Br Bc Lr Lc L. rewrite (fgap_plain_same s1 s2 Hh Hd Hs Hr Hc). cbv zeta.
  assert (C : forall n, (0 < n)%nat -> (Z.of_nat n <= 2 ^ 31)%Z -> quot n (step s1) <= INR n -> Z.to_nat (Zceil (quot n (step s1))) = n).
  { intros n P B [H | H]; [ apply axis_low; assumption | rewrite (proj2 (quot_same _ _ P H)); apply Nat2Z.id ]. }
  rewrite !C by assumption. rewrite !forallb_rows by (try assumption; lia). cbn [andb orb].
  unfold difference_of, bind, fminus. cbn [rows cols at_].
  destruct L as [L | L].
  - destruct (axis_low _ _ Hh Hd Br L) as (_ & -> & G). rewrite (same_size_pred _ G). reflexivity.
  - destruct (axis_low _ _ Hh Hd Bc L) as (_ & -> & G). rewrite (same_size_pred _ G). destruct (same_size _ _); reflexivity.
Qed.
Lemma plain_high : forall s1 s2, 0 < step s1 -> double (step s1) -> step s2 = step s1 ->
  rows (heights s2) = rows (heights s1) -> cols (heights s2) = cols (heights s1) ->
  (0 < rows (heights s1))%nat -> (0 < cols (heights s1))%nat ->
  (Z.of_nat (rows (heights s1)) <= 2 ^ 31)%Z -> (Z.of_nat (cols (heights s1)) <= 2 ^ 31)%Z ->
  INR (rows (heights s1)) < quot (rows (heights s1)) (step s1) \/ INR (cols (heights s1)) < quot (cols (heights s1)) (step s1) ->
  fgap_plain s1 s2 (0, 0) = Err IndexError.
Proof.
  intros s1 s2 Hh Hd Hs Hr Hc Pr Pc Br Bc L. rewrite (fgap_plain_same s1 s2 Hh Hd Hs Hr Hc). cbv zeta.
  assert (P : forall n, (0 < n)%nat -> (Z.of_nat n <= 2 ^ 31)%Z -> (0 < Z.to_nat (Zceil (quot n (step s1))))%nat).
  { intros n Hn B. destruct (Rlt_le_dec (quot n (step s1)) (INR n)) as [H | H].
    - rewrite (proj1 (axis_low _ _ Hh Hd B H)). assumption.
    - pose proof (axis_ge n _ Hh B H Hn). lia. }
  pose proof (P _ Pr Br). pose proof (P _ Pc Bc). match goal with |- context [Nat.eqb ?a 0] => destruct (Nat.eqb_spec a 0); [ nia | ] end.
  rewrite orb_false_r. destruct L as [L | L].
  - rewrite (proj2 (quot_high _ _ Hh Br L)). replace (Z.to_nat (Z.of_nat (rows (heights s1)) + 1)) with (S (rows (heights s1))) by lia.
    rewrite forallb_rows_out by assumption. reflexivity.
  - rewrite (proj2 (quot_high _ _ Hh Bc L)). replace (Z.to_nat (Z.of_nat (cols (heights s1)) + 1)) with (S (cols (heights s1))) by lia.
    rewrite (forallb_rows_out (step s1) (cols (heights s1))) by assumption. rewrite andb_false_r. reflexivity.
Qed.

(** ** Periodic surfaces with harmless spacings *)
Definition point2 (h : R) (n i : nat) : R :=
  fremainder (fl (fl (flinspace (fl (h * INR (n - 1))) n i - 0) + fl (eps * fextent n h))) (fextent n h).
Lemma INR_pred : forall n, (0 < n)%nat -> INR (n - 1) = INR n - 1.
Proof. intros. rewrite minus_INR by lia. reflexivity. Qed.
Lemma flinspace_fits : forall n h i, fits n h -> (i < n)%nat -> flinspace (fl (h * INR (n - 1))) n i = INR i * h.
Proof.
  intros n h i F Hi. unfold flinspace. rewrite (Rmult_comm h), (fits_exact n h (n - 1) F) by lia.
  destruct (Nat.eqb_spec n 1) as [-> | N1]; [ replace i with O by lia; simpl; ring | ].
  destruct (Nat.eqb_spec (S i) n) as [E | E]; [ replace (n - 1)%nat with i by lia; reflexivity | ].
  replace (INR (n - 1) * h / INR (n - 1)) with h by (field; apply not_0_INR; lia).
  rewrite (fl_id h) by (apply double_fmt; apply (fits_double n); [ lia | assumption ]). apply (fits_exact n); [ assumption | lia ].
Qed.
Lemma point2_fits : forall n h i, fits n h -> (i < n)%nat -> (Z.of_nat n <= 2 ^ 31)%Z -> int_div (point2 h n i) h = Z.of_nat i.
Proof.
  intros n h i F Hi Hn. pose proof (fits_pos n h F) as Hh. unfold point2. rewrite (flinspace_fits n h i F Hi), Rminus_0_r.
  rewrite (fl_id (INR i * h)) by (rewrite <- (fits_exact n h i F) by lia; apply fmt_fl).
  assert (X : fextent n h = INR n * h) by (unfold fextent; rewrite Rmult_comm; apply (fits_exact n); [ assumption | lia ]). rewrite X.
  assert (D : fl (eps * (INR n * h)) = INR n * h * eps).
  { rewrite (Rmult_comm eps). unfold eps. rewrite fl_scale. f_equal. apply (fits_exact n); [ assumption | lia ]. }
  rewrite D. pose proof (INR_31 n Hn) as [_ B].
  assert (Bi : 0 <= INR i /\ INR i + 1 <= INR n).
  { split; [ apply pos_INR | ]. rewrite <- S_INR. apply le_INR. lia. }
  assert (E : 0 < eps <= / 2 ^ 52).
  { unfold eps. split; [ apply bpow_gt_0 | ]. right. change (-52)%Z with (- (52))%Z. rewrite bpow_opp. f_equal. rewrite <- IZR_Zpower by lia. rewrite pow_IZR. reflexivity. }
  assert (S0 : 0 <= INR i * h) by (apply Rmult_le_pos; lra).
  assert (Dl : 0 <= INR n * h * eps <= h / 64).
  { split; [ apply Rmult_le_pos; [ apply Rmult_le_pos; lra | lra ] | ].
    assert (INR n * eps <= / 64).
    { apply Rle_trans with (2 ^ 31 * / 2 ^ 52); [ apply Rmult_le_compat; lra | lra ]. }
    replace (INR n * h * eps) with (h * (INR n * eps)) by ring. unfold Rdiv. apply Rmult_le_compat_l; lra. }
  set (y := fl (INR i * h + INR n * h * eps)).
  assert (Y : INR i * h <= y <= INR i * h + h / 4).
  { split.
    - rewrite <- (fits_exact n h i F) by lia. unfold y. apply fl_le. lra.
    - unfold y. destruct (fl_between (INR i * h + INR n * h * eps) ltac:(lra)) as [_ U]. eapply Rle_trans; [ exact U | ].
      assert (INR i * h <= 2 ^ 31 * h) by (apply Rmult_le_compat_r; lra).
      apply Rle_trans with ((INR i * h + h / 64) * (1 + / 2 ^ 53)); [ apply Rmult_le_compat_r; lra | ]. lra. }
  assert (Pn : 0 < INR n * h) by (apply Rmult_lt_0_compat; lra).
  assert (Q : y < INR n * h).
  { assert ((INR i + 1) * h <= INR n * h) by (apply Rmult_le_compat_r; lra). lra. }
  unfold fremainder. replace (Zfloor (y / (INR n * h))) with 0%Z.
  2:{ symmetry. apply Zfloor_imp. simpl. split.
      - apply Rmult_le_pos; [ lra | left; apply Rinv_0_lt_compat; assumption ].
      - apply (Rmult_lt_reg_r (INR n * h)); [ assumption | ]. unfold Rdiv. rewrite Rmult_assoc, Rinv_l, Rmult_1_r by lra. lra. }
  rewrite Rmult_0_l, Rminus_0_r, (fl_id y) by apply fmt_fl. unfold int_div.
  assert (Z1 : INR i <= y / h <= INR i + / 4).
  { split; (apply (Rmult_le_reg_r h); [ assumption | ]); unfold Rdiv; rewrite (Rmult_assoc y), Rinv_l by lra; lra. }
  assert (Z2 : INR i <= fl (y / h)).
  { rewrite <- (fl_id (INR i)) at 1 by (apply fmt_nat; lia). apply fl_le. lra. }
  assert (Z3 : fl (y / h) < INR i + 1).
  { destruct (fl_between (y / h) ltac:(lra)) as [_ U]. eapply Rle_lt_trans; [ exact U | ].
    apply Rle_lt_trans with ((INR i + / 4) * (1 + / 2 ^ 53)); [ apply Rmult_le_compat_r; lra | ]. lra. }
  apply trunc_nonneg; [ lra | ]. rewrite <- INR_IZR_INZ. lra.
Qed.
Definition row2_of (h : R) (n i : nat) : option nat := index (int_div (point2 h n i) h) n.
Lemma periodic_found : forall s1 s2, step s2 = step s1 ->
  rows (heights s2) = rows (heights s1) -> cols (heights s2) = cols (heights s1) ->
  (0 < rows (heights s1))%nat -> (0 < cols (heights s1))%nat ->
  (forall i, (i < rows (heights s1))%nat -> exists a, row2_of (step s1) (rows (heights s1)) i = Some a) ->
  (forall i, (i < cols (heights s1))%nat -> exists a, row2_of (step s1) (cols (heights s1)) i = Some a) ->
  exists d, fgap_periodic s1 s2 (0, 0) = Ok d /\ rows d = rows (heights s1) /\ cols d = cols (heights s1) /\
  forall i j a b, (i < rows (heights s1))%nat -> (j < cols (heights s1))%nat ->
    row2_of (step s1) (rows (heights s1)) i = Some a -> row2_of (step s1) (cols (heights s1)) j = Some b ->
    at_ d i j = fl (- at_ (heights s2) a b - at_ (heights s1) i j).
Proof.
  intros s1 s2 Hs Hr Hc Pr Pc Ir Ic. unfold fgap_periodic, fnearest. cbn [fst snd]. cbv zeta. rewrite Hs, Hr, Hc.
  assert (T : forall n, (forall i, (i < n)%nat -> exists a, row2_of (step s1) n i = Some a) ->
     forallb (fun i => match row2_of (step s1) n i with Some _ => true | None => false end) (seq 0 n) = true).
  { intros n H. apply forallb_forall. intros i Hi. apply in_seq in Hi. destruct (H i ltac:(lia)) as [a ->]. reflexivity. }
  pose proof (T _ Ir) as Tr. pose proof (T _ Ic) as Tc. unfold row2_of, point2 in Tr, Tc. rewrite Tr, Tc. cbn [andb orb].
  match goal with |- context [difference_of (Ok ?a) ?b] => destruct (difference_ok a b eq_refl eq_refl Pr Pc) as (d & -> & R1 & C1 & A) end.
  exists d. split; [ reflexivity | ]. split; [ exact R1 | ]. split; [ exact C1 | ].
  intros i j a b Hi Hj Ra Rb. rewrite (A i j Hi Hj). cbn [at_]. unfold row2_of, point2 in Ra, Rb. rewrite Ra, Rb. reflexivity.
Qed.

(** ** Values *)
Lemma IZR_pow2 : forall s, (0 <= s)%Z -> IZR (2 ^ s) = bpow radix2 s.
Proof. intros s H. exact (IZR_Zpower radix2 s H). Qed.
Lemma fl_quot_Z : forall a b m s, (0 < b)%Z -> (0 <= s)%Z -> (2 ^ 52 <= m < 2 ^ 53)%Z ->
  ((2 * m - 1) * b < 2 * (a * 2 ^ s) < (2 * m + 1) * b)%Z -> (2 ^ 52 * b <= a * 2 ^ s < 2 ^ 53 * b)%Z ->
  fl (IZR a / IZR b) = IZR m * bpow radix2 (- s).
Proof.
  intros a b m s Hb Hs Hm Hx Hr.
  assert (P : 0 < IZR b) by (apply IZR_lt; assumption).
  assert (E : IZR a / IZR b = IZR (a * 2 ^ s) / IZR b * bpow radix2 (- s)).
  { rewrite mult_IZR, (IZR_pow2 s Hs), bpow_opp. field. split; [ apply Rgt_not_eq, bpow_gt_0 | lra ]. }
  rewrite E, fl_scale. f_equal. rewrite (fl_eq (IZR (a * 2 ^ s) / IZR b) m 0); [ simpl; ring | exact Hm | | ].
  - simpl bpow. assert (X : forall c, IZR c = IZR (c * b) / IZR b) by (intros; rewrite mult_IZR; field; lra).
    destruct Hx as [H1 H2]. apply IZR_lt in H1, H2. rewrite !mult_IZR in H1, H2. rewrite minus_IZR, mult_IZR in H1. rewrite plus_IZR, mult_IZR in H2.
    rewrite mult_IZR. split; (apply (Rmult_lt_reg_r (IZR b)); [ assumption | ]); unfold Rdiv; rewrite (Rmult_assoc _ (/ IZR b)), Rinv_l by lra; lra.
  - destruct Hr as [H1 H2]. apply IZR_le in H1. apply IZR_lt in H2. rewrite !mult_IZR in H1, H2. rewrite mult_IZR.
    rewrite (IZR_pow2 52) in H1 by lia. rewrite (IZR_pow2 53) in H2 by lia.
    split; [ apply (Rmult_le_reg_r (IZR b)) | apply (Rmult_lt_reg_r (IZR b)) ]; try assumption;
      unfold Rdiv; rewrite (Rmult_assoc _ (/ IZR b)), Rinv_l, Rmult_1_r by lra; assumption.
Qed.
Lemma fl_Z : forall a m s, (0 <= s)%Z -> (2 ^ 52 <= m < 2 ^ 53)%Z ->
  ((2 * m - 1) * 2 ^ s < 2 * a < (2 * m + 1) * 2 ^ s)%Z -> (2 ^ 52 * 2 ^ s <= a < 2 ^ 53 * 2 ^ s)%Z ->
  fl (IZR a) = IZR (m * 2 ^ s).
Proof.
  intros a m s Hs Hm Hx Hr.
  replace (IZR a) with (IZR a / IZR (2 ^ s) * bpow radix2 s).
  2:{ rewrite (IZR_pow2 s Hs). field. apply Rgt_not_eq, bpow_gt_0. }
  rewrite fl_scale, (fl_quot_Z a (2 ^ s) m 0); [ | apply Z.pow_pos_nonneg; lia | lia | assumption | rewrite Z.pow_0_r, Z.mul_1_r; assumption .. ].
  rewrite mult_IZR, (IZR_pow2 s Hs). simpl (- 0)%Z. simpl (bpow radix2 0). ring.
Qed.
Lemma quot_scale : forall n h k, 0 < h -> quot n (h * bpow radix2 k) = quot n h.
Proof.
  intros n h k Hh. unfold quot. rewrite <- Rmult_assoc, fl_scale. f_equal. field.
  split; [ lra | apply Rgt_not_eq, bpow_gt_0 ].
Qed.
Lemma hundredth_7 : quot 7 (IZR 5764607523034235) = IZR 7881299347898369 * bpow radix2 (- 50).
Proof.
  unfold quot. rewrite INR_IZR_INZ, <- mult_IZR. change (Z.of_nat 7 * 5764607523034235)%Z with 40352252661239645%Z.
  rewrite (fl_Z 40352252661239645 5044031582654956 3) by lia. rewrite (fl_quot_Z (5044031582654956 * 2 ^ 3) 5764607523034235 7881299347898369 50) by lia. reflexivity.
Qed.
Lemma hundredth_29 : quot 29 (IZR 5764607523034235) = IZR 8162774324609023 * bpow radix2 (- 48).
Proof.
  unfold quot. rewrite INR_IZR_INZ, <- mult_IZR. change (Z.of_nat 29 * 5764607523034235)%Z with 167173618167992815%Z.
  rewrite (fl_Z 167173618167992815 5224175567749775 5) by lia. rewrite (fl_quot_Z (5224175567749775 * 2 ^ 5) 5764607523034235 8162774324609023 48) by lia. reflexivity.
Qed.
Lemma hundredth_30 : quot 30 (IZR 5764607523034235) = IZR 8444249301319680 * bpow radix2 (- 48).
Proof.
  unfold quot. rewrite INR_IZR_INZ, <- mult_IZR. change (Z.of_nat 30 * 5764607523034235)%Z with 172938225691027050%Z.
  rewrite (fl_Z 172938225691027050 5404319552844595 5) by lia. rewrite (fl_quot_Z (5404319552844595 * 2 ^ 5) 5764607523034235 8444249301319680 48) by lia. reflexivity.
Qed.
Lemma hundredth_116 : quot 116 (IZR 5764607523034235) = IZR 8162774324609023 * bpow radix2 (- 46).
Proof.
  unfold quot. rewrite INR_IZR_INZ, <- mult_IZR. change (Z.of_nat 116 * 5764607523034235)%Z with 668694472671971260%Z.
  rewrite (fl_Z 668694472671971260 5224175567749775 7) by lia. rewrite (fl_quot_Z (5224175567749775 * 2 ^ 7) 5764607523034235 8162774324609023 46) by lia. reflexivity.
Qed.
Lemma hundredth_117 : quot 117 (IZR 5764607523034235) = IZR 8233143068786687 * bpow radix2 (- 46).
Proof.
  unfold quot. rewrite INR_IZR_INZ, <- mult_IZR. change (Z.of_nat 117 * 5764607523034235)%Z with 674459080195005495%Z.
  rewrite (fl_Z 674459080195005495 5269211564023480 7) by lia. rewrite (fl_quot_Z (5269211564023480 * 2 ^ 7) 5764607523034235 8233143068786687 46) by lia. reflexivity.
Qed.
Lemma three_tenths : fl (IZR 21617278211378380 / IZR 7205759403792794) = IZR 6755399441055743 * bpow radix2 (- 51).
Proof. rewrite (fl_quot_Z 21617278211378380 7205759403792794 6755399441055743 51) by lia. reflexivity. Qed.
Lemma d029_point : int_div (point2 (IZR 23527595140235936070482945638400) 116 114) (IZR 23527595140235936070482945638400) = 113%Z.
Proof.
  unfold point2, flinspace. change (Nat.eqb 116 1) with false. change (Nat.eqb 115 116) with false. cbv iota.
  change (116 - 1)%nat with 115%nat. rewrite !INR_IZR_INZ. change (Z.of_nat 115) with 115%Z. change (Z.of_nat 114) with 114%Z.
  rewrite <- mult_IZR. change (23527595140235936070482945638400 * 115)%Z with 2705673441127132648105538748416000%Z. rewrite (fl_Z 2705673441127132648105538748416000 4693595236650188 59) by lia. change (4693595236650188 * 2 ^ 59)%Z with 2705673441127132373385961478815744%Z.
  replace (fl (IZR 2705673441127132373385961478815744 / IZR 115)) with (IZR 23527595140235931566883318267904).
  2:{ symmetry. replace (IZR 2705673441127132373385961478815744 / IZR 115) with (IZR 600780190291224064 / IZR 115 * bpow radix2 52).
      2:{ change (bpow radix2 52) with (IZR (2 ^ 52)). change 2705673441127132373385961478815744%Z with (600780190291224064 * 2 ^ 52)%Z. rewrite mult_IZR. field. }
      rewrite fl_scale, (fl_quot_Z 600780190291224064 115 5224175567749774 0) by lia. change (- 0)%Z with 0%Z. change (bpow radix2 0) with 1.
      change (bpow radix2 52) with (IZR (2 ^ 52)). rewrite Rmult_1_r, <- mult_IZR. reflexivity. }
  rewrite <- mult_IZR. change (114 * 23527595140235931566883318267904)%Z with 2682145845986896198624698282541056%Z. rewrite (fl_Z 2682145845986896198624698282541056 4652781365027142 59) by lia. change (4652781365027142 * 2 ^ 59)%Z with 2682145845986895928408720640311296%Z.
  rewrite Rminus_0_r. replace (fl (IZR 2682145845986895928408720640311296)) with (IZR 2682145845986895928408720640311296).
  2:{ symmetry. rewrite (fl_Z 2682145845986895928408720640311296 4652781365027142 59) by lia. reflexivity. }
  assert (X : fextent 116 (IZR 23527595140235936070482945638400) = IZR 2729201036267368818363202317320192).
  { unfold fextent. rewrite INR_IZR_INZ, <- mult_IZR. change (23527595140235936070482945638400 * Z.of_nat 116)%Z with 2729201036267368584176021694054400%Z. rewrite (fl_Z 2729201036267368584176021694054400 4734409108273234 59) by lia. reflexivity. }
  rewrite X. assert (D : fl (eps * IZR 2729201036267368818363202317320192) = IZR 606004365858973952).
  { unfold eps. rewrite (Rmult_comm _ (IZR 2729201036267368818363202317320192)), fl_scale, (fl_Z 2729201036267368818363202317320192 4734409108273234 59) by lia. change (4734409108273234 * 2 ^ 59)%Z with (606004365858973952 * 2 ^ 52)%Z.
    rewrite mult_IZR, (IZR_pow2 52), Rmult_assoc, <- bpow_plus by lia. simpl. ring. }
  rewrite D, <- plus_IZR. change (2682145845986895928408720640311296 + 606004365858973952)%Z with 2682145845986896534413086499285248%Z. rewrite (fl_Z 2682145845986896534413086499285248 4652781365027143 59) by lia. change (4652781365027143 * 2 ^ 59)%Z with 2682145845986896504869472943734784%Z.
  unfold fremainder. replace (Zfloor (IZR 2682145845986896504869472943734784 / IZR 2729201036267368818363202317320192)) with 0%Z by (symmetry; apply Zfloor_imp; simpl; lra).
  rewrite Rmult_0_l, Rminus_0_r, (fl_Z 2682145845986896504869472943734784 4652781365027143 59) by lia. change (4652781365027143 * 2 ^ 59)%Z with 2682145845986896504869472943734784%Z.
  unfold int_div. replace (IZR 2682145845986896504869472943734784 / IZR 23527595140235936070482945638400) with (IZR 595556014723474304 / IZR 5224175567749775).
  2:{ change 2682145845986896504869472943734784%Z with (595556014723474304 * 2 ^ 52)%Z. change 23527595140235936070482945638400%Z with (5224175567749775 * 2 ^ 52)%Z. rewrite (mult_IZR 595556014723474304), (mult_IZR 5224175567749775). field. rewrite IZR_pow2 by lia. apply Rgt_not_eq, bpow_gt_0. }
  rewrite (fl_quot_Z 595556014723474304 5224175567749775 8022036836253695 46) by lia. apply trunc_nonneg; change (bpow radix2 (- 46)) with (/ IZR (2 ^ 46)); simpl; lra.
Qed.

(** ** Periodic surfaces with any spacing *)
Lemma flinspace_near : forall n h i, 0 < h -> (i < n)%nat -> (Z.of_nat n <= 2 ^ 31)%Z ->
  0 <= flinspace (fl (h * INR (n - 1))) n i /\ INR i * h - h / 16 <= flinspace (fl (h * INR (n - 1))) n i <= INR i * h + h / 16.
Proof.
  intros n h i Hh Hi Hn. pose proof (INR_31 n Hn) as [_ B]. unfold flinspace. rewrite (Rmult_comm h).
  destruct (Nat.eqb_spec n 1) as [-> | N1].
  { replace i with O by lia. simpl. lra. }
  assert (Bi : 0 <= INR i /\ INR i <= INR (n - 1) /\ INR (n - 1) <= 2 ^ 31 /\ 1 <= INR (n - 1)).
  { split; [ apply pos_INR | ]. split; [ apply le_INR; lia | ]. split.
    - rewrite INR_pred by lia. lra.
    - apply (le_INR 1). lia. }
  set (N := INR (n - 1)) in *.
  assert (PN : 0 <= N * h) by (apply Rmult_le_pos; lra).
  destruct (fl_between (N * h) PN) as [L U].
  assert (Nh : N * h <= 2 ^ 31 * h) by (apply Rmult_le_compat_r; lra).
  destruct (Nat.eqb_spec (S i) n) as [E | E].
  { unfold N in *. replace (n - 1)%nat with i in * by lia. split; [ | split ]; lra. }
  assert (Q : h * (1 - / 2 ^ 53) <= fl (N * h) / N <= h * (1 + / 2 ^ 53)).
  { split; (apply (Rmult_le_reg_r N); [ lra | ]); unfold Rdiv; rewrite (Rmult_assoc (fl _)), Rinv_l by lra; lra. }
  assert (P1 : 0 <= fl (N * h) / N) by lra.
  destruct (fl_between _ P1) as [L1 U1]. set (t := fl (fl (N * h) / N)) in *.
  assert (T : h * (1 - 3 * / 2 ^ 53) <= t <= h * (1 + 3 * / 2 ^ 53)).
  { split.
    - apply Rle_trans with (h * (1 - / 2 ^ 53) * (1 - / 2 ^ 53)); [ | eapply Rle_trans; [ | exact L1 ]; apply Rmult_le_compat_r; lra ]. lra.
    - apply Rle_trans with (h * (1 + / 2 ^ 53) * (1 + / 2 ^ 53)); [ eapply Rle_trans; [ exact U1 | ]; apply Rmult_le_compat_r; lra | ]. lra. }
  assert (It : INR i * (h * (1 - 3 * / 2 ^ 53)) <= INR i * t <= INR i * (h * (1 + 3 * / 2 ^ 53))).
  { split; apply Rmult_le_compat_l; lra. }
  assert (Ih : 0 <= INR i * h <= 2 ^ 31 * h).
  { split; [ apply Rmult_le_pos; lra | apply Rmult_le_compat_r; lra ]. }
  assert (P2 : 0 <= INR i * t) by (apply Rmult_le_pos; lra).
  destruct (fl_between _ P2) as [L2 U2].
  split; [ | split ].
  - apply Rle_trans with (INR i * t * (1 - / 2 ^ 53)); [ apply Rmult_le_pos; lra | exact L2 ].
  - apply Rle_trans with (INR i * (h * (1 - 3 * / 2 ^ 53)) * (1 - / 2 ^ 53)); [ lra | ].
    eapply Rle_trans; [ | exact L2 ]. apply Rmult_le_compat_r; lra.
  - apply Rle_trans with (INR i * (h * (1 + 3 * / 2 ^ 53)) * (1 + / 2 ^ 53)); [ | lra ].
    eapply Rle_trans; [ exact U2 | ]. apply Rmult_le_compat_r; lra.
Qed.
Lemma point2_near : forall n h i, 0 < h -> (i < n)%nat -> (Z.of_nat n <= 2 ^ 31)%Z ->
  int_div (point2 h n i) h = Z.of_nat i \/ (0 < i)%nat /\ int_div (point2 h n i) h = (Z.of_nat i - 1)%Z.
Proof.
  intros n h i Hh Hi Hn. destruct (flinspace_near n h i Hh Hi Hn) as (P0 & N1 & N2). unfold point2.
  set (z := flinspace (fl (h * INR (n - 1))) n i) in *. rewrite Rminus_0_r.
  assert (Fz : fl z = z).
  { unfold z, flinspace. destruct (Nat.eqb n 1); [ apply fl_0 | ]. destruct (Nat.eqb (S i) n); apply fl_id, fmt_fl. }
  rewrite Fz. pose proof (INR_31 n Hn) as [_ B].
  assert (Bi : 0 <= INR i /\ INR i + 1 <= INR n).
  { split; [ apply pos_INR | ]. rewrite <- S_INR. apply le_INR. lia. }
  assert (E : 0 < eps <= / 2 ^ 52).
  { unfold eps. split; [ apply bpow_gt_0 | ]. right. change (-52)%Z with (- (52))%Z. rewrite bpow_opp. f_equal. rewrite <- IZR_Zpower by lia. rewrite pow_IZR. reflexivity. }
  assert (Pn : 0 < INR n * h) by (apply Rmult_lt_0_compat; lra).
  assert (Bn : INR n * h <= 2 ^ 31 * h) by (apply Rmult_le_compat_r; lra).
  assert (X : INR n * h * (1 - / 2 ^ 53) <= fextent n h <= INR n * h * (1 + / 2 ^ 53)).
  { unfold fextent. rewrite (Rmult_comm h). apply fl_between. lra. }
  set (e := fextent n h) in *.
  assert (Pe : 0 < e) by (eapply Rlt_le_trans; [ | apply X ]; apply Rmult_lt_0_compat; lra).
  assert (De : 0 <= eps * e <= h / 1024).
  { split; [ apply Rmult_le_pos; lra | ]. apply Rle_trans with (/ 2 ^ 52 * e); [ apply Rmult_le_compat_r; lra | ]. lra. }
  destruct (fl_between (eps * e) ltac:(lra)) as [_ U0].
  assert (D0 : 0 <= fl (eps * e)) by (rewrite <- fl_0; apply fl_le; lra).
  assert (D1 : fl (eps * e) <= h / 512) by lra. set (d := fl (eps * e)) in *.
  assert (Ih : 0 <= INR i * h <= 2 ^ 31 * h).
  { split; [ apply Rmult_le_pos; lra | apply Rmult_le_compat_r; lra ]. }
  set (y := fl (z + d)).
  assert (Y0 : 0 <= y) by (unfold y; rewrite <- fl_0; apply fl_le; lra).
  assert (Y : INR i * h - h / 8 <= y <= INR i * h + h / 8).
  { unfold y. destruct (fl_between (z + d) ltac:(lra)) as [L U]. split; lra. }
  assert (Q : y < e).
  { assert ((INR i + 1) * h <= INR n * h) by (apply Rmult_le_compat_r; lra). lra. }
  unfold fremainder. replace (Zfloor (y / e)) with 0%Z.
  2:{ symmetry. apply Zfloor_imp. simpl. split.
      - apply Rmult_le_pos; [ lra | left; apply Rinv_0_lt_compat; assumption ].
      - apply (Rmult_lt_reg_r e); [ assumption | ]. unfold Rdiv. rewrite Rmult_assoc, Rinv_l, Rmult_1_r by lra. lra. }
  rewrite Rmult_0_l, Rminus_0_r, (fl_id y) by apply fmt_fl. unfold int_div.
  assert (Z1 : INR i - / 8 <= y / h <= INR i + / 8).
  { split; (apply (Rmult_le_reg_r h); [ assumption | ]); unfold Rdiv; rewrite (Rmult_assoc y), Rinv_l by lra; lra. }
  assert (Z0 : 0 <= y / h) by (apply Rmult_le_pos; [ lra | left; apply Rinv_0_lt_compat; assumption ]).
  assert (Z2 : 0 <= fl (y / h)) by (rewrite <- fl_0; apply fl_le; exact Z0).
  destruct (fl_between (y / h) Z0) as [L U].
  assert (Z3 : INR i - / 4 <= fl (y / h) <= INR i + / 4) by lra.
  destruct (Rlt_le_dec (fl (y / h)) (INR i)) as [H | H].
  - right. split.
    + destruct i; [ simpl in H; lra | lia ].
    + apply trunc_nonneg; [ lra | ]. rewrite minus_IZR, <- INR_IZR_INZ. lra.
  - left. apply trunc_nonneg; [ lra | ]. rewrite <- INR_IZR_INZ. lra.
Qed.
Lemma row2_of_in : forall h n i, 0 < h -> (Z.of_nat n <= 2 ^ 31)%Z -> (i < n)%nat -> exists k, row2_of h n i = Some k /\ (k = i \/ S k = i).
Proof.
  intros h n i Hh Hn Hi. unfold row2_of. destruct (point2_near n h i Hh Hi Hn) as [-> | [P ->]].
  - exists i. split; [ apply index_in; assumption | left; reflexivity ].
  - exists (i - 1)%nat. replace (Z.of_nat i - 1)%Z with (Z.of_nat (i - 1)) by lia. split; [ apply index_in; lia | right; lia ].
Qed.

(** ** Units *)
Lemma fextent_scale : forall n h k, fextent n (h * bpow radix2 k) = fextent n h * bpow radix2 k.
Proof. intros. unfold fextent. rewrite <- fl_scale. f_equal. ring. Qed.
Lemma flinspace_scale : forall s n i k, flinspace (s * bpow radix2 k) n i = flinspace s n i * bpow radix2 k.
Proof.
  intros. unfold flinspace. destruct (Nat.eqb n 1); [ ring | ]. destruct (Nat.eqb (S i) n); [ reflexivity | ].
  rewrite <- fl_scale. f_equal. rewrite Rmult_assoc, <- fl_scale. do 2 f_equal. unfold Rdiv. ring.
Qed.
Lemma fremainder_scale : forall a b k, b <> 0 -> fremainder (a * bpow radix2 k) (b * bpow radix2 k) = fremainder a b * bpow radix2 k.
Proof.
  intros a b k Hb. unfold fremainder. rewrite <- fl_scale. f_equal.
  replace (a * bpow radix2 k / (b * bpow radix2 k)) with (a / b) by (field; split; [ apply Rgt_not_eq, bpow_gt_0 | assumption ]). ring.
Qed.
Lemma fextent_pos : forall n h, 0 < h -> (0 < n)%nat -> 0 < fextent n h.
Proof.
  intros n h Hh Hn. assert (P : 0 < h * INR n) by (apply Rmult_lt_0_compat; [ assumption | apply lt_0_INR; assumption ]).
  unfold fextent. destruct (fl_between (h * INR n) ltac:(lra)) as [L _]. eapply Rlt_le_trans; [ | exact L ]. apply Rmult_lt_0_compat; lra.
Qed.
Lemma point2_scale : forall h n i k, 0 < h -> (0 < n)%nat -> point2 (h * bpow radix2 k) n i = point2 h n i * bpow radix2 k.
Proof.
  intros h n i k Hh Hn. unfold point2. rewrite fextent_scale, <- fremainder_scale by (apply Rgt_not_eq, fextent_pos; assumption).
  f_equal. rewrite <- fl_scale, Rmult_plus_distr_r. f_equal. f_equal.
  - rewrite <- fl_scale. f_equal. rewrite !Rminus_0_r, <- flinspace_scale, <- fl_scale. do 2 f_equal. ring.
  - rewrite <- fl_scale. f_equal. ring.
Qed.
Lemma int_div_scale : forall a b k, b <> 0 -> int_div (a * bpow radix2 k) (b * bpow radix2 k) = int_div a b.
Proof. intros. unfold int_div. do 2 f_equal. field. split; first [ assumption | apply Rgt_not_eq, bpow_gt_0 ]. Qed.

Lemma hundredth_quot : forall n k, quot n (hundredth * bpow radix2 k) = quot n (IZR 5764607523034235).
Proof.
  intros. unfold hundredth. rewrite Rmult_assoc, <- bpow_plus. apply quot_scale. lra.
Qed.
Lemma hundredth_double : forall k, double (hundredth * bpow radix2 k) /\ 0 < hundredth * bpow radix2 k.
Proof.
  intros k. unfold hundredth. split.
  - apply double_fmt, fmt_bpow, fmt_bpow, fmt_Z. lia.
  - repeat apply Rmult_lt_0_compat; try apply bpow_gt_0. lra.
Qed.
Ltac negpow := match goal with |- context [bpow radix2 (Zneg ?p)] => change (bpow radix2 (Zneg p)) with (/ IZR (2 ^ Zpos p)) end.
Ltac value H := intros k; rewrite hundredth_quot, H, INR_IZR_INZ; negpow; cbn [Z.of_nat Pos.of_succ_nat Pos.succ]; simpl Z.pow; lra.
Lemma hundredth_low_29 : forall k, quot 29 (hundredth * bpow radix2 k) < INR 29.
Proof. value hundredth_29. Qed.
Lemma hundredth_low_116 : forall k, quot 116 (hundredth * bpow radix2 k) < INR 116.
Proof. value hundredth_116. Qed.
Lemma hundredth_low_117 : forall k, quot 117 (hundredth * bpow radix2 k) < INR 117.
Proof. value hundredth_117. Qed.
Lemma hundredth_high_7 : forall k, INR 7 < quot 7 (hundredth * bpow radix2 k).
Proof. value hundredth_7. Qed.
Lemma hundredth_same_30 : forall k, quot 30 (hundredth * bpow radix2 k) = INR 30.
Proof. value hundredth_30. Qed.
Lemma d029_114 : forall k, int_div (point2 (d029 * bpow radix2 k) 116 114) (d029 * bpow radix2 k) = 113%Z.
Proof.
  intros k. rewrite <- d029_point.
  match goal with |- _ = int_div (point2 ?g 116 114) _ => assert (E : d029 * bpow radix2 k = g * bpow radix2 (k - 106)); [ | rewrite E ] end.
  - unfold d029. change 23527595140235936070482945638400%Z with (5224175567749775 * 2 ^ 52)%Z. rewrite mult_IZR, IZR_pow2 by lia.
    rewrite !Rmult_assoc, <- !bpow_plus. do 2 f_equal. lia.
  - rewrite point2_scale by (try lra; lia). apply int_div_scale. lra.
Qed.
Lemma three_tenths_points : forall k, int_div (three_tenth * bpow radix2 k) (tenth * bpow radix2 k) = 2%Z.
Proof.
  intros k. rewrite int_div_scale.
  2:{ unfold tenth. apply Rgt_not_eq, Rmult_lt_0_compat; [ lra | apply bpow_gt_0 ]. }
  unfold int_div. replace (three_tenth / tenth) with (IZR 21617278211378380 / IZR 7205759403792794).
  2:{ unfold three_tenth, tenth. replace (-54)%Z with (2 + -56)%Z by reflexivity. rewrite bpow_plus. change (bpow radix2 2) with 4.
      field. apply Rgt_not_eq, bpow_gt_0. }
  rewrite three_tenths. negpow. apply trunc_nonneg; simpl Z.pow; lra.
Qed.

(** ** Off sets by multiples of the spacing *)
Lemma fits_Z : forall n h z, fits n h -> (Z.abs z <= Z.of_nat n)%Z -> fl (IZR z * h) = IZR z * h.
Proof.
  intros n h z (m & e & -> & Hm & Hb) Hi. apply fl_id, double_fmt. exists (z * m)%Z, e.
  split; [ rewrite mult_IZR; ring | ]. rewrite Z.abs_mul. nia.
Qed.
Lemma int_div_mult : forall z h, 0 < h -> (Z.abs z < 2 ^ 53)%Z -> int_div (IZR z * h) h = z.
Proof.
  intros z h Hh Hz. unfold int_div. replace (IZR z * h / h) with (IZR z) by (field; lra). rewrite fl_id by (apply fmt_Z, Hz). apply Ztrunc_IZR.
Qed.
Section Axis.
  Variables (h : R) (n1 n2 : nat) (k : Z).
  Hypotheses (F : fits n2 h) (B : (Z.of_nat n2 <= 2 ^ 31)%Z) (L : (n1 <= n2)%nat) (K1 : (- Z.of_nat n1 < k)%Z) (K2 : (k < Z.of_nat n2)%Z).
  Let a := Z.max (- k) 0.
  Let b := Z.min (Z.of_nat n1) (Z.of_nat n2 - k).
  Lemma axis_h : 0 < h. Proof. exact (fits_pos _ _ F). Qed.
  Lemma axis_n1 : fextent n1 h = IZR (Z.of_nat n1) * h.
  Proof. unfold fextent. rewrite Rmult_comm, INR_IZR_INZ. apply (fits_Z n2); [ exact F | lia ]. Qed.
  Lemma axis_n2 : fextent n2 h = IZR (Z.of_nat n2) * h.
  Proof. unfold fextent. rewrite Rmult_comm, INR_IZR_INZ. apply (fits_Z n2); [ exact F | lia ]. Qed.
  Lemma axis_lo : Rmax (- (IZR k * h)) 0 = IZR a * h.
  Proof.
    pose proof axis_h as Hh. unfold a. replace (- (IZR k * h)) with (IZR (- k) * h) by (rewrite opp_IZR; ring).
    destruct (Z.max_spec (- k) 0) as [[H ->] | [H ->]].
    - rewrite Rmult_0_l. apply Rmax_right. apply IZR_lt in H. nra.
    - apply Rmax_left. apply IZR_le in H. nra.
  Qed.
  Lemma axis_hi : Rmin (fextent n1 h) (fl (fextent n2 h - IZR k * h)) = IZR b * h.
  Proof.
    pose proof axis_h as Hh. rewrite axis_n1, axis_n2. unfold b.
    replace (IZR (Z.of_nat n2) * h - IZR k * h) with (IZR (Z.of_nat n2 - k) * h) by (rewrite minus_IZR; ring).
    destruct (Z.min_spec (Z.of_nat n1) (Z.of_nat n2 - k)) as [[H ->] | [H ->]].
    - apply Rmin_left. rewrite <- axis_n1 at 1. unfold fextent. rewrite INR_IZR_INZ, Rmult_comm. apply fl_le.
      apply Rmult_le_compat_r; [ lra | ]. apply IZR_le. lia.
    - rewrite (fits_Z n2) by (try exact F; lia). apply Rmin_right. apply Rmult_le_compat_r; [ lra | ]. apply IZR_le. exact H.
  Qed.
  Lemma axis_len : farange_len (IZR a * h) (IZR b * h) h = Z.to_nat (b - a).
  Proof.
    pose proof axis_h as Hh. unfold farange_len. replace (IZR b * h - IZR a * h) with (IZR (b - a) * h) by (rewrite minus_IZR; ring).
    rewrite (fits_Z n2) by (try exact F; unfold a, b; lia). replace (IZR (b - a) * h / h) with (IZR (b - a)) by (field; lra).
    rewrite fl_id by (apply fmt_Z; unfold a, b; lia). rewrite Zceil_IZR. reflexivity.
  Qed.
  Lemma axis_arange : forall i, (Z.of_nat i < b - a)%Z -> farange (IZR a * h) h i = IZR (a + Z.of_nat i) * h.
  Proof.
    intros i Hi. pose proof axis_h as Hh. unfold farange.
    assert (E1 : (1 < b - a)%Z -> fl (IZR a * h + h) = IZR (a + 1) * h).
    { intros G. replace (IZR a * h + h) with (IZR (a + 1) * h) by (rewrite plus_IZR; ring). apply (fits_Z n2); [ exact F | unfold a, b in *; lia ]. }
    destruct i as [ | [ | i ]].
    - replace (a + Z.of_nat 0)%Z with a by lia. reflexivity.
    - rewrite E1 by lia. reflexivity.
    - rewrite E1 by lia. replace (IZR (a + 1) * h - IZR a * h) with (IZR 1 * h) by (rewrite plus_IZR; ring).
      rewrite (fits_Z n2) by (try exact F; unfold a, b in *; lia). rewrite INR_IZR_INZ.
      replace (IZR (Z.of_nat (S (S i))) * (1 * h)) with (IZR (Z.of_nat (S (S i))) * h) by ring.
      rewrite (fits_Z n2 h (Z.of_nat (S (S i)))) by (try exact F; unfold a, b in *; lia).
      rewrite <- Rmult_plus_distr_r, <- plus_IZR. apply (fits_Z n2); [ exact F | unfold a, b in *; lia ].
  Qed.
  Lemma axis_index : forall i, (Z.of_nat i < b - a)%Z -> index (int_div (fl (farange (IZR a * h) h i + IZR k * h)) h) n2 = Some (i + Z.to_nat k)%nat.
  Proof.
    intros i Hi. rewrite axis_arange by exact Hi. rewrite <- Rmult_plus_distr_r, <- plus_IZR.
    rewrite (fits_Z n2) by (try exact F; unfold a, b in *; lia). rewrite int_div_mult by (try apply axis_h; unfold a, b in *; lia).
    replace (a + Z.of_nat i + k)%Z with (Z.of_nat (i + Z.to_nat k)) by (unfold a; lia). apply index_in. unfold a, b in *. lia.
  Qed.
  Lemma axis_slice : bound (int_div (IZR a * h) h) n1 = Z.to_nat a /\ bound (int_div (IZR b * h) h) n1 = Z.to_nat b.
  Proof.
    rewrite !int_div_mult by (try apply axis_h; unfold a, b; lia). unfold bound.
    destruct (Z.ltb_spec a 0); [ unfold a in *; lia | ]. destruct (Z.ltb_spec b 0); [ unfold b in *; lia | ]. unfold a, b in *. lia.
  Qed.
End Axis.

Lemma linspace_diff : forall h n k i, fits (n + Z.to_nat (Z.abs k)) h -> (i < n)%nat ->
  fl (flinspace (fl (h * INR (n - 1))) n i - IZR k * h) = IZR (Z.of_nat i - k) * h.
Proof.
  intros h n k i F Hi.
  assert (F1 : fits n h) by (destruct F as (m & e & -> & Hm & Hb); exists m, e; split; [ reflexivity | nia ]).
  rewrite (flinspace_fits n h i F1 Hi), INR_IZR_INZ. unfold Rminus. rewrite <- Ropp_mult_distr_l_reverse, <- opp_IZR, <- Rmult_plus_distr_r, <- plus_IZR.
  change (Z.of_nat i + - k)%Z with (Z.of_nat i - k)%Z. apply (fits_Z (n + Z.to_nat (Z.abs k))); [ exact F | lia ].
Qed.
Lemma remainder_index : forall h n c e, fits n h -> (0 < n)%nat -> (Z.of_nat n <= 2 ^ 31)%Z -> (Z.abs c <= 2 ^ 33)%Z ->
  fl (IZR c * h) = IZR c * h -> fl (e * (INR n * h)) = e * (INR n * h) -> 0 <= e <= / 2 ^ 40 ->
  int_div (fremainder (fl (IZR c * h + fl (e * (INR n * h)))) (INR n * h)) h = (c mod Z.of_nat n)%Z.
Proof.
  intros h n c e F Hn B C Ec Ee He. pose proof (fits_pos n h F) as Hh. rewrite Ee.
  pose proof (INR_31 n B) as [_ Bn]. assert (N1 : 1 <= INR n) by (apply (le_INR 1); lia).
  set (N := INR n) in *. set (t := e * (N * h)).
  assert (T : 0 <= t <= h / 64).
  { unfold t. split; [ repeat apply Rmult_le_pos; lra | ].
    assert (e * N <= / 64) by (apply Rle_trans with (/ 2 ^ 40 * 2 ^ 31); [ apply Rmult_le_compat; lra | lra ]).
    replace (e * (N * h)) with (h * (e * N)) by ring. unfold Rdiv. apply Rmult_le_compat_l; lra. }
  assert (Cr : Rabs (IZR c) <= 2 ^ 33).
  { rewrite <- abs_IZR, pow_IZR. apply IZR_le. exact C. }
  apply Rabs_le_inv in Cr.
  assert (Ch : - (2 ^ 33 * h) <= IZR c * h <= 2 ^ 33 * h) by (split; nra).
  set (y := fl (IZR c * h + t)).
  assert (Y : IZR c * h <= y <= IZR c * h + h / 16).
  { split.
    - unfold y. rewrite <- Ec at 1. apply fl_le. lra.
    - unfold y. pose proof (fl_err (IZR c * h + t)) as E. pose proof u_small as [U1 U2].
      assert (A : Rabs (IZR c * h + t) <= 2 ^ 34 * h) by (apply Rabs_le; lra).
      assert (A2 : bpow radix2 (-53) * Rabs (IZR c * h + t) <= / 2 ^ 53 * (2 ^ 34 * h)) by (apply Rmult_le_compat; [ lra | apply Rabs_pos | lra | exact A ]).
      apply Rabs_le_inv in E. lra. }
  set (q := (c / Z.of_nat n)%Z). set (r := (c mod Z.of_nat n)%Z).
  assert (D : c = (Z.of_nat n * q + r)%Z) by (apply Z.div_mod; lia).
  assert (Rr : (0 <= r < Z.of_nat n)%Z) by (apply Z.mod_pos_bound; lia).
  assert (DR : IZR c = N * IZR q + IZR r) by (unfold N; rewrite INR_IZR_INZ, <- mult_IZR, <- plus_IZR, <- D; reflexivity).
  assert (R1 : 0 <= IZR r /\ IZR r + 1 <= N).
  { split; [ apply IZR_le; lia | ]. unfold N. rewrite INR_IZR_INZ, <- plus_IZR. apply IZR_le. lia. }
  assert (PN : 0 < N * h) by (apply Rmult_lt_0_compat; lra).
  unfold fremainder. replace (Zfloor (y / (N * h))) with q.
  2:{ symmetry. apply Zfloor_imp. rewrite plus_IZR. split.
      - apply (Rmult_le_reg_r (N * h)); [ exact PN | ]. unfold Rdiv. rewrite (Rmult_assoc y), Rinv_l, Rmult_1_r by lra.
        apply Rle_trans with (IZR c * h); [ rewrite DR | lra ]. assert (0 <= IZR r * h) by (apply Rmult_le_pos; lra). lra.
      - apply (Rmult_lt_reg_r (N * h)); [ exact PN | ]. unfold Rdiv. rewrite (Rmult_assoc y), Rinv_l, Rmult_1_r by lra.
        apply Rle_lt_trans with (IZR c * h + h / 16); [ lra | rewrite DR ]. assert ((IZR r + 1) * h <= N * h) by (apply Rmult_le_compat_r; lra). lra. }
  assert (V : IZR r * h <= y - IZR q * (N * h) <= IZR r * h + h / 16) by (rewrite DR in Y; lra).
  assert (Rh : IZR r * h <= 2 ^ 31 * h) by (apply Rmult_le_compat_r; lra).
  assert (Rp : 0 <= IZR r * h) by (apply Rmult_le_pos; lra).
  assert (W : IZR r * h <= fl (y - IZR q * (N * h)) <= IZR r * h + h / 8).
  { split.
    - rewrite <- (fits_Z n h r F) by lia. apply fl_le. lra.
    - destruct (fl_between (y - IZR q * (N * h)) ltac:(lra)) as [_ U]. lra. }
  set (w := fl (y - IZR q * (N * h))) in *. unfold int_div.
  assert (Z1 : IZR r <= w / h <= IZR r + / 8).
  { split; (apply (Rmult_le_reg_r h); [ assumption | ]); unfold Rdiv; rewrite (Rmult_assoc w), Rinv_l by lra; lra. }
  assert (Z2 : IZR r <= fl (w / h)) by (rewrite <- (fl_id (IZR r)) at 1 by (apply fmt_Z; lia); apply fl_le; lra).
  destruct (fl_between (w / h) ltac:(lra)) as [_ U].
  apply trunc_nonneg; lra.
Qed.
Lemma eps_small : 0 <= eps <= / 2 ^ 40.
Proof.
  unfold eps. split; [ apply bpow_ge_0 | ]. change (bpow radix2 (-52)) with (/ IZR (2 ^ 52)). simpl Z.pow. lra.
Qed.
