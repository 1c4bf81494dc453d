(** Lemmas on file numbers. *)
From Coq Require Import List Bool ZArith Ascii Lia.
From Verif Require Import FileNumModel FileNumSpec.
Import ListNotations.
Local Open Scope Z_scope.

Lemma digit_cases (P : Z -> Prop) : P 0 -> P 1 -> P 2 -> P 3 -> P 4 -> P 5 -> P 6 -> P 7 -> P 8 -> P 9 ->
  forall d, 0 <= d <= 9 -> P d.
Proof.
  intros. assert (C : d = 0 \/ d = 1 \/ d = 2 \/ d = 3 \/ d = 4 \/ d = 5 \/ d = 6 \/ d = 7 \/ d = 8 \/ d = 9) by lia.
  destruct C as [->|[->|[->|[->|[->|[->|[->|[->|[->| ->]]]]]]]]]; assumption.
Qed.
Lemma digit_char_ok d : 0 <= d <= 9 ->
  is_digit (digit_char d) = true /\ digit_value (digit_char d) = d /\ is_space (digit_char d) = false /\
  Ascii.eqb (digit_char d) dot = false /\ Ascii.eqb (digit_char d) "-"%char = false /\
  Ascii.eqb (digit_char d) "+"%char = false.
Proof. revert d. apply digit_cases; now vm_compute. Qed.

Lemma value_app a b acc : value (a ++ b) acc = value b (value a acc).
Proof. revert acc. induction a as [|d a IH]; intro acc; cbn; [reflexivity|]. apply IH. Qed.

Lemma str_fuel_written fuel : forall n, 0 <= n -> (Z.to_nat n <= fuel)%nat -> written (str_fuel fuel n) n.
Proof.
  induction fuel as [|f IH]; intros n P L.
  - assert (n = 0) by lia. subst. exists [0]. repeat split; try easy; try lia.
    constructor; [lia|constructor].
  - cbn [str_fuel]. destruct (Z.ltb_spec n 10) as [Q|Q].
    + exists [n]. repeat split; try easy.
      * constructor; [lia|constructor].
      * cbn. lia.
    + assert (D : n = 10 * (n / 10) + n mod 10) by (apply Z.div_mod; lia).
      assert (M : 0 <= n mod 10 < 10) by (apply Z.mod_pos_bound; lia).
      assert (B : 1 <= n / 10) by lia.
      destruct (IH (n / 10)) as (ds & E & F & V & N & H0); [lia| |].
      { apply Nat.lt_succ_r, (Nat.lt_le_trans _ (Z.to_nat n)); [|exact L]. apply Z2Nat.inj_lt; lia. }
      exists (ds ++ [n mod 10]). rewrite E, map_app. repeat split.
      * apply Forall_app. split; [exact F|]. constructor; [lia|constructor].
      * rewrite value_app, V. cbn [value]. lia.
      * destruct ds; easy.
      * intros _. destruct ds as [|d ds]; [easy|]. cbn in *. auto.
Qed.
Lemma py_str_written n : 0 <= n -> written (py_str n) n.
Proof. intro P. apply str_fuel_written; [exact P|lia]. Qed.

Lemma digits_value ds : forall acc prev, Forall (fun d => 0 <= d <= 9) ds ->
  digits acc prev (map digit_char ds)
  = match ds with [] => if prev then Some acc else None | _ => Some (value ds acc) end.
Proof.
  induction ds as [|d ds IH]; intros acc prev F; [reflexivity|].
  inversion F as [|? ? D F' X]; subst. destruct (digit_char_ok d D) as (A & B & _).
  cbn [map digits]. rewrite A, B, IH by exact F'. destruct ds; reflexivity.
Qed.

Lemma lstrip_digits ds : Forall (fun d => 0 <= d <= 9) ds -> lstrip (map digit_char ds) = map digit_char ds.
Proof.
  intro F. destruct ds as [|d ds]; [reflexivity|]. inversion F as [|? ? D F' X]; subst.
  destruct (digit_char_ok d D) as (_ & _ & A & _). cbn. now rewrite A.
Qed.
Lemma strip_digits ds : Forall (fun d => 0 <= d <= 9) ds -> strip (map digit_char ds) = map digit_char ds.
Proof.
  intro F. unfold strip. rewrite lstrip_digits by exact F. rewrite <- map_rev, lstrip_digits, <- map_rev.
  - now rewrite rev_involutive.
  - now apply Forall_rev.
Qed.
Lemma written_int n k : written n k -> py_int n = Some k.
Proof.
  intros (ds & -> & F & V & N & _). unfold py_int. rewrite strip_digits by exact F.
  destruct ds as [|d ds]; [easy|]. inversion F as [|? ? D F' X]; subst.
  destruct (digit_char_ok d D) as (_ & _ & _ & _ & A & B). cbn [map]. rewrite A, B.
  change (digit_char d :: map digit_char ds) with (map digit_char (d :: ds)).
  now rewrite digits_value.
Qed.
Lemma py_int_str n : 0 <= n -> py_int (py_str n) = Some n.
Proof. intro P. now apply written_int, py_str_written. Qed.
Lemma py_str_inj a b : 0 <= a -> 0 <= b -> py_str a = py_str b -> a = b.
Proof. intros A B E. apply py_int_str in A. apply py_int_str in B. rewrite E, B in A. now injection A. Qed.

(** Stems. *)
Lemma no_dot n : ~ In dot n -> before_last_dot n = None.
Proof.
  induction n as [|c n IH]; intro N; [reflexivity|]. cbn. rewrite IH by (intro; apply N; now right).
  destruct (Ascii.eqb_spec c dot) as [->|]; [|reflexivity]. exfalso. apply N. now left.
Qed.
Lemma last_dot_app a b p : before_last_dot b = Some p -> before_last_dot (a ++ b) = Some (a ++ p).
Proof. intro H. induction a as [|c a IH]; [exact H|]. cbn. now rewrite IH. Qed.
Lemma written_no_dot n k : written n k -> ~ In dot n.
Proof.
  intros (ds & -> & F & _) I. apply in_map_iff in I. destruct I as (d & E & I).
  rewrite Forall_forall in F. destruct (digit_char_ok d (F d I)) as (_ & _ & _ & A & _).
  rewrite E in A. now rewrite Ascii.eqb_refl in A.
Qed.
Lemma stem_suffix n s k : written n k -> suffix s -> stem (n ++ s) = n.
Proof.
  intros W [->|[r [-> R]]].
  - rewrite app_nil_r. unfold stem. now rewrite no_dot by now apply (written_no_dot _ k).
  - unfold stem. rewrite (last_dot_app n (dot :: r) []).
    + rewrite app_nil_r. destruct (forallb _ n) eqn:E; [|reflexivity]. exfalso.
      pose proof (written_no_dot _ _ W) as D. destruct W as (ds & -> & F & V & N & _).
      destruct ds as [|d ds]; [easy|]. cbn in E. apply andb_true_iff in E. destruct E as [E _].
      apply Ascii.eqb_eq in E. apply D. left. exact E.
    + cbn. now rewrite no_dot.
Qed.

(** The scan. *)
Lemma scan_le h e : h <= scan h e.
Proof.
  destruct e as [f []]; cbn; [|lia]. destruct (py_int (stem f)); [|lia].
  destruct (Z.ltb_spec h z); lia.
Qed.
Lemma scan_all d : forall h, h <= fold_left scan d h /\
  forall f n, In (f, true) d -> py_int (stem f) = Some n -> n <= fold_left scan d h.
Proof.
  induction d as [|e d IH]; intro h; cbn; [split; [lia|easy]|].
  destruct (IH (scan h e)) as [A B]. split; [pose proof (scan_le h e); lia|].
  intros f n [->|I] E; [|now apply (B f)]. cbn in A |- *. rewrite E in *.
  destruct (Z.ltb_spec h n); lia.
Qed.
Lemma scan_least d : forall h, fold_left scan d h = h \/
  exists f, In (f, true) d /\ py_int (stem f) = Some (fold_left scan d h).
Proof.
  induction d as [|e d IH]; intro h; cbn; [now left|].
  destruct (IH (scan h e)) as [A|(f & I & E)].
  - rewrite A. destruct e as [f b]. cbn. destruct b; [|now left].
    destruct (py_int (stem f)) as [n|] eqn:Q; [|now left].
    destruct (Z.ltb_spec h n); [|now left]. right. exists f. split; [now left|exact Q].
  - right. exists f. split; [now right|exact E].
Qed.
Lemma highest_0 d : 0 <= highest_num d.
Proof. apply (scan_all d 0). Qed.
Lemma highest_app d e : highest_num (d ++ [e]) = scan (highest_num d) e.
Proof. unfold highest_num. now rewrite fold_left_app. Qed.
