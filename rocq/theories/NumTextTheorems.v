(** C70: which names are numbers, and which number each one is. *)
From Coq Require Import List Bool ZArith NArith Ascii String Lia.
From Verif Require Import FileNumModel FileNumSpec FileNumProofs NumTextSpec.
Import ListNotations.
Local Open Scope Z_scope.

Lemma is_digit_char c : is_digit c = true -> exists d, 0 <= d <= 9 /\ c = digit_char d.
Proof.
  unfold is_digit. rewrite andb_true_iff, !N.leb_le. intros [A B]. exists (Z.of_N (N_of_ascii c) - 48). split; [lia|].
  unfold digit_char. replace (48 + Z.to_N (Z.of_N (N_of_ascii c) - 48))%N with (N_of_ascii c) by lia. symmetry. apply ascii_N_embedding.
Qed.
Lemma is_space_white c : is_space c = true <-> In (N_of_ascii c) [9; 10; 11; 12; 13; 32]%N.
Proof.
  unfold is_space. rewrite orb_true_iff, andb_true_iff, N.eqb_eq, !N.leb_le. cbn. split; [|intuition lia].
  intros H. assert (X : (N_of_ascii c = 9 \/ N_of_ascii c = 10 \/ N_of_ascii c = 11 \/ N_of_ascii c = 12 \/ N_of_ascii c = 13 \/ N_of_ascii c = 32)%N) by lia.
  intuition lia.
Qed.
Lemma digits_read n : forall acc prev z, digits acc prev n = Some z ->
  exists ds gs, Forall (fun d => 0 <= d <= 9) ds /\ Forall digit_list gs /\ (prev = false -> ds <> []) /\
    n = grouped ds gs /\ z = value (ds ++ List.concat gs) acc.
Proof.
  induction n as [|c n IH]; intros acc prev z H; cbn in H.
  - destruct prev; [|discriminate]. injection H as <-. exists [], []. repeat split; constructor || discriminate.
  - destruct (is_digit c) eqn:D.
    + destruct (is_digit_char c D) as (d & B & ->). apply IH in H as (ds & gs & F & G & _ & -> & ->).
      exists (d :: ds), gs. split; [now constructor|]. split; [exact G|]. split; [discriminate|]. split; [reflexivity|].
      cbn. now rewrite (proj1 (proj2 (digit_char_ok d B))).
    + destruct (Ascii.eqb_spec c "_"%char) as [->|]; [|discriminate]. destruct prev; [|discriminate]. cbn [andb] in H.
      apply IH in H as (ds & gs & F & G & N & -> & ->). exists [], (ds :: gs).
      split; [constructor|]. split; [constructor; [split; [now apply N|exact F]|exact G]|]. split; [discriminate|]. split; reflexivity.
Qed.
Lemma digits_group ds : forall acc prev rest, Forall (fun d => 0 <= d <= 9) ds ->
  digits acc prev (map digit_char ds ++ rest) = digits (value ds acc) (match ds with [] => prev | _ => true end) rest.
Proof.
  induction ds as [|d ds IH]; intros acc prev rest F; [reflexivity|]. inversion F as [|? ? B F']; subst.
  destruct (digit_char_ok d B) as (D & V & _). cbn [map app digits]. rewrite D, V, IH by exact F'. now destruct ds.
Qed.
Lemma digits_written ds gs acc : digit_list ds -> Forall digit_list gs -> digits acc false (grouped ds gs) = Some (value (ds ++ List.concat gs) acc).
Proof.
  intros [N F] G. unfold grouped. rewrite digits_group by exact F. rewrite value_app. generalize (value ds acc). destruct ds as [|d ds]; [easy|]. clear N F.
  induction G as [|g gs [N F] G IH]; intros a; [reflexivity|]. cbn [map List.concat app]. cbn [digits].
  change (is_digit "_") with false. cbn [Ascii.eqb Bool.eqb andb]. rewrite digits_group by exact F. rewrite value_app. destruct g as [|y g]; [easy|]. apply IH.
Qed.
Lemma lstrip_split n : exists l, white l /\ n = l ++ lstrip n /\ (forall c r, lstrip n = c :: r -> is_space c = false).
Proof.
  induction n as [|c n (l & W & E & H)]; [exists []; repeat split; [constructor|discriminate]|]. cbn. destruct (is_space c) eqn:S.
  - exists (c :: l). split; [constructor; [now apply is_space_white|exact W]|]. split; [cbn; now f_equal|exact H].
  - exists []. split; [constructor|]. split; [reflexivity|]. intros c' r X. now injection X as -> ->.
Qed.
Lemma lstrip_white l n : white l -> lstrip (l ++ n) = lstrip n.
Proof. induction 1 as [|c l W _ IH]; [reflexivity|]. cbn. apply is_space_white in W. now rewrite W. Qed.
Lemma white_rev l : white l -> white (rev l).
Proof. apply Forall_rev. Qed.
Lemma strip_split n : exists l r, white l /\ white r /\ n = l ++ strip n ++ r.
Proof.
  destruct (lstrip_split n) as (l & W & E & _). destruct (lstrip_split (rev (lstrip n))) as (r & W' & E' & _).
  exists l, (rev r). split; [exact W|]. split; [now apply white_rev|]. rewrite E at 1. f_equal. unfold strip.
  rewrite <- rev_app_distr, <- E'. symmetry. apply rev_involutive.
Qed.
Lemma strip_at l s r c d m : white l -> white r -> is_space c = false -> is_space d = false -> s = c :: m -> (exists m', s = m' ++ [d]) -> strip (l ++ s ++ r) = s.
Proof.
  intros Wl Wr C D -> [m' E]. unfold strip. rewrite lstrip_white by exact Wl. cbn [app lstrip]. rewrite C.
  change (c :: m ++ r) with ((c :: m) ++ r). rewrite rev_app_distr, lstrip_white by now apply white_rev.
  rewrite E, rev_app_distr. cbn [rev app lstrip]. rewrite D. cbn [rev]. now rewrite rev_involutive.
Qed.
Lemma grouped_ends ds gs : digit_list ds -> Forall digit_list gs ->
  (exists d m, 0 <= d <= 9 /\ grouped ds gs = digit_char d :: m) /\ (exists d m, 0 <= d <= 9 /\ grouped ds gs = m ++ [digit_char d]).
Proof.
  intros [N F] G. split.
  - destruct ds as [|d ds]; [easy|]. inversion F; subst. exists d. eexists. split; [assumption|reflexivity].
  - assert (L : forall ds, digit_list ds -> exists d m, 0 <= d <= 9 /\ map digit_char ds = m ++ [digit_char d]).
    { clear. intros ds [N F]. destruct (exists_last N) as (m & d & ->). apply Forall_app in F as [_ F]. inversion F; subst.
      exists d, (map digit_char m). split; [assumption|]. now rewrite map_app. }
    unfold grouped. destruct gs as [|g gs] using rev_ind.
    + rewrite app_nil_r. now apply L.
    + clear IHgs. apply Forall_app in G as [_ G]. inversion G; subst. destruct (L g ltac:(assumption)) as (d & m & B & E). exists d.
      eexists. split; [exact B|]. rewrite map_app, concat_app. cbn [map List.concat]. rewrite E, app_nil_r, app_comm_cons, !app_assoc. reflexivity.
Qed.

(** [int] of a text is a number exactly if the text is that number as Python writes numbers: with white space around it,
    one sign and single underscores between digits at most; everything else is refused. *)
Theorem c70_numbers (n : name) (z : Z) : py_int n = Some z <-> number_text n z.
Proof.
  split.
  - intros H. destruct (strip_split n) as (l & r & Wl & Wr & E). unfold py_int in H. destruct (strip n) as [|c m]; [discriminate|].
    assert (X : forall s, (exists y, digits 0 false s = Some y) -> exists ds gs, digit_list ds /\ Forall digit_list gs /\ s = grouped ds gs /\ digits 0 false s = Some (value (ds ++ List.concat gs) 0)).
    { intros s [y D]. pose proof D as D'. apply digits_read in D' as (ds & gs & F & G & N & -> & ->). exists ds, gs.
      repeat split; try assumption. now apply N. }
    destruct (Ascii.eqb_spec c "-"%char) as [->|]; [|destruct (Ascii.eqb_spec c "+"%char) as [->|]].
    + destruct (digits 0 false m) as [y|] eqn:D; [|discriminate]. destruct (X m ltac:(now exists y)) as (ds & gs & N & G & -> & D').
      rewrite D in D'. injection D' as ->. cbn in H. injection H as <-. exists l, ["-"%char], ds, gs, r. repeat (split; [assumption|]). right. right. now split.
    + destruct (X m ltac:(now exists z)) as (ds & gs & N & G & -> & D'). rewrite H in D'. injection D' as ->.
      exists l, ["+"%char], ds, gs, r. repeat (split; [assumption|]). right. left. now split.
    + destruct (X (c :: m) ltac:(now exists z)) as (ds & gs & N & G & E' & D'). rewrite H in D'. injection D' as ->. rewrite E' in E.
      exists l, [], ds, gs, r. repeat (split; [assumption|]). left. now split.
  - intros (l & sg & ds & gs & r & Wl & Wr & N & G & -> & S). destruct (grouped_ends ds gs N G) as [(d & m & B & E) (d' & m' & B' & E')].
    pose proof (digits_written ds gs 0 N G) as V. destruct (digit_char_ok d B) as (_ & _ & Sd & _ & Md & Pd). destruct (digit_char_ok d' B') as (_ & _ & Sd' & _).
    destruct S as [[-> ->]|[[-> ->]|[-> ->]]]; unfold py_int.
    + cbn [app]. rewrite (strip_at l (grouped ds gs) r (digit_char d) (digit_char d') m Wl Wr Sd Sd' E (ex_intro _ m' E')).
      rewrite E in V |- *. now rewrite Md, Pd.
    + rewrite (app_assoc ["+"%char]).
      rewrite (strip_at l (["+"%char] ++ grouped ds gs) r "+"%char (digit_char d') (grouped ds gs) Wl Wr eq_refl Sd' eq_refl); [exact V|].
      exists ("+"%char :: m'). now rewrite E'.
    + rewrite (app_assoc ["-"%char]).
      rewrite (strip_at l (["-"%char] ++ grouped ds gs) r "-"%char (digit_char d') (grouped ds gs) Wl Wr eq_refl Sd' eq_refl).
      * cbn [app Ascii.eqb Bool.eqb]. now rewrite V.
      * exists ("-"%char :: m'). now rewrite E'.
Qed.
Print Assumptions c70_numbers.
Example c70_numbers_case : number_text (list_ascii_of_string " -1_20 ") (-120) /\ py_int (list_ascii_of_string "1__2") = None /\
  py_int (list_ascii_of_string "+") = None /\ py_int (list_ascii_of_string "_1") = None.
Proof. split; [now apply c70_numbers|]. repeat split. Qed.
