(** C01: texts in a database which look like a saved array. *)
From Coq Require Import List Bool Arith String Ascii Lia.
From Verif Require Import Py OutputsModel OutputsSpec OutputsProofs ResultsModel.
Import ListNotations.
Local Open Scope string_scope.

(** Characters that occur in a shape. *)
Definition in_shapes (c : ascii) : Prop := In c (list_ascii_of_string "1234567890 ,()").
Definition has_char (c : ascii) (s : string) : Prop := In c (list_ascii_of_string s).

Lemma no_hash_all s : ~ has_char "#" s -> all_chars no_hash s = true.
Proof.
  unfold has_char. induction s as [|c s IH]; intros H; [reflexivity|]. cbn [all_chars]. cbn in H. apply andb_true_iff. split; [|apply IH; tauto].
  unfold no_hash. apply negb_true_iff, Ascii.eqb_neq. intros ->. apply H. left. reflexivity.
Qed.
Lemma shape_char_in c : shape_char c = true -> in_shapes c.
Proof.
  unfold shape_char, is_digit, in_shapes. cbv zeta. rewrite !orb_true_iff, andb_true_iff, !Nat.leb_le, !Ascii.eqb_eq. intros [[[[D|D]|D]|D]|D]; try (subst; cbn; tauto).
  rewrite <- (ascii_nat_embedding c). set (n := nat_of_ascii c) in *. clearbody n.
  assert (n = 48 \/ n = 49 \/ n = 50 \/ n = 51 \/ n = 52 \/ n = 53 \/ n = 54 \/ n = 55 \/ n = 56 \/ n = 57)%nat as Q by lia.
  repeat destruct Q as [-> | Q]; try rewrite Q; vm_compute; tauto.
Qed.
Lemma strange_shape s c : has_char c s -> ~ in_shapes c -> all_chars shape_char s = false.
Proof.
  unfold has_char. induction s as [|x s IH]; intros I N; [destruct I|]. cbn [all_chars]. destruct I as [->|I].
  - destruct (shape_char c) eqn:E; [exfalso; apply N, shape_char_in, E|reflexivity].
  - rewrite (IH I N). apply andb_false_r.
Qed.
Lemma three_hashes a num sh dt : ~ has_char "#" a -> ~ has_char "#" num -> ~ has_char "#" sh ->
  let s := a ++ "#" ++ num ++ "#" ++ sh ++ "#" ++ dt in
  exists h0 h1 h2 t, hash_positions 0 s = h0 :: h1 :: h2 :: t /\ slice (h1 + 1) h2 s = sh.
Proof.
  intros A N S s. exists (String.length a), (String.length a + 1 + String.length num)%nat, (String.length a + 1 + String.length num + 1 + String.length sh)%nat. eexists. split.
  - unfold s. rewrite hash_app, (hash_none 0 a) by (apply no_hash_all; exact A). cbn [app]. rewrite hash_app. cbn [hash_positions Ascii.eqb Bool.eqb app String.length]. apply (f_equal2 cons); [lia|].
    rewrite hash_app, (hash_none _ num) by (apply no_hash_all; exact N). cbn [app]. rewrite hash_app. cbn [hash_positions Ascii.eqb Bool.eqb app String.length]. apply (f_equal2 cons); [lia|].
    rewrite hash_app, (hash_none _ sh) by (apply no_hash_all; exact S). cbn [app]. rewrite hash_app. cbn [hash_positions Ascii.eqb Bool.eqb app String.length]. apply (f_equal2 cons); [lia|reflexivity].
  - unfold slice. set (n := String.length a). replace (_ - _)%nat with (String.length sh) by lia.
    assert (E : s = (a ++ "#" ++ num ++ "#") ++ sh ++ "#" ++ dt). { unfold s. clear. induction a as [|x a IH]; [|cbn; f_equal; exact IH]. cbn. f_equal. induction num as [|x num IH]; [reflexivity|cbn; f_equal; exact IH]. }
    assert (L : String.length (a ++ "#" ++ num ++ "#") = (n + 1 + String.length num + 1)%nat).
    { unfold n. clear. induction a as [|x a IH]; [|cbn; f_equal; exact IH]. cbn. f_equal. induction num as [|x num IH]; [reflexivity|cbn; f_equal; exact IH]. }
    rewrite E, <- L. apply substring_mid.
Qed.
(** No text is evaluated unless it has only characters of shapes: a text in the form of a saved array whose part for the shape has any other character (a letter, a dot, a quote, ...) is
    refused with a ValueError, both when it is made an array and when it is read at once, whatever is in the archive. *)
Theorem c01_no_code : forall (bytes : Type) np_has (z : list (string * bytes)) file a num sh dt c,
  ~ has_char "#" a -> ~ has_char "#" num -> ~ has_char "#" sh -> has_char c sh -> ~ in_shapes c ->
  let s := a ++ "#" ++ num ++ "#" ++ sh ++ "#" ++ dt in
  read_array np_has z s = Err ValueError /\ @new_array_reader bytes np_has file s = Err ValueError.
Proof.
  intros bytes np_has z file a num sh dt c A N S I B s. destruct (three_hashes a num sh dt A N S) as (h0 & h1 & h2 & t & E & Q). fold s in E, Q.
  unfold read_array, new_array_reader. rewrite E. cbn [nth_error]. rewrite Q, (strange_shape sh c I B). split; reflexivity.
Qed.
Print Assumptions c01_no_code.
(** A text with fewer than three hashes is refused with an IndexError. *)
Theorem c01_few_hashes : forall (bytes : Type) np_has (z : list (string * bytes)) file a num sh,
  ~ has_char "#" a -> ~ has_char "#" num -> ~ has_char "#" sh ->
  forall s, s = a \/ s = a ++ "#" ++ num \/ s = a ++ "#" ++ num ++ "#" ++ sh ->
  read_array np_has z s = Err IndexError /\ @new_array_reader bytes np_has file s = Err IndexError.
Proof.
  intros bytes np_has z file a num sh A N S s F. assert (E : nth_error (hash_positions 0 s) 2 = None).
  { destruct F as [->|[->| ->]].
    - rewrite (hash_none 0 a) by (apply no_hash_all; exact A). reflexivity.
    - rewrite hash_app, (hash_none 0 a) by (apply no_hash_all; exact A). cbn [app]. rewrite hash_app, (hash_none _ num) by (apply no_hash_all; exact N). reflexivity.
    - rewrite hash_app, (hash_none 0 a) by (apply no_hash_all; exact A). cbn [app]. rewrite hash_app, hash_app, (hash_none _ num) by (apply no_hash_all; exact N). cbn [app].
      rewrite hash_app, (hash_none _ sh) by (apply no_hash_all; exact S). reflexivity. }
  unfold read_array, new_array_reader. rewrite E. destruct (nth_error _ 0); [destruct (nth_error _ 1)|]; split; reflexivity.
Qed.
Print Assumptions c01_few_hashes.
Example c01_no_code_case : ~ has_char "#" "slippy_array" /\ ~ has_char "#" "12" /\ ~ has_char "#" "exit()" /\ has_char "x" "exit()" /\ ~ in_shapes "x".
Proof. unfold has_char, in_shapes. cbn. intuition discriminate. Qed.
