(** Theorems on the reader of UMT test files: C68 (lines) and C104 (files). *)
From Coq Require Import List Bool ZArith Ascii String Lia.
From Verif Require Import Py FileNumModel FileNumProofs TstModel TstSpec TstProofs TstRoundProofs.
Import ListNotations.
Local Open Scope Z_scope.

(** C68: lower case replaces every capital by the small letter at its place in the alphabet, and nothing else. *)
Theorem c68_lower (s : text) : List.length (lower s) = List.length s /\ forall i c, nth_error s i = Some c ->
  (forall k, nth_error capitals k = Some c -> nth_error (lower s) i = nth_error smalls k) /\ (~ In c capitals -> nth_error (lower s) i = Some c).
Proof.
  split; [apply map_length|]. intros i c H. unfold lower. rewrite (map_nth_error lower_char i s H). split.
  - intros k K. assert (k < 26)%nat by (apply (nth_error_Some capitals k); congruence). do 26 (destruct k as [|k]; [injection K as <-; reflexivity|]). lia.
  - intros N. f_equal. revert N. destruct c as [b0 b1 b2 b3 b4 b5 b6 b7]. destruct b0, b1, b2, b3, b4, b5, b6, b7; intros N; try reflexivity; exfalso; apply N; cbn; tauto.
Qed.
Print Assumptions c68_lower.

Section Reader.
Context {F : Type}.
Variable parse_float : text -> option F.
Variable trunc : F -> option Z.
Variable nonzero : F -> bool.
Variable unpack : text -> F.
Notation val := (@val F).
Notation read_tst_file := (read_tst_file parse_float trunc nonzero unpack).

(** C68: the number, the name in lower case and the value of a line are read back; a name of stars is [None], and so is
    an empty value. *)
Theorem c68_line (l : text) (number : Z) (name t rest : text) (v : val) (n : nat) : is_line l number name t -> means parse_float number t v ->
  (stars name -> split_line parse_float n (l ++ rest) = Good ((number, None, v), rest)) /\
  (~ stars name -> split_line parse_float n (l ++ rest) = Good ((number, Some (lower name), v), rest)) /\
  (t = [] -> v = VNone).
Proof.
  intros L M. destruct (is_line_end parse_float trunc nonzero unpack _ _ _ _ L) as (l' & E & N). unfold split_line.
  replace (l ++ rest) with (l' ++ [newline] ++ rest) by (rewrite E; now rewrite <- app_assoc). rewrite readline_at, <- E by exact N. rewrite (is_line_fields parse_float _ _ _ _ _ L M).
  rewrite stars_forallb. split; [intro H; now rewrite H|]. split; [intro H; apply Bool.not_true_is_false in H; now rewrite H|]. intros ->. apply M.
Qed.
(** A line that doesn't fit the pattern is refused: without two [#], or without a [$] after them. *)
Theorem c68_refused (f : file) (l : text) (n : nat) : fst (readline f) = l ->
  (List.length (filter (Ascii.eqb "#"%char) l) < 2)%nat \/ ~ In "$"%char l -> split_line parse_float n f = Raise (Py ValueError).
Proof.
  intros E H. unfold split_line. destruct (readline f) as [l' r]. cbn in E. subst l'. unfold line_fields. destruct (negb _); [reflexivity|]. destruct H as [H|H].
  - assert (LS : forall l, List.length (split "#" l) = S (List.length (filter (Ascii.eqb "#"%char) l))).
    { clear. induction l as [|x l IH]; [reflexivity|]. cbn [split filter]. rewrite Ascii.eqb_sym. destruct (Ascii.eqb "#" x); [cbn; now rewrite IH|]. destruct (split "#" l); [discriminate|exact IH]. }
    specialize (LS l). destruct (split "#" l) as [|w [|num [|x rest]]]; cbn [tl]; try reflexivity. cbn in LS. lia.
  - destruct (tl _) as [|num rest] eqn:T; [reflexivity|]. cbv zeta. rewrite split_no; [reflexivity|]. intro I. apply H.
    assert (S1 : split "#" l = hd [] (split "#" l) :: num :: rest) by (destruct (split_some "#" l) as (w & ws & X); rewrite X in T |- *; cbn in *; now rewrite T).
    assert (C : List.concat (split "#" l) = hd [] (split "#" l) ++ num ++ List.concat rest) by (rewrite S1 at 1; reflexivity). rewrite concat_split in C.
    assert (J : In "$"%char (filter (fun x => negb (Ascii.eqb x "#")) l)) by (rewrite C, !in_app_iff; tauto). apply filter_In in J. tauto.
Qed.
(** Only the first [$] of the rest separates the name, and a [#] inside the name or value is lost. *)
Theorem c68_hash_lost (number : Z) (a b t : text) (eol : text) : 0 <= number -> ~ In number [28; 31; 33; 37; 38] -> t <> [] -> is_field (a ++ b) -> ~ stars (a ++ b) -> is_field t -> Forall is_ascii eol ->
  line_fields parse_float (["#"%char] ++ py_str number ++ ["#"%char] ++ a ++ ["#"%char] ++ b ++ ["$"%char] ++ t ++ ["$"%char] ++ eol) = Good (number, Some (lower (a ++ b)), VStr t).
Proof.
  intros N0 NN T0 (FA & A1 & A2) NS (FT & T1 & T2) EO. destruct (field_digits number N0) as [DF DS].
  assert (FI : forall c' s, Forall field_char s -> In c' s -> is_ascii c' /\ c' <> "#"%char /\ c' <> "$"%char /\ c' <> newline) by (intros c' s H; rewrite Forall_forall in H; apply H).
  pose proof FA as FAB. apply Forall_app in FAB. destruct FAB as [FA' FB]. unfold line_fields.
  match goal with |- context [forallb ?p ?l] => replace (forallb p l) with true end.
  2:{ symmetry. apply forallb_forall. intros x I. apply N.ltb_lt. rewrite !in_app_iff in I. cbn [In] in I. rewrite Forall_forall in EO. destruct I as [[I|[]]|[I|[[I|[]]|[I|[[I|[]]|[I|[[I|[]]|[I|[[I|[]]|I]]]]]]]]]; try (subst; reflexivity).
      - now apply (FI _ _ DF). - now apply (FI _ _ FA'). - now apply (FI _ _ FB). - now apply (FI _ _ FT). - now apply EO. }
  cbn [negb]. match goal with |- context [split "#" (["#"%char] ++ ?x)] => change (["#"%char] ++ x) with ([] ++ ["#"%char] ++ x) end. rewrite (split_at "#" []) by (intros []). cbn [tl]. rewrite split_at by (intro I; now apply (FI _ _ DF) in I). rewrite concat_split, !filter_app.
  rewrite (filter_none _ a), (filter_none _ b), (filter_none _ t) by (intro I; first [now apply (FI _ _ FA') in I|now apply (FI _ _ FB) in I|now apply (FI _ _ FT) in I]).
  change (filter (fun x => negb (Ascii.eqb x "#")) ["$"%char]) with ["$"%char]. change (filter (fun x => negb (Ascii.eqb x "#")) ["#"%char]) with (@nil ascii). cbn [app].
  rewrite app_assoc. change (?x ++ "$"%char :: ?y) with (x ++ ["$"%char] ++ y). rewrite (split_at "$" (a ++ b)) by (intro I; now apply (FI _ _ FA) in I).
  change (t ++ "$"%char :: ?y) with (t ++ ["$"%char] ++ y). rewrite split_at by (intro I; now apply (FI _ _ FT) in I). cbv zeta.
  assert (SP : forall x, hd_error x <> Some " "%char -> hd_error (rev x) <> Some " "%char -> strip_char " " x = x) by (intros x X1 X2; rewrite <- (strip_pad " " [] x []) at 2; auto; cbn [app]; now rewrite app_nil_r).
  rewrite !SP; try assumption; try (intro H; apply hd_in in H; easy). 2:{ intro H. apply hd_in, in_rev in H. easy. }
  destruct (strip_char "*" (a ++ b)) eqn:S0; [exfalso; apply NS; now apply strip_stars|]. destruct t as [|x t]; [easy|].
  cbn [existsb]. change (txt "28") with (py_str 28). change (txt "31") with (py_str 31). change (txt "33") with (py_str 33). change (txt "37") with (py_str 37). change (txt "38") with (py_str 38).
  rewrite !str_eqb by lia. cbn [In] in NN. destruct (Z.eqb_spec number 28); [lia|]. destruct (Z.eqb_spec number 31); [lia|]. destruct (Z.eqb_spec number 33); [lia|]. destruct (Z.eqb_spec number 37); [lia|].
  destruct (Z.eqb_spec number 38); [lia|]. cbn [orb checked]. now rewrite py_int_str.
Qed.

(** C104: reading ends, whatever is in the file. *)
Theorem c104_ends (f : file) : read_tst_file f <> Endless.
Proof.
  unfold TstModel.read_tst_file. pose proof (b_ends _ (t_basic _ (read_all_tame parse_float trunc nonzero unpack)) (S (List.length f)) f ltac:(lia)) as H.
  destruct (read_all _ _ _ _ _ f) as [[c r]| |]; easy.
Qed.
(** A file that was written with right counts is read back, whatever follows it. *)
Theorem c104_read_back (b rest : text) (a : a_file) (names : list text) : file_text parse_float b a -> file_right trunc nonzero names a ->
  exists c, read_tst_file (b ++ rest) = Good c /\ right_file unpack names a c.
Proof.
  intros FT FR. destruct (file_read parse_float trunc nonzero unpack names b a rest FT FR) as (c & RT & OK). exists c. split; [|exact OK].
  unfold TstModel.read_tst_file. now rewrite (to_enough _ _ _ _ (read_all_tame parse_float trunc nonzero unpack) RT).
Qed.
(** If a file and its beginning are both read, the results are the same: no part is dropped without notice. *)
Theorem c104_beginning (a b : file) (c c' : contents) : read_tst_file a = Good c -> read_tst_file (a ++ b) = Good c' -> c' = c.
Proof.
  unfold TstModel.read_tst_file. assert (T := read_all_tame parse_float trunc nonzero unpack). intros H1 H2.
  destruct (read_all parse_float trunc nonzero unpack (S (List.length a)) a) as [[x r]| |] eqn:E; try discriminate. inversion H1; subst x.
  assert (E' : read_all parse_float trunc nonzero unpack (S (List.length (a ++ b))) a = Good (c, r)).
  { rewrite <- E. apply (b_mono _ (t_basic _ T)); [rewrite app_length; lia|]. now rewrite E. }
  destruct (t_stable _ T _ a b c r E') as [X|[_ X]].
  - rewrite X in H2. now inversion H2.
  - destruct (read_all _ _ _ _ _ (a ++ b)) as [[x' r']| |]; try discriminate. inversion H2; subst. now apply (X c' r').
Qed.
(** So a file cut off at any point raises an exception, or everything is there. *)
Theorem c104_cut (b b' : text) (a : a_file) (names : list text) : file_text parse_float (b ++ b') a -> file_right trunc nonzero names a ->
  (exists e, read_tst_file b = Raise e) \/ (exists c, read_tst_file b = Good c /\ right_file unpack names a c).
Proof.
  intros FT FR. destruct (c104_read_back (b ++ b') [] a names FT FR) as (c & RD & OK). rewrite app_nil_r in RD.
  destruct (read_tst_file b) as [c0|e|] eqn:E; [|left; now exists e|now apply c104_ends in E].
  right. exists c0. split; [reflexivity|]. now rewrite <- (c104_beginning b b' c0 c E RD).
Qed.
(** A count or a floating point number that can't be read is refused. *)
Theorem c68_value (l : text) (number : Z) (name t : text) (rest : text) (n : nat) : is_line l number name t -> t <> [] ->
  (number = 28 \/ number = 31) /\ py_int t = None \/ (number = 33 \/ number = 37 \/ number = 38) /\ parse_float t = None ->
  split_line parse_float n (l ++ rest) = Raise (Py ValueError).
Proof.
  intros L T0 BAD. enough (X : line_fields parse_float l = Raise (Py ValueError)).
  { destruct (is_line_end parse_float trunc nonzero unpack _ _ _ _ L) as (l' & E & N). unfold split_line.
    replace (l ++ rest) with (l' ++ [newline] ++ rest) by (rewrite E; now rewrite <- app_assoc). rewrite readline_at, <- E by exact N. now rewrite X. }
  clear rest. revert L T0 BAD.
  intros (a & b & c & d & e & g & eol & A & B & C & D & E & G & EOL & N0 & NF & TF & ->) T0 BAD.
  destruct (field_digits number N0) as [DF DS]. destruct NF as (NC & N1 & N2). destruct TF as (TC & T1 & T2).
  assert (FI : forall c' s, Forall field_char s -> In c' s -> is_ascii c' /\ c' <> "#"%char /\ c' <> "$"%char /\ c' <> newline) by (intros c' s H; rewrite Forall_forall in H; apply H).
  assert (SP : forall c' s, spaces s -> In c' s -> c' <> "#"%char /\ c' <> "$"%char) by (intros c' s H I; apply (in_spaces _ _ H) in I; subst; split; discriminate).
  unfold line_fields.
  match goal with |- context [forallb ?p ?l] => replace (forallb p l) with true end.
  2:{ symmetry. apply forallb_forall. intros x I. apply N.ltb_lt. rewrite !in_app_iff in I. cbn [In] in I. rewrite Forall_forall in EOL.
      assert (SA : forall s, spaces s -> In x s -> (N_of_ascii x < 128)%N) by (intros s H J; apply (in_spaces _ _ H) in J; subst; reflexivity).
      assert (FA : forall s, Forall field_char s -> In x s -> (N_of_ascii x < 128)%N) by (intros s H J; apply (FI _ _ H J)).
      repeat (destruct I as [I|I]; [eauto|]); try (subst; reflexivity); try easy; try (apply EOL; exact I); destruct I as [I|I]; try easy; subst; reflexivity. }
  cbn [negb]. set (rest := c ++ name ++ d ++ ["$"%char] ++ e ++ t ++ g ++ ["$"%char] ++ eol ++ [newline]).
  replace (["#"%char] ++ a ++ py_str number ++ b ++ ["#"%char] ++ rest) with ([] ++ ["#"%char] ++ (a ++ py_str number ++ b) ++ ["#"%char] ++ rest) by (cbn [app]; now rewrite <- !app_assoc).
  rewrite split_at by (intros []). cbn [tl]. rewrite split_at.
  2:{ rewrite !in_app_iff. intros [I|[I|I]]; [now apply (SP _ _ A) in I|now apply (FI _ _ DF) in I|now apply (SP _ _ B) in I]. }
  rewrite concat_split. unfold rest. rewrite !filter_app.
  rewrite (filter_none _ c), (filter_none _ name), (filter_none _ d), (filter_none _ e), (filter_none _ t), (filter_none _ g);
    try (intro I; first [now apply (FI _ _ NC) in I|now apply (FI _ _ TC) in I|now apply (SP _ _ C) in I|now apply (SP _ _ D) in I|now apply (SP _ _ E) in I|now apply (SP _ _ G) in I]).
  change (filter (fun x => negb (Ascii.eqb x "#")) ["$"%char]) with ["$"%char].
  set (tail := filter _ eol ++ filter _ [newline]). replace (c ++ name ++ d ++ ["$"%char] ++ e ++ t ++ g ++ ["$"%char] ++ tail) with ((c ++ name ++ d) ++ ["$"%char] ++ (e ++ t ++ g) ++ ["$"%char] ++ tail) by now rewrite <- !app_assoc.
  rewrite split_at by (rewrite !in_app_iff; intros [I|[I|I]]; [now apply (SP _ _ C) in I|now apply (FI _ _ NC) in I|now apply (SP _ _ D) in I]).
  rewrite split_at by (rewrite !in_app_iff; intros [I|[I|I]]; [now apply (SP _ _ E) in I|now apply (FI _ _ TC) in I|now apply (SP _ _ G) in I]).
  cbv zeta. rewrite !strip_pad; try assumption.
  2:{ intro H. apply hd_in in H. easy. } 2:{ intro H. apply hd_in in H. apply in_rev in H. easy. }
  set (nm := match strip_char "*" name with [] => None | _ => _ end).
  assert (NM : nm = if forallb (Ascii.eqb "*"%char) name then None else Some (lower name)).
  { unfold nm. destruct (forallb (Ascii.eqb "*") name) eqn:FB.
    - assert (S0 : strip_char "*" name = []) by (apply strip_stars, Forall_forall; intros x I; rewrite forallb_forall in FB; apply Ascii.eqb_eq; now apply FB). now rewrite S0.
    - destruct (strip_char "*" name) eqn:S0; [|reflexivity]. apply strip_stars in S0. exfalso. apply Bool.not_true_iff_false in FB. apply FB. apply forallb_forall. intros x I.
      rewrite Forall_forall in S0. rewrite <- (S0 x I). reflexivity. }
  clearbody nm. clear - N0 T0 BAD. destruct t as [|x t]; [easy|]. cbn [existsb].
  change (txt "28") with (py_str 28). change (txt "31") with (py_str 31). change (txt "33") with (py_str 33). change (txt "37") with (py_str 37). change (txt "38") with (py_str 38).
  rewrite !str_eqb by lia. destruct BAD as [[[-> | ->] P]|[[->|[->| ->]] P]]; cbn [Z.eqb Pos.eqb orb]; now rewrite P.
Qed.
Print Assumptions c68_value.
(** Counts that are not whole numbers, and a header without the number of runs, are refused, whatever comes after. *)
Theorem c104_counts (l s rest : text) (number : Z) (name t : text) (v : val) : is_line l number name t -> ~ stars name -> means parse_float number t v ->
  (forall z, v <> VInt z) -> star_line parse_float s ->
  (lower name = txt "channelsarray" -> read_tst_file (l ++ rest) = Raise (Py TypeError)) /\
  (lower name = txt "runs" -> read_tst_file (l ++ s ++ rest) = Raise (Py TypeError)) /\
  read_tst_file (s ++ rest) = Raise (Py KeyError).
Proof.
  intros L NS M NI (sn & sname & st & sv & SL & SS & SM).
  assert (H1 : forall n rest, split_line parse_float n (l ++ rest) = Good ((number, Some (lower name), v), rest)) by (intros n r; now apply (c68_line l number name t r v n L M)).
  assert (H2 : forall n rest, split_line parse_float n (s ++ rest) = Good ((sn, None, sv), rest)) by (intros n r; now apply (c68_line s sn sname st r sv n SL SM)).
  assert (T : forall n f, times_of v n f = Raise (Py TypeError)) by (intros n f; destruct v as [|x|z|x]; try reflexivity; now destruct (NI z)).
  split; [|split].
  - intros E. unfold TstModel.read_tst_file, read_all. unfold andthen at 1. cbn [header_loop]. unfold andthen at 1. rewrite H1, E. cbn [key_eqb]. rewrite (proj2 (text_eqb_iff _ _) eq_refl).
    unfold andthen at 1. now rewrite T.
  - intros E. assert (LN : exists k, List.length (l ++ s ++ rest) = S k).
    { destruct L as (a & b & c & d & e & g & eol & L). destruct L as (_ & _ & _ & _ & _ & _ & _ & _ & _ & _ & ->). now eexists. }
    destruct LN as [k LN]. unfold TstModel.read_tst_file, read_all. rewrite LN. unfold andthen at 1. cbn [header_loop]. unfold andthen at 1. rewrite H1, E.
    replace (key_eqb (Some (txt "runs")) (Some (txt "channelsarray"))) with false by reflexivity. cbn [header_loop]. unfold andthen at 1. rewrite H2.
    unfold ret, item, andthen, get, put. replace (key_eqb (Some (txt "runs")) (Some (txt "runs"))) with true by reflexivity. cbn. unfold times_of_h. now rewrite T.
  - unfold TstModel.read_tst_file, read_all. unfold andthen at 1. cbn [header_loop]. unfold andthen at 1. rewrite H2. reflexivity.
Qed.
Print Assumptions c104_counts.
End Reader.
Print Assumptions c68_line.
Print Assumptions c68_refused.
Print Assumptions c68_hash_lost.
Print Assumptions c104_ends.
Print Assumptions c104_read_back.
Print Assumptions c104_beginning.
Print Assumptions c104_cut.

(** ** A case: a file with two channels and a run of two steps, the second without samples *)
Definition ex_float (t : text) : option Z := py_int t.
Definition ex_unpack (t : text) : Z := fold_left (fun z c => z + Z.of_N (N_of_ascii c)) t 0.
Definition field_b (t : text) : bool :=
  forallb (fun c => (N_of_ascii c <? 128)%N && negb (Ascii.eqb c "#"%char) && negb (Ascii.eqb c "$"%char) && negb (Ascii.eqb c newline)) t &&
  match hd_error t with Some c => negb (Ascii.eqb c " ") | None => true end && match hd_error (rev t) with Some c => negb (Ascii.eqb c " ") | None => true end.
Lemma field_b_ok t : field_b t = true -> is_field t.
Proof.
  unfold field_b. rewrite !andb_true_iff. intros [[H1 H2] H3]. split.
  - apply Forall_forall. intros c I. rewrite forallb_forall in H1. specialize (H1 c I). rewrite !andb_true_iff, !negb_true_iff in H1. destruct H1 as [[[A B] C] D]. apply N.ltb_lt in A.
    apply Ascii.eqb_neq in B, C, D. now repeat split.
  - split; intro E; [rewrite E in H2; cbn in H2|rewrite E in H3; cbn in H3]; discriminate.
Qed.
Definition ex_line (number : Z) (name value : string) : text :=
  ["#"%char] ++ [] ++ py_str number ++ [" "%char] ++ ["#"%char] ++ [] ++ txt name ++ [] ++ ["$"%char] ++ [] ++ txt value ++ [" "%char] ++ ["$"%char] ++ [ascii_of_N 13] ++ [newline].
Lemma ex_is_line number name value : 0 <= number -> field_b (txt name) = true -> field_b (txt value) = true -> is_line (ex_line number name value) number (txt name) (txt value).
Proof.
  intros N A B. exists [], [" "%char], [], [], [], [" "%char], [ascii_of_N 13]. assert (S0 : spaces []) by constructor. assert (S1 : spaces [" "%char]) by repeat constructor.
  refine (conj S0 (conj S1 (conj S0 (conj S0 (conj S0 (conj S1 (conj _ (conj N (conj (field_b_ok _ A) (conj (field_b_ok _ B) eq_refl)))))))))).
  constructor; [split; [reflexivity|discriminate]|constructor].
Qed.
Lemma ex_text n nm v : 0 <= n -> field_b (txt nm) = true -> field_b (txt v) = true -> ~ stars (txt nm) -> ~ In n [28; 31; 33; 37; 38] -> txt v <> [] -> entry_line ex_float (ex_line n nm v) (lower (txt nm), VStr (txt v)).
Proof.
  intros N A B S0 I V. exists n, (txt nm), (txt v). split; [now apply ex_is_line|]. split; [exact S0|]. split; [reflexivity|]. destruct (txt v) eqn:E; [easy|]. cbn [In] in I.
  split; [intro H; lia|]. split; [intros _ H; lia|]. reflexivity.
Qed.
Lemma ex_int n nm (z : Z) v : n = 28 \/ n = 31 -> field_b (txt nm) = true -> ~ stars (txt nm) -> 0 <= z -> txt v = py_str z -> field_b (txt v) = true -> entry_line ex_float (ex_line n nm v) (lower (txt nm), VInt z).
Proof.
  intros N A S0 Z0 V B. exists n, (txt nm), (txt v). split; [apply ex_is_line; [lia|assumption|assumption]|]. split; [exact S0|]. split; [reflexivity|]. cbn [snd].
  destruct (txt v) eqn:E. { exfalso. pose proof (py_int_str z Z0) as X. rewrite <- V in X. discriminate. }
  split; [intros _; exists z; rewrite <- V; now repeat split|]. split; [intros _ H; lia|]. intros _ H. cbn in H. lia.
Qed.
Lemma ex_stars : star_line ex_float (ex_line 1 "***" "").
Proof.
  exists 1, (txt "***"), [], VNone. split; [apply ex_is_line; [lia|reflexivity|reflexivity]|]. split; [repeat constructor|]. split; [reflexivity|]. split; intros H; easy.
Qed.
Ltac no_stars := let H := fresh in intro H; inversion H; discriminate.
Definition ex_channel (nm : string) : text := ex_line 5 "Name" nm ++ ex_line 28 "LengthInBytes" "8" ++ ex_line 5 "Type" "double".
Definition ex_channel_of (nm : string) : list (text * @val Z) := [(txt "name", VStr (txt nm)); (txt "lengthinbytes", VInt 8); (txt "type", VStr (txt "double"))].
Definition ex_eight (c : ascii) : text := repeat c 8.
Definition ex_samples : list (list text) := [[ex_eight "a"; ex_eight "b"]; [ex_eight "c"; ex_eight newline]].
Definition ex_step_1 : text := ex_line 5 "Test" "one" ++ ex_line 28 "Samples" "2" ++ ex_line 1 "***" "" ++ ex_line 1 "***" "" ++
  ex_eight "a" ++ ex_eight "b" ++ [newline] ++ ex_eight "c" ++ ex_eight newline ++ [newline].
Definition ex_step_2 : text := ex_line 1 "***" "" ++ ex_line 5 "Test" "two" ++ ex_line 1 "***" "" ++ ex_line 31 "Samples" "0" ++ ex_line 1 "***" "".
Definition ex_file : text := ex_line 5 "Owner" "me" ++ ex_line 31 "ChannelsArray" "2" ++ (ex_channel "Fx" ++ ex_channel "Fz") ++ ex_line 28 "Runs" "1" ++ ex_line 28 "Steps" "2" ++ ex_line 1 "***" "" ++
  ex_line 5 "Run" "first" ++ [newline] ++ ex_line 5 "Date" "today" ++ ex_line 1 "***" "" ++ ex_step_1 ++ ex_step_2.
Definition ex_a : @a_file Z := {|
  f_before := [(txt "owner", VStr (txt "me"))]; f_channels := [ex_channel_of "Fx"; ex_channel_of "Fz"]; f_after := [(txt "runs", VInt 1); (txt "steps", VInt 2)];
  f_runs := [{| r_run := VStr (txt "first"); r_meta := [(txt "date", VStr (txt "today"))]; r_steps := [
    {| s_test := VStr (txt "one"); s_first := [(txt "samples", VInt 2)]; s_second := []; s_samples := ex_samples |};
    {| s_test := VStr (txt "two"); s_first := []; s_second := [(txt "samples", VInt 0)]; s_samples := [] |}] |}] |}.
Lemma ex_channel_text nm : field_b (txt nm) = true -> txt nm <> [] -> channel_text ex_float (ex_channel nm) (ex_channel_of nm).
Proof.
  intros A B. split.
  - exists [ex_line 5 "Name" nm; ex_line 28 "LengthInBytes" "8"; ex_line 5 "Type" "double"]. split; [|unfold ex_channel; cbn [List.concat]; now rewrite app_nil_r].
    constructor; [|constructor; [|constructor; [|constructor]]].
    + apply (ex_text 5 "Name" nm); try assumption; try reflexivity; [lia|no_stars|cbn; lia].
    + apply (ex_int 28 "LengthInBytes" 8 "8"); try reflexivity; [now left|no_stars|lia].
    + apply (ex_text 5 "Type" "double"); try reflexivity; [lia|no_stars|cbn; lia|discriminate].
  - exists [(txt "name", VStr (txt nm)); (txt "lengthinbytes", VInt 8)], (VStr (txt "double")). split; [reflexivity|]. repeat constructor; discriminate.
Qed.
Lemma ex_block_nil : block ex_float (ex_line 1 "***" "") [].
Proof. exists [], (ex_line 1 "***" ""). split; [exists []; split; [constructor|reflexivity]|]. split; [apply ex_stars|reflexivity]. Qed.
Lemma ex_block_one l kv : entry_line ex_float l kv -> block ex_float (l ++ ex_line 1 "***" "") [kv].
Proof. intro L. exists l, (ex_line 1 "***" ""). split; [exists [l]; split; [now repeat constructor|cbn; now rewrite app_nil_r]|]. split; [apply ex_stars|reflexivity]. Qed.
Example c104_case_text : file_text ex_float ex_file ex_a.
Proof.
  exists (ex_line 5 "Owner" "me"), (ex_line 31 "ChannelsArray" "2"), (ex_channel "Fx" ++ ex_channel "Fz"), (ex_line 28 "Runs" "1" ++ ex_line 28 "Steps" "2" ++ ex_line 1 "***" ""),
    (ex_line 5 "Run" "first" ++ [newline] ++ (ex_line 5 "Date" "today" ++ ex_line 1 "***" "") ++ ex_step_1 ++ ex_step_2).
  split; [|split; [|split; [|split; [|split]]]].
  - exists [ex_line 5 "Owner" "me"]. split; [|cbn [List.concat]; now rewrite app_nil_r]. constructor; [|constructor]. apply (ex_text 5 "Owner" "me"); try reflexivity; [lia|no_stars|cbn; lia|discriminate].
  - apply (ex_int 31 "ChannelsArray" 2 "2"); try reflexivity; [now right|no_stars|lia].
  - exists [ex_channel "Fx"; ex_channel "Fz"]. split; [|cbn [List.concat]; now rewrite app_nil_r]. constructor; [|constructor; [|constructor]]; apply ex_channel_text; try reflexivity; discriminate.
  - exists (ex_line 28 "Runs" "1" ++ ex_line 28 "Steps" "2"), (ex_line 1 "***" ""). split; [|split; [apply ex_stars|now rewrite <- app_assoc]].
    exists [ex_line 28 "Runs" "1"; ex_line 28 "Steps" "2"]. split; [|cbn [List.concat]; now rewrite app_nil_r].
    constructor; [|constructor; [|constructor]]; [apply (ex_int 28 "Runs" 1 "1")|apply (ex_int 28 "Steps" 2 "2")]; try reflexivity; try no_stars; try lia.
  - eexists [_]. split; [|cbn [List.concat]; now rewrite app_nil_r]. constructor; [|constructor]. exists (ex_line 5 "Run" "first"), [], (ex_line 5 "Date" "today" ++ ex_line 1 "***" ""), (ex_step_1 ++ ex_step_2).
    split; [apply (ex_text 5 "Run" "first"); try reflexivity; [lia|no_stars|cbn; lia|discriminate]|]. split; [intros []|]. split; [|split; [|reflexivity]].
    + apply ex_block_one. apply (ex_text 5 "Date" "today"); try reflexivity; [lia|no_stars|cbn; lia|discriminate].
    + exists [ex_step_1; ex_step_2]. split; [|cbn [List.concat]; now rewrite app_nil_r]. constructor; [|constructor; [|constructor]].
      * exists [], (ex_line 5 "Test" "one"), (ex_line 28 "Samples" "2" ++ ex_line 1 "***" ""), (ex_line 1 "***" ""), (ex_eight "a" ++ ex_eight "b" ++ [newline] ++ ex_eight "c" ++ ex_eight newline ++ [newline]).
        split; [now left|]. split; [apply (ex_text 5 "Test" "one"); try reflexivity; [lia|no_stars|cbn; lia|discriminate]|].
        split; [apply ex_block_one, (ex_int 28 "Samples" 2 "2"); try reflexivity; [now left|no_stars|lia]|]. split; [apply ex_block_nil|]. split; [|unfold ex_step_1; cbn [app]; now rewrite <- !app_assoc].
        exists [ex_eight "a" ++ ex_eight "b" ++ [newline]; ex_eight "c" ++ ex_eight newline ++ [newline]]. split; [|reflexivity]. repeat constructor; eexists; reflexivity.
      * exists (ex_line 1 "***" ""), (ex_line 5 "Test" "two"), (ex_line 1 "***" ""), (ex_line 31 "Samples" "0" ++ ex_line 1 "***" ""), [].
        split; [right; apply ex_stars|]. split; [apply (ex_text 5 "Test" "two"); try reflexivity; [lia|no_stars|cbn; lia|discriminate]|]. split; [apply ex_block_nil|].
        split; [apply ex_block_one, (ex_int 31 "Samples" 0 "0"); try reflexivity; [now right|no_stars]|]. split; [exists []; split; [constructor|reflexivity]|]. unfold ex_step_2. now rewrite app_nil_r.
  - unfold ex_file. now rewrite <- !app_assoc.
Qed.
Example c104_case_right : file_right Some (fun z => negb (z =? 0)) [txt "Fx"; txt "Fz"] ex_a.
Proof.
  split; [|split; [|split; [|split]]].
  - repeat constructor; discriminate.
  - reflexivity.
  - constructor; [|constructor]. split; [reflexivity|]. constructor; [|constructor; [|constructor]].
    + split; [eexists; split; reflexivity|]. repeat constructor.
    + split; [eexists; split; reflexivity|]. constructor.
  - repeat constructor.
  - constructor; [intros [H|[]]; discriminate|]. constructor; [intros []|constructor].
Qed.
(** The force in z at the second sample is made of eight line ends, which are read as data. *)
Example c104_case : exists c, read_tst_file ex_float Some (fun z => negb (z =? 0)) ex_unpack ex_file = Good c /\
  exists r s d, runs c = [r] /\ nth_error (run_steps r) 0 = Some s /\ step_data s = Some d /\ get (Some (txt "Fz")) d = Some [784; 80].
Proof.
  destruct (c104_read_back ex_float Some (fun z => negb (z =? 0)) ex_unpack ex_file [] ex_a _ c104_case_text c104_case_right) as (c & H & (_ & _ & FR)). rewrite app_nil_r in H. exists c. split; [exact H|].
  inversion FR as [|? r ? rs [_ RS] FR' E1 E2]. inversion FR'; subst. exists r. cbn [r_steps] in RS. inversion RS as [|? s ? ss [_ SD] RS' E3 E4]. exists s.
  cbn [s_samples] in SD. unfold right_data in SD. destruct (step_data s) as [d|] eqn:E; [|discriminate]. exists d. repeat split; try reflexivity. apply (SD 1%nat). reflexivity.
Qed.
