(** C114: the results of a run can be read from its files. *)
From Coq Require Import List String Ascii Bool Arith Lia.
From Verif Require Import OutputsModel OutputsSpec OutputsProofs ResultsModel ResultsSpec ResultsProofs.
Import ListNotations.
Local Open Scope string_scope.

Section Theorems.
Context {num bytes : Type}.
Variable to_float : bytes -> string -> option num.
Variable np_has : string -> bool.
Variable json_ok : num -> bool.
Variable fits : bytes -> list nat -> string -> bool.
Variable num_eqb : num -> num -> bool.
Variable nonneg : num -> bool.
Local Notation record := (list (string * @value num bytes)).
Local Notation files := (@files num bytes).

(** Whatever is written in a with statement, and whatever fails in it: afterwards a reader opened by the path of the
    output directory and the name of the model gives exactly the records that were accepted, by time, by field and by
    search. *)
Theorem c114_saved (num_eqb_spec : forall x y, num_eqb x y = true <-> x = y) (fs : files) cwd out name s b l e n :
  name <> "" -> names_file out name n -> written to_float json_ok b l e ->
  Forall (Forall (fun kv => storable np_has (snd kv))) l -> Forall (sized fits) l -> Forall (timed to_float) l ->
  exists fs1 s1 rd, session to_float json_ok fs cwd out name s b false = (fs1, s1, if e then Ok tt else Err TypeError) /\ in_context s1 = false /\
    open_reader nonneg fs1 cwd n = (fs1, Ok rd) /\ results to_float np_has num_eqb nonneg (reads_back to_float fits fs1 cwd) fs1 cwd rd l.
Proof.
  intros N Hn W St Sz T. destruct (session_spec to_float np_has json_ok fs cwd out name s b l e false W) as (fs1 & s1 & ds & z & E & C & D & A & _ & _ & S & Rd).
  destruct (named cwd out name n N Hn) as [N1 N2]. rewrite <- N1 in D. rewrite <- N2 in A.
  destruct (results_good to_float np_has num_eqb nonneg num_eqb_spec _ fs1 cwd n l ds D (good_whole to_float np_has fits fs1 cwd _ z l ds A Sz S (Rd St)) T) as [O R].
  do 3 eexists. split; [exact E|]. split; [exact C|]. split; [exact O|exact R].
Qed.

(** Every body is one of those. *)
Theorem c114_bodies b : exists l e, written to_float json_ok b l e.
Proof. apply written_exists. Qed.

(** The files of other names are as before. *)
Theorem c114_others (fs : files) cwd out name s b killed fs1 s1 r :
  session to_float json_ok fs cwd out name s b killed = (fs1, s1, r) ->
  (forall p, p <> saver_base cwd out name ++ ".sdb" -> databases fs1 p = databases fs p) /\ (forall p, p <> saver_base cwd out name ++ ".sar" -> archives fs1 p = archives fs p).
Proof.
  intros H. destruct (written_exists to_float json_ok b) as (l & e & W). destruct (session_spec to_float np_has json_ok fs cwd out name s b l e killed W) as (f & s' & ds & z & E & _ & _ & _ & X & Y & _).
  rewrite H in E. injection E as -> _ _. split; assumption.
Qed.

(** If the process is killed before the end of the with statement the numbers and the text can be read, but no array. *)
Theorem c114_killed_refuted (num_eqb_spec : forall x y, num_eqb x y = true <-> x = y) (fs : files) cwd out name s b l e n :
  name <> "" -> names_file out name n -> written to_float json_ok b l e ->
  Forall (Forall (fun kv => storable np_has (snd kv))) l -> Forall (timed to_float) l ->
  exists fs1 s1 r rd, session to_float json_ok fs cwd out name s b true = (fs1, s1, r) /\
    open_reader nonneg fs1 cwd n = (fs1, Ok rd) /\ results to_float np_has num_eqb nonneg (reads_back_without to_float fits NotAZip fs1 cwd) fs1 cwd rd l.
Proof.
  intros N Hn W St T. destruct (session_spec to_float np_has json_ok fs cwd out name s b l e true W) as (fs1 & s1 & ds & z & E & C & D & A & _ & _ & S & Rd).
  destruct (named cwd out name n N Hn) as [N1 N2]. rewrite <- N1 in D. rewrite <- N2 in A.
  destruct (results_good to_float np_has num_eqb nonneg num_eqb_spec _ fs1 cwd n l ds D (good_unfinished to_float np_has fits fs1 cwd _ z l ds A S (Rd St)) T) as [O R].
  do 4 eexists. split; [exact E|]. split; [exact O|exact R].
Qed.

(** One record whose time is text, or an array of several numbers, makes the whole file unreadable. *)
Theorem c114_text_time_refuted (fs : files) cwd out name s b l e n r :
  name <> "" -> names_file out name n -> written to_float json_ok b l e -> In r l -> ~ timed to_float r ->
  exists fs1 s1 x, session to_float json_ok fs cwd out name s b false = (fs1, s1, x) /\ open_reader nonneg fs1 cwd n = (fs1, Err TypeError).
Proof.
  intros N Hn W I1 T. destruct (session_spec to_float np_has json_ok fs cwd out name s b l e false W) as (fs1 & s1 & ds & z & E & C & D & A & _ & _ & S & _).
  destruct (named cwd out name n N Hn) as [N1 _]. rewrite <- N1 in D. do 3 eexists. split; [exact E|]. unfold open_reader, open_db. rewrite D.
  destruct (existsb text_time ds) eqn:X; [reflexivity|]. apply (text_times to_float l ds S) in X. rewrite Forall_forall in X. exfalso. exact (T (X r I1)).
Qed.

(** Opening a file that is not there makes an empty one: there is no error until something is asked for. *)
Theorem c114_missing_refuted (fs : files) cwd n : databases fs (path_join cwd (sdb_name n)) = None ->
  exists fs1 rd, open_reader nonneg fs cwd n = (fs1, Ok rd) /\ databases fs1 (path_join cwd (sdb_name n)) = Some [] /\ r_times nonneg rd = [] /\
    (forall t, get_time np_has num_eqb nonneg fs1 cwd rd t = (fs1, @Err (list (string * @shown num bytes)) IndexError)) /\
    (forall f, get_field np_has num_eqb nonneg fs1 cwd rd f = (fs1, @Err (list (num * option (@shown num bytes))) IndexError)) /\
    (forall q, search np_has fs1 cwd rd q = (fs1, Ok (@nil (list (string * @shown num bytes))))).
Proof.
  intros D. unfold open_reader, open_db. rewrite D. do 2 eexists. split; [reflexivity|]. cbn [databases]. rewrite put_same. split; [reflexivity|]. split; [reflexivity|].
  unfold get_time, get_field, search, open_db. cbn [r_file databases]. rewrite put_same. repeat split; reflexivity.
Qed.

(** By default the output directory is the working directory: the name of the model is enough if it does not end with the extension. *)
Theorem c114_names cwd name n : (exists c, cwd = String "/" c) -> name <> "" -> (n = name ++ ".sdb" \/ n = name /\ forall b, n <> b ++ ".sdb") ->
  path_join cwd (sdb_name n) = saver_base cwd cwd name ++ ".sdb" /\ path_join cwd (drop_4 (sdb_name n) ++ ".sar") = saver_base cwd cwd name ++ ".sar".
Proof.
  intros [c ->] N H. set (cwd := String "/" c). assert (X : sdb_name n = name ++ ".sdb").
  { unfold sdb_name. destruct H as [->|[-> H]]; [rewrite ends_with_app; reflexivity|]. destruct (ends_with ".sdb" name) eqn:E; [|reflexivity]. apply ends_with_true in E as [b E]. exfalso. exact (H b E). }
  assert (Y : path_join cwd (path_join cwd name) = path_join cwd name).
  { unfold path_join at 1. assert (P : String.prefix "/" (path_join cwd name) = true); [|rewrite P; reflexivity]. unfold path_join. destruct (String.prefix "/" name) eqn:E; [exact E|]. destruct (_ || _); unfold cwd; cbn [append String.prefix]; (destruct (ascii_dec "/" "/"); [|contradiction]); match goal with |- String.prefix "" ?s = true => destruct s; reflexivity end. }
  rewrite X, drop_4_sdb. unfold saver_base. rewrite Y, !join_app by exact N. split; reflexivity.
Qed.
(** A model whose name ends with the extension is not found by its name. *)
Theorem c114_extension_refuted (fs : files) cwd base s b killed : (exists c, cwd = String "/" c) -> databases fs (path_join cwd (base ++ ".sdb")) = None ->
  exists fs1 s1 r fs2 rd, session to_float json_ok fs cwd cwd (base ++ ".sdb") s b killed = (fs1, s1, r) /\ open_reader nonneg fs1 cwd (base ++ ".sdb") = (fs2, Ok rd) /\ r_times nonneg rd = [].
Proof.
  intros Hc D. destruct (session to_float json_ok fs cwd cwd (base ++ ".sdb") s b killed) as [[fs1 s1] r] eqn:E. pose proof (c114_others fs cwd cwd (base ++ ".sdb") s b killed fs1 s1 r E) as [O _].
  assert (Nm : base ++ ".sdb" <> "") by (destruct base; discriminate). destruct (c114_names cwd (base ++ ".sdb") _ Hc Nm (or_introl eq_refl)) as [N1 _].
  unfold sdb_name in N1. rewrite ends_with_app in N1. rewrite <- N1 in O.
  assert (L : path_join cwd (base ++ ".sdb") <> path_join cwd ((base ++ ".sdb") ++ ".sdb")).
  { rewrite (join_app cwd (base ++ ".sdb") ".sdb") by exact Nm. intros X. apply (f_equal String.length) in X. rewrite length_app in X. cbn in X. lia. }
  specialize (O _ L). rewrite D in O. do 3 eexists. unfold open_reader, open_db, sdb_name. rewrite ends_with_app, O. do 2 eexists. split; [reflexivity|]. split; reflexivity.
Qed.

(** An array that has been read stays the same, whatever becomes of the files; a reader of an array that failed can be used again. *)
Theorem c114_cached (fs : files) cwd a :
  (exists x, snd (use_array fits fs cwd a) = Array x /\ forall (fs' : files) cwd', use_array fits fs' cwd' (fst (use_array fits fs cwd a)) = (fst (use_array fits fs cwd a), Array x)) \/
  ((forall x, snd (use_array fits fs cwd a) <> Array x) /\ fst (use_array fits fs cwd a) = a).
Proof.
  destruct (use_array fits fs cwd a) as [a' u] eqn:U. cbn [fst snd]. unfold use_array in U. destruct (a_array a) as [x|] eqn:E.
  - injection U as <- <-. left. exists x. split; [reflexivity|]. intros. unfold use_array. rewrite E. reflexivity.
  - destruct (archives fs _) as [[z|]|]; [|injection U as <- <-; right; split; [discriminate|reflexivity]..]. destruct (zip_read _ z) as [y|]; [|injection U as <- <-; right; split; [discriminate|reflexivity]]. destruct (fits _ _ _); injection U as <- <-; [|right; split; [discriminate|reflexivity]].
    left. eexists. split; [reflexivity|]. intros. reflexivity.
Qed.
(** The array is looked for when it is first used, from the working directory of that time. *)
Theorem c114_moved_refuted (fs : files) cwd sar c (a : @array_reader bytes) : new_array_reader np_has sar c = Ok a -> archives fs (path_join cwd sar) = None -> use_array fits fs cwd a = (a, NoFile).
Proof.
  unfold new_array_reader. intros H A. destruct (nth_error _ 0); [|discriminate]. destruct (nth_error _ 1); [|discriminate]. destruct (nth_error _ 2); [|discriminate]. destruct (negb _); [discriminate|].
  destruct (eval_shape _); cbn [bind] in H; [|discriminate]. destruct (negb _); [discriminate|]. injection H as <-. unfold use_array. cbn [a_array a_file]. rewrite A. reflexivity.
Qed.

(** The fields of a reader are those of the files when it was opened, whatever becomes of them. *)
Theorem c114_old_fields (rd : @reader num) (fs fs' : files) cwd cwd' f : @snd _ (result (list (num * option (@shown num bytes)))) (get_field np_has num_eqb nonneg fs cwd rd f) = snd (get_field np_has num_eqb nonneg fs' cwd' rd f).
Proof. unfold get_field. destruct (open_db fs _), (open_db fs' _). reflexivity. Qed.
(** But their arrays are read from the files as they are: after the model has been run again they are those of the new run. *)
Theorem c114_stale_refuted (num_eqb_spec : forall x y, num_eqb x y = true <-> x = y) (fs : files) cwd out name n t t' (x y : @ndarray bytes) :
  name <> "" -> names_file out name n -> nonneg t = true -> t <> t' -> json_ok t = true -> json_ok t' = true ->
  nd_shape y = nd_shape x -> nd_dtype y = nd_dtype x -> np_has (nd_dtype x) = true -> fits (nd_bytes y) (nd_shape y) (nd_dtype y) = true ->
  fold_right Nat.mul 1 (nd_shape x) <> 1 ->
  exists fs1 s1 r1 rd fs2 s2 r2, session to_float json_ok fs cwd out name new_saver [(false, [("time", VNum t); ("p", VArr x)])] false = (fs1, s1, r1) /\
    open_reader nonneg fs1 cwd n = (fs1, Ok rd) /\ session to_float json_ok fs1 cwd out name new_saver [(false, [("time", VNum t'); ("p", VArr y)])] false = (fs2, s2, r2) /\
    (exists a, get_field np_has num_eqb nonneg fs2 cwd rd "p" = (fs2, Ok [(t, Some (SArr a))]) /\ snd (use_array fits fs2 cwd a) = Array y) /\
    In t (r_times nonneg rd) /\ get_time np_has num_eqb nonneg fs2 cwd rd t = (fs2, @Err (list (string * @shown num bytes)) IndexError).
Proof.
  intros Hn Nf Nn Nt J J' Es Ed Hd Fy Sz. destruct (named cwd out name n Hn Nf) as [N1 N2].
  assert (Te : num_eqb t t = true) by (apply num_eqb_spec; reflexivity). assert (Tn : num_eqb t' t = false) by (destruct (num_eqb t' t) eqn:E; [apply num_eqb_spec in E; congruence|reflexivity]).
  assert (Sx : Nat.eqb (size (nd_shape x)) 1 = false) by (apply Nat.eqb_neq; exact Sz).
  assert (Se : forall fs0 q (u : @ndarray bytes), nd_shape u = nd_shape x -> nd_dtype u = nd_dtype x -> json_ok q = true -> session to_float json_ok fs0 cwd out name new_saver [(false, [("time", VNum q); ("p", VArr u)])] false =
    (Files (put (path_join cwd (sdb_name n)) [[("time", JNum q); ("p", JStr (array_code 0 (nd_shape x) (nd_dtype x)))]] (databases fs0)) (put (path_join cwd (drop_4 (sdb_name n) ++ ".sar")) (Whole [(entry_name 0, nd_bytes u)]) (archives fs0)),
     exit_ (Saver true [[("time", JNum q); ("p", JStr (array_code 0 (nd_shape x) (nd_dtype x)))]] [(entry_name 0, nd_bytes u)] 1), Ok tt)).
  { intros fs0 q u Eu Du Jq. rewrite N1, N2. unfold session, enter, new_saver. cbn [body_run array_number]. unfold write_record. cbn [in_context archive array_number database clean_dict]. unfold clean_value. rewrite Eu, Du, Sx. unfold storable_json. cbn [forallb snd]. rewrite Jq. cbn [andb]. rewrite Eu, Du. reflexivity. }
  rewrite (Se fs t x eq_refl eq_refl J). do 4 eexists. rewrite (Se _ t' y Es Ed J'). do 3 eexists. split; [reflexivity|].
  unfold open_reader, open_db. cbn [databases]. rewrite put_same. cbn [existsb text_time dget String.eqb Ascii.eqb Bool.eqb orb]. split; [reflexivity|]. split; [reflexivity|].
  unfold get_field, get_time, r_times, r_fields, r_sar, open_db. cbn [r_file r_entries databases]. rewrite put_same.
  unfold time_points, fields, all_entries. cbn [filter visible entry_time dget String.eqb Ascii.eqb Bool.eqb]. unfold visible, entry_time. cbn [dget String.eqb Ascii.eqb Bool.eqb]. rewrite Nn. cbn [filter]. unfold visible, entry_time. cbn [dget String.eqb Ascii.eqb Bool.eqb]. rewrite Nn.
  cbn [flat_map app entry_time dget String.eqb Ascii.eqb Bool.eqb]. split; [|split; [left; reflexivity|]].
  - cbn [map fst app mem_str existsb String.eqb Ascii.eqb Bool.eqb orb]. unfold field_dict. cbn [fold_left entry_time dget String.eqb Ascii.eqb Bool.eqb nset]. unfold entry_time. cbn [dget String.eqb Ascii.eqb Bool.eqb nset].
    set (sar := drop_4 (sdb_name n) ++ ".sar") in *. set (code := array_code 0 (nd_shape x) (nd_dtype x)).
    assert (Rv : @read_value num bytes np_has [(entry_name 0, nd_bytes y)] (JStr code) = Ok (VArr y)).
    { cbn [read_value]. unfold code. rewrite prefix_code, <- Es, <- Ed. rewrite read_array_code; [reflexivity|rewrite Ed; exact Hd|reflexivity]. }
    destruct (show_value_read np_has _ sar _ _ Rv) as (v & Ev & a & -> & Af & An & As & Ad & Z). exists a. cbn [show_field]. rewrite Ev. cbn [bind]. split; [reflexivity|].
    unfold use_array. rewrite An, Af. cbn [archives]. rewrite put_same, Z, As, Ad, Fy. destruct y; reflexivity.
  - unfold mem_num. cbn [existsb]. rewrite Te. cbn [orb]. cbn [filter]. unfold time_is, entry_time. cbn [dget String.eqb Ascii.eqb Bool.eqb]. rewrite Tn. reflexivity.
Qed.

(** The output directory is shared: a model made later with another one takes over the results of the earlier models. *)
Theorem c114_output_dir_refuted (fs : files) cwd out n1 n2 d1 d2 s b killed :
  saver_base cwd d1 n1 <> saver_base cwd d2 n1 ->
  let '(m1, out1) := new_model n1 (Some d1) out in let '(m2, out2) := new_model n2 (Some d2) out1 in
  let '(fs1, s1, r) := session to_float json_ok fs cwd out2 (m_name m1) s b killed in
  databases fs1 (saver_base cwd d1 n1 ++ ".sdb") = databases fs (saver_base cwd d1 n1 ++ ".sdb") /\ exists ds, databases fs1 (saver_base cwd d2 n1 ++ ".sdb") = Some ds.
Proof.
  intros H. cbn. destruct (session to_float json_ok fs cwd d2 n1 s b killed) as [[fs1 s1] r] eqn:E. pose proof (c114_others fs cwd d2 n1 s b killed fs1 s1 r E) as [O _]. split.
  - apply O. intros X. apply H. apply (f_equal drop_4) in X. rewrite !drop_4_sdb in X. exact X.
  - destruct (written_exists to_float json_ok b) as (l & e & W). destruct (session_spec to_float np_has json_ok fs cwd d2 n1 s b l e killed W) as (f & s' & ds & z & E' & _ & D & _). rewrite E in E'. injection E' as -> _ _. exists ds. exact D.
Qed.
(** A model made later without one writes into the directory of the earlier model, not into the working directory. *)
Theorem c114_default_dir_refuted (fs : files) cwd out n1 n2 d1 s b killed :
  saver_base cwd d1 n2 <> saver_base cwd cwd n2 ->
  let '(m1, out1) := new_model n1 (Some d1) out in let '(m2, out2) := new_model n2 None out1 in
  let '(fs1, s1, r) := session to_float json_ok fs cwd out2 (m_name m2) s b killed in
  databases fs1 (saver_base cwd cwd n2 ++ ".sdb") = databases fs (saver_base cwd cwd n2 ++ ".sdb") /\ exists ds, databases fs1 (saver_base cwd d1 n2 ++ ".sdb") = Some ds.
Proof.
  intros H. cbn. destruct (session to_float json_ok fs cwd d1 n2 s b killed) as [[fs1 s1] r] eqn:E. pose proof (c114_others fs cwd d1 n2 s b killed fs1 s1 r E) as [O _]. split.
  - apply O. intros X. apply H. apply (f_equal drop_4) in X. rewrite !drop_4_sdb in X. symmetry. exact X.
  - destruct (written_exists to_float json_ok b) as (l & e & W). destruct (session_spec to_float np_has json_ok fs cwd d1 n2 s b l e killed W) as (f & s' & ds & z & E' & _ & D & _). rewrite E in E'. injection E' as -> _ _. exists ds. exact D.
Qed.
End Theorems.

Lemma prefix_slash n : (forall t, n <> "/" ++ t) -> String.prefix "/" n = false.
Proof.
  intros H. destruct n as [|c n]; [reflexivity|]. cbn [String.prefix]. destruct (ascii_dec "/" c) as [<-|]; [exfalso; exact (H n eq_refl)|reflexivity].
Qed.
Lemma prefix_app t : String.prefix "/" ("/" ++ t) = true.
Proof. cbn. destruct t; reflexivity. Qed.
Lemma join_abs d x : path_join d (String "/" x) = String "/" x.
Proof. unfold path_join. change (String "/" x) with ("/" ++ x) at 1. rewrite prefix_app. reflexivity. Qed.
Lemma ends_not t s : (forall b, s <> b ++ t) -> ends_with t s = false.
Proof. intros H. destruct (ends_with t s) eqn:E; [|reflexivity]. apply ends_with_true in E as [b E]. exfalso. exact (H b E). Qed.
(** Where the files are: in the output directory, which is looked for in the working directory unless it is an absolute
    path. *)
Theorem c114_paths cwd out name : (forall t, name <> "/" ++ t) ->
  ((exists t, out = "/" ++ t) -> (forall b, out <> b ++ "/") -> saver_base cwd out name = out ++ "/" ++ name) /\
  ((exists t, out = "/" ++ t) -> (exists b, out = b ++ "/") -> saver_base cwd out name = out ++ name) /\
  ((forall t, out <> "/" ++ t) -> out <> "" -> cwd <> "" -> (forall b, out <> b ++ "/") -> (forall b, cwd <> b ++ "/") -> saver_base cwd out name = cwd ++ "/" ++ out ++ "/" ++ name).
Proof.
  intros N. unfold saver_base. assert (J : path_join out name = if String.eqb out "" || ends_with "/" out then out ++ name else out ++ "/" ++ name).
  { unfold path_join. rewrite prefix_slash by exact N. reflexivity. }
  split; [|split].
  - intros [t ->] E. rewrite J, (ends_not _ _ E). cbn [orb String.eqb append]. apply join_abs.
  - intros [t ->] [b E]. rewrite J, E, ends_with_app, orb_true_r, <- E. cbn [append]. apply join_abs.
  - intros A O C E E'. rewrite J, (ends_not _ _ E), (proj2 (String.eqb_neq _ _) O). cbn [orb]. unfold path_join. rewrite prefix_slash, (ends_not _ _ E'), (proj2 (String.eqb_neq _ _) C); [reflexivity|].
    destruct out as [|c out]; [congruence|]. intros t X. injection X as -> _. exact (A out eq_refl).
Qed.
Print Assumptions c114_paths.
Print Assumptions c114_default_dir_refuted.
Example c114_paths_case : saver_base "/home/me" "results" "run 1" = "/home/me/results/run 1" /\ saver_base "/home/me" "/data" "run 1" = "/data/run 1".
Proof. split; reflexivity. Qed.

Print Assumptions c114_saved.
Print Assumptions c114_bodies.
Print Assumptions c114_others.
Print Assumptions c114_killed_refuted.
Print Assumptions c114_text_time_refuted.
Print Assumptions c114_missing_refuted.
Print Assumptions c114_names.
Print Assumptions c114_extension_refuted.
Print Assumptions c114_cached.
Print Assumptions c114_moved_refuted.
Print Assumptions c114_old_fields.
Print Assumptions c114_stale_refuted.
Print Assumptions c114_output_dir_refuted.

(** ** Concrete cases *)
From Coq Require Import ZArith.
Definition x_float (b : list nat) (_ : string) : option Z := match b with [x] => Some (Z.of_nat x) | _ => None end.
Definition x_fits (b : list nat) (sh : list nat) (_ : string) : bool := Nat.eqb (List.length b) (fold_right Nat.mul 1 sh).
Definition x_arr : @ndarray (list nat) := NdArray [2; 2] "int8" [5; 6; 7; 8].
Definition x_r1 : list (string * @value Z (list nat)) := [("time", VNum 3%Z); ("p", VArr x_arr); ("q", VStr "on")].
Definition x_bad : list (string * @value Z (list nat)) := [("time", VNum 999%Z); ("p", VArr x_arr)].
Definition x_r2 : list (string * @value Z (list nat)) := [("time", VArr (NdArray [1] "int8" [4])); ("p", VArr (NdArray [3] "int8" [1; 2; 3]))].
Definition x_ok (x : Z) : bool := Z.ltb x 100.
Definition x_fs : @files Z (list nat) := Files (fun _ => None) (fun _ => None).

Lemma x_held r d : stored_record x_float r d -> storable_json x_ok d = true -> held_record x_float x_ok r.
Proof. intros S. apply (held_json x_float x_ok r d S). Qed.
Lemma x_written : written x_float x_ok [(false, x_r1); (true, x_bad); (false, x_r2); (false, x_bad); (false, x_r1)] [x_r1; x_r2] false.
Proof.
  apply written_ok; [|apply written_caught; [|apply written_ok; [|apply written_stop]]].
  - apply (x_held x_r1 [("time", JNum 3%Z); ("p", JStr "**array**#0#(2, 2)#int8"); ("q", JStr "on")]).
    + unfold x_r1. repeat (constructor; [split; [reflexivity|]|]); [constructor|apply (stored_array _ x_arr "**array**#0#(2, 2)#int8"); [left; discriminate|eexists; reflexivity]|constructor|constructor].
    + reflexivity.
  - intros H. inversion H as [|? ? X _]; subst. specialize (X 999%Z (stored_num _ 999%Z)). discriminate.
  - apply (x_held x_r2 [("time", JNum 4%Z); ("p", JStr "**array**#0#(3,)#int8")]).
    + unfold x_r2. repeat (constructor; [split; [reflexivity|]|]); [apply (stored_float _ _ 4%Z); reflexivity|apply (stored_array _ _ "**array**#0#(3,)#int8"); [left; discriminate|eexists; reflexivity]|constructor].
    + reflexivity.
  - intros H. inversion H as [|? ? X _]; subst. specialize (X 999%Z (stored_num _ 999%Z)). discriminate.
Qed.
Lemma x_storable : Forall (Forall (fun kv => storable (fun _ => true) (snd kv))) [x_r1; x_r2].
Proof. repeat constructor. intros [t E]. discriminate. Qed.
Lemma x_sized : Forall (sized x_fits) [x_r1; x_r2].
Proof. constructor; [|constructor; [|constructor]]; (unfold sized; repeat constructor; intros a E; try discriminate; injection E as <-; reflexivity). Qed.
Lemma x_timed : Forall (timed x_float) [x_r1; x_r2].
Proof. constructor; [|constructor; [|constructor]]; intros v E; injection E as <-; [exists 3%Z; constructor|exists 4%Z; apply stored_float; reflexivity]. Qed.
Lemma x_Z x y : Z.eqb x y = true <-> x = y.
Proof. apply Z.eqb_eq. Qed.

(** Two records are accepted, one refused record is caught, the next is not: both records are read, also the array. *)
Example c114_saved_case : exists fs1 s1 rd, session x_float x_ok x_fs "/home" "/data" "run" new_saver [(false, x_r1); (true, x_bad); (false, x_r2); (false, x_bad); (false, x_r1)] false = (fs1, s1, Err TypeError) /\
  open_reader (Z.leb 0) fs1 "/home" "/data/run" = (fs1, Ok rd) /\ (exists v, get_time (fun _ => true) Z.eqb (Z.leb 0) fs1 "/home" rd 3%Z = (fs1, Ok v) /\ reads_back x_float x_fits fs1 "/home" x_r1 v) /\
  (exists ls, search (fun _ => true) fs1 "/home" rd (fun _ => true) = (fs1, Ok ls) /\ List.length ls = 2).
Proof.
  assert (Nf : names_file "/data" "run" "/data/run").
  { right. split; [reflexivity|]. intros b X. assert (Y : ends_with ".sdb" "/data/run" = true) by (rewrite X; apply ends_with_app). discriminate. }
  assert (Nm : "run" <> "") by discriminate.
  destruct (c114_saved x_float (fun _ => true) x_ok x_fits Z.eqb (Z.leb 0) x_Z x_fs "/home" "/data" "run" new_saver _ _ _ "/data/run" Nm Nf x_written x_storable x_sized x_timed) as (fs1 & s1 & rd & E & _ & O & R).
  exists fs1, s1, rd. split; [exact E|]. split; [exact O|]. split.
  - apply (by_time _ _ _ _ _ _ _ _ _ R); [|reflexivity]. exists [], [x_r2]. split; [reflexivity|]. split; [|constructor]. exists (VNum 3%Z). split; [reflexivity|constructor].
  - destruct (by_search _ _ _ _ _ _ _ _ _ R) as (ds & S & Q). destruct (Q (fun _ => true)) as (ls & El & F). exists ls. split; [exact El|]. inversion S as [|? ? ? ? ? S2]; subst. inversion S2 as [|? ? ? ? ? S3]; subst. inversion S3; subst. cbn in F. inversion F as [|? ? ? ? _ F2]; subst. inversion F2 as [|? ? ? ? _ F3]; subst. inversion F3; subst. reflexivity.
Qed.
(** The entries without the writing of x_bad are numbered on: the second array of the archive belongs to the refused record. *)
Example c114_numbers_case : exists fs1 s1 r v, session x_float x_ok x_fs "/home" "/data" "run" new_saver [(true, x_bad); (false, x_r2)] false = (fs1, s1, r) /\ array_number s1 = 2 /\
  snd (search (fun _ => true) fs1 "/home" (Reader "/data/run.sdb" []) (fun _ => true)) = Ok [[("time", SNum 4%Z); ("p", SArr v)]] /\ a_num v = "1" /\ snd (use_array x_fits fs1 "/home" v) = Array (NdArray [3] "int8" [1; 2; 3]).
Proof. do 4 eexists. split; [reflexivity|]. split; [reflexivity|]. split; [vm_compute; reflexivity|]. split; reflexivity. Qed.
Example c114_killed_case : exists fs1 s1 r v, session x_float x_ok x_fs "/home" "/data" "run" new_saver [(false, x_r1)] true = (fs1, s1, r) /\
  snd (search (fun _ => true) fs1 "/home" (Reader "/data/run.sdb" []) (fun _ => true)) = Ok [[("time", SNum 3%Z); ("p", SArr v); ("q", SStr "on")]] /\ snd (use_array x_fits fs1 "/home" v) = NotAZip.
Proof. do 4 eexists. split; [reflexivity|]. split; [vm_compute; reflexivity|]. reflexivity. Qed.
Example c114_text_case : ~ timed x_float [("time", VStr "now")].
Proof. intros H. destruct (H (VStr "now") eq_refl) as [t E]. inversion E. Qed.
Example c114_missing_case : databases x_fs (path_join "/home" (sdb_name "nothing")) = None.
Proof. reflexivity. Qed.
Example c114_stale_case : names_file "/data" "run" "/data/run.sdb" /\ x_fits [1; 2; 3; 4] [2; 2] "int8" = true /\ fold_right Nat.mul 1 [2; 2] <> 1 /\ x_ok 3%Z = true.
Proof. repeat split; try reflexivity; try discriminate. left. reflexivity. Qed.
Example c114_output_dir_case : saver_base "/home" "/a" "run" <> saver_base "/home" "/b" "run".
Proof. discriminate. Qed.
Example c114_moved_case : new_array_reader (fun _ => true) "run.sar" "**array**#0#(2, 2)#int8" = Ok (@ArrayReader (list nat) "run.sar" "0" [2; 2] "int8" None).
Proof. vm_compute. reflexivity. Qed.
