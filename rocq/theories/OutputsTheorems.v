(** Theorems for C01 to C04 (output files). *)
From Coq Require Import List String Bool Arith.
From Verif Require Import OutputsModel OutputsSpec OutputsProofs.
Import ListNotations.
Local Open Scope string_scope.

(** C01. For every earlier history of the saver, and every list of records with
    storable values written after entering the context, every stored record reads
    back as expected, in order. *)
Theorem c01_round_trip :
  forall (num bytes : Type) (to_float : bytes -> string -> option num) (np_has : string -> bool)
         (hist : list (@op num bytes)) (rs : list (list (string * @value num bytes))),
  Forall (Forall (fun kv => storable np_has (snd kv))) rs ->
  let s := run to_float new_saver (hist ++ Enter :: map Write rs)%list in
  Forall2 (fun d js => exists d', record_reads_as to_float d d' /\
             read_record np_has (archive s) js = Ok d') rs (database s).
Proof. exact @round_trip. Qed.
Print Assumptions c01_round_trip.

(** C01 through [OutputReader]: indexing by the time of a record gives it back. *)
Theorem c01_reader_round_trip :
  forall (num bytes : Type) (to_float : bytes -> string -> option num) (np_has : string -> bool)
         (num_eqb : num -> num -> bool) (nonneg : num -> bool),
  (forall x y, num_eqb x y = true <-> x = y) ->
  forall (hist : list (@op num bytes)) (rs : list (list (string * @value num bytes))) (times : list num),
  Forall (Forall (fun kv => storable np_has (snd kv))) rs ->
  Forall2 (fun r t => dget "time" r = Some (VNum t) /\ nonneg t = true) rs times ->
  NoDup times ->
  let s := run to_float new_saver (hist ++ Enter :: map Write rs)%list in
  forall i r t, nth_error rs i = Some r -> nth_error times i = Some t ->
  exists r', record_reads_as to_float r r' /\
    reader_getitem np_has num_eqb nonneg (archive s) (database s) (ITime t) = Ok (RAtTime r').
Proof. exact @reader_round_trip. Qed.
Print Assumptions c01_reader_round_trip.

(** The hypothesis on strings is needed: a plain string with the reserved start
    cannot be read back. *)
Theorem c01_reserved_string_refuted :
  exists (r : list (string * @value nat nat)),
  let s := run (fun _ _ => None) new_saver [Enter; Write r] in
  exists js, database s = [js] /\
    forall np_has d', read_record np_has (archive s) js <> Ok d'.
Proof.
  exists [("a", VStr "**array** of points")]. cbn. eexists. split; [reflexivity|].
  intros np_has d'. cbn. discriminate.
Qed.
Print Assumptions c01_reserved_string_refuted.

(** The hypothesis on dtype names is needed. *)
Theorem c01_unknown_dtype_refuted :
  exists (r : list (string * @value nat nat)) (np_has : string -> bool),
  let s := run (fun _ _ => None) new_saver [Enter; Write r] in
  exists js, database s = [js] /\ read_record np_has (archive s) js = Err AttributeError.
Proof.
  exists [("a", VArr (NdArray [4] ">f8" 0))], (fun d => String.eqb d "float64").
  cbn. eexists. split; reflexivity.
Qed.
Print Assumptions c01_unknown_dtype_refuted.

(** Non vacuity: a history with an earlier session, two records, several array
    shapes (zero, one, three dimensions) and a dtype containing a hash. *)
Example c01_nonvacuous :
  let rs := [[("time", VNum 0); ("a", VArr (NdArray [] "float64" 7)); ("b", VArr (NdArray [12] "int32" 8))];
             [("time", VNum 1); ("c", VArr (NdArray [3;10;2] "x#y" 9)); ("s", VStr "plain")]] in
  Forall (Forall (fun kv => storable (fun _ => true) (snd kv))) rs /\
  let s := run (fun b _ => Some (b + 1)) new_saver
             ([Enter; Write [("time", VNum 5); ("z", VArr (NdArray [2] "f" 3))]; Exit] ++ Enter :: map Write rs) in
  map (read_record (fun _ => true) (archive s)) (database s) =
    [Ok [("time", VNum 0); ("a", VNum 8); ("b", VArr (NdArray [12] "int32" 8))];
     Ok [("time", VNum 1); ("c", VArr (NdArray [3;10;2] "x#y" 9)); ("s", VStr "plain")]].
Proof.
  cbv zeta. split.
  - repeat constructor. cbn. intros [t H]. discriminate.
  - vm_compute. reflexivity.
Qed.

(** C02. After any history of operations all archive entry names differ, and a
    successful write adds exactly one entry for each array it does not turn
    into a float. *)
Theorem c02_archive_names_distinct :
  forall (num bytes : Type) (to_float : bytes -> string -> option num) (os : list (@op num bytes)),
  NoDup (map fst (archive (run to_float new_saver os))).
Proof. exact (fun num bytes to_float => @names_distinct num bytes to_float (fun _ => true)). Qed.
Print Assumptions c02_archive_names_distinct.

Theorem c02_one_entry_per_array :
  forall (num bytes : Type) (to_float : bytes -> string -> option num)
         (d : list (string * @value num bytes)) z n js z' n',
  clean_dict to_float d z n = (js, z', n') ->
  List.length z' = List.length z + List.length (filter (fun kv => stored_array to_float (snd kv)) d).
Proof. exact @clean_dict_count. Qed.
Print Assumptions c02_one_entry_per_array.

Example c02_nonvacuous :
  List.length (archive (run (fun b (_ : string) => Some b) (@new_saver nat nat)
    [Write []; Enter; Write [("a", VArr (NdArray [2] "f" 0)); ("b", VArr (NdArray [3] "f" 1))];
     Exit; Write [("a", VArr (NdArray [2] "f" 0))]; Enter;
     Write [("a", VArr (NdArray [2] "f" 0)); ("b", VArr (NdArray [1] "f" 1))];
     Write [("a", VArr (NdArray [2] "f" 0))]])) = 2.
Proof. reflexivity. Qed.

(** C03. The saver is in its context exactly when the last [Enter] or [Exit] of
    the history is an [Enter]; a write outside raises and changes nothing, a write
    inside succeeds and adds one record. *)
Theorem c03_write_context :
  forall (num bytes : Type) (to_float : bytes -> string -> option num)
         (os : list (@op num bytes)) (d : list (string * @value num bytes)),
  let s := run to_float new_saver os in
  let inside := fold_left (fun b o => match o with Enter => true | Exit => false | Write _ => b end) os false in
  (inside = false -> step to_float s (Write d) = (s, Err ValueError)) /\
  (inside = true -> snd (step to_float s (Write d)) = Ok tt /\
     List.length (database (fst (step to_float s (Write d)))) = S (List.length (database s))).
Proof.
  intros num bytes to_float os d s inside.
  assert (E : in_context s = inside) by exact (context_run to_float os new_saver).
  split; intros H; rewrite H in E.
  - exact (write_outside to_float s d E).
  - exact (write_inside to_float s d E).
Qed.
Print Assumptions c03_write_context.

Example c03_nonvacuous :
  fst (step (fun b (_ : string) => Some b) (run (fun b _ => Some b) (@new_saver nat nat) [Enter; Write []; Exit]) (Write []))
  = Saver false [[]] [] 0.
Proof. reflexivity. Qed.

(** C04. For every database: the time index is the first record of this time. *)
Theorem c04_time_index :
  forall (num : Type) (num_eqb : num -> num -> bool) (nonneg : num -> bool),
  (forall x y, num_eqb x y = true <-> x = y) ->
  forall db t e,
  getitem num_eqb nonneg db (ITime t) = Ok (AtTime e) <-> first_with_time t db e /\ nonneg t = true.
Proof. exact @time_index. Qed.
Print Assumptions c04_time_index.

(** The field index maps each recorded time to the value in the last record of
    this time ([None] when this record lacks the field). *)
Theorem c04_field_index :
  forall (num : Type) (num_eqb : num -> num -> bool) (nonneg : num -> bool),
  (forall x y, num_eqb x y = true <-> x = y) ->
  forall db f,
  (exists e t, In e db /\ has_time t e /\ nonneg t = true /\ In f (map fst e)) ->
  exists d, getitem num_eqb nonneg db (IField f) = Ok (OfField d) /\
  forall t v, nget num_eqb t d = Some v <->
    exists e, last_with_time t db e /\ nonneg t = true /\ v = dget f e.
Proof. exact @field_index. Qed.
Print Assumptions c04_field_index.

(** Unknown times and unknown fields raise [IndexError]. *)
Theorem c04_unknown_time :
  forall (num : Type) (num_eqb : num -> num -> bool) (nonneg : num -> bool),
  (forall x y, num_eqb x y = true <-> x = y) ->
  forall db t, (forall e, In e db -> has_time t e -> nonneg t = false) ->
  getitem num_eqb nonneg db (ITime t) = Err IndexError.
Proof. exact @time_unknown. Qed.
Print Assumptions c04_unknown_time.
Theorem c04_unknown_field :
  forall (num : Type) (num_eqb : num -> num -> bool) (nonneg : num -> bool) db f,
  ~ (exists e t, In e db /\ has_time t e /\ nonneg t = true /\ In f (map fst e)) ->
  getitem num_eqb nonneg db (IField f) = Err IndexError.
Proof. exact @field_unknown. Qed.
Print Assumptions c04_unknown_field.

(** With distinct times [output[t][f]] and [output[f][t]] agree, arrays included. *)
Theorem c04_time_field_agree :
  forall (num bytes : Type) (np_has : string -> bool) (num_eqb : num -> num -> bool) (nonneg : num -> bool),
  (forall x y, num_eqb x y = true <-> x = y) ->
  forall (z : list (string * bytes)) db t f r d,
  distinct_times db ->
  reader_getitem np_has num_eqb nonneg z db (ITime t) = Ok (RAtTime r) ->
  reader_getitem np_has num_eqb nonneg z db (IField f) = Ok (ROfField d) ->
  nget num_eqb t d = Some (dget f r).
Proof. exact @time_field_agree. Qed.
Print Assumptions c04_time_field_agree.

(** Iteration yields the records in order. *)
Theorem c04_iteration :
  forall (num : Type) (num_eqb : num -> num -> bool) (nonneg : num -> bool),
  (forall x y, num_eqb x y = true <-> x = y) ->
  forall db, distinct_times db ->
  Forall (fun e => exists t, has_time t e /\ nonneg t = true) db ->
  iter_reader num_eqb nonneg db = map (fun e => Ok (AtTime e)) db.
Proof. exact @iter_all. Qed.
Print Assumptions c04_iteration.

(** With a repeated time the two orders of indexing disagree. *)
Theorem c04_duplicate_times_refuted :
  exists (db : list (list (string * @json nat))) t f r d,
  getitem Nat.eqb (fun _ => true) db (ITime t) = Ok (AtTime r) /\
  getitem Nat.eqb (fun _ => true) db (IField f) = Ok (OfField d) /\
  nget Nat.eqb t d <> Some (dget f r).
Proof.
  exists [[("time", JNum 1); ("a", JNum 5)]; [("time", JNum 1); ("a", JNum 6)]], 1, "a".
  eexists. eexists. split; [reflexivity|]. split; [reflexivity|]. cbn. discriminate.
Qed.
Print Assumptions c04_duplicate_times_refuted.

Example c04_nonvacuous :
  let db := [[("time", JNum 0); ("a", JNum 5)]; [("time", JNum 2); ("b", JStr "**array**#0#(2, 3)#int32")]] in
  distinct_times db /\
  reader_getitem (fun _ => true) Nat.eqb (fun _ => true) [("a0", 77)] db (ITime 2) =
    Ok (RAtTime [("time", VNum 2); ("b", VArr (NdArray [2;3] "int32" 77))]) /\
  reader_getitem (fun _ => true) Nat.eqb (fun _ => true) [("a0", 77)] db (IField "b") =
    Ok (ROfField [(0, None); (2, Some (VArr (NdArray [2;3] "int32" 77)))]).
Proof.
  cbv zeta. split; [|split; reflexivity].
  intros [|[|i]] [|[|j]] e e' t Hi Hj Ti Tj; cbn in Hi, Hj; try reflexivity;
    try (destruct i; discriminate); try (destruct j; discriminate);
    injection Hi as <-; injection Hj as <-; cbv in Ti, Tj; congruence.
Qed.
