(** Model of the result files on disk: where they are written (slippy/contact/models.py:66-85, outputs.py:71-83), what
    is in them when a session ends or the process is killed, and how they are opened, searched and read later
    (outputs.py:312-376, 383-512). The saver, its records and the codes of arrays are those of OutputsModel.
    Simplifications: directories exist, the write of the database file by tinydb is done at once, files have no other
    content, and only one saver has a pair of files open at a time. *)
From Coq Require Import List String Ascii Bool Arith.
From Verif Require Import OutputsModel.
Import ListNotations.
Local Open Scope string_scope.

(** [s.endswith(t)] *)
Definition ends_with (t s : string) : bool :=
  Nat.leb (String.length t) (String.length s) && String.eqb (substring (String.length s - String.length t) (String.length t) s) t.
(** [os.path.join(d, n)] for posix *)
Definition path_join (d n : string) : string :=
  if String.prefix "/" n then n else if String.eqb d "" || ends_with "/" d then d ++ n else d ++ "/" ++ n.
(** [s[:-4]] *)
Definition drop_4 (s : string) : string := substring 0 (String.length s - 4) s.

(** ** The output directory (models.py:74-85) *)
(** It is an attribute of the module, shared by all models. *)
Record model := Model { m_name : string }.
Definition new_model (name : string) (output_dir : option string) (out : string) : model * string :=
  (Model name, match output_dir with Some d => d | None => out end).

Section Results.
Context {num bytes : Type}.
Variable to_float : bytes -> string -> option num.
Variable np_has : string -> bool.
(** What json can hold: it refuses numbers of numpy that are not a float of Python, for example. *)
Variable json_ok : num -> bool.
(** [np.frombuffer(b, dtype).reshape(shape)]: the number of bytes must fit. *)
Variable fits : bytes -> list nat -> string -> bool.
Variable num_eqb : num -> num -> bool.
Variable nonneg : num -> bool.
Local Notation record := (list (string * @value num bytes)).
Local Notation doc := (list (string * @json num)).
Local Notation saver := (@saver num bytes).

(** ** Files *)
(** The table of a zip file is written when it is closed: until then it can't be opened. *)
Inductive zip := Whole (entries : list (string * bytes)) | Unfinished.
Record files := Files { databases : string -> option (list doc); archives : string -> option zip }.
Definition put {A} (k : string) (v : A) (f : string -> option A) : string -> option A := fun x => if String.eqb x k then Some v else f x.

(** ** Saving *)
Definition storable_json (d : doc) : bool := forallb (fun kj => match snd kj with JNum x => json_ok x | JStr _ => true end) d.
(** [OutputSaver.write] (outputs.py:41-69): the arrays are in the archive before the database refuses a value. *)
Definition write_record (s : saver) (r : record) : saver * result unit :=
  if in_context s then
    let '(d, z, n) := clean_dict to_float r (archive s) (array_number s) in
    if storable_json d then (Saver true (database s ++ [d])%list z n, Ok tt) else (Saver true (database s) z n, Err TypeError)
  else (s, Err ValueError).
(** The body of the with statement: records to write, each with whether the caller catches its errors. *)
Fixpoint body_run (s : saver) (b : list (bool * record)) : saver * result unit :=
  match b with
  | [] => (s, Ok tt)
  | (caught, r) :: b' => match write_record s r with
                         | (s', Ok _) => body_run s' b'
                         | (s', Err e) => if caught : bool then body_run s' b' else (s', Err e)
                         end
  end.
(** The file name of a saver without its extension (outputs.py:72, 76), from the working directory. *)
Definition saver_base (cwd out name : string) : string := path_join cwd (path_join out name).
(** A with statement (outputs.py:71-83). With [killed] the process ends after the body, before [__exit__]. *)
Definition session (fs : files) (cwd out name : string) (s : saver) (b : list (bool * record)) (killed : bool) : files * saver * result unit :=
  let '(s', r) := body_run (enter s) b in
  let p := saver_base cwd out name in
  (Files (put (p ++ ".sdb") (database s') (databases fs)) (put (p ++ ".sar") (if killed then Unfinished else Whole (archive s')) (archives fs)),
   exit_ s', r).

(** ** Reading *)
(** [OutputReader.__init__] (outputs.py:312-322): the entries are kept. A missing database is made, empty. *)
Record reader := Reader { r_file : string; r_entries : list doc }.
Definition sdb_name (n : string) : string := if ends_with ".sdb" n then n else n ++ ".sdb".
Definition open_db (fs : files) (p : string) : files * list doc :=
  match databases fs p with
  | Some db => (fs, db)
  | None => (Files (put p [] (databases fs)) (archives fs), [])
  end.
(** A time that is not a number can't be compared with 0. *)
Definition text_time (d : doc) : bool := match dget "time" d with Some (JStr _) => true | _ => false end.
Definition open_reader (fs : files) (cwd name : string) : files * result reader :=
  let '(fs', db) := open_db fs (path_join cwd (sdb_name name)) in
  (fs', if existsb text_time db then Err TypeError else Ok (Reader (sdb_name name) (all_entries nonneg db))).
(** [read_output] (outputs.py:464-512) *)
Definition read_output := open_reader.
Definition r_times (r : reader) : list num := time_points nonneg (r_entries r).
Definition r_fields (r : reader) : list string := fields nonneg (r_entries r).

(** [_ArrayReader] (outputs.py:431-452): made from the code; the file is read when the array is first used. *)
Record array_reader := ArrayReader { a_file : string; a_num : string; a_shape : list nat; a_dtype : string; a_array : option (@ndarray bytes) }.
Definition new_array_reader (file code : string) : result array_reader :=
  let hashes := hash_positions 0 code in
  match nth_error hashes 0, nth_error hashes 1, nth_error hashes 2 with
  | Some h0, Some h1, Some h2 =>
      let shape := slice (h1 + 1) h2 code in
      if negb (all_chars shape_char shape) then Err ValueError else
      bind (eval_shape shape) (fun sh =>
      let dtype := slice (h2 + 1) (String.length code) code in
      if negb (np_has dtype) then Err AttributeError
      else Ok (ArrayReader file (slice (h0 + 1) h1 code) (match sh with PInt n => [n] | PTuple l => l end) dtype None))
  | _, _, _ => Err IndexError
  end.
(** What using the array gives: the array, or why not. *)
Inductive use := Array (a : @ndarray bytes) | NoFile | NotAZip | NoEntry | WrongSize.
Definition use_array (fs : files) (cwd : string) (a : array_reader) : array_reader * use :=
  match a_array a with
  | Some x => (a, Array x)
  | None =>
      match archives fs (path_join cwd (a_file a)) with
      | None => (a, NoFile)
      | Some Unfinished => (a, NotAZip)
      | Some (Whole z) =>
          match zip_read ("a" ++ a_num a) z with
          | None => (a, NoEntry)
          | Some b => if fits b (a_shape a) (a_dtype a)
                      then let x := NdArray (a_shape a) (a_dtype a) b in (ArrayReader (a_file a) (a_num a) (a_shape a) (a_dtype a) (Some x), Array x)
                      else (a, WrongSize)
          end
      end
  end.

(** [_array_gen] (outputs.py:383-403) *)
Inductive shown := SNum (x : num) | SStr (s : string) | SArr (a : array_reader).
Definition show_value (sar : string) (j : @json num) : result shown :=
  match j with
  | JNum x => Ok (SNum x)
  | JStr s => if String.prefix marker s then bind (new_array_reader sar s) (fun a => Ok (SArr a)) else Ok (SStr s)
  end.
Fixpoint show_record (sar : string) (d : doc) : result (list (string * shown)) :=
  match d with
  | [] => Ok []
  | (k, j) :: d' => bind (show_value sar j) (fun v => bind (show_record sar d') (fun l => Ok ((k, v) :: l)))
  end.
Fixpoint show_field (sar : string) (d : list (num * option (@json num))) : result (list (num * option shown)) :=
  match d with
  | [] => Ok []
  | (t, None) :: d' => bind (show_field sar d') (fun l => Ok ((t, None) :: l))
  | (t, Some j) :: d' => bind (show_value sar j) (fun v => bind (show_field sar d') (fun l => Ok ((t, Some v) :: l)))
  end.
Definition r_sar (r : reader) : string := drop_4 (r_file r) ++ ".sar".
(** [__getitem__] (outputs.py:324-334) with a time: the entry is looked up in the file as it is now. *)
Definition get_time (fs : files) (cwd : string) (r : reader) (t : num) : files * result (list (string * shown)) :=
  let '(fs', db) := open_db fs (path_join cwd (r_file r)) in
  (fs', if mem_num num_eqb t (r_times r) then
          match filter (time_is num_eqb t) db with e :: _ => show_record (r_sar r) e | [] => Err IndexError end
        else Err IndexError).
(** With a field: from the entries that were kept. *)
Definition get_field (fs : files) (cwd : string) (r : reader) (f : string) : files * result (list (num * option shown)) :=
  let '(fs', _) := open_db fs (path_join cwd (r_file r)) in
  (fs', if mem_str f (r_fields r) then show_field (r_sar r) (field_dict num_eqb f (r_entries r)) else Err IndexError).
(** [search] (outputs.py:336-370) *)
Fixpoint show_all (sar : string) (ds : list doc) : result (list (list (string * shown))) :=
  match ds with
  | [] => Ok []
  | d :: ds' => bind (show_record sar d) (fun r => bind (show_all sar ds') (fun l => Ok (r :: l)))
  end.
Definition search (fs : files) (cwd : string) (r : reader) (query : doc -> bool) : files * result (list (list (string * shown))) :=
  let '(fs', db) := open_db fs (path_join cwd (r_file r)) in (fs', show_all (r_sar r) (filter query db)).
End Results.
