(** Model of the output files: slippy/contact/outputs.py, classes
    [OutputSaver], [OutputReader], [_ArrayReader] and [_array_gen]. *)
From Coq Require Import List String Ascii Bool Arith Decimal DecimalString.
From Verif Require Export Py.
Import ListNotations.
Local Open Scope string_scope.

(** ** Strings *)

(** Python [str(n)] of a non negative int (outputs.py:62, 66). *)
Definition str_nat (n : nat) : string := NilEmpty.string_of_uint (Nat.to_uint n).

(** Python ["sep".join(list)]. *)
Fixpoint join (sep : string) (l : list string) : string :=
  match l with
  | [] => ""
  | [a] => a
  | a :: l' => a ++ sep ++ join sep l'
  end.

(** Python [str(shape)] of a tuple of ints (outputs.py:66): [()], [(n,)],
    [(n, m)], [(n, m, k)] ... *)
Definition str_tuple (l : list nat) : string :=
  match l with
  | [] => "()"
  | [n] => "(" ++ str_nat n ++ ",)"
  | _ => "(" ++ join ", " (map str_nat l) ++ ")"
  end.

(** The marker that outputs.py:66 writes and outputs.py:401 tests for. *)
Definition marker : string := "**array**".

(** The code string for array number [n] (outputs.py:66). *)
Definition array_code (n : nat) (shape : list nat) (dtype : string) : string :=
  marker ++ "#" ++ str_nat n ++ "#" ++ str_tuple shape ++ "#" ++ dtype.

(** Name of the archive entry (outputs.py:62). *)
Definition entry_name (n : nat) : string := "a" ++ str_nat n.

(** [[n for n, v in enumerate(entry_string) if v == '#']] (outputs.py:433). *)
Fixpoint hash_positions (i : nat) (s : string) : list nat :=
  match s with
  | EmptyString => []
  | String c s' =>
      if Ascii.eqb c "#" then i :: hash_positions (S i) s'
      else hash_positions (S i) s'
  end.

(** Python slice [s[i:j]]. *)
Definition slice (i j : nat) (s : string) : string := substring i (j - i) s.

(** [any([s not in '1234567890 ,()' for s in shape])] (outputs.py:436). *)
Definition is_digit (c : ascii) : bool :=
  let k := nat_of_ascii c in Nat.leb 48 k && Nat.leb k 57.
Definition shape_char (c : ascii) : bool :=
  is_digit c || Ascii.eqb c " " || Ascii.eqb c "," || Ascii.eqb c "(" || Ascii.eqb c ")".
Fixpoint all_chars (f : ascii -> bool) (s : string) : bool :=
  match s with EmptyString => true | String c s' => f c && all_chars f s' end.

(** Result of [eval(shape)] (outputs.py:438): a tuple or, for "(4)", an int. *)
Inductive pyshape := PInt (n : nat) | PTuple (l : list nat).

Definition digits_to_nat (s : string) : option nat :=
  match s with
  | EmptyString => None
  | _ => option_map Nat.of_uint (NilEmpty.uint_of_string s)
  end.

(** Python [eval] of a parenthesised tuple literal of non negative ints, after
    the opening parenthesis; [cur] holds the digits read so far and [acc] the
    finished items. Simplification: nested parentheses, a space directly after
    digits and anything after the closing parenthesis are a SyntaxError here
    (Python accepts some of these); [str(shape)] never produces them. *)
Fixpoint eval_items (s cur : string) (acc : list nat) : result pyshape :=
  match s with
  | EmptyString => Err SyntaxError
  | String c s' =>
      if is_digit c then eval_items s' (cur ++ String c EmptyString) acc
      else if Ascii.eqb c "," then
        match digits_to_nat cur with
        | Some n => eval_items s' "" (acc ++ [n])%list
        | None => Err SyntaxError
        end
      else if Ascii.eqb c " " then
        match cur with EmptyString => eval_items s' "" acc | _ => Err SyntaxError end
      else if Ascii.eqb c ")" then
        match s' with
        | EmptyString =>
            match cur with
            | EmptyString => Ok (PTuple acc)
            | _ => match digits_to_nat cur with
                   | Some n => match acc with
                               | [] => Ok (PInt n)
                               | _ => Ok (PTuple (acc ++ [n]))%list
                               end
                   | None => Err SyntaxError
                   end
            end
        | _ => Err SyntaxError
        end
      else Err SyntaxError
  end.

Definition eval_shape (s : string) : result pyshape :=
  match s with
  | String "(" s' => eval_items s' "" []
  | _ => Err SyntaxError
  end.

(** ** Values *)
Section Outputs.
(** [num]: numbers and every other json value that is not a string; json
    storage of these is taken to be exact. [bytes]: array contents. *)
Context {num bytes : Type}.
(** [float(value)] of a one element array, [None] when it raises TypeError
    (outputs.py:56-60; numpy raises it for complex arrays). *)
Variable to_float : bytes -> string -> option num.
(** Is the dtype name an attribute of the numpy module (outputs.py:441)? *)
Variable np_has : string -> bool.

(** A numpy array: shape, dtype name and its C order bytes; [tobytes],
    [frombuffer] and [reshape] (outputs.py:65, 452) are taken to be inverse for
    a fixed dtype and shape. *)
Record ndarray := NdArray { nd_shape : list nat; nd_dtype : string; nd_bytes : bytes }.

Inductive value := VNum (x : num) | VStr (s : string) | VArr (a : ndarray).
(** Json values kept in the database. *)
Inductive json := JNum (x : num) | JStr (s : string).

Definition size (shape : list nat) : nat := fold_right Nat.mul 1 shape.

(** Archive entries, oldest first. Reading a name gives the newest entry of that
    name (zipfile keeps the last one in its name table). *)
Fixpoint zip_read (name : string) (z : list (string * bytes)) : option bytes :=
  match z with
  | [] => None
  | (k, b) :: z' => match zip_read name z' with
                    | Some b' => Some b'
                    | None => if String.eqb k name then Some b else None
                    end
  end.

(** [OutputSaver] (outputs.py:34-39): the two files and the attributes. *)
Record saver := Saver {
  in_context : bool;
  database : list (list (string * json));
  archive : list (string * bytes);
  array_number : nat }.

(** outputs.py:34-39; before the first [__enter__] there are no files. *)
Definition new_saver : saver := Saver false [] [] 0.

(** The body of the loop in [write] for one value (outputs.py:54-68). CUDA
    arrays (line 54-55) are taken to be converted already. *)
Definition clean_value (v : value) (z : list (string * bytes)) (n : nat)
  : json * list (string * bytes) * nat :=
  let v := match v with
           | VArr a => if Nat.eqb (size (nd_shape a)) 1 then
                         match to_float (nd_bytes a) (nd_dtype a) with
                         | Some x => VNum x
                         | None => VArr a
                         end
                       else VArr a
           | _ => v
           end in
  match v with
  | VNum x => (JNum x, z, n)
  | VStr s => (JStr s, z, n)
  | VArr a => (JStr (array_code n (nd_shape a) (nd_dtype a)),
               (z ++ [(entry_name n, nd_bytes a)])%list, S n)
  end.

Fixpoint clean_dict (d : list (string * value)) (z : list (string * bytes)) (n : nat)
  : list (string * json) * list (string * bytes) * nat :=
  match d with
  | [] => ([], z, n)
  | (k, v) :: d' =>
      let '(j, z1, n1) := clean_value v z n in
      let '(js, z2, n2) := clean_dict d' z1 n1 in
      ((k, j) :: js, z2, n2)
  end.

(** [OutputSaver.write] (outputs.py:41-69). *)
Definition write (s : saver) (d : list (string * value)) : saver * result unit :=
  if in_context s then
    let '(js, z, n) := clean_dict d (archive s) (array_number s) in
    (Saver true (database s ++ [js])%list z n, Ok tt)
  else (s, Err ValueError).

(** [__enter__] (outputs.py:71-78): the old database file is removed, the
    archive is opened for writing; the array number is not reset. *)
Definition enter (s : saver) : saver := Saver true [] [] (array_number s).
(** [__exit__] (outputs.py:80-83). *)
Definition exit_ (s : saver) : saver :=
  Saver false (database s) (archive s) (array_number s).

Inductive op := Enter | Exit | Write (d : list (string * value)).
Definition step (s : saver) (o : op) : saver * result unit :=
  match o with
  | Enter => (enter s, Ok tt)
  | Exit => (exit_ s, Ok tt)
  | Write d => write s d
  end.
Definition run (s : saver) (os : list op) : saver :=
  fold_left (fun s o => fst (step s o)) os s.

(** ** Reading back *)

(** [_ArrayReader.__init__] followed by [_fill_array] (outputs.py:431-452):
    the lazy read is done at once. *)
Definition read_array (z : list (string * bytes)) (s : string) : result ndarray :=
  let hashes := hash_positions 0 s in
  match nth_error hashes 0, nth_error hashes 1, nth_error hashes 2 with
  | Some h0, Some h1, Some h2 =>
      let file_num := slice (h0 + 1) h1 s in
      let shape := slice (h1 + 1) h2 s in
      if negb (all_chars shape_char shape) then Err ValueError else
      bind (eval_shape shape) (fun sh =>
      let dtype := slice (h2 + 1) (String.length s) s in
      if negb (np_has dtype) then Err AttributeError else
      match zip_read ("a" ++ file_num) z with
      | Some b => Ok (NdArray (match sh with PInt n => [n] | PTuple l => l end) dtype b)
      | None => Err KeyError
      end)
  | _, _, _ => Err IndexError
  end.

(** [_array_gen] on one value (outputs.py:400-403). *)
Definition read_value (z : list (string * bytes)) (j : json) : result value :=
  match j with
  | JNum x => Ok (VNum x)
  | JStr s => if String.prefix marker s
              then bind (read_array z s) (fun a => Ok (VArr a))
              else Ok (VStr s)
  end.

Fixpoint read_record (z : list (string * bytes)) (js : list (string * json))
  : result (list (string * value)) :=
  match js with
  | [] => Ok []
  | (k, j) :: js' =>
      bind (read_value z j) (fun v =>
      bind (read_record z js') (fun vs => Ok ((k, v) :: vs)))
  end.

(** ** OutputReader *)
Variable num_eqb : num -> num -> bool.
(** [x >= 0]. *)
Variable nonneg : num -> bool.

(** The numeric "time" of a database entry. Simplification: an entry whose time
    is not a number is treated like one without time. *)
Definition entry_time (e : list (string * json)) : option num :=
  match dget "time" e with Some (JNum t) => Some t | _ => None end.

(** [db.search(tinydb.Query().time >= 0)] (outputs.py:317). *)
Definition visible (e : list (string * json)) : bool :=
  match entry_time e with Some t => nonneg t | None => false end.
Definition all_entries (db : list (list (string * json))) := filter visible db.
(** outputs.py:319-322. *)
Definition time_points (db : list (list (string * json))) : list num :=
  flat_map (fun e => match entry_time e with Some t => [t] | None => [] end)
           (all_entries db).
Definition fields (db : list (list (string * json))) : list string :=
  flat_map (map fst) (all_entries db).

Definition mem_num (t : num) (l : list num) : bool := existsb (num_eqb t) l.
Definition mem_str (f : string) (l : list string) : bool := existsb (String.eqb f) l.

(** [d[k] = v] on a dictionary with number keys, keeping the position. *)
Fixpoint nset {V} (k : num) (v : V) (d : list (num * V)) : list (num * V) :=
  match d with
  | [] => [(k, v)]
  | (k', v') :: d' => if num_eqb k k' then (k', v) :: d' else (k', v') :: nset k v d'
  end.
Fixpoint nget {V} (k : num) (d : list (num * V)) : option V :=
  match d with
  | [] => None
  | (k', v) :: d' => if num_eqb k k' then Some v else nget k d'
  end.

Definition time_is (t : num) (e : list (string * json)) : bool :=
  match entry_time e with Some t' => num_eqb t' t | None => false end.

(** The dict comprehension of outputs.py:331. *)
Definition field_dict (f : string) (es : list (list (string * json)))
  : list (num * option json) :=
  fold_left (fun d e => match entry_time e with
                        | Some t => nset t (dget f e) d
                        | None => d
                        end) es [].

(** Result of [__getitem__] (outputs.py:324-334) before [_array_gen]: a record
    for a time point, a dictionary from times for a field. *)
Inductive item :=
  | AtTime (e : list (string * json))
  | OfField (d : list (num * option json)).
Inductive index := ITime (t : num) | IField (f : string).

Definition getitem (db : list (list (string * json))) (i : index) : result item :=
  match i with
  | ITime t =>
      if mem_num t (time_points db) then
        match filter (time_is t) db with
        | e :: _ => Ok (AtTime e)
        | [] => Err IndexError
        end
      else Err IndexError
  | IField f =>
      if mem_str f (fields db) then Ok (OfField (field_dict f (all_entries db)))
      else Err IndexError
  end.

(** [__iter__] (outputs.py:372-376). *)
Definition iter_reader (db : list (list (string * json))) : list (result item) :=
  map (fun t => getitem db (ITime t)) (time_points db).

(** [_array_gen] on the result (outputs.py:334, 400-403): every array code is
    replaced by the array, [None] stays. *)
Inductive ritem :=
  | RAtTime (e : list (string * value))
  | ROfField (d : list (num * option value)).
Fixpoint read_field (z : list (string * bytes)) (d : list (num * option json))
  : result (list (num * option value)) :=
  match d with
  | [] => Ok []
  | (t, None) :: d' => bind (read_field z d') (fun vs => Ok ((t, None) :: vs))
  | (t, Some j) :: d' =>
      bind (read_value z j) (fun v =>
      bind (read_field z d') (fun vs => Ok ((t, Some v) :: vs)))
  end.
Definition read_item (z : list (string * bytes)) (i : item) : result ritem :=
  match i with
  | AtTime e => bind (read_record z e) (fun r => Ok (RAtTime r))
  | OfField d => bind (read_field z d) (fun r => Ok (ROfField r))
  end.
(** [OutputReader.__getitem__] (outputs.py:324-334) on the two files. *)
Definition reader_getitem (z : list (string * bytes)) (db : list (list (string * json)))
    (i : index) : result ritem :=
  bind (getitem db i) (read_item z).

End Outputs.
