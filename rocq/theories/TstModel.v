(** Model of the reader of UMT test files, /repo/slippy/surface/read_tst_file.py. *)
From Coq Require Import List Bool ZArith Ascii String.
From Verif Require Import Py FileNumModel.
Import ListNotations.
Local Open Scope Z_scope.

(** ** Text *)
(** Bytes and characters are [ascii]; text is a list of them. Simplification: characters outside ASCII (bytes of
    128 and above, which [decode] reads as UTF-8) are refused like bytes which can't be decoded. *)
Definition text := list ascii.
Definition txt : string -> text := list_ascii_of_string.
Fixpoint text_eqb (a b : text) : bool :=
  match a, b with
  | [], [] => true
  | x :: a, y :: b => Ascii.eqb x y && text_eqb a b
  | _, _ => false
  end.
(** Python's [s.split(c)]: never empty. *)
Fixpoint split (c : ascii) (s : text) : list text :=
  match s with
  | [] => [[]]
  | x :: r => if Ascii.eqb x c then [] :: split c r else match split c r with w :: ws => (x :: w) :: ws | [] => [[x]] end
  end.
(** Python's [s.strip(c)]. *)
Fixpoint lstrip_char (c : ascii) (s : text) : text :=
  match s with
  | [] => []
  | x :: r => if Ascii.eqb x c then lstrip_char c r else s
  end.
Definition strip_char (c : ascii) (s : text) : text := rev (lstrip_char c (rev (lstrip_char c s))).
(** Python's [s.lower()]. *)
Definition lower_char (c : ascii) : ascii :=
  let n := N_of_ascii c in if ((65 <=? n) && (n <=? 90))%N then ascii_of_N (n + 32) else c.
Definition lower (s : text) : text := map lower_char s.

(** ** Files *)
(** What is left to read of a binary file; [file.readline()] and [file.read(n)]. *)
Definition file := text.
Definition newline : ascii := ascii_of_N 10.
Fixpoint readline (f : file) : text * file :=
  match f with
  | [] => ([], [])
  | c :: r => if Ascii.eqb c newline then ([c], r) else let '(l, r') := readline r in (c :: l, r')
  end.
Definition read (n : Z) (f : file) : text * file :=
  if n <? 0 then (f, []) else (firstn (Z.to_nat n) f, skipn (Z.to_nat n) f).

(** ** Results *)
(** [StructError] is [struct.error]; [Unmodelled]: the model doesn't say; [Endless]: more than the given number of
    iterations of a [while] loop. *)
Inductive exc := Py (e : err) | StructError | Unmodelled.
Inductive res (A : Type) := Good (a : A) | Raise (e : exc) | Endless.
Arguments Good {A} a.
Arguments Raise {A} e.
Arguments Endless {A}.
(** A part of the reader: reads some of the file and gives the rest; [n] bounds the iterations of each loop. *)
Definition parser (A : Type) := nat -> file -> res (A * file).
Definition ret {A} (a : A) : parser A := fun _ f => Good (a, f).
Definition fail {A} (e : exc) : parser A := fun _ _ => Raise e.
Definition andthen {A B} (p : parser A) (q : A -> parser B) : parser B := fun n f =>
  match p n f with
  | Good (a, f') => q a n f'
  | Raise e => Raise e
  | Endless => Endless
  end.
Notation "'do' x <- p ; q" := (andthen p (fun x => q)) (at level 200, x pattern, p at level 100, q at level 200).

Section Reader.
(** Floating point numbers: [float(text)], [int(float)], [bool(float)] and [struct.unpack('d', eight bytes)]. *)
Context {F : Type}.
Variable parse_float : text -> option F.
Variable trunc : F -> option Z.
Variable nonzero : F -> bool.
Variable unpack : text -> F.

Inductive val := VNone | VStr (s : text) | VInt (z : Z) | VFloat (x : F).
(** Dictionaries with text or [None] for keys, in insertion order. *)
Definition key := option text.
Definition key_eqb (a b : key) : bool :=
  match a, b with Some a, Some b => text_eqb a b | None, None => true | _, _ => false end.
Fixpoint get {V} (k : key) (d : list (key * V)) : option V :=
  match d with
  | [] => None
  | (k', v) :: d' => if key_eqb k k' then Some v else get k d'
  end.
Fixpoint put {V} (k : key) (v : V) (d : list (key * V)) : list (key * V) :=
  match d with
  | [] => [(k, v)]
  | (k', v') :: d' => if key_eqb k k' then (k', v) :: d' else (k', v') :: put k v d'
  end.
Definition dict := list (key * val).
(** A value of the metadata of the file, which also has the list of channels. *)
Inductive hval := Plain (v : val) | Channels (l : list dict).
Definition hdict := list (key * hval).
(** [d[k]] *)
Definition item {V} (k : string) (d : list (key * V)) : parser V :=
  match get (Some (txt k)) d with Some v => ret v | None => fail (Py KeyError) end.

(** lines 155-180 ([split_line]): number, name and value. [int(number)] in line 179; [None]: the value is refused. *)
Definition checked (number : text) (name : key) (v : option val) : res (Z * key * val) :=
  match v with
  | None => Raise (Py ValueError)
  | Some v => match py_int number with Some n => Good (n, name, v) | None => Raise (Py ValueError) end
  end.
Definition line_fields (line : text) : res (Z * key * val) :=
  if negb (forallb (fun c => (N_of_ascii c <? 128)%N) line) then Raise (Py ValueError) else
  match tl (split "#" line) with
  | [] => Raise (Py ValueError)
  | number :: rest =>
    let rest := List.concat rest in
    let number := strip_char " " number in
    match split "$" rest with
    | name :: value :: _ =>
      let name := strip_char " " name in
      let value := strip_char " " value in
      let name := match strip_char "*" name with [] => None | _ => Some (lower name) end in
      match value with
      | [] => checked number name (Some VNone)
      | _ =>
        if existsb (text_eqb number) [txt "28"; txt "31"] then checked number name (option_map VInt (py_int value))
        else if existsb (text_eqb number) [txt "33"; txt "37"; txt "38"] then checked number name (option_map VFloat (parse_float value))
        else checked number name (Some (VStr value))
      end
    | _ => Raise (Py ValueError)
    end
  end.
Definition split_line : parser (Z * key * val) := fun _ f =>
  let '(line, f') := readline f in
  match line_fields line with Good x => Good (x, f') | Raise e => Raise e | Endless => Endless end.

(** lines 85-89, 112-122: lines are added to the metadata until one with stars. *)
Fixpoint entries_loop (fuel : nat) (d : dict) : parser dict := fun n f =>
  match fuel with
  | O => Endless
  | S fuel' => (do (_, name, value) <- split_line;
      match name with None => ret d | Some _ => entries_loop fuel' (put name value d) end) n f
  end.
Definition entries (d : dict) : parser dict := fun n => entries_loop n d n.

(** lines 146-152 ([read_channel]). *)
Fixpoint channel_loop (fuel : nat) (d : dict) : parser dict := fun n f =>
  match fuel with
  | O => Endless
  | S fuel' => (do (_, name, value) <- split_line;
      let d := put name value d in
      if key_eqb name (Some (txt "type")) then ret d else channel_loop fuel' d) n f
  end.
Definition read_channel : parser dict := fun n => channel_loop n [] n.

(** [[p for i in range(k)]] *)
Fixpoint repeat_p {A} (k : nat) (p : parser A) : parser (list A) :=
  match k with
  | O => ret []
  | S k' => do x <- p; do xs <- repeat_p k' p; ret (x :: xs)
  end.
(** [range(value)]: how often. *)
Definition times_of (v : val) : parser nat :=
  match v with VInt z => ret (Z.to_nat z) | _ => fail (Py TypeError) end.
Definition times_of_h (v : hval) : parser nat :=
  match v with Plain v => times_of v | Channels _ => fail (Py TypeError) end.

(** lines 50-63: the metadata of the file. *)
Fixpoint header_loop (fuel : nat) (d : hdict) : parser hdict := fun n f =>
  match fuel with
  | O => Endless
  | S fuel' => (do (_, name, value) <- split_line;
      match name with
      | None => ret d
      | Some _ =>
        let d := put name (Plain value) d in
        if key_eqb name (Some (txt "channelsarray")) then
          do k <- times_of value; do channels <- repeat_p k read_channel;
          header_loop fuel' (put (Some (txt "channels")) (Channels channels) d)
        else header_loop fuel' d
      end) n f
  end.

(** lines 132-143 ([read_data]). [file.read(chan_len)]: without a number everything is read. Simplification: channels
    whose name is a number are left out. *)
Definition read_value (chan_len : val) : parser F := fun _ f =>
  let got (rf : text * file) := let '(r, f') := rf in if Nat.eqb (List.length r) 8 then Good (unpack r, f') else Raise StructError in
  match chan_len with
  | VInt z => got (read z f)
  | VNone => got (f, [])
  | _ => Raise (Py TypeError)
  end.
Definition data := list (key * list F).
Definition append (k : key) (x : F) (d : data) : data :=
  map (fun kv => if key_eqb k (fst kv) then (fst kv, snd kv ++ [x]) else kv) d.
Fixpoint read_sample (channels : list (key * val)) (d : data) : parser data :=
  match channels with
  | [] => ret d
  | (name, chan_len) :: r => do x <- read_value chan_len; read_sample r (append name x d)
  end.
Definition skip (k : Z) : parser unit := fun _ f => Good (tt, snd (read k f)).
Fixpoint read_samples (k : nat) (channels : list (key * val)) (d : data) : parser data :=
  match k with
  | O => ret d
  | S k' => do d <- read_sample channels d; do _ <- skip 1; read_samples k' channels d
  end.
Fixpoint all_items {V} (k : string) (l : list (list (key * V))) : parser (list V) :=
  match l with
  | [] => ret []
  | d :: r => do v <- item k d; do vs <- all_items k r; ret (v :: vs)
  end.
Fixpoint keys_of (l : list val) : parser (list key) :=
  match l with
  | [] => ret []
  | VStr s :: r => do ks <- keys_of r; ret (Some s :: ks)
  | VNone :: r => do ks <- keys_of r; ret (None :: ks)
  | _ => fail Unmodelled
  end.
(** [int(samples)] *)
Definition int_of (v : val) : parser Z :=
  match v with
  | VInt z => ret z
  | VStr s => match py_int s with Some z => ret z | None => fail (Py ValueError) end
  | VFloat x => match trunc x with Some z => ret z | None => fail (Py ValueError) end
  | VNone => fail (Py TypeError)
  end.
Definition read_data (file_metadata : hdict) (step_metadata : dict) : parser data :=
  do channels <- item "channels" file_metadata;
  do samples <- item "samples" step_metadata;
  match channels with
  | Channels channels =>
    do chan_lens <- all_items "lengthinbytes" channels;
    do chan_names <- all_items "name" channels;
    do names <- keys_of chan_names;
    do k <- int_of samples;
    read_samples (Z.to_nat k) (combine names chan_lens) (fold_left (fun d name => put name [] d) names [])
  | Plain _ => fail (Py TypeError)
  end.

(** lines 104-129 ([read_step]). *)
Definition truth (v : val) : bool :=
  match v with VNone => false | VStr s => match s with [] => false | _ => true end | VInt z => negb (z =? 0) | VFloat x => nonzero x end.
Record step := { step_metadata : dict; step_data : option data }.
Definition read_step (file_metadata : hdict) : parser step :=
  do (_, name, value) <- split_line;
  do (name, value) <- (match name with None => do (_, name, value) <- split_line; ret (name, value) | Some _ => ret (name, value) end);
  if negb (key_eqb name (Some (txt "test"))) then fail (Py ValueError) else
  do metadata <- entries [(name, value)];
  do metadata <- entries metadata;
  do samples <- item "samples" metadata;
  if truth samples then do d <- read_data file_metadata metadata; ret {| step_metadata := metadata; step_data := Some d |}
  else ret {| step_metadata := metadata; step_data := None |}.

(** lines 74-101 ([read_run]). *)
Record run := { run_metadata : dict; run_steps : list step }.
Definition skip_line : parser unit := fun _ f => Good (tt, snd (readline f)).
Definition read_run (file_metadata : hdict) : parser run :=
  do (_, name, value) <- split_line;
  if negb (key_eqb name (Some (txt "run"))) then fail (Py ValueError) else
  do _ <- skip_line;
  do metadata <- entries [(name, value)];
  do n_steps <- item "steps" file_metadata;
  do k <- times_of_h n_steps;
  do steps <- repeat_p k (read_step file_metadata);
  ret {| run_metadata := metadata; run_steps := steps |}.

(** lines 6-71 ([read_tst_file]): the file is given by its bytes. *)
Record contents := { metadata : hdict; runs : list run }.
Definition read_all : parser contents :=
  do metadata <- (fun n => header_loop n [] n);
  do n_runs <- item "runs" metadata;
  do k <- times_of_h n_runs;
  do runs <- repeat_p k (read_run metadata);
  ret {| metadata := metadata; runs := runs |}.
Definition read_tst_file (f : file) : res contents :=
  match read_all (S (List.length f)) f with
  | Good (c, _) => Good c
  | Raise e => Raise e
  | Endless => Endless
  end.
End Reader.
