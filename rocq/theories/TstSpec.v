(** What a UMT test file is: how its lines and its parts are written, without reference to the reader. *)
From Coq Require Import List Bool ZArith Ascii String.
From Verif Require Import FileNumModel TstModel.
Import ListNotations.
Local Open Scope Z_scope.

(** The letters. *)
Definition capitals : text := txt "ABCDEFGHIJKLMNOPQRSTUVWXYZ".
Definition smalls : text := txt "abcdefghijklmnopqrstuvwxyz".

Section Spec.
Context {F : Type}.
Variable parse_float : text -> option F.
Variable trunc : F -> option Z.
Variable nonzero : F -> bool.
Variable unpack : text -> F.
Notation val := (@val F).

(** ** Lines *)
Definition is_ascii (c : ascii) : Prop := (N_of_ascii c < 128)%N.
Definition spaces (s : text) : Prop := Forall (eq " "%char) s.
(** Text that can stand in a field: it has no separators, and no spaces at the ends. *)
Definition field_char (c : ascii) : Prop := is_ascii c /\ c <> "#"%char /\ c <> "$"%char /\ c <> newline.
Definition is_field (t : text) : Prop := Forall field_char t /\ hd_error t <> Some " "%char /\ hd_error (rev t) <> Some " "%char.
Definition stars (t : text) : Prop := Forall (eq "*"%char) t.
(** [# number # name $ value $ ...]: a line with a number, a name and a value. *)
Definition is_line (l : text) (number : Z) (name value : text) : Prop :=
  exists a b c d e g eol, spaces a /\ spaces b /\ spaces c /\ spaces d /\ spaces e /\ spaces g /\
    Forall (fun x => is_ascii x /\ x <> newline) eol /\ 0 <= number /\ is_field name /\ is_field value /\
    l = ["#"%char] ++ a ++ py_str number ++ b ++ ["#"%char] ++ c ++ name ++ d ++ ["$"%char] ++ e ++ value ++ g ++ ["$"%char] ++ eol ++ [newline].
(** What a value stands for depends on the number of the line: 28 and 31 for counts, 33, 37 and 38 for floating point
    numbers. *)
Definition means (number : Z) (t : text) (v : val) : Prop :=
  match t with
  | [] => v = VNone
  | _ =>
    number = 28 \/ number = 31 -> exists z, 0 <= z /\ t = py_str z /\ v = VInt z
  end /\
  (t <> [] -> number = 33 \/ number = 37 \/ number = 38 -> exists x, parse_float t = Some x /\ v = VFloat x) /\
  (t <> [] -> ~ In number [28; 31; 33; 37; 38] -> v = VStr t).
(** A line with a name, in lower case, and a value; a line of stars. *)
Definition entry_line (l : text) (kv : text * val) : Prop :=
  exists number name t, is_line l number name t /\ ~ stars name /\ fst kv = lower name /\ means number t (snd kv).
Definition star_line (l : text) : Prop := exists number name t v, is_line l number name t /\ stars name /\ means number t v.
Definition entry_lines (b : text) (kvs : list (text * val)) : Prop := exists ls, Forall2 entry_line ls kvs /\ b = List.concat ls.
Definition block (b : text) (kvs : list (text * val)) : Prop := exists ls s, entry_lines ls kvs /\ star_line s /\ b = ls ++ s.

(** ** Files *)
Definition named (k : string) (kv : text * val) : Prop := fst kv = txt k.
(** The value of the last line with a name. *)
Definition last_value (k : text) (kvs : list (text * val)) : option val :=
  fold_left (fun o kv => if text_eqb (fst kv) k then Some (snd kv) else o) kvs None.
Record a_step := { s_test : val; s_first : list (text * val); s_second : list (text * val); s_samples : list (list text) }.
Record a_run := { r_run : val; r_meta : list (text * val); r_steps : list a_step }.
Record a_file := { f_before : list (text * val); f_channels : list (list (text * val)); f_after : list (text * val); f_runs : list a_run }.
Definition s_all (s : a_step) : list (text * val) := (txt "test", s_test s) :: s_first s ++ s_second s.
Definition r_all (r : a_run) : list (text * val) := (txt "run", r_run r) :: r_meta r.
Definition f_all (f : a_file) : list (text * val) :=
  f_before f ++ (txt "channelsarray", VInt (Z.of_nat (List.length (f_channels f)))) :: f_after f.

(** A channel ends with its type. *)
Definition channel_text (b : text) (kvs : list (text * val)) : Prop :=
  entry_lines b kvs /\ exists kvs' v, kvs = kvs' ++ [(txt "type", v)] /\ Forall (fun kv => ~ named "type" kv) kvs'.
(** A sample: eight bytes for each channel, and one byte. *)
Definition sample_text (b : text) (row : list text) : Prop := exists c, b = List.concat row ++ [c].
Definition all_text {X} (part : text -> X -> Prop) (b : text) (xs : list X) : Prop := exists bs, Forall2 part bs xs /\ b = List.concat bs.
Definition step_text (b : text) (s : a_step) : Prop := exists b0 b1 b2 b3 b4,
  (b0 = [] \/ star_line b0) /\ entry_line b1 (txt "test", s_test s) /\ block b2 (s_first s) /\ block b3 (s_second s) /\
  all_text sample_text b4 (s_samples s) /\ b = b0 ++ b1 ++ b2 ++ b3 ++ b4.
Definition run_text (b : text) (r : a_run) : Prop := exists b1 b2 b3 b4,
  entry_line b1 (txt "run", r_run r) /\ ~ In newline b2 /\ block b3 (r_meta r) /\ all_text step_text b4 (r_steps r) /\
  b = b1 ++ b2 ++ [newline] ++ b3 ++ b4.
Definition file_text (b : text) (f : a_file) : Prop := exists b1 b2 b3 b4 b5,
  entry_lines b1 (f_before f) /\ entry_line b2 (txt "channelsarray", VInt (Z.of_nat (List.length (f_channels f)))) /\
  all_text channel_text b3 (f_channels f) /\ block b4 (f_after f) /\ all_text run_text b5 (f_runs f) /\
  b = b1 ++ b2 ++ b3 ++ b4 ++ b5.

(** The counts in the file are right, and the channels are doubles with different names. *)
Definition counts (v : val) (k : nat) : Prop :=
  match v with
  | VNone => k = O
  | VInt z => z = Z.of_nat k
  | VFloat x => trunc x = Some (Z.of_nat k) /\ (nonzero x = false -> k = O)
  | VStr t => t = py_str (Z.of_nat k)
  end.
Definition step_right (channels : nat) (s : a_step) : Prop :=
  (exists v, last_value (txt "samples") (s_all s) = Some v /\ counts v (List.length (s_samples s))) /\
  Forall (fun row => List.length row = channels /\ Forall (fun x => List.length x = 8%nat) row) (s_samples s).
Definition file_right (names : list text) (f : a_file) : Prop :=
  Forall (fun kv => ~ named "channelsarray" kv /\ ~ named "channels" kv) (f_before f ++ f_after f) /\
  last_value (txt "runs") (f_all f) = Some (VInt (Z.of_nat (List.length (f_runs f)))) /\
  Forall (fun r => last_value (txt "steps") (f_all f) = Some (VInt (Z.of_nat (List.length (r_steps r)))) /\
                   Forall (step_right (List.length (f_channels f))) (r_steps r)) (f_runs f) /\
  Forall2 (fun name kvs => last_value (txt "name") kvs = Some (VStr name) /\ last_value (txt "lengthinbytes") kvs = Some (VInt 8)) names (f_channels f) /\
  NoDup names.

(** ** What should be read *)
Definition same_entries {V} (kvs : list (text * val)) (wrap : val -> V) (d : list (key * V)) : Prop :=
  forall k, get (Some k) d = option_map wrap (last_value k kvs).
Definition right_data (names : list text) (rows : list (list text)) (d : option (@data F)) : Prop :=
  match d with
  | None => rows = []
  | Some d => forall j name, nth_error names j = Some name -> get (Some name) d = Some (map (fun row => unpack (nth j row [])) rows)
  end.
Definition right_step (names : list text) (s : a_step) (st : @step F) : Prop :=
  same_entries (s_all s) (fun v => v) (step_metadata st) /\ right_data names (s_samples s) (step_data st).
Definition right_run (names : list text) (r : a_run) (rn : @run F) : Prop :=
  same_entries (r_all r) (fun v => v) (run_metadata rn) /\ Forall2 (right_step names) (r_steps r) (run_steps rn).
Definition right_file (names : list text) (f : a_file) (c : @contents F) : Prop :=
  (forall k, k <> txt "channels" -> get (Some k) (metadata c) = option_map Plain (last_value k (f_all f))) /\
  (exists ds, get (Some (txt "channels")) (metadata c) = Some (Channels ds) /\ Forall2 (fun kvs d => same_entries kvs (fun v => v) d) (f_channels f) ds) /\
  Forall2 (right_run names) (f_runs f) (runs c).
End Spec.
