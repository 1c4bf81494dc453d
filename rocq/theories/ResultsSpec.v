(** Words used in the statements about result files. *)
From Coq Require Import List String Bool.
From Verif Require Import OutputsModel OutputsSpec ResultsModel.
Import ListNotations.
Local Open Scope string_scope.

Section Spec.
Context {num bytes : Type}.
Variable to_float : bytes -> string -> option num.
Variable json_ok : num -> bool.
Variable fits : bytes -> list nat -> string -> bool.
Local Notation value := (@value num bytes).
Local Notation record := (list (string * value)).
Local Notation doc := (list (string * @json num)).

(** What the database holds for a value: numbers and text as they are, arrays with one element as a number if they can
    be one, other arrays as a code. *)
Inductive stored : value -> @json num -> Prop :=
| stored_num x : stored (VNum x) (JNum x)
| stored_str s : stored (VStr s) (JStr s)
| stored_float a x : fold_right Nat.mul 1 (nd_shape a) = 1 -> to_float (nd_bytes a) (nd_dtype a) = Some x -> stored (VArr a) (JNum x)
| stored_array a c : (fold_right Nat.mul 1 (nd_shape a) <> 1 \/ to_float (nd_bytes a) (nd_dtype a) = None) -> starts_with "**array**" c -> stored (VArr a) (JStr c).
Definition stored_record (r : record) (d : doc) : Prop := Forall2 (fun kv kj => fst kv = fst kj /\ stored (snd kv) (snd kj)) r d.
(** json can hold the record. *)
Definition held (v : value) : Prop := forall x, stored v (JNum x) -> json_ok x = true.
Definition held_record (r : record) : Prop := Forall (fun kv => held (snd kv)) r.
(** The records that are in the database after a body: those json can hold, up to an error that is not caught. *)
Inductive written : list (bool * record) -> list record -> bool -> Prop :=
| written_none : written [] [] true
| written_ok c r b l e : held_record r -> written b l e -> written ((c, r) :: b) (r :: l) e
| written_caught r b l e : ~ held_record r -> written b l e -> written ((true, r) :: b) l e
| written_stop r b : ~ held_record r -> written ((false, r) :: b) [] false.

(** The time of a record, the first and the last record at a time. *)
Definition at_time (t : num) (r : record) : Prop := exists v, dget "time" r = Some v /\ stored v (JNum t).
Definition first_at (t : num) (l : list record) (r : record) : Prop := exists pre post, l = (pre ++ r :: post)%list /\ at_time t r /\ Forall (fun q => ~ at_time t q) pre.
Definition last_at (t : num) (l : list record) (r : record) : Prop := exists pre post, l = (pre ++ r :: post)%list /\ at_time t r /\ Forall (fun q => ~ at_time t q) post.
(** The time, if there is one, is a number. *)
Definition timed (r : record) : Prop := forall v, dget "time" r = Some v -> exists t, stored v (JNum t).
(** The names by which the files of a model are opened: the path of its output directory, with the name of the model,
    with or without the extension. *)
Definition names_file (out name n : string) : Prop :=
  n = path_join out name ++ ".sdb" \/ n = path_join out name /\ (forall b, n <> b ++ ".sdb").

(** What a user sees of what they get from a reader. *)
Inductive seen (fs : @files num bytes) (cwd : string) : @shown num bytes -> value -> Prop :=
| seen_num x : seen fs cwd (SNum x) (VNum x)
| seen_str s : seen fs cwd (SStr s) (VStr s)
| seen_array a x : snd (@use_array num bytes fits fs cwd a) = Array x -> seen fs cwd (SArr a) (VArr x).
Definition seen_record (fs : @files num bytes) (cwd : string) (l : list (string * shown)) (d : record) : Prop :=
  Forall2 (fun kv kw => fst kv = fst kw /\ seen fs cwd (snd kv) (snd kw)) l d.
(** A record reads back: with arrays of one element as numbers. *)
Definition reads_back (fs : @files num bytes) (cwd : string) (r : record) (l : list (string * shown)) : Prop :=
  exists d, record_reads_as to_float r d /\ seen_record fs cwd l d.
(** Arrays have the number of bytes for their shape. *)
Definition sized (r : record) : Prop := Forall (fun kv => forall a, snd kv = VArr a -> fits (nd_bytes a) (nd_shape a) (nd_dtype a) = true) r.
(** As [reads_back] without the arrays, which fail in one way. *)
Definition reads_back_without (why : @use bytes) (fs : @files num bytes) (cwd : string) (r : record) (l : list (string * shown)) : Prop :=
  exists d, record_reads_as to_float r d /\
    Forall2 (fun kv kw => fst kv = fst kw /\
      match snd kw with VArr _ => exists a, snd kv = SArr a /\ snd (@use_array num bytes fits fs cwd a) = why | _ => seen fs cwd (snd kv) (snd kw) end) l d.

(** What a reader gives if the files hold the records [l], where [B r v] says how a record [r] is seen. *)
Definition has_field (nonneg : num -> bool) (f : string) (l : list record) : Prop := exists r t, In r l /\ at_time t r /\ nonneg t = true /\ In f (map fst r).
Record results (np_has : string -> bool) (num_eqb : num -> num -> bool) (nonneg : num -> bool) (B : record -> list (string * @shown num bytes) -> Prop)
    (fs : @files num bytes) (cwd : string) (rd : @reader num) (l : list record) : Prop := Results {
  (** The time points are the times from 0. *)
  at_times : forall t, In t (r_times nonneg rd) <-> (exists r, In r l /\ at_time t r) /\ nonneg t = true;
  (** A time gives the first record at this time, and other times an error. *)
  by_time : forall t r, first_at t l r -> nonneg t = true -> exists v, get_time np_has num_eqb nonneg fs cwd rd t = (fs, Ok v) /\ B r v;
  no_time : forall t, (forall r, In r l -> ~ at_time t r) \/ nonneg t = false -> get_time np_has num_eqb nonneg fs cwd rd t = (fs, @Err (list (string * @shown num bytes)) IndexError);
  (** A field gives what the last record at each time has for it, and unknown fields an error. *)
  by_field : forall f, has_field nonneg f l -> exists m, get_field np_has num_eqb nonneg fs cwd rd f = (fs, Ok m) /\
    (forall t o, nget num_eqb t m = Some o -> exists r v, last_at t l r /\ nonneg t = true /\ B r v /\ o = dget f v) /\
    (forall t r, last_at t l r -> nonneg t = true -> exists o, nget num_eqb t m = Some o);
  no_field : forall f, ~ has_field nonneg f l -> get_field np_has num_eqb nonneg fs cwd rd f = (fs, @Err (list (num * option (@shown num bytes))) IndexError);
  (** A search gives the records whose stored form the query accepts, in order. *)
  by_search : exists ds, Forall2 stored_record l ds /\ forall q, exists ls, search np_has fs cwd rd q = (fs, Ok ls) /\
    Forall2 B (map fst (filter (fun p => q (snd p)) (combine l ds))) ls }.
End Spec.
