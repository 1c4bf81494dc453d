(** Specification vocabulary for the output files (properties C01 to C04). *)
From Coq Require Import List String.
From Verif Require Import OutputsModel.
Import ListNotations.
Local Open Scope string_scope.

(** [s] starts with [p]. *)
Definition starts_with (p s : string) : Prop := exists t, s = p ++ t.

Section Spec.
Context {num bytes : Type}.
Variable to_float : bytes -> string -> option num.
Variable np_has : string -> bool.

(** What a user expects to read for a value written: itself, but an array with
    exactly one element which converts to a float is read as this float. *)
Inductive reads_as : @value num bytes -> @value num bytes -> Prop :=
  | reads_num x : reads_as (VNum x) (VNum x)
  | reads_str s : reads_as (VStr s) (VStr s)
  | reads_float a x : fold_right Nat.mul 1 (nd_shape a) = 1 ->
      to_float (nd_bytes a) (nd_dtype a) = Some x -> reads_as (VArr a) (VNum x)
  | reads_array a :
      (fold_right Nat.mul 1 (nd_shape a) <> 1 \/ to_float (nd_bytes a) (nd_dtype a) = None) ->
      reads_as (VArr a) (VArr a).

(** Values for which reading back is promised. *)
Definition storable (v : @value num bytes) : Prop :=
  match v with
  | VNum _ => True
  | VStr s => ~ starts_with "**array**" s
  | VArr a => np_has (nd_dtype a) = true
  end.

(** Same keys in the same order, values read as expected. *)
Definition record_reads_as (d d' : list (string * @value num bytes)) : Prop :=
  Forall2 (fun kv kv' => fst kv = fst kv' /\ reads_as (snd kv) (snd kv')) d d'.

(** A database entry holds the time [t]. *)
Definition has_time (t : num) (e : list (string * @json num)) : Prop :=
  dget "time" e = Some (JNum t).
(** No two entries of the database hold the same time. *)
Definition distinct_times (db : list (list (string * @json num))) : Prop :=
  forall i j e e' t, nth_error db i = Some e -> nth_error db j = Some e' ->
    has_time t e -> has_time t e' -> i = j.
(** [e] is the first / the last entry with time [t]. *)
Definition first_with_time t (db : list (list (string * @json num))) e : Prop :=
  exists pre post, db = (pre ++ e :: post)%list /\ has_time t e /\
    Forall (fun e' => ~ has_time t e') pre.
Definition last_with_time t (db : list (list (string * @json num))) e : Prop :=
  exists pre post, db = (pre ++ e :: post)%list /\ has_time t e /\
    Forall (fun e' => ~ has_time t e') post.

End Spec.
