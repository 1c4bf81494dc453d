(** Common Python notions: exceptions as values, dictionaries with string keys. *)
From Coq Require Import List String Bool.
Import ListNotations.
Local Open Scope string_scope.

(** Errors the modelled methods raise. *)
Inductive err := ValueError | IndexError | AttributeError | KeyError | SyntaxError | OSError | UnboundLocalError
  | TypeError | NotImplementedError | ZeroDivisionError | AssertionError | StopIteration.
Inductive result (A : Type) := Ok (a : A) | Err (e : err).
Arguments Ok {A} a.
Arguments Err {A} e.

Definition bind {A B} (r : result A) (f : A -> result B) : result B :=
  match r with Ok a => f a | Err e => Err e end.

(** ** Dictionaries: association lists in insertion order, keys distinct. *)

(** Lookup [d.get(k)]. *)
Fixpoint dget {V} (k : string) (d : list (string * V)) : option V :=
  match d with
  | [] => None
  | (k', v) :: d' => if String.eqb k k' then Some v else dget k d'
  end.

(** [d[k] = v]: an existing key keeps its position. *)
Fixpoint dset {V} (k : string) (v : V) (d : list (string * V)) : list (string * V) :=
  match d with
  | [] => [(k, v)]
  | (k', v') :: d' => if String.eqb k k' then (k', v) :: d' else (k', v') :: dset k v d'
  end.

(** [del d[k]] (no effect when missing; the callers test first). *)
Definition ddel {V} (k : string) (d : list (string * V)) : list (string * V) :=
  filter (fun kv => negb (String.eqb k (fst kv))) d.

(** [k in d]. *)
Definition dmem {V} (k : string) (d : list (string * V)) : bool :=
  match dget k d with Some _ => true | None => false end.

(** [d.update(e)]. *)
Definition dupdate {V} (d e : list (string * V)) : list (string * V) :=
  fold_left (fun d kv => dset (fst kv) (snd kv) d) e d.

(** ** Sets of strings: lists, only membership matters. *)
Definition smem (k : string) (s : list string) : bool := existsb (String.eqb k) s.
Definition sadd (k : string) (s : list string) : list string := if smem k s then s else s ++ [k].
Definition supdate (s t : list string) : list string := fold_left (fun s k => sadd k s) t s.
Definition sremove (k : string) (s : list string) : list string :=
  filter (fun x => negb (String.eqb k x)) s.
Definition sdiff (s t : list string) : list string := filter (fun x => negb (smem x t)) s.
