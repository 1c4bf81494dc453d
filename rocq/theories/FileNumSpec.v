(** What the theorems on file numbers speak about. *)
From Coq Require Import List Bool ZArith Ascii.
From Verif Require Import FileNumModel.
Import ListNotations.
Local Open Scope Z_scope.

(** The decimal value of a list of digits 0-9, the most significant one first. *)
Fixpoint value (ds : list Z) (acc : Z) : Z :=
  match ds with [] => acc | d :: r => value r (10 * acc + d) end.
(** [n] is the number [k] written in decimal digits, without leading zeros. *)
Definition written (n : name) (k : Z) : Prop :=
  exists ds, n = map digit_char ds /\ Forall (fun d => 0 <= d <= 9) ds /\ value ds 0 = k /\
             ds <> [] /\ (1 <= k -> hd 0 ds <> 0).

(** A suffix: a dot and characters without further dots, or nothing. *)
Definition suffix (s : name) : Prop := s = [] \/ exists r, s = dot :: r /\ ~ In dot r.

(** Uses of a directory: a program asks for the next number and writes a file of this name with a
    suffix, or something else writes a new file or makes a new directory. Nothing is deleted. *)
Inductive event := Output (suf : name) | Other (f : name) (is_file : bool).
Definition happen (d : dir) (e : event) : dir :=
  match e with
  | Output suf => d ++ [((get_next_file_num d ++ suf)%list, true)]
  | Other f b => d ++ [(f, b)]
  end.
(** The names which are given out in a history. *)
Fixpoint given (d : dir) (es : list event) : list name :=
  match es with
  | [] => []
  | e :: r => match e with Output _ => [get_next_file_num d] | _ => [] end ++ given (happen d e) r
  end.
Definition suffixes (es : list event) : Prop := forall s, In (Output s) es -> suffix s.
