(** Model of the numbering of output files, /repo/slippy/contact/_step_utils.py lines 633-646. *)
From Coq Require Import List Bool ZArith Ascii.
Import ListNotations.
Local Open Scope Z_scope.

(** File names are lists of ASCII characters without a slash. *)
Definition name := list ascii.

(** Python's [os.path.splitext] for a name without a slash, first component (used in line 637): the
    part before the last dot, unless there are only dots before it. *)
Definition dot : ascii := "."%char.
Fixpoint before_last_dot (n : name) : option name :=
  match n with
  | [] => None
  | c :: r =>
    match before_last_dot r with
    | Some p => Some (c :: p)
    | None => if Ascii.eqb c dot then Some [] else None
    end
  end.
Definition stem (n : name) : name :=
  match before_last_dot n with
  | Some p => if forallb (fun c => Ascii.eqb c dot) p then n else p
  | None => n
  end.

(** Python's [int] of a text (line 639), [None] is [ValueError]. White space around the number, one
    sign and single underscores between digits are allowed. Simplifications: decimal digits
    which aren't ASCII (Python accepts them) and the limit on the number of digits of newer versions
    are left out. *)
Definition is_digit (c : ascii) : bool := (N.leb 48 (N_of_ascii c) && N.leb (N_of_ascii c) 57)%bool.
Definition digit_value (c : ascii) : Z := Z.of_N (N_of_ascii c) - 48.
Definition is_space (c : ascii) : bool :=
  (N.eqb (N_of_ascii c) 32 || (N.leb 9 (N_of_ascii c) && N.leb (N_of_ascii c) 13))%bool.
Fixpoint lstrip (n : name) : name :=
  match n with
  | [] => []
  | c :: r => if is_space c then lstrip r else n
  end.
Definition strip (n : name) : name := rev (lstrip (rev (lstrip n))).
(** [prev]: the character before was a digit. *)
Fixpoint digits (acc : Z) (prev : bool) (n : name) : option Z :=
  match n with
  | [] => if prev then Some acc else None
  | c :: r =>
    if is_digit c then digits (10 * acc + digit_value c) true r
    else if (Ascii.eqb c "_"%char && prev)%bool then digits acc false r else None
  end.
Definition py_int (n : name) : option Z :=
  match strip n with
  | [] => None
  | c :: r =>
    if Ascii.eqb c "-"%char then option_map Z.opp (digits 0 false r)
    else if Ascii.eqb c "+"%char then digits 0 false r
    else digits 0 false (c :: r)
  end.

(** Python's [str] of a number that isn't negative (line 645). *)
Definition digit_char (d : Z) : ascii := ascii_of_N (48 + Z.to_N d).
Fixpoint str_fuel (fuel : nat) (n : Z) : name :=
  match fuel with
  | O => [digit_char n]
  | S f => if n <? 10 then [digit_char n] else str_fuel f (n / 10) ++ [digit_char (n mod 10)]
  end.
Definition py_str (n : Z) : name := str_fuel (Z.to_nat n) n.

(** A directory: its entries in the order of [os.listdir] and whether each one is a file. *)
Definition dir := list (name * bool).

(** contact/_step_utils.py lines 634-643. *)
Definition scan (highest : Z) (e : name * bool) : Z :=
  let '(f, is_file) := e in
  if is_file then
    match py_int (stem f) with
    | Some file_num => if highest <? file_num then file_num else highest
    | None => highest
    end
  else highest.
Definition highest_num (d : dir) : Z := fold_left scan d 0.
(** lines 633-646. *)
Definition get_next_file_num (d : dir) : name := py_str (highest_num d + 1).
