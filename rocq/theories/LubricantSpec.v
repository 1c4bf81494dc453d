(** Words used in the statements about lubricants (C44, C45). *)
From Coq Require Import String List Bool Arith Reals.
From Verif Require Import Py LubricantModel.
Import ListNotations.

Section Words.
Context {V : Type}.
(** A call of [add_sub_model] the documentation allows: a valid name and a function that takes a
    variable number of keyword arguments. *)
Definition allowed (c : pyname * obj V) : option (string * fn V) :=
  match c with
  | (Str p, Function f) => if is_identifier p && var_kw f then Some (p, f) else None
  | _ => None
  end.
Fixpoint allowed_adds (calls : list (pyname * obj V)) : list (string * fn V) :=
  match calls with
  | [] => []
  | c :: rest => match allowed c with Some x => x :: allowed_adds rest | None => allowed_adds rest end
  end.
(** The names in the order of their first appearance. *)
Fixpoint first_order (l : list string) : list string :=
  match l with [] => [] | x :: l' => x :: filter (fun y => negb (String.eqb x y)) (first_order l') end.
(** The function given last for a name. *)
Fixpoint last_given (p : string) (l : list (string * fn V)) : option (fn V) :=
  match l with
  | [] => None
  | (q, f) :: l' => match last_given p l' with Some g => Some g | None => if String.eqb p q then Some f else None end
  end.
(** A function that [data_check] can judge: its arguments may be given by name, and all but the
    bound one are called something else than self; there are no keyword only arguments without
    default. *)
Definition judged (f : fn V) : Prop :=
  pos_only f = 0%nat /\ kw_required f = [] /\
  (if bound f then exists rest, args f = "self"%string :: rest /\ ~ In "self"%string rest else ~ In "self"%string (args f)).
(** The arguments a call needs. *)
Definition needed (f : fn V) : list string := if bound f then tl (args f) else args f.
End Words.
