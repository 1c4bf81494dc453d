(** Model of slippy/contact/lubricant.py (class [Lubricant], lines 17-163) and of
    slippy/contact/lubricant_models.py. *)
From Coq Require Import String Ascii List Bool Arith Reals.
From Verif Require Export Py.
Import ListNotations.
Local Open Scope string_scope.

(** [str.isidentifier] for ASCII strings. *)
Definition id_start (c : ascii) : bool :=
  let n := nat_of_ascii c in
  (Nat.leb 65 n && Nat.leb n 90) || (Nat.leb 97 n && Nat.leb n 122) || Nat.eqb n 95.
Definition id_char (c : ascii) : bool :=
  let n := nat_of_ascii c in id_start c || (Nat.leb 48 n && Nat.leb n 57).
Fixpoint all_chars (f : ascii -> bool) (s : string) : bool :=
  match s with EmptyString => true | String c s' => f c && all_chars f s' end.
Definition is_identifier (s : string) : bool :=
  match s with EmptyString => false | String c s' => id_start c && all_chars id_char s' end.

(** A Python function. [args] is the list [inspect.getfullargspec] gives, which contains the
    first argument of a bound method; [bound] says that this argument is filled in already. The
    first [pos_only] arguments cannot be given by name, the last [n_defaults] have defaults.
    [kw_required] are the keyword only arguments without default. [body] sees the arguments
    by name and does not change them. *)
Record fn (V : Type) := Fn { args : list string; bound : bool; pos_only : nat; n_defaults : nat; kw_required : list string;
                             var_kw : bool; body : (string -> option V) -> result V }.
Arguments Fn {V}. Arguments args {V}. Arguments bound {V}. Arguments pos_only {V}. Arguments n_defaults {V}.
Arguments kw_required {V}. Arguments var_kw {V}. Arguments body {V}.
(** An object given as a function: not callable, callable without a signature, or a function. *)
Inductive obj (V : Type) := NotCallable | NoSignature | Function (f : fn V).
Arguments NotCallable {V}. Arguments NoSignature {V}. Arguments Function {V}.
(** A name given as parameter. *)
Inductive pyname := Str (s : string) | NotStr.

Section Lubricant.
Context {V : Type}.
Definition dict := list (string * V).
(** The call [f( ** state)] of a function with a variable number of keyword arguments. A value
    for the bound argument, a missing argument without default and any needed positional only
    argument are TypeErrors. *)
Definition call (f : fn V) (state : dict) : result V :=
  let free := if bound f then tl (args f) else args f in
  let n_pos := if bound f then (pos_only f - 1)%nat else pos_only f in
  let n_needed := (List.length free - n_defaults f)%nat in
  let taken := match args f with a :: _ => bound f && Nat.eqb (pos_only f) 0 && dmem a state | [] => false end in
  if taken then Err TypeError
  else if Nat.ltb 0 (Nat.min n_pos n_needed) then Err TypeError
  else if negb (forallb (fun a => dmem a state) (firstn n_needed free)) then Err TypeError
  else if negb (forallb (fun a => dmem a state) (kw_required f)) then Err TypeError
  else body f (fun k => dget k state).

Definition lubricant := list (string * fn V).
(** [add_sub_model] (lines 74-121): the object after the call and the error, if any. *)
Definition add_sub_model (l : lubricant) (parameter : pyname) (function : obj V) : lubricant * result unit :=
  match parameter with
  | NotStr => (l, Err AssertionError)
  | Str p =>
      if negb (is_identifier p) then (l, Err AssertionError)
      else match function with
           | NotCallable => (l, Err AssertionError)
           | NoSignature => (l, Err TypeError)
           | Function f => if var_kw f then (dset p f l, Ok tt) else (l, Err AssertionError)
           end
  end.
(** [data_check] (lines 123-146): the set given, as it is after the call, and the error. *)
Fixpoint check_models (l : lubricant) (names : list string) : list string * result unit :=
  match l with
  | [] => (names, Ok tt)
  | (p, f) :: rest =>
      if forallb (fun a => smem a names || String.eqb a "self") (args f) then check_models rest (sadd p names)
      else (names, Err ValueError)
  end.
Definition data_check := check_models.
(** [solve_sub_models] (lines 148-163): the dictionary, changed in place, and the error. *)
Fixpoint solve_sub_models (l : lubricant) (state : dict) : dict * result unit :=
  match l with
  | [] => (state, Ok tt)
  | (p, f) :: rest =>
      match call f state with
      | Ok v => solve_sub_models rest (dset p v state)
      | Err e => (state, Err e)
      end
  end.
(** The loop of the constructor over the models (lines 64-72): an error ends the construction.
    Attribute and type errors become TypeErrors; assertion errors are passed on. *)
Fixpoint add_all (l : lubricant) (models : list (pyname * obj V)) : result lubricant :=
  match models with
  | [] => Ok l
  | (p, o) :: rest => match add_sub_model l p o with (l', Ok _) => add_all l' rest | (_, Err e) => Err e end
  end.
(** [constant_array_property] (lines 12-48 of the models file): [ones_like_times] is the
    expression [np.ones_like(gap) * value]. *)
Definition constant_array_property (ones_like_times : V -> R -> V) (value : R) : fn V :=
  Fn ["just_touching_gap"] false 0 0 [] true
     (fun kw => match kw "just_touching_gap" with Some g => Ok (ones_like_times g value) | None => Err TypeError end).
(** The constructor (lines 52-72); [models] is None or a dictionary. *)
Definition construct (ones_like_times : V -> R -> V) (models : option (list (pyname * obj V)))
    (constant_viscosity constant_density : option R) : result lubricant :=
  let put (l : lubricant) (c : option R) (name nd_name : string) :=
    match c with
    | None => l
    | Some v => fst (add_sub_model (fst (add_sub_model l (Str name) (Function (constant_array_property ones_like_times v))))
                                   (Str nd_name) (Function (constant_array_property ones_like_times 1)))
    end in
  let l := put (put [] constant_viscosity "viscosity" "nd_viscosity") constant_density "density" "nd_density" in
  match models with None => Ok l | Some ms => add_all l ms end.

(** A history of [add_sub_model] calls, failed ones included. *)
Definition run_adds (l : lubricant) (calls : list (pyname * obj V)) : lubricant :=
  fold_left (fun l c => fst (add_sub_model l (fst c) (snd c))) calls l.
End Lubricant.
Arguments dict : clear implicits.
Arguments lubricant : clear implicits.

(** ** Pressure laws (lines 51-222 of the models file), for one element of the arrays. The power
    is numpy's for a positive base. *)
Local Open Scope R_scope.
Definition roelands (eta_0 pressure_0 z : R) : R -> R :=
  let ln_eta_0 := ln eta_0 + 967 / 100 in
  fun pressure => eta_0 * exp (ln_eta_0 * (- 1 + Rpower (1 + pressure / pressure_0) z)).
Definition nd_roelands (eta_0 pressure_0 pressure_hertzian z : R) : R -> R :=
  let ln_eta_0 := ln eta_0 + 967 / 100 in
  let p_all := pressure_hertzian / pressure_0 in
  fun nd_pressure => exp (ln_eta_0 * (- 1 + Rpower (1 + p_all * nd_pressure) z)).
Definition barus (eta_0 alpha : R) : R -> R := fun pressure => eta_0 * exp (alpha * pressure).
Definition nd_barus (pressure_hertzian alpha : R) : R -> R := fun nd_pressure => exp (alpha * pressure_hertzian * nd_pressure).
Definition dowson_higginson (rho_0 : R) : R -> R :=
  fun pressure => rho_0 * (59 * 10 ^ 7 + 134 / 100 * pressure) / (59 * 10 ^ 7 + pressure).
Definition nd_dowson_higginson (pressure_hertzian : R) : R -> R :=
  let constant := 59 * 10 ^ 7 / pressure_hertzian in
  fun nd_pressure => (constant + 134 / 100 * nd_pressure) / (constant + nd_pressure).
