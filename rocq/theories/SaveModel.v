(** Model of [_ModelStep.save_outputs] (slippy/contact/steps.py:200-276) and of
    [check_outputs] (steps.py:97-141). *)
From Coq Require Import List String Ascii Bool Reals.
From Verif Require Export Py RequestModel.
Import ListNotations.
Local Open Scope string_scope.

Section Save.
(** Contents of plain state values. *)
Context {A : Type}.

(** Values in the model state: a load or displacement namedtuple with x, y and z
    parts, a pair of coordinate arrays (y first), a string, a number (the time) or
    anything else. *)
Inductive sval :=
  | SVec (x y z : sval)
  | SPts (y x : sval)
  | SStr (s : string)
  | STime (t : R)
  | SPlain (a : A).

Definition state := list (string * sval).

(** The names of steps.py:220 and 230. *)
Definition vec_names : list string :=
  ["loads"; "total_displacement"; "surface_1_displacement"; "surface_2_displacement"].
Definition pts_names : list string := ["surface_1_points"; "surface_2_points"].

(** Body of the loop steps.py:221-228 on (state, names to save). *)
Definition expand_vec (p : string) (acc : state * list string) : result (state * list string) :=
  let '(st, ps) := acc in
  bind (match dget p st with
        | None => Ok st
        | Some (SVec x y z) =>
            Ok (ddel p (dset (p ++ "_z") z (dset (p ++ "_y") y (dset (p ++ "_x") x st))))
        | Some _ => Err AttributeError
        end) (fun st' =>
  let ps' := if smem p ps then sremove p (supdate ps [p ++ "_x"; p ++ "_y"; p ++ "_z"]) else ps in
  Ok (st', ps')).

(** Body of the loop steps.py:231-237. Simplification: indexing with 0 and 1
    anything that is not a pair of arrays is a TypeError. *)
Definition expand_pts (p : string) (acc : state * list string) : result (state * list string) :=
  let '(st, ps) := acc in
  bind (match dget p st with
        | None => Ok st
        | Some (SPts y x) => Ok (ddel p (dset (p ++ "_x") x (dset (p ++ "_y") y st)))
        | Some _ => Err TypeError
        end) (fun st' =>
  let ps' := if smem p ps then sremove p (supdate ps [p ++ "_x"; p ++ "_y"]) else ps in
  Ok (st', ps')).

Fixpoint for_each {B} (f : string -> B -> result B) (l : list string) (b : B) : result B :=
  match l with [] => Ok b | p :: l' => bind (f p b) (for_each f l') end.

(** steps.py:240-242. *)
Definition expand_all (st : state) (ps : list string) : list string :=
  if smem "all" ps then sremove "all" (supdate ps (map fst st)) else ps.

(** [exec('param = self.model.' + mo)] (steps.py:251) raises for these names. It
    never changes the local variable [param] (CPython's exec in a function works on
    a copy of the local variables); that is why its value does not appear here. *)
Variable exec_raises : string -> bool.

Definition has_char (c : ascii) (s : string) : bool :=
  existsb (Ascii.eqb c) (list_ascii_of_string s).

(** Loop over the missing names, steps.py:248-266: state of the loop is (param,
    expanded state, missing names). *)
Definition missing_step (acc : option sval * state * list string) (mo : string) :=
  let '(param, st, ms) := acc in
  let param' := if String.prefix "surface" mo && negb (has_char ";" mo)
                then (if exec_raises mo then None else param) else param in
  match param' with
  | Some v => (param', dset mo v st, sremove mo ms)
  | None => (param', st, ms)
  end.

(** The iteration order of the set of missing names (steps.py:248) is not known. *)
Variable order : list string -> list string.

(** Build the dictionary that is written, steps.py:218-275, from the names to save. *)
Definition build_record (st : state) (ps : list string) : result state :=
  bind (for_each expand_vec vec_names (st, ps)) (fun a =>
  bind (for_each expand_pts pts_names a) (fun '(st2, ps2) =>
  let ps3 := expand_all st2 ps2 in
  let missing := sdiff ps3 (map fst st2) in
  (* after the loop of line 230 the variable [param] is its last name *)
  let '(_, st4, ms) :=
    fold_left missing_step (order missing) (Some (SStr "surface_2_points"), st2, missing) in
  let ps4 := fold_left (fun ps k => sremove k ps) ms ps3 in
  Ok (flat_map (fun k => match dget k st4 with Some v => [(k, v)] | None => [] end) ps4))).

(** steps.py:214-217: ask every request; [outs] are (request, parameters). *)
Fixpoint ask_all (outs : list (request * list string)) (t max_time : R) (ps : list string)
  : list (request * list string) * list string :=
  match outs with
  | [] => ([], ps)
  | (r, params) :: outs' =>
      let '(r', b) := is_active r t max_time in
      let ps' := if b then supdate ps params else ps in
      let '(rest, ps'') := ask_all outs' t max_time ps' in
      ((r', params) :: rest, ps'')
  end.

(** [save_outputs]: the requests afterwards and the list of written records. *)
Definition save_outputs (outs : list (request * list string)) (max_time : R) (st : state)
  : list (request * list string) * result (list state) :=
  match outs with
  | [] => (outs, Ok [])
  | _ =>
      match dget "time" st with
      | Some (STime t) =>
          let '(outs', ps) := ask_all outs t max_time ["time"] in
          (outs', bind (build_record st ps) (fun rec => Ok [rec]))
      | Some _ => (outs, Err TypeError)
      | None => (outs, Err KeyError)
      end
  end.

(** [check_outputs] (steps.py:97-141): the names reported as impossible, as a list;
    the set [current_state] only has names. *)
Definition check_expand (p : string) (acc : list string * list string) : list string * list string :=
  let '(st, ps) := acc in
  let parts := [p ++ "_x"; p ++ "_y"; p ++ "_z"] in
  (if smem p st then sremove p (supdate st parts) else st,
   if smem p ps then sremove p (supdate ps parts) else ps).
Definition check_outputs (requested current_state : list string) : list string :=
  let ps := supdate ["time"] requested in
  let ps := if smem "all" ps then sremove "all" (supdate ps current_state) else ps in
  let '(st, ps) := fold_left (fun acc p => check_expand p acc) vec_names (current_state, ps) in
  filter (fun mo => negb (String.prefix "surface" mo && negb (has_char ";" mo))) (sdiff ps st).
End Save.
