(** Model of the data check of a contact model: [ContactModel.data_check] and [_model_check], slippy/contact/models.py 154-184,
    [_ModelStep._data_check] and [check_sub_models], slippy/contact/steps.py 17-21, 65-95, 143-168, the check of the initial
    step, steps.py 319-334, the check of the lubrication step, slippy/contact/lubrication_steps.py 306-313, 339-349, 678-682,
    and of the model each sub model belongs to: [add_sub_model], steps.py 56-63, 170-178, [add_step], models.py 87-133 (without
    a position). Prints are left out; [check_outputs] is in SaveModel.v. *)
From Coq Require Import List String Bool Arith.
From Verif Require Import Py SaveModel StepModel.
Import ListNotations.
Local Open Scope string_scope.

(** What a check does: the number of warnings given, and whether it raised. *)
Definition outcome := (nat * result unit)%type.
Definition fine : outcome := (0%nat, Ok tt).
Definition and_then (a : outcome) (b : outcome) : outcome := match snd a with Ok _ => ((fst a + fst b)%nat, snd b) | Err _ => a end.
(** [_data_check_error_or_warn] (steps.py 17-21, lubrication_steps.py 678-682), models.py 169-173; the flag is
    slippy.ERROR_IN_DATA_CHECK. *)
Definition report (error : bool) : outcome := if error then (0%nat, Err ValueError) else (1%nat, Ok tt).
Definition problem (error p : bool) : outcome := if p then report error else fine.

(** ** Surfaces (models.py 165-184) *)
Record surface_info := SurfaceInfo { is_discrete : bool; has_material : bool }.
Definition is_none {A} (o : option A) : bool := match o with None => true | Some _ => false end.
(** An attribute of a surface that isn't there raises. *)
Definition model_check (error : bool) (s1 s2 : option surface_info) : outcome :=
  and_then (problem error (is_none s1))
  (match s1 with
   | None => (0%nat, Err AttributeError)
   | Some i =>
       and_then (problem error (negb (is_discrete i)))
       (and_then (problem error (negb (has_material i)))
       (and_then (problem error (is_none s2))
       (match s2 with None => (0%nat, Err AttributeError) | Some j => problem error (negb (has_material j)) end)))
   end).

(** ** Steps *)
(** The own check of a step: none, or that of a lubrication step, with the requirements of its solver and the names of the
    sub models of the lubricant of the model. *)
Inductive own_check := Plain | Lubricated (solver : option (list string)) (lubricant : option (list string)).
Record step := Step { first : bool; own : own_check; announced : list string; subs : list sub_model; outputs : list (list string) }.
(** lubrication_steps.py 339-349 *)
Definition run_own (error : bool) (o : own_check) : outcome :=
  match o with
  | Plain => fine
  | Lubricated solver lubricant =>
      and_then (problem error (is_none solver)) (and_then (problem error (is_none lubricant))
        (match solver, lubricant with
         | Some r, Some l => problem error (negb (Nat.eqb (List.length (sdiff (sdiff r l) ["nd_gap"; "nd_pressure"])) 0))
         | _, _ => (0%nat, Err AttributeError)
         end))
  end.
(** [provides]: of a lubrication step with a lubricant it is a new set each time (lubrication_steps.py 306-313). *)
Definition provided (s : step) : list string :=
  match own s with Lubricated _ (Some l) => supdate (announced s) l | _ => announced s end.
Definition keeps_set (s : step) : bool := match own s with Lubricated _ (Some _) => false | _ => true end.

(** steps.py 143-168: the set after it *)
Fixpoint subs_check (error : bool) (l : list sub_model) (names : list string) : list string * outcome :=
  match l with
  | [] => (names, fine)
  | m :: l' =>
      let here := problem error (existsb (fun x => negb (smem x names)) (requires m)) in
      match snd here with
      | Err _ => (names, here)
      | Ok _ => let '(names', o) := subs_check error l' (supdate names (provides m)) in (names', and_then here o)
      end
  end.
(** One report for each missing output (steps.py 135-141) *)
Fixpoint each_reported (error : bool) (l : list string) : outcome :=
  match l with [] => fine | _ :: l' => and_then (report error) (each_reported error l') end.
(** steps.py 82-91: the step afterwards, whose set has grown if it was its own *)
Definition step_check (error : bool) (s : step) : step * outcome :=
  if first s then (s, fine) else
  let a := run_own error (own s) in
  match snd a with
  | Err _ => (s, a)
  | Ok _ =>
      let names := provided s in
      let a := and_then a (problem error (negb (smem "time" names))) in
      match snd a with
      | Err _ => (s, a)
      | Ok _ =>
          let '(names', b) := subs_check error (subs s) names in
          let s' := if keeps_set s then Step (first s) (own s) names' (subs s) (outputs s) else s in
          (s', and_then a (and_then b (match snd b with Ok _ => each_reported error (check_outputs (List.concat (outputs s)) names') | Err _ => fine end)))
      end
  end.
Fixpoint steps_check (error : bool) (l : list step) : list step * outcome :=
  match l with
  | [] => ([], fine)
  | s :: l' =>
      let '(s', a) := step_check error s in
      match snd a with
      | Err _ => (s' :: l', a)
      | Ok _ => let '(l'', b) := steps_check error l' in (s' :: l'', and_then a b)
      end
  end.
Record contact := Contact { master : option surface_info; second : option surface_info; all_steps : list step }.
(** models.py 154-163 *)
Definition data_check (error : bool) (m : contact) : contact * outcome :=
  let a := model_check error (master m) (second m) in
  match snd a with
  | Err _ => (m, a)
  | Ok _ => let '(l, b) := steps_check error (all_steps m) in (Contact (master m) (second m) l, and_then a b)
  end.
(** [InitialStep.solve] (steps.py 327-334): the state is there already unless it is the first step solved. *)
Definition initial_solve {state : Type} (fresh : state) (now : option state) : result state :=
  match now with Some _ => Err ValueError | None => Ok fresh end.

(** ** The model of a sub model *)
Record links := Links { step_model : nat -> option nat; step_subs : nat -> list nat; sub_owner : nat -> option nat }.
Definition no_links : links := Links (fun _ => None) (fun _ => []) (fun _ => None).
Definition set_at {A} (f : nat -> A) (k : nat) (v : A) : nat -> A := fun x => if Nat.eqb x k then v else f x.
Inductive link_op := AddStep (model step : nat) | AddSub (step sub : nat).
(** models.py 110-133, steps.py 56-63: a step that has a model already is refused. steps.py 176-178 *)
Definition link (l : links) (o : link_op) : links :=
  match o with
  | AddStep m s =>
      match step_model l s with
      | Some _ => l
      | None => Links (set_at (step_model l) s (Some m)) (step_subs l) (fold_left (fun f b => set_at f b (Some m)) (step_subs l s) (sub_owner l))
      end
  | AddSub s b =>
      Links (step_model l) (set_at (step_subs l) s (step_subs l s ++ [b])%list)
            (match step_model l s with Some m => set_at (sub_owner l) b (Some m) | None => sub_owner l end)
  end.
Definition link_all (ops : list link_op) : links := fold_left link ops no_links.
