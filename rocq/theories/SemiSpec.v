(** Specification vocabulary for the lubrication step (C50, C51, C86 to C90). *)
From Coq Require Import String List Bool Arith ZArith Reals.
From Verif Require Import HeightModel StepModel SemiModel StepSpec.
Import ListNotations.
Local Open Scope string_scope.
Local Open Scope R_scope.

(** The names the step itself computes with are not names of lubricant models. *)
Definition step_names : list string :=
  ["just_touching_gap"; "pressure"; "nd_pressure"; "total_displacement_z"; "gap"; "interference"; "nd_interference"].
Definition no_clash (w : lub_world) : Prop := forall x, In x step_names -> ~ In x (map fst (l_lubricant w)).
(** The sub models of the step leave an entry alone. *)
Definition subs_leave (w : lub_world) (key : string) : Prop :=
  forall d d', l_sub_models w d = Ok d' -> dget key d' = dget key d.
(** The solver leaves the entries of the state it is given that the step needs afterwards. *)
Definition polite (w : lub_world) : Prop :=
  forall s d limit x, In x ["nd_pressure"; "interference"; "nd_interference"] -> dget x (fst (l_reynolds w s d limit)) = dget x d.

(** The value of a movement at time step [k] of [n], [old] being the value before the step. *)
Definition moves_to (m : movement) (rel : bool) (old : R) (n k : nat) (v : R) : Prop :=
  match m with
  | Const x => v = x
  | Seq s => exists x, prescribes s n k x /\ v = (if rel then old + x else x)
  end.

(** The sum of the changes of the pressures, and what one damped change of a pressure gives. *)
Definition total_change (p q : list R) : R := rsum (map (fun xy => Rabs (snd xy - fst xy)) (combine p q)).
Definition damped (limit : option R) (factor p q : R) : R :=
  let x := p + factor * (q - p) in match limit with Some l => if Rle_dec x l then x else l | None => x end.

(** The state [s] describes a film consistently, for surfaces with the gap [jt] when just touching:
    the load is the sum of the pressures times the area of a point, the displacement is the one of
    these pressures, and the film thickness is what remains of the gap. *)
Definition film_consistent (w : lub_world) (jt : list R) (s : dict) : Prop :=
  exists nd h u u1 u2 gap, let p := map (dim_p w) nd in
    holds_grid s "just_touching_gap" jt /\ holds_grid s "nd_pressure" nd /\ holds_grid s "pressure" p /\ holds_grid s "loads" p /\
    holds_num s "total_normal_load" (rsum p * l_area w) /\ holds_num s "interference" h /\
    l_disp w (length jt) p = Ok u /\ l_disp1 w (length jt) p = Ok u1 /\ l_disp2 w (length jt) p = Ok u2 /\
    holds_grid s "total_displacement" u /\ holds_grid s "surface_1_displacement" u1 /\ holds_grid s "surface_2_displacement" u2 /\
    holds_grid s "gap" gap /\ holds_grid s "nd_gap" (map (nd_g w) gap) /\
    length u = length jt /\ length gap = length jt /\
    forall i, (i < length jt)%nat -> nth i gap 0 = nth i jt 0 + nth i u 0 - h.

(** The state before the time step [k]: the one before the whole step, or the one of the time step
    before. *)
Definition before (prev : dict) (states : list dict) (k : nat) : option dict :=
  match k with O => Some prev | S j => nth_error states j end.
(** The pressure and the interference in a state, zero if there are none. *)
Definition pressure_in (s : dict) (jt p : list R) : Prop :=
  holds_grid s "pressure" p \/ (dget "pressure" s = None /\ p = map (fun _ => 0) jt).
Definition interference_in (s : dict) (h : R) : Prop :=
  holds_num s "interference" h \/ (dget "interference" s = None /\ h = 0).
(** Nothing but the initial guess is different. *)
Definition same_but_guess (a b : semi) : Prop :=
  a = Semi (m_steps b) (m_no_time b) (m_total_time b) (m_time_step b) (m_relative b) (max_it b) (rtol b) (relaxation b)
        (m_load_controlled b) (m_guess a) (upd_m_off b) (upd_m_load b) (upd_m_interf b) (upd_m_speed b) (m_off b) (m_load b) (m_interf b) (m_speed b).
(** The dictionaries the solver returns have one value for each name. *)
Definition distinct_entries (w : lub_world) : Prop :=
  forall s d limit d' out, l_reynolds w s d limit = (d', Ok out) -> NoDup (map fst out).
(** Neither the lubricant nor the solver computes the entry [x]. *)
Definition not_provided (w : lub_world) (x : string) : Prop :=
  ~ In x (map fst (l_lubricant w)) /\ forall s d limit d' out, l_reynolds w s d limit = (d', Ok out) -> ~ In x (map fst out).
(** All values of a grid. *)
Definition all_values (P : R -> Prop) (l : list R) : Prop := forall x, In x l -> P x.
