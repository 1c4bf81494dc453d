(** Model of [IterSemiSystem] (slippy/contact/lubrication_steps.py:187-617) and of the part of
    [UnifiedReynoldsSolver.solve] that passes values from one call to the next
    (slippy/contact/unified_reynolds_solver.py:214-227, 283-285). Printing and outputs are left out,
    numbers are real (no nan or infinity), arrays are the lists of their values and have the same
    shape when they have the same length. *)
From Coq Require Import String List Bool Arith ZArith Reals.
From Verif Require Import LubricantModel.
From Verif Require Export Py HeightModel StepModel.
Import ListNotations.
Local Open Scope string_scope.
Local Open Scope R_scope.

Definition get_grid (k : string) (d : dict) : result (list R) :=
  match dget k d with Some (SGrid l) => Ok l | Some _ => Err TypeError | None => Err KeyError end.
(** An operation of two arrays of the same shape. *)
Definition grid2 (f : R -> R -> R) (a b : list R) : result (list R) :=
  if Nat.eqb (List.length a) (List.length b) then Ok (map (fun xy => f (fst xy) (snd xy)) (combine a b)) else Err ValueError.

(** What the step uses of the model: the gap and the points for an offset ([get_gap_from_model]),
    the area of a grid point, the smaller of the maximum loads of two influence matrix materials
    (None for other materials), the displacement of both surfaces together and of each, for the
    shape of the gap, under a pressure; the lubricant; the Reynolds solver, which sees its rolling
    speed, the state (which it may change) and the maximum pressure; its scales; the sub models. *)
Record lub_world := LubWorld {
  l_gap : R * R -> result (list R * list (R * R) * list (R * R));
  l_area : R;
  l_max : option R;
  l_disp : nat -> list R -> result (list R);
  l_disp1 : nat -> list R -> result (list R);
  l_disp2 : nat -> list R -> result (list R);
  l_lubricant : LubricantModel.lubricant sv;
  l_reynolds : R -> dict -> option R -> dict * result dict;
  dim_p : R -> R; nd_p : R -> R; dim_g : R -> R; nd_g : R -> R;
  l_sub_models : dict -> result dict }.

(** The initial guess argument. *)
Inductive guess := GNone | GPrevious | GNumbers (interference pressure : R) | GArray (interference : R) (pressure : list R)
  | GCall (f : list R -> R * list R) | GOther.
Record semi := Semi { m_steps : nat; m_no_time : bool; m_total_time : R; m_time_step : R; m_relative : bool;
  max_it : Z; rtol : R; relaxation : R; m_load_controlled : bool; m_guess : guess;
  upd_m_off : option (R -> result (R * R)); upd_m_load : option (R -> result R); upd_m_interf : option (R -> result R);
  upd_m_speed : option (R -> result R);
  m_off : option (R * R); m_load : option R; m_interf : option R; m_speed : option R }.
(** The constructor (lines 195-304). The solver is a Reynolds solver. *)
Definition movement_of (m : option movement) : result (option (R -> result R) * option R) :=
  match m with
  | Some (Seq v) => bind (make_interpolation_func v) (fun f => Ok (Some f, None))
  | Some (Const x) => Ok (None, Some x)
  | None => Ok (None, None)
  end.
Definition new_semi (speed : movement) (n : nat) (notime : bool) (time_period : R) (off_x off_y : movement)
    (interf load : option movement) (rel : bool) (maxit : Z) (tol relax : R) (g : guess) : result semi :=
  if Rltb 0 relax && negb (Rltb 1 relax) then
    if Nat.eqb n 0 then Err ZeroDivisionError
    else
      bind (if is_seq off_x || is_seq off_y then
              if notime then Err ValueError
              else bind (make_interpolation_func (as_seq off_x)) (fun fx => bind (make_interpolation_func (as_seq off_y)) (fun fy =>
                   Ok (Some (fun t => bind (fx t) (fun x => bind (fy t) (fun y => Ok (x, y)))), None)))
            else match off_x, off_y with Const x, Const y => Ok (None, Some (x, y)) | _, _ => Ok (None, None) end) (fun '(uo, o) =>
      bind (match load, interf with
            | Some _, Some _ => Err ValueError
            | None, None => if rel then Ok (Some (Const 0)) else Err ValueError
            | _, _ => Ok interf
            end) (fun interf' =>
      bind (movement_of (Some speed)) (fun '(us, s) =>
      bind (movement_of load) (fun '(ul, l) =>
      bind (movement_of interf') (fun '(ui, i) =>
      Ok (Semi n notime time_period (time_period / INR n) rel maxit tol relax
               (match interf' with Some _ => false | None => true end) g uo ul ui us o l i s))))))
  else Err ValueError.

(** [update_movement] (lines 350-355). The dictionary of original values has no rolling speed. *)
Definition update_semi (m : semi) (o_load o_interf : R) (o_off : R * R) (t : R) : result semi :=
  bind (update_one (m_relative m) pair_add o_off (upd_m_off m) (m_off m) t) (fun off =>
  bind (update_one (m_relative m) Rplus o_load (upd_m_load m) (m_load m) t) (fun l =>
  bind (update_one (m_relative m) Rplus o_interf (upd_m_interf m) (m_interf m) t) (fun i =>
  bind (match upd_m_speed m with
        | None => Ok (m_speed m)
        | Some f => if m_relative m then Err KeyError else bind (f t) (fun x => Ok (Some x))
        end) (fun s =>
  Ok (Semi (m_steps m) (m_no_time m) (m_total_time m) (m_time_step m) (m_relative m) (max_it m) (rtol m) (relaxation m)
        (m_load_controlled m) (m_guess m) (upd_m_off m) (upd_m_load m) (upd_m_interf m) (upd_m_speed m) off l i s))))).

(** The start of a time step (lines 416-467): the guess for sub step [i], then the state before the
    first iteration. *)
Definition guess_of (m : semi) (i : nat) : result guess :=
  if Z.leb 0 (Z.of_nat i) then Ok GPrevious else Err AttributeError.
Definition start_values (w : lub_world) (g : guess) (prev : dict) (jt : list R) : result (R * list R) :=
  match g with
  | GPrevious =>
      bind (match dget "pressure" prev with
            | None => Ok (map (fun _ => 0) jt)
            | Some _ => get_grid "pressure" prev
            end) (fun p =>
      bind (match dget "interference" prev with None => Ok 0 | Some _ => get_num "interference" prev end) (fun h => Ok (h, p)))
  | GNone => Ok (dim_g w (1 / 100), map (fun _ => dim_p w (5 / 100)) jt)
  | GNumbers h p => Ok (h, map (fun _ => p) jt)
  | GArray h p => if Nat.eqb (List.length p) (List.length jt) then Ok (h, p) else Err ValueError
  | GCall f => Ok (f jt)
  | GOther => Err ValueError
  end.
Definition solve_lubricant (w : lub_world) (d : dict) : result dict :=
  let '(d', r) := LubricantModel.solve_sub_models (l_lubricant w) d in bind r (fun _ => Ok d').
(** [just_touching_gap + displacement - interference] *)
Definition film (jt u : list R) (h : R) : result (list R) :=
  bind (grid2 Rplus jt u) (fun s => Ok (map (fun x => x - h) s)).
Definition start_state (w : lub_world) (m : semi) (i : nat) (prev : dict) (jt : list R) : result dict :=
  bind (guess_of m i) (fun g =>
  bind (start_values w g prev jt) (fun '(h, p) =>
  let nd := map (nd_p w) p in
  let d0 : dict := [("nd_pressure", SGrid nd); ("just_touching_gap", SGrid jt); ("interference", SNum h); ("pressure", SGrid p)] in
  bind (if forallb (fun x => Reqb x 0) nd then Ok (map (fun _ => 0) jt)
        else bind (get_grid "pressure" prev) (l_disp w (List.length jt))) (fun u =>
  bind (solve_lubricant w (dset "total_displacement_z" (SGrid u) d0)) (fun d1 =>
  bind (get_grid "total_displacement_z" d1) (fun u1 =>
  bind (get_num "interference" d1) (fun h1 =>
  bind (film jt u1 h1) (fun gap =>
  Ok (dset "gap" (SGrid gap) (dset "nd_interference" (SNum (nd_g w h1)) d1))))))))).

(** One round of the loop (lines 469-578): the state of the last round becomes the state of this
    one. The result is the state that was given to the solver, and how the round ended: the loop
    is left with the load and the verdict, or it goes on. *)
Inductive outcome := Leave (this : dict) (load : R) (converged : bool) | GoOn (this : dict).
Definition clip_max (limit : option R) (x : R) : R := match limit with Some l => Rmin x l | None => x end.
Definition nd_max (w : lub_world) : option R := match l_max w with Some x => Some (nd_p w x) | None => None end.
Definition round (w : lub_world) (m : semi) (jt : list R) (it : Z) (last : dict) : option dict * result outcome :=
  match get_grid "gap" last with
  | Err e => (None, Err e)
  | Ok gap0 =>
      let given := dset "nd_gap" (SGrid (map (nd_g w) gap0)) last in
      let '(last', solved) := l_reynolds w (match m_speed m with Some s => s | None => 0 end) given (nd_max w) in
      (Some given,
       bind solved (fun this0 =>
       let this1 := dset "just_touching_gap" (SGrid jt) this0 in
       bind (get_grid "nd_pressure" this1) (fun q =>
       bind (get_grid "nd_pressure" last') (fun p =>
       bind (grid2 Rminus q p) (fun change =>
       let total := rsum p in
       let error := if Rltb 0 total then rsum (map Rabs change) / total else 1 in
       let pressure_converged := Rltb error (rtol m) in
       bind (grid2 (fun x c => x + relaxation m * c) p change) (fun relaxed =>
       let nd := map (clip_max (nd_max w)) relaxed in
       let pressure := map (dim_p w) nd in
       bind (l_disp w (List.length jt) pressure) (fun u =>
       bind (get_num "interference" last') (fun h =>
       bind (film jt u h) (fun gap =>
       let this2 := dset "gap" (SGrid gap) (dset "total_displacement_z" (SGrid u) (dset "pressure" (SGrid pressure)
                      (dset "nd_pressure" (SGrid nd) this1))) in
       bind (solve_lubricant w this2) (fun this3 =>
       bind (get_grid "pressure" this3) (fun p3 =>
       let total_load := rsum p3 * l_area w in
       let load_error := if m_load_controlled m then total_load / (match m_load m with Some l => l | None => 0 end) - 1 else 0 in
       let load_converged := if m_load_controlled m then
           match m_load m with Some l => negb (Reqb l 0) && Rltb (Rabs load_error) (rtol m) | None => false end else true in
       bind (get_grid "gap" this3) (fun gap3 =>
       let this4 := dset "interference" (SNum h) (dset "nd_gap" (SGrid (map (nd_g w) gap3)) this3) in
       if pressure_converged && load_converged then Ok (Leave this4 total_load true)
       else if Z.ltb (max_it m) it then Ok (Leave this4 total_load false)
       else
         bind (get_num "nd_interference" last') (fun old =>
         if m_load_controlled m || pressure_converged then
           let new := old - 1 / 10 * load_error in
           bind (get_grid "total_displacement_z" this4) (fun u4 =>
           bind (film jt u4 (dim_g w new)) (fun gap5 =>
           Ok (GoOn (dset "gap" (SGrid gap5) (dset "interference" (SNum (dim_g w new)) (dset "nd_interference" (SNum new) this4))))))
         else Ok (GoOn (dset "interference" (SNum h) (dset "nd_interference" (SNum old) this4))))))))))))))))
  end.
(** The loop. [fuel] only makes the recursion structural: it is more than the number of rounds that
    are possible (see the proofs). The states given to the solver are collected. *)
Definition add_call (c : option dict) (l : list dict) : list dict := match c with Some d => d :: l | None => l end.
Fixpoint rounds (fuel : nat) (w : lub_world) (m : semi) (jt : list R) (it : Z) (last : dict) : list dict * result (dict * R * bool) :=
  match fuel with
  | O => ([], Err AssertionError)
  | S fuel' =>
      match round w m jt it last with
      | (c, Err e) => (add_call c [], Err e)
      | (c, Ok (Leave this load conv)) => (add_call c [], Ok (this, load, conv))
      | (c, Ok (GoOn this)) => let '(calls, r) := rounds fuel' w m jt (it + 1) this in (add_call c calls, r)
      end
  end.
Definition enough (m : semi) : nat := S (S (Z.to_nat (max_it m))).
(** Lines 580-602. *)
Definition clean_up (w : lub_world) (m : semi) (jt : list R) (base this : dict) (load : R) (conv : bool) : result dict :=
  let d := dupdate base this in
  bind (get_grid "pressure" d) (fun p =>
  bind (l_disp1 w (List.length jt) p) (fun u1 =>
  bind (l_disp2 w (List.length jt) p) (fun u2 =>
  bind (match l_max w with Some _ => get_grid "total_displacement_z" d | None => l_disp w (List.length jt) p end) (fun u =>
  let d1 := dset "total_displacement" (SGrid u) (dset "surface_2_displacement" (SGrid u2) (dset "surface_1_displacement" (SGrid u1) d)) in
  l_sub_models w (dset "rolling_speed" (SNum (match m_speed m with Some s => s | None => 0 end)) (dset "converged" (SFlag conv)
    (dset "loads" (SGrid p) (dset "total_normal_load" (SNum load) (ddel "total_displacement_z" d1))))))))).
(** The loop over the time steps (lines 385-604): the object, for each time step the states given to
    the solver, the final states of the time steps, and the last of them. *)
Fixpoint semi_loop (w : lub_world) (start o_load o_interf : R) (o_off : R * R) (todo i : nat) (m : semi)
    (kept : option (list R * list (R * R) * list (R * R))) (prev : dict) : semi * list (list dict) * list dict * result dict :=
  match todo with
  | O => (m, [], [], Ok prev)
  | S todo' =>
      match update_semi m o_load o_interf o_off (relative_time (m_steps m) i) with
      | Err e => (m, [], [], Err e)
      | Ok m1 =>
          let off := match m_off m1 with Some o => o | None => (0, 0) end in
          let fresh := match upd_m_off m1 with Some _ => true | None => false end || negb (m_no_time m1) in
          match (match kept with Some x => if fresh then l_gap w off else Ok x | None => l_gap w off end) with
          | Err e => (m1, [], [], Err e)
          | Ok (jt, p1, p2) =>
              let base : dict := [("just_touching_gap", SGrid jt); ("surface_1_points", SPoints p1); ("surface_2_points", SPoints p2);
                           ("off_set", SPair (fst off) (snd off)); ("time_step", SNum (m_time_step m1));
                           ("time", SNum (start + (INR i + 1) * m_time_step m1))] in
              match start_state w m1 i prev jt with
              | Err e => (m1, [], [], Err e)
              | Ok d0 =>
                  let '(calls, r) := rounds (enough m1) w m1 jt 0 d0 in
                  match bind r (fun '(this, load, conv) => clean_up w m1 jt base this load conv) with
                  | Err e => (m1, [calls], [], Err e)
                  | Ok state =>
                      let '(m2, log, states, r2) := semi_loop w start o_load o_interf o_off todo' (S i) m1 (Some (jt, p1, p2)) state in
                      (m2, calls :: log, state :: states, r2)
                  end
              end
          end
      end
  end.
(** [solve] (lines 357-608) *)
Definition semi_solve (w : lub_world) (m : semi) (prev : dict) : semi * list (list dict) * list dict * result dict :=
  match get_num "time" prev with
  | Err e => (m, [], [], Err e)
  | Ok t =>
      let num k := match get_num k prev with Ok x => x | Err _ => 0 end in
      let off := match get_pair "off_set" prev with Some o => o | None => (0, 0) end in
      semi_loop w t (num "total_normal_load") (num "interference") off (m_steps m) 0 m None prev
  end.
(** The flag slippy.CUDA after [solve] (lines 358-359 and 606), with the result. *)
Definition semi_solve_flag (w : lub_world) (m : semi) (prev : dict) (cuda : bool) : bool * result dict :=
  let '(_, _, _, r) := semi_solve w m prev in
  match r with Ok _ => (cuda, r) | Err _ => (false, r) end.

(** The names the step announces (lines 295-313): those of the step, of the solver and of the
    lubricant. *)
Definition semi_base_provides : list string :=
  ["just_touching_gap"; "surface_1_points"; "surface_2_points"; "off_set"; "time_step"; "time"; "interference"; "total_normal_load";
   "pressure"; "nd_pressure"; "loads"; "surface_1_displacement"; "surface_2_displacement"; "total_displacement"; "converged"; "gap";
   "nd_gap"; "rolling_speed"].
Definition semi_provides (solver_provides solver_requires : list string) (l : LubricantModel.lubricant sv) : list string :=
  supdate (supdate (supdate semi_base_provides solver_provides) solver_requires) (map fst l).
(** [data_check] of the step (lines 339-348) *)
Definition semi_data_check (error : bool) (solver_requires : list string) (l : option (LubricantModel.lubricant sv)) : result unit :=
  match l with
  | None => if error then Err ValueError else Err AttributeError
  | Some l =>
      match sdiff (sdiff solver_requires (map fst l)) ["nd_gap"; "nd_pressure"] with
      | [] => Ok tt
      | _ => if error then Err ValueError else Ok tt
      end
  end.

(** ** The values the unified solver passes on *)
(** [solve] of the unified solver, with the pressures [sweep] finds from the state and the values of
    the last time step. *)
Definition unified (sweep : R -> dict -> list R -> list R -> option R -> result (list R)) : R -> dict -> option R -> dict * result dict :=
  fun speed d limit =>
  match get_grid "nd_gap" d, get_grid "nd_pressure" d with
  | Err e, _ | _, Err e => (d, Err e)
  | Ok gap, Ok _ =>
      match (if dmem "previous_nd_density" d then Ok d
             else bind (get_grid "nd_density" d) (fun rho =>
                  Ok (dset "previous_nd_gap" (SGrid gap) (dset "previous_nd_density" (SGrid rho) d)))) with
      | Err e => (d, Err e)
      | Ok d' =>
          (d', bind (get_grid "previous_nd_density" d') (fun rho0 =>
               bind (get_grid "previous_nd_gap" d') (fun gap0 =>
               bind (sweep speed d rho0 gap0 limit) (fun p =>
               Ok [("previous_nd_density", SGrid rho0); ("previous_nd_gap", SGrid gap0); ("nd_pressure", SGrid p)]))))
      end
  end.
