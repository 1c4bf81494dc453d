(** Model of slippy/contact/static_step.py, slippy/contact/quasi_static_step.py, of
    [make_interpolation_func] (slippy/contact/_step_utils.py:32-64), of [InitialStep.solve] and of
    [check_sub_models] and [solve_sub_models] (slippy/contact/steps.py:143-168, 278-298, 324-334).
    Both surfaces have influence matrix materials; printing and outputs are left out. *)
From Coq Require Import String List Bool Arith Reals.
From Verif Require Export Py HeightModel.
Import ListNotations.
Local Open Scope string_scope.
Local Open Scope R_scope.

(** ** Movements *)
(** The sequences a movement is given by, as numpy makes an array of them: one dimension, two
    dimensions with rows of equal length, or anything else. *)
Inductive values := Flat (l : list R) | Rows (rows : list (list R)) | NoArray.
(** [interp1d(time, position, 'linear', bounds_error=True)] of scipy: the points are sorted by time, a
    time outside is a ValueError, and inside the segment is found with searchsorted. *)
Fixpoint sort_in (x : R * R) (l : list (R * R)) : list (R * R) :=
  match l with [] => [x] | y :: l' => if Rltb (fst y) (fst x) then y :: sort_in x l' else x :: l end.
Fixpoint sort_points (l : list (R * R)) : list (R * R) :=
  match l with [] => [] | x :: l' => sort_in x (sort_points l') end.
Fixpoint segment (l : list (R * R)) (t : R) : R :=
  match l with
  | (t0, p0) :: (((t1, p1) :: rest) as l') =>
      match rest with
      | [] => (p1 - p0) / (t1 - t0) * (t - t0) + p0
      | _ => if Rltb t1 t then segment l' t else (p1 - p0) / (t1 - t0) * (t - t0) + p0
      end
  | [(_, p0)] => p0
  | [] => 0
  end.
Definition interp1d (time position : list R) : result (R -> result R) :=
  if negb (Nat.eqb (List.length time) (List.length position)) then Err ValueError
  else if Nat.eqb (List.length time) 0 then Err ValueError
  else
    let l := sort_points (combine time position) in
    Ok (fun t => if Rltb t (fst (hd (0, 0) l)) || Rltb (fst (last l (0, 0))) t then Err ValueError else Ok (segment l t)).
(** Lines 47-64. Two values in one row are the same as two values; two rows of one value each
    do not fit the two times. *)
Definition make_interpolation_func (v : values) : result (R -> result R) :=
  match v with
  | NoArray => Err ValueError
  | Flat [a; b] => interp1d [0; 1] [a; b]
  | Flat _ => Err ValueError
  | Rows [[a; b]] => interp1d [0; 1] [a; b]
  | Rows [[_]; [_]] => Err ValueError
  | Rows [position; time] => interp1d time position
  | Rows _ => Err ValueError
  end.
(** An argument that is a number or a sequence. *)
Inductive movement := Const (x : R) | Seq (v : values).

(** ** States *)
Inductive sv := SNum (x : R) | SFlag (b : bool) | SGrid (l : list R) | SNodes (l : list bool) | SPair (x y : R) | SPoints (l : list (R * R)).
Definition dict := list (string * sv).
(** [state[key]] where a number is expected. *)
Definition get_num (k : string) (d : dict) : result R :=
  match dget k d with Some (SNum x) => Ok x | Some _ => Err TypeError | None => Err KeyError end.
Definition get_nodes (k : string) (d : dict) : option (list bool) :=
  match dget k d with Some (SNodes l) => Some l | _ => None end.
Definition get_pair (k : string) (d : dict) : option (R * R) :=
  match dget k d with Some (SPair x y) => Some (x, y) | _ => None end.

(** What the steps use of the model: the gap of just touching surfaces and the points of both
    surfaces for an offset ([get_gap_from_model]), the constants of a
    [HeightOptimisationFunction] with or without adhesion for a gap and the second entry of its
    cache, [root_scalar] (the heights it evaluates and the root it returns, or its error), the
    cubic interpolation of [get_bounds_from_cache], and the sub models. *)
Record world := World {
  gap_at : R * R -> result (list R * list (R * R) * list (R * R));
  config : bool -> list R -> hconfig;
  limit_of : list R -> option (R * R * list R);
  root_scalar : hconfig -> hstate -> R * R -> list R * result R;
  cubic : list R -> list R -> R -> result R;
  sub_models : dict -> result dict }.
(** [HeightOptimisationFunction(...)]: the setter of contact_nodes reads self.im_mats
    (_step_utils.py:180), which is set later (line 138), so initial contact nodes are an
    AttributeError. *)
Definition make_opt (k : hconfig) (load : R) (initial : option (list bool)) (limit : option (R * R * list R)) : result hstate :=
  match initial with Some _ => Err AttributeError | None => Ok (new_opt k load None limit) end.
Definition visit (k : hconfig) (s : hstate) (hs : list R) : hstate := fold_left (fun s h => fst (evaluate k s h)) hs s.
Definition max_of (l : list R) : R := match l with [] => 0 | x :: l' => fold_left Rmax l' x end.
(** [np.abs(total - load) / load < 0.05]: division by zero gives nan or infinity, which is not
    less. *)
Definition close_load (total load : R) : bool := if Reqb load 0 then false else Rltb (Rabs (total - load) / load) (1 / 20).
(** The entries [results] adds to the state, and the gap. *)
Definition result_entries (f : full_results) (interference : R) : dict :=
  [("loads", SGrid (r_loads f)); ("total_displacement", SGrid (r_total_disp f)); ("surface_1_displacement", SGrid (r_disp1 f));
   ("surface_2_displacement", SGrid (r_disp2 f)); ("contact_nodes", SNodes (r_nodes f)); ("total_normal_load", SNum (r_total_load f));
   ("interference", SNum interference)].
Fixpoint gap_entry (g : list R) (interference : R) (d : list R) : list R :=
  match g, d with x :: g', y :: d' => (x - interference + y) :: gap_entry g' interference d' | _, _ => [] end.

(** ** Static step *)
Record static := Static { off_set : R * R; max_time : R; relative : bool; adhesion : bool; unloading : bool;
                          normal_load : option R; interference : option R; load_controlled : bool }.
(** The constructor (static_step.py:121-134). *)
Definition new_static (off : R * R) (time_period : R) (load interf : option R) (rel adh unl : bool) : result static :=
  match load, interf with
  | Some _, Some _ => Err ValueError
  | None, None => if rel then Ok (Static off time_period rel adh unl None (Some 0) false) else Err ValueError
  | _, _ => Ok (Static off time_period rel adh unl load interf (match interf with None => true | _ => false end))
  end.
(** Lines 159-221: the state before the sub models are solved. *)
Definition static_contact (w : world) (st : static) (prev : dict) : result dict :=
  let initial := if unloading st then get_nodes "contact_nodes" prev else None in
  bind (gap_at w (off_set st)) (fun '(g, p1, p2) =>
  bind (get_num "time" prev) (fun t =>
  let base : dict := [("just_touching_gap", SGrid g); ("surface_1_points", SPoints p1); ("surface_2_points", SPoints p2);
               ("time", SNum (t + max_time st)); ("time_step", SNum (max_time st)); ("new_step", SFlag true);
               ("off_set", SPair (fst (off_set st)) (snd (off_set st)))] in
  let k := config w (adhesion st) g in
  let nominal := match normal_load st with Some l => l | None => 0 end in
  bind (make_opt k (if load_controlled st then nominal else 1) initial (limit_of w g)) (fun s0 =>
  let contact_nodes := if unloading st then get_nodes "contact_nodes" base else None in
  let finish (s : hstate) (converged : full_results -> bool) :=
    bind (snd (read_results k s)) (fun f =>
    Ok (base ++ result_entries f (r_interference f) ++ [("converged", SFlag (converged f)); ("gap", SGrid (gap_entry g (r_interference f) (r_total_disp f)))])%list) in
  if load_controlled st then
    bind (if relative st then bind (get_num "total_normal_load" prev) (fun p => Ok (p + nominal)) else Ok nominal) (fun load =>
    let s1 := change_load s0 load contact_nodes in
    let '(hs, root) := root_scalar w k s1 (0, 3 * max_of g) in
    let s2 := visit k s1 hs in
    bind root (fun _ => finish s2 (fun f => close_load (r_total_load f) nominal && negb (last_failed s2))))
  else
    let set := match interference st with Some x => x | None => 0 end in
    bind (if relative st then bind (get_num "interference" prev) (fun p => Ok (p + set)) else Ok set) (fun h =>
    let s2 := fst (evaluate k (change_load s0 1 contact_nodes) h) in
    finish s2 (fun _ => negb (last_failed s2)))))).
Definition static_solve (w : world) (st : static) (prev : dict) : result dict := bind (static_contact w st prev) (sub_models w).
(** [InitialStep.solve] *)
Definition initial_state : dict := [("off_set", SPair 0 0); ("interference", SNum 0); ("time", SNum 0)].

(** ** Quasi static step *)
(** The object: options, the movements that are updated, and the attributes that change. *)
Record quasi := Quasi { steps : nat; no_time : bool; total_time : R; time_step : R; q_relative : bool; q_adhesion : bool;
  q_unloading : bool; fast_ld : bool; upper_factor : R; q_load_controlled : bool;
  upd_off : option (R -> result (R * R)); upd_load : option (R -> result R); upd_interf : option (R -> result R);
  q_off : option (R * R); q_load : option R; q_interf : option R; q_opt : option (hconfig * hstate) }.
(** The constructor (quasi_static_step.py:145-241); [impact] tells if impact properties are
    given. *)
Definition is_seq (m : movement) : bool := match m with Seq _ => true | Const _ => false end.
Definition as_seq (m : movement) : values := match m with Const x => Flat [x; x] | Seq v => v end.
Definition new_quasi (n : nat) (notime : bool) (time_period : R) (off_x off_y : movement) (interf load : option movement)
    (rel adh unl fast impact : bool) (upper : R) : result quasi :=
  if impact then Err NotImplementedError
  else if negb notime && fast then Err ValueError
  else if Nat.eqb n 0 then Err ZeroDivisionError
  else
    bind (if is_seq off_x || is_seq off_y then
            if notime then Err ValueError
            else bind (make_interpolation_func (as_seq off_x)) (fun fx => bind (make_interpolation_func (as_seq off_y)) (fun fy =>
                 Ok (Some (fun t => bind (fx t) (fun x => bind (fy t) (fun y => Ok (x, y)))), None)))
          else match off_x, off_y with Const x, Const y => Ok (None, Some (x, y)) | _, _ => Ok (None, None) end) (fun '(uo, o) =>
    let build (uo : option (R -> result (R * R))) (o : option (R * R)) (load interf : option movement) :=
      bind (match load with
            | Some (Seq v) => bind (make_interpolation_func v) (fun f => Ok (Some f, None))
            | Some (Const x) => Ok (None, Some x)
            | None => Ok (None, None)
            end) (fun '(ul, l) =>
      bind (match interf with
            | Some (Seq v) => bind (make_interpolation_func v) (fun f => Ok (Some f, None))
            | Some (Const x) => Ok (None, Some x)
            | None => Ok (None, None)
            end) (fun '(ui, i) =>
      Ok (Quasi n notime time_period (time_period / INR n) rel adh unl fast upper
            (match interf with Some _ => false | None => true end) uo ul ui o l i None))) in
    match load, interf with
    | Some _, Some _ => Err ValueError
    | None, None => if rel then build uo o None (Some (Const 0)) else Err ValueError
    | _, _ => build uo o load interf
    end).

(** [update_movement] (lines 320-325): only what changes is set. *)
Definition update_one {A} (rel : bool) (add : A -> A -> A) (original : A) (upd : option (R -> result A)) (old : option A) (t : R) : result (option A) :=
  match upd with
  | None => Ok old
  | Some f => bind (f t) (fun x => Ok (Some (if rel then add original x else x)))
  end.
Definition pair_add (a b : R * R) : R * R := (fst a + fst b, snd a + snd b).
Definition update_movement (q : quasi) (o_load o_interf : R) (o_off : R * R) (t : R) : result quasi :=
  bind (update_one (q_relative q) pair_add o_off (upd_off q) (q_off q) t) (fun off =>
  bind (update_one (q_relative q) Rplus o_load (upd_load q) (q_load q) t) (fun l =>
  bind (update_one (q_relative q) Rplus o_interf (upd_interf q) (q_interf q) t) (fun i =>
  Ok (Quasi (steps q) (no_time q) (total_time q) (time_step q) (q_relative q) (q_adhesion q) (q_unloading q) (fast_ld q)
        (upper_factor q) (q_load_controlled q) (upd_off q) (upd_load q) (upd_interf q) off l i (q_opt q))))).
Definition set_opt (q : quasi) (o : option (hconfig * hstate)) : quasi :=
  Quasi (steps q) (no_time q) (total_time q) (time_step q) (q_relative q) (q_adhesion q) (q_unloading q) (fast_ld q)
        (upper_factor q) (q_load_controlled q) (upd_off q) (upd_load q) (upd_interf q) (q_off q) (q_load q) (q_interf q) o.
(** The optimisation function of a sub step: a new one if there is time dependence or none yet. *)
Definition opt_for (w : world) (q : quasi) (g : list R) (initial : option (list bool)) (load : R) : result (hconfig * hstate) :=
  match no_time q, q_opt q with
  | true, Some ks => Ok ks
  | _, _ => let k := config w (q_adhesion q) g in bind (make_opt k load initial (limit_of w g)) (fun s => Ok (k, s))
  end.
(** [_solve_load_controlled] and [_solve_displacement_controlled] (lines 327-400): the object
    after the call, and the results with the interference and whether they converged. The
    optimisation function is kept before the solution is tried. *)
Definition solve_sub_step (w : world) (q : quasi) (g : list R) (initial nodes : option (list bool))
    : quasi * result (full_results * R * bool) :=
  let load := if q_load_controlled q then match q_load q with Some l => l | None => 0 end else 1 in
  match opt_for w q g initial load with
  | Err e => (q, Err e)
  | Ok (k, s0) =>
      let s1 := change_load s0 load nodes in
      if q_load_controlled q then
        let upper := max_of g * upper_factor q in
        match (if no_time q then get_bounds (cubic w) s1 0 upper else Ok (0, upper)) with
        | Err e => (set_opt q (Some (k, s1)), Err e)
        | Ok (lo, hi) =>
            let '(hs, root) := root_scalar w k s1 (lo, hi) in
            let s2 := visit k s1 hs in
            match root with
            | Err e => (set_opt q (Some (k, s2)), Err e)
            | Ok r =>
                let s3 := match stored_results s2 with None => fst (evaluate k s2 ((lo + hi) / 2)) | Some _ => s2 end in
                let '(s4, res) := read_results k s3 in
                (set_opt q (Some (k, s4)), bind res (fun f => Ok (f, r, close_load (r_total_load f) load && negb (last_failed s3))))
            end
        end
      else
        let h := match q_interf q with Some h => h | None => 0 end in
        let s2 := fst (evaluate k s1 h) in
        let '(s3, res) := read_results k s2 in
        (set_opt q (Some (k, s3)), bind res (fun f => Ok (f, h, negb (last_failed s2))))
  end.
(** [np.linspace(0, 1, n)[i]] *)
Definition relative_time (n i : nat) : R := if Nat.eqb n 1 then 0 else INR i / INR (n - 1).
(** The loop (lines 275-312): [todo] sub steps are left, [i] is the number of the next, [time] the
    current time and [kept] the gap found last. The states after each sub step are collected. *)
Fixpoint quasi_loop (w : world) (prev : dict) (o_load o_interf : R) (o_off : R * R) (todo i : nat) (q : quasi) (time : R)
    (kept : option (list R * list (R * R) * list (R * R))) (last : dict) : quasi * list dict * result dict :=
  match todo with
  | O => (q, [], Ok last)
  | S todo' =>
      match update_movement q o_load o_interf o_off (relative_time (steps q) i) with
      | Err e => (q, [], Err e)
      | Ok q1 =>
          let off := match q_off q1 with Some o => o | None => (0, 0) end in
          let fresh := match upd_off q1 with Some _ => true | None => false end || negb (no_time q1) in
          match (match kept with Some x => if fresh then gap_at w off else Ok x | None => gap_at w off end) with
          | Err e => (q1, [], Err e)
          | Ok (g, p1, p2) =>
              let base : dict := [("just_touching_gap", SGrid g); ("surface_1_points", SPoints p1); ("surface_2_points", SPoints p2);
                           ("off_set", SPair (fst off) (snd off)); ("time_step", SNum (time_step q1)); ("new_step", SFlag (Nat.eqb i 0))] in
              let initial := if q_unloading q1 then get_nodes "contact_nodes" prev else None in
              let nodes := if q_unloading q1 then get_nodes "contact_nodes" base else None in
              let '(q2, res) := solve_sub_step w q1 g initial nodes in
              match res with
              | Err e => (q2, [], Err e)
              | Ok (f, h, conv) =>
                  let state := (base ++ result_entries f h ++ [("converged", SFlag conv); ("gap", SGrid (gap_entry g h (r_total_disp f)));
                                                      ("time", SNum (time + time_step q1))])%list in
                  match sub_models w state with
                  | Err e => (q2, [], Err e)
                  | Ok state' =>
                      let '(q3, states, r) := quasi_loop w prev o_load o_interf o_off todo' (S i) q2 (time + time_step q1) (Some (g, p1, p2)) state' in
                      (q3, state' :: states, r)
                  end
              end
          end
      end
  end.
(** [solve] (lines 243-312) *)
Definition quasi_solve (w : world) (q : quasi) (prev : dict) : quasi * list dict * result dict :=
  match get_num "time" prev with
  | Err e => (q, [], Err e)
  | Ok t =>
      if fast_ld q then (q, [], Err NotImplementedError)
      else
        let num k := match get_num k prev with Ok x => x | Err _ => 0 end in
        let off := match get_pair "off_set" prev with Some o => o | None => (0, 0) end in
        quasi_loop w prev (num "total_normal_load") (num "interference") off (steps q) 0 q t None []
  end.

(** ** Announced and found values (steps.py) *)
(** The names a static or a quasi static step announces. *)
Definition step_provides : list string :=
  ["off_set"; "loads"; "surface_1_displacement"; "surface_2_displacement"; "total_displacement"; "interference"; "just_touching_gap";
   "surface_1_points"; "contact_nodes"; "total_normal_load"; "surface_2_points"; "time"; "time_step"; "new_step"; "converged"; "gap"].
Record sub_model := SubModel { requires : list string; provides : list string; find : dict -> result dict }.
(** Equality of sets of names. *)
Definition same_names (a b : list string) : bool := forallb (fun x => smem x b) a && forallb (fun x => smem x a) b.
(** [check_sub_models]: the set passed on by [_data_check] is self.provides itself, which grows.
    [error] is slippy.ERROR_IN_DATA_CHECK. The result is the set after the call, and the error. *)
Fixpoint check_sub_models (error : bool) (l : list sub_model) (names : list string) : list string * result unit :=
  match l with
  | [] => (names, Ok tt)
  | m :: l' => if existsb (fun x => negb (smem x names)) (requires m) && error then (names, Err ValueError)
               else check_sub_models error l' (supdate names (provides m))
  end.
(** [solve_sub_models]; the two flags are slippy.ERROR_IF_MISSING_MODEL and
    slippy.ERROR_IF_MISSING_SUB_MODEL. *)
Fixpoint find_all (error_sub : bool) (l : list sub_model) (state : dict) : result dict :=
  match l with
  | [] => Ok state
  | m :: l' =>
      bind (find m state) (fun found =>
      if negb (same_names (provides m) (map fst found)) && negb error_sub then Err ValueError
      else find_all error_sub l' (dupdate state found))
  end.
Definition solve_sub_models (error_model error_sub : bool) (names : list string) (l : list sub_model) (state : dict) : result dict :=
  if negb (same_names names (map fst state)) && negb error_model then Err ValueError else find_all error_sub l state.
