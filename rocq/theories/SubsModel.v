(** Model of the sub models in slippy/contact/sub_models. Printing is left out; all arrays of a
    state have the same shape and are numbered by their flat index, [N] is the number of points. *)
From Coq Require Import String Ascii List Bool Arith ZArith Reals.
From Verif Require Export Py SurfaceModel Flt SolverModel.
Import ListNotations.
Local Open Scope string_scope.
Local Open Scope R_scope.

(** The entries of a state, with numbers of type [F]: a number, a flag, an array, a mask, a named
    tuple of three arrays ([Loads] or [Displacements]), the coordinates of the points (y, x), an array with
    one entry for each worn point. *)
Inductive val (F : Type) := VNum (x : F) | VFlag (b : bool) | VGrid (g : nat -> F) | VMask (m : nat -> bool)
  | VTriple (x y z : option (nat -> F)) | VPoints (y x : nat -> F) | VList (l : list F).
Arguments VNum {F}. Arguments VFlag {F}. Arguments VGrid {F}. Arguments VMask {F}. Arguments VTriple {F}.
Arguments VPoints {F}. Arguments VList {F}.
Definition state (F : Type) := list (string * val F).
Section Get.
Context {F : Type}.
Definition find (k : string) (s : state F) : result (val F) := match dget k s with Some v => Ok v | None => Err KeyError end.
Definition find_num k s : result F := bind (find k s) (fun v => match v with VNum x => Ok x | _ => Err TypeError end).
Definition find_grid k s : result (nat -> F) := bind (find k s) (fun v => match v with VGrid g => Ok g | _ => Err TypeError end).
Definition find_mask k s : result (nat -> bool) := bind (find k s) (fun v => match v with VMask m => Ok m | _ => Err TypeError end).
Definition find_points k s : result ((nat -> F) * (nat -> F)) := bind (find k s) (fun v => match v with VPoints y x => Ok (y, x) | _ => Err TypeError end).
(** [current_state[k].z] used as an array *)
Definition find_z k s : result (nat -> F) :=
  bind (find k s) (fun v => match v with VTriple _ _ (Some z) => Ok z | VTriple _ _ None => Err TypeError | _ => Err AttributeError end).
End Get.
(** [key in current_state and current_state[key]], and the same with [not]. *)
Definition flag_is {F} (b : bool) (k : string) (s : state F) : bool :=
  match dget k s with Some (VFlag c) => Bool.eqb b c | _ => false end.

(** ** Elastic perfectly plastic wear (epp_wear.py:10-128) *)
Record epp := Epp { e_name : string; p_surf_1 : R; p_surf_2 : R; e_requires : list string; e_provides : list string;
                    plastic_def : option (nat -> R); no_time : bool }.
(** The constructor (lines 53-77). [None > 0] raises. *)
Definition new_epp (name : string) (p1 : R) (p2 : option R) (notime : bool) : result epp :=
  let requires := ["interference"; "total_displacement"; "just_touching_gap"] in
  let provides := ["total_plastic_deformation"] in
  if Rltb 1 p1 || Rltb p1 0 then Err ValueError
  else
    let build (q : R) :=
      let '(r1, v1) := if Rltb 0 p1 then (sadd "surface_1_points" requires, sadd "wear_plastic_surface_1" provides) else (requires, provides) in
      let '(r2, v2) := if Rltb 0 q then (sadd "surface_2_points" r1, sadd "wear_plastic_surface_2" v1) else (r1, v1) in
      Ok (Epp name p1 q r2 v2 None notime) in
    match p2 with
    | Some q => if Rltb 1 q || Rltb q 0 then Err ValueError else build q
    | None => Err TypeError
    end.
Definition rsum (l : list R) : R := fold_right Rplus 0 l.
(** [model.surface.wear(name, x_pts[idx], y_pts[idx], total_wear * proportion)] for the worn [nodes]. *)
Definition worn_points (nodes : list nat) (y x gap : nat -> R) (p : R) : list (R * R * R) :=
  map (fun i => (x i, y i, - gap i * p)) nodes.
(** One of the two blocks for the surfaces (lines 113-118 and 119-124). *)
Definition epp_surface (st : state R) (name : string) (nodes : list nat) (gap : nat -> R) (p gs : R) (points key : string)
    (s : worn) (results : state R) : worn * result (state R) :=
  if Rltb 0 p then
    match find_points points st with
    | Err x => (s, Err x)
    | Ok (y, x) =>
        let '(s', r) := wear gs s name (worn_points nodes y x gap p) in
        (s', bind r (fun _ => Ok (dset key (VList (map (fun w => w * p) (map (fun i => - gap i) nodes))) results)))
    end
  else (s, Ok results).
(** [solve] (lines 79-128): the sub model and both surfaces after the call, and what is returned.
    [max1], [max2] are the maximum loads of the materials, [gs1], [gs2] the grid spacings. *)
Definition epp_solve (N : nat) (max1 max2 gs1 gs2 : R) (e : epp) (s1 s2 : worn) (st : state R)
    : epp * worn * worn * result (state R) :=
  if flag_is false "converged" st then (e, s1, s2, Ok st)
  else
    let keep d := Epp (e_name e) (p_surf_1 e) (p_surf_2 e) (e_requires e) (e_provides e) d (no_time e) in
    let found : epp * result (nat -> R) :=
      if no_time e then
        match find_grid "just_touching_gap" st with
        | Err x => (e, Err x)
        | Ok jt =>
            let d := match plastic_def e with
                     | Some d => if flag_is true "new_step" st then fun _ => 0 else d
                     | None => fun _ => 0
                     end in
            (keep (Some d),
             bind (find_num "interference" st) (fun h =>
             bind (find_z "total_displacement" st) (fun u => Ok (fun i => jt i - h + u i + d i))))
        end
      else (e, find_grid "gap" st) in
    let '(e1, gap_found) := found in
    match gap_found with
    | Err x => (e1, s1, s2, Err x)
    | Ok gap =>
        let max_load := Rmin max1 max2 in
        match bind (find_z "loads" st) (fun z => bind (find_mask "contact_nodes" st) (fun c => Ok (z, c))) with
        | Err x => (e1, s1, s2, Err x)
        | Ok (z, contact) =>
            let idx := fun i => Rleb max_load (z i) && (Rltb (gap i) 0 && contact i) in
            let nodes := filter idx (seq 0 N) in
            let total_wear := map (fun i => - gap i) nodes in
            let e2 := if no_time e then keep (match plastic_def e1 with
                                              | Some d => Some (fun i => if idx i then d i + - gap i else d i)
                                              | None => None
                                              end) else e1 in
            let tpd := match total_wear with [] => 0 | _ => rsum total_wear * (gs1 * gs1) * (p_surf_1 e + p_surf_2 e) end in
            let results : state R := [("total_plastic_deformation", VNum tpd)] in
            let '(s1', r1) := epp_surface st (e_name e) nodes gap (p_surf_1 e) gs1 "surface_1_points" "wear_plastic_surface_1" s1 results in
            match r1 with
            | Err x => (e2, s1', s2, Err x)
            | Ok results1 =>
                let '(s2', r2) := epp_surface st (e_name e) nodes gap (p_surf_2 e) gs2 "surface_2_points" "wear_plastic_surface_2" s2 results1 in
                (e2, s1', s2', r2)
            end
        end
    end.
(** A history of calls, all of which succeed: the results. *)
Fixpoint epp_run (N : nat) (max1 max2 gs1 gs2 : R) (e : epp) (s1 s2 : worn) (sts : list (state R)) : option (epp * worn * worn * list (state R)) :=
  match sts with
  | [] => Some (e, s1, s2, [])
  | st :: rest =>
      match epp_solve N max1 max2 gs1 gs2 e s1 s2 st with
      | (e', s1', s2', Ok out) =>
          match epp_run N max1 max2 gs1 gs2 e' s1' s2' rest with
          | Some (e'', s1'', s2'', outs) => Some (e'', s1'', s2'', out :: outs)
          | None => None
          end
      | _ => None
      end
  end.

(** ** Coulomb friction (friction_coulomb_model.py:8-34) *)
Record friction := Friction { coefficient : flt; f_requires : list string; f_provides : list string }.
Definition new_friction (c : flt) : friction := Friction c ["loads"] ["maximum_tangential_force"].
Definition friction_solve (m : friction) (st : state flt) : result (state flt) :=
  bind (find_z "loads" st) (fun z => Ok [("maximum_tangential_force", VGrid (fun i => fmul (z i) (coefficient m)))]).

(** ** Pure sliding (tangential_pure_sliding.py:28-53) *)
(** The direction argument: a string, a sequence of numbers, or something without a length. *)
Inductive dir := DirStr (s : string) | DirSeq (l : list flt) | DirOther.
(** [str.lower] for ASCII. *)
Definition lower_char (c : ascii) : ascii :=
  let n := nat_of_ascii c in if Nat.leb 65 n && Nat.leb n 90 then ascii_of_nat (n + 32) else c.
Fixpoint lower (s : string) : string := match s with EmptyString => EmptyString | String c s' => String (lower_char c) (lower s') end.
Record sliding := Sliding { d_y : flt; d_x : flt; s_requires : list string; s_provides : list string }.
Definition new_sliding (d : dir) : result sliding :=
  bind (match d with
        | DirStr s => if String.eqb (lower s) "x" then Ok [Fin 0; Fin 1] else if String.eqb (lower s) "y" then Ok [Fin 1; Fin 0] else Err ValueError
        | DirSeq l => Ok l
        | DirOther => Err TypeError
        end) (fun l =>
  match l with
  | [y; x] => let n := fsqrt (fadd (fmul y y) (fmul x x)) in
              Ok (Sliding (fdiv y n) (fdiv x n) ["maximum_tangential_force"] ["loads"])
  | _ => Err ValueError
  end).
Definition sliding_solve (m : sliding) (st : state flt) : result (state flt) :=
  bind (find_grid "maximum_tangential_force" st) (fun lf =>
  bind (bind (find "loads" st) (fun v => match v with VTriple _ _ z => Ok z | _ => Err AttributeError end)) (fun z =>
  Ok [("loads", VTriple (Some (fun i => fmul (d_x m) (lf i))) (Some (fun i => fmul (d_y m) (lf i))) z)])).

(** ** Contact stiffness (contact_stiffness.py:49-201) *)
Record stiffness := Stiffness { definition : list string; direction : string; loading : bool; unloading : bool; boarder : nat;
                                k_requires : list string; k_provides : list string }.
Definition key (show : nat -> string) (load_str defin direction : string) (boarder : nat) : string :=
  "s_contact_stiffness_" ++ load_str ++ "_" ++ defin ++ "_" ++ direction ++ "_" ++ show boarder.
(** The constructor (lines 49-94); [show] is the formatting of an integer. A
    negative boarder and a definition that is not a string are left out. *)
Definition new_stiffness (show : nat -> string) (load unload : bool) (dirn : string) (defn : string) (b : nat) : result stiffness :=
  let d := lower defn in
  bind (if String.eqb d "both" then Ok ["ml"; "fp"] else if String.eqb d "mean lines" then Ok ["ml"]
        else if String.eqb d "far points" then Ok ["fp"] else Err ValueError) (fun defs =>
  if smem dirn ["x"; "y"; "z"] then
    let provides := fold_left (fun s x => let s1 := if load then sadd (key show "loading" x dirn b) s else s in
                                          if unload then sadd (key show "unloading" x dirn b) s1 else s1) defs [] in
    if load || unload then Ok (Stiffness defs dirn load unload b ["contact_nodes"; "loads"] provides) else Err ValueError
  else Err ValueError).
(** The points left when [boarder] rows and columns are cut off on all sides (lines 117-118). *)
Definition inner (rows cols b : nat) : list nat :=
  filter (fun i => let r := (i / cols)%nat in let c := (i mod cols)%nat in
                   Nat.leb b r && Nat.ltb r (rows - b) && Nat.leb b c && Nat.ltb c (cols - b)) (seq 0 (rows * cols)).
Definition mean (l : list R) : R := rsum l / INR (List.length l).
(** [_solve] (lines 96-185). [influence]: both materials have influence matrices, otherwise an
    exception; [solver] stands for the bound constrained solver with its last converged results: for
    loading or not, the points and the contact nodes it has the loads in the contact and the
    displacements these give at all points. Without points the transform raises. *)
Definition one_stiffness (m : stiffness) (rows cols : nat) (max_pressure : R) (influence : bool)
    (solver : bool -> list nat -> (nat -> bool) -> list R * (nat -> R)) (load : bool) (st : state R) : result (list (string * flt)) :=
  if influence then
    bind (find_mask "contact_nodes" st) (fun all_nodes =>
    bind (if load then bind (find_z "loads" st) (fun z => Ok (fun i => all_nodes i && Rltb (z i) (max_pressure * (99999 / 100000))))
          else Ok all_nodes) (fun contact =>
    let points := inner rows cols (boarder m) in
    match points with
    | [] => Err ValueError
    | _ =>
        let '(loads, disp) := solver load points contact in
        let k := Fin (rsum loads) in
        let size := Fin (INR (List.length points)) in
        let load_str := if load then "loading" else "unloading" in
        let d1 := if smem "fp" (definition m) then dset ("s_contact_stiffness_" ++ load_str ++ "_fp_") (fdiv k size) [] else [] in
        Ok (if smem "ml" (definition m) then
              let all_disp := map (fun i => if contact i then 1 else if Rltb 1 (disp i) then 1 else disp i) points in
              dset ("s_contact_stiffness_" ++ load_str ++ "_ml_") (fdiv (fdiv k (fsub (Fin 1) (Fin (mean all_disp)))) size) d1
            else d1)
    end))
  else Err ValueError.
(** [solve] (lines 187-201) *)
Definition add_keys (show : nat -> string) (m : stiffness) (found : list (string * flt)) (results : list (string * flt)) : list (string * flt) :=
  fold_left (fun r kv => dset (fst kv ++ direction m ++ "_" ++ show (boarder m)) (snd kv) r) found results.
Definition stiffness_solve (show : nat -> string) (m : stiffness) (rows cols : nat) (max_pressure : R) (influence : bool)
    (solver : bool -> list nat -> (nat -> bool) -> list R * (nat -> R)) (st : state R) : result (list (string * flt)) :=
  bind (if loading m then bind (one_stiffness m rows cols max_pressure influence solver true st) (fun s => Ok (add_keys show m s [])) else Ok []) (fun r1 =>
  if unloading m then bind (one_stiffness m rows cols max_pressure influence solver false st) (fun s => Ok (add_keys show m s r1)) else Ok r1).

(** ** Partial slip (tangential_partial_slip.py:35-155) *)
(** A load or displacement argument: not given, a number, an array of two rows. *)
Inductive course := NotGiven | Number (x : R) | Table (times values : list R).
Record partial_slip := PartialSlip { load_controlled : bool; given : course; component : string;
                             q_tol : flt; q_max_it : option Z; q_requires : list string; q_provides : list string }.
Definition new_partial (dirn : string) (load disp : course) (tol : flt) (maxit : option Z) : result partial_slip :=
  let base := ["maximum_tangential_force"; "contact_nodes"; "time"] in
  let provides := ["slip_distance"; "stick_nodes"] in
  match load, disp with
  | NotGiven, NotGiven => Ok (PartialSlip false NotGiven dirn tol maxit (sadd "rigid_body_displacement" base) provides)
  | NotGiven, d => Ok (PartialSlip false d dirn tol maxit base provides)
  | l, NotGiven => Ok (PartialSlip true l dirn tol maxit base provides)
  | _, _ => Err ValueError
  end.
(** [interp1d(times, values, fill_value='extrapolate')] of sorted times: the line through the two
    points around the time, outside through the two points nearest to it. *)
Fixpoint extrapolated (ts vs : list R) (t : R) : R :=
  match ts, vs with
  | t0 :: ((t1 :: rest) as ts'), v0 :: ((v1 :: _) as vs') =>
      match rest with
      | [] => v0 + (v1 - v0) / (t1 - t0) * (t - t0)
      | _ => if Rleb t t1 then v0 + (v1 - v0) / (t1 - t0) * (t - t0) else extrapolated ts' vs' t
      end
  | _, _ => 0
  end.
(** The displacement of this time (lines 117-126), the same at all points or an array from another sub
    model. *)
Definition set_displacement (m : partial_slip) (st : state flt) : result vec :=
  match given m with
  | Table ts vs => bind (find_num "time" st) (fun t => match t with Fin t => Ok (fun _ => Fin (extrapolated ts vs t)) | _ => Ok (fun _ => NaN) end)
  | Number x => Ok (fun _ => Fin x)
  | NotGiven => bind (find "rigid_body_displacement" st) (fun v => match v with VNum x => Ok (fun _ => x) | VGrid g => Ok g | _ => Err TypeError end)
  end.
Definition set_component (c : string) (g : option (nat -> flt)) (v : val flt) : result (val flt) :=
  match v with
  | VTriple x y z => if String.eqb c "x" then Ok (VTriple g y z) else if String.eqb c "y" then Ok (VTriple x g z)
                     else if String.eqb c "z" then Ok (VTriple x y g) else Err TypeError
  | _ => Err AttributeError
  end.
Definition get_component (c : string) (v : val flt) : option (nat -> flt) :=
  match v with
  | VTriple x y z => if String.eqb c "x" then x else if String.eqb c "y" then y else if String.eqb c "z" then z else None
  | _ => None
  end.
(** [solve] (lines 103-155). [op] gives the tangential displacements of loads at all points,
    [im_sum] is the sum of the influence matrix; the materials have influence matrices. [fuel] bounds
    the passes of the solver. [previous_result] is never set, so it is left out; the in place addition to
    an array of displacements is modelled as a new array. *)
Definition partial_slip_solve (fuel N : nat) (op : vec -> vec) (im_sum : flt) (m : partial_slip) (st : state flt) : option (result (state flt)) :=
  match find_grid "maximum_tangential_force" st, find_mask "contact_nodes" st with
  | Err e, _ | _, Err e => Some (Err e)
  | Ok mx, Ok contact =>
      if load_controlled m then Some (Err NotImplementedError)
      else match set_displacement m st with
      | Err e => Some (Err e)
      | Ok d =>
          let dom := filter contact (seq 0 N) in
          let n := List.length dom in
          let x0 := fun i => fdiv (d i) im_sum in
          match bccg fuel n (fun v => gather dom (op (scatter dom v))) (gather dom d) (q_tol m) (q_max_it m) (gather dom x0) (Fin 0) (gather dom mx) 1 with
          | None => None
          | Some (found, _) =>
              let full := scatter dom found in
              let stick := fun i => contact i && fltb (full i) (fmul (Fin (99 / 100)) (mx i)) in
              let st1 := dset "stick_nodes" (VMask stick) st in
              let deformation := op (scatter dom found) in
              let none := VTriple None None None in
              let loads := match dget "loads" st1 with Some v => v | None => none end in
              Some (bind (set_component (component m) (Some full) loads) (fun loads' =>
              let st2 := dset "loads" loads' st1 in
              let disps := match dget "total_displacement" st2 with Some v => v | None => none end in
              let total := match get_component (component m) disps with
                           | Some u => fun i => fadd (u i) (deformation i)
                           | None => deformation
                           end in
              bind (set_component (component m) (Some total) disps) (fun disps' =>
              let slip := fun i => if stick i || negb (contact i) then Fin 0 else fsub (d i) (deformation i) in
              Ok (dset "slip_distance" (VGrid slip) (dset "total_displacement" disps' st2)))))
          end
      end
  end.
