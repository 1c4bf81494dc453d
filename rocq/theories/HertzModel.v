(** Model of the functions which solve Hertz contacts for one missing quantity,
    /repo/slippy/contact/hertz.py lines 23-476. *)
From Coq Require Import Reals List Bool.
From Verif Require Import Py SurfaceModel Flt.
Import ListNotations.
Local Open Scope R_scope.

(** Inputs are [None] or real numbers (floats, no rounding). Results can be not a number, from
    [np.sqrt] of a negative number; a complex number (from [** (1 / 3)] of a negative float) is
    written as not a number, too. *)

(** Arithmetic with [None] raises [TypeError]; division of floats by zero [ZeroDivisionError]. *)
Definition val (o : option R) : result R := match o with Some x => Ok x | None => Err TypeError end.
Definition pdiv (a b : R) : result R := if Reqb b 0 then Err ZeroDivisionError else Ok (a / b).
(** Inside of an expression with a symbol a division by zero or a root of a negative number gives
    nothing real: [None]. *)
Definition odiv (a b : R) : option R := if Reqb b 0 then None else Some (a / b).
Definition ocbrt (x : R) : option R :=
  if Rltb 0 x then Some (Rpower x (1 / 3)) else if Reqb x 0 then Some 0 else None.
Definition fcbrt (x : R) : flt := match ocbrt x with Some y => Fin y | None => NaN end.
Definition obind {A B} (o : option A) (f : A -> option B) : option B :=
  match o with Some a => f a | None => None end.

(** The independent parameters: [_system], lines 103 and 294. *)
Record given := { g_r : option R; g_e1 : option R; g_e2 : option R; g_v1 : option R; g_v2 : option R;
                  g_load : option R }.
Definition missing (o : option R) : bool := match o with None => true | _ => false end.
(** [sum(mats_none)] *)
Definition mats_none (g : given) : nat :=
  List.length (filter missing [g_e1 g; g_e2 g; g_v1 g; g_v2 g]).
(** [is_none] *)
Inductive unknown := UE | UR | UL.

(** lines 111, 181, 304, 455: [1 / ((1 - v1 ** 2) / e1 + (1 - v2 ** 2) / e2)] *)
Definition reduced (e1 e2 v1 v2 : R) : result R :=
  bind (pdiv (1 - v1 ^ 2) e1) (fun a => bind (pdiv (1 - v2 ^ 2) e2) (fun b => pdiv 1 (a + b))).
Definition reduced_of (g : given) : result R :=
  bind (val (g_v1 g)) (fun v1 => bind (val (g_e1 g)) (fun e1 =>
  bind (val (g_v2 g)) (fun v2 => bind (val (g_e2 g)) (fun e2 => reduced e1 e2 v1 v2)))).

Section WithSolvers.
(** [sympy.solve] of an expression in one symbol: its real roots. Complex roots are left out here:
    with them [max] raises [TypeError], without roots [ValueError]. *)
Variable solve : (R -> option R) -> list R.
(** [scipy.optimize.root] with a starting value; [None] is a failure. *)
Variable root : (R -> result R) -> R -> result (option R).

(** [float(max(solve(...)))]. For point contacts the material parameter in lines 404-406 is not converted
    to a float; it stays a number of sympy. *)
Definition max_root (f : R -> option R) : result R :=
  match solve f with
  | [] => Err ValueError
  | x :: t => Ok (fold_left Rmax t x)
  end.

(** lines 107-117 and 300-309: which quantity is solved for and the reduced modulus. *)
Definition find_unknown (g : given) : result (unknown * option R) :=
  if Nat.ltb 0 (mats_none g) then Ok (UE, None)
  else bind (reduced_of g) (fun e => Ok (match g_r g with None => UR | Some _ => UL end, Some e)).

(** [max(solve(equation, _system[is_none]))]: the equation in terms of load, radius and modulus with the
    unknown as symbol. *)
Definition solve_unknown (u : unknown) (es : option R) (g : given) (eq : R -> R -> R -> option R) : result R :=
  match u with
  | UE => bind (val (g_load g)) (fun l => bind (val (g_r g)) (fun r => max_root (fun x => eq l r x)))
  | UR => bind (val (g_load g)) (fun l => bind (val es) (fun e => max_root (fun x => eq l x e)))
  | UL => bind (val es) (fun e => bind (val (g_r g)) (fun r => max_root (fun x => eq x r e)))
  end.

(** Writing the solution in the system. *)
Definition set_r (g : given) (x : R) := {| g_r := Some x; g_e1 := g_e1 g; g_e2 := g_e2 g; g_v1 := g_v1 g; g_v2 := g_v2 g; g_load := g_load g |}.
Definition set_load (g : given) (x : R) := {| g_r := g_r g; g_e1 := g_e1 g; g_e2 := g_e2 g; g_v1 := g_v1 g; g_v2 := g_v2 g; g_load := Some x |}.
Definition set_e1 (g : given) (x : R) := {| g_r := g_r g; g_e1 := Some x; g_e2 := g_e2 g; g_v1 := g_v1 g; g_v2 := g_v2 g; g_load := g_load g |}.
Definition set_e2 (g : given) (x : R) := {| g_r := g_r g; g_e1 := g_e1 g; g_e2 := Some x; g_v1 := g_v1 g; g_v2 := g_v2 g; g_load := g_load g |}.
Definition set_v1 (g : given) (x : R) := {| g_r := g_r g; g_e1 := g_e1 g; g_e2 := g_e2 g; g_v1 := Some x; g_v2 := g_v2 g; g_load := g_load g |}.
Definition set_v2 (g : given) (x : R) := {| g_r := g_r g; g_e1 := g_e1 g; g_e2 := g_e2 g; g_v1 := g_v1 g; g_v2 := Some x; g_load := g_load g |}.

(** What the sorting out of the materials gives: a full system, or one with both Poisson's ratios
    not a number. *)
Inductive sorted := Full (g : given) | NanRatios (g : given).

(** lines 155-160 and 400-406: the equation for one missing material parameter. *)
Definition material_eq (e : R) (e1 e2 v1 v2 : R) : option R :=
  obind (odiv (1 - v1 ^ 2) e1) (fun a => obind (odiv (1 - v2 ^ 2) e2) (fun b => Some (a + b - 1 / e))).
(** lines 139-165 and 384-409. *)
Definition sort_materials (g : given) (e : R) : result sorted :=
  match mats_none g with
  | 2%nat =>
    match g_e1 g, g_e2 g, g_v1 g, g_v2 g with
    | None, None, Some v1, Some v2 =>
        let e1 := e * (2 - v1 ^ 2 - v2 ^ 2) in Ok (Full (set_e2 (set_e1 g e1) e1))
    | Some e1, Some e2, None, None =>
        bind (pdiv 1 e) (fun i => bind (pdiv 1 e1) (fun a => bind (pdiv 1 e2) (fun b =>
        match fsqrt (Fin (i * (a + b) - 1)) with
        | Fin v => Ok (Full (set_v2 (set_v1 g v) v))
        | _ => Ok (NanRatios g)
        end)))
    | _, _, _, _ => Err ValueError
    end
  | 1%nat =>
    bind (pdiv 1 e) (fun _ =>
    match g_e1 g, g_e2 g, g_v1 g, g_v2 g with
    | None, Some e2, Some v1, Some v2 => bind (max_root (fun x => material_eq e x e2 v1 v2)) (fun x => Ok (Full (set_e1 g x)))
    | Some e1, None, Some v1, Some v2 => bind (max_root (fun x => material_eq e e1 x v1 v2)) (fun x => Ok (Full (set_e2 g x)))
    | Some e1, Some e2, None, Some v2 => bind (max_root (fun x => material_eq e e1 e2 x v2)) (fun x => Ok (Full (set_v1 g x)))
    | Some e1, Some e2, Some v1, None => bind (max_root (fun x => material_eq e e1 e2 v1 x)) (fun x => Ok (Full (set_v2 g x)))
    | _, _, _, _ => Err ValueError
    end)
  | _ => Err ValueError
  end.
(** The unknown is written in the system, then the materials are sorted out. *)
Definition sort_out (g : given) (u : unknown) (x : R) : result sorted :=
  match u with
  | UE => sort_materials g x
  | UR => Ok (Full (set_r g x))
  | UL => Ok (Full (set_load g x))
  end.

(** ** Line contacts *)

(** lines 18-20 *)
Record line_sol := { l_r : R; l_e1 : R; l_e2 : R; l_v1 : flt; l_v2 : flt; l_load : R; l_e_star : flt;
  l_width : flt; l_pressure : flt; l_shear : flt; l_mises : flt }.

(** lines 182-183: the ratio of the maximum pressure and the maximum von Mises stress. *)
Definition line_c (v : R) : result R :=
  if Rleb v 0.1938 then pdiv 1 (sqrt (1 + 4 * (v - 1) * v)) else Ok (1.164 + 2.975 * v - 2.906 * v ^ 2).

(** lines 172-195 ([_fill_hertz_solution_line]). Missing parameters raise [TypeError], which is not the
    [ValueError] that is caught. *)
Definition fill_line (g : given) : result line_sol :=
  bind (reduced_of g) (fun e => bind (val (g_v1 g)) (fun v1 => bind (line_c v1) (fun c =>
  bind (val (g_load g)) (fun load => bind (val (g_r g)) (fun r =>
  bind (pdiv (4 * load * r) e) (fun w2 => bind (pdiv (load * e / PI) r) (fun p2 =>
  bind (val (g_v2 g)) (fun v2 => bind (val (g_e1 g)) (fun e1 => bind (val (g_e2 g)) (fun e2 =>
  let p := fsqrt (Fin p2) in
  Ok {| l_r := r; l_e1 := e1; l_e2 := e2; l_v1 := Fin v1; l_v2 := Fin v2; l_load := load; l_e_star := Fin e;
        l_width := fsqrt (Fin (w2 / PI)); l_pressure := p; l_shear := fmul p (Fin 0.3);
        l_mises := fdiv p (Fin c) |})))))))))).
(** The same with both ratios not a number. *)
Definition fill_line_nan (g : given) : result line_sol :=
  bind (val (g_e1 g)) (fun e1 => bind (val (g_e2 g)) (fun e2 =>
  bind (val (g_load g)) (fun load => bind (val (g_r g)) (fun r =>
  Ok {| l_r := r; l_e1 := e1; l_e2 := e2; l_v1 := NaN; l_v2 := NaN; l_load := load; l_e_star := NaN;
        l_width := NaN; l_pressure := NaN; l_shear := NaN; l_mises := NaN |})))).

(** The dependent parameters of a line contact. *)
Record line_der := { d_pressure : option R; d_shear : option R; d_mises : option R; d_width : option R }.

(** lines 121-122, 125-126, 132-133 *)
Definition line_pressure_eq (p l r e : R) : option R := obind (odiv (l * e / PI) r) (fun q => Some (q - p ^ 2)).
Definition line_shear_eq (t l r e : R) : option R := obind (odiv (0.3 ^ 2 * l * e / PI) r) (fun q => Some (q - t ^ 2)).
Definition line_width_eq (w l r e : R) : option R := obind (odiv (4 * l * r / PI) e) (fun q => Some (q - w ^ 2)).

(** lines 23-169 ([solve_hertz_line]) *)
Definition solve_hertz_line (g : given) (d : line_der) : result line_sol :=
  match d_pressure d, d_shear d, d_mises d, d_width d with
  | None, None, None, None => fill_line g
  | _, _, _, _ =>
    bind (find_unknown g) (fun '(u, es) =>
    bind (match d_pressure d, d_shear d, d_mises d, d_width d with
          | Some p, _, _, _ => solve_unknown u es g (line_pressure_eq p)
          | None, Some t, _, _ => solve_unknown u es g (line_shear_eq t)
          | None, None, Some _, _ => Err NotImplementedError
          | None, None, None, Some w => solve_unknown u es g (line_width_eq w)
          | None, None, None, None => Err ValueError
          end) (fun x =>
    bind (sort_out g u x) (fun s =>
    match s with Full g' => fill_line g' | NanRatios g' => fill_line_nan g' end)))
  end.

(** ** Point contacts *)

(** lines 204-206 *)
Record point_sol := { p_r : R; p_e1 : R; p_e2 : R; p_v1 : flt; p_v2 : flt; p_load : R; p_e_star : flt;
  p_radius : flt; p_pressure : flt; p_tensile : flt; p_shear : flt; p_mises : flt; p_disp : flt }.

(** lines 442-476 ([_fill_hertz_solution_point]) *)
Definition fill_point (g : given) : result point_sol :=
  bind (reduced_of g) (fun e => bind (val (g_v1 g)) (fun v1 =>
  bind (val (g_load g)) (fun load => bind (val (g_r g)) (fun r =>
  bind (pdiv (3 * load * r / 4) e) (fun a3 => bind (pdiv (6 * load * e ^ 2 / PI ^ 3) (r ^ 2)) (fun p3 =>
  bind (val (g_v2 g)) (fun v2 => bind (val (g_e1 g)) (fun e1 => bind (val (g_e2 g)) (fun e2 =>
  let c := 1.30075 + 0.87825 * v1 + 0.54373 * v1 ^ 2 in
  let a := fcbrt a3 in
  let p := fcbrt p3 in
  Ok {| p_r := r; p_e1 := e1; p_e2 := e2; p_v1 := Fin v1; p_v2 := Fin v2; p_load := load; p_e_star := Fin e;
        p_radius := a; p_pressure := p;
        p_tensile := fdiv (fmul (Fin (1 - 2 * v1)) p) (Fin 3);
        p_shear := fmul (Fin 0.46) p; p_mises := fmul p (Fin c);
        p_disp := fdiv (fmul a a) (Fin r) |}))))))))).
Definition fill_point_nan (g : given) : result point_sol :=
  bind (val (g_e1 g)) (fun e1 => bind (val (g_e2 g)) (fun e2 =>
  bind (val (g_load g)) (fun load => bind (val (g_r g)) (fun r =>
  Ok {| p_r := r; p_e1 := e1; p_e2 := e2; p_v1 := NaN; p_v2 := NaN; p_load := load; p_e_star := NaN;
        p_radius := NaN; p_pressure := NaN; p_tensile := NaN; p_shear := NaN; p_mises := NaN;
        p_disp := NaN |})))).

(** The dependent parameters of a point contact. *)
Record point_der := { q_pressure : option R; q_shear : option R; q_mises : option R; q_radius : option R;
  q_disp : option R; q_tensile : option R }.

(** lines 314-315, 319-320, 329-330, 333-334, 338-341 *)
Definition point_pressure_eq (p l r e : R) : option R :=
  obind (odiv (6 * l * e ^ 2 / PI ^ 3) (r ^ 2)) (fun q => Some (q - p ^ 3)).
Definition point_shear_eq (t l r e : R) : option R :=
  obind (odiv (6 * l * e ^ 2 / PI ^ 3) (r ^ 2)) (fun q => obind (ocbrt q) (fun y => Some (0.46 * y - t))).
Definition point_radius_eq (a l r e : R) : option R :=
  obind (odiv (3 * l * r / 4) e) (fun q => Some (q - a ^ 3)).
Definition point_disp_eq (s l r e : R) : option R :=
  obind (odiv (9 * l ^ 2 / 16) r) (fun q => obind (odiv q (e ^ 2)) (fun q => Some (q - s ^ 3))).
Definition point_tensile_eq (v1 t l r e : R) : option R :=
  obind (odiv (6 * l * e ^ 2 / PI ^ 3) (r ^ 2)) (fun q => obind (ocbrt q) (fun y => Some ((1 - 2 * v1) * y / 3 - t))).

(** lines 431-437: the function of [_root_tensile]; with complex values [root] raises. *)
Definition tensile_of (l r e1 e2 v1 v2 : R) : result R :=
  bind (reduced e1 e2 v1 v2) (fun e => bind (pdiv (6 * l * e ^ 2 / PI ^ 3) (r ^ 2)) (fun q =>
  match ocbrt q with Some y => Ok ((1 - 2 * v1) * y / 3) | None => Err TypeError end)).
Definition minus (t : R) (x : result R) : result R := bind x (fun y => Ok (y - t)).

(** lines 336-376: a given tensile stress. *)
Definition solve_tensile (g : given) (u : unknown) (es : option R) (t : R) : result sorted :=
  match u with
  | UE =>
    bind (val (g_load g)) (fun l => bind (val (g_r g)) (fun r =>
    match mats_none g with
    | 2%nat =>
      match g_e1 g, g_e2 g, g_v1 g, g_v2 g with
      | Some e1, Some e2, None, None =>
          bind (max_root (fun v => match minus t (tensile_of l r e1 e2 v v) with Ok x => Some x | Err _ => None end))
               (fun v => Ok (Full (set_v2 (set_v1 g v) v)))
      | None, None, Some _, Some _ => Err KeyError  (* [_system[None]], line 361 *)
      | _, _, _, _ => Err TypeError
      end
    | 1%nat =>
      let finish (set : given -> R -> given) (f : R -> result R) x0 :=
        bind (root f x0) (fun o => match o with None => Err StopIteration | Some x => Ok (Full (set g x)) end) in
      match g_e1 g, g_e2 g, g_v1 g, g_v2 g with
      | None, Some e2, Some v1, Some v2 => finish set_e1 (fun x => minus t (tensile_of l r (Rabs x) e2 v1 v2)) 200000000000
      | Some e1, None, Some v1, Some v2 => finish set_e2 (fun x => minus t (tensile_of l r e1 (Rabs x) v1 v2)) 200000000000
      | Some e1, Some e2, None, Some v2 => finish set_v1 (fun x => minus t (tensile_of l r e1 e2 (Rabs x) v2)) 0.3
      | Some e1, Some e2, Some v1, None => finish set_v2 (fun x => minus t (tensile_of l r e1 e2 v1 (Rabs x))) 0.3
      | _, _, _, _ => Err TypeError
      end
    | _ => Err TypeError
    end))
  | _ => bind (val (g_v1 g)) (fun v1 => bind (solve_unknown u es g (point_tensile_eq v1 t)) (fun x => sort_out g u x))
  end.

(** lines 209-411 ([solve_hertz_point]) *)
Definition solve_hertz_point (g : given) (d : point_der) : result point_sol :=
  match q_pressure d, q_shear d, q_mises d, q_radius d, q_disp d, q_tensile d with
  | None, None, None, None, None, None => fill_point g
  | _, _, _, _, _, _ =>
    bind (find_unknown g) (fun '(u, es) =>
    let by_eq eq := bind (solve_unknown u es g eq) (fun x => sort_out g u x) in
    bind (match q_pressure d, q_shear d, q_mises d, q_radius d, q_disp d, q_tensile d with
          | Some p, _, _, _, _, _ => by_eq (point_pressure_eq p)
          | None, Some t, _, _, _, _ => by_eq (point_shear_eq t)
          | None, None, Some _, _, _, _ => Err NotImplementedError
          | None, None, None, Some a, _, _ => by_eq (point_radius_eq a)
          | None, None, None, None, Some s, _ => by_eq (point_disp_eq s)
          | None, None, None, None, None, Some t => solve_tensile g u es t
          | None, None, None, None, None, None => Err ValueError
          end) (fun s =>
    match s with Full g' => fill_point g' | NanRatios g' => fill_point_nan g' end))
  end.
End WithSolvers.
