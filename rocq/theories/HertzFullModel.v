(** Model of the full Hertz solution, /repo/slippy/contact/hertz.py lines 479-1272 ([hertz_full] and the
    functions it returns). *)
From Coq Require Import Reals List Bool.
From Verif Require Import Py SurfaceModel Flt.
Import ListNotations.
Local Open Scope R_scope.

(** Floats are real numbers without rounding; a radius can be infinite. Moduli are taken to be positive (with a zero
    numpy would go on with infinity). *)
Inductive radius := Flat | Rad (r : R).

(** lines 1224-1249 ([_sanitise_radii]). A single number is the one element list. *)
Definition is_zero (r : radius) : bool := match r with Flat => false | Rad x => Reqb x 0 end.
Definition sanitise_radii (l : list radius) : result (radius * radius) :=
  match (match l with [a] => [a; a] | _ => l end) with
  | [a; b] => if is_zero a || is_zero b then Err ValueError else Ok (a, b)
  | _ => Err ValueError
  end.
(** lines 1252-1272 ([_sanitise_material]). The check for zeros is never made: the name is never ['e']. *)
Definition sanitise_material (l : list R) : result (R * R) :=
  match (match l with [a] => [a; a] | _ => l end) with
  | [a; b] => Ok (a, b)
  | _ => Err ValueError
  end.
(** [1 / r] *)
Definition curvature (r : radius) : R := match r with Flat => 0 | Rad x => 1 / x end.

(** lines 585-586: [angle % np.pi] and the shift to half open interval from -pi/2 to pi/2. *)
Definition pi_mod (x : R) : R := x - PI * IZR (Int_part (x / PI)).
Definition norm_angle (x : R) : R := let a := pi_mod x in if Rltb a (PI / 2) then a else a - PI.

(** [np.arctan2(y, x)]; [neg] is the sign of [y] where it is zero. A zero [x] is a positive one: it comes from a
    sum which is not of two negative zeros. *)
Definition arctan2 (neg : bool) (y x : R) : R :=
  if Rltb 0 x then atan (y / x)
  else if Rltb x 0 then if Rltb 0 y || (Reqb y 0 && negb neg) then atan (y / x) + PI else atan (y / x) - PI
  else if Rltb 0 y then PI / 2 else if Rltb y 0 then - PI / 2 else 0.
(** lines 597 and 598: half the angle of [a exp(i t) + b]. The sign of the zero is that of a product. *)
Definition half_angle (a b t : R) : R :=
  arctan2 (xorb (Rltb a 0) (Rltb t 0)) (a * sin t) (a * cos t + b) / 2.

(** [1 / k] with [np.errstate(divide='ignore')] *)
Definition inverse (k : R) : flt := if Reqb k 0 then PInf else Fin (1 / k).

(** lines 992-1043 ([_pressure_line_contact]). *)
Definition line_pressure (a load : R) (neg : bool) (x : R) : R :=
  let x := Rmin (Rmax x (- a)) a in
  let p := 2 * load / PI / a ^ 2 * sqrt (a ^ 2 - x ^ 2) in
  if neg then -1 * p else p.
(** lines 925-989 ([_stress_line_contact]): the stresses sigma_x, sigma_z and tau_xz. *)
Definition np_sign (x : R) : R := if Rltb 0 x then 1 else if Rltb x 0 then -1 else 0.
Definition line_stress (a p0 x z : R) : flt * flt * flt :=
  let a2 := a ^ 2 in
  let c := 0.5 * (sqrt ((a2 - x ^ 2 + z ^ 2) ^ 2 + 4 * x ^ 2 * z ^ 2) + (a2 - x ^ 2 + z ^ 2)) in
  let m := np_sign z * c in
  let n := np_sign x * c in
  let q := fdiv (Fin (z ^ 2 + n ^ 2)) (Fin (m ^ 2 + n ^ 2)) in
  (fmul (Fin (-1 * p0 / a)) (fsub (fmul (Fin m) (fadd (Fin 1) q)) (Fin (2 * z))),
   fmul (Fin (-1 * p0 / a * m)) (fadd (Fin 1) q),
   fmul (Fin (-1 * p0 / a * n)) (fdiv (Fin (m ^ 2 - z ^ 2)) (Fin (m ^ 2 + n ^ 2)))).

(** lines 1049-1088 ([_stress_z_axis_spherical]): the stresses in radial (and hoop) and axial direction. At depth
    zero the arctan is that of infinity. *)
Definition axis_stress (a p0 v z : R) : R * R :=
  let at' := if Reqb z 0 then PI / 2 else atan (a / z) in
  (p0 * (- (1 + v) * (1 - z / a * at') + 0.5 * 1 / (1 + z ^ 2 / a ^ 2)), - p0 / (1 + z ^ 2 / a ^ 2)).
(** lines 1091-1134 ([_stress_surface_spherical]): radial, hoop and axial stress. *)
Definition surface_stress (a p0 v r : R) : flt * flt * flt :=
  if Rleb r a then
    let s := 1 - r ^ 2 / a ^ 2 in
    let t := fmul (fmul (Fin ((1 - 2 * v) / 3)) (fdiv (Fin (a ^ 2)) (Fin (r ^ 2)))) (Fin (1 - s * sqrt s)) in
    (fmul (Fin p0) (fsub t (Fin (sqrt s))),
     fmul (Fin (- p0)) (fsub t (Fin (2 * v * sqrt s))),
     Fin (- sqrt s * p0))
  else
    let o := fdiv (Fin (p0 * (1 - 2 * v) * a ^ 2 / 3)) (Fin (r ^ 2)) in
    (o, fneg o, Fin 0).
(** lines 1137-1173 ([_pressure_spherical_contact]). *)
Definition sphere_pressure (a p0 x y : R) : R :=
  let r := sqrt (x ^ 2 + y ^ 2) in
  p0 * sqrt (Rmax 0 (1 - (r / a) ^ 2)).
(** lines 1176-1221 ([_displacement_spherical_contact]): the displacement into the surface and the radial one.
    A not a number at the centre is replaced by zero. *)
Definition sphere_uz (e v a p0 x y : R) : R :=
  let r := sqrt (x ^ 2 + y ^ 2) in
  if Rleb r a then (1 - v ^ 2) * PI * p0 / (e * 4 * a) * (2 * a ^ 2 - r ^ 2)
  else (1 - v ^ 2) * p0 / (e * 2 * a) * ((2 * a ^ 2 - r ^ 2) * asin (a / r) + r * a * sqrt (1 - a ^ 2 / r ^ 2)).
Definition sphere_ur (e v a p0 x y : R) : R :=
  let r := sqrt (x ^ 2 + y ^ 2) in
  if Rleb r a then
    if Reqb r 0 then 0
    else let s := 1 - r ^ 2 / a ^ 2 in (1 - 2 * v) * (1 + v) * a ^ 2 * p0 / (3 * e * r) * (1 - s * sqrt s)
  else (1 - 2 * v) * (1 + v) * p0 * a ^ 2 / (3 * e * r).

(** lines 870-881 ([_transform_axes]) and 765-802 ([_pressure_elliptical_contact]); [angle] is the one of the chosen
    axes, zero for those of the contact. *)
Definition rotate (angle x y : R) : R * R := (x * cos angle - y * sin angle, x * sin angle + y * cos angle).
Definition ellipse_pressure (a b p0 : R) (angle : option R) (x y : R) : R :=
  let '(x, y) := match angle with None => (x, y) | Some g => rotate g x y end in
  p0 * sqrt (Rmax 0 (1 - (x / a) ^ 2 - (y / b) ^ 2)).

(** The results that are modelled. *)
Record line_res := { li_radii : flt * flt; li_width : R; li_mean : R; li_p0 : R; li_pressure : R -> R; li_tensile : R -> R;
  li_stress : R -> R -> flt * flt * flt; li_mises : R * R; li_deflection : R }.
Record sphere_res := { sp_radius : R; sp_area : R; sp_mean : R; sp_p0 : R; sp_deflection : R;
  sp_pressure : R -> R -> R; sp_uz : (R -> R -> R) * (R -> R -> R); sp_ur : (R -> R -> R) * (R -> R -> R);
  sp_tensile : R * R; sp_axis : (R -> R * R) * (R -> R * R);
  sp_surface : (R -> flt * flt * flt) * (R -> flt * flt * flt) }.
Record ellipse_res := { el_a : R; el_b : R; el_area : R; el_mean : R; el_p0 : R; el_deflection : R * R;
  el_pressure : option R -> R -> R -> R; el_axes : R * R }.
(** [EllipseNaN]: the auxiliary angle is not a number, nor are the results. *)
Inductive contact := Line (l : line_res) | Sphere (s : sphere_res) | Ellipse (e : ellipse_res) | EllipseNaN.
Record full := { f_alpha : R; f_beta : R; f_radii : flt * flt; f_e_star : R; f_contact : contact }.

(** lines 644-645: the constants of Green for the von Mises stress. *)
Definition mises_c (v : R) : R :=
  if Rleb v 0.1938 then 1 / sqrt (1 + 4 * (v - 1) * v) else 1.164 + 2.975 * v - 2.906 * v ^ 2.

Section Full.
(** [integrate.quad] of the integrals [_i], [_j] and [_h] (lines 895-919). *)
Variables int_i int_j int_h : R -> R.
(** [optimize.brentq] for the function [_k_root] (lines 887-892), given the auxiliary angle or not a number. *)
Variable find_k : option R -> result R.

(** lines 627-662 *)
Definition full_line (rel1 rel2 : flt) (e : R) (v : R * R) (load : R) : line_res :=
  let r := match fmin rel1 rel2 with Fin r => r | _ => 0 end in
  let a := sqrt (4 * load * r / PI / e) in
  let rad q := match q with PInf => PInf | _ => Fin a end in
  let p0 := 2 * load / PI / a in
  {| li_radii := (rad rel1, rad rel2); li_width := a; li_mean := load / a; li_p0 := p0;
     li_pressure := line_pressure a load false; li_tensile := line_pressure a load true;
     li_stress := line_stress a p0; li_mises := (mises_c (fst v) * p0, mises_c (snd v) * p0);
     li_deflection := 1 / PI / e * load * (ln (4 * PI * e * r / load) - 1) |}.
(** lines 664-695 *)
Definition full_sphere (r e : R) (m v : R * R) (load : R) : sphere_res :=
  let a := Rpower (3 * load * r / 4 / e) (1 / 3) in
  let area := PI * a ^ 2 in
  let p0 := 3 * load / (2 * PI * a ^ 2) in
  {| sp_radius := a; sp_area := area; sp_mean := load / area; sp_p0 := p0; sp_deflection := a ^ 2 / r;
     sp_pressure := sphere_pressure a p0;
     sp_uz := (sphere_uz (fst m) (fst v) a p0, sphere_uz (snd m) (snd v) a p0);
     sp_ur := (sphere_ur (fst m) (fst v) a p0, sphere_ur (snd m) (snd v) a p0);
     sp_tensile := ((1 - 2 * fst v) * p0 / 3, (1 - 2 * snd v) * p0 / 3);
     sp_axis := (axis_stress a p0 (fst v), axis_stress a p0 (snd v));
     sp_surface := (surface_stress a p0 (fst v), surface_stress a p0 (snd v)) |}.
(** lines 706-710: the auxiliary angle. *)
Definition aux_angle (r1 r2 : radius * radius) (angle : R) : option R :=
  let r := curvature (fst r1) + curvature (snd r1) + curvature (fst r2) + curvature (snd r2) in
  let q1 := curvature (fst r1) - curvature (snd r1) in
  let q2 := curvature (fst r2) - curvature (snd r2) in
  let x := sqrt (q1 ^ 2 + q2 ^ 2 + q1 * q2 * cos (2 * angle)) / r in
  if Rleb (Rabs x) 1 then Some (acos x) else None.
(** lines 697-758 *)
Definition full_ellipse (r1 r2 : radius * radius) (m v : R * R) (load angle alpha beta : R) (rel1 rel2 : flt)
    : result contact :=
  let th1 := 4 * (1 - fst v ^ 2) / fst m in
  let th2 := 4 * (1 - snd v ^ 2) / snd m in
  let r := curvature (fst r1) + curvature (snd r1) + curvature (fst r2) + curvature (snd r2) in
  let omega := aux_angle r1 r2 angle in
  bind (find_k omega) (fun k =>
  match omega with
  | None => Ok EllipseNaN
  | Some w =>
    let f := Rpower (2 * int_i k / PI / sin (w / 2) ^ 2) (1 / 3) in
    let g := Rpower (2 * int_j k / PI / cos (w / 2) ^ 2) (1 / 3) in
    let c := Rpower (3 * load / 8 / r * (th1 + th2)) (1 / 3) in
    let a := f * c in
    let b := g * c in
    let q := a * b * PI in
    let alpha1 := 3 * load * th1 * int_h k / a / 8 / PI in
    let p0 := 3 * load / 2 / q in
    let '(alpha, beta) := if fltb rel1 rel2 then (alpha + PI / 2, beta + PI / 2) else (alpha, beta) in
    Ok (Ellipse {| el_a := a; el_b := b; el_area := q; el_mean := p0 / q; el_p0 := p0;
      el_deflection := (alpha1, alpha1 * th2 / th1); el_pressure := ellipse_pressure a b p0; el_axes := (alpha, beta) |})
  end).

(** lines 479-759 ([hertz_full]) *)
Definition hertz_full (r1 r2 : list radius) (moduli v : list R) (load angle : R) (line : bool) : result full :=
  bind (sanitise_radii r1) (fun r1 => bind (sanitise_radii r2) (fun r2 =>
  bind (sanitise_material moduli) (fun m => bind (sanitise_material v) (fun v =>
  let angle := norm_angle angle in
  if Rleb load 0 then Err ValueError
  else
  let ca := curvature (fst r2) - curvature (snd r2) in
  let cb := curvature (fst r1) - curvature (snd r1) in
  let t := 2 * angle in
  let alpha := half_angle ca cb t in
  let beta := half_angle cb ca t in
  if Rltb 1e-8 (Rabs (alpha + beta - angle)) then Err ValueError
  else
  let k1 := cos alpha ^ 2 * curvature (fst r1) + sin alpha ^ 2 * curvature (snd r1)
            + cos beta ^ 2 * curvature (fst r2) + sin beta ^ 2 * curvature (snd r2) in
  let k2 := sin alpha ^ 2 * curvature (fst r1) + cos alpha ^ 2 * curvature (snd r1)
            + sin beta ^ 2 * curvature (fst r2) + cos beta ^ 2 * curvature (snd r2) in
  let rel1 := inverse k1 in
  let rel2 := inverse k2 in
  let e := 1 / ((1 - fst v ^ 2) / fst m + (1 - snd v ^ 2) / snd m) in
  let done c := Ok {| f_alpha := alpha; f_beta := beta; f_radii := (rel1, rel2); f_e_star := e; f_contact := c |} in
  if fltb rel1 (Fin 0) || fltb rel2 (Fin 0) then Err ValueError
  else match rel1, rel2 with
  | PInf, PInf => Err ValueError
  | _, _ =>
    if fltb (Fin 100000) (fdiv rel1 rel2) || fltb (Fin 100000) (fdiv rel2 rel1) then
      if line then done (Line (full_line rel1 rel2 e v load)) else Err ValueError
    else match rel1, rel2 with
    | Fin x, Fin y =>
      if Reqb x y then if line then Err ValueError else done (Sphere (full_sphere x e m v load))
      else if line then Err ValueError
      else bind (full_ellipse r1 r2 m v load angle alpha beta rel1 rel2) done
    | _, _ => Err ValueError (* not reached: one infinite radius makes a line *)
    end
  end)))).
End Full.
