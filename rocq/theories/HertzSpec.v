(** Hertz theory for line and point contacts, and the questions which can be asked. *)
From Coq Require Import Reals List Bool.
From Verif Require Import Py Flt HertzModel.
Import ListNotations.
Local Open Scope R_scope.

(** A physical system: radius, moduli and load are positive, the ratios between 0 and 1. *)
Record system := { s_r : R; s_e1 : R; s_e2 : R; s_v1 : R; s_v2 : R; s_load : R }.
Definition physical (s : system) : Prop :=
  0 < s_r s /\ 0 < s_e1 s /\ 0 < s_e2 s /\ 0 <= s_v1 s < 1 /\ 0 <= s_v2 s < 1 /\ 0 < s_load s.

(** The reduced modulus. *)
Definition e_star (s : system) : R := / ((1 - s_v1 s ^ 2) / s_e1 s + (1 - s_v2 s ^ 2) / s_e2 s).

(** Line contact: half width, maximum pressure (the load is pi/2 times half width times maximum pressure),
    and the stress factors of the documentation. *)
Definition line_a (s : system) : R := sqrt (4 * s_load s * s_r s / (PI * e_star s)).
Definition line_p (s : system) : R := 2 * s_load s / (PI * line_a s).
Definition line_mises (s : system) : R :=
  if Rle_dec (s_v1 s) 0.1938 then line_p s * (1 - 2 * s_v1 s)
  else line_p s / (1.164 + 2.975 * s_v1 s - 2.906 * s_v1 s ^ 2).
Definition line_solution (s : system) : line_sol :=
  {| l_r := s_r s; l_e1 := s_e1 s; l_e2 := s_e2 s; l_v1 := Fin (s_v1 s); l_v2 := Fin (s_v2 s); l_load := s_load s;
     l_e_star := Fin (e_star s); l_width := Fin (line_a s); l_pressure := Fin (line_p s);
     l_shear := Fin (0.3 * line_p s); l_mises := Fin (line_mises s) |}.

(** Point contact: the load is 2/3 of the maximum pressure times the contact area. *)
Definition point_a (s : system) : R := Rpower (3 * s_load s * s_r s / (4 * e_star s)) (/ 3).
Definition point_p (s : system) : R := 3 * s_load s / (2 * (PI * point_a s ^ 2)).
Definition point_solution (s : system) : point_sol :=
  {| p_r := s_r s; p_e1 := s_e1 s; p_e2 := s_e2 s; p_v1 := Fin (s_v1 s); p_v2 := Fin (s_v2 s); p_load := s_load s;
     p_e_star := Fin (e_star s); p_radius := Fin (point_a s); p_pressure := Fin (point_p s);
     p_tensile := Fin ((1 - 2 * s_v1 s) * point_p s / 3); p_shear := Fin (0.46 * point_p s);
     p_mises := Fin ((1.30075 + 0.87825 * s_v1 s + 0.54373 * s_v1 s ^ 2) * point_p s);
     p_disp := Fin (point_a s ^ 2 / s_r s) |}.

(** All independent parameters are given, or one of them (or both moduli) is left out. *)
Definition all_given (s : system) : given :=
  {| g_r := Some (s_r s); g_e1 := Some (s_e1 s); g_e2 := Some (s_e2 s); g_v1 := Some (s_v1 s);
     g_v2 := Some (s_v2 s); g_load := Some (s_load s) |}.
Inductive hidden := HLoad | HRadius | HModulus1 | HModulus2 | HRatio1 | HRatio2 | HModuli.
Definition hide (h : hidden) (s : system) : given :=
  let g := all_given s in
  match h with
  | HLoad => {| g_r := g_r g; g_e1 := g_e1 g; g_e2 := g_e2 g; g_v1 := g_v1 g; g_v2 := g_v2 g; g_load := None |}
  | HRadius => {| g_r := None; g_e1 := g_e1 g; g_e2 := g_e2 g; g_v1 := g_v1 g; g_v2 := g_v2 g; g_load := g_load g |}
  | HModulus1 => {| g_r := g_r g; g_e1 := None; g_e2 := g_e2 g; g_v1 := g_v1 g; g_v2 := g_v2 g; g_load := g_load g |}
  | HModulus2 => {| g_r := g_r g; g_e1 := g_e1 g; g_e2 := None; g_v1 := g_v1 g; g_v2 := g_v2 g; g_load := g_load g |}
  | HRatio1 => {| g_r := g_r g; g_e1 := g_e1 g; g_e2 := g_e2 g; g_v1 := None; g_v2 := g_v2 g; g_load := g_load g |}
  | HRatio2 => {| g_r := g_r g; g_e1 := g_e1 g; g_e2 := g_e2 g; g_v1 := g_v1 g; g_v2 := None; g_load := g_load g |}
  | HModuli => {| g_r := g_r g; g_e1 := None; g_e2 := None; g_v1 := g_v1 g; g_v2 := g_v2 g; g_load := g_load g |}
  end.
Definition hide_ratios (s : system) : given :=
  {| g_r := Some (s_r s); g_e1 := Some (s_e1 s); g_e2 := Some (s_e2 s); g_v1 := None; g_v2 := None;
     g_load := Some (s_load s) |}.
(** Both moduli can only be found when they are equal. *)
Definition findable (h : hidden) (s : system) : Prop := h = HModuli -> s_e1 s = s_e2 s.

(** The dependent quantity which is requested instead. *)
Definition no_line : line_der := {| d_pressure := None; d_shear := None; d_mises := None; d_width := None |}.
Inductive line_request := LPressure | LShear | LWidth.
Definition line_asked (q : line_request) (x : R) : line_der :=
  match q with
  | LPressure => {| d_pressure := Some x; d_shear := None; d_mises := None; d_width := None |}
  | LShear => {| d_pressure := None; d_shear := Some x; d_mises := None; d_width := None |}
  | LWidth => {| d_pressure := None; d_shear := None; d_mises := None; d_width := Some x |}
  end.
Definition line_value (q : line_request) (s : system) : R :=
  match q with LPressure => line_p s | LShear => 0.3 * line_p s | LWidth => line_a s end.
Definition line_field (q : line_request) (l : line_sol) : flt :=
  match q with LPressure => l_pressure l | LShear => l_shear l | LWidth => l_width l end.

Definition no_point : point_der :=
  {| q_pressure := None; q_shear := None; q_mises := None; q_radius := None; q_disp := None; q_tensile := None |}.
Inductive point_request := PPressure | PShear | PRadius | PDisplacement.
Definition point_asked (q : point_request) (x : R) : point_der :=
  match q with
  | PPressure => {| q_pressure := Some x; q_shear := None; q_mises := None; q_radius := None; q_disp := None; q_tensile := None |}
  | PShear => {| q_pressure := None; q_shear := Some x; q_mises := None; q_radius := None; q_disp := None; q_tensile := None |}
  | PRadius => {| q_pressure := None; q_shear := None; q_mises := None; q_radius := Some x; q_disp := None; q_tensile := None |}
  | PDisplacement => {| q_pressure := None; q_shear := None; q_mises := None; q_radius := None; q_disp := Some x; q_tensile := None |}
  end.
Definition tensile_asked (x : R) : point_der :=
  {| q_pressure := None; q_shear := None; q_mises := None; q_radius := None; q_disp := None; q_tensile := Some x |}.
Definition point_value (q : point_request) (s : system) : R :=
  match q with
  | PPressure => point_p s | PShear => 0.46 * point_p s | PRadius => point_a s
  | PDisplacement => point_a s ^ 2 / s_r s
  end.
Definition point_field (q : point_request) (l : point_sol) : flt :=
  match q with
  | PPressure => p_pressure l | PShear => p_shear l | PRadius => p_radius l | PDisplacement => p_disp l
  end.

(** What is assumed of the symbolic solver: whenever an equation has finitely many real roots it gives
    exactly these, in any order. *)
Definition exact (solve : (R -> option R) -> list R) : Prop :=
  forall f l, (forall x, f x = Some 0 <-> In x l) -> forall x, In x (solve f) <-> f x = Some 0.
(** What is assumed of the numerical solver: a value which it returns as a success is a root. *)
Definition sound_root (root : (R -> result R) -> R -> result (option R)) : Prop :=
  forall f x0 x, root f x0 = Ok (Some x) -> f x = Ok 0.
