(** Floating point numbers with infinities and not a number. The finite ones are real numbers
    (no rounding, no overflow, one zero). *)
From Coq Require Import Reals Bool.
From Verif Require Import SurfaceModel.
Local Open Scope R_scope.

Inductive flt := Fin (r : R) | PInf | NInf | NaN.

Definition fneg (a : flt) : flt :=
  match a with Fin x => Fin (- x) | PInf => NInf | NInf => PInf | NaN => NaN end.
Definition fadd (a b : flt) : flt :=
  match a, b with
  | NaN, _ | _, NaN => NaN
  | Fin x, Fin y => Fin (x + y)
  | PInf, NInf | NInf, PInf => NaN
  | PInf, _ | _, PInf => PInf
  | _, _ => NInf
  end.
Definition fsub (a b : flt) : flt := fadd a (fneg b).
(** Infinity times x, and x / 0 (the zero counts as positive). *)
Definition signed_inf (x : R) : flt := if Rltb 0 x then PInf else if Rltb x 0 then NInf else NaN.
Definition fmul (a b : flt) : flt :=
  match a, b with
  | NaN, _ | _, NaN => NaN
  | Fin x, Fin y => Fin (x * y)
  | Fin x, PInf | PInf, Fin x => signed_inf x
  | Fin x, NInf | NInf, Fin x => signed_inf (- x)
  | PInf, PInf | NInf, NInf => PInf
  | PInf, NInf | NInf, PInf => NInf
  end.
Definition fdiv (a b : flt) : flt :=
  match a, b with
  | NaN, _ | _, NaN => NaN
  | Fin x, Fin y => if Reqb y 0 then signed_inf x else Fin (x / y)
  | Fin _, _ => Fin 0
  | PInf, Fin y => if Rltb y 0 then NInf else PInf
  | NInf, Fin y => if Rltb y 0 then PInf else NInf
  | _, _ => NaN
  end.
Definition fsqrt (a : flt) : flt :=
  match a with Fin x => if Rltb x 0 then NaN else Fin (sqrt x) | PInf => PInf | NInf | NaN => NaN end.
(** Comparisons with not a number are false. *)
Definition fltb (a b : flt) : bool :=
  match a, b with
  | NaN, _ | _, NaN => false
  | Fin x, Fin y => Rltb x y
  | NInf, NInf | PInf, _ | _, NInf => false
  | _, _ => true
  end.
Definition fleb (a b : flt) : bool :=
  match a, b with
  | NaN, _ | _, NaN => false
  | Fin x, Fin y => Rleb x y
  | NInf, _ | _, PInf => true
  | _, _ => false
  end.
(** [np.maximum], [np.minimum]: not a number is passed on. *)
Definition fmax (a b : flt) : flt :=
  match a, b with NaN, _ | _, NaN => NaN | _, _ => if fltb a b then b else a end.
Definition fmin (a b : flt) : flt :=
  match a, b with NaN, _ | _, NaN => NaN | _, _ => if fltb b a then b else a end.
Definition is_nan (a : flt) : bool := match a with NaN => true | _ => false end.

(** One dimensional arrays; the length is given where it matters. *)
Definition vec := nat -> flt.
Fixpoint dot (n : nat) (a b : vec) : flt :=
  match n with O => Fin 0 | S m => fadd (dot m a b) (fmul (a m) (b m)) end.
Definition norm (n : nat) (a : vec) : flt := fsqrt (dot n a a).
(** [a[mask] = v] *)
Definition put (mask : nat -> bool) (v a : vec) : vec := fun i => if mask i then v i else a i.
Fixpoint any (n : nat) (mask : nat -> bool) : bool :=
  match n with O => false | S m => any m mask || mask m end.
Fixpoint count (n : nat) (mask : nat -> bool) : nat :=
  match n with O => O | S m => (count m mask + if mask m then 1 else 0)%nat end.
