(** Waves on a surface and their direction (C128). *)
From Coq Require Import Reals List Bool Arith.
From Verif Require Import Flt RoughModel RoughSpec.
Local Open Scope R_scope.

(** A profile that is a cosine wave with the amplitude [A], [u] periods over all rows and [v] over all columns, and any phase. *)
Definition is_wave (p : arr) (A phi : R) (u v : nat) : Prop :=
  heights_are p everywhere (fun i j => A * cos (2 * PI * (INR u * INR i / INR (nrows p) + INR v * INR j / INR (ncols p)) + phi)).
(** The columns in the opposite order. *)
Definition mirrored (p : arr) : arr := Arr (whole p) (nrows p) (ncols p) (fun i j => h_at p i (ncols p - 1 - j)).
(** How strong the wave with [s] periods over the rows and [t] over the columns is in the heights [z]: the square of its Fourier coefficient. *)
Definition strength (r c : nat) (z : nat -> nat -> R) (s t : nat) : R :=
  let part f := sum_to r (fun i => sum_to c (fun j => z i j * f (2 * PI * (INR s * INR i / INR r + INR t * INR j / INR c)))) in
  part cos ^ 2 + part sin ^ 2.
(** The angle for a wave with [i] periods over the rows and [j] over the columns; a constant has none. *)
Definition angle (i j : nat) : flt :=
  match j with O => match i with O => NaN | _ => Fin (PI / 2) end | _ => Fin (- atan (INR i / INR j)) end.
