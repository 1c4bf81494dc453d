(** Specification of waves. *)
From Coq Require Import Reals List.
Import ListNotations.
Local Open Scope R_scope.

(** A wave with an amplitude, a frequency (waves per length) and a phase. *)
Definition wave (x : R) (w : R * R * R) : R := let '(f, a, p) := w in a * cos (2 * PI * f * x - p).
Definition waves (l : list (R * R * R)) (x : R) : R := fold_right (fun w s => wave x w + s) 0 l.
