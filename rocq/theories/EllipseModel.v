(** slippy/contact/hertz.py: the surface displacement of elliptical contacts and the integrals for them. *)
From Coq Require Import Reals List Bool.
From Coquelicot Require Import Coquelicot.
From Verif Require Import Py SurfaceModel Flt HertzFullModel.
Local Open Scope R_scope.

(** lines 895-901 ([_h]). [integrate.quad] is taken to be exact. *)
Definition h_int (k : R) : R := RInt (fun psi => 1 / sqrt (1 - (1 - k ^ 2) * sin psi ^ 2)) 0 (PI / 2).
(** lines 903-909 ([_i]) *)
Definition i_int (k : R) : R := RInt (fun psi => cos psi ^ 2 / sqrt ((1 - (1 - k ^ 2) * sin psi ^ 2) ^ 3)) 0 (PI / 2).
(** lines 912-919 ([_j]) *)
Definition j_int (k : R) : R :=
  if Reqb k 0 then 0
  else RInt (fun psi => cos psi ^ 2 / sqrt ((1 - (1 - 1 / k ^ 2) * sin psi ^ 2) ^ 3)) 0 (PI / 2).
(** lines 887-892 ([_k_root]) *)
Definition k_root (k aux_angle : R) : R := k ^ 3 / tan (aux_angle / 2) ^ 2 - j_int k / i_int k.

Section Displacement.
(** [special.ellipk] and [special.ellipe] *)
Variables ellipk ellipe : R -> R.

(** lines 805-867 ([_displacement_elliptical]) at one point, which the arrays are element by element. The three numbers
    which are kept for the next call depend on the arguments of the closure only: they are calculated each time here.
    [angle] is the one of the chosen axes, as for the pressure. The lengths are numpy's numbers: a division by zero
    gives an infinity or not a number. *)
Definition ellipse_displacement (a b p0 v modulus : R) (angle : option R) (x y : R) : result flt :=
  if Rltb a b then Err ValueError
  else
    let e := sqrt (1 - b ^ 2 / a ^ 2) in
    let l := Fin (PI * p0 * b * ellipk e) in
    let m := fmul (fdiv (fdiv (Fin (PI * p0 * b)) (Fin (e ^ 2))) (Fin (a ^ 2))) (Fin (ellipk e - ellipe e)) in
    let n := fmul (fdiv (fdiv (Fin (PI * p0 * b)) (Fin (a ^ 2))) (Fin (e ^ 2)))
                  (Fin (a ^ 2 / b ^ 2 * ellipe e - ellipk e)) in
    let '(x, y) := match angle with None => (x, y) | Some g => rotate g x y end in
    if Reqb (Rmax 0 (1 - (x / a) ^ 2 - (y / b) ^ 2)) 0 then Ok NaN
    else Ok (fmul (Fin ((1 - v ^ 2) / modulus / PI)) (fsub (fsub l (fmul m (Fin (x ^ 2)))) (fmul n (Fin (y ^ 2))))).

(** lines 755-756: the closures in the results, [body] is 0 or 1. [transform] (lines 852-853) is 0, 1 or 2; for other
    numbers of at least 0 the list has no element. *)
Definition body_displacement (c : ellipse_res) (v m : R * R) (body : bool) (transform : nat) (x y : R) : result flt :=
  let poisson := if body then snd v else fst v in
  let modulus := if body then snd m else fst m in
  match transform with
  | O => ellipse_displacement (el_a c) (el_b c) (el_p0 c) poisson modulus None x y
  | S O => ellipse_displacement (el_a c) (el_b c) (el_p0 c) poisson modulus (Some (fst (el_axes c))) x y
  | S (S O) => ellipse_displacement (el_a c) (el_b c) (el_p0 c) poisson modulus (Some (snd (el_axes c))) x y
  | _ => if Rltb (el_a c) (el_b c) then Err ValueError else Err IndexError
  end.
End Displacement.
