(** Model of the surfaces made of waves, slippy/surface/FFTBased.py 25-181 ([DiscFreqSurface], [ProbFreqSurface]) and 387-416
    ([check_coords_are_simple]). Floats are real numbers. *)
From Coq Require Import Reals List Bool Arith.
From Verif Require Import Py SurfaceModel ConvModel.
Import ListNotations.
Local Open Scope R_scope.

(** Frequencies in a list or an array, or anything else; an amplitude is a complex number, by its type, or another. *)
Inductive freq_arg := Sequence (l : list R) | NoSequence.
Inductive amplitude := Plain (a : R) | Complex (z : cplx).
Definition is_complex (a : amplitude) : bool := match a with Complex _ => true | Plain _ => false end.
Definition as_complex (a : amplitude) : cplx := match a with Complex z => z | Plain a => creal a end.
(** lines 91-112 *)
Definition new_disc_freq (frequencies : freq_arg) (amplitudes : list amplitude) (phases : list R) : result (list (R * cplx)) :=
  match frequencies with
  | NoSequence => Err ValueError
  | Sequence fs =>
      if existsb is_complex amplitudes then
        if Nat.eqb (List.length fs) (List.length amplitudes) then Ok (combine fs (map as_complex amplitudes)) else Err ValueError
      else if Nat.eqb (List.length fs) (List.length amplitudes) && Nat.eqb (List.length amplitudes) (List.length phases)
        then Ok (combine fs (map (fun '(a, p) => cmul (as_complex a) (cis p)) (combine amplitudes phases)))
        else Err ValueError
  end.
(** lines 117-122 *)
Fixpoint disc_freq_height (l : list (R * cplx)) (x y : R) : R :=
  match l with
  | [] => 0
  | (f, a) :: l' => fst (cmul a (cis (- (f * x * 2 * PI)))) + disc_freq_height l' x y
  end.

(** lines 387-416, for arrays of coordinates with two dimensions. Rows of [x] that don't have the shape of the mesh made of
    the first one: the comparison with [==] is then [False], and an array of truth values otherwise, which has no truth
    value itself unless it has one element. [np.allclose] is an argument. *)
Definition check_coords (allclose : list R -> R -> bool) (x : grid) : result (R * (R * R) * (R * R)) :=
  if Nat.eqb (rows x) 0 then Err IndexError else
  let row := map (at_ x 0) (seq 0 (cols x)) in
  let d := map (fun j => at_ x 0 (S j) - at_ x 0 j) (seq 0 (cols x - 1)) in
  match d with
  | [] => Err IndexError
  | d0 :: _ =>
      if negb (allclose d d0) then Err ValueError
      else if negb (Reqb (at_ x 0 0) 0) then Err ValueError
      else if Nat.eqb (rows x) (cols x) || Nat.eqb (rows x) 1 then Err ValueError
      else let e := at_ x 0 (cols x - 1) in Ok (d0, (e, e), (e / d0 + 1, e / d0 + 1))
  end.
(** lines 163-177: [np.linspace] takes the number of points, which must be an integer by type; here it is a float. *)
Definition prob_freq_height (allclose : list R -> R -> bool) (x y : grid) : result grid :=
  bind (check_coords allclose x) (fun '(spacing, extent, shape) => Err TypeError).
