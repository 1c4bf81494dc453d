(** Model of the Johnson SL distributions: slippy/surface/_johnsonsl.py and slippy/surface/johnsondists.py, with the
    methods of scipy's rv_continuous that call them. [Phi] and [Quant] are scipy's normal distribution function and its
    quantiles. Shapes are numbers, not NaN; the scale is positive. *)
From Coq Require Import Reals List Bool Arith.
From Verif Require Import Py SurfaceModel.
Import ListNotations.
Local Open Scope R_scope.

(** The normal density: scipy.stats.norm.pdf and johnsondists.py:13-14 *)
Definition phi (x : R) : R := exp (- x ^ 2 / 2) / sqrt (2 * PI).
(** [math.log] of an array converts it to a number: TypeError if it has several elements. *)
Definition log_of (xs : list R) : result R :=
  match xs with
  | [x] => if Rltb 0 x then Ok (ln x) else Err ValueError
  | _ => Err TypeError
  end.

(** A distribution: [_argcheck], [None] if it returns none, and the three functions of arrays of points *)
Record sl := SL {
  argcheck : option bool;
  pdf_ : list R -> R -> R -> result R;
  cdf_ : list R -> R -> R -> result R;
  ppf_ : R -> R -> R -> R }.
(** _johnsonsl.py:22-33 *)
Definition sl_gen (Phi Quant : R -> R) : sl :=
  SL (Some true)
     (fun xs a b => bind (log_of xs) (fun l => Ok (hd 0 xs * phi (a + b * l))))
     (fun xs a b => bind (log_of xs) (fun l => Ok (Phi (a + b * l))))
     (fun q a b => exp ((Quant q - a) / b)).
(** johnsondists.py:40-51 *)
Definition sl_gen2 (Phi Quant : R -> R) : sl :=
  SL None
     (fun xs a b => bind (log_of xs) (fun l => Ok (b * phi (a + b * l))))
     (fun xs a b => bind (log_of xs) (fun l => Ok (Phi (a + b * l))))
     (fun q a b => exp ((Quant q - a) / b)).

(** rv_continuous.pdf, cdf and ppf with support from 0 to 1 (_johnsonsl.py:36, johnsondists.py:54). Arrays of points of which
    exactly one is inside are filled with zeros, ones and the value of the one. [None &] raises. Probabilities are between
    zero and one. *)
Definition standard (loc scale x : R) : R := (x - loc) / scale.
Definition fill (outside : R -> R) (inside : R -> bool) (value : result R) (xs : list R) : result (list R) :=
  if existsb inside xs then bind value (fun v => Ok (map (fun x => if inside x then v else outside x) xs))
  else Ok (map outside xs).
Definition closed_support (x : R) : bool := negb (Rltb x 0) && negb (Rltb 1 x).
Definition open_support (x : R) : bool := Rltb 0 x && Rltb x 1.
Definition pdf (d : sl) (a b loc scale : R) (xs : list R) : result (list R) :=
  match argcheck d with
  | Some _ =>
      let ys := map (standard loc scale) xs in
      fill (fun _ => 0) closed_support (bind (pdf_ d (filter closed_support ys) a b) (fun v => Ok (v / scale))) ys
  | None => Err TypeError
  end.
Definition cdf (d : sl) (a b loc scale : R) (xs : list R) : result (list R) :=
  match argcheck d with
  | Some _ =>
      let ys := map (standard loc scale) xs in
      fill (fun y => if Rltb y 1 then 0 else 1) open_support (cdf_ d (filter open_support ys) a b) ys
  | None => Err TypeError
  end.
Definition ppf (d : sl) (a b loc scale q : R) : result R :=
  match argcheck d with
  | Some _ => Ok (ppf_ d q a b * scale + loc)
  | None => Err TypeError
  end.
