(** Model of the spectra of a surface: [get_fft], [get_acf] and [get_psd], slippy/surface/Surface_class.py 440-594, the
    setter and deleter of the profile, Surface_class.py 290-342, and the autocorrelation of arrays, slippy/surface/ACF_class.py
    88-104, 126-155 and 191-197. Floats are real numbers; profiles have two dimensions. *)
From Coq Require Import Reals List Bool Arith.
From Verif Require Import Py SurfaceModel ConvModel.
Import ListNotations.
Local Open Scope R_scope.

(** [scipy.signal.correlate(p, p)]: entry (k, l) of the full correlation, and the middle of it with the shape of [p]. *)
Definition correlate_full (p : grid) (k l : nat) : R :=
  rsum (rows p) (fun a => rsum (cols p) (fun b =>
    at_ p a b * (if Nat.leb k (a + (rows p - 1)) && Nat.leb l (b + (cols p - 1)) then pad p (a + (rows p - 1) - k) (b + (cols p - 1) - l) else 0))).
Definition correlate_same (p : grid) : grid :=
  Grid (rows p) (cols p) (fun i j => correlate_full p (i + (rows p - 1) / 2) (j + (cols p - 1) / 2)).
(** ACF_class.py 136 *)
Definition acf_array (p : grid) : grid :=
  Grid (rows p) (cols p) (fun i j => at_ (correlate_same p) i j / (INR (rows p) * INR (cols p))).
(** ACF_class.py 138-153, with the origin in the centre: coordinates of the rows or columns. *)
Definition acf_points (n : nat) (spacing : R) (i : nat) : R :=
  INR i * spacing - rsum n (fun k => INR k * spacing) / INR n.

Record acf_object := Acf { original : grid; method : R -> R -> R }.
(** [fft], [acf] and [psd] are attributes that stay until they are set again; lines 301-342 do not touch them. *)
Record spectral := Spectral { heights : option grid; inverted : bool; spacing : R; fft : option (nat -> nat -> cplx); acf : option acf_object; psd : option (nat -> nat -> cplx) }.
(** lines 291-297 *)
Definition profile (s : spectral) : option grid :=
  option_map (fun g => if inverted s then Grid (rows g) (cols g) (fun i j => -1 * at_ g i j) else g) (heights s).

Section Spectra.
(** [scipy.interpolate.RectBivariateSpline] of third degree, which needs four points in each direction. *)
Variable spline : nat -> (nat -> R) -> nat -> (nat -> R) -> (nat -> nat -> R) -> R -> R -> R.
(** ACF_class.py 126-155; a missing profile is an array without a shape. *)
Definition new_acf (p : option grid) (s : R) : result acf_object :=
  match p with
  | None => Err IndexError
  | Some p => if Nat.ltb 3 (rows p) && Nat.ltb 3 (cols p)
    then Ok (Acf (acf_array p) (spline (rows p) (acf_points (rows p) s) (cols p) (acf_points (cols p) s) (at_ (acf_array p))))
    else Err ValueError
  end.
(** [np.fft.fft2] of an array of real numbers *)
Definition fft_of (g : grid) : nat -> nat -> cplx := fft2 (rows g) (cols g) (fun i j => creal (at_ g i j)).
(** lines 478-498, without an argument *)
Definition get_fft (s : spectral) : result spectral :=
  match profile s with
  | None => Err AttributeError
  | Some p => Ok (Spectral (heights s) (inverted s) (spacing s) (Some (fft_of p)) (acf s) (psd s))
  end.
(** lines 545-547 *)
Definition get_acf (s : spectral) : result spectral :=
  bind (new_acf (profile s) (spacing s)) (fun a => Ok (Spectral (heights s) (inverted s) (spacing s) (fft s) (Some a) (psd s))).
(** lines 590-594; [get_fft] with an argument only returns. *)
Definition get_psd (s : spectral) : result spectral :=
  bind (match acf s with Some _ => Ok s | None => get_acf s end) (fun s =>
  Ok (Spectral (heights s) (inverted s) (spacing s) (fft s) (acf s) (option_map (fun a => fft_of (original a)) (acf s)))).

Inductive op := SetProfile (g : grid) | DeleteProfile | Invert (b : bool) | GetFft | GetAcf | GetPsd.
Definition op_step (s : spectral) (o : op) : result spectral :=
  match o with
  | SetProfile g => Ok (Spectral (Some g) (inverted s) (spacing s) (fft s) (acf s) (psd s))
  | DeleteProfile => Ok (Spectral None (inverted s) (spacing s) (fft s) (acf s) (psd s))
  | Invert b => Ok (Spectral (heights s) b (spacing s) (fft s) (acf s) (psd s))
  | GetFft => get_fft s
  | GetAcf => get_acf s
  | GetPsd => get_psd s
  end.
Fixpoint op_run (s : spectral) (l : list op) : result spectral :=
  match l with [] => Ok s | o :: l' => bind (op_step s o) (fun s' => op_run s' l') end.
End Spectra.
(** A surface just made *)
Definition new_surface (s : R) : spectral := Spectral None false s None None None.
