(** Model of the filter method for random surfaces: slippy/surface/Random.py 505-561 ([linear_transform]), 616-653
    ([set_moments]), 800-831 ([discretise]) and 834-986, and of the call of [ACF], slippy/surface/ACF_class.py 126-183
    and 200-204. Floats are real numbers; [fftconvolve] is the convolution it documents ([ConvModel.full_conv]). *)
From Coq Require Import Reals List Bool Arith.
From Verif Require Import Py SurfaceModel ConvModel.
Import ListNotations.
Local Open Scope R_scope.

(** ACF_class.py 200-204 ([_exp_acf]). *)
Definition exp_acf (sigma bx by' x y : R) : R :=
  sigma ^ 2 * exp (-2.3 * sqrt ((x / bx) ^ 2 + (y / by') ^ 2)).
(** ACF_class.py 177-183 ([__call__]). A function (or 'exp') is evaluated on the mesh, where [x] goes along the columns;
    the spline of an array or surface is evaluated on its own grid, where [x] goes along the rows. *)
Inductive acf := FunAcf (f : R -> R -> R) | SplineAcf (s : R -> R -> R).
Definition acf_call (a : acf) (nx : nat) (x : nat -> R) (ny : nat) (y : nat -> R) : grid :=
  match a with
  | FunAcf f => Grid ny nx (fun i j => f (x j) (y i))
  | SplineAcf s => Grid nx ny (fun i j => s (x i) (y j))
  end.
(** Random.py 530-532: the target on the points of the filter. *)
Definition target_array (a : acf) (spacing : R) (n m : nat) : grid :=
  acf_call a m (fun j => spacing * INR j) n (fun i => spacing * INR i).

(** lines 834-851 ([_initial_guess]), with the shape of the target. *)
Definition initial_guess (t : grid) : grid :=
  let n := rows t in let m := cols t in
  let c i j := at_ t i j / (INR (n - i) * INR (m - j)) in
  let s := at_ t 0 0 / rsum n (fun i => rsum m (fun j => c i j ^ 2)) in
  Grid n m (fun i j => c i j * Rpower s 0.5).

(** lines 915-926 ([_get_acf_estimate]) *)
Definition acf_estimate (a : grid) : grid :=
  Grid (rows a) (cols a) (fun p q =>
    rsum (rows a - p) (fun k => rsum (cols a - q) (fun l => at_ a k l * at_ a (k + p) (l + q)))).
(** lines 929-933 ([_get_acf_estimate_fft]): [np.flip] in both directions, padding with zeros. *)
Definition flip (a : grid) : grid := Grid (rows a) (cols a) (fun i j => at_ a (rows a - 1 - i) (cols a - 1 - j)).
Definition pad_after (a : grid) (r c : nat) : grid := Grid (rows a + r) (cols a + c) (pad a).
Definition acf_estimate_fft (a : grid) : grid :=
  fftconvolve_same a (pad_after (flip a) (rows a - 1) (cols a - 1)).

(** lines 907-909, 945-947, 549-552: the mirrored filter. The first assignment writes the flipped rows, the second
    writes the rows from [n1 - 1] on. *)
Definition mirror (a : grid) : grid :=
  Grid (2 * rows a - 1) (cols a) (fun i j => if Nat.leb (rows a - 1) i then at_ a (i - (rows a - 1)) j else at_ a (rows a - 1 - i) j).

(** lines 873-889 ([_min_fun]) and 892-912 ([_min_fun_symmetric]). *)
Definition min_fun (t a : grid) : R :=
  rsum (rows t) (fun p => rsum (cols t) (fun q => (at_ t p q - at_ (acf_estimate_fft a) p q) ^ 2)).
Definition min_fun_symmetric (t a : grid) : R :=
  rsum (rows t) (fun p => rsum (cols t) (fun q => (at_ t p q - at_ (acf_estimate_fft (mirror a)) p q) ^ 2)).

(** lines 955-986 ([_grad_min_fun]); the indices of the code start with one. *)
Definition grad_min_fun (a t est : grid) : grid :=
  let n := rows a in let m := cols a in
  let d p q := at_ t p q - at_ est p q in
  Grid n m (fun i0 j0 =>
    let i := S i0 in let j := S j0 in
    2 * (rsum (Nat.min (n - i + 1) (rows t)) (fun p => rsum (m - j + 1) (fun q => d p q * - at_ a (i + p - 1) (j + q - 1)))
       + rsum (Nat.min i (rows t)) (fun p => rsum j (fun q => d p q * - at_ a (i - p - 1) (j - q - 1))))).
(** lines 936-939 ([_get_grad_min_fun]) *)
Definition get_grad (t a : grid) : grid := grad_min_fun a t (acf_estimate_fft a).
(** lines 942-952 ([_get_grad_min_fun_symmetric]) *)
Definition get_grad_symmetric (t a : grid) : grid :=
  let n1 := rows a in
  let g2 := grad_min_fun (mirror a) t (acf_estimate_fft (mirror a)) in
  Grid n1 (cols a) (fun i j =>
    match i with O => at_ g2 (n1 - 1) j | S r => at_ g2 (n1 - 1 + i) j + at_ g2 (n1 - 1 - 1 - r) j end).

(** lines 505-561 ([linear_transform]). [minimise] is [scipy.optimize.minimize]: it takes the objective, its gradient and
    the start and gives the flat result, which is reshaped to the shape of the target in the objective (lines 886, 905)
    and to the shape of the filter in the end (line 546; an error if the sizes differ, which they do not). *)
Definition linear_transform (minimise : (list R -> R) -> (list R -> list R) -> list R -> list R)
    (a : acf) (spacing : R) (n m : nat) (symmetric : bool) : grid :=
  let t := target_array a spacing n m in
  let shape v := reshape (rows t) (cols t) v in
  let x0 := flatten (initial_guess t) in
  if symmetric then
    mirror (reshape n m (minimise (fun v => min_fun_symmetric t (shape v)) (fun v => flatten (get_grad_symmetric t (shape v)))
                           (map (fun x => x / 2) x0)))
  else reshape n m (minimise (fun v => min_fun t (shape v)) (fun v => flatten (get_grad t (shape v))) x0).

(** lines 637-651 ([set_moments]): the skew and kurtosis asked of the noise. *)
Definition noise_skew (alpha : list R) (skew : R) : R :=
  let q := List.length alpha in
  let a i := nth i alpha 0 in
  skew * Rpower (rsum q (fun i => a i ^ 2)) (3 / 2) / rsum q (fun i => a i ^ 2 * a i).
Definition noise_kurtosis (alpha : list R) (kurtosis : R) : R :=
  let q := List.length alpha in
  let a i := nth i alpha 0 in
  let quad := rsum (q - 1) (fun i => rsum (q - i) (fun d => a i ^ 2 * a (i + d)%nat ^ 2)) in
  (kurtosis * rsum q (fun i => a i ^ 2) ^ 2 - 6 * quad) / rsum q (fun i => (a i ^ 2) ^ 2) + 3.

(** lines 800-831 ([discretise]). [noise] is the array of random numbers; its shape is that of the call. [np.pad] with
    'wrap' repeats it periodically. [fftconvolve(eta, f, 'valid')] is the part of the full convolution where the smaller
    array lies in the larger one. *)
Definition wrap_after (a : grid) (r c : nat) : grid :=
  Grid (rows a + r) (cols a + c) (fun i j => at_ a (Nat.modulo i (rows a)) (Nat.modulo j (cols a))).
Definition fftconvolve_valid (a b : grid) : grid :=
  Grid (rows a - rows b + 1) (cols a - cols b + 1) (fun i j => full_conv a b (i + (rows b - 1)) (j + (cols b - 1))).
Definition noise_shape (f : grid) (n m : nat) (periodic : bool) : nat * nat :=
  if periodic then (n, m) else ((n + rows f - 1)%nat, (m + cols f - 1)%nat).
Definition discretise (f : grid) (n m : nat) (periodic : bool) (noise : nat -> nat -> R) : grid :=
  let '(r, c) := noise_shape f n m periodic in
  let eta := Grid r c noise in
  fftconvolve_valid (if periodic then wrap_after eta (rows f - 1) (cols f - 1) else eta) f.

(** lines 749-757 ([fir_filter]): the principal square roots of the transform of the target are used as coefficients. *)
Definition csqrt (z : cplx) : cplx :=
  let r := sqrt (fst z ^ 2 + snd z ^ 2) in
  let y := sqrt ((r - fst z) / 2) in
  (sqrt ((r + fst z) / 2), if Rltb (snd z) 0 then - y else y).
Definition fir_filter (a : acf) (spacing : R) (n m : nat) (i j : nat) : cplx :=
  let t := target_array a spacing n m in
  csqrt (fft2 (rows t) (cols t) (fun k l => creal (at_ t k l)) i j).
