(** Model of [HurstFractalSurface]: slippy/surface/FFTBased.py 242-256, 310-371 and 419-447. Floats are real numbers. *)
From Coq Require Import Reals List Bool Arith ZArith.
From Verif Require Import Py SurfaceModel ConvModel.
Import ListNotations.
Local Open Scope R_scope.

(** lines 419-441 ([_conj_sym]), the assignments in order; the parts read by the last four are not written by them. *)
Definition conj_sym (a : grid) (neg : bool) : grid :=
  let n := rows a in let m := cols a in
  let mult := if neg then -1 else 1 in
  let set i j (f : nat -> nat -> R) := fun r c => if Nat.eqb r i && Nat.eqb c j then 0 else f r c in
  let x := set (n / 2)%nat (m / 2)%nat (set (n / 2)%nat 0%nat (set 0%nat (m / 2)%nat (set 0%nat 0%nat (at_ a)))) in
  let between lo hi k := Nat.leb lo k && Nat.ltb k hi in
  let x1 i j := if Nat.leb 1 i && between 1%nat (m / 2)%nat j then mult * x (n - i)%nat (m - j)%nat else x i j in
  let x2 i j := if Nat.eqb i 0 && between 1%nat (m / 2)%nat j then mult * x1 0%nat (m - j)%nat else x1 i j in
  let x3 i j := if Nat.leb (n / 2 + 1) i && Nat.eqb j 0 then mult * x2 (n - i)%nat 0%nat else x2 i j in
  let x4 i j := if Nat.leb (n / 2 + 1) i && Nat.eqb j (m / 2) then mult * x3 (n - i)%nat (m / 2)%nat else x3 i j in
  Grid n m x4.

(** [np.unwrap] of a list of angles, with the default period and discontinuity: the correction is added up. *)
Definition floor_mod (x y : R) : R := x - y * IZR (Int_part (x / y)).
Definition correction (dd : R) : R :=
  let w := floor_mod (dd + PI) (2 * PI) - PI in
  let w := if Reqb w (- PI) && Rltb 0 dd then PI else w in
  if Rltb (Rabs dd) PI then 0 else w - dd.
Fixpoint unwrap_from (previous total : R) (l : list R) : list R :=
  match l with
  | [] => []
  | x :: l' => let t := total + correction (x - previous) in (x + t) :: unwrap_from x t l'
  end.
Definition unwrap (l : list R) : list R := match l with [] => [] | x :: l' => x :: unwrap_from x 0 l' end.
(** [np.fft.fftshift] of a list, and [np.fft.ifftshift] of an index. *)
Definition fftshift (l : list R) : list R :=
  let s := ((List.length l + 1) / 2)%nat in skipn s l ++ firstn s l.
Definition ishift (n k : nat) : nat := Nat.modulo (k + n / 2) n.

(** lines 325-329: the wave numbers of [m] points. *)
Definition wave_numbers (m : nat) (spacing : R) : list R :=
  map (fun q => q / spacing)
    (unwrap (map (fun q => q - 2 * PI) (fftshift (map (fun k => 2 * PI / INR m * INR k) (seq 0 m))))).

Definition even_size (s : nat) : nat := (s + s mod 2)%nat.
(** lines 331-339: the power spectral density before it is scaled; rows go with the second size. [0.0 ** -2] is infinite,
    but it is only there at the centre, which is set to zero. *)
Definition raw_psd (hurst qr spacing : R) (m n : nat) : grid :=
  let qx := wave_numbers m spacing in
  let qy := wave_numbers n spacing in
  let rho i j := Rpower (nth i qy 0 ^ 2 + nth j qx 0 ^ 2) 0.5 in
  Grid n m (fun i j =>
    if Nat.eqb i (n / 2) && Nat.eqb j (m / 2) then 0
    else if Rltb (rho i j) qr then Rpower qr (-2 * (hurst + 1)) else Rpower (rho i j) (-2 * (hurst + 1))).
(** lines 341-345 *)
Definition scaled_psd (sigma hurst qr spacing : R) (m n : nat) : grid :=
  let p := raw_psd hurst qr spacing m n in
  let lx := INR m * spacing in let ly := INR n * spacing in
  let rms := sqrt (rsum n (fun i => rsum m (fun j => at_ p i j)) * (2 * PI) ^ 2 / lx / ly) in
  let alpha := sigma / rms in
  Grid n m (fun i j => at_ p i j * alpha ^ 2).
(** lines 348-351 and 353-361; [random] are the numbers drawn. *)
Definition magnitudes (sigma hurst qr spacing : R) (m n : nat) : grid :=
  let p := scaled_psd sigma hurst qr spacing m n in
  conj_sym (Grid n m (fun i j => sqrt (at_ p i j / (spacing ^ 2 / (INR n * INR m * (2 * PI) ^ 2))))) false.
Definition phases (random : nat -> nat -> R) (m n : nat) : grid :=
  conj_sym (Grid n m (fun i j => - PI + 2 * PI * random i j)) true.
Definition coefficients (sigma hurst qr spacing : R) (m n : nat) (random : nat -> nat -> R) (k l : nat) : cplx :=
  let i := ishift n k in let j := ishift m l in
  let r := at_ (magnitudes sigma hurst qr spacing m n) i j in
  let t := at_ (phases random m n) i j in
  (r * cos t, r * sin t).

(** lines 242-256 and 310-371 *)
Record fractal := Fractal { sigma_ : R; hurst_ : R; roll_off_ : R }.
Definition new_fractal (sigma hurst qr : R) : result fractal :=
  if Rltb 1 hurst || Rltb hurst 0 then Err ValueError else Ok (Fractal sigma hurst qr).
Definition generate (s : fractal) (has_profile return_new : bool) (shape : option (nat * nat)) (spacing : option R)
    (random : nat -> nat -> R) : result grid :=
  if has_profile && negb return_new then Err ValueError else
  match shape, spacing with
  | Some (s0, s1), Some d =>
      let m := even_size s0 in let n := even_size s1 in
      Ok (Grid n m (fun i j => fst (ifft2 n m (coefficients (sigma_ s) (hurst_ s) (roll_off_ s) d m n random) i j)))
  | _, _ => Err ValueError
  end.
