(** Model of the planned convolutions: slippy/contact/influence_matrix_utils.py, lines 343-452
    (CUDA), 629-736 (FFTW), 898-967 (choice), and of [_solve_im_loading], lines 45-93.
    Floats are real numbers; the transforms of FFTW, cupy and scipy are the discrete Fourier
    transforms they document. *)
From Coq Require Import String List Bool Arith ZArith Reals.
From Verif Require Export Py SurfaceModel.
Import ListNotations.
Local Open Scope R_scope.

(** ** Complex numbers *)
Definition cplx := (R * R)%type.
Definition c0 : cplx := (0, 0).
Definition c1 : cplx := (1, 0).
Definition creal (x : R) : cplx := (x, 0).
Definition cadd (a b : cplx) : cplx := (fst a + fst b, snd a + snd b).
Definition cmul (a b : cplx) : cplx := (fst a * fst b - snd a * snd b, fst a * snd b + snd a * fst b).
Definition conj (a : cplx) : cplx := (fst a, - snd a).
Definition cis (t : R) : cplx := (cos t, sin t).
Fixpoint csum (n : nat) (f : nat -> cplx) : cplx := match n with O => c0 | S m => cadd (csum m f) (f m) end.

(** ** Discrete Fourier transforms *)
(** exp(-2 pi i a / n) *)
Definition root (n : nat) (a : Z) : cplx := cis (- (2 * PI * IZR a / INR n)).
Definition fft2 (m n : nat) (x : nat -> nat -> cplx) (k l : nat) : cplx :=
  csum m (fun i => csum n (fun j => cmul (x i j) (cmul (root m (Z.of_nat (k * i))) (root n (Z.of_nat (l * j)))))).
Definition ifft2 (m n : nat) (x : nat -> nat -> cplx) (i j : nat) : cplx :=
  cmul (creal (/ (INR m * INR n)))
    (csum m (fun k => csum n (fun l => cmul (x k l) (cmul (root m (- Z.of_nat (k * i))) (root n (- Z.of_nat (l * j))))))).
(** FFTW real to complex transform of a real array keeps the columns up to n // 2; the complex
    to real transform takes the other columns from the conjugate symmetry. *)
Definition rfft2 (m n : nat) (x : nat -> nat -> R) : nat -> nat -> cplx :=
  fft2 m n (fun i j => creal (x i j)).
Definition irfft2 (m n : nat) (h : nat -> nat -> cplx) (i j : nat) : R :=
  fst (ifft2 m n (fun k l => if Nat.leb l (n / 2) then h k l else conj (h (Nat.modulo (m - k) m) (n - l)%nat)) i j).

(** ** Arrays *)
(** [np.pad(a, [[0, b0 - a0], [0, b1 - a1]], 'constant')] *)
Definition pad (g : grid) (i j : nat) : R :=
  if Nat.ltb i (rows g) && Nat.ltb j (cols g) then at_ g i j else 0.
(** [np.roll(a, (-s0, -s1), (-2, -1))] of an array of shape (m, n) *)
Definition roll (m n s0 s1 : nat) (a : nat -> nat -> R) (i j : nat) : R :=
  a (Nat.modulo (i + s0) m) (Nat.modulo (j + s1) n).
(** [np.reshape(v, (m, n))] and [flatten], row by row *)
Definition reshape (m n : nat) (v : list R) : grid := Grid m n (fun i j => nth (i * n + j) v 0).
Definition flatten (g : grid) : list R :=
  flat_map (fun i => map (fun j => at_ g i j) (seq 0 (cols g))) (seq 0 (rows g)).
(** An array of truth values with the shape of the loads *)
Definition mask := nat -> nat -> bool.
Definition positions (m n : nat) : list (nat * nat) :=
  flat_map (fun i => map (fun j => (i, j)) (seq 0 n)) (seq 0 m).
Definition chosen (m n : nat) (d : mask) : list (nat * nat) :=
  filter (fun p => d (fst p) (snd p)) (positions m n).
(** [a[domain]] *)
Definition select (g : grid) (d : mask) : list R :=
  map (fun p => at_ g (fst p) (snd p)) (chosen (rows g) (cols g) d).
(** [a = zeros(shape); a[domain] = v] *)
Fixpoint assign (ps : list (nat * nat)) (v : list R) (i j : nat) : R :=
  match ps, v with
  | p :: ps', x :: v' => if Nat.eqb (fst p) i && Nat.eqb (snd p) j then x else assign ps' v' i j
  | _, _ => 0
  end.
Definition fill (m n : nat) (d : mask) (v : list R) : result grid :=
  if Nat.eqb (List.length v) (List.length (chosen m n d)) || Nat.eqb (List.length v) 1
  then Ok (Grid m n (assign (chosen m n d)
             (match v with [x] => repeat x (List.length (chosen m n d)) | _ => v end)))
  else Err ValueError.

(** ** Planning *)
(** The argument circular: a truth value or a sequence of them (lines 954-962). *)
Inductive circ := Flag (b : bool) | Flags (l : list bool).
Definition both (c : circ) : result (bool * bool) :=
  match c with
  | Flag b => Ok (b, b)
  | Flags [a; b] => Ok (a, b)
  | Flags _ => Err ValueError
  end.

(** The shape of the transforms (lines 404-411 and 680-687); [fast] is pyfftw.next_fast_len or
    n_pow_2. *)
Definition axis_size (fast : nat -> nat) (c : bool) (nl ni : nat) : result nat :=
  if c then if Nat.eqb nl ni then Ok nl else Err AssertionError
  else Ok (2 * fast (Nat.max nl ni))%nat.

(** The transform of the padded and rolled influence matrix, scaled (lines 417-421, 700-703). *)
Definition centred (m n : nat) (im : grid) : nat -> nat -> R :=
  roll m n ((rows im - 1) / 2) ((cols im - 1) / 2) (pad im).

(** One application to full loads (lines 422-447, 710-731): FFTW and CUDA. *)
Definition apply_fftw (m n : nat) (im loads : grid) : grid :=
  let norm_inv := sqrt (INR m * INR n) in
  let fft_im k l := cmul (rfft2 m n (centred m n im) k l) (creal (1 / norm_inv)) in
  Grid (rows loads) (cols loads)
    (fun i j => norm_inv * irfft2 m n (fun k l => cmul (rfft2 m n (pad loads) k l) (fft_im k l)) i j).
Definition apply_cuda (m n : nat) (im loads : grid) : grid :=
  let norm_inv := sqrt (INR m * INR n) in
  let f a := fft2 m n (fun i j => creal (a i j)) in
  let fft_im k l := cmul (f (centred m n im) k l) (creal (1 / norm_inv)) in
  Grid (rows loads) (cols loads)
    (fun i j => norm_inv * fst (ifft2 m n (fun k l => cmul (f (pad loads) k l) (fft_im k l)) i j)).

(** What a planned function is given and returns: a full array, a flat one. *)
Inductive arr := Full (g : grid) | Flat (v : list R).

(** [plan_convolve(loads, im, domain, circular)]: only the shape of loads is used. The
    result is the function for full loads or, with a domain, for loads in the domain;
    [ignore] is the argument ignore_domain. *)
Record planned := Planned { run_full : arr -> result arr; run_domain : list R -> bool -> result arr }.
Definition plan_convolve (cuda : bool) (fast : nat -> nat) (nl0 nl1 : nat) (im : grid) (domain : option mask)
    (circular : circ) : result planned :=
  bind (both circular) (fun '(ca, cb) =>
  bind (axis_size fast ca nl0 (rows im)) (fun m =>
  bind (axis_size fast cb nl1 (cols im)) (fun n =>
  let apply := if cuda then apply_cuda m n im else apply_fftw m n im in
  let no_domain a :=
    match a with
    | Full g => if Nat.eqb (rows g) nl0 && Nat.eqb (cols g) nl1 then Ok (Full (apply g))
                else if Nat.eqb (rows g * cols g) (nl0 * nl1) then Ok (Flat (flatten (apply (reshape nl0 nl1 (flatten g)))))
                else Err ValueError
    | Flat v => if Nat.eqb (List.length v) (nl0 * nl1) then Ok (Flat (flatten (apply (reshape nl0 nl1 v)))) else Err ValueError
    end in
  let with_domain d v ignore :=
    bind (fill nl0 nl1 d v) (fun g =>
      let same := apply g in
      Ok (if ignore : bool then Full same else Flat (select same d))) in
  Ok (Planned no_domain (match domain with Some d => with_domain d | None => fun v _ => no_domain (Flat v) end))))).

(** The sizes used without pyfftw: [n_pow_2] (lines 343-344). *)
Definition n_pow_2 (a : nat) : nat := 2 ^ Nat.log2_up a.

(** ** [_solve_im_loading] (lines 45-93) *)
(** [fftconvolve(loads, component, mode='same')]: the part of the full convolution with the
    shape of the loads that starts (shape of component - 1) // 2 into it. *)
Fixpoint rsum (n : nat) (f : nat -> R) : R := match n with O => 0 | S m => rsum m f + f m end.
Definition full_conv (a b : grid) (i j : nat) : R :=
  rsum (rows a) (fun p => rsum (cols a) (fun q =>
    if Nat.leb p i && Nat.leb q j then pad a p q * pad b (i - p) (j - q) else 0)).
Definition fftconvolve_same (a b : grid) : grid :=
  Grid (rows a) (cols a) (fun i j => full_conv a b (i + (rows b - 1) / 2) (j + (cols b - 1) / 2)).

(** Loads and displacements: one optional array for each direction. *)
Record vec3 := Vec3 { vx : option grid; vy : option grid; vz : option grid }.
Inductive dirn := Dx | Dy | Dz.
Definition get (v : vec3) (d : dirn) : option grid := match d with Dx => vx v | Dy => vy v | Dz => vz v end.
Definition dir_eqb (a b : dirn) : bool := match a, b with Dx, Dx | Dy, Dy | Dz, Dz => true | _, _ => false end.
(** The three results, all arrays. *)
Definition out3 := dirn -> grid.
Definition first_shape (v : vec3) : result (nat * nat) :=
  match vx v, vy v, vz v with
  | Some g, _, _ | None, Some g, _ | None, None, Some g => Ok (rows g, cols g)
  | None, None, None => Err IndexError
  end.
Definition gplus (a b : grid) : grid := Grid (rows a) (cols a) (fun i j => at_ a i j + at_ b i j).
(** Components are named by a displacement direction and a load direction. A component of a
    direction without loads is an error (fftconvolve of None); loads of different shapes
    do not broadcast. *)
Fixpoint solve_im (loads : vec3) (comps : list (dirn * dirn * grid)) (acc : out3) : result out3 :=
  match comps with
  | [] => Ok acc
  | (dis, ld, im) :: l =>
      match get loads ld with
      | None => Err ValueError
      | Some g =>
          let c := fftconvolve_same g im in
          if Nat.eqb (rows g) (rows (acc dis)) && Nat.eqb (cols g) (cols (acc dis))
          then solve_im loads l (fun d => if dir_eqb d dis then gplus (acc d) c else acc d)
          else Err ValueError
      end
  end.
Definition solve_im_loading (loads : vec3) (comps : list (dirn * dirn * grid)) : result out3 :=
  bind (first_shape loads) (fun '(m, n) => solve_im loads comps (fun _ => Grid m n (fun _ _ => 0))).
