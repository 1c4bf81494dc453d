(** Model of the contact problem of two surfaces with influence matrix materials as it is put
    together by [HeightOptimisationFunction] (slippy/contact/_step_utils.py:103-163, 184-236 and
    282-333): the influence matrices of both materials, the planned convolutions (ConvModel.v) and
    the bound constrained conjugate gradients (SolverModel.v) take the place of the functions that
    HeightModel.v leaves open. *)
From Coq Require Import String List Bool Arith ZArith Reals.
From Verif Require Import Flt SolverModel ConvModel.
From Verif Require HeightModel StepModel.
Import ListNotations.
Local Open Scope R_scope.

(** What the constructor is given (lines 103-163). [grid_rows] and [grid_cols] are the shape of
    the just touching gap, [im_1] and [im_2] the 'zz' components of the influence matrices, both
    with the same span; [least] is the adhesion model, a number or [None], [most] the smaller of
    the maximum loads of the materials (line 146), [spacing] the grid spacing. [fft_size] is
    pyfftw.next_fast_len or n_pow_2. *)
Record setup := Setup {
  with_cuda : bool; fft_size : nat -> nat; grid_rows : nat; grid_cols : nat;
  im_1 : grid; im_2 : grid; periodic_0 : bool; periodic_1 : bool;
  tol_inner : flt; max_it_inner : option Z; least : option R; most : flt; spacing : R }.

(** [total_im = im1 + im2] (line 152) *)
Definition total_im (c : setup) : grid :=
  Grid (rows (im_1 c)) (cols (im_1 c)) (fun i j => at_ (im_1 c) i j + at_ (im_2 c) i j).
(** [plan_convolve(..., circular=periodic_axes)] *)
Definition plan (c : setup) (im : grid) (d : option mask) : result planned :=
  plan_convolve (with_cuda c) (fft_size c) (grid_rows c) (grid_cols c) im d (Flags [periodic_0 c; periodic_1 c]).
(** A list of truth values as an array with [n] columns. *)
Definition as_mask (n : nat) (d : list bool) : mask := fun i j => nth (i * n + j) d false.

(** An array of numbers, or nothing if an entry is infinite or not a number. *)
Fixpoint finite (n : nat) (v : vec) : option (list R) :=
  match n with
  | O => Some []
  | S m => match finite m v, v m with Some l, Fin x => Some (l ++ [x]) | _, _ => None end
  end.
(** The convolution as the solver calls it. Transforming an array with an entry that is infinite or
    not a number gives an array without numbers (simplified: also a wrong length, which raises). *)
Definition operator (f : planned) (n : nat) (v : vec) : vec :=
  match finite n v with
  | Some l => match run_domain f l false with Ok (Flat u) => fun i => Fin (nth i u 0) | _ => fun _ => NaN end
  | None => fun _ => NaN
  end.
Definition as_vec (z : list R) : vec := fun i => Fin (nth i z 0).
(** HeightModel.v has real numbers for loads: a load that is not a number, which only a failed
    solution has, is replaced by zero. *)
Definition as_real (a : flt) : R := match a with Fin x => x | _ => 0 end.
(** Lines 306-315: [bccg(self.conv_func, z_in, tol, max_it, zeros, adhesion_model, max_pressure)].
    Clipping with [None] has no lower bound. The fuel is what [bccg] needs at most. *)
Definition solve_domain (c : setup) (d : list bool) (z : list R) : list R * bool :=
  match plan c (total_im c) (Some (as_mask (grid_cols c) d)) with
  | Err _ => ([], true)
  | Ok f =>
      let n := length z in
      let limit := match max_it_inner c with Some m => m | None => Z.of_nat n end in
      match bccg (Z.to_nat (Z.max 1 (limit + 1))) n (operator f n) (as_vec z) (tol_inner c) (max_it_inner c) (fun _ => Fin 0)
              (match least c with Some a => Fin a | None => NInf end) (fun _ => most c) 1 with
      | Some (v, failed) => (map (fun i => as_real (v i)) (seq 0 n), failed)
      | None => ([], true)
      end
  end.
(** Lines 214-218 and 212: the displacements of loads on the whole grid (a plan that raises has
    already raised in the constructor). *)
Definition convolved (c : setup) (im : grid) (l : list R) : list R :=
  match plan c im None with
  | Ok f => match run_full f (Full (reshape (grid_rows c) (grid_cols c) l)) with Ok (Full u) => flatten u | _ => [] end
  | Err _ => []
  end.
(** The constants of the height optimisation function for this contact. *)
Definition contact_config (c : setup) (use_cache cache_loads : bool) (g : list R) : HeightModel.hconfig :=
  HeightModel.HConfig g (spacing c ^ 2) use_cache cache_loads false (solve_domain c)
    (convolved c (im_1 c)) (convolved c (im_2 c)) (convolved c (total_im c)).
(** The second entry of the cache (lines 155-163), when the maximum pressure is finite: the total load,
    the height and the pressures with the maximum pressure on every point. *)
Definition limit (c : setup) (g : list R) : option (R * R * list R) :=
  match most c with
  | Fin y =>
      let loads := map (fun _ => y) g in
      Some (y * INR (length g) * spacing c ^ 2, StepModel.max_of (HeightModel.ladd (convolved c (total_im c) loads) g), loads)
  | _ => None
  end.
