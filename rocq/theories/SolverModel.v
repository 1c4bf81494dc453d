(** Model of the two iterative solvers of slippy/contact/influence_matrix_utils.py: the bound
    constrained conjugate gradients [bccg] (lines 970-1033, 454-622 CUDA and 738-891 FFTW, which
    do the same steps) and the conjugate gradients of [_solve_im_displacement] (lines 96-210). *)
From Coq Require Import String List Bool Arith ZArith Reals.
From Verif Require Export Py SurfaceModel Flt.
Import ListNotations.
Local Open Scope R_scope.

(** ** Bound constrained conjugate gradients (lines 738-891) *)
(** [small] (line 800) *)
Definition small : R := / 10 ^ 14.

(** The variables that live from one iteration to the next. The names are those of the code;
    [n_free] is an integer. *)
Record bcg := Bcg { it : Z; it_inn : Z; bx : vec; bg : vec; br : vec; bp : vec; rho : flt;
                    msk_0 : nat -> bool; msk_max : nat -> bool; n_free : Z }.

(** Lines 793-806. [f] is the operator, [n] is [b.size]; a single maximum pressure is an array
    with equal entries. *)
Definition bccg_init (n : nat) (f : vec -> vec) (b x0 : vec) (min_pressure : flt) (max_pressure : vec) : bcg :=
  let x := fun i => fmin (fmax (x0 i) min_pressure) (max_pressure i) in
  let g := fun i => fsub (f x i) (b i) in
  let m0 := fun i => fleb (x i) (Fin 0) && fleb (Fin 0) (g i) in
  let mm := fun i => fleb (max_pressure i) (x i) && fleb (g i) (Fin 0) in
  Bcg 0 0 x g (fun _ => Fin 0) (fun _ => Fin 0) (Fin 0) m0 mm
      (Z.of_nat n - (Z.of_nat (count n m0) + Z.of_nat (count n mm))).

(** One pass of the loop (lines 809-890): the next state, or the returned loads and the flag. *)
Definition bccg_step (n : nat) (f : vec -> vec) (b : vec) (tol : flt) (max_it : Z) (max_pressure : vec) (k_inn : Z)
    (s : bcg) : bcg + (vec * bool) :=
  let it' := (it s + 1)%Z in
  let inn := (it_inn s + 1)%Z in
  let bound := fun i => msk_0 s i || msk_max s i in
  let r := put bound (fun _ => Fin 0) (fun i => fneg (bg s i)) in
  let rho' := dot n r r in
  let p := put bound (fun _ => Fin 0)
    (if (1 <? it')%Z then
       let beta := fdiv (fsub rho' (dot n r (br s))) (rho s) in
       fun i => fadd (r i) (fmul (fmax beta (Fin 0)) (bp s i))
     else r) in
  let q := if (inn <? k_inn)%Z then put bound (fun _ => NaN) (f p) else f p in
  let alpha := fdiv (dot n r p) (dot n p q) in
  let x := fun i => fadd (bx s i) (fmul alpha (p i)) in
  let root_free := fsqrt (Fin (IZR (n_free s))) in
  let rms_xk := fdiv (norm n x) root_free in
  let rms_upd := fdiv (norm n (fun i => fsub (x i) (bx s i))) root_free in
  let upd := fdiv rms_upd rms_xk in
  let outer := (k_inn <=? inn)%Z || fltb upd tol in
  let prj_0 := fun i => outer && fltb (x i) (Fin (- small)) in
  let x1 := put prj_0 (fun _ => Fin 0) x in
  let prj_max := fun i => outer && fleb (fmul (max_pressure i) (Fin (1 + small))) (x1 i) in
  let x2 := put prj_max max_pressure x1 in
  let m0 := fun i => msk_0 s i || prj_0 i in
  let mm := fun i => msk_max s i || prj_max i in
  let moved := any n prj_0 || any n prj_max in
  let g := if moved || (outer && (1 <? k_inn)%Z) then fun i => fsub (f x2 i) (b i)
           else fun i => fadd (bg s i) (fmul alpha (q i)) in
  let rel := fun i => outer && ((m0 i && fltb (g i) (Fin (- small))) || (mm i && fltb (Fin small) (g i))) in
  let m0' := fun i => m0 i && negb (rel i) in
  let mm' := fun i => mm i && negb (rel i) in
  let changed := moved || any n rel in
  let free := if changed then (Z.of_nat n - Z.of_nat (count n m0') - Z.of_nat (count n mm'))%Z else n_free s in
  if (free =? 0)%Z then inr (x2, true)
  else if (max_it <? it')%Z then inr (x2, true)
  else if outer && negb changed && fltb upd tol then inr (x2, false)
  else inl (Bcg it' (if outer then 0 else inn)%Z x2 g r p rho' m0' mm' free).

(** [while True], for at most [fuel] passes. *)
Fixpoint bccg_loop (fuel n : nat) f b tol max_it max_pressure k_inn (s : bcg) : option (vec * bool) :=
  match fuel with
  | O => None
  | S k => match bccg_step n f b tol max_it max_pressure k_inn s with
           | inr res => Some res
           | inl s' => bccg_loop k n f b tol max_it max_pressure k_inn s'
           end
  end.
(** [bccg] (lines 970-1033): the iteration limit [None] is the number of unknowns. *)
Definition bccg (fuel n : nat) (f : vec -> vec) (b : vec) (tol : flt) (max_it : option Z) (x0 : vec)
    (min_pressure : flt) (max_pressure : vec) (k_inn : Z) : option (vec * bool) :=
  bccg_loop fuel n f b tol (match max_it with Some m => m | None => Z.of_nat n end) max_pressure k_inn
    (bccg_init n f b x0 min_pressure max_pressure).

(** ** Conjugate gradients for given displacements (lines 96-210) *)
(** The points of all directions are numbered 0 .. N-1; [dom] lists the ones with a given
    displacement, in the order of the code. [op] is [_solve_im_loading]: it maps loads at all
    points to displacements at all points. *)
Definition gather (dom : list nat) (a : vec) : vec := fun k => a (nth k dom 0%nat).
Fixpoint position (i : nat) (dom : list nat) : option nat :=
  match dom with
  | [] => None
  | j :: l => if Nat.eqb i j then Some 0%nat else option_map S (position i l)
  end.
(** [zeros_like(..)] with [full[sub_domain] = v] (lines 165-171) *)
Definition scatter (dom : list nat) (v : vec) : vec :=
  fun i => match position i dom with Some k => v k | None => Fin 0 end.
(** [loads[sub_domain] += v] (lines 184-189) *)
Definition add_to (dom : list nat) (v loads : vec) : vec :=
  fun i => match position i dom with Some k => fadd (loads i) (v k) | None => loads i end.
Record cgs := Cgs { loads : vec; residual : vec; search : vec; itnum : Z }.
Definition cg_init (dom : list nat) (op : vec -> vec) (disp guess : vec) : cgs :=
  let r := fun k => fsub (gather dom disp k) (gather dom (op guess) k) in
  Cgs guess r r 0.
(** The body of the loop (lines 162-206). *)
Definition cg_step (dom : list nat) (op : vec -> vec) (s : cgs) : cgs :=
  let n := length dom in
  let z := gather dom (op (scatter dom (search s))) in
  let alpha := fdiv (dot n (residual s) (residual s)) (dot n (search s) z) in
  let l := add_to dom (fun k => fmul alpha (search s k)) (loads s) in
  let r := fun k => fsub (residual s k) (fmul alpha (z k)) in
  let beta := fdiv (dot n r r) (dot n (residual s) (residual s)) in
  Cgs l r (fun k => fadd (r k) (fmul beta (search s k))) (itnum s + 1).
(** The loop with its two exits: the loads and whether a warning was issued. *)
Fixpoint cg_loop (fuel : nat) (dom : list nat) op (tol : flt) (max_it : Z) (s : cgs) : option (vec * bool) :=
  match fuel with
  | O => None
  | S k =>
    if fleb tol (norm (length dom) (residual s)) then
      let s' := cg_step dom op s in
      if (max_it <? itnum s')%Z then Some (loads s', true) else cg_loop k dom op tol max_it s'
    else Some (loads s, false)
  end.
(** What the caller sees: the loads, the displacements, the warning and the guess that was passed
    in. The loads are updated in place (lines 148 and 188), so the guess is the result. *)
Record cg_result := CgResult { found : vec; full_displacement : vec; warned : bool; guess_after : vec }.
(** Lines 141-210. A direction without displacements is left out of [dom], and so are the points
    where the displacement is not a number (line 144). [given] lists the points of the defined
    directions. *)
Definition solve_im_displacement (fuel : nat) (given : list nat) (op : vec -> vec) (disp : vec) (max_it : Z)
    (tol : flt) (guess : vec) : option cg_result :=
  let dom := filter (fun i => negb (is_nan (disp i))) given in
  match cg_loop fuel dom op tol max_it (cg_init dom op disp guess) with
  | Some (l, w) => Some (CgResult l (op l) w l)
  | None => None
  end.
