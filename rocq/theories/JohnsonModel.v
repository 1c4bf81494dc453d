(** Model of the Johnson distribution fits: slippy/surface/_johnson_utils.py. Floats are real numbers; a distribution of
    scipy is its family and parameters. *)
From Coq Require Import Reals List Bool Arith.
From Verif Require Import Py SurfaceModel.
Import ListNotations.
Local Open Scope R_scope.

(** [scipy.stats.norm], [lognorm], [johnsonsu] and [johnsonsb] with their parameters frozen. [None] is NaN. *)
Inductive dist :=
| Normal (loc scale : R)
| LogNormal (s loc : R) (scale : option R)
| Unbounded (a b loc scale : R)
| Bounded (a b loc scale : R).
(** [dist.ppf(p)] where [p] is the probability that a standard normal number is below [z]: scipy's quantile functions,
    NaN when a shape parameter or the scale is not positive. *)
Definition quantile (d : dist) (z : R) : option R :=
  match d with
  | Normal loc scale => if Rltb 0 scale then Some (loc + scale * z) else None
  | LogNormal s loc (Some scale) => if Rltb 0 s && Rltb 0 scale then Some (loc + scale * exp (s * z)) else None
  | LogNormal _ _ None => None
  | Unbounded a b loc scale => if Rltb 0 b && Rltb 0 scale then Some (loc + scale * sinh ((z - a) / b)) else None
  | Bounded a b loc scale => if Rltb 0 b && Rltb 0 scale then Some (loc + scale * / (1 + exp (- ((z - a) / b)))) else None
  end.

(** lines 34-43 ([_johnsonsl]); [np.log] of a negative number, and 0 / 0, are NaN. The scale is 1 or -1 where it is
    called. A shape of zero, whose logarithm is infinite, also gives NaN here. *)
Definition np_log (x : R) : option R := if Rltb 0 x then Some (ln x) else None.
Definition johnsonsl (a b loc scale : R) : dist :=
  let scale_log :=
    match np_log (b / scale), np_log scale with
    | Some l, Some ls =>
        let sq := l * b ^ 2 in
        let lin := l * (2 * a * b - 2 * b ^ 2 * ls) in
        if Reqb sq 0 then None else Some (exp ((lin / sq) / (-2)))
    | _, _ => None
    end in
  LogNormal (1 / b) loc scale_log.

Definition arccosh (x : R) : R := ln (x + sqrt (x ^ 2 - 1)).
(** lines 505-547 ([_fit_johnson_by_quantiles]), for quantiles in increasing order: the divisions are by numbers above
    zero and the arguments of the square roots and of the inverse hyperbolic cosine are in their domains. *)
Definition fit_quantiles (x0 x1 x2 x3 : R) : dist :=
  let m := x3 - x2 in let n := x1 - x0 in let p := x2 - x1 in
  let q0 := (x1 + x2) * 0.5 in
  let mp := m / p in let nop := n / p in
  let tol := 0.0001 in
  if Rltb (mp * nop) (1 - tol) then
    let pm := p / m in let pn := p / n in
    let delta := 0.5 / arccosh (0.5 * sqrt ((1 + pm) * (1 + pn))) in
    let gamma := delta * arcsinh ((pn - pm) * sqrt ((1 + pm) * (1 + pn) - 4) / (2 * (pm * pn - 1))) in
    let xlam := p * sqrt (((1 + pm) * (1 + pn) - 2) ^ 2 - 4) / (pm * pn - 1) in
    let xi := q0 - 0.5 * xlam + p * (pn - pm) / (2 * (pm * pn - 1)) in
    Bounded gamma delta xi xlam
  else if Rltb (1 + tol) (mp * nop) then
    let delta := 1 / arccosh (0.5 * (mp + nop)) in
    let gamma := delta * arcsinh ((nop - mp) / (2 * sqrt (mp * nop - 1))) in
    let xlam := 2 * p * sqrt (mp * nop - 1) / ((mp + nop - 2) * sqrt (mp + nop + 2)) in
    let xi := q0 + p * (nop - mp) / (2 * (mp + nop - 2)) in
    Unbounded gamma delta xi xlam
  else if Rltb tol (Rabs (mp - 1)) then
    let delta := 1 / ln mp in
    let gamma := delta * ln (Rabs (mp - 1) / (p * sqrt mp)) in
    let xlam := if Rltb 0 (mp - 1) then 1 else -1 in
    let xi := q0 - 0.5 * p * (mp + 1) / (mp - 1) in
    johnsonsl gamma delta xi xlam
  else
    let scale := 1 / m in
    let loc := q0 * scale in
    Normal loc scale.

(** ** The fit to moments *)

(** Functions of Python's [math], and division, which raise. *)
Definition msqrt (x : R) : result R := if Rltb x 0 then Err ValueError else Ok (sqrt x).
Definition mlog (x : R) : result R := if Rltb 0 x then Ok (ln x) else Err ValueError.
Definition mdiv (x y : R) : result R := if Reqb y 0 then Err ZeroDivisionError else Ok (x / y).

(** The parameters returned, or the distribution. *)
Inductive fitted := Params (kind : nat) (xi xlam gamma delta : R) | Rv (d : dist).

(** lines 19-31 ([sl_distribution_fit]) *)
Definition sl_fit (mean sd root_beta_1 omega : R) (return_rv : bool) : result fitted :=
  let xlam := if Rltb root_beta_1 0 then -1 else 1 in
  let u := xlam * mean in
  bind (mlog omega) (fun lo => bind (msqrt lo) (fun so => bind (mdiv 1 so) (fun delta =>
  bind (mdiv (omega * (omega - 1)) (sd ^ 2)) (fun r => bind (mlog r) (fun lr =>
  let gamma := 0.5 * delta * lr in
  let xi := u - exp ((0.5 / delta - gamma) / delta) in
  Ok (if return_rv then Rv (johnsonsl gamma delta xi xlam) else Params 1 xi xlam gamma delta)))))).

(** lines 417-436: the iterations of [su_fit], at most [fuel] of them (there is no bound in the code); [z] is [None]
    before the first. The last [m] and [w] are returned; [None] when the fuel runs out. *)
Fixpoint su_loop (fuel : nat) (beta_1 beta_2 tol w m : R) (z : option R) : result (option (R * R)) :=
  let again := match z with None => true | Some z => Rltb tol (Rabs (beta_1 - z)) end in
  if negb again then Ok (Some (w, m)) else
  match fuel with
  | O => Ok None
  | S fuel' =>
      let b3 := beta_2 - 3 in
      let w1 := w + 1 in let wm1 := w - 1 in
      let z := w1 * b3 in
      let v := w * (6 + w * (3 + w)) in
      let a := 8 * (wm1 * (3 + w * (7 + v)) - z) in
      let b := 16 * (wm1 * (6 + v) - b3) in
      bind (msqrt (a ^ 2 - 2 * b * (wm1 * (3 + w * (9 + w * (10 + v))) - 2 * w1 * z))) (fun s =>
      bind (mdiv (s - a) b) (fun m =>
      bind (mdiv (m * wm1 * (4 * (w + 2) * m + 3 * w1 ^ 2) ^ 2) (2 * (2 * m + w1) ^ 3)) (fun z =>
      let v := w ^ 2 in
      bind (mdiv (beta_1 * (beta_2 - 1.5 - v * (1 + 0.5 * v))) z) (fun t =>
      bind (msqrt (1 - 2 * (1.5 - beta_2 + t))) (fun s2 =>
      bind (msqrt (s2 - 1)) (fun w =>
      su_loop fuel' beta_1 beta_2 tol w m (Some z)))))))
  end.
(** lines 403-451 ([su_fit]) *)
Definition su_fit (fuel : nat) (mean sd root_beta_1 beta_2 tol : R) : result (option (R * R * R * R)) :=
  let beta_1 := root_beta_1 ^ 2 in
  bind (msqrt (2.0 * beta_2 - 2.8 * beta_1 - 2.0)) (fun s => bind (msqrt (s - 1.0)) (fun w =>
  bind (if Rltb (Rabs root_beta_1) tol then Ok (Some (w, 0))
        else bind (su_loop fuel beta_1 beta_2 tol w 0 None) (fun wm =>
          match wm with
          | None => Ok None
          | Some (w, m) =>
              bind (mdiv m w) (fun q => bind (msqrt q) (fun s1 => bind (msqrt (q + 1)) (fun s2 =>
              bind (mlog (s1 + s2)) (fun y => Ok (Some (w, if Rltb 0 root_beta_1 then y * -1 else y))))))
          end)) (fun wy =>
  match wy with
  | None => Ok None
  | Some (w, y) =>
      bind (mlog w) (fun lw => bind (mdiv 1 lw) (fun il => bind (msqrt il) (fun delta =>
      let gamma := y * delta in
      let z := exp y ^ 2 in
      bind (msqrt (0.5 * (w - 1) * (0.5 * w * (z + 1 / z) + 1))) (fun sx => bind (mdiv sd sx) (fun xlam =>
      bind (mdiv gamma delta) (fun gd =>
      let xi := mean + xlam * exp (/ delta ^ 2 / 2) * sinh gd in
      Ok (Some (xi, xlam, gamma, delta))))))))
  end))).

(** lines 46-475 ([_fit_johnson_by_moments]); the fit of a bounded distribution (lines 307-401) is left as a function
    [sb_fit], which may raise. The result is [None] when the iterations run out of fuel. *)
Definition fit_moments (sb_fit : R -> R -> R -> R -> result (R * R * R * R)) (fuel : nat)
    (mean sd root_beta_1 beta_2 : R) (return_rv : bool) : result (option fitted) :=
  let tol := 0.01 in
  let beta_1 := root_beta_1 ^ 2 in
  if Rltb sd 0 then Err ValueError else
  if Reqb sd 0 then (if return_rv then Err NotImplementedError else Ok (Some (Params 5 mean 0 0 0))) else
  if Rleb 0 beta_2 && Rltb beta_2 (beta_1 + 1 - tol) then Err ValueError else
  if Rleb 0 beta_2 && Rleb beta_2 (beta_1 + tol + 1) then
    let y := 0.5 + 0.5 * sqrt (1 - 4 / (beta_1 + 4)) in
    let y := if Rltb 0 root_beta_1 then 1 - y else y in
    bind (msqrt (y * (1 - y))) (fun s => bind (mdiv sd s) (fun x =>
    let xi := mean - y * x in
    let xlam := xi + x in
    if return_rv then Err NotImplementedError else Ok (Some (Params 5 xi xlam 0 y))))
  else
  if Rltb (Rabs root_beta_1) tol && Rltb (Rabs (beta_2 - 3)) tol then
    Ok (Some (if return_rv then Rv (Normal mean sd) else Params 4 mean sd 0 1))
  else
  let x := 0.5 * beta_1 + 1 in
  let y := root_beta_1 * sqrt (0.25 * beta_1 + 1) in
  let omega := Rpower (x + y) (1 / 3) + Rpower (x - y) (1 / 3) - 1 in
  let lognormal := omega * omega * (3 + omega * (2 + omega)) - 3 in
  let beta_2 := if Rltb beta_2 0 then lognormal else beta_2 in
  let x := lognormal - beta_2 in
  let sl := bind (sl_fit mean sd root_beta_1 omega return_rv) (fun f => Ok (Some f)) in
  if Rltb (Rabs x) tol then sl
  else if Rltb 0 x then
    match sb_fit mean sd root_beta_1 beta_2 with
    | Err TypeError => sl
    | Err e => Err e
    | Ok (xi, xlam, gamma, delta) => Ok (Some (if return_rv then Rv (Bounded gamma delta xi xlam) else Params 3 xi xlam gamma delta))
    end
  else
    bind (su_fit fuel mean sd root_beta_1 beta_2 tol) (fun r =>
    match r with
    | None => Ok None
    | Some (xi, xlam, gamma, delta) => Ok (Some (if return_rv then Rv (Unbounded gamma delta xi xlam) else Params 2 xi xlam gamma delta))
    end).
