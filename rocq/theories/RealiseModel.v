(** Model of a filter surface as an object: slippy/surface/Random.py 375-394 (constructor), 505-561 ([linear_transform]),
    626-653 ([set_moments]), 655-680 ([set_quantiles]), 721-757 ([fir_filter]) and 800-831 ([discretise]), with the
    geometry of slippy/surface/Surface_class.py 152-167 and 215-384. The numbers in them are those of [FilterModel]. Floats
    are real numbers, warnings are left out. The profile is kept as it was set (a surface that is not inverted). *)
From Coq Require Import Reals List Bool Arith.
From Verif Require Import Py SurfaceModel ConvModel JohnsonModel FilterModel.
Import ListNotations.
Local Open Scope R_scope.

(** The coefficients: real ones of [linear_transform], complex ones of [fir_filter]. *)
Inductive coefficients := Fitted (g : grid) | Spectral (r c : nat) (z : nat -> nat -> cplx).
(** Random.py 375-383: the attributes. [heights_] is the profile, [prof (geo s)] its shape. *)
Record filt := Filt {
  geo : geom;
  target : option acf;
  target_points : option grid;
  coeffs : option coefficients;
  moments : option (R * R);
  law : dist;
  heights_ : option grid;
  is_discrete : bool }.
Definition with_geo s g := Filt g (target s) (target_points s) (coeffs s) (moments s) (law s) (heights_ s) (is_discrete s).
Definition with_target s a := Filt (geo s) a (target_points s) (coeffs s) (moments s) (law s) (heights_ s) (is_discrete s).
Definition with_points s g := Filt (geo s) (target s) g (coeffs s) (moments s) (law s) (heights_ s) (is_discrete s).
Definition with_coeffs s c := Filt (geo s) (target s) (target_points s) c (moments s) (law s) (heights_ s) (is_discrete s).
Definition with_moments s m := Filt (geo s) (target s) (target_points s) (coeffs s) m (law s) (heights_ s) (is_discrete s).
Definition with_law s d := Filt (geo s) (target s) (target_points s) (coeffs s) (moments s) d (heights_ s) (is_discrete s).
Definition with_heights s h b := Filt (geo s) (target s) (target_points s) (coeffs s) (moments s) (law s) h b.

(** Random.py 376: the noise of a new surface is standard normal. *)
Definition blank_surface (a : option acf) : filt := Filt new_geom a None None None (Normal 0 1) None false.

(** Surface_class.py 152-166, Random.py 385-394: the setters run one after the other; the target is set in the end. *)
Definition then_ (r : geom * result unit) (f : geom -> geom * result unit) : geom * result unit :=
  match r with (g, Ok _) => f g | (g, Err e) => (g, Err e) end.
Definition maybe {A} (v : option A) (f : geom -> A -> geom * result unit) (g : geom) : geom * result unit :=
  match v with Some a => f g a | None => (g, Ok tt) end.
Definition new_filt (a : option acf) (h : option R) (e : option (R * R)) (s : option (nat * nat)) : result filt :=
  match h, e, s with
  | Some _, Some _, Some _ => Err ValueError
  | _, _, _ =>
      match then_ (then_ (maybe h set_spacing new_geom) (maybe e set_extent)) (maybe s set_shape) with
      | (g, Ok _) => Ok (with_geo (blank_surface a) g)
      | (_, Err er) => Err er
      end
  end.

Section Calls.
(** [scipy.optimize.minimize], as in [FilterModel.linear_transform]. *)
Variable minimise : (list R -> R) -> (list R -> list R) -> list R -> list R.
(** [_fit_johnson_by_moments(0, 1, skew, kurtosis, True)] for real moments (None: infinite or NaN), see
    [JohnsonModel.fit_moments], and what lines 637-653 come to with complex coefficients. *)
Variable fit : option R -> option R -> result dist.
Variable fit_complex : list cplx -> R -> R -> result dist.
(** [dist.stats('sk')]: skew and excess kurtosis. *)
Variable stats : dist -> R * R.

(** Random.py 520-524 and 738-742: the grid spacing is set to one if it is not set. *)
Definition spaced (s : filt) : filt * result R :=
  match spacing (geo s) with
  | Some h => (s, Ok h)
  | None => match set_spacing (geo s) 1 with
            | (g, Ok _) => (with_geo s g, Ok 1)
            | (g, Err e) => (with_geo s g, Err e)
            end
  end.

(** lines 505-561 ([linear_transform]) *)
Definition call_linear (s : filt) (n m : nat) (symmetric : bool) : filt * result unit :=
  match target s with
  | None => (s, Err ValueError)
  | Some a =>
      match spaced s with
      | (s1, Err e) => (s1, Err e)
      | (s1, Ok h) =>
          (with_coeffs (with_points s1 (Some (target_array a h n m)))
             (Some (Fitted (FilterModel.linear_transform minimise a h n m symmetric))), Ok tt)
      end
  end.

(** The argument of [fir_filter]: none, an [ACF], or something else. *)
Inductive fir_target := NoTarget | Acf (a : acf) | NotAcf.
(** lines 721-757 ([fir_filter]) *)
Definition call_fir (s : filt) (a : fir_target) (span : option (nat * nat)) : filt * result unit :=
  let given := match a, target s with
               | NoTarget, None => None
               | NoTarget, Some t => Some (Acf t)
               | x, _ => Some x
               end in
  match given with
  | None => (s, Err ValueError)
  | Some x =>
      match spaced s with
      | (s1, Err e) => (s1, Err e)
      | (s1, Ok h) =>
          match (match span with Some p => Some p | None => shape (geo s1) end) with
          | None => (s1, Err ValueError)
          | Some (n, m) =>
              let s2 := match x with Acf t => with_target s1 (Some t) | _ => s1 end in
              match target s2 with
              | None => (s2, Err ValueError)
              | Some t => let g := target_array t h n m in
                          (with_coeffs s2 (Some (Spectral (rows g) (cols g) (FilterModel.fir_filter t h n m))), Ok tt)
              end
          end
      end
  end.

Definition zlist (r c : nat) (z : nat -> nat -> cplx) : list cplx :=
  flat_map (fun i => map (z i) (seq 0 c)) (seq 0 r).
(** lines 637-651; a sum that is divided by may be zero. *)
Definition asked_skew (alpha : list R) (skew : R) : option R :=
  if Reqb (rsum (List.length alpha) (fun i => nth i alpha 0 ^ 2 * nth i alpha 0)) 0 then None else Some (noise_skew alpha skew).
Definition asked_kurtosis (alpha : list R) (kurtosis : R) : option R :=
  if Reqb (rsum (List.length alpha) (fun i => (nth i alpha 0 ^ 2) ^ 2)) 0 then None else Some (noise_kurtosis alpha kurtosis).
(** lines 626-653 ([set_moments]): the moments are kept before anything is checked. *)
Definition call_moments (s : filt) (skew kurtosis : R) : filt * result unit :=
  let s1 := with_moments s (Some (skew, kurtosis)) in
  match coeffs s with
  | None => (s1, Err AttributeError)
  | Some c =>
      let r := match c with
               | Fitted g => fit (asked_skew (flatten g) skew) (asked_kurtosis (flatten g) kurtosis)
               | Spectral r c z => fit_complex (zlist r c z) skew kurtosis
               end in
      match r with Ok d => (with_law s1 d, Ok tt) | Err e => (s1, Err e) end
  end.
(** lines 655-680 ([set_quantiles]), four quantiles *)
Definition call_quantiles (s : filt) (x0 x1 x2 x3 : R) : filt * result unit :=
  let '(sk, ku) := stats (fit_quantiles x0 x1 x2 x3) in call_moments s sk ku.

(** lines 800-831 ([discretise]). [draw] is [dist.rvs] of a law and shape. Complex heights are cut to their real parts when
    they become a profile (Surface_class.py 306-307), those of the complex coefficients are the sums with the real parts
    of the coefficients. *)
Definition real_part (c : coefficients) : grid :=
  match c with Fitted g => g | Spectral r c z => Grid r c (fun i j => fst (z i j)) end.
Inductive realised := Kept | NewSurface (h : option R) (g : grid).
Definition call_discretise (s : filt) (out : option (nat * nat)) (periodic create_new : bool)
    (draw : dist -> nat * nat -> nat -> nat -> R) : filt * result realised :=
  match coeffs s with
  | None => (s, Err AttributeError)
  | Some c =>
      match (match out with Some p => Some p | None => shape (geo s) end) with
      | None => (s, Err ValueError)
      | Some (n, m) =>
          let f := real_part c in
          let g := FilterModel.discretise f n m periodic (draw (law s) (noise_shape f n m periodic)) in
          if create_new then (s, Ok (NewSurface (spacing (geo s)) g))
          else match set_prof (geo s) (rows g, cols g) with
               | (q, Ok _) => (with_heights (with_geo s q) (Some g) true, Ok Kept)
               | (q, Err e) => (with_heights (with_geo s q) (Some g) (is_discrete s), Err e)
               end
      end
  end.

(** The calls and assignments a user can make. *)
Inductive call :=
| Linear (n m : nat) (symmetric : bool)
| Fir (a : fir_target) (span : option (nat * nat))
| Moments (skew kurtosis : R)
| Quantiles (x0 x1 x2 x3 : R)
| Discretise (out : option (nat * nat)) (periodic create_new : bool) (draw : dist -> nat * nat -> nat -> nat -> R)
| Target (a : option acf)
| Spacing (h : R)
| Shape (p : nat * nat)
| Extent (e : R * R).
Definition unit_of {A} (r : result A) : result unit := match r with Ok _ => Ok tt | Err e => Err e end.
Definition geometry (s : filt) (r : geom * result unit) : filt * result unit := (with_geo s (fst r), snd r).
Definition do_call (s : filt) (o : call) : filt * result unit :=
  match o with
  | Linear n m y => call_linear s n m y
  | Fir a p => call_fir s a p
  | Moments k u => call_moments s k u
  | Quantiles a b c d => call_quantiles s a b c d
  | Discretise o p c w => let r := call_discretise s o p c w in (fst r, unit_of (snd r))
  | Target a => (with_target s a, Ok tt)
  | Spacing h => geometry s (set_spacing (geo s) h)
  | Shape p => geometry s (set_shape (geo s) p)
  | Extent e => geometry s (set_extent (geo s) e)
  end.
(** A history of calls, each in a [try] of its own. *)
Definition do_calls (s : filt) (os : list call) : filt := fold_left (fun s o => fst (do_call s o)) os s.
End Calls.
