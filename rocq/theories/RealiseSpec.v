(** Specification vocabulary for a filter surface through any history of calls (C117). *)
From Coq Require Import Reals List Bool Arith.
From Verif Require Import Py SurfaceModel ConvSpec FilterSpec JohnsonModel RealiseModel.
Import ListNotations.
Local Open Scope R_scope.

(** The sum of the noise in the window of the shape of the filter that ends at a point, with the coefficients as weights. *)
Definition window (f : grid) (noise : nat -> nat -> R) (i j : nat) : R :=
  total2 (rows f) (cols f) (fun k l => at_ f k l * noise (i + (rows f - 1) - k)%nat (j + (cols f - 1) - l)%nat).
(** A block of noise of shape n by m, repeated for a periodic surface. *)
Definition continued (periodic : bool) (n m : nat) (noise : nat -> nat -> R) : nat -> nat -> R :=
  if periodic then fun i j => noise (Nat.modulo i n) (Nat.modulo j m) else noise.

(** Calls that find coefficients, calls that choose the law of the noise, calls that make the profile. *)
Definition finds (o : call) : bool := match o with Linear _ _ _ | Fir _ _ => true | _ => false end.
Definition chooses (o : call) : bool := match o with Moments _ _ | Quantiles _ _ _ _ => true | _ => false end.
Definition makes (o : call) : bool := match o with Discretise _ _ create_new _ => negb create_new | _ => false end.

(** The surfaces a user can have: made by the constructor and used in any way, calls that fail included. *)
Definition usable minimise fit fit_complex stats (s : filt) : Prop :=
  exists a h e p s0 os, new_filt a h e p = Ok s0 /\ s = do_calls minimise fit fit_complex stats s0 os.
(** The shape asked for, or else the one of the surface. *)
Definition wanted_shape (s : filt) (out : option (nat * nat)) : option (nat * nat) :=
  match out with Some p => Some p | None => shape (geo s) end.
Definition spacing_or_one (s : filt) : R := match spacing (geo s) with Some h => h | None => 1 end.

(** How much of the skew of the noise is left in a sum with given weights. *)
Definition skew_left (alpha : list R) : R := sum_skew alpha 1.
(** A fit gives noise with the moments asked for (third and fourth standardised moment), for a way to take moments of laws. *)
Definition right_fit (fit : option R -> option R -> result dist) (skew_of kurtosis_of : dist -> R) : Prop :=
  forall s k d, fit (Some s) (Some k) = Ok d -> skew_of d = s /\ kurtosis_of d = k.
(** [stats('sk')] of scipy: skew and kurtosis minus three. *)
Definition scipy_stats (stats : dist -> R * R) (skew_of kurtosis_of : dist -> R) : Prop :=
  forall d, stats d = (skew_of d, kurtosis_of d - 3).
