(** Specification of plots. *)
From Coq Require Import Reals String List Bool Arith.
From Verif Require Import Py SurfaceModel ConvModel Flt ShowModel.
Import ListNotations.
Local Open Scope R_scope.

(** A point (x, y, z) is a corner of what is drawn. *)
Definition corner {dist} (a : axis dist) (x y : R) (z : flt) : Prop :=
  match drawn a with
  | DSurface mx my mz | DWire mx my mz _ =>
      exists i j, (i < frows mz)%nat /\ (j < fcols mz)%nat /\ x = at_ mx i j /\ y = at_ my i j /\ z = fat mz i j
  | _ => False
  end.
(** Nothing but these values at these coordinates is drawn, and all of them are. *)
Definition plotted {dist} (a : axis dist) (n m : nat) (x y : nat -> R) (z : nat -> nat -> flt) : Prop :=
  three_d a = true /\
  forall px py pz, corner a px py pz <-> exists i j, (i < n)%nat /\ (j < m)%nat /\ px = x i /\ py = y j /\ pz = z i j.

(** The frequency of entry k of a discrete transform of n points a distance d apart. *)
Definition frequency (n : nat) (d : R) (k : nat) : R :=
  if Nat.ltb (2 * k) n then INR k / (INR n * d) else - INR (n - k) / (INR n * d).

(** The middle of the pixel of row i and column j of an image: across and upwards; the first row is the top one. *)
Definition pixel {dist} (a : axis dist) (i j : nat) : option (R * R * flt) :=
  match drawn a with
  | DImage z l r b t =>
      if Nat.ltb i (frows z) && Nat.ltb j (fcols z)
      then Some (l + (INR j + /2) * ((r - l) / INR (fcols z)), t - (INR i + /2) * ((t - b) / INR (frows z)), fat z i j)
      else None
  | _ => None
  end.

(** The logarithm, minus infinity at zero. *)
Definition logarithm (x : R) : flt := if Rlt_dec 0 x then Fin (ln x) else NInf.
(** The profile of a surface: what is kept on it, upside down if it is inverted. *)
Definition profile_of (s : surface) (p : grid) : Prop :=
  exists g, held s = Some g /\ p = if turned s then Grid (rows g) (cols g) (fun i j => -1 * at_ g i j) else g.
(** A surface with a profile, a spacing and the shape of the profile, as the setters of it leave them. *)
Definition ready (s : surface) (p : grid) (h : R) : Prop :=
  profile_of s p /\ gs s = Some h /\ shp s = Some (rows p, cols p).
(** Nothing changed but the kept spectra. *)
Definition same_but_spectra (s s' : surface) : Prop := s' = with_spectra s (fft_kept s') (psd_kept s') (acf_kept s').
