(** Model of the loads and displacements interface of the influence matrix materials:
    slippy/contact/materials.py, [_IMMaterial.displacement_from_surface_loads] (lines 66-157),
    [_IMMaterial.loads_from_surface_displacement] (lines 159-293) up to the call of the solver,
    and [Rigid] (lines 393-421). *)
From Coq Require Import String List Bool Arith ZArith Reals.
From Verif Require Export Py SurfaceModel ConvModel.
Import ListNotations.
Local Open Scope R_scope.

(** The three kinds of arguments: a named tuple, a dict (keys x, y and z only) or a sequence. *)
Inductive arg3 := Named (v : vec3) | Dict (l : list (dirn * option grid)) | Seq (l : list (option grid)).
Definition entry (l : list (option grid)) (k : nat) : option grid := nth k l None.
Fixpoint lookup (d : dirn) (l : list (dirn * option grid)) : option grid :=
  match l with [] => None | (d', g) :: l' => if dir_eqb d d' then g else lookup d l' end.

(** Lines 113-125: [for key, value in loads] unpacks the key of one letter, a ValueError, for
    every dict that is not empty; fields that are left out of the sequence are None, too many
    are a TypeError that is turned into a ValueError. *)
Definition read_loads (a : arg3) : result vec3 :=
  match a with
  | Named v => Ok v
  | Dict [] => Ok (Vec3 None None None)
  | Dict _ => Err ValueError
  | Seq l => if Nat.leb (List.length l) 3 then Ok (Vec3 (entry l 0) (entry l 1) (entry l 2)) else Err ValueError
  end.
Definition has (v : vec3) (d : dirn) : bool := match get v d with Some _ => true | None => false end.
(** Lines 127-128 and 237-238 *)
Definition directions (v : vec3) : list dirn := filter (has v) [Dx; Dy; Dz].
(** Lines 130-133 and 236, 240: [len(set(shapes)) != 1] *)
Definition check_shapes (v : vec3) : result (nat * nat) :=
  match first_shape v with
  | Err _ => Err ValueError
  | Ok (m, n) =>
      if forallb (fun d => match get v d with Some g => Nat.eqb (rows g) m && Nat.eqb (cols g) n | None => true end) [Dx; Dy; Dz]
      then Ok (m, n) else Err ValueError
  end.
Definition name_eqb (a b : dirn * dirn) : bool := dir_eqb (fst a) (fst b) && dir_eqb (snd a) (snd b).
(** The dict of components has every name once. *)
Fixpoint once (l : list (dirn * dirn)) : list (dirn * dirn) :=
  match l with [] => [] | x :: l' => x :: filter (fun y => negb (name_eqb x y)) (once l') end.
(** Lines 147-151 *)
Definition names (simple : bool) (deflections loaded : list dirn) : list (dirn * dirn) :=
  if simple then map (fun d => (d, d)) loaded else list_prod deflections loaded.
(** Lines 113-157. [im] is [influence_matrix] for the span, which is the shape of the loads when
    it is not given. The grid spacing is a part of [im]. *)
Definition displacement_from_surface_loads (im : nat * nat -> dirn * dirn -> grid) (a : arg3) (deflections : list dirn)
    (span : option (nat * nat)) (simple : bool) : result out3 :=
  bind (read_loads a) (fun v =>
  bind (check_shapes v) (fun shape =>
  let sp := match span with Some s => s | None => shape end in
  solve_im_loading v (map (fun c => (c, im sp c)) (once (names simple deflections (directions v)))))).

(** ** Rigid (lines 393-421) *)
Definition rigid_influence (span : nat * nat) (_ : dirn * dirn) : grid := Grid (fst span) (snd span) (fun _ _ => 0).
(** [np.zeros_like(None)] is an array without dimensions. *)
Inductive zeros := Zeros (m n : nat) | ZeroScalar.
Definition rigid_displacement (v : vec3) : list zeros :=
  map (fun d => match get v d with Some g => Zeros (rows g) (cols g) | None => ZeroScalar end) [Dx; Dy; Dz].

(** ** [loads_from_surface_displacement] (lines 221-262) *)
Fixpoint compact (l : list (option grid)) : list grid :=
  match l with [] => [] | Some g :: l' => g :: compact l' | None :: l' => compact l' end.
Definition read_displacements (a : arg3) : result vec3 :=
  match a with
  | Named v => Ok v
  | Dict l => Ok (Vec3 (lookup Dx l) (lookup Dy l) (lookup Dz l))
  | Seq l => if Nat.eqb (List.length l) 3 then
               let c := map Some (compact l) in Ok (Vec3 (entry c 0) (entry c 1) (entry c 2))
             else Err ValueError
  end.
(** The displacements that are solved for and the components used. With several directions and
    [simple=False] an array is added to a letter (lines 257-258). *)
Definition displacement_problem (a : arg3) (simple : bool) : result (vec3 * list (dirn * dirn)) :=
  bind (read_displacements a) (fun v =>
  bind (check_shapes v) (fun _ =>
  if simple || Nat.eqb (List.length (directions v)) 1 then Ok (v, map (fun d => (d, d)) (directions v))
  else Err TypeError)).

(** Lines 268-290: with a second material the influence matrices are added, and the
    displacements under the loads found are split. [v] are the loads found by the solver, which
    have the directions of the displacements; the first result is what the solver returns as
    full displacements. *)
Definition split_displacements (im1 im2 : nat * nat -> dirn * dirn -> grid) (v : vec3) (span : nat * nat) (simple : bool)
    : result (out3 * out3 * out3) :=
  let defs := directions v in
  bind (solve_im_loading v (map (fun d => ((d, d), gplus (im1 span (d, d)) (im2 span (d, d)))) defs)) (fun full =>
  bind (displacement_from_surface_loads im1 (Named v) defs (Some span) simple) (fun u1 =>
  bind (displacement_from_surface_loads im2 (Named v) defs (Some span) simple) (fun u2 =>
  Ok (full, u1, u2)))).
