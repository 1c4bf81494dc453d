(** Model of [Surface.fill_holes], slippy/surface/Surface_class.py 1471-1602. *)
From Coq Require Import Reals List Bool Arith.
From Verif Require Import Py SurfaceModel.
Import ListNotations.
Local Open Scope R_scope.

(** Heights: [None] is not a number, or infinite. *)
Record heights := Heights { h_rows : nat; h_cols : nat; h_at : nat -> nat -> option R }.
Inductive hole_value := Auto | Value (x : R).
(** lines 1530-1537 *)
Definition is_hole (v : hole_value) (h : option R) : bool :=
  match v, h with
  | Auto, None => true
  | Auto, Some _ => false
  | Value x, Some y => Reqb x y
  | Value _, None => false
  end.

(** [np.mean(line) > b_thresh] for a line of booleans; the mean of an empty line is not a number. *)
Definition count (l : list bool) : nat := List.length (filter (fun b => b) l).
Definition too_many (b_thresh : R) (l : list bool) : bool :=
  match l with [] => false | _ => Rltb b_thresh (INR (count l) / INR (List.length l)) end.
(** A part of a row and of a column: [a] cut off at the start, [b] at the end. [end_r = None] is nothing cut off, [- k] is
    [k]. *)
Definition row_part (m : nat -> nat -> bool) (cols i a b : nat) : list bool := map (fun j => m i j) (seq a (cols - b - a)).
Definition col_part (m : nat -> nat -> bool) (rows j a b : nat) : list bool := map (fun i => m i j) (seq a (rows - b - a)).

Record cut := Cut { sr : nat; er : nat; sc : nat; ec : nat; g0 : bool; g1 : bool; g2 : bool; g3 : bool }.
Section Border.
Variable m : nat -> nat -> bool.
Variable rows cols : nat.
Variable b_thresh : R.
(** lines 1549-1568: one pass of the first loop; indices outside of the array raise. *)
Definition shrink (c : cut) : result cut :=
  bind (if Nat.ltb (sr c) rows then
          Ok (if too_many b_thresh (row_part m cols (sr c) (sc c) (ec c)) then (S (sr c), g0 c) else (sr c, true)) else Err IndexError) (fun '(sr', g0') =>
  bind (if Nat.ltb (er c) rows then
          Ok (if too_many b_thresh (row_part m cols (rows - 1 - er c) (sc c) (ec c)) then (S (er c), g1 c) else (er c, true)) else Err IndexError) (fun '(er', g1') =>
  bind (if Nat.ltb (sc c) cols then
          Ok (if too_many b_thresh (col_part m rows (sc c) sr' er') then (S (sc c), g2 c) else (sc c, true)) else Err IndexError) (fun '(sc', g2') =>
  bind (if Nat.ltb (ec c) cols then
          Ok (if too_many b_thresh (col_part m rows (cols - 1 - ec c) sr' er') then (S (ec c), g3 c) else (ec c, true)) else Err IndexError) (fun '(ec', g3') =>
  Ok (Cut sr' er' sc' ec' g0' g1' g2' g3'))))).
Definition all_good (c : cut) : bool := g0 c && g1 c && g2 c && g3 c.
Definition any_good (c : cut) : bool := g0 c || g1 c || g2 c || g3 c.
(** [None]: more passes than [fuel]. *)
Fixpoint shrink_loop (fuel : nat) (c : cut) : result (option cut) :=
  if all_good c then Ok (Some c) else
  match fuel with O => Ok None | S fuel' => bind (shrink c) (shrink_loop fuel') end.
(** lines 1571-1590: one pass of the second loop. *)
Definition grow (c : cut) : cut :=
  let '(sr', g0') := if Nat.ltb 0 (sr c) && negb (too_many b_thresh (row_part m cols (sr c - 1) (sc c) (ec c))) then ((sr c - 1)%nat, g0 c) else (sr c, false) in
  let '(er', g1') := if Nat.ltb 0 (er c) && negb (too_many b_thresh (row_part m cols (rows - er c) (sc c) (ec c))) then ((er c - 1)%nat, g1 c) else (er c, false) in
  let '(sc', g2') := if Nat.ltb 0 (sc c) && negb (too_many b_thresh (col_part m rows (sc c - 1) sr' er')) then ((sc c - 1)%nat, g2 c) else (sc c, false) in
  let '(ec', g3') := if Nat.ltb 0 (ec c) && negb (too_many b_thresh (col_part m rows (cols - ec c) sr' er')) then ((ec c - 1)%nat, g3 c) else (ec c, false) in
  Cut sr' er' sc' ec' g0' g1' g2' g3'.
Fixpoint grow_loop (fuel : nat) (c : cut) : option cut :=
  if any_good c then match fuel with O => None | S fuel' => grow_loop fuel' (grow c) end else Some c.
Definition border : result (option cut) :=
  let fuel := S (Nat.max rows cols) in
  bind (shrink_loop fuel (Cut 0 0 0 0 false false false false)) (fun o =>
  Ok (match o with Some c => grow_loop fuel c | None => None end)).
End Border.

(** lines 1526-1602. [inpaint] is [inpaint_biharmonic]: the heights of the part that is kept and its holes. The profile of
    the surface is changed in place before anything else; [None] in the result: the loops do not end. *)
Section Fill.
Variable inpaint : grid -> (nat -> nat -> bool) -> grid.
Record filled := Filled { original : heights; new_profile : result (option grid) }.
Definition fill_holes (p : heights) (v : hole_value) (mk_copy remove_border : bool) (b_thresh : R) : filled :=
  let m i j := is_hole v (h_at p i j) in
  let p' := Heights (h_rows p) (h_cols p) (fun i j => if m i j then Some 0 else h_at p i j) in
  let c := if remove_border then border m (h_rows p) (h_cols p) b_thresh else Ok (Some (Cut 0 0 0 0 false false false false)) in
  let out := bind c (fun o => Ok (option_map (fun c =>
    inpaint (Grid (h_rows p - er c - sr c) (h_cols p - ec c - sc c) (fun i j => match h_at p' (sr c + i) (sc c + j) with Some x => x | None => 0 end))
            (fun i j => m (sr c + i)%nat (sc c + j)%nat)) o)) in
  Filled (if mk_copy then p' else match out with Ok (Some g) => Heights (SurfaceModel.rows g) (SurfaceModel.cols g) (fun i j => Some (at_ g i j)) | _ => p' end) out.
End Fill.
