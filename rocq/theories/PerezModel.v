(** Model of [RandomPerezSurface]: slippy/surface/Random.py 93-118 and 193-300. Floats are real numbers; a spectrum which
    is zero everywhere but at [0, 0] would make the code divide by zero and is not modelled. *)
From Coq Require Import Reals List Bool Arith ZArith.
From Verif Require Import Py SurfaceModel ConvModel.
Import ListNotations.
Local Open Scope R_scope.

Inductive exactness := ExactPsd | ExactHeights | ExactBest.
(** lines 98-110: a distribution, a list (or other sequence without [size]), an array with its first dimension. *)
Inductive source := FromDist | FromList (v : list R) | FromArray (len0 : nat) (v : list R).
Inductive stored := StoredDist | StoredHeights (v : list R) | StoredNothing.
Definition store_heights (psd : grid) (s : source) : result stored :=
  let size := (rows psd * cols psd)%nat in
  match s with
  | FromDist => Ok StoredDist
  | FromList v => if Nat.eqb (List.length v) size then Ok (StoredHeights v) else Err ValueError
  | FromArray len0 v => if Nat.eqb len0 size || Nat.eqb (List.length v) size then Ok (StoredHeights v) else Ok StoredNothing
  end.

Definition lsum (v : list R) : R := fold_right Rplus 0 v.
Definition mean (v : list R) : R := lsum v / INR (List.length v).

(** [height_guess[index] = values], line 252 *)
Fixpoint scatter (idx : list nat) (values : list R) (a : nat -> R) : nat -> R :=
  match idx, values with
  | i :: idx', x :: values' => scatter idx' values' (fun p => if Nat.eqb p i then x else a p)
  | _, _ => a
  end.
(** Lines 236-242: exp(1j * angle(z)). *)
Definition unit_phase (z : cplx) : cplx :=
  let r := sqrt (fst z ^ 2 + snd z ^ 2) in
  if Reqb r 0 then c1 else (fst z / r, snd z / r).

(** Lines 199-203: the spectrum of the caller is changed in place, and the scaled one is used. *)
Definition centred (psd : grid) : grid :=
  Grid (rows psd) (cols psd) (fun k l => if Nat.eqb k 0 && Nat.eqb l 0 then 0 else at_ psd k l).
Definition scaled (psd : grid) : grid :=
  let p := centred psd in
  let s := sqrt (lsum (map (fun x => x ^ 2) (flatten p))) in
  Grid (rows p) (cols p) (fun k l => at_ p k l / s * INR (rows p) * INR (cols p)).

Section Perez.
(** [np.argsort], and the three errors of lines 245-246 and 256-262, which only decide when to stop. *)
Variable argsort : list R -> list nat.
Variable error_h : list R -> R.
Variable error_ps error_ps0 : grid -> R.

(** One pass of the loop, lines 234-254: from the heights to the guess with the spectrum and the next heights. *)
Definition psd_step (power height : grid) : grid :=
  let m := rows power in let n := cols power in
  Grid m n (fun i j => fst (ifft2 m n (fun k l => cmul (creal (at_ power k l))
    (unit_phase (fft2 m n (fun a b => creal (at_ height a b)) k l))) i j)).
Definition height_step (sorted : list R) (psd_guess : grid) : grid :=
  let v := flatten psd_guess in
  let h := scatter (argsort v) sorted (fun p => nth p v 0) in
  Grid (rows psd_guess) (cols psd_guess) (fun i j => h (i * cols psd_guess + j)%nat).

(** Lines 233-283. [left] is [max_it - len(error['H'])] before the pass; [eh] are the earlier errors, the last one first. *)
Inductive stop := NotConverged | TooSlow | Diverging | HeightsGood | PsdGood.
Record outcome := Outcome { why : stop; heights_of : grid; psd_of : grid; passes : nat }.
Fixpoint loop (left count : nat) (accuracy min_speed : R) (power : grid) (sorted eh : list R) (height : grid) : outcome :=
  let p := psd_step power height in
  let h := height_step sorted p in
  let e := error_h (flatten p) in
  let done w := Outcome w h p (S count) in
  match left with
  | O | S O => done NotConverged
  | S left' =>
      if Nat.ltb 2 (S (List.length eh)) && negb (Reqb e 0) && Rltb (Rabs (e - hd 0 eh) / e) min_speed then done TooSlow
      else if Nat.ltb 2 (S (List.length eh)) && Rltb (hd 0 eh - e) 0 then done Diverging
      else if Rltb e accuracy then done HeightsGood
      else if Rltb (error_ps h) accuracy && Rltb (error_ps0 h) accuracy then done PsdGood
      else loop left' (S count) accuracy min_speed power sorted (e :: eh) h
  end.

(** The result: the new spectrum of the caller, and either an exception or the profile with the two guesses. *)
Record surface_out := SurfaceOut { profile_out : grid; outcome_out : outcome; warned : bool }.
(** Lines 193-300 ([discretise]). [sample] are the numbers drawn if a distribution was given. A constant list of heights is
    scaled by 0/0 and the number of bins cannot be converted to an integer. *)
Definition discretise_perez (psd : grid) (st : stored) (sample : list R) (accuracy : R) (max_it : nat) (min_speed : R)
    (exact : exactness) (suppress return_new return_original : bool) : grid * result surface_out :=
  if return_original && return_new then (psd, Err ValueError) else
  let caller := centred psd in
  let power := scaled psd in
  (caller,
   bind (match st with StoredDist => Ok sample | StoredHeights v => Ok v | StoredNothing => Err ValueError end) (fun v =>
   let mu := mean v in
   let sq := sqrt (mean (map (fun x => (x - mu) ^ 2) v)) in
   if Reqb sq 0 then Err ValueError else
   let g := map (fun x => (x - mu) / sq) v in
   let sorted := map (fun i => nth i g 0) (argsort g) in
   if negb (Nat.eqb (List.length g) (rows psd * cols psd)) then Err ValueError else
   let o := loop max_it 0 accuracy min_speed power sorted [] (reshape (rows psd) (cols psd) g) in
   let failed := match why o with HeightsGood | PsdGood => false | _ => true end in
   if failed && negb suppress then Err StopIteration else
   let best := match why o with HeightsGood => ExactHeights | _ => ExactPsd end in
   let chosen := match exact with ExactBest => best | e => e end in
   let guess := match chosen with ExactPsd => psd_of o | _ => heights_of o end in
   Ok (SurfaceOut (Grid (rows guess) (cols guess) (fun i j => at_ guess i j * sq + mu)) o failed))).
End Perez.
