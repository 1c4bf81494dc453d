(** Model of slippy/contact/_lubrication_utils.py: [tdma] (lines 7-32) and [cyclic_tdma]
    (lines 35-74). Arrays are functions on indices with a separate length. *)
From Coq Require Import Bool Arith Reals.
From Verif Require Export Py SurfaceModel.
Local Open Scope R_scope.

Definition arr := nat -> R.
(** LAPACK's dgtsv, which the code calls: elimination with row interchanges. The row of index k,
    as changed by the elimination, is [dk] at column k, [uk] at column k + 1 and [bk] on the
    right; [m] rows follow, [l i], [d i], [u i], [b i] are the entries of row i at columns
    i - 1, i, i + 1 and on the right. The result is the array that is returned (the partly
    eliminated right hand side when a pivot is zero) and whether [info] is zero. *)
Fixpoint eliminate (m k : nat) (dk uk bk : R) (l d u b : arr) : arr * bool :=
  match m with
  | O => if Reqb dk 0 then (fun i => if Nat.eqb i k then bk else b i, false) else (fun _ => bk / dk, true)
  | S m' =>
      let l' := l (S k) in let d' := d (S k) in let b' := b (S k) in
      let u' := match m' with O => 0 | S _ => u (S k) end in
      if Rleb (Rabs l') (Rabs dk) then
        if Reqb dk 0 then (fun i => if Nat.eqb i k then bk else b i, false)
        else
          let fact := l' / dk in
          let (x, ok) := eliminate m' (S k) (d' - fact * uk) u' (b' - fact * bk) l d u b in
          (fun i => if Nat.eqb i k then (if ok then (bk - uk * x (S k)) / dk else bk) else x i, ok)
      else
        let fact := dk / l' in
        let (x, ok) := eliminate m' (S k) (uk - fact * d') (- fact * u') (bk - fact * b') l d u b in
        (fun i => if Nat.eqb i k then (if ok then (b' - d' * x (S k) - u' * x (S (S k))) / l' else b') else x i, ok)
  end.
(** [dgtsv(l, d, u, b)] for n unknowns; here [l i] belongs to row i, so [l 0] is not used. *)
Definition gtsv (n : nat) (l d u b : arr) : arr * bool :=
  match n with O => (b, true) | S m => eliminate m 0 (d 0%nat) (u 0%nat) (b 0%nat) l d u b end.
(** Lines 31-32: [info] is not looked at. The lower diagonal starts at row 1. *)
Definition tdma (n : nat) (lower main upper rhs : arr) : arr :=
  fst (gtsv n (fun i => lower (i - 1)%nat) main upper rhs).

Definition set (a : arr) (i : nat) (v : R) : arr := fun j => if Nat.eqb j i then v else a j.
(** Lines 57-74. [store_d] and [store_b] are what an assignment to an element of the main
    diagonal and of an array like the right hand side stores: the value itself for arrays of
    floats, the value cut to an integer for arrays of integers. The results are the solution and
    the main diagonal after the call, which the caller sees. *)
Definition cyclic_tdma (store_d store_b : R -> R) (n : nat) (lower main upper rhs : arr) : arr * arr :=
  let e := (n - 1)%nat in
  let gamma := if Reqb (main 0%nat) 0 then 1 else - main 0%nat in
  let main1 := set main 0 (store_d (main 0%nat - gamma)) in
  let main2 := set main1 e (store_d (main1 e - lower 0%nat * upper e / gamma)) in
  let x := fst (gtsv n lower main2 upper rhs) in
  let u := set (set (fun _ => 0) 0 (store_b gamma)) e (store_b (upper e)) in
  let z := fst (gtsv n lower main2 upper u) in
  let factor := (x 0%nat + x e * lower 0%nat / gamma) / (1 + z 0%nat + z e * lower 0%nat / gamma) in
  (fun i => x i - z i * factor, main2).
