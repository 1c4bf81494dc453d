(** C129 and C57: the filter and missing heights. *)
From Coq Require Import Reals List Bool Arith ZArith String Lia Lra.
From Verif Require Import Py SurfaceModel SurfaceProofs Flt SolverProofs RoughModel RoughSpec RoughProofs RoughTheorems SummitTheorems LowPassSpec LowPassTheorems.
Import ListNotations.
Local Open Scope R_scope.

Lemma fsum_hole l : In NaN l -> fsum l = NaN.
Proof. unfold fsum. induction l as [|x l IH]; [intros []|]. intros [->|I]; cbn [fold_right]; [reflexivity|]. rewrite (IH I). destruct x; reflexivity. Qed.

(** One height that is not a number makes the filtered heights not a number wherever it is added: on a block of the size of the profile, turned. *)
Theorem c129_nan : forall w p cut g a b, g <> 0 -> (a < nrows p)%nat -> (b < ncols p)%nat -> h_at p a b = NaN ->
  exists f, low_pass w p cut (Some g) = Ok f /\ forall i j,
    (a <= i + (ncols p - 1) / 2)%nat -> (i + (ncols p - 1) / 2 < a + ncols p)%nat -> (b <= j + (nrows p - 1) / 2)%nat -> (j + (nrows p - 1) / 2 < b + nrows p)%nat -> h_at f i j = NaN.
Proof.
  intros w p cut g a b G A B H. unfold low_pass. assert (E : Reqb g 0 = false) by (unfold Reqb; destruct (Req_EM_T g 0); [contradiction|reflexivity]). rewrite E.
  eexists. split; [reflexivity|]. intros i j X1 X2 Y1 Y2. cbn [h_at]. set (di := ((ncols p - 1) / 2)%nat) in *. set (dj := ((nrows p - 1) / 2)%nat) in *.
  apply fsum_hole, in_map_iff. exists (i + di - a, j + dj - b)%nat. split; [|apply in_points; lia]. cbn [fst snd]. unfold shifted.
  rewrite (proj2 (Nat.leb_le (i + di - a) (i + di))), (proj2 (Nat.ltb_lt (i + di - (i + di - a)) (nrows p))), (proj2 (Nat.leb_le (j + dj - b) (j + dj))), (proj2 (Nat.ltb_lt (j + dj - (j + dj - b)) (ncols p))) by lia.
  cbn [andb]. replace (i + di - (i + di - a))%nat with a by lia. replace (j + dj - (j + dj - b))%nat with b by lia. rewrite H. reflexivity.
Qed.
Print Assumptions c129_nan.
(** Refuted: a mask leaves out the points that it marks only. With a filter, in a square profile with an odd number of points and for every mask that marks the middle, no summit is found, whatever the heights are. *)
Theorem c57_filtered_mask_refuted : forall w p n m f cut g four, g <> 0 -> whole p = false -> nrows p = (2 * n + 1)%nat -> ncols p = (2 * n + 1)%nat ->
  norm_mask p m = Ok (Some f) -> f n n = true ->
  exists p' s, find_summits w p (Some g) m four (Some cut) = (p', Ok s) /\ forall i j, b_at s i j = false.
Proof.
  intros w p n m f cut g four G W R C NM F. unfold find_summits. rewrite NM, W.
  destruct (c129_nan w (blank p f) cut g n n G) as (q & E & V); [cbn [nrows blank]; lia|cbn [ncols blank]; lia|cbn [h_at blank]; rewrite F; reflexivity|].
  rewrite E. eexists _, _. split; [reflexivity|]. intros i j. destruct (b_at (summits_of (blank p f) q four) i j) eqn:B; [|reflexivity]. exfalso. cbn [b_at summits_of nrows ncols blank] in B.
  cbn [nrows ncols blank] in V. rewrite R, C in *. assert (D : ((2 * n + 1 - 1) / 2)%nat = n) by (replace (2 * n + 1 - 1)%nat with (n * 2)%nat by lia; apply Nat.div_mul; lia). rewrite D in V.
  rewrite !andb_true_iff, !Nat.leb_le, !Nat.ltb_lt, forallb_forall in B. destruct B as ((((B1 & B2) & B3) & B4) & L).
  assert (I : In (i - 1, j)%nat (neighbours four i j)) by (unfold neighbours; apply in_or_app; left; left; reflexivity). specialize (L _ I).
  rewrite (V i j) in L by lia. destruct (entry q (i - 1, j)%nat); discriminate L.
Qed.
Print Assumptions c57_filtered_mask_refuted.
Example c57_filtered_mask_case : let p := Arr false 5 5 (fun i j => Fin (peak_at 1 3 2 i j)) in let f := fun i j => Nat.eqb i 2 && Nat.eqb j 2 in
  norm_mask p (ArrMask 5 5 f) = Ok (Some f) /\ f 2%nat 2%nat = true /\ nrows p = (2 * 2 + 1)%nat /\ ncols p = (2 * 2 + 1)%nat /\ h_at p 1 3 = Fin 2.
Proof. cbn. repeat split; reflexivity. Qed.
