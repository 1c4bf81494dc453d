(** C32: surfaces which are moved past each other. *)
From Coq Require Import List Bool Arith ZArith Lia Reals Lra.
From Verif Require Import Py SurfaceModel SurfaceProofs GapModel GapSpec GapProofs.
Import ListNotations.
Local Open Scope R_scope.

(** Along one direction: the second surface, of size [e2], starts at minus the off set [o] on the first, of size [e1]. No part of
    the one is over the other. *)
Definition past (e1 e2 o : R) : Prop := e2 <= o \/ o <= - e1.

Lemma arange_none a b gs : 0 < gs -> b <= a -> arange_len a b gs = 0%nat.
Proof.
  intros G L. unfold arange_len, rceil. assert (X : 0 <= - ((b - a) / gs)).
  { replace (- ((b - a) / gs)) with ((a - b) / gs) by (field; lra). unfold Rdiv. apply Rmult_le_pos; [lra|]. apply Rlt_le, Rinv_0_lt_compat, G. }
  pose proof (Int_part_bounds (- ((b - a) / gs))) as [_ B]. assert (Y : (-1 < Int_part (- ((b - a) / gs)))%Z) by (apply lt_IZR; lra). lia.
Qed.
Lemma cells_none r c : r = 0%nat \/ c = 0%nat -> cells r c = [].
Proof. intros [->| ->]; [reflexivity|]. unfold cells. induction (seq 0 r); [reflexivity|exact IHl]. Qed.
Lemma bdim_none n r : bdim 0 n = Some r -> r = 0%nat.
Proof. unfold bdim. destruct (Nat.eqb_spec 0 n); [congruence|]. cbn [Nat.eqb]. destruct (Nat.eqb n 1); congruence. Qed.
Lemma past_none e1 e2 o : past e1 e2 o -> Rmin e1 (e2 - o) <= Rmax (- o) 0.
Proof. intros [P|P]; [apply Rle_trans with (1 := Rmin_r _ _), Rle_trans with (2 := Rmax_r _ _)|apply Rle_trans with (1 := Rmin_l _ _), Rle_trans with (2 := Rmax_l _ _)]; lra. Qed.

(** Without periodic geometry, surfaces that are past each other in one of the directions have no gap: the call is refused
    whatever the interpolation mode, the shapes and the interference are. *)
Theorem c32_past : forall interp s1 s2 h off, 0 < d_gs s1 ->
  past (fst (d_extent s1)) (fst (d_extent s2)) (fst off) \/ past (snd (d_extent s1)) (snd (d_extent s2)) (snd off) ->
  get_gap interp (Some s1) (Discrete s2) h off false = Err ValueError.
Proof.
  intros interp s1 s2 h off G P. cbn [get_gap]. unfold gap_plain. destruct (_ || _); [reflexivity|]. cbv zeta.
  set (r := arange_len (Rmax (- fst off) 0) _ _). set (c := arange_len (Rmax (- snd off) 0) _ _).
  assert (Z : r = 0%nat \/ c = 0%nat) by (destruct P as [P|P]; [left|right]; apply arange_none; try exact G; apply past_none; exact P).
  unfold sample. rewrite (cells_none r c Z). cbn [forallb bind]. unfold broadcast. cbn [rows cols].
  match goal with |- context [bdim r ?n] => destruct (bdim r n) as [r'|] eqn:Er; [|reflexivity] end.
  match goal with |- context [bdim c ?n] => destruct (bdim c n) as [c'|] eqn:Ec; [|reflexivity] end.
  cbn [bind]. unfold values. cbn [rows cols]. rewrite (cells_none r' c'); [reflexivity|].
  destruct Z as [Z|Z]; [left; rewrite Z in Er; exact (bdim_none _ _ Er)|right; rewrite Z in Ec; exact (bdim_none _ _ Ec)].
Qed.
Print Assumptions c32_past.
(** A surface of three by two points under one of five by four: moved by four columns it is past. *)
Example c32_past_case : let s1 := DSurf (Grid 3 2 (fun i j => INR i)) 2 (6, 4) in let s2 := DSurf (Grid 5 4 (fun i j => INR j)) 2 (10, 8) in
  0 < d_gs s1 /\ past (snd (d_extent s1)) (snd (d_extent s2)) 8 /\ past (fst (d_extent s1)) (fst (d_extent s2)) (-6) /\ ~ past (fst (d_extent s1)) (fst (d_extent s2)) 4.
Proof. cbv zeta. unfold past. cbn. repeat split; try lra. Qed.
