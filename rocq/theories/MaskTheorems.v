(** C56: masks that are refused, and masks given as a value for a profile of whole numbers. *)
From Coq Require Import Reals List Bool Arith ZArith String Lia Lra.
From Verif Require Import Py SurfaceModel SurfaceProofs Flt RoughModel RoughSpec RoughProofs.
Import ListNotations.
Local Open Scope R_scope.

(** A mask of another shape than the profile, or an integer, is refused by all of the functions, whatever else is given; the profile stays as it was. *)
Theorem c56_mask_refused : forall w s name gs m curved nf cut four h void, let p := profile_of s in
  (exists r c f, m = ArrMask r c f /\ (r <> nrows p \/ c <> ncols p)) \/ (exists z, m = IntMask z) ->
  roughness w s name gs m curved nf cut four = (p, Err TypeError) /\
  find_summits w p gs m four cut = (p, Err TypeError) /\
  get_mat_vr h p void m true gs = Err TypeError.
Proof.
  intros w s name gs m curved nf cut four h void p B. assert (N : norm_mask p m = Err TypeError).
  { destruct B as [(r & c & f & -> & D)|(z & ->)]; [|reflexivity]. cbn [norm_mask]. destruct (Nat.eqb_spec r (nrows p)), (Nat.eqb_spec c (ncols p)); try reflexivity. exfalso. tauto. }
  split; [|split].
  - unfold roughness. replace (check_surface s gs) with (p, snd (check_surface s gs)) by (destruct s; reflexivity). rewrite N. reflexivity.
  - unfold find_summits. rewrite N. reflexivity.
  - unfold get_mat_vr. rewrite andb_false_r, N. reflexivity.
Qed.
Print Assumptions c56_mask_refused.
Example c56_mask_refused_case : let p := Arr false 2 3 (fun i j => Fin (INR (i + j))) in exists r c f, ArrMask 3 2 (fun _ _ => true) = ArrMask r c f /\ (r <> nrows p \/ c <> ncols p).
Proof. exists 3%nat, 2%nat, (fun _ _ => true). split; [reflexivity|]. left. discriminate. Qed.

Lemma keep_same p f f' : (forall i j, (i < nrows p)%nat -> (j < ncols p)%nat -> f i j = f' i j) -> entries p (Some f) = entries p (Some f').
Proof.
  intros E. unfold entries. f_equal. apply filter_ext_in. intros [i j] I. apply in_points in I. cbn. apply E; tauto.
Qed.
(** For a profile of whole numbers a mask given as a value does not leave out the points of that height: the points used for Sq, Sa, Ssk, Sku and Sv are those
    whose height is minus one minus the value, and no others. *)
Theorem c56_whole_mask_refuted : forall w s gs v cut four curved z name, let p := profile_of s in let r := nrows p in let c := ncols p in
  whole p = true -> heights_are p everywhere z -> In (lower name) ["sq"; "sa"; "ssk"; "sku"; "sv"]%string ->
  forall u, (forall i j, u i j = true <-> z i j = - 1 - v) ->
  snd (roughness w s (Name name) gs (FloatMask (Fin v)) curved true cut four) = snd (roughness w s (Name name) gs (ArrMask r c u) curved true cut four).
Proof.
  intros w s gs v cut four curved z name p r c W H In_n u U. unfold roughness. replace (check_surface s gs) with (p, snd (check_surface s gs)) by (destruct s; reflexivity).
  cbn [norm_mask is_nan]. rewrite W. fold r c. rewrite !Nat.eqb_refl. cbn [andb many].
  assert (E : entries p (Some (fun i j => feqb (fsub (Fin (- 1)) (h_at p i j)) (Fin v))) = entries p (Some u)).
  { apply keep_same. intros i j Hi Hj. rewrite (H i j Hi Hj eq_refl). cbn [fsub fneg fadd feqb]. apply eq_true_iff_eq. rewrite U.
    assert (Q : Reqb (- 1 + - z i j) v = true <-> - 1 + - z i j = v) by apply Reqb_true. rewrite Q. lra. }
  destruct In_n as [N|[N|[N|[N|[N|[]]]]]]; unfold one; rewrite <- N; cbv zeta; cbn [is_in existsb String.eqb Ascii.eqb Bool.eqb orb andb snd]; rewrite E; reflexivity.
Qed.
Print Assumptions c56_whole_mask_refuted.
(** The heights 0 and 5 with the value 0: no point at all is used. *)
Example c56_whole_mask_case : let z := fun (_ j : nat) => if Nat.eqb j 0 then 0 else 5 in let p := Arr true 1 2 (fun i j => Fin (z i j)) in
  heights_are p everywhere z /\ forall i j, (fun _ _ => false) i j = true <-> z i j = - 1 - 0.
Proof.
  split; [intros i j _ _ _; reflexivity|]. intros i j. cbn. destruct (Nat.eqb j 0); split; intros; try discriminate; lra.
Qed.
