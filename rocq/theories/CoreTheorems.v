(** C96: the core fluid retention index of a masked profile. *)
From Coq Require Import Reals List Bool Arith ZArith String Lia Lra Permutation.
From Verif Require Import Py SurfaceModel SurfaceProofs Flt SolverProofs RoughModel RoughSpec RoughProofs RoughTheorems SummitTheorems AreaTheorems BearingTheorems.
Import ListNotations.
Local Open Scope R_scope.

(** With a mask array, too, the core fluid retention index is not found for two or more used points: whatever the heights are, the call fails with a TypeError. *)
Theorem c96_core_refuted : forall w s gs u curved cut four z name, lower name = "sci"%string ->
  let p := profile_of s in let r := nrows p in let c := ncols p in
  heights_are p u z ->
  (exists i j i' j', (i < r)%nat /\ (j < c)%nat /\ (i' < r)%nat /\ (j' < c)%nat /\ u i j = true /\ u i' j' = true /\ (i, j) <> (i', j')) ->
  snd (roughness w s (Name name) gs (ArrMask r c u) curved true cut four) = Err TypeError.
Proof.
  intros w s gs u curved cut four z name Hn p r c H (i & j & i' & j' & Hi & Hj & Hi' & Hj' & U & U' & D).
  assert (E : exists g, snd (roughness w s (Name name) gs (ArrMask r c u) curved true cut four) = snd (one w p (Some u) g cut four name)).
  { unfold roughness. replace (check_surface s gs) with (p, snd (check_surface s gs)) by (destruct s; reflexivity). exists (snd (check_surface s gs)). cbn [norm_mask]. fold r c. rewrite !Nat.eqb_refl. reflexivity. }
  destruct E as (g & E). rewrite E. clear E. unfold one. rewrite Hn. cbv zeta. cbn [is_in existsb String.eqb Ascii.eqb Bool.eqb orb andb snd].
  unfold sorted_at. rewrite (entries_fin p (Some u) u z) by (try exact H; intros; reflexivity). fold r c.
  set (pts := filter (fst_snd u) (points r c)).
  assert (I : In (i, j) pts) by (apply filter_In; split; [apply in_points; auto|exact U]).
  assert (I' : In (i', j') pts) by (apply filter_In; split; [apply in_points; auto|exact U']).
  set (l := map (fst_snd z) pts). assert (L : (2 <= List.length l)%nat).
  { unfold l. rewrite map_length. destruct pts as [|a [|b t]]; [destruct I|exfalso; destruct I as [E1|[]], I' as [E2|[]]; apply D; congruence|cbn; lia]. }
  destruct (sort_fin l) as (s' & Es & P & _). rewrite Es, map_length.
  destruct (nth_error (map Fin s') (List.length l / 20)) as [h|] eqn:Eh.
  2:{ exfalso. apply nth_error_None in Eh. rewrite map_length, <- (Permutation_length P) in Eh. pose proof (Nat.div_lt (List.length l) 20 ltac:(lia) ltac:(lia)). lia. }
  cbn [bind]. clearbody l. destruct l as [|x [|y t]]; [cbn in L; lia|cbn in L; lia|]. reflexivity.
Qed.
Print Assumptions c96_core_refuted.
Example c96_core_case : let p := Arr false 1 2 (fun _ j => Fin (if Nat.eqb j 0 then 3 else 1)) in
  heights_are p everywhere (fun _ j => if Nat.eqb j 0 then 3 else 1) /\ everywhere 0%nat 0%nat = true /\ everywhere 0%nat 1%nat = true.
Proof. split; [intros i j _ _ _; reflexivity|]. split; reflexivity. Qed.
