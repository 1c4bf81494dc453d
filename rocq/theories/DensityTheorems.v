(** C57: the density of summits with a filter. *)
From Coq Require Import Reals List Bool Arith ZArith String Lia Lra.
From Verif Require Import Py SurfaceModel SurfaceProofs Flt SolverProofs RoughModel RoughSpec RoughProofs RoughTheorems SummitTheorems LowPassSpec LowPassTheorems FilteredTheorems.
Import ListNotations.
Local Open Scope R_scope.

(** With a filter and a given grid spacing the summit density is the share of the summits of the filtered heights among all points. The filter is applied to the heights left after the plane or curved surface was taken off. *)
Theorem c57_filtered_density : forall w s g cut curved nf four z n, lower n = "sds"%string -> g <> 0 ->
  (nf = false -> good_lstsq (lstsq w) /\ whole (profile_of s) = false) ->
  heights_are (profile_of s) everywhere z -> some_used (profile_of s) everywhere ->
  let r := nrows (profile_of s) in let c := ncols (profile_of s) in
  exists zf, (if nf : bool then zf = z else flattened (if curved : bool then 2%nat else 1%nat) r c everywhere z zf) /\
    forall u : bmask,
    (forall i j, (i < r)%nat -> (j < c)%nat -> (u i j = true <->
       summit (profile_of s) four (fun i j => sum_to r (fun a => sum_to c (fun b => zf a b * actual (j1 w) (cut * g) r c i j a b))) i j)) ->
    (2 <= r)%nat -> (2 <= c)%nat ->
    snd (roughness w s (Name n) (Some g) NoMask curved nf (Some cut) four) = Ok (VNum (Fin (average r c everywhere (fun i j => if u i j then 1 else 0)))).
Proof.
  intros w s g cut curved nf four z n Hn G0 G H SU r c.
  destruct (rough_heights' w s (Some g) NoMask curved nf (Some cut) four z G I H) as (eta & mk & g' & zf & NM & Eg & K & R & C & Hh & Fl & E).
  cbn in NM. injection NM as <-. change (used (profile_of s) NoMask) with everywhere in *. assert (Eg2 : g' = Some g) by (rewrite Eg; destruct s; reflexivity). clear Eg. subst g'.
  exists zf. split; [exact Fl|]. intros u U R2 C2. fold r in R. fold c in C.
  destruct (c57_filtered w eta cut g four zf G0) as (sm & FS & Rs & Cs & B); [lia|lia|exact Hh|]. cbv zeta in B. rewrite R, C in *.
  rewrite E. cbn [many]. unfold one. rewrite Hn. cbv zeta. cbn [is_in existsb String.eqb Ascii.eqb Bool.eqb orb andb]. rewrite FS. cbn [snd bind].
  assert (P : 0 < number r c everywhere) by (apply number_pos, SU).
  assert (L : INR (List.length (entries eta None)) = number r c everywhere).
  { unfold entries. rewrite map_length, R, C. rewrite (keep_fst_snd None everywhere) by reflexivity. apply length_over. }
  assert (M : INR (List.length (marked sm)) = over r c everywhere (fun i j => if u i j then 1 else 0)).
  { unfold marked. rewrite Rs, Cs. change (fun ij : nat * nat => b_at sm (fst ij) (snd ij)) with (fst_snd (b_at sm)).
    rewrite length_over. unfold number, over. apply sum_to_ext. intros i Hi. apply sum_to_ext. intros j Hj. change (everywhere i j) with true. cbn iota.
    assert (Q : b_at sm i j = true <-> u i j = true).
    { rewrite (B i j), (U i j Hi Hj). unfold summit, interior. fold r c. rewrite R, C. reflexivity. }
    destruct (b_at sm i j), (u i j); try reflexivity; exfalso; destruct Q as [Q1 Q2]; [discriminate (Q1 eq_refl)|discriminate (Q2 eq_refl)]. }
  rewrite L, M, fdiv_fin' by lra. reflexivity.
Qed.
Print Assumptions c57_filtered_density.
(** A profile with one peak, which is not a summit after the filter. *)
Example c57_filtered_density_case : let p := Arr false 3 3 (fun i j => Fin (peak_at 1 1 2 i j)) in
  lower "Sds" = "sds"%string /\ heights_are p everywhere (peak_at 1 1 2) /\ some_used p everywhere /\
  forall four, exists s, find_summits series_world p (Some 1) NoMask four (Some (/ 20)) = (p, Ok s) /\ b_at s 1 1 = false.
Proof.
  intros p. split; [reflexivity|]. destruct c57_filtered_case as (H & _ & F & _). split; [exact H|]. split; [exists 0%nat, 0%nat; cbn; repeat split; lia|]. exact F.
Qed.
