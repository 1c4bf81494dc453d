(** Theorems on filling holes in a surface, C108. *)
From Coq Require Import Reals List Bool Arith Lia Lra FunctionalExtensionality.
From Verif Require Import Py SurfaceModel SurfaceProofs HolesModel HolesSpec HolesProofs.
Import ListNotations.
Local Open Scope R_scope.

Lemma is_hole_iff v h : is_hole v h = true <-> hole_at v h.
Proof.
  destruct v as [|x], h as [y|]; cbn; split; intro H; try discriminate; try reflexivity.
  - apply Reqb_true in H. now subst.
  - injection H as ->. now apply Reqb_true.
Qed.
Lemma holes_same p v m : holes_of p v m -> (fun i j => is_hole v (h_at p i j)) = m.
Proof. intro H. extensionality i. extensionality j. specialize (H i j). destruct (m i j), (is_hole v (h_at p i j)) eqn:X; try reflexivity. - exfalso. assert (T : true = true) by reflexivity. apply H in T. apply is_hole_iff in T. congruence. - apply is_hole_iff in X. apply H in X. discriminate. Qed.

(** C108: a border of holes is cut off, just that, and the values inside of it are kept, when the outermost lines of what is
    inside don't have too many holes. *)
Theorem c108_border : forall inpaint p v m mk_copy t p0 p1 p2 p3,
  fills inpaint -> holes_of p v m -> t < 1 ->
  bordered m (h_rows p) (h_cols p) p0 p1 p2 p3 -> edges_fine m (h_rows p) (h_cols p) p0 p1 p2 p3 t ->
  exists g, new_profile (fill_holes inpaint p v mk_copy true t) = Ok (Some g) /\
    (p0 + rows g + p1 = h_rows p)%nat /\ (p2 + cols g + p3 = h_cols p)%nat /\
    forall i j x, ~ hole_at v (h_at p (p0 + i) (p2 + j)) -> h_at p (p0 + i) (p2 + j) = Some x -> at_ g i j = x.
Proof.
  intros inpaint p v m mk_copy t p0 p1 p2 p3 F M T B E. unfold fill_holes. cbn [new_profile]. rewrite (holes_same _ _ _ M). rewrite (border_exact _ _ _ _ _ _ _ _ T B E). cbn [bind option_map]. eexists. split; [reflexivity|]. cbn [sr er sc ec].
  match goal with |- context [inpaint ?q ?k] => destruct (F q k) as (F1 & F2 & F3) end. rewrite F1, F2. cbn [rows cols]. destruct B as (B1 & B2 & _). split; [lia|]. split; [lia|].
  intros i j x N X. assert (MF' : is_hole v (h_at p (p0 + i) (p2 + j)) = false) by (apply not_true_is_false; intro Y; apply is_hole_iff in Y; contradiction). rewrite F3 by exact MF'. cbn. rewrite MF', X. reflexivity.
Qed.
Print Assumptions c108_border.

(** C108: the same without a condition on the lines inside, which have the holes of the border at the ends of others: lines
    that were removed for that are taken back, if there is nothing but values near the border and it is not too wide. *)
Theorem c108_regrown : forall inpaint p v m mk_copy t p0 p1 p2 p3 n,
  fills inpaint -> holes_of p v m -> 0 <= t < 1 ->
  bordered m (h_rows p) (h_cols p) p0 p1 p2 p3 -> (p0 <= n /\ p1 <= n /\ p2 <= n /\ p3 <= n)%nat -> (n + n < h_rows p /\ n + n < h_cols p)%nat ->
  frame_clean m (h_rows p) (h_cols p) p0 p1 p2 p3 (S n) ->
  exists g, new_profile (fill_holes inpaint p v mk_copy true t) = Ok (Some g) /\
    (p0 + rows g + p1 = h_rows p)%nat /\ (p2 + cols g + p3 = h_cols p)%nat /\
    forall i j x, ~ hole_at v (h_at p (p0 + i) (p2 + j)) -> h_at p (p0 + i) (p2 + j) = Some x -> at_ g i j = x.
Proof.
  intros inpaint p v m mk_copy t p0 p1 p2 p3 n F M [T0 T] B P D C. unfold fill_holes. cbn [new_profile]. rewrite (holes_same _ _ _ M). rewrite (border_regrown _ _ _ _ _ _ _ _ _ T0 T B C P D). cbn [bind option_map]. eexists. split; [reflexivity|]. cbn [sr er sc ec].
  match goal with |- context [inpaint ?q ?k] => destruct (F q k) as (F1 & F2 & F3) end. rewrite F1, F2. cbn [rows cols]. destruct B as (B1 & B2 & _). split; [lia|]. split; [lia|].
  intros i j x N X. assert (MF' : is_hole v (h_at p (p0 + i) (p2 + j)) = false) by (apply not_true_is_false; intro Y; apply is_hole_iff in Y; contradiction). rewrite F3 by exact MF'. cbn. rewrite MF', X. reflexivity.
Qed.
Print Assumptions c108_regrown.
(** Three columns of holes beside two, with a threshold of a half: the rows are removed and taken back. *)
Definition strip : heights := Heights 9 9 (fun i j => if Nat.ltb j 3 || (Nat.eqb i 4 && Nat.eqb j 4) then None else Some (INR j)).
Example c108_regrown_case : exists g, new_profile (fill_holes (fun q _ => q) strip Auto false true 0) = Ok (Some g) /\ rows g = 9%nat /\ cols g = 6%nat /\ at_ g 8 2 = INR 5.
Proof.
  pose (m := fun i j => match h_at strip i j with None => true | _ => false end).
  destruct (c108_regrown (fun q _ => q) strip Auto m false 0 0 0 3 0 3) as (g & G & R0 & C0 & V).
  - intros q k. auto.
  - intros i j. unfold m. destruct (h_at strip i j); cbn; split; intro X; try discriminate; reflexivity.
  - lra.
  - unfold bordered. cbn [strip h_rows h_cols]. split; [lia|]. split; [lia|]. intros i j I J K. unfold m. cbn [strip h_at]. rewrite (proj2 (Nat.ltb_lt j 3)) by lia. reflexivity.
  - lia.
  - cbn. lia.
  - intros i j I J K. cbn [strip h_rows h_cols] in *. unfold m. cbn [strip h_at]. rewrite (proj2 (Nat.ltb_ge j 3)) by lia. destruct (Nat.eqb_spec i 4), (Nat.eqb_spec j 4); cbn; try reflexivity. lia.
  - exists g. cbn [strip h_rows h_cols] in R0, C0. split; [exact G|]. split; [lia|]. split; [lia|]. apply V; [cbn; discriminate|reflexivity].
Qed.

(** C108: in every case in which there is a result it is a part of the surface, without gaps, and every value that wasn't a
    hole is as it was; it is the whole surface when the border is not to be removed. *)
Theorem c108_values : forall inpaint p v mk_copy remove_border t g,
  fills inpaint -> new_profile (fill_holes inpaint p v mk_copy remove_border t) = Ok (Some g) ->
  (remove_border = false -> rows g = h_rows p /\ cols g = h_cols p) /\
  exists a b, (remove_border = false -> a = 0%nat /\ b = 0%nat) /\
    forall i j, (i < rows g)%nat -> (j < cols g)%nat ->
      (a + i < h_rows p)%nat /\ (b + j < h_cols p)%nat /\
      forall x, ~ hole_at v (h_at p (a + i) (b + j)) -> h_at p (a + i) (b + j) = Some x -> at_ g i j = x.
Proof.
  intros inpaint p v mk_copy rb t g F H. unfold fill_holes in H. cbn [new_profile] in H.
  match type of H with bind ?cc _ = _ => destruct cc as [[c|]|e] eqn:CE end; cbn [bind option_map] in H; try discriminate.
  match type of H with Ok (Some (inpaint ?q ?k)) = _ => destruct (F q k) as (F1 & F2 & F3); assert (G : inpaint q k = g) by congruence end. rewrite G in *. cbn [rows cols] in F1, F2.
  assert (Z : rb = false -> c = Cut 0 0 0 0 false false false false) by (intros ->; congruence). split.
  - intro X. rewrite (Z X) in *. cbn in F1, F2. split; lia.
  - exists (sr c), (sc c). split; [intro X; rewrite (Z X); split; reflexivity|]. intros i j I J. rewrite F1 in I. rewrite F2 in J. split; [lia|]. split; [lia|]. intros x N X.
    assert (MF : is_hole v (h_at p (sr c + i) (sc c + j)) = false) by (apply not_true_is_false; intro Y; apply is_hole_iff in Y; contradiction). rewrite F3 by exact MF. cbn. rewrite MF, X. reflexivity.
Qed.
Print Assumptions c108_values.

(** C108: the search for the border ends, for every surface and threshold: there is a result or an IndexError. *)
Theorem c108_ends : forall inpaint p v mk_copy remove_border t,
  (exists g, new_profile (fill_holes inpaint p v mk_copy remove_border t) = Ok (Some g)) \/ exists e, new_profile (fill_holes inpaint p v mk_copy remove_border t) = Err e.
Proof.
  intros inpaint p v mk_copy rb t. unfold fill_holes. cbn [new_profile]. destruct rb; [|cbn [bind option_map]; left; eexists; reflexivity].
  pose proof (border_ends (fun i j => is_hole v (h_at p i j)) (h_rows p) (h_cols p) t) as N. destruct (border _ _ _ _) as [[c|]|e]; cbn [bind option_map]; [left; eexists; reflexivity|now elim N|right; eexists; reflexivity].
Qed.
Print Assumptions c108_ends.

(** C108: a surface of nothing but holes is refused, but with an IndexError, and after its holes have become zeros. *)
Theorem c108_all_holes : forall inpaint p v mk_copy t, t < 1 -> (forall i j, (i < h_rows p)%nat -> (j < h_cols p)%nat -> hole_at v (h_at p i j)) ->
  new_profile (fill_holes inpaint p v mk_copy true t) = Err IndexError /\
  forall i j, (i < h_rows p)%nat -> (j < h_cols p)%nat -> h_at (original (fill_holes inpaint p v mk_copy true t)) i j = Some 0.
Proof.
  intros inpaint p v mk_copy t T A.
  assert (A' : forall i j, (i < h_rows p)%nat -> (j < h_cols p)%nat -> is_hole v (h_at p i j) = true) by (intros; apply is_hole_iff; auto).
  unfold fill_holes. cbn [new_profile original]. rewrite (border_all _ _ _ _ T A'). cbn [bind]. split; [reflexivity|]. intros i j I J. destruct mk_copy; cbn; rewrite A' by assumption; reflexivity.
Qed.
Print Assumptions c108_all_holes.

(** C108, in place: without a copy the surface becomes the result. *)
Theorem c108_in_place : forall inpaint p v remove_border t g,
  new_profile (fill_holes inpaint p v false remove_border t) = Ok (Some g) ->
  h_rows (original (fill_holes inpaint p v false remove_border t)) = rows g /\ h_cols (original (fill_holes inpaint p v false remove_border t)) = cols g /\
  forall i j, h_at (original (fill_holes inpaint p v false remove_border t)) i j = Some (at_ g i j).
Proof. intros inpaint p v rb t g H. unfold fill_holes in *. cbn [new_profile original] in *. rewrite H. repeat split; reflexivity. Qed.
Print Assumptions c108_in_place.

(** C108, a copy: the surface itself is not left alone: every hole of it becomes a zero, so that it is no longer known to be a
    hole. *)
Theorem c108_copy_refuted : forall inpaint p v remove_border t i j, hole_at v (h_at p i j) -> v <> Value 0 ->
  h_at (original (fill_holes inpaint p v true remove_border t)) i j = Some 0 /\ h_at (original (fill_holes inpaint p v true remove_border t)) i j <> h_at p i j /\
  ~ hole_at v (h_at (original (fill_holes inpaint p v true remove_border t)) i j).
Proof.
  intros inpaint p v rb t i j H V. unfold fill_holes. cbn. rewrite (proj2 (is_hole_iff v (h_at p i j)) H). split; [reflexivity|]. destruct v as [|x]; cbn in *; [rewrite H; split; discriminate|]. rewrite H. split; intro X; injection X as X; apply V; now rewrite X.
Qed.
Print Assumptions c108_copy_refuted.

Lemma diagonal_line i n : holes_in (fun j => negb (Nat.eqb i j)) n = (if Nat.ltb i n then n - 1 else n)%nat.
Proof.
  induction n as [|n IH]; [reflexivity|]. cbn [holes_in]. rewrite IH. destruct (Nat.ltb_spec i n), (Nat.ltb_spec i (S n)), (Nat.eqb_spec i n); cbn; try lia.
Qed.
(** C108, the threshold: lines are said to be removed until one has at least that share of real values; with the default of
    0.99 nothing is removed from a surface whose lines have a single real value among a hundred. *)
Theorem c108_threshold_refuted : forall inpaint mk_copy n, fills inpaint -> (2 <= n <= 100)%nat ->
  exists g, new_profile (fill_holes inpaint (diagonal n) Auto mk_copy true 0.99) = Ok (Some g) /\ rows g = n /\ cols g = n /\
    (forall i, (i < n)%nat -> INR (n - holes_in (fun j => negb (Nat.eqb i j)) n) / INR n < 0.99) /\
    forall i j, (i < n)%nat -> (j < n)%nat -> (h_at (diagonal n) i j = None <-> i <> j).
Proof.
  intros inpaint mk_copy n F L. pose (m := fun i j => negb (Nat.eqb i j)).
  assert (N2 : 2 <= INR n <= 100).
  { split; [apply (le_INR 2); lia|]. replace 100 with (INR 100) by (rewrite INR_IZR_INZ; reflexivity). apply le_INR. lia. }
  assert (M : holes_of (diagonal n) Auto m). { intros i j. unfold m. cbn. destruct (Nat.eqb i j); cbn; split; intro X; try discriminate; reflexivity. }
  assert (EQ : forall i, (i < n)%nat -> INR (holes_in (m i) n) <= 0.99 * INR n).
  { intros i I. unfold m. rewrite diagonal_line. rewrite (proj2 (Nat.ltb_lt i n) I). rewrite minus_INR by lia. change (INR 1) with 1. lra. }
  assert (EC : forall j, (j < n)%nat -> INR (holes_in (fun i => m i j) n) <= 0.99 * INR n).
  { intros j J. replace (fun i => m i j) with (m j); [now apply EQ|]. extensionality i. unfold m. now rewrite Nat.eqb_sym. }
  destruct (c108_border inpaint (diagonal n) Auto m mk_copy 0.99 0 0 0 0 F M) as (g & G & R0 & C0 & _).
  - lra.
  - cbn. unfold bordered. split; [lia|]. split; [lia|]. intros; lia.
  - unfold edges_fine, row_fine, col_fine. cbn [diagonal h_rows h_cols]. refine (conj _ (conj _ (conj _ _))); [apply EQ|apply EQ|apply EC|apply EC]; lia.
  - exists g. cbn in R0, C0. split; [exact G|]. split; [lia|]. split; [lia|]. split.
    + intros i I. rewrite diagonal_line, (proj2 (Nat.ltb_lt i n) I). replace (n - (n - 1))%nat with 1%nat by lia. change (INR 1) with 1. apply Rmult_lt_reg_r with (INR n); [lra|]. unfold Rdiv. rewrite Rmult_assoc, Rinv_l by lra. lra.
    + intros i j I J. cbn. destruct (Nat.eqb_spec i j); split; intro X; try discriminate; try contradiction; auto.
Qed.
Print Assumptions c108_threshold_refuted.

(** The surface of the documentation, smaller: a border of one hole at the start and two at the end around three by three
    values with a hole in the middle. *)
Definition framed : heights := Heights 6 6 (fun i j => if Nat.leb 1 i && Nat.ltb i 4 && Nat.leb 1 j && Nat.ltb j 4 && negb (Nat.eqb i 2 && Nat.eqb j 2) then Some (INR j) else None).
Example c108_border_case : exists g, new_profile (fill_holes (fun q _ => q) framed Auto false true 0.99) = Ok (Some g) /\ rows g = 3%nat /\ cols g = 3%nat /\ at_ g 0 2 = INR 3.
Proof.
  pose (m := fun i j => match h_at framed i j with None => true | _ => false end).
  destruct (c108_border (fun q _ => q) framed Auto m false 0.99 1 2 1 2) as (g & G & R0 & C0 & V).
  - intros q k. auto.
  - intros i j. unfold m. destruct (h_at framed i j); cbn; split; intro X; try discriminate; reflexivity.
  - lra.
  - unfold bordered. cbn [framed h_rows h_cols]. split; [lia|]. split; [lia|]. intros i j I J K. unfold m. cbn [framed h_at].
    destruct (Nat.leb_spec 1 i), (Nat.ltb_spec i 4), (Nat.leb_spec 1 j), (Nat.ltb_spec j 4); cbn; try reflexivity. lia.
  - unfold edges_fine, row_fine, col_fine. cbn. repeat split; lra.
  - exists g. cbn [framed h_rows h_cols] in R0, C0. split; [exact G|]. split; [lia|]. split; [lia|]. apply V; [cbn; discriminate|reflexivity].
Qed.
