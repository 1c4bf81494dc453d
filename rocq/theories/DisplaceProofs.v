From Coq Require Import String List Bool Arith ZArith Reals Lia Lra.
From Verif Require Import Py SurfaceModel ConvModel ConvSpec ConvProofs DisplaceModel DisplaceSpec.
Import ListNotations.
Local Open Scope R_scope.

Lemma dir_eqb_spec a b : reflect (a = b) (dir_eqb a b).
Proof. destruct a, b; constructor; congruence. Qed.
Lemma name_eqb_spec a b : reflect (a = b) (name_eqb a b).
Proof.
  destruct a as [a1 a2], b as [b1 b2]. unfold name_eqb. cbn [fst snd].
  destruct (dir_eqb_spec a1 b1), (dir_eqb_spec a2 b2); constructor; congruence.
Qed.
Lemma once_in l x : In x (once l) <-> In x l.
Proof.
  induction l as [|y l IH]; cbn [once]; [tauto|]. cbn [In]. rewrite filter_In, IH.
  destruct (name_eqb_spec y x); cbn; intuition congruence.
Qed.
Lemma nodup_filter {A} (p : A -> bool) l : NoDup l -> NoDup (filter p l).
Proof.
  induction 1 as [|x l N D IH]; cbn; [constructor|]. destruct (p x); [|exact IH]. constructor; [|exact IH].
  rewrite filter_In. tauto.
Qed.
Lemma once_nodup l : NoDup (once l).
Proof.
  induction l as [|y l IH]; cbn [once]; [constructor|]. constructor; [|apply nodup_filter; exact IH].
  rewrite filter_In. destruct (name_eqb_spec y y); cbn; intuition congruence.
Qed.
Lemma directions_in v d : In d (directions v) <-> get v d <> None.
Proof.
  unfold directions. rewrite filter_In. unfold has. split.
  - intros [_ H]. destruct (get v d); [discriminate|discriminate H].
  - intros H. split; [destruct d; cbn; auto|]. destruct (get v d); [reflexivity|contradiction].
Qed.
Lemma names_in simple defl v d e :
  In (d, e) (names simple defl (directions v)) <-> get v e <> None /\ (if simple then d = e else In d defl).
Proof.
  unfold names. destruct simple.
  - rewrite in_map_iff. split.
    + intros (x & E & H). injection E as <- <-. apply directions_in in H. auto.
    + intros [H ->]. exists e. rewrite directions_in. auto.
  - rewrite in_prod_iff, directions_in. tauto.
Qed.

(** A sum over names that occur once is a sum over all names. *)
Lemma responses_names loads (im : dirn * dirn -> grid) d i j l : NoDup l ->
  responses loads (map (fun c => (c, im c)) l) d i j =
  over_directions (fun e => if existsb (name_eqb (d, e)) l then caused (im (d, e)) (get loads e) i j else 0).
Proof.
  induction 1 as [|[a b] l N D IH].
  - cbn. unfold over_directions. lra.
  - cbn [map responses fold_right]. fold (responses loads (map (fun c => (c, im c)) l) d i j). rewrite IH. clear IH.
    assert (K : existsb (name_eqb (a, b)) l = false).
    { destruct (existsb _ l) eqn:E; [|reflexivity]. apply existsb_exists in E. destruct E as (x & I & E).
      destruct (name_eqb_spec (a, b) x); [|discriminate]. subst. contradiction. }
    destruct (dir_eqb_spec d a).
    + subst a. change (match get loads b with Some g => superposed false false (im (d, b)) g i j | None => 0 end) with (caused (im (d, b)) (get loads b) i j).
      assert (X : forall e, existsb (name_eqb (d, e)) ((d, b) :: l) = dir_eqb e b || existsb (name_eqb (d, e)) l).
      { intros e. cbn [existsb]. f_equal. unfold name_eqb. cbn [fst snd]. destruct (dir_eqb_spec d d); [reflexivity|congruence]. }
      unfold over_directions. rewrite !X. destruct b; cbn [dir_eqb orb]; rewrite K; lra.
    + assert (X : forall e, existsb (name_eqb (d, e)) ((a, b) :: l) = existsb (name_eqb (d, e)) l).
      { intros e. cbn [existsb]. destruct (name_eqb_spec (d, e) (a, b)); [congruence|reflexivity]. }
      unfold over_directions. rewrite !X. lra.
Qed.

Lemma check_ok v m n : common_shape (get v) m n -> check_shapes v = Ok (m, n).
Proof.
  intros ((d & g & D) & S). unfold check_shapes, first_shape.
  assert (E : (match vx v with Some g => Ok (rows g, cols g) | None => match vy v with Some g => Ok (rows g, cols g) | None =>
     match vz v with Some g => Ok (rows g, cols g) | None => Err IndexError end end end) = @Ok (nat * nat) (m, n)).
  { destruct (vx v) eqn:X; [destruct (S Dx g0 X) as [-> ->]; reflexivity|].
    destruct (vy v) eqn:Y; [destruct (S Dy g0 Y) as [-> ->]; reflexivity|].
    destruct (vz v) eqn:Z; [destruct (S Dz g0 Z) as [-> ->]; reflexivity|]. destruct d; cbn in D; congruence. }
  replace (match vx v, vy v, vz v with | Some g, _, _ | None, Some g, _ | None, None, Some g => Ok (rows g, cols g)
    | None, None, None => Err IndexError end) with (@Ok (nat * nat) (m, n)) by (rewrite <- E; destruct (vx v), (vy v), (vz v); reflexivity).
  rewrite (proj2 (forallb_forall _ _)); [reflexivity|]. intros x _. destruct (get v x) eqn:X; [|reflexivity].
  destruct (S x g0 X) as [-> ->]. rewrite !Nat.eqb_refl. reflexivity.
Qed.
Lemma check_inv v s : check_shapes v = Ok s -> common_shape (get v) (fst s) (snd s).
Proof.
  unfold check_shapes. destruct (first_shape v) as [[m n]|] eqn:F; [|discriminate].
  destruct (forallb _ _) eqn:A; [|discriminate]. intros H. injection H as <-. cbn [fst snd]. split.
  - unfold first_shape in F. destruct (vx v) eqn:X; [exists Dx, g; exact X|]. destruct (vy v) eqn:Y; [exists Dy, g; exact Y|].
    destruct (vz v) eqn:Z; [exists Dz, g; exact Z|discriminate].
  - intros d g D. rewrite forallb_forall in A. specialize (A d ltac:(destruct d; cbn; auto)). rewrite D in A.
    apply andb_prop in A. rewrite !Nat.eqb_eq in A. exact A.
Qed.
Lemma check_err v e : check_shapes v = Err e -> e = ValueError.
Proof.
  unfold check_shapes. destruct (first_shape v) as [[m n]|]; [|congruence]. destruct (forallb _ _); congruence.
Qed.
Lemma first_ok v m n : check_shapes v = Ok (m, n) -> first_shape v = Ok (m, n).
Proof.
  unfold check_shapes. destruct (first_shape v) as [[a b]|]; [|discriminate]. destruct (forallb _ _); congruence.
Qed.

Lemma displacement_spec im v deflections span simple m n : common_shape (get v) m n ->
  exists u, displacement_from_surface_loads im (Named v) deflections span simple = Ok u /\
  forall d, rows (u d) = m /\ cols (u d) = n /\
    forall i j, (i < m)%nat -> (j < n)%nat ->
      at_ (u d) i j = over_directions (fun e =>
        if existsb (name_eqb (d, e)) (names simple deflections (directions v))
        then caused (im (match span with Some s => s | None => (m, n) end) (d, e)) (get v e) i j else 0).
Proof.
  intros C. pose proof (check_ok v m n C) as K. unfold displacement_from_surface_loads. cbn [read_loads bind]. rewrite K. cbn [bind].
  unfold solve_im_loading. rewrite (first_ok v m n K). cbn [bind]. set (sp := match span with Some s => s | None => (m, n) end).
  destruct (solve_im_spec v m n (map (fun c => (c, im sp c)) (once (names simple deflections (directions v)))) (fun _ => Grid m n (fun _ _ => 0)))
    as (u & U & V).
  - apply C.
  - intros c H. apply in_map_iff in H. destruct H as ([a b] & <- & H). cbn. apply (once_in (names simple deflections (directions v))) in H. apply names_in in H. tauto.
  - intros d. cbn. auto.
  - exists u. split; [exact U|]. intros d. destruct (V d) as (V1 & V2 & V3). split; [exact V1|]. split; [exact V2|].
    intros i j Hi Hj. rewrite V3 by assumption. cbn [at_]. rewrite Rplus_0_l, (responses_names v (im sp) d i j _ (once_nodup _)).
    unfold over_directions.
    assert (X : forall e, existsb (name_eqb (d, e)) (once (names simple deflections (directions v))) = existsb (name_eqb (d, e)) (names simple deflections (directions v))).
    { intros e. apply eq_true_iff_eq. rewrite !existsb_exists. split; intros (x & I & E); exists x; (split; [|exact E]); apply (once_in (names simple deflections (directions v))); exact I. }
    rewrite !X. reflexivity.
Qed.
Lemma existsb_names simple defl v d e : existsb (name_eqb (d, e)) (names simple defl (directions v)) = true <->
  get v e <> None /\ (if simple then d = e else In d defl).
Proof.
  rewrite <- names_in, existsb_exists. split.
  - intros (x & I & E). destruct (name_eqb_spec (d, e) x); [|discriminate]. subst. exact I.
  - intros I. exists (d, e). split; [exact I|]. destruct (name_eqb_spec (d, e) (d, e)); congruence.
Qed.
Lemma over_ext f g : (forall e, f e = g e) -> over_directions f = over_directions g.
Proof. intros H. unfold over_directions. rewrite !H. reflexivity. Qed.
Lemma coeff_plus a b di dj : rows a = rows b -> cols a = cols b -> coeff (gplus a b) di dj = coeff a di dj + coeff b di dj.
Proof. intros R C. unfold coeff, gplus. cbn [rows cols at_]. rewrite <- R, <- C. destruct (_ && _); lra. Qed.
Lemma caused_plus a b l i j : rows a = rows b -> cols a = cols b -> caused (gplus a b) l i j = caused a l i j + caused b l i j.
Proof.
  intros R C. unfold caused. destruct l as [g|]; [|lra]. unfold superposed, total2. rewrite <- total_add. apply total_ext. intros p _.
  rewrite <- total_add. apply total_ext. intros q _. rewrite coeff_plus by assumption. ring.
Qed.
