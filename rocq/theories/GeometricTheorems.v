(** Theorems on geometric surfaces (C106) and arithmetic of analytical surfaces (C107). *)
From Coq Require Import Reals List Bool Arith Lia Lra.
From Verif Require Import Py SurfaceModel SurfaceProofs GeometricModel GeometricSpec GeometricProofs.
Import ListNotations.
Local Open Scope R_scope.

(** C106: a flat surface, however turned and moved, is a plane with the steepness of the slopes, and the slopes themselves
    if it isn't turned. A number is the slope in x. *)
Theorem c106_flat (a : arg) (s0 s1 : R) : a = Number s0 /\ s1 = 0 \/ a = Tuple [s0; s1] \/ a = List_ [s0; s1] ->
  exists f, (forall x y, flat_height a x y = Ok (f x y)) /\ f 0 0 = 0 /\
    forall rot sh e, exists gx gy c, plane (height (new_analytic f rot sh e)) gx gy c /\ gx ^ 2 + gy ^ 2 = s0 ^ 2 + s1 ^ 2 /\ (rot = None -> gx = s0 /\ gy = s1).
Proof.
  intro A. exists (fun x y => x * s0 + y * s1). split; [|split].
  - intros x y. destruct A as [[-> ->]|[->| ->]]; reflexivity.
  - ring.
  - intros rot sh e. set (t := match rot with Some t => t | None => 0 end).
    assert (NA : exists sx sy, forall x y, height (new_analytic (fun x y => x * s0 + y * s1) rot sh e) x y =
      ((x * cos t - y * sin t) + (sx * cos t - sy * sin t)) * s0 + ((y * cos t + x * sin t) + (sy * cos t + sx * sin t)) * s1).
    { assert (RT : rotation (match rot with Some r => rotate (Analytic (fun x y => x * s0 + y * s1) 0 0 0 e) r | None => Analytic (fun x y => x * s0 + y * s1) 0 0 0 e end) = t) by (destruct rot; cbn; unfold t; ring).
      unfold new_analytic. destruct sh as [[dx dy]|].
      - exists dx, dy. intros x y. unfold shift, height. destruct rot; cbn in RT |- *; rewrite RT, !Rplus_0_l; reflexivity.
      - destruct e as [[ex ey]|].
        + exists (ex / -2), (ey / -2). intros x y. unfold shift, height. destruct rot; cbn in RT |- *; rewrite RT, !Rplus_0_l; reflexivity.
        + exists 0, 0. intros x y. unfold shift, height. destruct rot; cbn in RT |- *; rewrite RT; reflexivity. }
    destruct NA as (sx & sy & NA). exists (cos t * s0 + sin t * s1), (cos t * s1 - sin t * s0), ((sx * cos t - sy * sin t) * s0 + (sy * cos t + sx * sin t) * s1). split; [|split].
    + intros x y. rewrite NA. ring.
    + pose proof (sin2_cos2 t) as SC. unfold Rsqr in SC. replace ((cos t * s0 + sin t * s1) ^ 2 + (cos t * s1 - sin t * s0) ^ 2) with ((sin t * sin t + cos t * cos t) * (s0 ^ 2 + s1 ^ 2)) by ring. rewrite SC. ring.
    + intro N. unfold t. rewrite N, cos_0, sin_0. split; ring.
Qed.
Example c106_flat_case : exists f, (forall x y, flat_height (Tuple [3; 4]) x y = Ok (f x y)) /\ exists gx gy c, plane (height (new_analytic f (Some 1) None (Some (1, 1)))) gx gy c /\ gx ^ 2 + gy ^ 2 = 25.
Proof.
  destruct (c106_flat (Tuple [3; 4]) 3 4) as (f & H & _ & P); [right; left; reflexivity|]. exists f. split; [exact H|]. destruct (P (Some 1) None (Some (1, 1))) as (gx & gy & c & P1 & P2 & _). exists gx, gy, c. split; [exact P1|]. rewrite P2. ring.
Qed.

(** Too few slopes are an error when a height is asked for. *)
Theorem c106_slopes (a : arg) (l : list R) (x y : R) : a = Tuple l \/ a = List_ l -> (flat_height a x y = Err IndexError <-> (List.length l < 2)%nat) /\ (flat_height a x y = Err IndexError \/ exists h, flat_height a x y = Ok h).
Proof. intro A. assert (F : flat_slope a = Some l) by (destruct A as [->| ->]; reflexivity). unfold flat_height. rewrite F. destruct l as [|s0 [|s1 l]]; cbn; (split; [split; intro H; try reflexivity; try discriminate; lia|]); [left; reflexivity|left; reflexivity|right; eexists; reflexivity]. Qed.

(** Radii: a number, or three of which the first two may be infinite. *)
Definition as_radius (r : option R) : radius := match r with Some r => Finite r | None => Infinite end.
Lemma over_share x r : over x (as_radius r) ^ 2 = share x r.
Proof. destruct r; cbn; ring. Qed.
(** Where the ball is, the height is on the upper half of the ellipsoid with its top at the origin. *)
Theorem c106_round (rx ry : option R) (rz x y : R) : 0 < rz -> under rx ry x y ->
  on_ellipsoid rx ry rz x y (round_height (as_radius rx) (as_radius ry) rz x y) /\ - rz <= round_height (as_radius rx) (as_radius ry) rz x y <= 0 /\
  (round_height (as_radius rx) (as_radius ry) rz x y = 0 <-> share x rx + share y ry = 0).
Proof.
  intros Z U. unfold under in U. unfold round_height. rewrite !over_share. assert (SX : 0 <= share x rx) by (destruct rx; cbn [share]; nra). assert (SY : 0 <= share y ry) by (destruct ry; cbn [share]; nra).
  set (s := 1 - share x rx - share y ry). assert (S0 : 0 <= s <= 1) by (unfold s; lra). destruct (Rltb s 0) eqn:L; [apply Rltb_true in L; lra|].
  pose proof (sqrt_pos s) as SP. pose proof (sqrt_sqrt s (proj1 S0)) as SS. assert (S1 : sqrt s <= 1) by (rewrite <- sqrt_1; apply sqrt_le_1_alt; lra). split; [|split].
  - unfold on_ellipsoid. replace ((sqrt s * rz - rz + rz) / rz) with (sqrt s) by (field; lra). replace (sqrt s ^ 2) with s by (cbn; lra). unfold s. ring.
  - nra.
  - split; intro H.
    + assert (sqrt s = 1) by nra. assert (s = 1) by (rewrite <- SS, H0; ring). unfold s in H1. lra.
    + assert (E : s = 1) by (unfold s; lra). rewrite E, sqrt_1. ring.
Qed.
Example c106_round_case : under (Some 2) None 1 100 /\ 0 < 1.
Proof. unfold under; cbn [share]. lra. Qed.
(** Only a number or three radii are accepted, and they are those of the surface. *)
Theorem c106_radii (a : radii) : (new_round a = Err ValueError <-> ~ ((exists r, a = OneRadius r) \/ exists r1 r2 r3, a = Radii [r1; r2; r3])) /\
  (forall r, new_round (OneRadius r) = Ok (Finite r, Finite r, Finite r)) /\ (forall r1 r2 r3, new_round (Radii [r1; r2; r3]) = Ok (r1, r2, r3)).
Proof.
  split; [|split; reflexivity]. split.
  - intros H [[r ->]|(r1 & r2 & r3 & ->)]; discriminate.
  - intro N. destruct a as [r|[|r1 [|r2 [|r3 [|r4 l]]]]|]; try reflexivity; exfalso; apply N; [left; now exists r|right; now exists r1, r2, r3].
Qed.
(** Outside of the ball the surface is not below it: everything there is as high as the top of the ball, above every
    other point of it, and a whole radius above its edge. *)
Theorem c106_round_outside_refuted (rx ry : option R) (rz x y : R) : 0 < rz -> ~ under rx ry x y ->
  round_height (as_radius rx) (as_radius ry) rz x y = 0 /\
  (forall x' y', under rx ry x' y' -> share x' rx + share y' ry <> 0 -> round_height (as_radius rx) (as_radius ry) rz x' y' < round_height (as_radius rx) (as_radius ry) rz x y) /\
  (forall x' y', share x' rx + share y' ry = 1 -> round_height (as_radius rx) (as_radius ry) rz x' y' = - rz).
Proof.
  intros Z U. assert (H0 : round_height (as_radius rx) (as_radius ry) rz x y = 0).
  { unfold round_height. rewrite !over_share. unfold under in U. now rewrite (proj2 (Rltb_true _ _)) by lra. }
  split; [exact H0|]. split.
  - intros x' y' U' N. rewrite H0. destruct (c106_round rx ry rz x' y' Z U') as (_ & [_ B] & E). destruct (Rle_lt_or_eq_dec _ _ B) as [L|L]; [exact L|]. apply E in L. contradiction.
  - intros x' y' E. unfold round_height. rewrite !over_share. replace (1 - share x' rx - share y' ry) with 0 by lra. rewrite sqrt_0. destruct (Rltb 0 0) eqn:L; [apply Rltb_true in L; lra|]. ring.
Qed.
Example c106_outside_case : ~ under (Some 1) (Some 1) 2 0 /\ under (Some 1) (Some 1) (1 / 2) 0 /\ share (1 / 2) (Some 1) + share 0 (Some 1) <> 0 /\ share 1 (Some 1) + share 0 (Some 1) = 1.
Proof. unfold under; cbn [share]. lra. Qed.

(** Pyramids: the apex is at the origin and the heights fall in proportion to the distance in units of the lengths; the
    contours are those of a pyramid with the lengths on the axes. *)
Theorem c106_pyramid (l0 l1 l2 x y : R) : 0 < l0 -> 0 < l1 -> 0 < l2 -> exists h,
  pyramid_height (Some (l0, l1, l2)) x y = Ok h /\ h <= 0 /\ (h = 0 <-> x = 0 /\ y = 0) /\
  (forall t, h = - (t * l2) <-> Rabs x / l0 + Rabs y / l1 = t) /\ (forall k, 0 <= k -> pyramid_height (Some (l0, l1, l2)) (k * x) (k * y) = Ok (k * h)).
Proof.
  intros A B C. exists ((0 - Rabs x / l0 - Rabs y / l1) * l2). split; [reflexivity|].
  assert (PX : 0 <= Rabs x / l0) by (apply Rmult_le_pos; [apply Rabs_pos|left; now apply Rinv_0_lt_compat]). assert (PY : 0 <= Rabs y / l1) by (apply Rmult_le_pos; [apply Rabs_pos|left; now apply Rinv_0_lt_compat]).
  split; [nra|]. split; [|split].
  - split.
    + intro H. assert (X : Rabs x / l0 = 0) by nra. assert (Y : Rabs y / l1 = 0) by nra.
      assert (AX : Rabs x = 0) by (replace (Rabs x) with (Rabs x / l0 * l0) by (field; lra); rewrite X; ring). assert (AY : Rabs y = 0) by (replace (Rabs y) with (Rabs y / l1 * l1) by (field; lra); rewrite Y; ring).
      split; [destruct (Req_dec x 0); [assumption|apply Rabs_no_R0 in H0; contradiction]|destruct (Req_dec y 0); [assumption|apply Rabs_no_R0 in H0; contradiction]].
    + intros [-> ->]. rewrite Rabs_R0. unfold Rdiv. ring.
  - intro t. split; intro H; [|rewrite <- H; ring]. apply (Rmult_eq_reg_r l2); lra.
  - intros k K. unfold pyramid_height. rewrite !Rabs_mult, (Rabs_pos_eq k) by exact K. f_equal. unfold Rdiv. ring.
Qed.
(** The lengths of a pyramid are one number or a tuple of three; other tuples are refused. *)
Theorem c106_lengths (l : list R) : (forall x, new_pyramid (Number x) = Ok (Some (x, x, x))) /\ (forall l0 l1 l2, l = [l0; l1; l2] -> new_pyramid (Tuple l) = Ok (Some (l0, l1, l2))) /\ (List.length l <> 3%nat -> new_pyramid (Tuple l) = Err ValueError).
Proof. split; [reflexivity|]. split; [intros l0 l1 l2 ->; reflexivity|]. destruct l as [|? [|? [|? [|? ?]]]]; cbn; intro H; try reflexivity. lia. Qed.
(** With one number the sides are at 45 degrees along the axes only: straight down a side, the surface falls by more than
    the distance. *)
Theorem c106_pyramid_sides_refuted (l d : R) : 0 < l -> 0 < d -> exists x y h, sqrt (x ^ 2 + y ^ 2) = d /\ new_pyramid (Number l) = Ok (Some (l, l, l)) /\
  pyramid_height (Some (l, l, l)) x y = Ok h /\ h = - (sqrt 2 * d) /\ h < - d.
Proof.
  intros L D. exists (d / sqrt 2), (d / sqrt 2), (- (sqrt 2 * d)). assert (S2 : sqrt 2 * sqrt 2 = 2) by (apply sqrt_sqrt; lra). assert (SP : 1 < sqrt 2) by (rewrite <- sqrt_1 at 1; apply sqrt_lt_1_alt; lra).
  split; [|split; [reflexivity|split; [|split; [reflexivity|nra]]]].
  - replace ((d / sqrt 2) ^ 2 + (d / sqrt 2) ^ 2) with (d ^ 2 * 2 / (sqrt 2 * sqrt 2)) by (field; lra). rewrite S2. replace (d ^ 2 * 2 / 2) with (d * d) by field. apply sqrt_square. lra.
  - unfold pyramid_height. f_equal. rewrite Rabs_pos_eq by (apply Rmult_le_pos; [lra|left; apply Rinv_0_lt_compat; lra]).
    replace ((0 - d / sqrt 2 / l - d / sqrt 2 / l) * l) with (- (2 * d / sqrt 2)) by (field; lra). f_equal. apply (Rmult_eq_reg_r (sqrt 2)); [|lra]. replace (2 * d / sqrt 2 * sqrt 2) with (2 * d) by (field; lra). replace (sqrt 2 * d * sqrt 2) with (sqrt 2 * sqrt 2 * d) by ring. rewrite S2. reflexivity.
Qed.
(** The list of the documentation is accepted and has no height anywhere; so has a slope that isn't a number or a
    sequence. *)
Theorem c106_list_refuted (l : list R) : exists s, new_pyramid (List_ l) = Ok s /\ forall x y, pyramid_height s x y = Err AttributeError /\ flat_height Other x y = Err AttributeError.
Proof. exists None. split; [reflexivity|]. intros. split; reflexivity. Qed.

(** C107: a sum, difference or multiple has the heights it should when it is made, and making it changes nothing else. *)
Theorem c107_number (l : list act) (st st' : store) (k : nat) (c : R) (a : act) (f : R -> R) : act_run [] l = Ok st ->
  (a = AddNumber k c /\ f = (fun h => h + c)) \/ (a = SubNumber k c /\ f = (fun h => h - c)) \/ (a = MulNumber k c /\ f = (fun h => h * c)) ->
  act_step st a = Ok st' -> List.length st' = S (List.length st) /\
  (forall x y, height_at st' (List.length st) x y = f (height_at st k x y)) /\ (forall j x y, (j < List.length st)%nat -> height_at st' j x y = height_at st j x y).
Proof.
  intros R0 A H. assert (O := run_ordered l [] st ordered_nil R0). assert (O' := act_ordered st a st' O H).
  assert (E : exists n, nth_error st k = Some n /\ st' = st ++ [Scaled f k (own n)]).
  { destruct A as [[-> ->]|[[-> ->]|[-> ->]]]; cbn in H; destruct (nth_error st k) as [n|]; try discriminate; exists n; (split; [reflexivity|congruence]). }
  destruct E as (n & E & ->). split; [rewrite app_length; cbn; lia|]. split.
  - intros x y. erewrite height_scaled; [|exact O'|rewrite nth_error_app2, Nat.sub_diag by lia; reflexivity]. f_equal. apply height_snoc; [exact O|]. now apply nth_lt in E.
  - intros j x y J. now apply height_snoc.
Qed.
Theorem c107_surfaces (l : list act) (st st' : store) (i j : nat) (a : act) (op : R -> R -> R) : act_run [] l = Ok st -> (a = AddSurface i j /\ op = Rplus) \/ (a = SubSurface i j /\ op = Rminus) ->
  act_step st a = Ok st' -> List.length st' = S (List.length st) /\
  (forall x y, height_at st' (List.length st) x y = op (height_at st i x y) (height_at st j x y)) /\ (forall k x y, (k < List.length st)%nat -> height_at st' k x y = height_at st k x y).
Proof.
  intros R0 A H. assert (O := run_ordered l [] st ordered_nil R0). assert (O' := act_ordered st a st' O H).
  assert (E : exists ni nj e, nth_error st i = Some ni /\ nth_error st j = Some nj /\ st' = st ++ [Combined op i j (Analytic (fun _ _ => 0) 0 0 0 e)]).
  { destruct A as [[-> ->]|[-> ->]]; cbn in H; destruct (nth_error st i) as [ni|]; try discriminate; destruct (nth_error st j) as [nj|]; try discriminate; destruct (same_extent _ _); try discriminate;
    exists ni, nj; eexists; (split; [reflexivity|split; [reflexivity|injection H as H; symmetry; exact H]]). }
  destruct E as (ni & nj & e & Ei & Ej & ->). split; [rewrite app_length; cbn; lia|]. split.
  - intros x y. erewrite height_combined; [|exact O'|rewrite nth_error_app2, Nat.sub_diag by lia; reflexivity]. unfold height. cbn [base shift_x shift_y rotation a_extent]. rewrite cos_0, sin_0.
    rewrite (height_snoc st _ i), (height_snoc st _ j); try exact O; try (now apply nth_lt in Ei); try (now apply nth_lt in Ej). f_equal; f_equal; ring.
  - intros k x y K. now apply height_snoc.
Qed.
(** Surfaces with different extents are not added. *)
Theorem c107_extents (st : store) (i j : nat) (ni nj : node) (ei ej : R * R) : nth_error st i = Some ni -> nth_error st j = Some nj -> a_extent (own ni) = Some ei -> a_extent (own nj) = Some ej -> ei <> ej ->
  act_step st (AddSurface i j) = Err ValueError /\ act_step st (SubSurface i j) = Err ValueError.
Proof.
  intros Hi Hj Ei Ej N. cbn. rewrite Hi, Hj, Ei, Ej. cbn. destruct ei as [a b], ej as [a' b']. destruct (Reqb a a' && Reqb b b') eqn:X; [|split; reflexivity]. exfalso. apply andb_true_iff in X. destruct X as [X Y]. apply Reqb_true in X, Y. congruence.
Qed.
(** Otherwise they are, and the result has the extent of those that have one. *)
Theorem c107_extent (st : store) (i j : nat) (ni nj : node) (a : act) : nth_error st i = Some ni -> nth_error st j = Some nj -> a = AddSurface i j \/ a = SubSurface i j ->
  (a_extent (own ni) = None \/ a_extent (own nj) = None \/ a_extent (own ni) = a_extent (own nj)) ->
  exists st' n, act_step st a = Ok st' /\ nth_error st' (List.length st) = Some n /\ (forall e, a_extent (own ni) = Some e \/ a_extent (own nj) = Some e -> a_extent (own n) = Some e) /\
    (a_extent (own ni) = None -> a_extent (own nj) = None -> a_extent (own n) = None).
Proof.
  intros Hi Hj A X. assert (SE : same_extent (a_extent (own ni)) (a_extent (own nj)) = true).
  { unfold same_extent. destruct (a_extent (own ni)) as [[x y]|] eqn:Ei; [|reflexivity]. destruct (a_extent (own nj)) as [[x' y']|] eqn:Ej; [|reflexivity]. destruct X as [X|[X|X]]; [discriminate|discriminate|]. injection X as -> ->. apply andb_true_iff. split; now apply Reqb_true. }
  destruct A as [->| ->]; cbn; rewrite Hi, Hj, SE; do 2 eexists; (split; [reflexivity|]); (split; [rewrite nth_error_app2, Nat.sub_diag by lia; reflexivity|]); cbn [own a_extent]; (split; [|intros E1 E2; rewrite E1; exact E2]); intros e He;
  (destruct (a_extent (own ni)) as [e1|] eqn:Ei; [destruct He as [He|He]; [exact He|destruct X as [X|[X|X]]; congruence]|destruct He as [He|He]; [discriminate|exact He]]).
Qed.
Example c107_extent_case : let p := new_analytic (fun x y => x) None (Some (0, 0)) None in let q := new_analytic (fun x y => y) None (Some (0, 0)) (Some (2, 3)) in
  exists st n, act_run [] [New p; New q; SubSurface 0 1] = Ok st /\ nth_error st 2 = Some n /\ a_extent (own n) = Some (2, 3).
Proof. do 2 eexists. split; [reflexivity|]. split; reflexivity. Qed.
(** Moving a surface, or a sum or difference of surfaces, moves it. *)
Theorem c107_move (l : list act) (st st' : store) (k : nat) (n : node) (dx dy t : R) : act_run [] l = Ok st -> nth_error st k = Some n -> (forall f o s, n <> Scaled f o s) ->
  (act_step st (Move k (Shift (Some (dx, dy)))) = Ok st' -> moved (height_at st k) (height_at st' k) dx dy) /\
  (act_step st (Move k (Rotate t)) = Ok st' -> turned (height_at st k) (height_at st' k) t (- shift_x (own n)) (- shift_y (own n))).
Proof.
  intros R0 E NS. assert (O := run_ordered l [] st ordered_nil R0).
  assert (M : forall o st', act_step st (Move k o) = Ok st' -> st' = replace k (set_own n (astep (own n) o)) st /\ ordered st' /\ nth_error st' k = Some (set_own n (astep (own n) o))).
  { intros o s' H. assert (OO := act_ordered _ _ _ O H). cbn in H. rewrite E in H. assert (X : s' = replace k (set_own n (astep (own n) o)) st) by congruence. split; [exact X|]. split; [exact OO|]. rewrite X, replace_nth, Nat.eqb_refl, E. reflexivity. }
  assert (CH : forall op a b s o st' x y, n = Combined op a b s -> act_step st (Move k o) = Ok st' ->
    height_at st' k x y = height (Analytic (fun x y => op (height_at st a x y) (height_at st b x y)) (shift_x (astep s o)) (shift_y (astep s o)) (rotation (astep s o)) (a_extent (astep s o))) x y).
  { intros op a b s o s' x y -> H. destruct (M o s' H) as (X & O' & N'). cbn [own set_own] in *. rewrite (height_combined _ _ _ _ _ _ _ _ O' N'). pose proof (O k _ E) as F. inversion F as [|? ? Fa Fr]; subst. inversion Fr; subst. apply height_base. intros. f_equal; apply height_replace; auto; congruence. }
  split; intro H; destruct (M _ _ H) as (X & O' & N'); intros x y; destruct n as [s|f o s|op a b s]; try (exfalso; now apply (NS f o s)); cbn [own set_own astep] in *.
  - rewrite (height_plain _ _ _ _ _ N'), (height_plain _ _ _ _ _ E). apply height_shift.
  - rewrite (CH _ _ _ _ _ _ _ _ eq_refl H), (height_combined _ _ _ _ _ _ _ _ O E). rewrite <- height_shift. reflexivity.
  - rewrite (height_plain _ _ _ _ _ N'), (height_plain _ _ _ _ _ E). apply height_rotate.
  - rewrite (CH _ _ _ _ _ _ _ _ eq_refl H), (height_combined _ _ _ _ _ _ _ _ O E).
    set (A := Analytic (fun x y => op (height_at st a x y) (height_at st b x y)) (shift_x s) (shift_y s) (rotation s) (a_extent s)). pose proof (height_rotate A t x y) as HR. cbn [shift_x shift_y A] in HR. etransitivity; [|exact HR]. reflexivity.
Qed.
(** A sum with a number, or a multiple, can't be moved: its heights stay. *)
Theorem c107_stuck_refuted (l : list act) (st st' : store) (k o : nat) (f : R -> R) (s : analytic) (m : aop) : act_run [] l = Ok st -> nth_error st k = Some (Scaled f o s) ->
  act_step st (Move k m) = Ok st' -> forall x y, height_at st' k x y = height_at st k x y.
Proof.
  intros R0 E H x y. assert (O := run_ordered l [] st ordered_nil R0). assert (O' := act_ordered _ _ _ O H). cbn in H. rewrite E in H. cbn in H. assert (X : st' = replace k (Scaled f o (astep s m)) st) by congruence.
  rewrite (height_scaled st' k f o (astep s m) x y O'), (height_scaled st k f o s x y O E) by (rewrite X, replace_nth, Nat.eqb_refl, E; reflexivity). f_equal. rewrite X. apply height_replace; [exact O|congruence|]. pose proof (O k _ E) as F. now inversion F.
Qed.
(** Instead it moves with the surface it was made from, and so do sums of surfaces: they are not independent of it. *)
Theorem c107_shared_refuted (l : list act) (st st' : store) (k o : nat) (f : R -> R) (s : analytic) (m : aop) : act_run [] l = Ok st -> nth_error st k = Some (Scaled f o s) ->
  act_step st (Move o m) = Ok st' -> forall x y, height_at st' k x y = f (height_at st' o x y).
Proof.
  intros R0 E H x y. assert (O := run_ordered l [] st ordered_nil R0). assert (O' := act_ordered _ _ _ O H). cbn in H. destruct (nth_error st o) as [no|] eqn:EO; [|discriminate]. pose proof (O k _ E) as F. assert (L : (o < k)%nat) by now inversion F.
  assert (X : st' = replace o (set_own no (astep (own no) m)) st) by congruence. apply (height_scaled st' k f o s x y O'). rewrite X, replace_nth. destruct (Nat.eqb_spec k o); [lia|exact E].
Qed.
(** Surfaces can't be divided by a number, and a number can't be on the left. *)
Theorem c107_divide_refuted (st : store) (k : nat) (c : R) : act_step st (DivNumber k c) = Err TypeError /\ act_step st (NumberAdd c k) = Err TypeError.
Proof. split; reflexivity. Qed.
(** A pyramid plus one: moving the sum changes nothing, moving the pyramid changes the sum. *)
Example c107_case : let p := new_analytic (fun x y => - Rabs x - Rabs y) None (Some (0, 0)) None in
  exists st st1 st2, act_run [] [New p; AddNumber 0 1; AddSurface 0 1] = Ok st /\ act_step st (Move 1 (Shift (Some (5, 0)))) = Ok st1 /\ act_step st (Move 0 (Shift (Some (5, 0)))) = Ok st2 /\
    height_at st 1 0 0 = 1 /\ height_at st1 1 0 0 = 1 /\ height_at st2 1 0 0 = -4 /\ height_at st 2 0 0 = 1.
Proof.
  intro p. do 3 eexists. split; [reflexivity|]. split; [reflexivity|]. split; [reflexivity|].
  assert (R5 : forall a, a = 5 -> Rabs a = 5) by (intros a ->; apply Rabs_pos_eq; lra).
  unfold height_at, height. cbn. rewrite !Rplus_0_l, cos_0, sin_0. rewrite !Rmult_0_l, !Rmult_0_r, !Rmult_1_r, !Rplus_0_l, !Rminus_0_r, Rabs_R0. repeat split; try ring.
  all: rewrite ?Rplus_0_l, ?Rplus_0_r, ?Rabs_R0, ?(R5 5 eq_refl); ring.
Qed.

Print Assumptions c106_flat.
Print Assumptions c106_round.
Print Assumptions c106_radii.
Print Assumptions c106_round_outside_refuted.
Print Assumptions c106_pyramid.
Print Assumptions c106_pyramid_sides_refuted.
Print Assumptions c106_list_refuted.
Print Assumptions c107_number.
Print Assumptions c107_surfaces.
Print Assumptions c107_extents.
Print Assumptions c107_move.
Print Assumptions c107_stuck_refuted.
Print Assumptions c107_shared_refuted.
Print Assumptions c107_divide_refuted.
Print Assumptions c106_slopes.
Print Assumptions c106_lengths.
Print Assumptions c107_extent.
