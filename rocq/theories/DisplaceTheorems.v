(** C79 and C80: displacements under given loads, and the arguments of the inverse problem. *)
From Coq Require Import String List Bool Arith ZArith Reals Lia Lra.
From Verif Require Import Py SurfaceModel SurfaceProofs ConvModel ConvSpec ConvProofs DisplaceModel DisplaceSpec DisplaceProofs
  Flt SolverModel SolverSpec SolverProofs CgProofs.
Import ListNotations.
Local Open Scope R_scope.

(** ** C79 *)
(** The displacement in each requested direction is the superposition of the responses to the
    loads of all directions; with [simple] only the load of the same direction counts, and the
    request is ignored. Other directions are zero. Loads as named tuple or as sequence of up to
    three. *)
Theorem c79_displacements : forall im a deflections span simple m n,
  match a with Named _ => True | Seq l => (List.length l <= 3)%nat | Dict _ => False end ->
  common_shape (meant a) m n ->
  let sp := match span with Some s => s | None => (m, n) end in
  exists u, displacement_from_surface_loads im a deflections span simple = Ok u /\
  forall d, rows (u d) = m /\ cols (u d) = n /\
    forall i j, (i < m)%nat -> (j < n)%nat ->
      (simple = false -> In d deflections ->
         at_ (u d) i j = over_directions (fun e => caused (im sp (d, e)) (meant a e) i j)) /\
      (simple = false -> ~ In d deflections -> at_ (u d) i j = 0) /\
      (simple = true -> at_ (u d) i j = caused (im sp (d, d)) (meant a d) i j).
Proof.
  intros im a deflections span simple m n A C sp.
  assert (V : exists v, (forall b, displacement_from_surface_loads im a deflections span b = displacement_from_surface_loads im (Named v) deflections span b) /\ forall d, get v d = meant a d).
  { destruct a as [v|l|l]; [exists v; auto|contradiction|].
    exists (Vec3 (entry l 0) (entry l 1) (entry l 2)). split; [|intros []; reflexivity].
    intros b. unfold displacement_from_surface_loads. cbn [read_loads]. apply Nat.leb_le in A. rewrite A. reflexivity. }
  destruct V as (v & E & G). rewrite E.
  assert (C' : common_shape (get v) m n).
  { destruct C as ((d & g & D) & S). split; [exists d, g; rewrite G; exact D|]. intros d0 g0. rewrite G. apply S. }
  destruct (displacement_spec im v deflections span simple m n C') as (u & U & W). exists u. split; [exact U|].
  intros d. destruct (W d) as (W1 & W2 & W3). split; [exact W1|]. split; [exact W2|]. intros i j Hi Hj. rewrite W3 by assumption. fold sp. clear W3.
  assert (Z : forall e c, existsb (name_eqb (d, e)) (names simple deflections (directions v)) = c ->
     (c = true <-> get v e <> None /\ (if simple then d = e else In d deflections))) by (intros e c <-; apply existsb_names).
  split; [|split].
  - intros -> I. apply over_ext. intros e. destruct (existsb _ _) eqn:X; rewrite <- G; [reflexivity|].
    destruct (get v e) as [g|] eqn:Y; [|reflexivity]. apply Z in X. exfalso. destruct X as [_ X]. discriminate X. split; [congruence|exact I].
  - intros -> I. rewrite (over_ext _ (fun _ => 0)); [unfold over_directions; lra|]. intros e. destruct (existsb _ _) eqn:X; [|reflexivity].
    apply Z in X. tauto.
  - intros ->.
    rewrite (over_ext _ (fun e => if dir_eqb e d then caused (im sp (d, d)) (meant a d) i j else 0)); [destruct d; unfold over_directions; cbn; lra|].
    intros e. destruct (dir_eqb_spec e d).
    + subst e. destruct (existsb _ _) eqn:X; rewrite <- G; [reflexivity|]. destruct (get v d) eqn:Y; [|reflexivity].
      apply Z in X. destruct X as [_ X]. discriminate X. split; [congruence|reflexivity].
    + destruct (existsb _ _) eqn:X; [|reflexivity]. apply Z in X. intuition congruence.
Qed.
Print Assumptions c79_displacements.

(** Loads of different shapes, no loads at all and sequences of more than three entries are a
    ValueError, never a result. *)
Theorem c79_errors : forall im a deflections span simple,
  ((forall d, meant a d = None) \/ (exists d e g h, meant a d = Some g /\ meant a e = Some h /\ (rows g <> rows h \/ cols g <> cols h)) \/
   (exists l, a = Seq l /\ (3 < List.length l)%nat)) ->
  displacement_from_surface_loads im a deflections span simple = Err ValueError.
Proof.
  intros im a deflections span simple H. unfold displacement_from_surface_loads.
  destruct (read_loads a) as [v|e] eqn:R; cbn [bind].
  - assert (G : forall d, get v d = meant a d).
    { destruct a as [w|[|]|l]; cbn in R; try discriminate; [injection R as <-; reflexivity|injection R as <-; intros []; reflexivity|].
      destruct (Nat.leb _ _); [|discriminate]. injection R as <-. intros []; reflexivity. }
    destruct (check_shapes v) as [s|e] eqn:K; cbn [bind]; [|apply check_err in K; congruence]. exfalso.
    apply check_inv in K. destruct K as ((d & g & D) & S). destruct H as [H|[H|H]].
    + specialize (H d). rewrite <- G in H. congruence.
    + destruct H as (d1 & d2 & g1 & g2 & D1 & D2 & N). rewrite <- G in D1, D2. destruct (S _ _ D1), (S _ _ D2). lia.
    + destruct H as (l & -> & L). cbn in R. destruct (Nat.leb_spec (List.length l) 3); [lia|discriminate].
  - destruct a as [w|[|]|l]; cbn in R; try discriminate; [congruence|]. destruct (Nat.leb _ _); congruence.
Qed.
Print Assumptions c79_errors.

(** Refuted: loads given as a dict, which is documented, are always a ValueError. *)
Theorem c79_dict_refuted : forall im l deflections span simple,
  displacement_from_surface_loads im (Dict l) deflections span simple = Err ValueError.
Proof. intros im [|p l] deflections span simple; reflexivity. Qed.
Print Assumptions c79_dict_refuted.
Example c79_dict_case : let g := Grid 1 1 (fun _ _ => 3) in
  common_shape (meant (Dict [(Dz, Some g)])) 1 1.
Proof. cbn zeta. split; [exists Dz; eexists; reflexivity|]. intros [] g; cbn; intros E; try discriminate. injection E as <-. auto. Qed.

(** Refuted: "must be length 3" is not checked for shorter sequences. *)
Theorem c79_short_refuted : forall im g deflections span simple,
  displacement_from_surface_loads im (Seq [Some g]) deflections span simple =
  displacement_from_surface_loads im (Named (Vec3 (Some g) None None)) deflections span simple.
Proof. reflexivity. Qed.
Print Assumptions c79_short_refuted.

(** A concrete case: one x and one z load on a 2 by 1 grid, z displacements requested twice. *)
Example c79_case : let im := fun (_ : nat * nat) (c : dirn * dirn) => Grid 1 1 (fun _ _ => match c with (Dz, Dz) => 2 | (Dz, Dx) => 5 | _ => 7 end) in
  let a := Seq [Some (Grid 2 1 (fun i _ => INR i)); None; Some (Grid 2 1 (fun _ _ => 10))] in
  common_shape (meant a) 2 1 /\ exists u, displacement_from_surface_loads im a [Dz; Dz] None false = Ok u /\
    at_ (u Dz) 1 0 = 25 /\ at_ (u Dx) 1 0 = 0.
Proof.
  cbn zeta. set (a := Seq _). set (im := fun _ _ => _). assert (C : common_shape (meant a) 2 1).
  { split; [exists Dx; eexists; reflexivity|]. intros [] g; cbn; intros E; try discriminate; injection E as <-; auto. }
  split; [exact C|]. destruct (c79_displacements im a [Dz; Dz] None false 2 1 ltac:(cbn; lia) C) as (u & U & W).
  exists u. split; [exact U|]. split.
  - destruct (W Dz) as (_ & _ & W3). destruct (W3 1%nat 0%nat ltac:(lia) ltac:(lia)) as (X & _ & _). rewrite X; [|reflexivity|left; reflexivity].
    unfold over_directions, caused, meant, a, im, superposed, total2, coeff, difference. cbn [nth rows cols at_ total].
    cbn. lra.
  - destruct (W Dx) as (_ & _ & W3). destruct (W3 1%nat 0%nat ltac:(lia) ltac:(lia)) as (_ & X & _). apply X; [reflexivity|].
    cbn. intuition discriminate.
Qed.

(** ** C80 *)
(** Displacements given as named tuple or dict: the problem solved has the given displacements
    and uses the component of each given direction. *)
Theorem c80_problem : forall a m n simple,
  match a with Seq _ => False | _ => True end -> common_shape (meant a) m n ->
  (simple = true \/ exists d, forall e, e <> d -> meant a e = None) ->
  exists v comps, displacement_problem a simple = Ok (v, comps) /\ (forall d, get v d = meant a d) /\
    forall d e, In (d, e) comps <-> d = e /\ meant a d <> None.
Proof.
  intros a m n simple A C Sm.
  assert (V : exists v, read_displacements a = Ok v /\ forall d, get v d = meant a d).
  { destruct a as [v|l|l]; [exists v; split; reflexivity| |contradiction]. eexists. split; [reflexivity|]. intros []; reflexivity. }
  destruct V as (v & R & G). unfold displacement_problem. rewrite R. cbn [bind].
  assert (C' : common_shape (get v) m n).
  { destruct C as ((d & g & D) & S). split; [exists d, g; rewrite G; exact D|]. intros d0 g0. rewrite G. apply S. }
  rewrite (check_ok v m n C'). cbn [bind].
  assert (S1 : simple || Nat.eqb (List.length (directions v)) 1 = true).
  { destruct Sm as [->|(d & O)]; [reflexivity|]. rewrite orb_true_iff. right. destruct C' as ((d0 & g & D) & _).
    assert (d0 = d). { destruct (dir_eqb_spec d0 d); [assumption|]. rewrite G, (O d0 n0) in D. discriminate. } subst d0.
    unfold directions, has. destruct d; cbn [filter]; rewrite D, ?(G Dx), ?(G Dy), ?(G Dz), ?(O Dx), ?(O Dy), ?(O Dz) by discriminate; reflexivity. }
  rewrite S1. eexists _, _. split; [reflexivity|]. split; [exact G|].
  intros d e. rewrite in_map_iff. split.
  - intros (x & E & I). injection E as <- <-. apply directions_in in I. rewrite G in I. auto.
  - intros [<- N]. exists d. rewrite directions_in, G. auto.
Qed.
Print Assumptions c80_problem.

(** Sequences are read as intended exactly when no array follows a None. *)
Theorem c80_sequence : forall x y z,
  (exists v, read_displacements (Seq [x; y; z]) = Ok v /\ forall d, get v d = meant (Seq [x; y; z]) d) <->
  ((x = None -> y = None /\ z = None) /\ (y = None -> z = None)).
Proof.
  intros x y z. split.
  - intros (v & R & G). cbn in R. injection R as <-. pose proof (G Dx) as GX. pose proof (G Dy) as GY. pose proof (G Dz) as GZ.
    destruct x, y, z; cbn in *; repeat split; intros; congruence.
  - intros [H1 H2]. eexists. split; [reflexivity|]. destruct x as [gx|]; [|destruct (H1 eq_refl) as [-> ->]; intros []; reflexivity].
    destruct y as [gy|]; [|rewrite (H2 eq_refl); intros []; reflexivity]. destruct z; intros []; reflexivity.
Qed.
Print Assumptions c80_sequence.

(** Refuted: normal displacements given as the sequence (None, None, z) are solved as
    displacements in the x direction with the x component of the influence matrix. *)
Theorem c80_sequence_refuted : forall g simple,
  displacement_problem (Seq [None; None; Some g]) simple = Ok (Vec3 (Some g) None None, [(Dx, Dx)]).
Proof.
  intros g simple. unfold displacement_problem. cbn [read_displacements List.length Nat.eqb compact map entry nth bind].
  rewrite (check_ok _ (rows g) (cols g)).
  - cbn. rewrite orb_true_r. reflexivity.
  - split; [exists Dx, g; reflexivity|]. intros [] h; cbn; intros E; try discriminate. injection E as <-. auto.
Qed.
Print Assumptions c80_sequence_refuted.

(** Refuted: the full problem ([simple=False]) for more than one direction is always an error. *)
Theorem c80_full_refuted : forall a d e, d <> e -> meant a d <> None -> meant a e <> None ->
  exists x, displacement_problem a false = Err x.
Proof.
  intros a d e N Hd He. unfold displacement_problem. destruct (read_displacements a) as [v|x] eqn:R; cbn [bind]; [|eauto].
  destruct (check_shapes v) as [s|x]; cbn [bind]; [|eauto].
  assert (L : Nat.eqb (List.length (directions v)) 1 = false).
  { apply Nat.eqb_neq. assert (K : exists a b, a <> b /\ In a (directions v) /\ In b (directions v)).
    - destruct a as [w|l|[|x [|y [|z [|]]]]]; cbn in R; try discriminate.
      + injection R as <-. exists d, e. rewrite !directions_in. auto.
      + injection R as <-. exists d, e. rewrite !directions_in. destruct d, e; auto.
      + injection R as <-. exists Dx, Dy. rewrite !directions_in. split; [discriminate|].
        destruct x, y, z, d, e; cbn in *; try congruence; split; discriminate.
    - destruct K as (p & q & PQ & I1 & I2). intros E. destruct (directions v) as [|r [|]]; try discriminate. cbn in I1, I2. intuition congruence. }
  rewrite L. cbn [orb]. eauto.
Qed.
Print Assumptions c80_full_refuted.
(** With equal shapes it is the TypeError of an array plus a letter. *)
Theorem c80_full_error : forall v m n d e, d <> e -> get v d <> None -> get v e <> None -> common_shape (get v) m n ->
  displacement_problem (Named v) false = Err TypeError.
Proof.
  intros v m n d e N Hd He C. destruct (c80_full_refuted (Named v) d e N Hd He) as (x & E). rewrite E.
  unfold displacement_problem in E. cbn [read_displacements bind] in E. rewrite (check_ok v m n C) in E. cbn [bind] in E.
  destruct (_ || _); congruence.
Qed.
Print Assumptions c80_full_error.

(** With two materials the displacements of the two surfaces under the loads found add up to
    the total, for loads in one direction or with [simple]. *)
Theorem c80_split : forall im1 im2 v span simple m n, common_shape (get v) m n ->
  (forall c, rows (im1 span c) = rows (im2 span c) /\ cols (im1 span c) = cols (im2 span c)) ->
  (simple = true \/ exists d, forall e, e <> d -> get v e = None) ->
  exists full u1 u2, split_displacements im1 im2 v span simple = Ok (full, u1, u2) /\
    forall d i j, (i < m)%nat -> (j < n)%nat -> at_ (u1 d) i j + at_ (u2 d) i j = at_ (full d) i j.
Proof.
  intros im1 im2 v span simple m n C Sh Sm. unfold split_displacements.
  assert (F : solve_im_loading v (map (fun d => ((d, d), gplus (im1 span (d, d)) (im2 span (d, d)))) (directions v)) =
     displacement_from_surface_loads (fun s c => gplus (im1 s c) (im2 s c)) (Named v) [] (Some span) true).
  { unfold displacement_from_surface_loads. cbn [read_loads bind]. rewrite (check_ok v m n C). cbn [bind]. f_equal.
    unfold names, directions. destruct (has v Dx) eqn:X, (has v Dy) eqn:Y, (has v Dz) eqn:Z; cbn [filter]; rewrite ?X, ?Y, ?Z; reflexivity. }
  rewrite F. destruct (c79_displacements (fun s c => gplus (im1 s c) (im2 s c)) (Named v) [] (Some span) true m n I C) as (full & F1 & F2).
  rewrite F1. cbn [bind].
  destruct (c79_displacements im1 (Named v) (directions v) (Some span) simple m n I C) as (u1 & U1 & V1). rewrite U1. cbn [bind].
  destruct (c79_displacements im2 (Named v) (directions v) (Some span) simple m n I C) as (u2 & U2 & V2). rewrite U2. cbn [bind].
  exists full, u1, u2. split; [reflexivity|]. intros d i j Hi Hj.
  destruct (F2 d) as (_ & _ & F3). destruct (F3 i j Hi Hj) as (_ & _ & F4). rewrite F4 by reflexivity. clear F2 F3 F4. cbn [meant].
  destruct (Sh (d, d)) as [S1 S2]. rewrite caused_plus by assumption.
  destruct (V1 d) as (_ & _ & A1). destruct (A1 i j Hi Hj) as (A2 & A3 & A4).
  destruct (V2 d) as (_ & _ & B1). destruct (B1 i j Hi Hj) as (B2 & B3 & B4). cbn [meant] in *.
  destruct simple.
  - rewrite A4, B4 by reflexivity. reflexivity.
  - destruct Sm as [X|(x & O)]; [discriminate|].
    destruct (get v d) as [g|] eqn:D.
    + assert (I0 : In d (directions v)) by (apply directions_in; congruence). rewrite A2, B2 by auto.
      assert (d = x). { destruct (dir_eqb_spec d x); [assumption|]. rewrite (O d n0) in D. discriminate. } subst x.
      unfold over_directions. destruct d; rewrite ?(O Dx), ?(O Dy), ?(O Dz), ?D by discriminate; cbn [caused]; lra.
    + assert (I0 : ~ In d (directions v)) by (rewrite directions_in; tauto). rewrite A3, B3 by auto. cbn. lra.
Qed.
Print Assumptions c80_split.

(** ** C38: rigid bodies *)
(** The displacement of a rigid body is zero in every direction, with the shape of the loads. *)
Theorem c38_rigid : forall v d g, get v d = Some g ->
  nth (match d with Dx => 0 | Dy => 1 | Dz => 2 end) (rigid_displacement v) ZeroScalar = Zeros (rows g) (cols g).
Proof. intros v [] g H; cbn in *; rewrite H; reflexivity. Qed.
Print Assumptions c38_rigid.

(** The inherited computation with the influence matrix of a rigid body agrees. *)
Theorem c38_rigid_general : forall v deflections span simple m n, common_shape (get v) m n ->
  exists u, displacement_from_surface_loads rigid_influence (Named v) deflections span simple = Ok u /\
  forall d i j, (i < m)%nat -> (j < n)%nat -> at_ (u d) i j = 0.
Proof.
  intros v deflections span simple m n C.
  destruct (displacement_spec rigid_influence v deflections span simple m n C) as (u & U & W). exists u. split; [exact U|].
  intros d i j Hi Hj. destruct (W d) as (_ & _ & W3). rewrite W3 by assumption.
  rewrite (over_ext _ (fun _ => 0)); [unfold over_directions; lra|]. intros e. destruct (existsb _ _); [|reflexivity].
  unfold caused, superposed. destruct (get v e); [|reflexivity]. unfold total2.
  rewrite (total_ext _ _ (fun _ => 0)); [apply total_zero|]. intros p _. rewrite (total_ext _ _ (fun _ => 0)); [apply total_zero|]. intros q _.
  unfold coeff. destruct (_ && _); unfold rigid_influence; cbn [at_]; ring.
Qed.
Print Assumptions c38_rigid_general.

(** Refuted: that non zero displacements of a rigid body are refused. The loads are infinite or
    not a number at every point, and there is no warning. *)
Theorem c38_rigid_refuted : forall fuel given op disp d max_it t guess g,
  (forall v i, op v i = Fin 0) -> NoDup given -> (forall i, In i given -> disp i = Fin (d i)) -> (forall i, guess i = Fin (g i)) ->
  0 < t <= sqrt (sum_over given (fun i => d i * d i)) -> (1 <= max_it)%Z -> (2 <= fuel)%nat ->
  exists res, solve_im_displacement fuel given op disp max_it (Fin t) guess = Some res /\ warned res = false /\
    forall i, In i given -> forall x, found res i <> Fin x.
Proof.
  intros fuel given op disp d max_it t guess g Op ND Hd Hg T MI F. unfold solve_im_displacement.
  assert (Dom : filter (fun i => negb (is_nan (disp i))) given = given).
  { clear - Hd. induction given as [|x l IH]; [reflexivity|]. cbn. rewrite (Hd x) by (left; reflexivity). cbn. f_equal. apply IH. intros. apply Hd. right. assumption. }
  rewrite Dom. set (n := List.length given). destruct fuel as [|[|fuel]]; [lia|lia|]. 
  set (s0 := cg_init given op disp guess).
  assert (Nt : forall k, (k < n)%nat -> In (nth k given 0%nat) given) by (intros; apply nth_In; assumption).
  assert (R0 : numbers n (residual s0) (fun k => d (nth k given 0%nat))).
  { intros k Hk. unfold s0, cg_init. cbn. unfold gather. rewrite Op, (Hd _ (Nt k Hk)). cbn. f_equal. ring. }
  assert (P0 : search s0 = residual s0) by reflexivity.
  assert (Sq : sum n (fun k => d (nth k given 0%nat) * d (nth k given 0%nat)) = sum_over given (fun i => d i * d i)).
  { symmetry. apply (sum_over_nth given (fun i => d i * d i)). }
  assert (Pos : 0 < sum_over given (fun i => d i * d i)).
  { destruct (Rle_or_lt (sum_over given (fun i => d i * d i)) 0) as [L|L]; [|exact L]. rewrite sqrt_neg_0 in T by exact L. lra. }
  assert (Nz : n <> 0%nat) by (unfold n; destruct given; [cbn in Pos; lra|cbn; lia]).
  cbn [cg_loop]. fold n. rewrite (norm_numbers n _ _ R0). unfold length2. rewrite Sq. cbn [fleb].
  rewrite (proj2 (Rleb_true _ _)) by apply T.
  set (s1 := cg_step given op s0).
  assert (It : itnum s1 = 1%Z) by reflexivity. rewrite It. destruct (Z.ltb_spec max_it 1); [lia|].
  assert (Z0 : forall k, gather given (op (scatter given (search s0))) k = Fin 0) by (intros; apply Op).
  assert (D1 : dot n (search s0) (gather given (op (scatter given (search s0)))) = Fin 0).
  { rewrite P0 in *. rewrite (dot_numbers n _ _ (fun k => d (nth k given 0%nat)) (fun _ => 0)); [|exact R0|intros k _; apply Z0].
    rewrite (sum_ext n _ (fun _ => 0)) by (intros; ring). rewrite sum_zero. reflexivity. }
  assert (D2 : dot n (residual s0) (residual s0) = Fin (sum_over given (fun i => d i * d i))) by (rewrite (dot_numbers n _ _ _ _ R0 R0), Sq; reflexivity).
  assert (Al : fdiv (dot n (residual s0) (residual s0)) (dot n (search s0) (gather given (op (scatter given (search s0))))) = PInf).
  { rewrite D1, D2. cbn. destruct (Reqb 0 0) eqn:E; [|apply Reqb_false in E; lra]. unfold signed_inf. rewrite (proj2 (Rltb_true _ _)) by exact Pos. reflexivity. }
  assert (R1 : forall k, residual s1 k = NaN \/ False).
  { intros k. left. unfold s1, cg_step. fold n. cbn [residual]. rewrite Al, Z0. cbn. unfold signed_inf.
    rewrite (proj2 (Rltb_false 0 0)) by lra. apply fadd_nan_r. }
  assert (Nn : norm n (residual s1) = NaN).
  { unfold norm. rewrite (dot_nan n _ _ 0) by (try lia; destruct (R1 0%nat) as [->|[]]; reflexivity). reflexivity. }
  rewrite Nn. cbn [fleb]. eexists. split; [reflexivity|]. cbn [warned found]. split; [reflexivity|].
  intros i Hi. unfold s1, cg_step. fold n. cbn [SolverModel.loads]. rewrite Al. unfold add_to.
  destruct (In_nth given i 0%nat Hi) as (k & Hk & Ek).
  destruct (position i given) as [p|] eqn:Pp; [|apply position_none in Pp; contradiction].
  assert (Pn : (p < n)%nat /\ nth p given 0%nat = i) by (apply position_some; exact Pp). destruct Pn as [Pn Pe].
  rewrite P0, (R0 p Pn), Pe. change (SolverModel.loads s0 i) with (guess i). rewrite (Hg i). cbn [fmul]. unfold signed_inf.
  intros x. destruct (Rltb 0 _); [discriminate|]. destruct (Rltb _ 0); discriminate.
Qed.
Print Assumptions c38_rigid_refuted.
