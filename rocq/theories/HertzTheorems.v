(** C60 and C61: Hertz contacts solved for a missing quantity. *)
From Coq Require Import Reals List Bool Lra Lia ClassicalEpsilon.
From Verif Require Import Py SurfaceModel Flt SurfaceProofs HertzModel HertzSpec HertzProofs.
Import ListNotations.
Local Open Scope R_scope.

(** There is a solver of the assumed kind, and a system. *)
Example exact_solver : exists solve, exact solve.
Proof.
  exists (fun f => match excluded_middle_informative (exists l, forall x, f x = Some 0 <-> In x l) with
                   | left H => proj1_sig (constructive_indefinite_description _ H)
                   | right _ => []
                   end).
  intros f l F x. destruct (excluded_middle_informative _) as [H|H].
  - destruct (constructive_indefinite_description _ H) as [l' L]. cbn. symmetry. apply L.
  - exfalso. apply H. now exists l.
Qed.
Definition steel : system := {| s_r := 0.01; s_e1 := 200; s_e2 := 70; s_v1 := 0.3; s_v2 := 0.33; s_load := 155 |}.
Example steel_physical : physical steel /\ findable HModulus1 steel.
Proof. split; [unfold physical; cbn; lra|unfold findable; discriminate]. Qed.

Section WithSolvers.
Variable solve : (R -> option R) -> list R.
Variable root : (R -> result R) -> R -> result (option R).

(** ** C60: line contacts *)

(** With all independent parameters the Hertz solution is returned. *)
Theorem c60_forward (s : system) : physical s ->
  solve_hertz_line solve (all_given s) no_line = Ok (line_solution s).
Proof. intro P. now apply fill_line_ok. Qed.

(** If one parameter of a physical system is left out (or both equal moduli) and one of its dependent
    quantities is given instead, exactly this system is returned. *)
Theorem c60_round_trip (s : system) (h : hidden) (q : line_request) : exact solve -> physical s -> findable h s ->
  solve_hertz_line solve (hide h s) (line_asked q (line_value q s)) = Ok (line_solution s).
Proof.
  intros EX P F. unfold solve_hertz_line.
  assert (S : forall eq, eq = match q with LPressure => line_pressure_eq (line_p s) | LShear => line_shear_eq (0.3 * line_p s)
      | LWidth => line_width_eq (line_a s) end ->
    bind (find_unknown (hide h s)) (fun '(u, es) => bind (solve_unknown solve u es (hide h s) eq) (fun x =>
    bind (sort_out solve (hide h s) u x) (fun s => match s with Full g' => fill_line g' | NanRatios g' => fill_line_nan g' end)))
    = Ok (line_solution s)).
  { intros eq ->. rewrite find_ok by exact P. cbn [bind].
    assert (U : solve_unknown solve (unknown_of h) match unknown_of h with UE => None | _ => Some (e_star s) end (hide h s)
      match q with LPressure => line_pressure_eq (line_p s) | LShear => line_shear_eq (0.3 * line_p s) | LWidth => line_width_eq (line_a s) end
      = Ok (match h with HLoad => s_load s | HRadius => s_r s | _ => e_star s end)).
    { destruct h; cbn [unknown_of solve_unknown hide all_given g_load g_r val bind];
        apply max_root_one; try exact EX; intro y.
      - rewrite <- (line_eq_l q s y P). destruct q; reflexivity.
      - rewrite <- (line_eq_r q s y P). destruct q; reflexivity.
      - rewrite <- (line_eq_e q s y P). destruct q; reflexivity.
      - rewrite <- (line_eq_e q s y P). destruct q; reflexivity.
      - rewrite <- (line_eq_e q s y P). destruct q; reflexivity.
      - rewrite <- (line_eq_e q s y P). destruct q; reflexivity.
      - rewrite <- (line_eq_e q s y P). destruct q; reflexivity. }
    rewrite U. cbn [bind].
    replace (sort_out solve (hide h s) (unknown_of h) match h with HLoad => s_load s | HRadius => s_r s | _ => e_star s end)
      with (@Ok sorted (Full (all_given s))).
    - cbn [bind]. now apply fill_line_ok.
    - destruct h; cbn [unknown_of sort_out]; try reflexivity; symmetry; apply sort_ok; try easy. }
  destruct q; cbn [line_asked line_value d_pressure d_shear d_mises d_width]; apply (S _ eq_refl).
Qed.

(** Any positive value can be requested when the load, the radius or both moduli are missing: the result is the
    Hertz solution of a physical system which has the given parameters and this value. *)
Lemma line_p_from s t : physical s -> 0 < t -> t ^ 2 = s_load s * e_star s / (PI * s_r s) -> line_p s = t.
Proof.
  intros P T E. rewrite <- (line_p_sq s P) in E. pose proof (line_p_pos s P) as Q.
  assert (X : (t - line_p s) * (t + line_p s) = 0) by (replace ((t - line_p s) * (t + line_p s)) with (t ^ 2 - line_p s ^ 2) by ring; lra).
  apply Rmult_integral in X. destruct X; lra.
Qed.
Lemma line_a_from s t : physical s -> 0 < t -> t ^ 2 = 4 * s_load s * s_r s / (PI * e_star s) -> line_a s = t.
Proof.
  intros P T E. rewrite <- (line_a_sq s P) in E. pose proof (line_a_pos s P) as Q.
  assert (X : (t - line_a s) * (t + line_a s) = 0) by (replace ((t - line_a s) * (t + line_a s)) with (t ^ 2 - line_a s ^ 2) by ring; lra).
  apply Rmult_integral in X. destruct X; lra.
Qed.
Definition with_load (s : system) (x : R) := {| s_r := s_r s; s_e1 := s_e1 s; s_e2 := s_e2 s; s_v1 := s_v1 s; s_v2 := s_v2 s; s_load := x |}.
Definition with_r (s : system) (x : R) := {| s_r := x; s_e1 := s_e1 s; s_e2 := s_e2 s; s_v1 := s_v1 s; s_v2 := s_v2 s; s_load := s_load s |}.
Definition with_e (s : system) (x : R) := {| s_r := s_r s; s_e1 := x; s_e2 := x; s_v1 := s_v1 s; s_v2 := s_v2 s; s_load := s_load s |}.
Lemma with_load_physical s x : physical s -> 0 < x -> physical (with_load s x).
Proof. unfold physical, with_load. cbn. tauto. Qed.
Lemma with_r_physical s x : physical s -> 0 < x -> physical (with_r s x).
Proof. unfold physical, with_r. cbn. tauto. Qed.
Lemma ratios_pos s : physical s -> 0 < 2 - s_v1 s ^ 2 - s_v2 s ^ 2.
Proof. intros (R0 & E1 & E2 & V1 & V2 & L). nra. Qed.
Lemma with_e_star s x : physical s -> 0 < x ->
  physical (with_e s (x * (2 - s_v1 s ^ 2 - s_v2 s ^ 2))) /\ e_star (with_e s (x * (2 - s_v1 s ^ 2 - s_v2 s ^ 2))) = x.
Proof.
  intros P X. pose proof (ratios_pos s P) as Q. split.
  - unfold physical, with_e in *. cbn. assert (0 < x * (2 - s_v1 s ^ 2 - s_v2 s ^ 2)) by now apply Rmult_lt_0_compat. tauto.
  - unfold e_star, with_e. cbn [s_e1 s_e2 s_v1 s_v2]. field. lra.
Qed.

Ltac pos := match goal with
  | |- 0 < _ / _ => apply Rdiv_lt_0_compat; pos
  | |- 0 < _ * _ => apply Rmult_lt_0_compat; pos
  | |- 0 < _ ^ _ => apply pow_lt; pos
  | |- 0 < sqrt _ => apply sqrt_lt_R0; pos
  | |- _ => lra
  end.
Lemma line_system_for (s : system) (h : hidden) (q : line_request) (t : R) : physical s -> 0 < t ->
  h = HLoad \/ h = HRadius \/ h = HModuli ->
  exists s', physical s' /\ findable h s' /\ hide h s' = hide h s /\ line_value q s' = t.
Proof.
  intros P T H. pose proof (e_star_pos s P) as E. pose proof PI_RGT_0 as Q. pose proof P as (R0 & E1 & E2 & V1 & V2 & L).
  set (e := e_star s) in *.
  destruct H as [->|[->| ->]].
  - destruct q.
    + exists (with_load s (t ^ 2 * PI * s_r s / e)).
      assert (P' : physical (with_load s (t ^ 2 * PI * s_r s / e))) by (apply with_load_physical; [exact P|pos]).
      repeat split; try apply P'; [discriminate|]. cbn [line_value]. apply line_p_from; [exact P'|exact T|].
      change (e_star (with_load _ _)) with e. cbn [with_load s_load s_r]. field. lra.
    + exists (with_load s ((t / 0.3) ^ 2 * PI * s_r s / e)).
      assert (P' : physical (with_load s ((t / 0.3) ^ 2 * PI * s_r s / e))) by (apply with_load_physical; [exact P|pos]).
      repeat split; try apply P'; [discriminate|]. cbn [line_value].
      rewrite (line_p_from _ (t / 0.3)); [lra|exact P'|lra|].
      change (e_star (with_load _ _)) with e. cbn [with_load s_load s_r]. field. lra.
    + exists (with_load s (t ^ 2 * PI * e / (4 * s_r s))).
      assert (P' : physical (with_load s (t ^ 2 * PI * e / (4 * s_r s)))) by (apply with_load_physical; [exact P|pos]).
      repeat split; try apply P'; [discriminate|]. cbn [line_value]. apply line_a_from; [exact P'|exact T|].
      change (e_star (with_load _ _)) with e. cbn [with_load s_load s_r]. field. lra.
  - destruct q.
    + exists (with_r s (s_load s * e / (PI * t ^ 2))).
      assert (P' : physical (with_r s (s_load s * e / (PI * t ^ 2)))) by (apply with_r_physical; [exact P|pos]).
      repeat split; try apply P'; [discriminate|]. cbn [line_value]. apply line_p_from; [exact P'|exact T|].
      change (e_star (with_r _ _)) with e. cbn [with_r s_load s_r]. field. lra.
    + exists (with_r s (s_load s * e / (PI * (t / 0.3) ^ 2))).
      assert (P' : physical (with_r s (s_load s * e / (PI * (t / 0.3) ^ 2)))) by (apply with_r_physical; [exact P|pos]).
      repeat split; try apply P'; [discriminate|]. cbn [line_value].
      rewrite (line_p_from _ (t / 0.3)); [lra|exact P'|lra|].
      change (e_star (with_r _ _)) with e. cbn [with_r s_load s_r]. field. lra.
    + exists (with_r s (t ^ 2 * PI * e / (4 * s_load s))).
      assert (P' : physical (with_r s (t ^ 2 * PI * e / (4 * s_load s)))) by (apply with_r_physical; [exact P|pos]).
      repeat split; try apply P'; [discriminate|]. cbn [line_value]. apply line_a_from; [exact P'|exact T|].
      change (e_star (with_r _ _)) with e. cbn [with_r s_load s_r]. field. lra.
  - destruct q.
    + destruct (with_e_star s (t ^ 2 * PI * s_r s / s_load s) P) as [P' E']; [pos|].
      eexists. split; [exact P'|]. repeat split; [reflexivity..|]. cbn [line_value]. apply line_p_from; [exact P'|exact T|].
      rewrite E'. cbn [with_e s_load s_r]. field. lra.
    + destruct (with_e_star s ((t / 0.3) ^ 2 * PI * s_r s / s_load s) P) as [P' E']; [pos|].
      eexists. split; [exact P'|]. repeat split; [reflexivity..|]. cbn [line_value].
      rewrite (line_p_from _ (t / 0.3)); [lra|exact P'|lra|]. rewrite E'. cbn [with_e s_load s_r]. field. lra.
    + destruct (with_e_star s (4 * s_load s * s_r s / (PI * t ^ 2)) P) as [P' E']; [pos|].
      eexists. split; [exact P'|]. repeat split; [reflexivity..|]. cbn [line_value]. apply line_a_from; [exact P'|exact T|].
      rewrite E'. cbn [with_e s_load s_r]. field. lra.
Qed.
Theorem c60_requested (s : system) (h : hidden) (q : line_request) (t : R) : exact solve -> physical s -> 0 < t ->
  h = HLoad \/ h = HRadius \/ h = HModuli ->
  exists s', physical s' /\ hide h s' = hide h s /\
    solve_hertz_line solve (hide h s) (line_asked q t) = Ok (line_solution s') /\
    line_field q (line_solution s') = Fin t.
Proof.
  intros EX P T H. destruct (line_system_for s h q t P T H) as (s' & P' & F' & E & V).
  exists s'. split; [exact P'|]. split; [exact E|]. split.
  - rewrite <- E, <- V. now apply c60_round_trip.
  - rewrite <- V. now destruct q.
Qed.

(** A missing single modulus (or one which the other body makes impossible) can come out negative, without an
    error: the requested pressure needs a stiffer pair than the other body allows. *)
Theorem c60_modulus_refuted (s : system) (t : R) : exact solve -> physical s -> 0 < t ->
  s_load s / (t ^ 2 * PI * s_r s) < (1 - s_v2 s ^ 2) / s_e2 s ->
  exists l, solve_hertz_line solve (hide HModulus1 s) (line_asked LPressure t) = Ok l /\ l_e1 l < 0 /\ l_pressure l = Fin t.
Proof.
  intros EX P T C. pose proof PI_RGT_0 as Q. pose proof P as (R0 & E1 & E2 & V1 & V2 & L).
  assert (Q1 : 0 < 1 - s_v1 s ^ 2) by nra. assert (Q2 : 0 < 1 - s_v2 s ^ 2) by nra.
  set (e := t ^ 2 * PI * s_r s / s_load s).
  assert (E : 0 < e) by (unfold e; pos).
  assert (I : s_load s / (t ^ 2 * PI * s_r s) = 1 / e) by (unfold e; field; lra). rewrite I in C.
  set (c2 := (1 - s_v2 s ^ 2) / s_e2 s) in *. set (x := (1 - s_v1 s ^ 2) / (1 / e - c2)).
  assert (X : x < 0).
  { assert (Y : 0 < (1 - s_v1 s ^ 2) / (c2 - 1 / e)) by (apply Rdiv_lt_0_compat; lra).
    assert (Z : x = - ((1 - s_v1 s ^ 2) / (c2 - 1 / e))) by (unfold x; generalize dependent (1 / e); intros; field; lra).
    lra. }
  unfold solve_hertz_line. cbn [line_asked d_pressure d_shear d_mises d_width]. rewrite find_ok by exact P. cbn [bind unknown_of].
  cbn [solve_unknown hide all_given g_load g_r val bind].
  rewrite (max_root_one solve EX _ e).
  2:{ intro y. unfold line_pressure_eq. rewrite odiv_ok by lra. cbn [obind]. rewrite some0.
      replace (s_load s * y / PI / s_r s - t ^ 2) with (s_load s / (PI * s_r s) * (y - e)) by (unfold e; field; lra).
      apply factor. nz. }
  cbn [bind sort_out]. unfold sort_materials, mats_none. cbn [hide all_given g_r g_e1 g_e2 g_v1 g_v2 g_load filter missing List.length].
  rewrite pdiv_ok by lra. cbn [bind]. rewrite (max_root_one solve EX _ x).
  2:{ intro y. unfold material_eq. destruct (Req_dec y 0) as [->|N]; [rewrite odiv_none; cbn; split; [discriminate|lra]|].
      rewrite !odiv_ok by lra. cbn [obind]. rewrite some0. fold c2.
      replace ((1 - s_v1 s ^ 2) / y + c2 - 1 / e) with ((c2 - 1 / e) / y * (y - x)) by (unfold x; generalize dependent (1 / e); intros; field; lra).
      apply factor. nz. }
  cbn [bind]. unfold fill_line, reduced_of. cbn [set_e1 g_r g_e1 g_e2 g_v1 g_v2 g_load val bind]. unfold reduced.
  rewrite pdiv_ok by lra. cbn [bind]. rewrite pdiv_ok by lra. cbn [bind]. fold c2.
  replace ((1 - s_v1 s ^ 2) / x) with (1 / e - c2) by (unfold x; generalize dependent (1 / e); intros; field; lra).
  replace (1 / e - c2 + c2) with (1 / e) by ring.
  assert (0 < 1 / e) by (apply Rdiv_lt_0_compat; lra).
  rewrite pdiv_ok by lra. cbn [bind]. replace (1 / (1 / e)) with e by (field; lra).
  destruct (line_c_mises s P) as (c & C' & _). rewrite C'. cbn [bind].
  rewrite !pdiv_ok by lra. cbn [bind]. eexists. split; [reflexivity|]. cbn [l_e1 l_pressure]. split; [exact X|].
  replace (s_load s * e / PI / s_r s) with (t ^ 2) by (unfold e; field; lra).
  rewrite fsqrt_ok by apply pow2_ge_0. rewrite sqrt_pow2 by lra. reflexivity.
Qed.

(** Refuted: with both ratios missing the ratio of the system is found. The result is not a number for all moduli
    with (1 - v^2) (1/E1 + 1/E2)^2 < 1, that is for all materials in the usual units. *)
Theorem c60_ratios_refuted (s : system) (q : line_request) : exact solve -> physical s -> s_v1 s = s_v2 s ->
  (1 - s_v1 s ^ 2) * (1 / s_e1 s + 1 / s_e2 s) ^ 2 < 1 ->
  exists l, solve_hertz_line solve (hide_ratios s) (line_asked q (line_value q s)) = Ok l /\
    l_v1 l = NaN /\ l_v2 l = NaN /\ l_e_star l = NaN /\ line_field q l = NaN.
Proof.
  intros EX P V C. pose proof P as (R0 & E1 & E2 & V1 & V2 & L). pose proof (e_star_pos s P) as E.
  assert (U : forall eq, eq = match q with LPressure => line_pressure_eq (line_p s) | LShear => line_shear_eq (0.3 * line_p s)
      | LWidth => line_width_eq (line_a s) end -> solve_unknown solve UE None (hide_ratios s) eq = Ok (e_star s)).
  { intros eq ->. cbn [solve_unknown hide_ratios g_load g_r val bind]. apply max_root_one; [exact EX|]. intro y.
    rewrite <- (line_eq_e q s y P). now destruct q. }
  assert (M : sort_materials solve (hide_ratios s) (e_star s) = Ok (NanRatios (hide_ratios s))).
  { unfold sort_materials, mats_none. cbn [hide_ratios g_r g_e1 g_e2 g_v1 g_v2 g_load filter missing List.length].
    rewrite !pdiv_ok by lra. cbn [bind]. unfold fsqrt.
    replace (1 / e_star s * (1 / s_e1 s + 1 / s_e2 s) - 1) with ((1 - s_v1 s ^ 2) * (1 / s_e1 s + 1 / s_e2 s) ^ 2 - 1).
    - rewrite (proj2 (Rltb_true _ 0)) by lra. reflexivity.
    - unfold Rdiv at 3. rewrite (inv_e_star s P), <- V. field. lra. }
  assert (N : exists l, fill_line_nan (hide_ratios s) = Ok l /\ l_v1 l = NaN /\ l_v2 l = NaN /\ l_e_star l = NaN /\ line_field q l = NaN).
  { eexists. split; [reflexivity|]. destruct q; repeat split. }
  destruct N as (l & F & N). exists l. split; [|exact N].
  unfold solve_hertz_line. destruct q; cbn [line_asked line_value d_pressure d_shear d_mises d_width];
    unfold find_unknown; cbn [mats_none hide_ratios g_e1 g_e2 g_v1 g_v2 filter missing List.length Nat.ltb Nat.leb bind];
    fold (hide_ratios s); rewrite (U _ eq_refl); cbn [bind sort_out]; rewrite M; exact F.
Qed.
Example c60_ratios_example : let s := {| s_r := 1; s_e1 := 200; s_e2 := 200; s_v1 := 0.3; s_v2 := 0.3; s_load := 1 |} in
  physical s /\ (1 - s_v1 s ^ 2) * (1 / s_e1 s + 1 / s_e2 s) ^ 2 < 1.
Proof. unfold physical. cbn. lra. Qed.

(** Refuted: inconsistent inputs are refused. With all independent parameters and a dependent one the given load is
    ignored, and of several dependent ones only the first is used. *)
Theorem c60_overdetermined_refuted (s : system) (q : line_request) (t : R) : physical s ->
  solve_hertz_line solve (all_given s) (line_asked q t) = solve_hertz_line solve (hide HLoad s) (line_asked q t).
Proof.
  intros P. unfold solve_hertz_line, find_unknown, mats_none. pose proof (reduced_ok s P) as RD.
  destruct q; cbn; unfold reduced_of; cbn; rewrite RD; reflexivity.
Qed.
Theorem c60_first_refuted (g : given) (p : R) (sh mi w : option R) :
  solve_hertz_line solve g {| d_pressure := Some p; d_shear := sh; d_mises := mi; d_width := w |}
  = solve_hertz_line solve g (line_asked LPressure p).
Proof. reflexivity. Qed.

(** Errors: nothing requested for a missing parameter ([TypeError], not the documented [ValueError]); a von Mises
    stress; a modulus and a ratio at a time. *)
Theorem c60_errors (s : system) (h : hidden) (x : R) (w : option R) (q : line_request) : physical s -> exact solve -> 0 < x ->
  solve_hertz_line solve (hide h s) no_line = Err TypeError /\
  solve_hertz_line solve (hide h s) {| d_pressure := None; d_shear := None; d_mises := Some x; d_width := w |}
    = Err NotImplementedError /\
  solve_hertz_line solve {| g_r := Some (s_r s); g_e1 := None; g_e2 := Some (s_e2 s); g_v1 := None; g_v2 := Some (s_v2 s);
    g_load := Some (s_load s) |} (line_asked q x) = Err ValueError.
Proof.
  intros P EX X. split; [|split].
  - destruct h; cbn; try reflexivity; unfold fill_line, reduced_of; cbn [hide all_given g_r g_e1 g_e2 g_v1 g_v2 g_load val bind];
      rewrite reduced_ok by exact P; cbn [bind]; destruct (line_c_mises s P) as (c & C & _); now rewrite C.
  - unfold solve_hertz_line. cbn [d_pressure d_shear d_mises d_width]. rewrite find_ok by exact P. reflexivity.
  - destruct (line_system_for s HModuli q x P X) as (s' & P' & F' & E' & V'); [tauto|].
    unfold hide in E'. cbn in E'. injection E' as Er Ev1 Ev2 El.
    assert (U : forall eq, eq = match q with LPressure => line_pressure_eq x | LShear => line_shear_eq x | LWidth => line_width_eq x end ->
      max_root solve (fun y => eq (s_load s) (s_r s) y) = Ok (e_star s')).
    { intros eq ->. apply max_root_one; [exact EX|]. intro y. rewrite <- (line_eq_e q s' y P'), Er, El.
      destruct q; cbn [line_value] in V'; rewrite V'; reflexivity. }
    unfold solve_hertz_line. destruct q; cbn; rewrite (U _ eq_refl); reflexivity.
Qed.

(** ** C61: point contacts *)

Theorem c61_forward (s : system) : physical s ->
  solve_hertz_point solve root (all_given s) no_point = Ok (point_solution s).
Proof. intro P. now apply fill_point_ok. Qed.

Definition point_eq (q : point_request) (t : R) : R -> R -> R -> option R :=
  match q with PPressure => point_pressure_eq t | PShear => point_shear_eq t | PRadius => point_radius_eq t
             | PDisplacement => point_disp_eq t end.
Lemma point_unknown q s h : exact solve -> physical s ->
  solve_unknown solve (unknown_of h) match unknown_of h with UE => None | _ => Some (e_star s) end (hide h s)
    (point_eq q (point_value q s)) = Ok (match h with HLoad => s_load s | HRadius => s_r s | _ => e_star s end).
Proof.
  intros EX P. pose proof (e_star_pos s P) as E. pose proof P as (R0 & _ & _ & _ & _ & L).
  assert (UL' : max_root solve (fun x => point_eq q (point_value q s) x (s_r s) (e_star s)) = Ok (s_load s)).
  { destruct q; cbn [point_eq point_value].
    - apply max_root_one; [exact EX|]. intro y. now apply pressure_l.
    - apply max_root_one; [exact EX|]. intro y. rewrite point_shear_pressure by exact P. now apply pressure_l.
    - apply max_root_one; [exact EX|]. intro y. now apply radius_l.
    - apply max_root_two; [exact EX|lra|]. intro y. now apply disp_l. }
  assert (UR' : max_root solve (fun x => point_eq q (point_value q s) (s_load s) x (e_star s)) = Ok (s_r s)).
  { destruct q; cbn [point_eq point_value].
    - apply max_root_two; [exact EX|lra|]. intro y. now apply pressure_r.
    - apply max_root_two; [exact EX|lra|]. intro y. rewrite point_shear_pressure by exact P. now apply pressure_r.
    - apply max_root_one; [exact EX|]. intro y. now apply radius_r.
    - apply max_root_one; [exact EX|]. intro y. now apply disp_r. }
  assert (UE' : max_root solve (fun x => point_eq q (point_value q s) (s_load s) (s_r s) x) = Ok (e_star s)).
  { destruct q; cbn [point_eq point_value].
    - apply max_root_two; [exact EX|lra|]. intro y. now apply pressure_e.
    - apply max_root_two; [exact EX|lra|]. intro y. rewrite point_shear_pressure by exact P. now apply pressure_e.
    - apply max_root_one; [exact EX|]. intro y. now apply radius_e.
    - apply max_root_two; [exact EX|lra|]. intro y. now apply disp_e. }
  destruct h; cbn [unknown_of solve_unknown hide all_given g_load g_r val bind]; assumption.
Qed.
Lemma sort_out_ok s h : exact solve -> physical s -> findable h s ->
  sort_out solve (hide h s) (unknown_of h) match h with HLoad => s_load s | HRadius => s_r s | _ => e_star s end
  = Ok (Full (all_given s)).
Proof.
  intros EX P F. destruct h; cbn [unknown_of sort_out]; try reflexivity; apply sort_ok; try easy.
Qed.

Theorem c61_round_trip (s : system) (h : hidden) (q : point_request) : exact solve -> physical s -> findable h s ->
  solve_hertz_point solve root (hide h s) (point_asked q (point_value q s)) = Ok (point_solution s).
Proof.
  intros EX P F. unfold solve_hertz_point.
  pose proof (point_unknown q s h EX P) as U. pose proof (sort_out_ok s h EX P F) as S.
  destruct q; cbn [point_asked q_pressure q_shear q_mises q_radius q_disp q_tensile]; rewrite find_ok by exact P; cbn [bind];
    cbn [point_eq] in U; rewrite U; cbn [bind]; rewrite S; cbn [bind]; now apply fill_point_ok.
Qed.

Lemma point_p_from s t : physical s -> 0 < t -> t ^ 3 = 6 * s_load s * e_star s ^ 2 / PI ^ 3 / s_r s ^ 2 -> point_p s = t.
Proof.
  intros P T E. rewrite <- (point_p_cube s P) in E. pose proof (point_p_pos s P) as Q. apply cube_inj; lra.
Qed.
Lemma point_a_from s t : physical s -> 0 < t -> t ^ 3 = 3 * s_load s * s_r s / (4 * e_star s) -> point_a s = t.
Proof.
  intros P T E. rewrite <- (point_a_cube s P) in E. pose proof (point_a_pos s) as Q. apply cube_inj; lra.
Qed.
Lemma point_d_from s t : physical s -> 0 < t -> t ^ 3 = 9 * s_load s ^ 2 / 16 / s_r s / e_star s ^ 2 -> point_a s ^ 2 / s_r s = t.
Proof.
  intros P T E. rewrite <- (point_d_cube s P) in E. pose proof (point_a_pos s) as Q.
  assert (0 < point_a s ^ 2 / s_r s) by (destruct P; pos). apply cube_inj; lra.
Qed.
Lemma point_p_system s h t : physical s -> 0 < t -> h = HLoad \/ h = HRadius \/ h = HModuli ->
  exists s', physical s' /\ findable h s' /\ hide h s' = hide h s /\ point_p s' = t.
Proof.
  intros P T H. pose proof (e_star_pos s P) as E. pose proof PI_RGT_0 as Q. pose proof P as (R0 & E1 & E2 & V1 & V2 & L).
  set (e := e_star s) in *.
  destruct H as [->|[->| ->]].
  - set (x := t ^ 3 * PI ^ 3 * s_r s ^ 2 / (6 * e ^ 2)). assert (X : 0 < x) by (unfold x; pos).
    exists (with_load s x). assert (P' : physical (with_load s x)) by now apply with_load_physical.
    repeat split; try apply P'; [discriminate|]. apply point_p_from; [exact P'|exact T|].
    change (e_star (with_load _ _)) with e. unfold x. cbn [with_load s_load s_r]. field. lra.
  - set (x2 := 6 * s_load s * e ^ 2 / (PI ^ 3 * t ^ 3)). assert (X2 : 0 < x2) by (unfold x2; pos).
    assert (X : 0 < sqrt x2) by pos.
    exists (with_r s (sqrt x2)). assert (P' : physical (with_r s (sqrt x2))) by now apply with_r_physical.
    repeat split; try apply P'; [discriminate|]. apply point_p_from; [exact P'|exact T|].
    change (e_star (with_r _ _)) with e. cbn [with_r s_load s_r]. rewrite pow2_sqrt by lra. unfold x2. field. lra.
  - set (x2 := t ^ 3 * PI ^ 3 * s_r s ^ 2 / (6 * s_load s)). assert (X2 : 0 < x2) by (unfold x2; pos).
    assert (X : 0 < sqrt x2) by pos.
    destruct (with_e_star s (sqrt x2) P X) as [P' E']. eexists. split; [exact P'|]. repeat split; [reflexivity..|].
    apply point_p_from; [exact P'|exact T|]. rewrite E'. rewrite pow2_sqrt by lra. cbn [with_e s_load s_r]. unfold x2. field. lra.
Qed.
Lemma point_system_for (s : system) (h : hidden) (q : point_request) (t : R) : physical s -> 0 < t ->
  h = HLoad \/ h = HRadius \/ h = HModuli ->
  exists s', physical s' /\ findable h s' /\ hide h s' = hide h s /\ point_value q s' = t.
Proof.
  intros P T H. pose proof (e_star_pos s P) as E. pose proof PI_RGT_0 as Q. pose proof P as (R0 & E1 & E2 & V1 & V2 & L).
  set (e := e_star s) in *.
  destruct q.
  - now apply point_p_system.
  - destruct (point_p_system s h (t / 0.46) P) as (s' & P' & F' & E' & V'); [lra|exact H|].
    exists s'. repeat split; try assumption; try apply P'. cbn [point_value]. rewrite V'. lra.
  - destruct H as [->|[->| ->]].
    + set (x := 4 * e * t ^ 3 / (3 * s_r s)). assert (X : 0 < x) by (unfold x; pos).
      exists (with_load s x). assert (P' : physical (with_load s x)) by now apply with_load_physical.
      repeat split; try apply P'; [discriminate|]. apply point_a_from; [exact P'|exact T|].
      change (e_star (with_load _ _)) with e. unfold x. cbn [with_load s_load s_r]. field. lra.
    + set (x := 4 * e * t ^ 3 / (3 * s_load s)). assert (X : 0 < x) by (unfold x; pos).
      exists (with_r s x). assert (P' : physical (with_r s x)) by now apply with_r_physical.
      repeat split; try apply P'; [discriminate|]. apply point_a_from; [exact P'|exact T|].
      change (e_star (with_r _ _)) with e. unfold x. cbn [with_r s_load s_r]. field. lra.
    + set (x := 3 * s_load s * s_r s / (4 * t ^ 3)). assert (X : 0 < x) by (unfold x; pos).
      destruct (with_e_star s x P X) as [P' E']. eexists. split; [exact P'|]. repeat split; [reflexivity..|].
      apply point_a_from; [exact P'|exact T|]. rewrite E'. cbn [with_e s_load s_r]. unfold x. field. lra.
  - destruct H as [->|[->| ->]].
    + set (x2 := 16 * t ^ 3 * s_r s * e ^ 2 / 9). assert (X2 : 0 < x2) by (unfold x2; pos). assert (X : 0 < sqrt x2) by pos.
      exists (with_load s (sqrt x2)). assert (P' : physical (with_load s (sqrt x2))) by now apply with_load_physical.
      repeat split; try apply P'; [discriminate|]. apply point_d_from; [exact P'|exact T|].
      change (e_star (with_load _ _)) with e. cbn [with_load s_load s_r]. rewrite pow2_sqrt by lra. unfold x2. field. lra.
    + set (x := 9 * s_load s ^ 2 / (16 * t ^ 3 * e ^ 2)). assert (X : 0 < x) by (unfold x; pos).
      exists (with_r s x). assert (P' : physical (with_r s x)) by now apply with_r_physical.
      repeat split; try apply P'; [discriminate|]. apply (point_d_from (with_r s x)); [exact P'|exact T|].
      change (e_star (with_r _ _)) with e. unfold x. cbn [with_r s_load s_r]. field. lra.
    + set (x2 := 9 * s_load s ^ 2 / (16 * t ^ 3 * s_r s)). assert (X2 : 0 < x2) by (unfold x2; pos). assert (X : 0 < sqrt x2) by pos.
      destruct (with_e_star s (sqrt x2) P X) as [P' E']. eexists. split; [exact P'|]. repeat split; [reflexivity..|].
      apply (point_d_from (with_e s (sqrt x2 * (2 - s_v1 s ^ 2 - s_v2 s ^ 2)))); [exact P'|exact T|].
      rewrite E'. rewrite pow2_sqrt by lra. cbn [with_e s_load s_r]. unfold x2. field. lra.
Qed.
Theorem c61_requested (s : system) (h : hidden) (q : point_request) (t : R) : exact solve -> physical s -> 0 < t ->
  h = HLoad \/ h = HRadius \/ h = HModuli ->
  exists s', physical s' /\ hide h s' = hide h s /\
    solve_hertz_point solve root (hide h s) (point_asked q t) = Ok (point_solution s') /\
    point_field q (point_solution s') = Fin t.
Proof.
  intros EX P T H. destruct (point_system_for s h q t P T H) as (s' & P' & F' & E & V).
  exists s'. split; [exact P'|]. split; [exact E|]. split.
  - rewrite <- E, <- V. now apply c61_round_trip.
  - rewrite <- V. now destruct q.
Qed.

(** Refuted: both ratios missing, as for line contacts. *)
Theorem c61_ratios_refuted (s : system) (q : point_request) : exact solve -> physical s -> s_v1 s = s_v2 s ->
  (1 - s_v1 s ^ 2) * (1 / s_e1 s + 1 / s_e2 s) ^ 2 < 1 ->
  exists l, solve_hertz_point solve root (hide_ratios s) (point_asked q (point_value q s)) = Ok l /\
    p_v1 l = NaN /\ p_v2 l = NaN /\ p_e_star l = NaN /\ point_field q l = NaN.
Proof.
  intros EX P V C. pose proof P as (R0 & E1 & E2 & V1 & V2 & L). pose proof (e_star_pos s P) as E.
  pose proof (point_unknown q s HModuli EX P) as U.
  assert (M : sort_materials solve (hide_ratios s) (e_star s) = Ok (NanRatios (hide_ratios s))).
  { unfold sort_materials, mats_none. cbn [hide_ratios g_r g_e1 g_e2 g_v1 g_v2 g_load filter missing List.length].
    rewrite !pdiv_ok by lra. cbn [bind]. unfold fsqrt.
    replace (1 / e_star s * (1 / s_e1 s + 1 / s_e2 s) - 1) with ((1 - s_v1 s ^ 2) * (1 / s_e1 s + 1 / s_e2 s) ^ 2 - 1).
    - rewrite (proj2 (Rltb_true _ 0)) by lra. reflexivity.
    - unfold Rdiv at 3. rewrite (inv_e_star s P), <- V. field. lra. }
  assert (N : exists l, fill_point_nan (hide_ratios s) = Ok l /\ p_v1 l = NaN /\ p_v2 l = NaN /\ p_e_star l = NaN /\ point_field q l = NaN).
  { eexists. split; [reflexivity|]. destruct q; repeat split. }
  destruct N as (l & F & N). exists l. split; [|exact N].
  cbn [unknown_of solve_unknown hide all_given g_load g_r val bind] in U.
  unfold solve_hertz_point. destruct q; cbn [point_asked q_pressure q_shear q_mises q_radius q_disp q_tensile];
    unfold find_unknown; cbn [mats_none hide_ratios g_e1 g_e2 g_v1 g_v2 filter missing List.length Nat.ltb Nat.leb bind];
    fold (hide_ratios s); cbn [solve_unknown hide_ratios g_load g_r val bind]; cbn [point_eq] in U; rewrite U;
    cbn [bind sort_out]; fold (hide_ratios s); rewrite M; exact F.
Qed.

(** A given tensile stress: the load or the radius is found (unless the first ratio is 1/2 and the stress zero for
    every load). *)
Theorem c61_tensile (s : system) (h : hidden) : exact solve -> physical s -> s_v1 s <> 1 / 2 -> h = HLoad \/ h = HRadius ->
  solve_hertz_point solve root (hide h s) (tensile_asked ((1 - 2 * s_v1 s) * point_p s / 3)) = Ok (point_solution s).
Proof.
  intros EX P V H. pose proof P as (R0 & _ & _ & _ & _ & L).
  assert (U : solve_tensile solve root (hide h s) (unknown_of h) (Some (e_star s)) ((1 - 2 * s_v1 s) * point_p s / 3)
    = Ok (Full (all_given s))).
  { destruct H as [->| ->]; unfold solve_tensile; cbn [unknown_of hide all_given g_v1 val bind solve_unknown g_load g_r].
    - rewrite (max_root_one solve EX _ (s_load s)); [reflexivity|]. intro y.
      rewrite point_tensile_pressure by assumption. now apply pressure_l.
    - rewrite (max_root_two solve EX _ (s_r s)); [reflexivity|lra|]. intro y.
      rewrite point_tensile_pressure by assumption. now apply pressure_r. }
  unfold solve_hertz_point. cbn [tensile_asked q_pressure q_shear q_mises q_radius q_disp q_tensile].
  rewrite find_ok by exact P. cbn [bind].
  destruct H as [->| ->]; cbn [unknown_of] in *; rewrite U; cbn [bind]; now apply fill_point_ok.
Qed.
(** Refuted: both moduli can be found from a tensile stress. It is always a [KeyError]. *)
Theorem c61_tensile_moduli_refuted (s : system) (t : R) :
  solve_hertz_point solve root (hide HModuli s) (tensile_asked t) = Err KeyError.
Proof. reflexivity. Qed.

(** One missing material parameter is found numerically. The result has the requested stress if the found root is
    not negative... *)
Lemma tensile_fill s x t : physical s ->
  tensile_of (s_load s) (s_r s) (s_e1 s) (s_e2 s) (s_v1 s) (s_v2 s) = Ok x ->
  p_tensile (point_solution s) = Fin t -> x = t.
Proof.
  intros P X [= T]. unfold tensile_of in X. rewrite reduced_ok in X by exact P. cbn [bind] in X.
  pose proof P as (R0 & _). rewrite pdiv_ok in X by (apply pow_nonzero; lra). cbn [bind] in X.
  rewrite (ocbrt_pos _ (point_p s)) in X; [injection X as <-; exact T|now apply point_p_pos|]. rewrite point_p_cube by exact P. field.
  pose proof PI_RGT_0. lra.
Qed.
(** The tensile stress of the solution of given parameters is the function whose root is taken. *)
Lemma fill_tensile l r e1 e2 v1 v2 x s :
  tensile_of l r e1 e2 v1 v2 = Ok x ->
  fill_point {| g_r := Some r; g_e1 := Some e1; g_e2 := Some e2; g_v1 := Some v1; g_v2 := Some v2; g_load := Some l |} = Ok s ->
  p_tensile s = Fin x.
Proof.
  unfold tensile_of, fill_point, reduced_of. cbn [g_r g_e1 g_e2 g_v1 g_v2 g_load val bind].
  destruct (reduced e1 e2 v1 v2) as [e|]; cbn [bind]; [|discriminate].
  destruct (pdiv (6 * l * e ^ 2 / PI ^ 3) (r ^ 2)) as [p3|]; cbn [bind]; [|discriminate].
  destruct (ocbrt p3) as [y|] eqn:C; [|discriminate]. intros [= <-].
  destruct (pdiv (3 * l * r / 4) e); cbn [bind]; [|discriminate]. intros [= <-]. cbn [p_tensile].
  unfold fcbrt. rewrite C. cbn [fmul]. unfold fdiv. rewrite (proj2 (Reqb_false 3 0)) by lra. reflexivity.
Qed.
Definition found (h : hidden) (l : point_sol) : flt :=
  match h with HModulus1 => Fin (p_e1 l) | HModulus2 => Fin (p_e2 l) | HRatio1 => p_v1 l | HRatio2 => p_v2 l
             | _ => NaN end.
Lemma fill_point_fields r e1 e2 v1 v2 l s :
  fill_point {| g_r := Some r; g_e1 := Some e1; g_e2 := Some e2; g_v1 := Some v1; g_v2 := Some v2; g_load := Some l |} = Ok s ->
  p_e1 s = e1 /\ p_e2 s = e2 /\ p_v1 s = Fin v1 /\ p_v2 s = Fin v2.
Proof.
  unfold fill_point, reduced_of. cbn [g_r g_e1 g_e2 g_v1 g_v2 g_load val bind].
  destruct (reduced e1 e2 v1 v2) as [e|]; cbn [bind]; [|discriminate].
  destruct (pdiv (3 * l * r / 4) e); cbn [bind]; [|discriminate].
  destruct (pdiv (6 * l * e ^ 2 / PI ^ 3) (r ^ 2)) as [p3|]; cbn [bind]; [|discriminate]. intros [= <-]. cbn. tauto.
Qed.
Theorem c61_tensile_material (s : system) (h : hidden) (t : R) (l : point_sol) :
  sound_root root -> physical s ->
  h = HModulus1 \/ h = HModulus2 \/ h = HRatio1 \/ h = HRatio2 ->
  solve_hertz_point solve root (hide h s) (tensile_asked t) = Ok l ->
  (exists x, found h l = Fin x /\ 0 <= x) -> p_tensile l = Fin t.
Proof.
  intros SR P H S (x & FX & PX). unfold solve_hertz_point in S.
  cbn [tensile_asked q_pressure q_shear q_mises q_radius q_disp q_tensile] in S.
  rewrite find_ok in S by exact P. cbn [bind] in S.
  assert (Z : forall r, minus t r = Ok 0 -> r = Ok t).
  { intros [y|] E; [|discriminate]. cbn in E. injection E as E. f_equal. lra. }
  destruct H as [->|[->|[->| ->]]]; cbn [unknown_of] in S; unfold solve_tensile, mats_none in S;
    cbn [hide all_given g_r g_e1 g_e2 g_v1 g_v2 g_load val bind filter missing List.length] in S;
    match type of S with bind (bind (root ?f ?x0) _) _ = _ => destruct (root f x0) as [[y|]|] eqn:RT end;
    cbn [bind] in S; try discriminate; apply SR in RT; cbn [set_e1 set_e2 set_v1 set_v2 g_r g_e1 g_e2 g_v1 g_v2 g_load] in S;
    pose proof (fill_point_fields _ _ _ _ _ _ _ S) as (A1 & A2 & A3 & A4); cbn [found] in FX.
  - rewrite A1 in FX. injection FX as ->. rewrite (Rabs_pos_eq x PX) in RT. apply Z in RT. now apply (fill_tensile _ _ _ _ _ _ _ _ RT).
  - rewrite A2 in FX. injection FX as ->. rewrite (Rabs_pos_eq x PX) in RT. apply Z in RT. now apply (fill_tensile _ _ _ _ _ _ _ _ RT).
  - rewrite A3 in FX. injection FX as ->. rewrite (Rabs_pos_eq x PX) in RT. apply Z in RT. now apply (fill_tensile _ _ _ _ _ _ _ _ RT).
  - rewrite A4 in FX. injection FX as ->. rewrite (Rabs_pos_eq x PX) in RT. apply Z in RT. now apply (fill_tensile _ _ _ _ _ _ _ _ RT).
Qed.

(** Inconsistent inputs and errors, as for line contacts. *)
Theorem c61_overdetermined_refuted (s : system) (q : point_request) (t : R) : physical s ->
  solve_hertz_point solve root (all_given s) (point_asked q t) = solve_hertz_point solve root (hide HLoad s) (point_asked q t).
Proof.
  intros P. unfold solve_hertz_point, find_unknown, mats_none. pose proof (reduced_ok s P) as RD.
  destruct q; cbn; unfold reduced_of; cbn; rewrite RD; reflexivity.
Qed.
Theorem c61_errors (s : system) (h : hidden) (x : R) (a d t : option R) : physical s ->
  solve_hertz_point solve root (hide h s) no_point = Err TypeError /\
  solve_hertz_point solve root (hide h s) {| q_pressure := None; q_shear := None; q_mises := Some x; q_radius := a;
    q_disp := d; q_tensile := t |} = Err NotImplementedError.
Proof.
  intros P. split.
  - destruct h; cbn; try reflexivity; unfold fill_point, reduced_of; cbn [hide all_given g_r g_e1 g_e2 g_v1 g_v2 g_load val bind];
      now rewrite reduced_ok by exact P.
  - unfold solve_hertz_point. cbn [q_pressure q_shear q_mises q_radius q_disp q_tensile]. rewrite find_ok by exact P. reflexivity.
Qed.
End WithSolvers.

(** The hypotheses of [c61_tensile_material] are met: for each system there is a sound root finder with which a
    missing first ratio is found. *)
Example c61_tensile_material_case (solve : (R -> option R) -> list R) (s : system) : physical s ->
  exists root, sound_root root /\
  solve_hertz_point solve root (hide HRatio1 s) (tensile_asked ((1 - 2 * s_v1 s) * point_p s / 3)) = Ok (point_solution s) /\
  found HRatio1 (point_solution s) = Fin (s_v1 s) /\ 0 <= s_v1 s.
Proof.
  intros P. pose proof P as (R0 & E1 & E2 & V1 & V2 & L). pose proof PI_RGT_0 as Q.
  exists (fun f x0 => match f (s_v1 s) with Ok y => if Reqb y 0 then Ok (Some (s_v1 s)) else Ok None | Err e => Ok None end).
  split.
  { intros f x0 x. destruct (f (s_v1 s)) as [y|] eqn:F; [|discriminate]. destruct (Reqb y 0) eqn:Z; [|discriminate].
    intros [= <-]. apply Reqb_true in Z. now subst. }
  split; [|split; [reflexivity|apply V1]].
  assert (T : tensile_of (s_load s) (s_r s) (s_e1 s) (s_e2 s) (s_v1 s) (s_v2 s) = Ok ((1 - 2 * s_v1 s) * point_p s / 3)).
  { unfold tensile_of. rewrite reduced_ok by exact P. cbn [bind]. rewrite pdiv_ok by (apply pow_nonzero; lra). cbn [bind].
    rewrite (ocbrt_pos _ (point_p s)); [reflexivity|now apply point_p_pos|]. rewrite point_p_cube by exact P. reflexivity. }
  unfold solve_hertz_point. cbn [tensile_asked q_pressure q_shear q_mises q_radius q_disp q_tensile].
  rewrite find_ok by exact P. cbn [bind unknown_of]. unfold solve_tensile, mats_none.
  cbn [hide all_given g_r g_e1 g_e2 g_v1 g_v2 g_load val bind filter missing List.length].
  rewrite (Rabs_pos_eq (s_v1 s)) by lra. rewrite T. cbn [minus bind].
  rewrite (proj2 (Reqb_true _ 0)) by ring. cbn [bind]. apply (fill_point_ok s P).
Qed.

(** ... refuted otherwise: the sign of a root is dropped where the stress is evaluated but not in the result. There
    is a sound root finder with which the first ratio comes out negative and the stress is not the requested one. *)
Theorem c61_tensile_sign_refuted (solve : (R -> option R) -> list R) (s : system) : physical s -> 0 < s_v1 s ->
  exists root, sound_root root /\
  exists l, solve_hertz_point solve root (hide HRatio1 s) (tensile_asked ((1 - 2 * s_v1 s) * point_p s / 3)) = Ok l /\
    p_v1 l = Fin (- s_v1 s) /\ p_tensile l <> Fin ((1 - 2 * s_v1 s) * point_p s / 3).
Proof.
  intros P V. pose proof P as (R0 & E1 & E2 & V1 & V2 & L). pose proof PI_RGT_0 as Q.
  exists (fun f x0 => match f (- s_v1 s) with Ok y => if Reqb y 0 then Ok (Some (- s_v1 s)) else Ok None | Err e => Ok None end).
  split.
  { intros f x0 x. destruct (f (- s_v1 s)) as [y|] eqn:F; [|discriminate]. destruct (Reqb y 0) eqn:Z; [|discriminate].
    intros [= <-]. apply Reqb_true in Z. now subst. }
  assert (T : tensile_of (s_load s) (s_r s) (s_e1 s) (s_e2 s) (s_v1 s) (s_v2 s) = Ok ((1 - 2 * s_v1 s) * point_p s / 3)).
  { unfold tensile_of. rewrite reduced_ok by exact P. cbn [bind]. rewrite pdiv_ok by (apply pow_nonzero; lra). cbn [bind].
    rewrite (ocbrt_pos _ (point_p s)); [reflexivity|now apply point_p_pos|]. rewrite point_p_cube by exact P. reflexivity. }
  unfold solve_hertz_point. cbn [tensile_asked q_pressure q_shear q_mises q_radius q_disp q_tensile].
  rewrite find_ok by exact P. cbn [bind unknown_of]. unfold solve_tensile, mats_none.
  cbn [hide all_given g_r g_e1 g_e2 g_v1 g_v2 g_load val bind filter missing List.length].
  rewrite Rabs_Ropp, (Rabs_pos_eq (s_v1 s)) by lra. rewrite T. cbn [minus bind].
  rewrite (proj2 (Reqb_true _ 0)) by ring. cbn [bind hide all_given set_v1 g_r g_e1 g_e2 g_v1 g_v2 g_load].
  unfold fill_point, reduced_of. cbn [g_r g_e1 g_e2 g_v1 g_v2 g_load val bind].
  assert (RD : reduced (s_e1 s) (s_e2 s) (- s_v1 s) (s_v2 s) = Ok (e_star s)).
  { rewrite <- (reduced_ok s P). unfold reduced. now replace ((- s_v1 s) ^ 2) with (s_v1 s ^ 2) by ring. }
  unfold set_v1. cbn [hide all_given g_r g_e1 g_e2 g_v1 g_v2 g_load val bind].
  rewrite RD. cbn [bind]. pose proof (e_star_pos s P) as E.
  rewrite !pdiv_ok by (try apply pow_nonzero; lra). cbn [bind]. eexists. split; [reflexivity|]. cbn [p_v1 p_tensile].
  split; [reflexivity|]. unfold fcbrt.
  rewrite (ocbrt_pos (6 * s_load s * e_star s ^ 2 / PI ^ 3 / s_r s ^ 2) (point_p s)); [|now apply point_p_pos|now rewrite point_p_cube].
  cbn [fmul]. unfold fdiv. rewrite (proj2 (Reqb_false 3 0)) by lra. intros [= H].
  pose proof (point_p_pos s P). nra.
Qed.
Print Assumptions c60_forward.
Print Assumptions c60_round_trip.
Print Assumptions c60_requested.
Print Assumptions c60_modulus_refuted.
Print Assumptions c60_ratios_refuted.
Print Assumptions c60_overdetermined_refuted.
Print Assumptions c60_first_refuted.
Print Assumptions c60_errors.
Print Assumptions c61_forward.
Print Assumptions c61_round_trip.
Print Assumptions c61_requested.
Print Assumptions c61_ratios_refuted.
Print Assumptions c61_tensile.
Print Assumptions c61_tensile_moduli_refuted.
Print Assumptions c61_tensile_material.
Print Assumptions c61_overdetermined_refuted.
Print Assumptions c61_errors.
Print Assumptions c61_tensile_sign_refuted.
