(** C46 to C49, C71 and C83 to C85: movements, the static and the quasi static step. *)
From Coq Require Import String List Bool Arith Lia Reals Lra Sorted Permutation.
From Verif Require Import HeightModel StepModel HeightSpec StepSpec PyProofs HeightProofs HeightTheorems StepProofs.
Import ListNotations.
Local Open Scope string_scope.
Local Open Scope R_scope.

(** *** C71: movements *)

(** Two values are a straight line over the step; a time outside of it is refused. *)
Theorem c71_two_values : forall a b, exists f, make_interpolation_func (Flat [a; b]) = Ok f /\
  f 0 = Ok a /\ f 1 = Ok b /\
  (forall t, 0 <= t <= 1 -> f t = Ok (line 0 a 1 b t)) /\ (forall t, t < 0 \/ 1 < t -> f t = Err ValueError).
Proof.
  intros a b. destruct (interp_two a b 0) as (f & E & _). exists f. split; [exact E|].
  assert (F : forall t, f t = if Rltb t 0 || Rltb 1 t then Err ValueError else Ok (line 0 a 1 b t)).
  { intros t. destruct (interp_two a b t) as (f' & E' & F). rewrite E in E'. injection E' as <-. exact F. }
  assert (G : forall t, 0 <= t <= 1 -> f t = Ok (line 0 a 1 b t)).
  { intros t Ht. rewrite F. assert (Rltb t 0 = false) as -> by (apply Rltb_false; lra).
    assert (Rltb 1 t = false) as -> by (apply Rltb_false; lra). reflexivity. }
  split; [rewrite G by lra; now rewrite line_start|]. split; [rewrite G by lra; rewrite line_end by lra; reflexivity|].
  split; [exact G|]. intros t Ht. rewrite F. destruct (Rltb t 0) eqn:E1; [reflexivity|]. apply Rltb_false in E1.
  assert (Rltb 1 t = true) as -> by (apply Rltb_true; lra). reflexivity.
Qed.
Print Assumptions c71_two_values.

(** A constant that goes with another movement stays constant over the step. *)
Theorem c71_constant : forall x, exists f, make_interpolation_func (as_seq (Const x)) = Ok f /\
  forall t, 0 <= t <= 1 -> f t = Ok x.
Proof.
  intros x. destruct (c71_two_values x x) as (f & E & _ & _ & F & _). exists f. split; [exact E|]. intros t Ht.
  rewrite F by exact Ht. f_equal. unfold line. ring.
Qed.
Print Assumptions c71_constant.

(** A table of positions and different times, in any order: it passes through all points, is straight
    between neighbours, and exactly the times outside of the table are refused. *)
Theorem c71_table : forall position time, length position = length time -> (2 <= length time)%nat -> NoDup time ->
  exists f, make_interpolation_func (Rows [position; time]) = Ok f /\
  (forall i, (i < length time)%nat -> f (nth i time 0) = Ok (nth i position 0)) /\
  (forall i j t, (i < length time)%nat -> (j < length time)%nat -> nth i time 0 < nth j time 0 ->
     (forall m, (m < length time)%nat -> ~ (nth i time 0 < nth m time 0 < nth j time 0)) ->
     nth i time 0 <= t <= nth j time 0 ->
     f t = Ok (line (nth i time 0) (nth i position 0) (nth j time 0) (nth j position 0) t)) /\
  (forall t, f t = Err ValueError <-> (forall x, In x time -> t < x) \/ (forall x, In x time -> x < t)).
Proof.
  intros position time HL H2 ND.
  assert (M : make_interpolation_func (Rows [position; time]) = interp1d time position).
  { destruct position as [|a [|b [|c p]]]; try (cbn in HL; lia); reflexivity. }
  rewrite M. destruct (interp1d_points time position (eq_sym HL)) as (f & l & E & S & P & F); [destruct time; [cbn in H2; lia|easy]|exact ND|].
  assert (IN : forall i, (i < length time)%nat -> In (nth i time 0, nth i position 0) l).
  { intros i Hi. apply (Permutation_in _ P). rewrite <- (combine_nth time position i 0 0 (eq_sym HL)). apply nth_In. rewrite combine_length. lia. }
  assert (LT : forall c, In c l -> exists m, (m < length time)%nat /\ c = (nth m time 0, nth m position 0)).
  { intros c Hc. apply (Permutation_in _ (Permutation_sym P)) in Hc. apply (In_nth _ _ (0, 0)) in Hc as (m & Hm & <-).
    exists m. rewrite combine_length in Hm. split; [lia|]. now rewrite combine_nth. }
  assert (IT : forall x, In x time -> exists c, In c l /\ fst c = x).
  { intros x Hx. apply (In_nth _ _ 0) in Hx as (m & Hm & <-). eauto. }
  assert (B : forall t c d, In c l -> In d l -> fst c <= t <= fst d -> f t = Ok (segment l t)).
  { intros t c d Hc Hd Ht. rewrite F. pose proof (sorted_hd l S c Hc). pose proof (sorted_last l S d Hd).
    assert (Rltb t (fst (hd (0, 0) l)) = false) as -> by (apply Rltb_false; lra).
    assert (Rltb (fst (last l (0, 0))) t = false) as -> by (apply Rltb_false; lra). reflexivity. }
  exists f. split; [exact E|]. split; [|split].
  - intros i Hi. rewrite (B _ _ _ (IN i Hi) (IN i Hi)) by (cbn; lra). f_equal. apply (segment_at l S _ (IN i Hi)).
  - intros i j t Hi Hj L N T. rewrite (B _ _ _ (IN i Hi) (IN j Hj)) by exact T. f_equal.
    apply (segment_between l S _ _ t (IN i Hi) (IN j Hj)); [exact L| |exact T].
    intros c Hc. destruct (LT c Hc) as (m & Hm & ->). cbn. now apply N.
  - assert (NE : l <> []) by (intros ->; apply (IN 0%nat); lia).
    assert (H1 : In (hd (0, 0) l) l) by (destruct l; [easy|now left]). assert (H3 : In (last l (0, 0)) l) by now apply last_in.
    assert (FT : forall c, In c l -> In (fst c) time).
    { intros c Hc. destruct (LT c Hc) as (m & Hm & ->). cbn. now apply nth_In. }
    intros t. rewrite F. split.
    + destruct (Rltb t (fst (hd (0, 0) l))) eqn:E1.
      * intros _. left. intros x Hx. destruct (IT x Hx) as (c & Hc & <-). pose proof (sorted_hd l S c Hc). apply Rltb_true in E1. lra.
      * cbn. destruct (Rltb (fst (last l (0, 0))) t) eqn:E2; [|discriminate]. intros _. right. intros x Hx.
        destruct (IT x Hx) as (c & Hc & <-). pose proof (sorted_last l S c Hc). apply Rltb_true in E2. lra.
    + intros [H|H].
      * assert (Rltb t (fst (hd (0, 0) l)) = true) as -> by (apply Rltb_true; auto). reflexivity.
      * assert (Rltb (fst (last l (0, 0))) t = true) as -> by (apply Rltb_true; auto). now rewrite orb_true_r.
Qed.
Print Assumptions c71_table.
Example c71_table_case : exists f, make_interpolation_func (Rows [[5; 1; 3]; [1; 0; 1 / 2]]) = Ok f /\ f (3 / 4) = Ok 4 /\ f 0 = Ok 1.
Proof.
  destruct (c71_table [5; 1; 3] [1; 0; 1 / 2] eq_refl) as (f & E & F1 & F2 & _); [cbn; lia| |].
  - repeat constructor; cbn; intuition lra.
  - exists f. split; [exact E|]. split; [|apply (F1 1%nat); cbn; lia]. rewrite (F2 2%nat 0%nat); cbn [nth]; try (cbn; lia); try lra.
    + f_equal. unfold line. field.
    + intros [|[|[|m]]] Hm; cbn in *; try lra; lia.
Qed.

(** Exactly two values or two rows of the same length (two or more) are accepted. *)
Theorem c71_shapes : forall v, (exists f, make_interpolation_func v = Ok f) <->
  (exists a b, v = Flat [a; b] \/ v = Rows [[a; b]]) \/
  (exists position time, v = Rows [position; time] /\ length position = length time /\ (2 <= length time)%nat).
Proof.
  intros v. split.
  - intros (f & E). destruct v as [l|r|]; [| |discriminate].
    + left. destruct l as [|a [|b [|c l]]]; try discriminate. eauto.
    + destruct r as [|p r]; [discriminate|]. destruct r as [|t r].
      * left. destruct p as [|a [|b [|c p]]]; try discriminate. eauto.
      * right. destruct r as [|x r]; [|destruct p as [|a [|b [|c p]]], t as [|a' [|b' t]]; discriminate].
        exists p, t. split; [reflexivity|].
        assert (length p = length t /\ length t <> 0%nat /\ (length t = 1%nat -> length p = 1%nat -> False)) as (A & B & C); [|split; [exact A|lia]].
        destruct p as [|a [|b [|c p]]], t as [|a' [|b' t]]; try discriminate; apply interp1d_ok in E; cbn in E |- *; lia.
  - intros [(a & b & [->| ->])|(p & t & -> & L & L2)]; [cbn; eauto|cbn; eauto|].
    assert (make_interpolation_func (Rows [p; t]) = interp1d t p) as ->.
    { destruct p as [|a [|b [|c p]]]; try (cbn in L; lia); reflexivity. }
    unfold interp1d. rewrite L, Nat.eqb_refl. destruct t; [cbn in L2; lia|]. cbn. eauto.
Qed.
Print Assumptions c71_shapes.

(** *** C46: the static step *)

(** Exactly one of load and interference, or neither with relative loading. *)
Theorem c46_construct : forall off T load interf rel adh unl,
  match new_static off T load interf rel adh unl with
  | Ok st => off_set st = off /\ max_time st = T /\ relative st = rel /\ adhesion st = adh /\ unloading st = unl /\
      ((exists l, load = Some l /\ interf = None /\ normal_load st = Some l /\ load_controlled st = true) \/
       (exists h, load = None /\ (interf = Some h \/ (interf = None /\ rel = true /\ h = 0)) /\ interference st = Some h /\ load_controlled st = false))
  | Err e => e = ValueError /\ ((load <> None /\ interf <> None) \/ (load = None /\ interf = None /\ rel = false))
  end.
Proof.
  intros off T load interf rel adh unl. unfold new_static. destruct load as [l|], interf as [h|]; cbn.
  - split; [reflexivity|]. left. split; discriminate.
  - repeat split. left. eauto.
  - repeat split. right. exists h. repeat split. now left.
  - destruct rel; cbn; [|split; [reflexivity|]; right; auto]. repeat split. right. exists 0. repeat split. right. auto.
Qed.
Print Assumptions c46_construct.

(** A solved step is at the requested offset, the time has advanced by exactly the time of the step. *)
Theorem c46_time : forall w st prev s, static_contact w st prev = Ok s ->
  exists t, holds_num prev "time" t /\ holds_num s "time" (t + max_time st) /\ holds_num s "time_step" (max_time st) /\
    holds_flag s "new_step" true /\ holds_pair s "off_set" (fst (off_set st)) (snd (off_set st)) /\
    exists g p1 p2, gap_at w (off_set st) = Ok (g, p1, p2) /\ holds_grid s "just_touching_gap" g.
Proof.
  intros w st prev s H. apply static_unpack in H as (g & p1 & p2 & t & f & conv & s2 & G & T & _ & -> & _).
  exists t. split.
  - unfold get_num in T. unfold holds_num. destruct (dget "time" prev) as [[]|]; try discriminate. now injection T as ->.
  - repeat split. exists g, p1, p2. split; [exact G|reflexivity].
Qed.
Print Assumptions c46_time.

(** The reported pressures, loads, displacements, contact nodes and gap belong together. *)
Theorem c46_consistent : forall w st prev s, static_contact w st prev = Ok s -> (forall b g, one_each (config w b g)) ->
  (load_controlled st = true -> starts_touching w /\ stays_above w) ->
  exists g p1 p2, gap_at w (off_set st) = Ok (g, p1, p2) /\ consistent (config w (adhesion st) g) g s.
Proof.
  intros w st prev s H O W. apply static_unpack in H as (g & p1 & p2 & t & f & conv & s2 & G & T & _ & -> & R & C).
  exists g, p1, p2. split; [exact G|]. apply consistent_entries with (f := f) (h := r_interference f).
  - destruct (read_stored (config w (adhesion st) g) s2 f) as (d & z & Q); [|exact R|exists d, z; split; [apply O|exact Q]].
    destruct (load_controlled st).
    + destruct C as (load & r & _ & _ & -> & _). apply visit_stored. exact I.
    + destruct C as (h & _ & -> & _). apply evaluate_stored. exact I.
  - apply read_same with (s := s2); [|exact R]. destruct (load_controlled st) eqn:El.
    + destruct (W eq_refl) as [W1 W2]. destruct C as (load & r & _ & Er & -> & _). apply visit_same; [exact (W1 _ _ _ _ _ G)| |apply new_heights|exact I].
      exact (W2 _ _ _ _ _ Er).
    + destruct C as (h & _ & -> & _). apply evaluate_same; [exact I|]. right. right. right. reflexivity.
  - intros key v Hin. cbn in Hin. repeat destruct Hin as [Hin|Hin]; try (injection Hin as <- <-; reflexivity). destruct Hin.
Qed.
Print Assumptions c46_consistent.

(** Interference control: the step is solved exactly if some point is closer than the requested
    interference, which is neither zero nor the one of the full load; then it reports this
    interference and the free contact solution at it. *)
Theorem c46_interference : forall w off T x rel adh unl prev st g p1 p2 t h,
  new_static off T None (Some x) rel adh unl = Ok st ->
  gap_at w off = Ok (g, p1, p2) -> holds_num prev "time" t ->
  (if rel then exists p, holds_num prev "interference" p /\ h = p + x else h = x) ->
  (unl = true -> get_nodes "contact_nodes" prev = None) ->
  h <> 0 -> (forall l hm ld, limit_of w g = Some (l, hm, ld) -> h <> hm) ->
  let k := config w adh g in
  gap k = g -> (exists y, In y g /\ y < h) ->
  exists s, static_contact w st prev = Ok s /\ holds_num s "interference" h /\ holds_num s "total_normal_load" (free_load k h) /\
    holds_grid s "loads" (scatter (touching k h) (fst (free_solution k h))) /\
    holds_flag s "converged" (negb (snd (free_solution k h))).
Proof.
  intros w off T x rel adh unl prev st g p1 p2 t h N G Ht Hh Hu H0 Hm k Hg (y & Hy & Hlt).
  cbn in N. injection N as <-. unfold static_contact. cbn [off_set unloading adhesion max_time relative load_controlled interference normal_load].
  rewrite G. cbn [bind]. unfold get_num at 1. rewrite Ht. cbn [bind].
  assert ((if unl then get_nodes "contact_nodes" prev else None) = None) as -> by (destruct unl; auto).
  unfold make_opt. cbn [bind].
  assert ((if rel then bind (get_num "interference" prev) (fun p => Ok (p + x)) else Ok x) = Ok h) as ->.
  { destruct rel; [|now rewrite Hh]. destruct Hh as (p & Hp & ->). unfold get_num. rewrite Hp. reflexivity. }
  cbn [bind]. replace (if unl then _ else None) with (@None (list bool)) by (destruct unl; reflexivity).
  fold k. set (s1 := change_load (new_opt k 1 None (limit_of w g)) 1 None).
  assert (NI : ~ In h (heights s1)).
  { unfold s1. cbn. unfold new_opt. destruct (limit_of w g) as [[[l hm] ld]|] eqn:E; [destruct (use_cache k)|]; cbn; intros C.
    - destruct C as [C|[C|[]]]; [congruence|]. apply (Hm l hm ld); auto.
    - destruct C as [C|[]]; congruence.
    - destruct C as [C|[]]; congruence. }
  pose proof (evaluate_results k s1 h eq_refl NI eq_refl) as E.
  assert (existsb (fun b => b) (touching k h) = true) as Ex.
  { apply existsb_exists. exists true. split; [|reflexivity]. unfold touching. rewrite Hg. apply in_map_iff. exists y. split; [|exact Hy]. now apply Rltb_true. }
  rewrite Ex in E. destruct E as [E1 E2]. rewrite E1, E2. cbn [bind]. eexists. split; [reflexivity|]. cbn. repeat split.
Qed.
Print Assumptions c46_interference.
Definition plain (g : list R) : world :=
  World (fun _ => Ok (g, [], [])) (fun _ g => HConfig g 1 true true false (fun _ z => (z, false)) (fun l => l) (fun l => l) (fun l => l))
        (fun _ => None) (fun _ _ b => ([snd b], Ok (snd b))) (fun _ _ _ => Err ValueError) Ok.
(** With a root finder that ends where nothing touches the loads are found and then lost: the step
    fails, for every gap of two or more points that does not reach zero. *)
Definition wandering (g : list R) (up down : R) : world :=
  World (gap_at (plain g)) (config (plain g)) (limit_of (plain g)) (fun _ _ _ => ([up; down], Ok up)) (cubic (plain g)) (sub_models (plain g)).
Theorem c46_loads_lost_refuted : forall g up down off T load adh,
  (2 <= length g)%nat -> 0 < down -> (forall y, In y g -> down <= y < up) ->
  static_contact (wandering g up down) (Static off T false adh false (Some load) None true) initial_state = Err ValueError.
Proof.
  intros g up down off T load adh L D B. unfold static_contact. cbn -[read_results visit max_of].
  set (k := HConfig g 1 true true false (fun _ z => (z, false)) (fun l => l) (fun l => l) (fun l => l)).
  set (s1 := change_load (new_opt k load None None) load None). change (visit k s1 [up; down]) with (fst (evaluate k (fst (evaluate k s1 up)) down)).
  assert (G : exists y, In y g) by (destruct g as [|y g']; [cbn in L; lia|exists y; now left]). destruct G as (y0 & Y0).
  assert (Up : 0 < up) by (specialize (B y0 Y0); lra).
  assert (Tu : forall l, (forall y, In y l -> down <= y < up) -> map (fun x => Rltb x up) l = repeat true (length l)).
  { induction l as [|a l IH]; intros H; [reflexivity|]. cbn. rewrite IH by (intros; apply H; now right). f_equal. apply Rltb_true. apply H. now left. }
  assert (Td : forall l, (forall y, In y l -> down <= y < up) -> existsb (fun b => b) (map (fun x => Rltb x down) l) = false).
  { induction l as [|a l IH]; intros H; [reflexivity|]. cbn. rewrite IH by (intros; apply H; now right). rewrite orb_false_r. apply Rltb_false.
    specialize (H a (or_introl eq_refl)). lra. }
  destruct (c21_then_no_contact_refuted k load None None [ChangeLoad load None] up down) as [E _].
  - cbn. intros [C|[]]; lra.
  - reflexivity.
  - unfold touching. cbn [gap k]. rewrite (Tu g B). destruct (length g); [lia|reflexivity].
  - change (hrun k (new_opt k load None None) [ChangeLoad load None]) with s1.
    assert (I1 : hinv s1) by (apply (hinv_run k (new_opt k load None None) [ChangeLoad load None] eq_refl), hinv_new; discriminate).
    destruct (evaluate_cached k s1 up I1) as (I & _ & E & _). intros C. apply (In_nth _ _ 0) in C as (i & Hi & Ei).
    pose proof (nth_cached _ i (proj2 I) Hi) as Q. rewrite Ei in Q. specialize (B y0 Y0).
    destruct (E _ Q) as [[X|[]]|(X & _)]; injection X as X _; lra.
  - exact (Td g B).
  - change (hrun k (new_opt k load None None) [ChangeLoad load None]) with s1 in E.
    match goal with |- bind (snd (read_results ?kk ?ss)) _ = _ =>
      change (snd (read_results kk ss)) with (snd (read_results k (fst (evaluate k (fst (evaluate k s1 up)) down)))) end.
    rewrite E; [reflexivity|]. unfold touching. cbn [gap k]. rewrite (Tu g B). clear - L.
    assert (F : forall n, length (filter (fun b : bool => b) (repeat true n)) = n) by (induction n; cbn; auto). rewrite F. lia.
Qed.
Print Assumptions c46_loads_lost_refuted.
(** Where some point has no gap and no negative interference is tried this does not happen. *)
Definition even_pressure (g : list R) : hconfig :=
  HConfig g 1 true true false (fun d z => (map (fun _ => fold_right Rplus 0 z) (filter (fun b => b) d), false)) (fun l => l) (fun l => l) (fun l => l).
Example c46_consistent_case : let w := World (gap_at (plain [0; 1])) (fun _ => even_pressure) (fun _ => None) (fun _ _ _ => ([3; 2], Ok 2))
    (cubic (plain [])) Ok in
  starts_touching w /\ stays_above w /\ (forall b g, one_each (config w b g)).
Proof.
  cbn zeta. split; [|split].
  - intros off g p1 p2 b H. cbn in H. injection H as <- _ _. cbn. auto.
  - intros k s b hs r H x Hx. cbn in H. injection H as <- _. destruct Hx as [<-|[<-|[]]]; lra.
  - intros b g d z. cbn. apply map_length.
Qed.
Example c46_interference_case : exists st s, new_static (0, 0) 1 None (Some 2) true true false = Ok st /\
  static_contact (plain [0; 1]) st initial_state = Ok s /\ holds_num s "interference" (0 + 2) /\ holds_flag s "converged" true.
Proof.
  eexists. destruct (c46_interference (plain [0; 1]) (0, 0) 1 2 true true false initial_state _ [0; 1] [] [] 0 (0 + 2) eq_refl eq_refl eq_refl)
    as (s & E & A & _ & _ & C); try lra; try discriminate.
  - exists 0. split; reflexivity.
  - reflexivity.
  - exists 0. split; [now left|lra].
  - exists s. split; [reflexivity|]. auto.
Qed.

(** Without contact at the requested interference the step cannot be solved, also not when nothing
    was asked for but to keep an interference of zero. *)
Theorem c46_no_contact_refuted : forall w off T x rel adh unl prev st g p1 p2 h,
  new_static off T None x rel adh unl = Ok st -> gap_at w off = Ok (g, p1, p2) -> gap (config w adh g) = g ->
  (if rel then exists p, holds_num prev "interference" p /\ h = p + (match x with Some y => y | None => 0 end) else x = Some h) ->
  (h = 0 \/ forall y, In y g -> h <= y) -> forall s, static_contact w st prev <> Ok s.
Proof.
  intros w off T x rel adh unl prev st g p1 p2 h N G Hg Hh Hc s H. pose proof (c46_construct off T None x rel adh unl) as CC. rewrite N in CC.
  destruct CC as (Ho & Hm & Hr & Ha & Hu & [(l & C & _)|(h0 & _ & Hx & Hi & Hl)]); [discriminate|].
  apply static_unpack in H as (g' & p1' & p2' & t & f & conv & s2 & G' & _ & _ & _ & R & C).
  rewrite Ho, G in G'. injection G' as <- <- <-. rewrite Hl in C. destruct C as (h' & A & E & _). rewrite Ha in *.
  set (k := config w adh g) in *.
  assert (h' = h) as ->.
  { unfold aim, set_interf in A. rewrite Hr, Hi in A. destruct rel.
    - destruct Hh as (p & Hp & ->). unfold get_num in A. rewrite Hp in A. cbn in A. injection A as <-.
      destruct Hx as [->|(-> & _ & ->)]; reflexivity.
    - injection A as <-. destruct Hx as [->|(_ & C & _)]; congruence. }
  set (s1 := change_load (new_opt k (first_load st) None (limit_of w g)) 1 None) in *.
  destruct (in_dec Req_EM_T h (heights s1)) as [I|I].
  - rewrite E, (evaluate_known k s1 h I eq_refl) in R. discriminate.
  - destruct Hc as [->|Hc]; [apply I; apply new_heights|]. pose proof (evaluate_results k s1 h eq_refl I eq_refl) as Q.
    assert (existsb (fun b => b) (touching k h) = false) as Ex.
    { apply not_true_is_false. intros C. apply existsb_exists in C as (b & Hb & ->). unfold touching in Hb. rewrite Hg in Hb.
      apply in_map_iff in Hb as (y & Ey & Hy). apply Rltb_true in Ey. specialize (Hc y Hy). lra. }
    rewrite Ex in Q. rewrite E, Q in R. discriminate.
Qed.
Print Assumptions c46_no_contact_refuted.

(** Load control: converged means within five percent of the load given to the step. *)
Theorem c46_load : forall w off T l rel adh unl prev st s, new_static off T (Some l) None rel adh unl = Ok st ->
  static_contact w st prev = Ok s -> holds_flag s "converged" true ->
  exists total, holds_num s "total_normal_load" total /\ within_5_percent total l.
Proof.
  intros w off T l rel adh unl prev st s N H C. cbn in N. injection N as <-.
  apply static_unpack in H as (g & p1 & p2 & t & f & conv & s2 & G & _ & _ & -> & R & Q). cbn [load_controlled] in Q.
  destruct Q as (load & r & _ & _ & _ & ->). exists (r_total_load f). split; [reflexivity|]. unfold holds_flag in C. cbn in C. injection C as C.
  apply andb_true_iff in C as [C _]. now apply close_load_true in C.
Qed.
Print Assumptions c46_load.

(** The load to find is the previous load plus the load of the step when loading is relative, but
    then a state that carries exactly this load is reported as not converged, unless the previous load
    was below five percent of the load of the step. *)
Theorem c46_relative_converged_refuted : forall w off T l adh unl prev st s p, 0 < l -> l / 20 <= Rabs p ->
  new_static off T (Some l) None true adh unl = Ok st -> holds_num prev "total_normal_load" p ->
  static_contact w st prev = Ok s -> holds_num s "total_normal_load" (p + l) -> holds_flag s "converged" false.
Proof.
  intros w off T l adh unl prev st s p Hl Hp N P H E. cbn in N. injection N as <-.
  apply static_unpack in H as (g & p1 & p2 & t & f & conv & s2 & G & _ & _ & -> & R & Q). cbn [load_controlled] in Q.
  destruct Q as (load & r & _ & _ & _ & ->). unfold holds_num in E. cbn in E. injection E as E. unfold holds_flag. cbn.
  match goal with |- context [close_load ?a ?b] => assert (close_load a b = false) as ->; [|reflexivity]; change b with l end.
  apply not_true_is_false. intros C. apply close_load_true in C as [_ C]. rewrite E in C. replace (p + l - l) with p in C by ring.
  apply (Rmult_lt_compat_r l) in C; [|exact Hl]. unfold Rdiv in C. rewrite Rmult_assoc, Rinv_l in C by lra. lra.
Qed.
Print Assumptions c46_relative_converged_refuted.
Example c46_relative_case : exists st s, new_static (0, 0) 1 (Some 5) None true true false = Ok st /\
  static_contact (plain [0; 1]) st [("time", SNum 0); ("total_normal_load", SNum 0)] = Ok s /\ holds_num s "total_normal_load" 5 /\ holds_flag s "converged" true.
Proof.
  exists (Static (0, 0) 1 true true false (Some 5) None true). unfold static_contact. cbn -[read_results visit].
  set (k := HConfig [0; 1] 1 true true false (fun _ z => (z, false)) (fun l => l) (fun l => l) (fun l => l)).
  assert (M : 3 * Rmax 0 1 = 3) by (rewrite Rmax_right; lra). rewrite M. cbn [visit fold_left].
  match goal with |- context [evaluate k ?s 3] => set (s1 := s) end.
  assert (NI : ~ In 3 (heights s1)) by (intros [C|[]]; lra).
  pose proof (evaluate_results k s1 3 eq_refl NI eq_refl) as E.
  assert (Tt : touching k 3 = [true; true]).
  { unfold touching. cbn. assert (Rltb 0 3 = true) as -> by (apply Rltb_true; lra). assert (Rltb 1 3 = true) as -> by (apply Rltb_true; lra). reflexivity. }
  rewrite Tt in E. cbn [existsb orb] in E. destruct E as [E1 E2]. rewrite E1, E2. cbn [bind]. unfold free_load. rewrite Tt. unfold free_solution. rewrite Tt. cbn.
  eexists. split; [reflexivity|]. split; [reflexivity|]. unfold holds_num, holds_flag. cbn. split; [f_equal; f_equal; lra|].
  replace (close_load _ 5) with true; [reflexivity|]. symmetry. apply close_load_true. split; [lra|].
  match goal with |- Rabs ?x / 5 < _ => replace x with 0 by lra end. rewrite Rabs_R0. lra.
Qed.
(** Relative load control cannot follow the initial step, which has no load. *)
Theorem c46_relative_first_refuted : forall w off T l adh unl st s,
  new_static off T (Some l) None true adh unl = Ok st -> static_contact w st initial_state <> Ok s.
Proof.
  intros w off T l adh unl st s N H. cbn in N. injection N as <-.
  apply static_unpack in H as (g & p1 & p2 & t & f & conv & s2 & G & _ & _ & -> & R & Q). cbn [load_controlled] in Q.
  destruct Q as (load & r & A & _). discriminate.
Qed.
Print Assumptions c46_relative_first_refuted.

(** Unloading cannot follow a step that found contact nodes, and does nothing otherwise. *)
Theorem c46_unloading_refuted : forall w st prev,
  unloading st = true -> (get_nodes "contact_nodes" prev <> None -> forall s, static_contact w st prev <> Ok s) /\
  (get_nodes "contact_nodes" prev = None ->
   static_contact w st prev = static_contact w (Static (off_set st) (max_time st) (relative st) (adhesion st) false (normal_load st) (interference st) (load_controlled st)) prev).
Proof.
  intros w st prev U. split.
  - intros N s H. apply static_unpack in H as (g & p1 & p2 & t & f & conv & s2 & _ & _ & C & _). auto.
  - intros N. unfold static_contact. cbn [off_set max_time relative adhesion unloading normal_load interference load_controlled]. rewrite U, N. reflexivity.
Qed.
Print Assumptions c46_unloading_refuted.

(** *** C47 and C48: the quasi static step *)

(** [n] sub steps of the same length; the last state is the result. *)
Theorem c47_times : forall w n nt T ox oy i l rel adh unl fast imp up q prev q' states s,
  new_quasi n nt T ox oy i l rel adh unl fast imp up = Ok q -> quasi_solve w q prev = (q', states, Ok s) ->
  leave_alone w "time" -> leave_alone w "time_step" -> leave_alone w "new_step" ->
  (0 < n)%nat /\ length states = n /\ nth_error states (n - 1) = Some s /\
  exists t, holds_num prev "time" t /\
  forall k, (k < n)%nat -> exists st, nth_error states k = Some st /\ holds_num st "time" (t + INR (Datatypes.S k) * (T / INR n)) /\
    holds_num st "time_step" (T / INR n) /\ holds_flag st "new_step" (Nat.eqb k 0).
Proof.
  intros w n nt T ox oy i l rel adh unl fast imp up q prev q' states s N H L1 L2 L3.
  apply new_quasi_fields in N as (N0 & N1 & N2 & N3 & N4 & N5 & N6 & N7 & N8 & N9 & _). unfold quasi_solve in H.
  destruct (get_num "time" prev) as [t|] eqn:Et; [|discriminate]. destruct (fast_ld q); [discriminate|].
  apply loop_states in H as (A & _ & B); [|now rewrite N2|discriminate|intros k s0 _ C; rewrite N8 in C; discriminate].
  destruct (B s eq_refl) as (B1 & ->). rewrite N1 in *. split; [exact N0|]. split; [exact B1|]. split.
  - destruct states as [|a states]; [cbn in B1; lia|]. clear -B1. rewrite <- B1. clear. replace (length (a :: states) - 1)%nat with (length states) by (cbn; lia).
    revert a. induction states as [|b states IH]; intros a; [reflexivity|]. cbn [length nth_error]. apply IH.
  - exists t. split.
    + unfold get_num in Et. unfold holds_num. destruct (dget "time" prev) as [[]|]; try discriminate. now injection Et as ->.
    + intros k Hk. destruct (nth_error states k) as [st|] eqn:E; [|apply nth_error_None in E; lia]. exists st. split; [reflexivity|].
      destruct (A k st E) as (off & l' & ii & o & g & p1 & p2 & f & h & conv & q2 & kk & s0 & _ & _ & _ & _ & _ & _ & _ & M).
      unfold holds_num, holds_flag. rewrite (L1 _ _ M), (L2 _ _ M), (L3 _ _ M). rewrite <- N3. repeat split; reflexivity.
Qed.
Print Assumptions c47_times.

(** The movement that is in force at sub step [k]: constants are used as they are; sequences are
    interpolated, and added to the value before the step with relative loading. Every sub step that
    is solved uses these values. *)
Definition in_force (m : movement) (rel : bool) (original : R) (n k : nat) (v : R) : Prop :=
  match m with Const x => v = x | Seq s => exists x, prescribes s n k x /\ v = if rel then original + x else x end.
Theorem c47_interference : forall w n nt T ox oy m rel adh unl fast imp up q prev q' states r k st,
  new_quasi n nt T ox oy (Some m) None rel adh unl fast imp up = Ok q -> quasi_solve w q prev = (q', states, r) ->
  leave_alone w "interference" -> nth_error states k = Some st ->
  exists h, holds_num st "interference" h /\
    in_force m rel (match get_num "interference" prev with Ok x => x | Err _ => 0 end) n k h.
Proof.
  intros w n nt T ox oy m rel adh unl fast imp up q prev q' states r k st N H L E.
  apply new_quasi_fields in N as (N0 & N1 & N2 & N3 & N4 & N5 & N6 & N7 & N8 & N9 & N10 & _ & _ & N11). unfold quasi_solve in H.
  destruct (get_num "time" prev) as [t|] eqn:Et; [|injection H as <- <- <-; destruct k; discriminate].
  destruct (fast_ld q); [injection H as <- <- <-; destruct k; discriminate|].
  apply loop_states in H as (A & B & _); [|now rewrite N2|discriminate|intros kk s0 _ C; rewrite N8 in C; discriminate].
  assert (Hk : (k < n)%nat) by (assert (k < length states)%nat by (apply nth_error_Some; congruence); lia).
  destruct (A k st E) as (off & l' & ii & o & g & p1 & p2 & f & h & conv & q2 & kk & s0 & _ & _ & U & _ & _ & _ & S & M).
  exists h. split; [unfold holds_num; rewrite (L _ _ M); reflexivity|].
  apply sub_step_ok in S as (k2 & s02 & sX & s' & _ & _ & _ & _ & F). cbn [moved q_load_controlled] in F. rewrite N10 in F. destruct F as (-> & _).
  unfold sub_interf. cbn [moved q_interf]. unfold in_force. rewrite N1, N4, Nat.add_0_l, relative_fraction in U by lia. destruct m as [x|v].
  - destruct N11 as [N11 N12]. rewrite N11 in U. cbn in U. injection U as <-. now rewrite N12.
  - destruct N11 as (fn & F1 & F2). rewrite F2 in U. cbn in U. destruct (fn (fraction n k)) as [x|] eqn:Ex; [|discriminate].
    cbn in U. injection U as <-. exists x. split; [eapply func_prescribes; eauto|reflexivity].
Qed.
Print Assumptions c47_interference.
Theorem c47_load : forall w n nt T ox oy m rel adh unl fast imp up q prev q' states r k st,
  new_quasi n nt T ox oy None (Some m) rel adh unl fast imp up = Ok q -> quasi_solve w q prev = (q', states, r) ->
  leave_alone w "total_normal_load" -> leave_alone w "converged" -> nth_error states k = Some st ->
  exists total conv, holds_num st "total_normal_load" total /\ holds_flag st "converged" conv /\
    (conv = true -> exists load, in_force m rel (match get_num "total_normal_load" prev with Ok x => x | Err _ => 0 end) n k load /\ within_5_percent total load).
Proof.
  intros w n nt T ox oy m rel adh unl fast imp up q prev q' states r k st N H L L' E.
  apply new_quasi_fields in N as (N0 & N1 & N2 & N3 & N4 & N5 & N6 & N7 & N8 & N9 & N10 & _ & N11 & _). unfold quasi_solve in H.
  destruct (get_num "time" prev) as [t|] eqn:Et; [|injection H as <- <- <-; destruct k; discriminate].
  destruct (fast_ld q); [injection H as <- <- <-; destruct k; discriminate|].
  apply loop_states in H as (A & B & _); [|now rewrite N2|discriminate|intros kk s0 _ C; rewrite N8 in C; discriminate].
  assert (Hk : (k < n)%nat) by (assert (k < length states)%nat by (apply nth_error_Some; congruence); lia).
  destruct (A k st E) as (off & l' & ii & o & g & p1 & p2 & f & h & conv & q2 & kk & s0 & _ & U & _ & _ & _ & _ & S & M).
  exists (r_total_load f), conv. split; [unfold holds_num; rewrite (L _ _ M); reflexivity|]. split; [unfold holds_flag; rewrite (L' _ _ M); reflexivity|].
  apply sub_step_ok in S as (k2 & s02 & sX & s' & _ & _ & _ & _ & F). cbn [moved q_load_controlled] in F. rewrite N10 in F. destruct F as (F & _).
  intros Hc. destruct (F Hc) as (F' & _). apply close_load_true in F'. exists (sub_load (moved q off l' ii o)). split; [|exact F'].
  unfold sub_load. cbn [moved q_load q_load_controlled]. rewrite N10. unfold in_force. rewrite N1, N4, Nat.add_0_l, relative_fraction in U by lia. destruct m as [x|v].
  - destruct N11 as [N11 N12]. rewrite N11 in U. cbn in U. injection U as <-. now rewrite N12.
  - destruct N11 as (fn & F1 & F2). rewrite F2 in U. cbn in U. destruct (fn (fraction n k)) as [x|] eqn:Ex; [|discriminate].
    cbn in U. injection U as <-. exists x. split; [eapply func_prescribes; eauto|reflexivity].
Qed.
Print Assumptions c47_load.

(** Offsets: two constants are used as they are; if one of them changes both are interpolated, and both
    are relative with relative loading. The gap is the one at this offset. *)
Theorem c47_off_set : forall w n nt T ox oy i l rel adh unl fast imp up q prev q' states r k st,
  new_quasi n nt T ox oy i l rel adh unl fast imp up = Ok q -> quasi_solve w q prev = (q', states, r) ->
  leave_alone w "off_set" -> leave_alone w "just_touching_gap" -> nth_error states k = Some st ->
  exists x y, holds_pair st "off_set" x y /\
    (exists g p1 p2, gap_at w (x, y) = Ok (g, p1, p2) /\ holds_grid st "just_touching_gap" g) /\
    let start := match get_pair "off_set" prev with Some o => o | None => (0, 0) end in
    match ox, oy with
    | Const a, Const b => x = a /\ y = b
    | _, _ => in_force (Seq (as_seq ox)) rel (fst start) n k x /\ in_force (Seq (as_seq oy)) rel (snd start) n k y
    end.
Proof.
  intros w n nt T ox oy i l rel adh unl fast imp up q prev q' states r k st N H L L' E.
  apply new_quasi_fields in N as (N0 & N1 & N2 & N3 & N4 & N5 & N6 & N7 & N8 & N9 & N10 & N11 & _ & _). unfold quasi_solve in H.
  destruct (get_num "time" prev) as [t|] eqn:Et; [|injection H as <- <- <-; destruct k; discriminate].
  destruct (fast_ld q); [injection H as <- <- <-; destruct k; discriminate|].
  apply loop_states in H as (A & B & _); [|now rewrite N2|discriminate|intros kk s0 _ C; rewrite N8 in C; discriminate].
  assert (Hk : (k < n)%nat) by (assert (k < length states)%nat by (apply nth_error_Some; congruence); lia).
  destruct (A k st E) as (off & l' & ii & o & g & p1 & p2 & f & h & conv & q2 & kk & s0 & U & _ & _ & G & _ & _ & S & M).
  exists (fst (off_value off)), (snd (off_value off)). split; [unfold holds_pair; rewrite (L _ _ M); reflexivity|].
  split. { exists g, p1, p2. rewrite <- surjective_pairing. split; [exact G|]. unfold holds_grid. rewrite (L' _ _ M). reflexivity. }
  cbv zeta. set (start := match get_pair "off_set" prev with Some o => o | None => (0, 0) end) in *.
  rewrite N1, N4, Nat.add_0_l, relative_fraction in U by lia.
  assert (Q : (exists fx fy, make_interpolation_func (as_seq ox) = Ok fx /\ make_interpolation_func (as_seq oy) = Ok fy /\
       upd_off q = Some (fun t => bind (fx t) (fun x => bind (fy t) (fun y => Ok (x, y))))) ->
     in_force (Seq (as_seq ox)) rel (fst start) n k (fst (off_value off)) /\ in_force (Seq (as_seq oy)) rel (snd start) n k (snd (off_value off))).
  { intros (fx & fy & F1 & F2 & F3). rewrite F3 in U. cbn in U. destruct (fx (fraction n k)) as [x|] eqn:Ex; [|discriminate].
    destruct (fy (fraction n k)) as [y|] eqn:Ey; [|discriminate]. cbn in U. injection U as <-. cbn. split.
    - exists x. split; [eapply func_prescribes; eauto|now destruct rel].
    - exists y. split; [eapply func_prescribes; eauto|now destruct rel]. }
  destruct ox as [a|vx], oy as [b|vy]; auto. destruct N11 as [N11 N12]. rewrite N11 in U. cbn in U. injection U as <-. rewrite N12. now split.
Qed.
Print Assumptions c47_off_set.

(** Every solved sub step describes its contact consistently (the entries are those before the sub
    models were solved, which may change them). *)
Theorem c47_consistent : forall w n nt T ox oy i l rel adh unl fast imp up q prev q' states r k st,
  new_quasi n nt T ox oy i l rel adh unl fast imp up = Ok q -> quasi_solve w q prev = (q', states, r) ->
  (forall b g, one_each (config w b g)) -> (i = None -> starts_touching w /\ stays_above w) -> nth_error states k = Some st ->
  exists pre g, sub_models w pre = Ok st /\ holds_grid pre "just_touching_gap" g /\ consistent (config w adh g) g pre.
Proof.
  intros w n nt T ox oy i l rel adh unl fast imp up q prev q' states r k st N H O W E.
  apply new_quasi_fields in N as (N0 & N1 & N2 & N3 & N4 & N5 & N6 & N7 & N8 & N9 & N10 & _). unfold quasi_solve in H.
  destruct (get_num "time" prev) as [t|] eqn:Et; [|injection H as <- <- <-; destruct k; discriminate].
  destruct (fast_ld q); [injection H as <- <- <-; destruct k; discriminate|].
  apply loop_states in H as (A & B & _); [|now rewrite N2|discriminate|intros kk s0 _ C; rewrite N8 in C; discriminate].
  destruct (A k st E) as (off & l' & ii & o & g & p1 & p2 & f & h & conv & q2 & kk & s0 & _ & _ & _ & G & O1 & K & S & M).
  eexists _, g. split; [exact M|]. split; [reflexivity|].
  apply sub_step_ok in S as (k2 & s02 & sX & s' & O2 & _ & R & [St Sm] & _). rewrite O1 in O2. injection O2 as <- <-. rewrite N5 in K. destruct K as [-> Z].
  apply consistent_entries with (f := f) (h := h).
  - destruct (read_stored _ sX f St) as (d & z & Q); [now rewrite R|]. exists d, z. split; [apply O|exact Q].
  - apply read_same with (s := sX); [|now rewrite R]. apply Sm. cbn [moved q_load_controlled]. rewrite N10. intros L. destruct i; [discriminate|].
    destruct (W eq_refl) as [W1 W2]. split; [exact Z|]. split; [exact (W1 _ _ _ _ _ G)|exact W2].
  - intros key v Hin. cbn in Hin. repeat destruct Hin as [Hin|Hin]; try (injection Hin as <- <-; reflexivity). destruct Hin.
Qed.
Print Assumptions c47_consistent.

(** A time dependent step with prescribed interference is solved if the surfaces touch at every
    prescribed interference, for constant movements and movements of two values. *)
Definition simple (m : movement) : Prop := match m with Const _ => True | Seq (Flat [_; _]) => True | _ => False end.
Theorem c47_solved : forall w n T ox oy m rel adh up q prev t,
  new_quasi n false T ox oy (Some m) None rel adh false false false up = Ok q ->
  simple ox -> simple oy -> simple m -> holds_num prev "time" t ->
  (forall o, exists g p1 p2, gap_at w o = Ok (g, p1, p2)) -> (forall d, exists d', sub_models w d = Ok d') ->
  (forall k h, (k < n)%nat -> in_force m rel (match get_num "interference" prev with Ok x => x | Err _ => 0 end) n k h ->
     h <> 0 /\ forall o g p1 p2, gap_at w o = Ok (g, p1, p2) -> limit_of w g = None /\ gap (config w adh g) = g /\ exists y, In y g /\ y < h) ->
  exists q' states s, quasi_solve w q prev = (q', states, Ok s).
Proof.
  intros w n T ox oy m rel adh up q prev t N Sx Sy Sm Ht WG WS H.
  apply new_quasi_fields in N as (N0 & N1 & N2 & N3 & N4 & N5 & N6 & N7 & N8 & N9 & N10 & N11 & N12 & N13). unfold quasi_solve.
  unfold get_num at 1. rewrite Ht, N7. apply loop_solved; auto. intros k Hk. rewrite N1 in *. rewrite relative_fraction by lia.
  pose proof (fraction_bounds n k Hk) as B.
  assert (TV : forall mv f, simple mv -> make_interpolation_func (as_seq mv) = Ok f -> exists v, f (fraction n k) = Ok v).
  { intros [x|[[|a [|b [|c l]]]|r|]] f S E; try easy.
    - destruct (c71_two_values x x) as (f' & E' & _ & _ & F & _). cbn [as_seq] in E. rewrite E in E'. injection E' as <-. rewrite F by exact B. eauto.
    - destruct (c71_two_values a b) as (f' & E' & _ & _ & F & _). cbn [as_seq] in E. rewrite E in E'. injection E' as <-. rewrite F by exact B. eauto. }
  split; [|split].
  - intros u Hu. assert (Q : (exists fx fy, make_interpolation_func (as_seq ox) = Ok fx /\ make_interpolation_func (as_seq oy) = Ok fy /\
       upd_off q = Some (fun t => bind (fx t) (fun x => bind (fy t) (fun y => Ok (x, y))))) -> exists v, u (fraction n k) = Ok v).
    { intros (fx & fy & F1 & F2 & F3). rewrite F3 in Hu. injection Hu as <-. destruct (TV ox fx Sx F1) as (x & ->). destruct (TV oy fy Sy F2) as (y & ->). cbn. eauto. }
    destruct ox, oy; auto. destruct N11 as [N11 _]. rewrite N11 in Hu. discriminate.
  - intros u Hu. rewrite N12 in Hu. discriminate.
  - rewrite N4, N5. unfold good_gap. destruct m as [x|v].
    + destruct N13 as [N13 N14]. rewrite N13, N14. cbn. exists x. split; [reflexivity|]. apply (H k x Hk). reflexivity.
    + destruct N13 as (f & F1 & F2). rewrite F2. cbn. destruct (TV (Seq v) f Sm F1) as (x & Ex). rewrite Ex. cbn. eexists. split; [reflexivity|].
      apply (H k _ Hk). exists x. split; [eapply func_prescribes; eauto|reflexivity].
Qed.
Print Assumptions c47_solved.
(** Three sub steps from an interference of one to two over six seconds while sliding. *)
Example c47_case : exists q q' a b c,
  new_quasi 3 false 6 (Seq (Flat [0; 8])) (Const 0) (Some (Seq (Flat [1; 2]))) None false true false false false 4 = Ok q /\
  quasi_solve (plain [0; 1]) q initial_state = (q', [a; b; c], Ok c) /\
  holds_num a "interference" 1 /\ holds_num b "interference" (3 / 2) /\ holds_num c "interference" 2 /\
  holds_num a "time" 2 /\ holds_num c "time" 6 /\ holds_pair b "off_set" 4 0.
Proof.
  assert (exists q, new_quasi 3 false 6 (Seq (Flat [0; 8])) (Const 0) (Some (Seq (Flat [1; 2]))) None false true false false false 4 = Ok q) as (q & N).
  { unfold new_quasi. cbn -[interp1d]. destruct (interp_two 0 8 0) as (f1 & -> & _). cbn -[interp1d].
    destruct (interp_two 0 0 0) as (f2 & -> & _). cbn -[interp1d]. destruct (interp_two 1 2 0) as (f3 & -> & _). cbn. eauto. }
  assert (LA : forall key, leave_alone (plain [0; 1]) key) by (intros key d d' E; now injection E as <-).
  destruct (c47_solved (plain [0; 1]) 3 6 _ _ _ _ _ _ q initial_state 0 N) as (q' & states & s & E); try exact I; try reflexivity; try (intros; cbn; eauto; fail).
  { intros k h Hk (x & Hx & ->). cbn in Hx. subst x. assert (0 <= INR k) by apply pos_INR. unfold line.
    assert (1 <= 1 + (2 - 1) * ((INR k / (1 + 1) - 0) / (1 - 0))) by lra. split; [lra|]. intros o g p1 p2 G. cbn in G. injection G as <- _ _.
    split; [reflexivity|]. split; [reflexivity|]. exists 0. split; [now left|lra]. }
  destruct (c47_times _ _ _ _ _ _ _ _ _ _ _ _ _ _ _ _ _ _ _ N E (LA _) (LA _) (LA _)) as (_ & L & Ls & t & Ht & Hs).
  unfold holds_num in Ht. cbn in Ht. injection Ht as <-.
  destruct states as [|a [|b [|c [|d states]]]]; try discriminate. cbn in Ls. injection Ls as <-.
  exists q, q', a, b, c. split; [exact N|]. split; [exact E|].
  assert (IN : forall k st, nth_error [a; b; c] k = Some st -> holds_num st "interference" (line 0 1 1 2 (fraction 3 k))).
  { intros k st Ek. destruct (c47_interference _ _ _ _ _ _ _ _ _ _ _ _ _ _ _ _ _ _ _ _ N E (LA _) Ek) as (h & A & x & B & ->). cbn in B. now subst x. }
  split; [|split; [|split; [|split; [|split]]]].
  - replace 1 with (line 0 1 1 2 (fraction 3 0)) by (unfold line; cbn; field). apply (IN 0%nat). reflexivity.
  - replace (3 / 2) with (line 0 1 1 2 (fraction 3 1)) by (unfold line; cbn; field). apply (IN 1%nat). reflexivity.
  - replace 2 with (line 0 1 1 2 (fraction 3 2)) by (unfold line; cbn; field). apply (IN 2%nat). reflexivity.
  - destruct (Hs 0%nat) as (st & Es & A & _); [lia|]. cbn in Es. injection Es as <-.
    replace 2 with (0 + INR 1 * (6 / INR 3)) by (cbn; field). exact A.
  - destruct (Hs 2%nat) as (st & Es & A & _); [lia|]. cbn in Es. injection Es as <-.
    replace 6 with (0 + INR 3 * (6 / INR 3)) at 1 by (cbn; field). exact A.
  - destruct (c47_off_set _ _ _ _ _ _ _ _ _ _ _ _ _ _ _ _ _ _ _ 1%nat b N E (LA _) (LA _) eq_refl) as (x & y & A & _ & (x' & X & ->) & y' & Y & ->).
    cbn in X, Y. subst x' y'. unfold holds_pair in *. rewrite A. unfold line. repeat f_equal; field.
Qed.

(** What reading the results gives after an interference that was not tried before. *)
Lemma evaluate_reads k s h : nodes_set s = false -> ~ In h (heights s) -> existsb (fun b => b) (touching k h) = true ->
  let s' := fst (evaluate k s h) in let full := scatter (touching k h) (fst (free_solution k h)) in
  snd (read_results k s') = Ok (Full full (disp_total k full) (disp1 k full) (disp2 k full) (map (fun x => Rltb 0 x) full) (free_load k h) h) /\
  last_failed s' = snd (free_solution k h) /\ stored_results s' <> None /\ nodes_set s' = false.
Proof.
  intros Hn Hh He. unfold evaluate, free_load, free_solution. apply rmem_false in Hh. rewrite Hh, Hn. rewrite touching_z, z_alt.
  rewrite He. destruct (solver k (touching k h) _) as [loads failed]. cbn [fst snd].
  match goal with |- context[add_to_cache k ?s0 ?h ?t ?f ?b] => pose proof (add_other k s0 h t f b) as (_ & A & B & C); set (s2 := add_to_cache k s0 h t f b) in * end.
  cbn in A, B, C. unfold read_results. cbn [stored_results nodes last_failed nodes_set]. rewrite A, B, C. unfold refill. rewrite Nat.eqb_refl. cbn. repeat split; discriminate.
Qed.
(** The interference of a solved sub step is the root, the pressures are those of the interference
    tried last: if the root finder returns an interference it tried before, a converged state has a
    point under pressure whose gap is not closed, by as much as the two differ. *)
Theorem c47_interference_refuted : forall T load up down adh upper,
  0 < down -> 0 < up -> within_5_percent down load -> up <> down ->
  exists q q' s, new_quasi 1 false T (Const 0) (Const 0) None (Some (Const load)) false adh false false false upper = Ok q /\
    quasi_solve (wandering [0] up down) q initial_state = (q', [s], Ok s) /\
    holds_flag s "converged" true /\ holds_num s "interference" up /\
    holds_grid s "loads" [down] /\ holds_grid s "total_displacement" [down] /\
    dget "contact_nodes" s = Some (SNodes [true]) /\ holds_grid s "gap" [0 - up + down].
Proof.
  intros T load up down adh upper D U W N.
  set (q := Quasi 1 false T (T / 1) false adh false false upper true None None None (Some (0, 0)) (Some load) None None). exists q.
  assert (T1 : forall h, 0 < h -> forall b, existsb (fun b => b) (touching (config (wandering [0] up down) b [0]) h) = true).
  { intros h Hh b. unfold touching. cbn. assert (Rltb 0 h = true) as -> by (apply Rltb_true; lra). reflexivity. }
  assert (S : exists q2, solve_sub_step (wandering [0] up down) q [0] None None = (q2, Ok (Full [down] [down] [down] [down] [true] down down, up, true))).
  { unfold solve_sub_step. cbn -[evaluate read_results max_of].
    set (k := HConfig [0] 1 true true false (fun _ z => (z, false)) (fun l => l) (fun l => l) (fun l => l)).
    match goal with |- context [evaluate k ?s up] => set (s1 := s) end.
    assert (N1 : ~ In up (heights s1)) by (intros [C|[]]; lra).
    destruct (evaluate_reads k s1 up eq_refl N1 (T1 up U adh)) as (_ & _ & _ & A).
    set (s2 := fst (evaluate k s1 up)) in *.
    assert (N2 : ~ In down (heights s2)).
    { assert (I1 : hinv s1) by (apply (hinv_run k (new_opt k load None None) [ChangeLoad load None] eq_refl), hinv_new; discriminate).
      destruct (evaluate_cached k s1 up I1) as (I & _ & E & _). intros C. apply (In_nth _ _ 0) in C as (i & Hi & Ei).
      pose proof (nth_cached _ i (proj2 I) Hi) as Q. fold s2 in Q. rewrite Ei in Q. destruct (E _ Q) as [[X|[]]|(X & _)]; injection X as X _; lra. }
    destruct (evaluate_reads k s2 down A N2 (T1 down D adh)) as (B1 & B2 & B3 & _).
    set (s3 := fst (evaluate k s2 down)) in *. destruct (stored_results s3); [|congruence].
    destruct (read_results k s3) as [s4 r]. cbn [snd] in B1. subst r. cbn [bind]. eexists. f_equal. f_equal.
    assert (Z : Rltb 0 down = true) by (apply Rltb_true; lra).
    assert (F : fst (free_solution k down) = [down]).
    { unfold free_solution, touching. cbn. rewrite Z. cbn. f_equal. lra. }
    assert (G : touching k down = [true]) by (unfold touching; cbn; now rewrite Z).
    assert (L : free_load k down = down).
    { unfold free_load. rewrite F. rewrite G. cbn. lra. }
    rewrite F, G, L, B2. cbn. rewrite Z. unfold free_solution. cbn. rewrite andb_true_r.
    f_equal. apply close_load_true. exact W. }
  destruct S as (q2 & S). eexists _, _. split; [reflexivity|].
  split.
  - unfold quasi_solve. cbn -[solve_sub_step]. fold q. rewrite S. cbn. reflexivity.
  - repeat split; reflexivity.
Qed.
Print Assumptions c47_interference_refuted.
Example c47_interference_refuted_case : exists q q' s,
  new_quasi 1 false 1 (Const 0) (Const 0) None (Some (Const 1)) false true false false false 4 = Ok q /\
  quasi_solve (wandering [0] 2 1) q initial_state = (q', [s], Ok s) /\
  holds_flag s "converged" true /\ holds_num s "interference" 2 /\ holds_grid s "loads" [1] /\ holds_grid s "gap" [0 - 2 + 1].
Proof.
  destruct (c47_interference_refuted 1 1 2 1 true 4) as (q & q' & s & A & B & C & D & E & _ & _ & F); try lra.
  - unfold within_5_percent. rewrite Rminus_diag_eq by reflexivity. rewrite Rabs_R0. lra.
  - exists q, q', s. auto 10.
Qed.

(** With relative loading a movement of two values starts from where the contact was. *)
Theorem c48_relative : forall w n nt T ox oy a b adh unl fast imp up q prev q' states r k st h0,
  new_quasi n nt T ox oy (Some (Seq (Flat [a; b]))) None true adh unl fast imp up = Ok q ->
  quasi_solve w q prev = (q', states, r) -> leave_alone w "interference" -> nth_error states k = Some st ->
  holds_num prev "interference" h0 -> holds_num st "interference" (h0 + line 0 a 1 b (fraction n k)).
Proof.
  intros w n nt T ox oy a b adh unl fast imp up q prev q' states r k st h0 N H L E P.
  destruct (c47_interference _ _ _ _ _ _ _ _ _ _ _ _ _ _ _ _ _ _ _ _ N H L E) as (h & A & x & B & C).
  unfold get_num in C. rewrite P in C. cbn in B. subst. exact A.
Qed.
Print Assumptions c48_relative.
Theorem c48_relative_load : forall w n nt T ox oy a b adh unl fast imp up q prev q' states r k st l0,
  new_quasi n nt T ox oy None (Some (Seq (Flat [a; b]))) true adh unl fast imp up = Ok q ->
  quasi_solve w q prev = (q', states, r) -> leave_alone w "total_normal_load" -> leave_alone w "converged" -> nth_error states k = Some st ->
  holds_num prev "total_normal_load" l0 -> holds_flag st "converged" true ->
  exists total, holds_num st "total_normal_load" total /\ within_5_percent total (l0 + line 0 a 1 b (fraction n k)).
Proof.
  intros w n nt T ox oy a b adh unl fast imp up q prev q' states r k st l0 N H L L' E P C.
  destruct (c47_load _ _ _ _ _ _ _ _ _ _ _ _ _ _ _ _ _ _ _ _ N H L L' E) as (total & conv & A & B & D). exists total. split; [exact A|].
  unfold holds_flag in *. rewrite B in C. injection C as ->. destruct (D eq_refl) as (load & (x & X & ->) & W). unfold get_num in W. rewrite P in W. cbn in X. now subst x.
Qed.
Print Assumptions c48_relative_load.
(** A constant interference is not relative: it is reached whatever the interference was before. *)
Theorem c48_constant_refuted : forall w n nt T ox oy x adh unl fast imp up q prev q' states r k st,
  new_quasi n nt T ox oy (Some (Const x)) None true adh unl fast imp up = Ok q ->
  quasi_solve w q prev = (q', states, r) -> leave_alone w "interference" -> nth_error states k = Some st ->
  holds_num st "interference" x.
Proof.
  intros w n nt T ox oy x adh unl fast imp up q prev q' states r k st N H L E.
  destruct (c47_interference _ _ _ _ _ _ _ _ _ _ _ _ _ _ _ _ _ _ _ _ N H L E) as (h & A & C). cbn in C. now subst h.
Qed.
Print Assumptions c48_constant_refuted.
(** Relative loading without a load or an interference, to keep the contact as it is while sliding:
    no sub step can be solved, whatever the surfaces and the movement. *)
Theorem c48_nothing_refuted : forall w n nt T ox oy adh unl fast imp up q prev,
  new_quasi n nt T ox oy None None true adh unl fast imp up = Ok q ->
  exists q' e, quasi_solve w q prev = (q', [], Err e).
Proof.
  intros w n nt T ox oy adh unl fast imp up q prev N.
  apply new_quasi_fields in N as (N0 & N1 & N2 & N3 & N4 & N5 & N6 & N7 & N8 & N9 & N10 & _ & _ & N11 & N12). specialize (N12 eq_refl).
  unfold quasi_solve. destruct (get_num "time" prev) as [t|]; [|eauto]. destruct (fast_ld q); [eauto|]. rewrite N1. destruct n as [|n]; [lia|].
  match goal with |- context [quasi_loop ?a ?b ?c ?d ?e ?f ?g ?h ?i ?j ?k] => destruct (quasi_loop a b c d e f g h i j k) as [[q' states] r] eqn:E end.
  apply loop_round in E. destruct E as [(-> & e & ->)|E]; [eauto|].
  destruct E as (off & l & ii & g & p1 & p2 & f & h & conv & q2 & st & rest & U1 & U2 & U3 & G & S & _).
  apply sub_step_ok in S as (k & s0 & sX & s' & O & _ & R & _ & F). cbn [moved q_load_controlled] in F. rewrite N10 in F. destruct F as (Eh & EX & _).
  rewrite N11 in U3. cbn in U3. injection U3 as <-. unfold sub_interf in Eh. cbn in Eh. rewrite N12 in Eh. subst h.
  unfold opt_for in O. cbn [moved no_time q_opt] in O. rewrite N8 in O.
  assert (In 0 (heights (change_load s0 1 None))) as C.
  { destruct (no_time q); destruct (if q_unloading q then get_nodes "contact_nodes" prev else None); try discriminate; cbn in O; injection O as _ <-; apply new_heights. }
  pose proof (evaluate_known k _ 0 C eq_refl) as Q. rewrite <- EX, R in Q. discriminate.
Qed.
Print Assumptions c48_nothing_refuted.
Example c48_nothing_case : exists q, new_quasi 2 false 1 (Seq (Flat [0; 1])) (Const 0) None None true true false false false 4 = Ok q.
Proof.
  unfold new_quasi. cbn -[interp1d]. destruct (interp_two 0 1 0) as (f1 & -> & _). cbn -[interp1d].
  destruct (interp_two 0 0 0) as (f2 & -> & _). cbn. eauto.
Qed.

(** *** C49: options that cannot be combined *)
Definition readable (m : movement) : Prop := exists f, make_interpolation_func (as_seq m) = Ok f.
Theorem c49_accepts : forall n nt T ox oy i l rel adh unl fast imp up,
  (exists q, new_quasi n nt T ox oy i l rel adh unl fast imp up = Ok q) <->
  imp = false /\ (fast = true -> nt = true) /\ n <> 0%nat /\ (nt = true -> exists x y, ox = Const x /\ oy = Const y) /\
  readable ox /\ readable oy /\
  (forall m, i = Some m -> readable m /\ l = None) /\ (forall m, l = Some m -> readable m /\ i = None) /\
  (i = None -> l = None -> rel = true).
Proof.
  intros n nt T ox oy i l rel adh unl fast imp up.
  assert (RC : forall x, readable (Const x)) by (intros x; destruct (c71_constant x) as (f & E & _); now exists f). split.
  - intros (q & N). pose proof N as N'. apply new_quasi_fields in N' as (N0 & _ & _ & _ & _ & _ & _ & _ & _ & _ & _ & NO & NL & NI).
    unfold new_quasi in N. destruct imp; [discriminate|]. split; [reflexivity|]. destruct (negb nt && fast) eqn:E1; [discriminate|].
    split; [intros ->; now destruct nt|]. split; [lia|]. destruct (Nat.eqb n 0); [discriminate|].
    assert (RO : readable ox /\ readable oy).
    { destruct ox, oy; try (destruct NO as (fx & fy & F1 & F2 & _); split; eexists; eassumption). auto. }
    split. { intros ->. destruct ox as [x|vx], oy as [y|vy]; try discriminate. eauto. }
    split; [apply RO|]. split; [apply RO|]. cbv zeta in N.
    match type of N with bind ?x _ = _ => destruct x as [[uo o]|] end; [cbn [bind] in N|discriminate].
    split; [|split].
    + intros m ->. destruct l as [l|]; [discriminate|]. split; [|reflexivity]. destruct m as [x|v]; [apply RC|]. destruct NI as (f & F & _). now exists f.
    + intros m ->. destruct i as [i|]; [discriminate|]. split; [|reflexivity]. destruct m as [x|v]; [apply RC|]. destruct NL as (f & F & _). now exists f.
    + intros -> ->. now destruct rel.
  - intros (-> & F & N0 & Nt & (fx & Rx) & (fy & Ry) & Ri & Rl & Rr). unfold new_quasi.
    assert (negb nt && fast = false) as -> by (destruct nt; [reflexivity|]; destruct fast; [|reflexivity]; now specialize (F eq_refl)).
    assert (Nat.eqb n 0 = false) as -> by now apply Nat.eqb_neq.
    assert (B : exists uo o, (if is_seq ox || is_seq oy then
            if nt then Err ValueError
            else bind (make_interpolation_func (as_seq ox)) (fun fx => bind (make_interpolation_func (as_seq oy)) (fun fy =>
                 Ok (Some (fun t => bind (fx t) (fun x => bind (fy t) (fun y => Ok (x, y)))), None)))
          else match ox, oy with Const x, Const y => Ok (None, Some (x, y)) | _, _ => Ok (None, None) end) = Ok (uo, o)).
    { rewrite Rx, Ry. cbn [bind]. destruct nt.
      - destruct (Nt eq_refl) as (x & y & -> & ->). cbn. eauto.
      - destruct ox, oy; cbn; eauto. }
    destruct B as (uo & o & ->). cbn [bind]. cbv zeta.
    destruct l as [ml|], i as [mi|].
    + destruct (Rl ml eq_refl). discriminate.
    + destruct (Rl ml eq_refl) as [(f & E) _]. destruct ml as [x|v]; [cbn; eauto|]. cbn [as_seq] in E. rewrite E. cbn. eauto.
    + destruct (Ri mi eq_refl) as [(f & E) _]. destruct mi as [x|v]; [cbn; eauto|]. cbn [as_seq] in E. rewrite E. cbn. eauto.
    + rewrite (Rr eq_refl eq_refl). cbn. eauto.
Qed.
Print Assumptions c49_accepts.
(** What is refused is refused with a ValueError, but for impacts and for no sub steps at all. *)
Theorem c49_errors : forall n nt T ox oy i l rel adh unl fast imp up e,
  new_quasi n nt T ox oy i l rel adh unl fast imp up = Err e ->
  (e = NotImplementedError /\ imp = true) \/ (e = ZeroDivisionError /\ imp = false /\ n = 0%nat) \/ (e = ValueError /\ imp = false).
Proof.
  intros n nt T ox oy i l rel adh unl fast imp up e. unfold new_quasi. destruct imp; [intros H; injection H as <-; auto|].
  assert (ME : forall v e, make_interpolation_func v = Err e -> e = ValueError).
  { intros v e0 H. assert (IE : forall a b e1, interp1d a b = Err e1 -> e1 = ValueError).
    { intros a b e1. unfold interp1d. destruct (negb _); [congruence|]. destruct (Nat.eqb _ 0); [congruence|discriminate]. }
    destruct v as [[|a [|b [|c l0]]]|[|[|a [|b [|c p]]] [|[|a' [|b' t]] [|r r']]]|]; cbn [make_interpolation_func] in H; try congruence; eapply IE; eauto. }
  destruct (negb nt && fast); [intros H; injection H as <-; auto|].
  destruct (Nat.eqb n 0) eqn:En; [apply Nat.eqb_eq in En; intros H; injection H as <-; auto|].
  intros H. right. right. split; [|reflexivity]. revert H.
  match goal with |- bind ?x _ = _ -> _ => destruct x as [[uo o]|e1] eqn:E1 end; cbn [bind].
  2: { intros H. injection H as <-. destruct (is_seq ox || is_seq oy); [|destruct ox, oy; discriminate]. destruct nt; [congruence|].
       destruct (make_interpolation_func (as_seq ox)) eqn:E2; cbn [bind] in E1; [|injection E1 as <-; eauto].
       destruct (make_interpolation_func (as_seq oy)) eqn:E3; cbn [bind] in E1; [discriminate|injection E1 as <-; eauto]. }
  cbv zeta. destruct l as [[x|v]|], i as [[y|u]|]; cbn [bind]; try congruence; try (destruct rel; cbn [bind]; congruence).
  - destruct (make_interpolation_func v) eqn:E2; cbn [bind]; [discriminate|intros H; injection H as <-; eauto].
  - destruct (make_interpolation_func u) eqn:E2; cbn [bind]; [discriminate|intros H; injection H as <-; eauto].
Qed.
Print Assumptions c49_errors.
(** The fast option is accepted together with no_time, but such a step is never solved. *)
Theorem c49_fast_refuted : forall w n nt T ox oy i l rel adh unl imp up q prev,
  new_quasi n nt T ox oy i l rel adh unl true imp up = Ok q -> exists q' e, quasi_solve w q prev = (q', [], Err e).
Proof.
  intros w n nt T ox oy i l rel adh unl imp up q prev N. apply new_quasi_fields in N as (_ & _ & _ & _ & _ & _ & _ & N & _).
  unfold quasi_solve. rewrite N. destruct (get_num "time" prev); eauto.
Qed.
Print Assumptions c49_fast_refuted.
Example c49_fast_case : exists q, new_quasi 2 true 1 (Const 0) (Const 0) None (Some (Const 1)) false true false true false 4 = Ok q.
Proof. cbn. eauto. Qed.

(** *** C83: an interference is solved once without time dependence *)
(** The interferences of the solved sub steps differ from each other. *)
Theorem c83_different : forall w n T ox oy i l rel adh unl fast imp up q prev q' states r a b sa sb h,
  new_quasi n true T ox oy i l rel adh unl fast imp up = Ok q -> q_load_controlled q = false ->
  leave_alone w "interference" -> (forall b g, never_fails (config w b g)) ->
  quasi_solve w q prev = (q', states, r) -> (a < b)%nat ->
  nth_error states a = Some sa -> nth_error states b = Some sb -> holds_num sa "interference" h -> ~ holds_num sb "interference" h.
Proof.
  intros w n T ox oy i l rel adh unl fast imp up q prev q' states r a b sa sb h N El LA NF H L A B Ha.
  apply new_quasi_fields in N as (N0 & N1 & N2 & _ & _ & _ & _ & _ & N8 & _). unfold quasi_solve in H.
  destruct (get_num "time" prev) as [t|] eqn:Et; [|injection H as <- <- <-; destruct a; discriminate].
  destruct (fast_ld q); [injection H as <- <- <-; destruct a; discriminate|].
  apply loop_heights in H as (_ & H); auto; [|intros k s C; rewrite N8 in C; discriminate].
  destruct (H a sa A) as (x & X & _ & _ & Y). unfold holds_num in *. assert (x = h) by congruence. subst x. now apply (Y b sb).
Qed.
Print Assumptions c83_different.
(** So a constant interference over several sub steps is never solved, even without failure of the
    solver: the second sub step finds its interference known and no results. *)
Theorem c83_constant_refuted : forall w n T ox oy h rel adh unl fast imp up q prev q' states s,
  new_quasi n true T ox oy (Some (Const h)) None rel adh unl fast imp up = Ok q -> (2 <= n)%nat ->
  leave_alone w "interference" -> (forall b g, never_fails (config w b g)) -> quasi_solve w q prev <> (q', states, Ok s).
Proof.
  intros w n T ox oy h rel adh unl fast imp up q prev q' states s N Hn LA NF H.
  pose proof (new_quasi_fields _ _ _ _ _ _ _ _ _ _ _ _ _ _ N) as (N0 & N1 & N2 & _ & _ & _ & _ & _ & N8 & N9 & N10 & _).
  assert (length states = n).
  { unfold quasi_solve in H. destruct (get_num "time" prev) as [t|]; [|discriminate]. destruct (fast_ld q); [discriminate|].
    apply loop_states in H as (_ & _ & B); [destruct (B s eq_refl); congruence|now rewrite N2|discriminate|intros k s0 _ C; rewrite N8 in C; discriminate]. }
  destruct states as [|a [|b states]]; cbn in *; try lia.
  assert (P : forall k st, nth_error (a :: b :: states) k = Some st -> holds_num st "interference" h).
  { intros k st E. destruct (c47_interference _ _ _ _ _ _ _ _ _ _ _ _ _ _ _ _ _ _ _ _ N H LA E) as (x & X & Y). cbn in Y. now subst x. }
  refine (c83_different _ _ _ _ _ _ _ _ _ _ _ _ _ _ _ _ _ _ 0 1 a b h N N10 LA NF H _ eq_refl eq_refl (P 0%nat a eq_refl) (P 1%nat b eq_refl)). lia.
Qed.
Print Assumptions c83_constant_refuted.
(** And a step that was solved cannot be solved again: the object remembers. *)
Theorem c83_again_refuted : forall w w' n T ox oy m adh unl fast imp up q prev prev' q' states s q'' states' s',
  new_quasi n true T ox oy (Some m) None false adh unl fast imp up = Ok q ->
  leave_alone w "interference" -> leave_alone w' "interference" ->
  (forall b g, never_fails (config w b g)) -> (forall b g, never_fails (config w' b g)) ->
  quasi_solve w q prev = (q', states, Ok s) -> quasi_solve w' q' prev' <> (q'', states', Ok s').
Proof.
  intros w w' n T ox oy m adh unl fast imp up q prev prev' q' states s q'' states' s' N LA LA' NF NF' H H'.
  pose proof (new_quasi_fields _ _ _ _ _ _ _ _ _ _ _ _ _ _ N) as (N0 & N1 & N2 & N3 & N4 & N5 & N6 & N7 & N8 & N9 & N10 & _ & _ & N11).
  unfold quasi_solve in H, H'. destruct (get_num "time" prev) as [t|]; [|discriminate]. destruct (get_num "time" prev') as [t'|]; [|discriminate].
  destruct (fast_ld q) eqn:Ef; [discriminate|]. rewrite N1 in H. destruct n as [|n]; [lia|].
  assert (NO : forall k s1, q_opt q = Some (k, s1) -> never_fails k) by (intros k s1 C; rewrite N8 in C; discriminate).
  destruct (loop_final w prev NF _ _ _ _ _ _ _ _ _ _ _ _ H NO) as (off & l & ii & o & -> & Ui & Ko).
  cbn [moved fast_ld steps] in H'. rewrite Ef, N1 in H'.
  assert (LS : states <> [] /\ states' <> []).
  { split; intros ->; [pose proof (loop_round _ _ _ _ _ _ _ _ _ _ _ _ _ _ H) as R|pose proof (loop_round _ _ _ _ _ _ _ _ _ _ _ _ _ _ H') as R];
    (destruct R as [(_ & e & C)|R]; [discriminate|]); destruct R as (? & ? & ? & ? & ? & ? & ? & ? & ? & ? & ? & ? & _ & _ & _ & _ & _ & _ & C & _); discriminate. }
  destruct states as [|st0 states]; [easy|]. destruct states' as [|st1 states']; [easy|].
  destruct (first_interference _ _ _ _ _ _ _ _ _ _ _ _ _ _ _ H N10 LA) as (i0 & I0 & J0).
  destruct (first_interference _ _ _ _ _ _ _ _ _ _ _ _ _ _ _ H' N10 LA') as (i1 & I1 & J1).
  cbn [moved q_relative upd_interf q_interf steps] in I1. rewrite N4 in I0, I1.
  assert (i0 = i1) as <-.
  { unfold update_one in *. destruct (upd_interf q) as [u|]; [|rewrite Ui in I1 by reflexivity; congruence].
    destruct (u (relative_time (steps q) 0)); [|discriminate]. cbn in *. congruence. }
  apply loop_heights in H as (_ & H); auto. apply loop_heights in H' as (_ & H'); auto.
  destruct (H 0%nat st0 eq_refl) as (x & X1 & _ & X3 & _). destruct (H' 0%nat st1 eq_refl) as (y & Y1 & Y2 & _).
  unfold holds_num in *. apply Y2. replace y with x by congruence. exact X3.
Qed.
Print Assumptions c83_again_refuted.

(** *** C84: without time dependence the contact of the first solution is kept *)
(** Once it was solved, nothing of the materials or the adhesion of the model, or of the gap the
    contact is solved for, is looked at again. *)
Theorem c84_kept_refuted : forall w w' q prev, no_time q = true -> q_opt q <> None ->
  gap_at w = gap_at w' -> root_scalar w = root_scalar w' -> cubic w = cubic w' -> sub_models w = sub_models w' ->
  quasi_solve w q prev = quasi_solve w' q prev.
Proof.
  intros w w' q prev En Eo W1 W2 W3 W4. unfold quasi_solve. destruct (get_num "time" prev); [|reflexivity]. destruct (fast_ld q); [reflexivity|].
  now apply loop_config.
Qed.
Print Assumptions c84_kept_refuted.
(** A step with time dependence looks at them every time: it can be solved again with the same
    result on the same world, whatever it was used for before. *)
Theorem c84_time_fresh : forall w q prev o off l i, no_time q = false ->
  (upd_off q = None -> off = q_off q) -> (upd_load q = None -> l = q_load q) -> (upd_interf q = None -> i = q_interf q) ->
  snd (quasi_solve w (moved q off l i o) prev) = snd (quasi_solve w q prev) /\
  snd (fst (quasi_solve w (moved q off l i o) prev)) = snd (fst (quasi_solve w q prev)).
Proof.
  intros w q prev o off l i En. unfold quasi_solve. destruct (get_num "time" prev) as [t|]; [|auto]. cbn [moved fast_ld steps]. destruct (fast_ld q); [auto|].
  intros. now apply loop_time_fresh.
Qed.
Print Assumptions c84_time_fresh.

(** *** C85: steps announce what they find *)
(** A solved static step has exactly the entries it announced, each once. *)
Theorem c85_static : forall w st prev s, static_contact w st prev = Ok s ->
  NoDup (entries s) /\ forall x, In x (entries s) <-> In x step_provides.
Proof.
  intros w st prev s H. apply static_unpack in H as (g & p1 & p2 & t & f & conv & s2 & _ & _ & _ & -> & _). cbn. split.
  - repeat (apply NoDup_cons; [cbn; intuition discriminate|]). apply NoDup_nil.
  - intros x. tauto.
Qed.
Print Assumptions c85_static.
(** So does every sub step of a quasi static step: it is not stopped by the check of the entries. *)
Definition checked (w : world) (em es : bool) (l : list sub_model) : world :=
  World (gap_at w) (config w) (limit_of w) (root_scalar w) (cubic w) (solve_sub_models em es step_provides l).
Definition unchecked (w : world) (es : bool) (l : list sub_model) : world :=
  World (gap_at w) (config w) (limit_of w) (root_scalar w) (cubic w) (find_all es l).
Theorem c85_quasi : forall w em es l q prev, quasi_solve (checked w em es l) q prev = quasi_solve (unchecked w es l) q prev.
Proof.
  intros w em es l q prev. unfold quasi_solve. destruct (get_num "time" prev); [|reflexivity]. destruct (fast_ld q); [reflexivity|].
  now apply loop_subs.
Qed.
Print Assumptions c85_quasi.
(** With the flags at their defaults (true) nothing is checked: every sub model may return anything,
    although the flags are named as if they turned the errors on. *)
Theorem c85_default_refuted : forall names l s, solve_sub_models true true names l s = find_all true l s /\
  forall m found, find m s = Ok found -> solve_sub_models true true names [m] s = Ok (dupdate s found).
Proof.
  intros names l s. unfold solve_sub_models. rewrite !andb_false_r. split; [reflexivity|]. intros m found E.
  cbn [find_all]. rewrite E. cbn [bind]. rewrite andb_false_r. reflexivity.
Qed.
Print Assumptions c85_default_refuted.
(** With the flags off exactly the announced entries are accepted. *)
Theorem c85_strict : forall names m s found, find m s = Ok found ->
  ((exists s', solve_sub_models false false names [m] s = Ok s') <->
   (forall x, In x names <-> In x (entries s)) /\ (forall x, In x (provides m) <-> In x (entries found))).
Proof.
  intros names m s found E. unfold solve_sub_models, entries. rewrite !andb_true_r, <- !same_names_spec. cbn [find_all]. rewrite E. cbn [bind]. rewrite andb_true_r.
  destruct (same_names names (map fst s)), (same_names (provides m) (map fst found)); cbn; split; try (intros (s' & C); discriminate); try (intros [C D]; discriminate); eauto.
Qed.
Print Assumptions c85_strict.
(** But the data check adds what the sub models announce to what the step announces, so with the
    flags off a model that has passed its data check cannot be solved if a sub model provides
    something new. *)
Theorem c85_data_check_refuted : forall w st prev s error l m x names l',
  check_sub_models error l step_provides = (names, Ok tt) -> In m l -> In x (provides m) -> ~ In x step_provides ->
  static_contact w st prev = Ok s -> solve_sub_models false false names l' s = Err ValueError.
Proof.
  intros w st prev s error l m x names l' C Hm Hx Hn H. apply c85_static in H as [_ H]. unfold solve_sub_models.
  assert (In x names).
  { assert (G : forall l names0 names, check_sub_models error l names0 = (names, Ok tt) -> (forall y, In y names0 -> In y names) /\ forall m y, In m l -> In y (provides m) -> In y names).
    { clear. induction l as [|m l IH]; intros names0 names C; cbn in C.
      - injection C as ->. split; [auto|]. intros m y [].
      - destruct (existsb _ (requires m) && error); [discriminate|]. destruct (IH _ _ C) as [A B]. split.
        + intros y Hy. apply A, in_supdate. now left.
        + intros m' y [<-|Hm] Hy; [|eauto]. apply A, in_supdate. now right. }
    destruct (G _ _ _ C) as [_ B]. eauto. }
  destruct (same_names names (map fst s)) eqn:E; [|reflexivity]. exfalso. apply Hn, H. now apply (same_names_spec names (map fst s)).
Qed.
Print Assumptions c85_data_check_refuted.
Example c85_case : exists names, check_sub_models true [SubModel ["loads"] ["worn_volume"] (fun _ => Ok [("worn_volume", SNum 1)])] step_provides = (names, Ok tt) /\
  In "worn_volume" names.
Proof. eexists. split; [reflexivity|]. cbn. tauto. Qed.
(** The hypotheses of C83: a world without failures, and a step that is solved once. *)
Example c83_case : leave_alone (plain [0; 1]) "interference" /\ (forall b g, never_fails (config (plain [0; 1]) b g)) /\
  (exists q, new_quasi 2 true 1 (Const 0) (Const 0) (Some (Const 2)) None false true false false false 4 = Ok q) /\
  exists q q' s, new_quasi 1 true 1 (Const 0) (Const 0) (Some (Const 2)) None false true false false false 4 = Ok q /\
    quasi_solve (plain [0; 1]) q initial_state = (q', [s], Ok s).
Proof.
  split; [intros d d' E; now injection E as <-|]. split; [intros b g; split; reflexivity|]. split; [cbn; eauto|].
  assert (exists q, new_quasi 1 true 1 (Const 0) (Const 0) (Some (Const 2)) None false true false false false 4 = Ok q) as (q & N) by (cbn; eauto).
  exists q. destruct (quasi_solve (plain [0; 1]) q initial_state) as [[q' states] r] eqn:Q. pose proof N as N'. cbn in N'. injection N' as E. subst q.
  unfold quasi_solve in Q. cbn -[evaluate read_results] in Q.
  set (k := HConfig [0; 1] 1 true true false (fun _ z => (z, false)) (fun l => l) (fun l => l) (fun l => l)) in *.
  match type of Q with context [evaluate k ?s 2] => set (s1 := s) in * end.
  assert (NI : ~ In 2 (heights s1)) by (intros [C|[]]; lra).
  pose proof (evaluate_results k s1 2 eq_refl NI eq_refl) as E.
  rewrite (touching_some k [0; 1] 2 eq_refl) in E by (exists 0; split; [now left|lra]). destruct E as [E _].
  destruct (read_results k (fst (evaluate k s1 2))) as [s3 r']. cbn in E. subst r'. cbn [bind] in Q. injection Q as <- <- <-.
  eexists _, _. split; [reflexivity|reflexivity].
Qed.
