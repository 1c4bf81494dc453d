(** C15 to C18: elastic constants, materials and remembered influence components. *)
From Coq Require Import String List Bool Arith Lia Reals Lra.
From Verif Require Import MaterialModel MaterialSpec MaterialProofs.
Import ListNotations.
Local Open Scope R_scope.

(** *** C15: any two constants of a material give all six *)

(** From two different constants of a stable isotropic material, in either order, except
    the pair (Lam, v) and the pair (E, M) of an auxetic material, the conversion returns
    that material. *)
Theorem c15_pair_recovers_material : forall c p q,
  is_material c -> p <> q ->
  ~ ((p = pLam /\ q = pv) \/ (p = pv /\ q = pLam)) ->
  ((p = pE /\ q = pM) \/ (p = pM /\ q = pE) -> 0 <= c pv) ->
  exists d, get_properties (pair_of c p q) = Ok d /\ forall r, d r = c r.
Proof. intros c p q Hm Hn Hb He. now apply get_props_material. Qed.
Print Assumptions c15_pair_recovers_material.

Example c15_steel : exists d, get_properties [("v"%string, Some (1 / 4)); ("G"%string, Some 80)] = Ok d /\
  d pE = 200 /\ d pK = 400 / 3 /\ d pLam = 80 /\ d pM = 240.
Proof. eexists. split; [reflexivity|]. cbn. repeat split; field. Qed.
Example c15_is_material : is_material (given 200 80 (400 / 3) 80 240 (1 / 4)).
Proof. unfold is_material. cbn. repeat split; try lra; field. Qed.

(** The pair (Lam, v) never works, whatever the values. *)
Theorem c15_lam_v_refuted : forall x y,
  get_properties [("Lam"%string, Some x); ("v"%string, Some y)] = Err TypeError /\
  get_properties [("v"%string, Some y); ("Lam"%string, Some x)] = Err TypeError.
Proof. intros. split; reflexivity. Qed.
Print Assumptions c15_lam_v_refuted.

(** From E and M of any auxetic material the conversion returns the constants of another
    material, with the same E and M and the positive Poisson's ratio -v/(1-v). *)
Theorem c15_E_M_auxetic_refuted : forall E v, 0 < E -> -1 < v < 0 ->
  exists c d, is_material c /\ c pE = E /\ c pv = v /\
    get_properties (pair_of c pE pM) = Ok d /\ is_material d /\
    d pE = E /\ d pM = c pM /\ d pv = - v / (1 - v) /\ d pv <> v.
Proof.
  intros E v HE Hv. destruct (auxetic_EM E v HE Hv) as (d & G & V & E1 & M & I).
  exists (from_Ev E v), d. split; [apply from_Ev_material; lra|]. repeat split; auto; try apply I.
  rewrite V. intros C. assert (0 < - v / (1 - v)) by (apply Rdiv_lt_0_compat; lra). lra.
Qed.
Print Assumptions c15_E_M_auxetic_refuted.

(** *** C16: what the conversion rejects *)

(** ValueError for anything but two properties with known names, TypeError for a missing
    value and for (Lam, v), an answer in every other case; the answer keeps the two given
    values. *)
Theorem c16_wrong_number : forall d, List.length d <> 2%nat -> get_properties d = Err ValueError.
Proof. intros [|[a b] [|[a' b'] [|? ?]]] H; try reflexivity. now contradiction H. Qed.
Print Assumptions c16_wrong_number.

Theorem c16_unknown_name : forall n1 n2 v1 v2,
  ~ (In n1 ["E"; "v"; "G"; "K"; "Lam"; "M"] /\ In n2 ["E"; "v"; "G"; "K"; "Lam"; "M"])%string ->
  get_properties [(n1, v1); (n2, v2)] = Err ValueError.
Proof.
  intros n1 n2 v1 v2 H.
  assert (K : forall n, prop_of n = None \/ In n ["E"; "v"; "G"; "K"; "Lam"; "M"]%string).
  { intros n. unfold prop_of.
    repeat (match goal with |- context[String.eqb n ?s] => destruct (String.eqb_spec n s); [subst; right; cbn; tauto|] end).
    now left. }
  cbn. destruct (K n1) as [E1|E1]; [now rewrite E1|].
  destruct (K n2) as [E2|E2]; [rewrite E2; now destruct (prop_of n1)|]. tauto.
Qed.
Print Assumptions c16_unknown_name.

Theorem c16_accepts : forall p q x y, p <> q ->
  (exists c, get_properties [(name_of p, Some x); (name_of q, Some y)] = Ok c /\ c p = x /\ c q = y) <->
  ~ ((p = pLam /\ q = pv) \/ (p = pv /\ q = pLam)).
Proof.
  intros p q x y Hn. split.
  - intros (c & E & _) [[-> ->]|[-> ->]]; discriminate E.
  - intros Hb. now apply get_pair_ok.
Qed.
Print Assumptions c16_accepts.

Theorem c16_missing_value : forall n1 n2 v1 v2,
  In n1 ["E"; "v"; "G"; "K"; "Lam"; "M"]%string -> In n2 ["E"; "v"; "G"; "K"; "Lam"; "M"]%string ->
  v1 = None \/ v2 = None ->
  get_properties [(n1, v1); (n2, v2)] = Err TypeError.
Proof.
  intros n1 n2 v1 v2 H1 H2 Hv.
  assert (P : forall n, In n ["E"; "v"; "G"; "K"; "Lam"; "M"]%string -> exists p, prop_of n = Some p).
  { intros n Hin. cbn in Hin. repeat (destruct Hin as [<-|Hin]; [eexists; reflexivity|]). destruct Hin. }
  destruct (P n1 H1) as (p1 & E1), (P n2 H2) as (p2 & E2). cbn. rewrite E1, E2.
  destruct Hv as [-> | ->]; [reflexivity|]. now destruct v1.
Qed.
Print Assumptions c16_missing_value.

(** *** C17: a material's constants come from its own last two values *)

(** Programs that always use the same two properties: whatever materials are made and
    changed in whatever order, each one's constants are the conversion of the values last
    given to it. *)
Theorem c17_own_values : forall p q os i,
  p <> q -> ~ ((p = pLam /\ q = pv) \/ (p = pv /\ q = pLam)) ->
  pair_history p q [] os -> made_in i os ->
  exists x y c, last_given i p os = Some x /\ last_given i q os = Some y /\
    get_properties [(name_of p, Some x); (name_of q, Some y)] = Ok c /\
    forall r, read_prop (erun os) i r = Some (c r).
Proof. intros p q os i Hn Hb H Hm. now apply pair_isolation. Qed.
Print Assumptions c17_own_values.

Example c17_two_materials :
  pair_history pE pv [] [Construct 0 [(pE, 200); (pv, (1 / 4))]; Construct 1 [(pv, 0); (pE, 4)];
                         Assign 0 pE 100; Assign 1 pv (1 / 4)].
Proof.
  apply ph_make; [intros []|]. apply ph_make'; [intros [C|[]]; discriminate C|].
  apply ph_set; [right; now left|now left|]. apply ph_set; [now left|now right|]. constructor.
Qed.

(** So a material made with two of its constants has all six. *)
Theorem c17_own_material : forall p q os i c,
  p <> q -> ~ ((p = pLam /\ q = pv) \/ (p = pv /\ q = pLam)) ->
  ((p = pE /\ q = pM) \/ (p = pM /\ q = pE) -> 0 <= c pv) ->
  pair_history p q [] os -> made_in i os -> is_material c ->
  last_given i p os = Some (c p) -> last_given i q os = Some (c q) ->
  forall r, read_prop (erun os) i r = Some (c r).
Proof.
  intros p q os i c Hn Hb He H Hm Hc Lp Lq r.
  destruct (pair_isolation p q Hn Hb os i H Hm) as (x & y & d & L1 & L2 & G & Rd).
  rewrite Lp in L1. rewrite Lq in L2. injection L1 as <-. injection L2 as <-.
  destruct (get_props_material c p q Hc Hn Hb He) as (d' & G' & D). unfold pair_of in G'. rewrite G in G'.
  injection G' as <-. now rewrite Rd, D.
Qed.
Print Assumptions c17_own_material.

(** The property fails for programs that mix properties. (1) Making a third material with
    the properties of the first one raises after a second one was made with others. *)
Theorem c17_construct_refuted : forall x1 y1 x2 y2 x3 y3,
  snd (construct (erun [Construct 0 [(pE, x1); (pv, y1)]; Construct 1 [(pE, x2); (pG, y2)]]) 2
    [(pE, x3); (pv, y3)]) = Err TypeError.
Proof. reflexivity. Qed.
Print Assumptions c17_construct_refuted.

(** (2) After a material was made from E and v, none can be made from Lam and something. *)
Theorem c17_construct_lam_refuted : forall x1 y1 x2 q y2,
  snd (construct (erun [Construct 0 [(pE, x1); (pv, y1)]]) 1 [(pLam, x2); (q, y2)]) = Err TypeError.
Proof. reflexivity. Qed.
Print Assumptions c17_construct_lam_refuted.

(** (3) Giving G to one material changes which constant of another one is held when its E
    is given: same operations on material 0, different Poisson's ratio. *)
Theorem c17_assign_refuted : exists before between after : list eop,
  Forall (fun o => exists p x, o = Assign 1 p x) between /\
  read_prop (erun (before ++ after)) 0 pv = Some 0 /\
  read_prop (erun (before ++ between ++ after)) 0 pv = Some (1 / 2).
Proof.
  exists [Construct 0 [(pE, 1); (pv, 0)]; Construct 1 [(pE, 1); (pv, 0)]], [Assign 1 pG 7], [Assign 0 pE (3 / 2)].
  split; [constructor; [eauto|constructor]|]. split.
  - reflexivity.
  - cbn. f_equal. field.
Qed.
Print Assumptions c17_assign_refuted.

(** (4) Deleting one property of a material drops all of them, and from then on giving
    it a value raises until two were given. *)
Theorem c17_delete_drops_all : forall os i p,
  read_prop (estep (erun os) (Delete i)) i p = None.
Proof. intros. unfold read_prop, estep, del_props, set_own. cbn [own_props]. now rewrite Nat.eqb_refl. Qed.
Print Assumptions c17_delete_drops_all.

Theorem c17_delete_refuted : forall p q x y z r, p <> q -> r = p \/ r = q ->
  ~ ((p = pLam /\ q = pv) \/ (p = pv /\ q = pLam)) ->
  snd (set_props (erun [Construct 0 [(p, x); (q, y)]; Delete 0]) 0 r z) = Err TypeError.
Proof.
  intros p q x y z r Hn Hr Hb.
  destruct p, q; try (exfalso; now apply Hn); try (exfalso; apply Hb; tauto); destruct Hr as [-> | ->]; reflexivity.
Qed.
Print Assumptions c17_delete_refuted.

(** *** C18: remembered components are the computed ones *)

(** Whatever the sequence of calls, each one returns the value of the wrapped function on
    its own arguments, and the function is called exactly for the requests that no
    earlier call made. *)
Theorem c18_memo_transparent : forall (Args Comp Val : Type) (args_eqb : Args -> Args -> bool)
    (comp_eqb : Comp -> Comp -> bool) (fn : Comp -> Args -> Val) l,
  (forall c c', comp_eqb c c' = true <-> c = c') ->
  (forall a, args_eqb a a = true) -> (forall a b, args_eqb a b = args_eqb b a) ->
  (forall a b c, args_eqb a b = true -> args_eqb b c = true -> args_eqb a c = true) ->
  (forall c a b, args_eqb a b = true -> fn c a = fn c b) ->
  let '(m, vs) := memo_run Args Comp Val args_eqb comp_eqb fn (empty_memo Args Comp Val) l in
  vs = map (fun ca => fn (fst ca) (snd ca)) l /\
  calls Args Comp Val m =
    first_requests (fun y x => comp_eqb (fst y) (fst x) && args_eqb (snd y) (snd x)) [] l.
Proof.
  intros Args Comp Val args_eqb comp_eqb fn l H1 H2 H3 H4 H5.
  apply (memo_run_spec Args Comp Val args_eqb comp_eqb fn H1 H3 H4 H5 l (empty_memo Args Comp Val) []).
  - intros a d c v [].
  - reflexivity.
Qed.
Print Assumptions c18_memo_transparent.

Example c18_three_calls :
  let '(m, vs) := memo_run nat nat nat Nat.eqb Nat.eqb (fun c a => c * 10 + a)%nat (empty_memo nat nat nat)
                    [(1, 2); (3, 2); (1, 2)]%nat in
  vs = [12; 32; 12]%nat /\ calls nat nat nat m = [(1, 2); (3, 2)]%nat.
Proof. split; reflexivity. Qed.

(** The variant for methods does not know which object it was called on: two objects
    always get the same value, so it cannot return a value that depends on the object. *)
Theorem c18_method_variant_refuted : forall (Self Args Comp Val : Type) args_eqb comp_eqb
    (fn : Comp -> Args -> Val) (own : Self -> Comp -> Args -> Val) c a s1 s2,
  own s1 c a <> own s2 c a ->
  ~ (forall s, snd (method_call args_eqb comp_eqb fn (empty_memo Args Comp Val) s c a) = own s c a).
Proof. intros Self Args Comp Val ae ce fn own c a s1 s2 H C. apply H. now rewrite <- (C s1), <- (C s2). Qed.
Print Assumptions c18_method_variant_refuted.

(** C77: the speeds of sound of a material with a known density: density times the squared speed
    is the shear modulus and the p wave modulus, and p waves are faster by at least sqrt(4/3). *)
Theorem c77_speeds : forall w i stored given_density rho c,
  is_material c -> (forall r, read_prop w i r = Some (c r)) ->
  match given_density with Some d => d = rho | None => stored = Some rho end -> 0 < rho ->
  exists s p, speed_of_sound w i stored given_density = (Some rho, Ok (s, p)) /\
    0 < s /\ 0 < p /\ rho * s ^ 2 = c pG /\ rho * p ^ 2 = c pM /\ 4 / 3 * s ^ 2 < p ^ 2.
Proof.
  intros w i stored gd rho c (HE & Hv & E1 & E2 & E3 & E4) Rd Hd Hr.
  assert (G : 0 < c pG) by nra. assert (K : 0 < c pK) by nra.
  assert (M : c pM = c pK + 4 / 3 * c pG) by lra. assert (M' : 0 < c pM) by lra.
  assert (Q : forall x, 0 < x -> 0 < sqrt (x / rho) /\ sqrt (x / rho) ^ 2 = x / rho).
  { intros x Hx. assert (0 < x / rho) by (apply Rdiv_lt_0_compat; assumption). split; [apply sqrt_lt_R0; assumption|].
    apply pow2_sqrt. lra. }
  destruct (Q _ G) as [S1 S2]. destruct (Q _ M') as [P1 P2].
  exists (sqrt (c pG / rho)), (sqrt (c pM / rho)).
  split; [unfold speed_of_sound; rewrite !Rd; destruct gd; rewrite ?Hd; reflexivity|].
  split; [exact S1|]. split; [exact P1|]. rewrite S2, P2. split; [field; lra|]. split; [field; lra|].
  rewrite M. apply (Rmult_lt_reg_r rho); [exact Hr|].
  replace (4 / 3 * (c pG / rho) * rho) with (4 / 3 * c pG) by (field; lra).
  replace ((c pK + 4 / 3 * c pG) / rho * rho) with (c pK + 4 / 3 * c pG) by (field; lra). lra.
Qed.
Print Assumptions c77_speeds.

(** Without any density it raises, and a density given once is used by later calls. *)
Theorem c77_density : forall w i stored d,
  snd (speed_of_sound w i None None) = Err ValueError /\
  speed_of_sound w i (fst (speed_of_sound w i stored (Some d))) None = speed_of_sound w i stored (Some d).
Proof. intros. split; reflexivity. Qed.
Print Assumptions c77_density.

Example c77_case : exists c, is_material c /\ forall r,
  read_prop (erun [Construct 0 [(pE, 200); (pv, 1 / 4)]]) 0 r = Some (c r).
Proof.
  exists (from_Ev 200 (1 / 4)). assert (M : is_material (from_Ev 200 (1 / 4))) by (apply from_Ev_material; lra).
  split; [exact M|]. intros r.
  apply (c17_own_material pE pv); try assumption.
  - discriminate.
  - intros [[C _]|[C _]]; discriminate C.
  - intros [[_ C]|[C _]]; discriminate C.
  - apply ph_make; [intros []|]. constructor.
  - eexists. left. reflexivity.
  - reflexivity.
  - reflexivity.
Qed.
