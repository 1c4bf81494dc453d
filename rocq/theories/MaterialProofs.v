From Coq Require Import String List Bool Reals Lra Lia Psatz.
From Verif Require Import Py MaterialModel MaterialSpec.
Import ListNotations.
Local Open Scope R_scope.

(** All constants in terms of E and v. *)
Definition from_Ev (E v : R) : consts :=
  given E (E / (2 * (1 + v))) (E / (3 * (1 - 2 * v))) (E * v / ((1 + v) * (1 - 2 * v)))
        (E * (1 - v) / ((1 + v) * (1 - 2 * v))) v.
Lemma material_from_Ev c : is_material c -> forall r, c r = from_Ev (c pE) (c pv) r.
Proof.
  intros (HE & Hv & H1 & H2 & H3 & H4).
  assert (G : c pG = c pE / (2 * (1 + c pv))) by (rewrite H1; field; lra).
  assert (K : c pK = c pE / (3 * (1 - 2 * c pv))) by (rewrite H2; field; lra).
  intros []; cbn; try reflexivity; try assumption.
  - rewrite H3, G, K. field. lra.
  - rewrite H4, H3, G, K. field. lra.
Qed.
Lemma from_Ev_material E v : 0 < E -> -1 < v < 1 / 2 -> is_material (from_Ev E v).
Proof. intros HE Hv. unfold is_material. cbn. repeat split; try lra; field; lra. Qed.

(** [from_Ev] depends on c only through E and v; used with [E = x], [v = y]. *)
Ltac fin := intros []; cbn; field; repeat split; try lra; try nra.
Section Pairs.
Variables E v : R.
Hypothesis HE : 0 < E.
Hypothesis Hv : -1 < v < 1 / 2.
Local Notation c := (from_Ev E v).
Lemma P1 : 0 < 1 + v. Proof. lra. Qed.
Lemma P2 : 0 < 1 - 2 * v. Proof. lra. Qed.
Lemma nz k a : 0 < a -> k * a <> 0 -> True. Proof. auto. Qed.
Lemma ne3GE : 3 * (E / (2 * (1 + v))) - E <> 0.
Proof.
  replace (3 * (E / (2 * (1 + v))) - E) with (E * (1 - 2 * v) / (2 * (1 + v))) by (field; lra).
  apply Rgt_not_eq. apply Rdiv_lt_0_compat; nra.
Qed.
Lemma ne9KE : 9 * (E / (3 * (1 - 2 * v))) - E <> 0.
Proof.
  replace (9 * (E / (3 * (1 - 2 * v))) - E) with (E * (2 * (1 + v)) / (1 - 2 * v)) by (field; lra).
  apply Rgt_not_eq. apply Rdiv_lt_0_compat; nra.
Qed.
End Pairs.

Lemma conv_Ev E v : 0 < E -> -1 < v < 1/2 -> forall r, exists d, convert pE pv (from_Ev E v pE) (from_Ev E v pv) = Ok d /\ d r = from_Ev E v r.
Proof. intros HE Hv r. eexists. split; [reflexivity|]. reflexivity. Qed.

Definition converts (a b : prop) (c : consts) : Prop :=
  exists d, convert a b (c a) (c b) = Ok d /\ forall r, d r = c r.

Ltac pair_solve := eexists; split; [reflexivity|]; intros []; cbn; try reflexivity; field; repeat split; nra.

Lemma all_pairs E v a b : 0 < E -> -1 < v < 1 / 2 -> (prop_index a < prop_index b)%nat ->
  ~ (a = pLam /\ b = pv) -> (a = pE -> b = pM -> 0 <= v) -> converts a b (from_Ev E v).
Proof.
  intros HE Hv Hab Hl Hm.
  assert (P1 : 0 < 1 + v) by lra. assert (P2 : 0 < 1 - 2 * v) by lra.
  assert (P12 : 0 < (1 + v) * (1 - 2 * v)) by nra.
  destruct a, b; cbn in Hab; try (exfalso; lia); try (exfalso; apply Hl; split; reflexivity).
  - (* E G *) eexists; split; [reflexivity|]; intros []; cbn; try reflexivity; field; repeat split; try nra; lra.
  - (* E K *) eexists; split; [reflexivity|]; intros []; cbn; try reflexivity; field; repeat split; try nra; lra.
  - (* E Lam *)
    assert (S : sqrt (E ^ 2 + 9 * (E * v / ((1 + v) * (1 - 2 * v))) ^ 2 + 2 * E * (E * v / ((1 + v) * (1 - 2 * v))))
      = E * (1 + 2 * v * v) / ((1 + v) * (1 - 2 * v))).
    { replace (E ^ 2 + 9 * (E * v / ((1 + v) * (1 - 2 * v))) ^ 2 + 2 * E * (E * v / ((1 + v) * (1 - 2 * v))))
        with ((E * (1 + 2 * v * v) / ((1 + v) * (1 - 2 * v))) ^ 2) by (field; lra).
      rewrite <- Rsqr_pow2. apply sqrt_Rsqr. apply Rlt_le. apply Rdiv_lt_0_compat; nra. }
    eexists; split; [reflexivity|]. intros []; cbn [given from_Ev]; rewrite ?S; try reflexivity; field; repeat split; try nra; lra.
  - (* E M *)
    specialize (Hm eq_refl eq_refl).
    assert (S : sqrt (E ^ 2 + 9 * (E * (1 - v) / ((1 + v) * (1 - 2 * v))) ^ 2 - 10 * E * (E * (1 - v) / ((1 + v) * (1 - 2 * v))))
      = 2 * v * (2 - v) * E / ((1 + v) * (1 - 2 * v))).
    { replace (E ^ 2 + 9 * (E * (1 - v) / ((1 + v) * (1 - 2 * v))) ^ 2 - 10 * E * (E * (1 - v) / ((1 + v) * (1 - 2 * v))))
        with ((2 * v * (2 - v) * E / ((1 + v) * (1 - 2 * v))) ^ 2) by (field; lra).
      rewrite <- Rsqr_pow2. apply sqrt_Rsqr. apply Rmult_le_pos; [|apply Rlt_le; now apply Rinv_0_lt_compat].
      assert (0 <= v * (2 - v)) by (apply Rmult_le_pos; lra). nra. }
    eexists; split; [reflexivity|]. intros []; cbn [given from_Ev]; rewrite ?S; try reflexivity; field; repeat split; try nra; lra.
  - (* E v *) eexists; split; [reflexivity|]; intros []; cbn; reflexivity.
  - (* G K *) eexists; split; [reflexivity|]; intros []; cbn; try reflexivity; field; repeat split; try nra; lra.
  - (* G Lam *) eexists; split; [reflexivity|]; intros []; cbn; try reflexivity; field; repeat split; try nra; lra.
  - (* G M *) eexists; split; [reflexivity|]; intros []; cbn; try reflexivity; field; repeat split; try nra; lra.
  - (* G v *) eexists; split; [reflexivity|]; intros []; cbn; try reflexivity; field; repeat split; try nra; lra.
  - (* K Lam *) eexists; split; [reflexivity|]; intros []; cbn; try reflexivity; field; repeat split; try nra; lra.
  - (* K M *) eexists; split; [reflexivity|]; intros []; cbn; try reflexivity; field; repeat split; try nra; lra.
  - (* K v *) eexists; split; [reflexivity|]; intros []; cbn; try reflexivity; field; repeat split; try nra; lra.
  - (* Lam M *) eexists; split; [reflexivity|]; intros []; cbn; try reflexivity; field; repeat split; try nra; lra.
  - (* M v *) eexists; split; [reflexivity|]; intros []; cbn; try reflexivity; field; repeat split; try nra; lra.
Qed.

Lemma prop_index_inj p q : prop_index p = prop_index q -> p = q.
Proof. destruct p, q; cbn; intros H; try reflexivity; discriminate. Qed.
Lemma prop_eqb_eq p q : prop_eqb p q = true <-> p = q.
Proof.
  unfold prop_eqb. rewrite Nat.eqb_eq. split; [apply prop_index_inj|congruence].
Qed.
Lemma prop_eqb_refl p : prop_eqb p p = true.
Proof. now apply prop_eqb_eq. Qed.
Lemma prop_eqb_ne p q : p <> q -> prop_eqb p q = false.
Proof. intros H. destruct (prop_eqb p q) eqn:E; [|reflexivity]. apply prop_eqb_eq in E. contradiction. Qed.
Lemma prop_of_name p : prop_of (name_of p) = Some p.
Proof. destruct p; reflexivity. Qed.
Lemma name_of_inj p q : name_of p = name_of q -> p = q.
Proof. intros H. apply (f_equal prop_of) in H. rewrite !prop_of_name in H. congruence. Qed.

Lemma get_pair p q x y : get_properties [(name_of p, Some x); (name_of q, Some y)] =
  if Nat.leb (prop_index p) (prop_index q) then convert p q x y else convert q p y x.
Proof. unfold get_properties. now rewrite !prop_of_name. Qed.
Lemma get_pair_sym p q x y : p <> q ->
  get_properties [(name_of p, Some x); (name_of q, Some y)] = get_properties [(name_of q, Some y); (name_of p, Some x)].
Proof.
  intros H. rewrite !get_pair.
  assert (N : prop_index p <> prop_index q) by (intros C; apply H; now apply prop_index_inj).
  destruct (Nat.leb_spec (prop_index p) (prop_index q)), (Nat.leb_spec (prop_index q) (prop_index p)); try lia; reflexivity.
Qed.
Definition bad_pair (p q : prop) : Prop := (p = pLam /\ q = pv) \/ (p = pv /\ q = pLam).
Lemma get_pair_ok p q x y : p <> q -> ~ bad_pair p q ->
  exists c, get_properties [(name_of p, Some x); (name_of q, Some y)] = Ok c /\ c p = x /\ c q = y.
Proof.
  intros Hn Hb. rewrite get_pair. unfold bad_pair in Hb.
  destruct p, q; try (exfalso; now apply Hn); cbn;
    try (exfalso; apply Hb; tauto); eexists; (split; [reflexivity|]); cbn; auto.
Qed.
Lemma get_props_material c p q : is_material c -> p <> q -> ~ bad_pair p q ->
  ((p = pE /\ q = pM) \/ (p = pM /\ q = pE) -> 0 <= c pv) ->
  exists d, get_properties (pair_of c p q) = Ok d /\ forall r, d r = c r.
Proof.
  intros Hm Hn Hb Hem. pose proof (material_from_Ev c Hm) as F. destruct Hm as (HE & Hv & _).
  unfold pair_of. rewrite get_pair. unfold bad_pair in Hb.
  assert (N : prop_index p <> prop_index q) by (intros C; apply Hn; now apply prop_index_inj).
  destruct (Nat.leb_spec (prop_index p) (prop_index q)).
  - destruct (all_pairs (c pE) (c pv) p q HE Hv) as (d & E & D).
    + lia.
    + tauto.
    + intros -> ->. apply Hem. tauto.
    + rewrite <- !F in E. exists d. split; [exact E|]. intros r. now rewrite D, <- F.
  - destruct (all_pairs (c pE) (c pv) q p HE Hv) as (d & E & D).
    + lia.
    + tauto.
    + intros -> ->. apply Hem. tauto.
    + rewrite <- !F in E. exists d. split; [exact E|]. intros r. now rewrite D, <- F.
Qed.

(** The pair E and M with v < 0. *)
Lemma auxetic_EM E v : 0 < E -> -1 < v < 0 ->
  exists d, get_properties (pair_of (from_Ev E v) pE pM) = Ok d /\ d pv = - v / (1 - v) /\ d pE = E /\
    d pM = from_Ev E v pM /\ is_material d.
Proof.
  intros HE Hv. unfold pair_of. rewrite get_pair. cbn [prop_index Nat.leb].
  assert (P1 : 0 < 1 + v) by lra. assert (P2 : 0 < 1 - 2 * v) by lra.
  assert (P12 : 0 < (1 + v) * (1 - 2 * v)) by nra.
  assert (S : sqrt (E ^ 2 + 9 * (E * (1 - v) / ((1 + v) * (1 - 2 * v))) ^ 2 - 10 * E * (E * (1 - v) / ((1 + v) * (1 - 2 * v))))
      = 2 * (- v) * (2 - v) * E / ((1 + v) * (1 - 2 * v))).
  { replace (E ^ 2 + 9 * (E * (1 - v) / ((1 + v) * (1 - 2 * v))) ^ 2 - 10 * E * (E * (1 - v) / ((1 + v) * (1 - 2 * v))))
        with ((2 * (- v) * (2 - v) * E / ((1 + v) * (1 - 2 * v))) ^ 2) by (field; lra).
    rewrite <- Rsqr_pow2. apply sqrt_Rsqr. apply Rmult_le_pos; [|apply Rlt_le; now apply Rinv_0_lt_compat].
    assert (0 <= (- v) * (2 - v)) by (apply Rmult_le_pos; lra). nra. }
  eexists. split; [reflexivity|]. unfold is_material. cbn [given from_Ev convert]. rewrite S.
  assert (V : (E - E * (1 - v) / ((1 + v) * (1 - 2 * v)) + 2 * - v * (2 - v) * E / ((1 + v) * (1 - 2 * v))) /
    (4 * (E * (1 - v) / ((1 + v) * (1 - 2 * v)))) = - v / (1 - v)) by (field; repeat split; try nra; lra).
  split; [exact V|]. split; [reflexivity|]. split; [reflexivity|]. rewrite V.
  split; [exact HE|]. split.
  - split.
    + apply Rlt_le_trans with 0; [lra|]. apply Rmult_le_pos; [lra|]. apply Rlt_le, Rinv_0_lt_compat. lra.
    + apply Rmult_lt_reg_r with (1 - v); [lra|]. unfold Rdiv. rewrite Rmult_assoc, Rinv_l by lra. lra.
  - repeat split; field; repeat split; try nra; lra.
Qed.

(** ** Histories over one pair *)
Section PairHistories.
Variables p q : prop.
Hypothesis Hpq : p <> q.
Hypothesis Hgood : ~ bad_pair p q.

Definition other (r : prop) : prop := if prop_eqb r p then q else p.
(** last_set has two elements and alternates. *)
Fixpoint alternates (l : list prop) : Prop :=
  match l with
  | r :: ((s :: _) as l') => (r = p \/ r = q) /\ s = other r /\ alternates l'
  | [r] => r = p \/ r = q
  | [] => True
  end.
Definition pinv (made : list nat) (vals : nat -> R * R) (w : classes) : Prop :=
  (made = [] -> w = first_state) /\
  (made <> [] -> alternates (last_set w) /\ (2 <= length (last_set w))%nat /\
     class_props w p <> None /\ class_props w q <> None) /\
  (forall i, ~ In i made -> own_props w i = None) /\
  (forall i, In i made -> exists c d, own_props w i = Some d /\ (forall r, d r = Some (c r)) /\
     get_properties [(name_of p, Some (fst (vals i))); (name_of q, Some (snd (vals i)))] = Ok c).

Lemma other_ne r : r = p \/ r = q -> other r <> r /\ (other r = p \/ other r = q).
Proof.
  unfold other. intros [->| ->].
  - rewrite prop_eqb_refl. split; [congruence|auto].
  - rewrite (prop_eqb_ne q p) by congruence. auto.
Qed.
Lemma other_other r s : r = p \/ r = q -> s = p \/ s = q -> r <> s -> other r = s.
Proof.
  unfold other. intros [->| ->] [->| ->] H; try congruence.
  - now rewrite prop_eqb_refl.
  - now rewrite (prop_eqb_ne q p) by congruence.
Qed.

(** Setting [r] when the list has two elements: the new list alternates, starts with
    [r] and the conversion is done with the other property. *)
Lemma set_two w i r x y : alternates (last_set w) -> (2 <= length (last_set w))%nat -> r = p \/ r = q ->
  let mine := match own_props w i with Some d => d | None => class_props w end in
  mine (other r) = Some y ->
  exists c ls cp, get_properties [(name_of r, Some x); (name_of (other r), Some y)] = Ok c /\
    set_props w i r x = (Classes cp ls (set_own (match own_props w i with
        | Some d => set_own (own_props w) i (pset d r x) | None => own_props w end) i (fun s => Some (c s))), Ok tt) /\
    alternates ls /\ (2 <= length ls)%nat /\
    cp = (match own_props w i with Some _ => class_props w | None => pset (class_props w) r x end).
Proof.
  intros Ha Hl Hr mine Hy. unfold set_props.
  destruct (last_set w) as [|a [|b l]] eqn:El; cbn in Hl; try lia.
  destruct Ha as (Ha1 & Ha2 & Ha3).
  set (w1 := match own_props w i with Some d => _ | None => _ end).
  assert (L1 : last_set w1 = a :: b :: l) by (unfold w1; destruct (own_props w i); cbn; first [exact El | reflexivity]).
  rewrite L1.
  assert (Hls : exists ls', (if prop_eqb a r then a :: b :: l else r :: a :: b :: l) = r :: other r :: ls' /\
     alternates (r :: other r :: ls')).
  { destruct (prop_eqb a r) eqn:Ea.
    - apply prop_eqb_eq in Ea. subst a. exists l. rewrite Ha2 in *. split; [reflexivity|].
      cbn. cbn in Ha3. auto.
    - exists (b :: l). assert (Na : a <> r) by (intros ->; rewrite prop_eqb_refl in Ea; discriminate).
      assert (Eo : other r = a) by (apply other_other; auto). rewrite Eo. split; [reflexivity|].
      cbn. split; [exact Hr|]. split; [now rewrite Eo|]. cbn in Ha3. auto. }
  destruct Hls as (ls' & -> & Halt).
  destruct (other_ne r Hr) as [Nr Or].
  assert (Hm : (match own_props w1 i with Some d => d | None => class_props w1 end) (other r) = Some y).
  { unfold w1, mine in *. destruct (own_props w i) as [d|] eqn:Eo; cbn.
    - unfold set_own. rewrite Nat.eqb_refl. unfold pset. now rewrite prop_eqb_ne.
    - rewrite Eo. unfold pset. now rewrite prop_eqb_ne. }
  destruct (get_pair_ok r (other r) x y) as (c & Ec & _).
  { congruence. }
  { unfold bad_pair in *. destruct Hr as [->| ->]; unfold other; rewrite ?prop_eqb_refl, ?(prop_eqb_ne q p) by congruence; tauto. }
  exists c, (r :: other r :: ls'), (class_props w1). split; [exact Ec|]. split.
  - cbn [own_props class_props]. rewrite Hm, Ec. unfold w1. destruct (own_props w i); reflexivity.
  - split; [exact Halt|]. split; [cbn; lia|]. unfold w1. destruct (own_props w i); reflexivity.
Qed.

Lemma pair_get_other r x y : r = p \/ r = q ->
  get_properties [(name_of r, Some x); (name_of (other r), Some y)] =
  get_properties (if prop_eqb r p then [(name_of p, Some x); (name_of q, Some y)]
                  else [(name_of p, Some y); (name_of q, Some x)]).
Proof.
  intros [->| ->]; unfold other; rewrite ?prop_eqb_refl, ?(prop_eqb_ne q p) by congruence; [reflexivity|].
  apply get_pair_sym. congruence.
Qed.

Definition put (vals : nat -> R * R) (i : nat) (v : R * R) : nat -> R * R := fun j => if Nat.eqb j i then v else vals j.

Lemma set_own_get (f : nat -> option props) i d j : set_own f i d j = if Nat.eqb j i then Some d else f j.
Proof. reflexivity. Qed.

(** A later assignment. *)
Lemma pinv_assign made vals w i r x : pinv made vals w -> In i made -> r = p \/ r = q ->
  pinv made (put vals i (if prop_eqb r p then (x, snd (vals i)) else (fst (vals i), x)))
    (fst (set_props w i r x)).
Proof.
  intros (I1 & I2 & I3 & I4) Hi Hr.
  assert (Hne : made <> []) by (intros ->; destruct Hi).
  destruct (I2 Hne) as (A1 & A2 & A3 & A4).
  destruct (I4 i Hi) as (c & d & Ed & Hd & Ec).
  destruct (get_pair_ok p q (fst (vals i)) (snd (vals i)) Hpq Hgood) as (c0 & Ec0 & Cp & Cq).
  rewrite Ec in Ec0. injection Ec0 as <-.
  set (y := if prop_eqb r p then snd (vals i) else fst (vals i)).
  assert (Hy : (match own_props w i with Some d => d | None => class_props w end) (other r) = Some y).
  { rewrite Ed, Hd. unfold y, other. destruct (prop_eqb r p); congruence. }
  destruct (set_two w i r x y A1 A2 Hr Hy) as (c' & ls & cp & Ec' & Es & B1 & B2 & B3).
  rewrite Es. cbn [fst]. rewrite Ed in Es, B3 |- *. subst cp.
  split; [intros C; contradiction|]. split; [intros _; cbn; auto|]. split.
  - intros j Hj. cbn. rewrite !set_own_get. destruct (Nat.eqb_spec j i) as [->|]; [contradiction|]. now apply I3.
  - intros j Hj. cbn. unfold put. destruct (Nat.eqb_spec j i) as [->|Nj].
    + exists c', (fun s => Some (c' s)). rewrite set_own_get, Nat.eqb_refl. split; [reflexivity|]. split; [reflexivity|].
      rewrite pair_get_other in Ec' by exact Hr. unfold y in Ec'.
      destruct (prop_eqb r p); cbn [fst snd]; exact Ec'.
    + destruct (I4 j Hj) as (cj & dj & E1 & E2 & E3). exists cj, dj.
      rewrite !set_own_get. destruct (Nat.eqb_spec j i); [contradiction|]. auto.
Qed.

(** Making a material with [r] first and then the other one. *)
Lemma pinv_make made vals w i r x y : pinv made vals w -> ~ In i made -> r = p \/ r = q ->
  pinv (i :: made) (put vals i (if prop_eqb r p then (x, y) else (y, x)))
    (fst (construct w i [(r, x); (other r, y)])).
Proof.
  intros (I1 & I2 & I3 & I4) Hi Hr. unfold construct. cbn [length Nat.ltb Nat.leb set_all].
  destruct (other_ne r Hr) as [Nr Or].
  assert (Oo : other (other r) = r) by (apply other_other; auto).
  assert (Fin : forall w1, last_set w1 <> [] -> alternates (last_set w1) -> (2 <= length (last_set w1) \/ last_set w1 = [r])%nat ->
    (forall j, j <> i -> own_props w1 j = own_props w j) ->
    (match own_props w1 i with Some d => d | None => class_props w1 end) r = Some x ->
    (own_props w1 i = None -> class_props w1 r <> None) ->
    (own_props w1 i <> None -> class_props w1 p <> None /\ class_props w1 q <> None) ->
    exists w2, set_props w1 i (other r) y = (w2, Ok tt) /\
      pinv (i :: made) (put vals i (if prop_eqb r p then (x, y) else (y, x))) w2).
  { intros w1 L0 La Ll Ho Hm Hc Hc2.
    assert (Conv : exists c', get_properties [(name_of (other r), Some y); (name_of r, Some x)] = Ok c' /\
       get_properties (if prop_eqb r p then [(name_of p, Some x); (name_of q, Some y)]
                       else [(name_of p, Some y); (name_of q, Some x)]) = Ok c').
    { rewrite <- pair_get_other by exact Hr. rewrite (get_pair_sym (other r) r) by congruence.
      destruct (get_pair_ok r (other r) x y) as (c' & Ec' & _); [congruence| |eauto].
      unfold bad_pair in *. destruct Hr as [->| ->]; unfold other; rewrite ?prop_eqb_refl, ?(prop_eqb_ne q p) by congruence; tauto. }
    destruct Conv as (c' & Ec1 & Ec2).
    assert (Build : forall cp ls own, alternates ls -> (2 <= length ls)%nat -> cp p <> None -> cp q <> None ->
      (forall j, j <> i -> own j = own_props w j) -> own i = Some (fun s => Some (c' s)) ->
      pinv (i :: made) (put vals i (if prop_eqb r p then (x, y) else (y, x))) (Classes cp ls own)).
    { intros cp ls own B1 B2 B3 B4 B5 B6. split; [discriminate|]. split; [intros _; cbn; auto|]. split.
      - intros j Hj. cbn in *. rewrite B5 by (intros ->; tauto). apply I3. tauto.
      - intros j Hj. cbn [own_props]. unfold put. destruct (Nat.eqb_spec j i) as [->|Nj].
        + exists c', (fun s => Some (c' s)). rewrite B6. split; [reflexivity|]. split; [reflexivity|].
          destruct (prop_eqb r p); exact Ec2.
        + rewrite B5 by exact Nj. apply I4. destruct Hj as [->|Hj]; [contradiction|exact Hj]. }
    assert (Cpq : forall cp : props, cp r <> None -> cp (other r) <> None -> cp p <> None /\ cp q <> None).
    { intros cp H1 H2. destruct Hr as [->| ->]; unfold other in H2; rewrite ?prop_eqb_refl, ?(prop_eqb_ne q p) in H2 by congruence; auto. }
    destruct Ll as [Ll|Ll].
    - assert (Hy : (match own_props w1 i with Some d => d | None => class_props w1 end) (other (other r)) = Some x) by (rewrite Oo; exact Hm).
      destruct (set_two w1 i (other r) y x La Ll Or Hy) as (c2 & ls & cp & Ec & Es & B1 & B2 & B3).
      rewrite Oo in Ec. rewrite Ec1 in Ec. injection Ec as <-.
      eexists. split; [exact Es|]. subst cp.
      assert (Hcp : (match own_props w1 i with Some _ => class_props w1 | None => pset (class_props w1) (other r) y end) p <> None /\
                    (match own_props w1 i with Some _ => class_props w1 | None => pset (class_props w1) (other r) y end) q <> None).
      { destruct (own_props w1 i) as [d|] eqn:Eo; [apply Hc2; discriminate|]. apply Cpq.
        - unfold pset. rewrite prop_eqb_ne by congruence. now apply Hc.
        - unfold pset. rewrite prop_eqb_refl. discriminate. }
      apply Build; try tauto.
      + intros j Hj. rewrite set_own_get. destruct (Nat.eqb_spec j i); [contradiction|].
        destruct (own_props w1 i); [rewrite set_own_get; destruct (Nat.eqb_spec j i); [contradiction|]|]; now apply Ho.
      + rewrite set_own_get, Nat.eqb_refl. reflexivity.
    - (* the very first material *)
      unfold set_props. set (w2 := match own_props w1 i with Some d => _ | None => _ end).
      assert (L2 : last_set w2 = [r]) by (unfold w2; destruct (own_props w1 i); exact Ll).
      rewrite L2. rewrite (prop_eqb_ne r (other r)) by congruence. cbn [own_props class_props].
      assert (Hm2 : (match own_props w2 i with Some d => d | None => class_props w2 end) r = Some x).
      { unfold w2. destruct (own_props w1 i) as [d|] eqn:Eo; cbn.
        - rewrite set_own_get, Nat.eqb_refl. unfold pset. now rewrite prop_eqb_ne by congruence.
        - rewrite Eo. unfold pset. now rewrite prop_eqb_ne by congruence. }
      rewrite Hm2, Ec1. eexists. split; [reflexivity|].
      assert (Hcp : class_props w2 p <> None /\ class_props w2 q <> None).
      { unfold w2. destruct (own_props w1 i) as [d|] eqn:Eo; cbn; [apply Hc2; discriminate|]. apply Cpq.
        - unfold pset. rewrite prop_eqb_ne by congruence. now apply Hc.
        - unfold pset. rewrite prop_eqb_refl. discriminate. }
      apply Build; try tauto.
      + cbn. split; [exact Or|]. split; [now rewrite Oo|exact Hr].
      + cbn. lia.
      + intros j Hj. rewrite set_own_get. destruct (Nat.eqb_spec j i); [contradiction|]. unfold w2.
        destruct (own_props w1 i); cbn; [rewrite set_own_get; destruct (Nat.eqb_spec j i); [contradiction|]|]; now apply Ho.
      + rewrite set_own_get, Nat.eqb_refl. reflexivity. }
  destruct made as [|m0 made'].
  - rewrite (I1 eq_refl) in *.
    set (w1 := fst (set_props first_state i r x)).
    assert (Es : set_props first_state i r x = (w1, Ok tt)) by reflexivity.
    rewrite Es. destruct (Fin w1) as (w2 & E2 & P2).
    + unfold w1; cbn. discriminate.
    + unfold w1; cbn. exact Hr.
    + unfold w1; cbn. now right.
    + unfold w1; cbn. reflexivity.
    + unfold w1; cbn. unfold pset. now rewrite prop_eqb_refl.
    + unfold w1; cbn. intros _. unfold pset. rewrite prop_eqb_refl. discriminate.
    + unfold w1; cbn. congruence.
    + rewrite E2. exact P2.
  - assert (Hne : m0 :: made' <> []) by discriminate. destruct (I2 Hne) as (A1 & A2 & A3 & A4).
    assert (Hex : exists z, class_props w (other r) = Some z).
    { destruct (class_props w (other r)) eqn:Ez; [eauto|]. exfalso. destruct Or as [O|O]; rewrite O in Ez; congruence. }
    destruct Hex as (z & Hz).
    assert (Hy : (match own_props w i with Some d => d | None => class_props w end) (other r) = Some z).
    { now rewrite (I3 i Hi). }
    destruct (set_two w i r x z A1 A2 Hr Hy) as (c1 & ls & cp & Ec & Es & B1 & B2 & B3).
    rewrite (I3 i Hi) in Es, B3. rewrite Es.
    match type of Es with _ = (?W, _) => set (w1 := W) in * end.
    assert (Cr : c1 r = x).
    { rewrite pair_get_other in Ec by exact Hr.
      destruct (prop_eqb r p) eqn:Er.
      - apply prop_eqb_eq in Er. subst r. destruct (get_pair_ok p q x z Hpq Hgood) as (c2 & E2 & C1 & C2). congruence.
      - assert (r = q) by (destruct Hr as [->|]; [rewrite prop_eqb_refl in Er; discriminate|assumption]). subst r.
        destruct (get_pair_ok p q z x Hpq Hgood) as (c2 & E2 & C1 & C2). congruence. }
    assert (Hcp : cp p <> None /\ cp q <> None).
    { subst cp. unfold pset. split; [destruct (prop_eqb p r)|destruct (prop_eqb q r)]; congruence. }
    destruct (Fin w1) as (w2 & E2 & P2).
    + unfold w1; cbn. intros C. rewrite C in B2. cbn in B2. lia.
    + unfold w1; cbn. exact B1.
    + unfold w1; cbn. now left.
    + unfold w1; cbn. intros j Hj. rewrite set_own_get. destruct (Nat.eqb_spec j i); [contradiction|reflexivity].
    + unfold w1; cbn. rewrite set_own_get, Nat.eqb_refl. congruence.
    + unfold w1; cbn. rewrite set_own_get, Nat.eqb_refl. discriminate.
    + unfold w1; cbn. intros _. exact Hcp.
    + rewrite E2. exact P2.
Qed.

Definition value_after (os : list eop) (vals : nat -> R * R) (i : nat) : R * R :=
  (match last_given i p os with Some x => x | None => fst (vals i) end,
   match last_given i q os with Some x => x | None => snd (vals i) end).
Lemma pair_run made os : pair_history p q made os -> forall vals w, pinv made vals w ->
  exists made', (forall i, In i made' <-> In i made \/ made_in i os) /\
  pinv made' (value_after os vals) (fold_left estep os w).
Proof.
  assert (Ext : forall made v1 v2 w, (forall i, v1 i = v2 i) -> pinv made v1 w -> pinv made v2 w).
  { intros md v1 v2 w H (I1 & I2 & I3 & I4). repeat split; auto; try (now apply I2).
    intros i Hi. rewrite <- H. now apply I4. }
  induction 1 as [made|made i x y os Hi H IH|made i x y os Hi H IH|made i r x os Hi Hr H IH]; intros vals w P.
  - exists made. split; [|exact P]. intros i. split; [auto|]. intros [H|(l & [])]. exact H.
  - pose proof (pinv_make made vals w i p x y P Hi (or_introl eq_refl)) as P1.
    assert (Eo : other p = q) by (unfold other; now rewrite prop_eqb_refl). rewrite Eo, prop_eqb_refl in P1.
    destruct (IH _ _ P1) as (made' & M & P2). exists made'. split.
    + intros j. rewrite M. unfold made_in. split.
      * intros [[->|Hj]|(l & Hl)]; [right; eexists; now left|now left|right; exists l; now right].
      * intros [Hj|(l & [Hl|Hl])]; [left; now right| |right; now exists l].
        injection Hl as -> _. left. now left.
    + eapply Ext; [|exact P2]. intros j. unfold value_after, put. cbn.
      destruct (Nat.eqb_spec j i) as [->|Nj].
      * rewrite ?Nat.eqb_refl, ?prop_eqb_refl, ?(prop_eqb_ne q p), ?(prop_eqb_ne p q) by congruence.
        destruct (last_given i p os), (last_given i q os); reflexivity.
      * destruct (Nat.eqb_spec i j); [congruence|].
        destruct (last_given j p os), (last_given j q os); reflexivity.
  - pose proof (pinv_make made vals w i q y x P Hi (or_intror eq_refl)) as P1.
    assert (Eo : other q = p) by (unfold other; now rewrite (prop_eqb_ne q p) by congruence).
    rewrite Eo, (prop_eqb_ne q p) in P1 by congruence.
    destruct (IH _ _ P1) as (made' & M & P2). exists made'. split.
    + intros j. rewrite M. unfold made_in. split.
      * intros [[->|Hj]|(l & Hl)]; [right; eexists; now left|now left|right; exists l; now right].
      * intros [Hj|(l & [Hl|Hl])]; [left; now right| |right; now exists l].
        injection Hl as -> _. left. now left.
    + eapply Ext; [|exact P2]. intros j. unfold value_after, put. cbn.
      destruct (Nat.eqb_spec j i) as [->|Nj].
      * rewrite ?Nat.eqb_refl, ?prop_eqb_refl, ?(prop_eqb_ne q p), ?(prop_eqb_ne p q) by congruence.
        destruct (last_given i p os), (last_given i q os); reflexivity.
      * destruct (Nat.eqb_spec i j); [congruence|].
        destruct (last_given j p os), (last_given j q os); reflexivity.
  - pose proof (pinv_assign made vals w i r x P Hi Hr) as P1.
    destruct (IH _ _ P1) as (made' & M & P2). exists made'. split.
    + intros j. rewrite M. unfold made_in. split.
      * intros [Hj|(l & Hl)]; [now left|right; exists l; now right].
      * intros [Hj|(l & [Hl|Hl])]; [now left|discriminate|right; now exists l].
    + eapply Ext; [|exact P2]. intros j. unfold value_after, put. cbn.
      destruct (Nat.eqb_spec j i) as [->|Nj].
      * rewrite Nat.eqb_refl. cbn. destruct Hr as [->| ->].
        -- rewrite prop_eqb_refl, (prop_eqb_ne p q) by congruence.
           destruct (last_given i p os), (last_given i q os); reflexivity.
        -- rewrite prop_eqb_refl, (prop_eqb_ne q p) by congruence.
           destruct (last_given i p os), (last_given i q os); reflexivity.
      * destruct (Nat.eqb_spec i j); [congruence|]. cbn.
        destruct (last_given j p os), (last_given j q os); reflexivity.
Qed.

Lemma made_given os made i : pair_history p q made os -> made_in i os ->
  last_given i p os <> None /\ last_given i q os <> None.
Proof.
  intros H. induction H as [made|made j x y os Hi H IH|made j x y os Hi H IH|made j r x os Hi Hr H IH];
    intros (l & Hl); [destruct Hl| | |].
  - destruct Hl as [Hl|Hl].
    + injection Hl as -> _. cbn. rewrite ?Nat.eqb_refl, ?prop_eqb_refl, ?(prop_eqb_ne q p), ?(prop_eqb_ne p q) by congruence.
      split; [destruct (last_given i p os)|destruct (last_given i q os)]; discriminate.
    + destruct IH as [IH1 IH2]; [now exists l|]. cbn. destruct (last_given i p os), (last_given i q os); auto; discriminate.
  - destruct Hl as [Hl|Hl].
    + injection Hl as -> _. cbn. rewrite ?Nat.eqb_refl, ?prop_eqb_refl, ?(prop_eqb_ne q p), ?(prop_eqb_ne p q) by congruence.
      split; [destruct (last_given i p os)|destruct (last_given i q os)]; discriminate.
    + destruct IH as [IH1 IH2]; [now exists l|]. cbn. destruct (last_given i p os), (last_given i q os); auto; discriminate.
  - destruct Hl as [Hl|Hl]; [discriminate|].
    destruct IH as [IH1 IH2]; [now exists l|]. cbn. destruct (last_given i p os), (last_given i q os); auto; discriminate.
Qed.

Lemma pair_isolation os i : pair_history p q [] os -> made_in i os ->
  exists x y c, last_given i p os = Some x /\ last_given i q os = Some y /\
    get_properties [(name_of p, Some x); (name_of q, Some y)] = Ok c /\
    forall r, read_prop (erun os) i r = Some (c r).
Proof.
  intros H Hm. destruct (made_given os [] i H Hm) as [Gp Gq].
  assert (P0 : pinv [] (fun _ => (0, 0)) first_state).
  { repeat split; try reflexivity; intros; try contradiction. }
  destruct (pair_run [] os H _ _ P0) as (made' & M & (_ & _ & _ & P4)).
  destruct (P4 i) as (c & d & E1 & E2 & E3); [apply M; now right|].
  unfold value_after in E3. cbn [fst snd] in E3.
  destruct (last_given i p os) as [x|]; [|contradiction]. destruct (last_given i q os) as [y|]; [|contradiction].
  exists x, y, c. repeat split; auto. intros r. unfold read_prop, erun. rewrite E1. apply E2.
Qed.
End PairHistories.

(** ** Memoisation *)
Section MemoProofs.
Variables Args Comp Val : Type.
Variable args_eqb : Args -> Args -> bool.
Variable comp_eqb : Comp -> Comp -> bool.
Variable fn : Comp -> Args -> Val.
Hypothesis comp_eq : forall c c', comp_eqb c c' = true <-> c = c'.
Hypothesis args_refl : forall a, args_eqb a a = true.
Hypothesis args_sym : forall a b, args_eqb a b = args_eqb b a.
Hypothesis args_trans : forall a b c, args_eqb a b = true -> args_eqb b c = true -> args_eqb a c = true.
Hypothesis fn_respects : forall c a b, args_eqb a b = true -> fn c a = fn c b.
Local Notation memo_in := (memo_in Args Comp Val args_eqb comp_eqb fn).
Local Notation clookup := (clookup Comp Val comp_eqb).

Definition good (es : list (Args * list (Comp * Val))) : Prop :=
  forall a d c v, In (a, d) es -> In (c, v) d -> v = fn c a.
Lemma clookup_in c d v : clookup c d = Some v -> In (c, v) d.
Proof.
  induction d as [|[c' v'] d IH]; cbn; [discriminate|]. destruct (comp_eqb c' c) eqn:E.
  - apply comp_eq in E. subst c'. intros H. injection H as ->. now left.
  - intros H. right. now apply IH.
Qed.
Lemma memo_in_good es c a : good es ->
  let '(es', v, _) := memo_in es c a in good es' /\ v = fn c a.
Proof.
  induction es as [|[a' d] es IH]; intros G; cbn.
  - split; [|reflexivity]. intros a0 d0 c0 v0 [E|[]] Hv. injection E as <- <-. destruct Hv as [Hv|[]]. now injection Hv as <- <-.
  - destruct (args_eqb a' a) eqn:E.
    + destruct (clookup c d) as [v|] eqn:L.
      * split; [exact G|]. apply clookup_in in L. rewrite (G a' d c v (or_introl eq_refl) L). now apply fn_respects.
      * split; [|reflexivity]. intros a0 d0 c0 v0 [Eq|Hin] Hv.
        -- injection Eq as <- <-. apply in_app_iff in Hv as [Hv|[Hv|[]]].
           ++ now apply (G a' d c0 v0 (or_introl eq_refl)).
           ++ injection Hv as <- <-. symmetry. now apply fn_respects.
        -- eapply G; [right; exact Hin|exact Hv].
    + assert (G' : good es) by (intros a0 d0 c0 v0 Hin; apply G; now right).
      specialize (IH G'). destruct (memo_in es c a) as [[es' v] cs]. destruct IH as [I1 I2]. split; [|exact I2].
      intros a0 d0 c0 v0 [Eq|Hin] Hv.
      * injection Eq as <- <-. eapply G; [now left|exact Hv].
      * eapply I1; eauto.
Qed.
Fixpoint seen (es : list (Args * list (Comp * Val))) (c : Comp) (a : Args) : bool :=
  match es with
  | [] => false
  | (a', d) :: es' => if args_eqb a' a then match clookup c d with Some _ => true | None => false end else seen es' c a
  end.
Lemma clookup_app c d e : clookup c (d ++ e) = match clookup c d with Some v => Some v | None => clookup c e end.
Proof. induction d as [|[c' v'] d IH]; cbn; [reflexivity|]. destruct (comp_eqb c' c); [reflexivity|exact IH]. Qed.
Lemma args_cong a b c : args_eqb a b = true -> args_eqb a c = args_eqb b c.
Proof.
  intros H. destruct (args_eqb b c) eqn:E.
  - eapply args_trans; eauto.
  - destruct (args_eqb a c) eqn:F; [|reflexivity]. rewrite <- E. symmetry. eapply args_trans; [|exact F]. now rewrite args_sym.
Qed.
Lemma memo_in_calls es c a : snd (memo_in es c a) = if seen es c a then [] else [(c, a)].
Proof.
  induction es as [|[a' d] es IH]; cbn; [reflexivity|].
  destruct (args_eqb a' a); [destruct (clookup c d); reflexivity|].
  destruct (memo_in es c a) as [[es' v] cs]. exact IH.
Qed.
Lemma memo_in_seen es c0 a0 c a :
  seen (fst (fst (memo_in es c0 a0))) c a = seen es c a || (comp_eqb c0 c && args_eqb a0 a).
Proof.
  induction es as [|[a' d] es IH]; cbn.
  - destruct (args_eqb a0 a); [|now rewrite andb_false_r]. cbn. destruct (comp_eqb c0 c); reflexivity.
  - destruct (args_eqb a' a0) eqn:E.
    + assert (C : args_eqb a' a = args_eqb a0 a) by now apply args_cong.
      destruct (clookup c0 d) as [v|] eqn:L; cbn.
      * destruct (args_eqb a' a) eqn:F.
        -- destruct (comp_eqb c0 c) eqn:Ec; [|now rewrite orb_false_r]. apply comp_eq in Ec. subst c0. now rewrite L.
        -- rewrite <- C, andb_false_r. now rewrite orb_false_r.
      * destruct (args_eqb a' a) eqn:F.
        -- rewrite clookup_app. cbn. rewrite <- C, andb_true_r.
           destruct (clookup c d); cbn; [reflexivity|]. destruct (comp_eqb c0 c); reflexivity.
        -- rewrite <- C, andb_false_r. now rewrite orb_false_r.
    + destruct (memo_in es c0 a0) as [[es' v] cs]. cbn in *. destruct (args_eqb a' a) eqn:F; [|exact IH].
      assert (C : args_eqb a0 a = false).
      { destruct (args_eqb a0 a) eqn:G; [|reflexivity]. rewrite <- E. symmetry. eapply args_trans; [exact F|]. now rewrite args_sym. }
      rewrite C, andb_false_r. now rewrite orb_false_r.
Qed.
Lemma memo_run_spec l : forall m hist, good (entries _ _ _ m) ->
  (forall c a, seen (entries _ _ _ m) c a = existsb (fun y => comp_eqb (fst y) c && args_eqb (snd y) a) hist) ->
  let '(m', vs) := memo_run Args Comp Val args_eqb comp_eqb fn m l in
  vs = map (fun ca => fn (fst ca) (snd ca)) l /\
  calls _ _ _ m' = (calls _ _ _ m ++ first_requests (fun y x => comp_eqb (fst y) (fst x) && args_eqb (snd y) (snd x)) hist l)%list.
Proof.
  induction l as [|[c a] l IH]; intros m hist G S; cbn.
  - split; [reflexivity|]. now rewrite app_nil_r.
  - unfold memo_call. pose proof (memo_in_good (entries _ _ _ m) c a G) as MG.
    pose proof (memo_in_calls (entries _ _ _ m) c a) as MC.
    pose proof (memo_in_seen (entries _ _ _ m) c a) as MS.
    destruct (memo_in (entries _ _ _ m) c a) as [[es v] cs]. cbn [fst snd] in *. destruct MG as [G1 G2].
    specialize (IH (Memo _ _ _ es (calls _ _ _ m ++ cs)%list) (hist ++ [(c, a)])%list G1).
    cbn [entries calls] in IH.
    destruct (memo_run Args Comp Val args_eqb comp_eqb fn (Memo _ _ _ es (calls _ _ _ m ++ cs)%list) l) as [m'' vs].
    destruct IH as [I1 I2].
    + intros c1 a1. rewrite MS, S, existsb_app. cbn. now rewrite orb_false_r.
    + split; [now rewrite I1, G2|]. rewrite I2, MC, S. rewrite <- app_assoc.
      destruct (existsb (fun y => comp_eqb (fst y) c && args_eqb (snd y) a) hist); reflexivity.
Qed.
End MemoProofs.
