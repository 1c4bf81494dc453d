From Coq Require Import String List Bool ZArith Reals Lia Lra Permutation.
From Verif Require Import Py PyProofs RequestModel ContactModel ContactSpec.
Import ListNotations.
Local Open Scope list_scope.

(** ** Dictionaries built by insertion *)
Lemma dset_new {V} k (v : V) d : ~ In k (map fst d) -> dset k v d = d ++ [(k, v)].
Proof.
  induction d as [|[k0 v0] d IH]; cbn; [reflexivity|]. intros H.
  destruct (String.eqb_spec k k0) as [->|N]; [exfalso; apply H; now left|].
  rewrite IH; [reflexivity|]. intros C. apply H. now right.
Qed.
Lemma dset_old {V} k (v w : V) a b : ~ In k (map fst a) ->
  dset k v (a ++ (k, w) :: b) = a ++ (k, v) :: b.
Proof.
  induction a as [|[k0 v0] a IH]; cbn; intros H.
  - now rewrite String.eqb_refl.
  - destruct (String.eqb_spec k k0) as [->|N]; [exfalso; apply H; now left|].
    rewrite IH; [reflexivity|]. intros C. apply H. now right.
Qed.
Definition rebuild {V} (l acc : list (string * V)) := fold_left (fun acc kv => dset (fst kv) (snd kv) acc) l acc.
Lemma rebuild_app {V} (l acc : list (string * V)) : NoDup (map fst (acc ++ l)) ->
  rebuild l acc = acc ++ l.
Proof.
  revert acc. induction l as [|[k v] l IH]; intros acc H; cbn.
  - now rewrite app_nil_r.
  - rewrite dset_new.
    + fold (rebuild l (acc ++ [(k, v)])). rewrite IH; [now rewrite <- app_assoc|]. now rewrite <- app_assoc.
    + rewrite map_app in H. cbn in H. apply NoDup_remove_2 in H. intros C. apply H.
      apply in_or_app. now left.
Qed.
Lemma insert_combine z (n : string) (s : nat) d :
  combine (py_insert z n (map fst d)) (py_insert z s (map snd d)) = py_insert z (n, s) d.
Proof.
  unfold py_insert. rewrite !map_length. generalize (norm_index z (List.length d)) as i.
  induction d as [|[k v] d IH]; intros i.
  - rewrite !firstn_nil, !skipn_nil. reflexivity.
  - destruct i as [|i]; cbn.
    + f_equal. f_equal. clear. induction d as [|[k v] d IH]; cbn; [reflexivity|]. now rewrite IH.
    + f_equal. apply IH.
Qed.
Lemma insert_split {B} z (x : B) l : exists a b, l = a ++ b /\ py_insert z x l = a ++ x :: b /\
  List.length a = norm_index z (List.length l).
Proof.
  unfold py_insert. exists (firstn (norm_index z (List.length l)) l), (skipn (norm_index z (List.length l)) l).
  split; [now rewrite firstn_skipn|]. split; [reflexivity|].
  rewrite firstn_length, Nat.min_l; [reflexivity|].
  unfold norm_index. destruct (Z.ltb_spec z 0); lia.
Qed.
Lemma rebuild_insert z (n : string) (s : nat) d : ~ In n (map fst d) -> NoDup (map fst d) ->
  rebuild (py_insert z (n, s) d) [] = py_insert z (n, s) d.
Proof.
  intros H N. rewrite rebuild_app; [reflexivity|]. cbn.
  destruct (insert_split z (n, s) d) as (a & b & -> & -> & _). rewrite map_app in *. cbn.
  apply NoDup_Add with (a := n) (l := map fst a ++ map fst b); [apply Add_app|]. auto.
Qed.
Lemma insert_placed z x d : placed (PInt z) d x (py_insert z x d).
Proof.
  destruct (insert_split z x d) as (a & b & E & -> & L). unfold norm_index in L.
  destruct (Z.ltb_spec z 0).
  - destruct (Z.ltb_spec z (- Z.of_nat (List.length d))).
    + assert (List.length a = 0)%nat by lia. destruct a; [|discriminate]. cbn in *. subst b.
      now apply placed_front.
    + assert (Z.of_nat (List.length b) = - z)%Z by (apply (f_equal (@List.length _)) in E; rewrite app_length in E; lia).
      replace z with (- Z.of_nat (List.length b))%Z by lia. rewrite E. apply placed_back.
      intros ->. cbn in *. lia.
  - destruct (Z.ltb_spec (Z.of_nat (List.length d)) z).
    + assert (b = []).
      { destruct b; [reflexivity|]. apply (f_equal (@List.length _)) in E. rewrite app_length in E. cbn in E. lia. }
      subst b. rewrite app_nil_r in E. subst a. now apply placed_beyond.
    + replace z with (Z.of_nat (List.length a)) by lia. rewrite E. apply placed_at.
Qed.
Lemma index_some k l i : list_index k l = Some i ->
  exists a b, l = a ++ k :: b /\ List.length a = i /\ ~ In k a.
Proof.
  revert i. induction l as [|x l IH]; intros i; cbn; [discriminate|].
  destruct (String.eqb_spec x k) as [->|N].
  - intros H. injection H as <-. exists [], l. cbn. tauto.
  - destruct (list_index k l) as [j|]; [|discriminate]. cbn. intros H. injection H as <-.
    destruct (IH j eq_refl) as (a & b & -> & L & Na). exists (x :: a), b. cbn.
    split; [reflexivity|]. split; [lia|]. intros [C|C]; [congruence|contradiction].
Qed.
Lemma index_none k l : list_index k l = None <-> ~ In k l.
Proof.
  induction l as [|x l IH]; cbn; [tauto|]. destruct (String.eqb_spec x k) as [->|N].
  - split; [discriminate|]. intros H. exfalso. apply H. now left.
  - destruct (list_index k l); cbn.
    + split; [discriminate|]. intros H. exfalso. assert (C : ~ In k l) by tauto. apply IH in C. discriminate.
    + split; [|reflexivity]. intros _ [C|C]; [congruence|]. now apply IH in C.
Qed.
Lemma map_split_at k (d : list (string * nat)) a b : map fst d = a ++ k :: b ->
  exists d1 s d2, d = d1 ++ (k, s) :: d2 /\ map fst d1 = a /\ map fst d2 = b.
Proof.
  revert a. induction d as [|[k0 s0] d IH]; intros [|x a] H; cbn in H; try discriminate.
  - injection H as -> <-. exists [], s0, d. cbn. auto.
  - injection H as -> H. destruct (IH a H) as (d1 & s & d2 & -> & <- & <-).
    exists ((x, s0) :: d1), s, d2. cbn. auto.
Qed.

Lemma insert_at_length {B} (a b : list B) x : py_insert (Z.of_nat (List.length a)) x (a ++ b) = a ++ x :: b.
Proof.
  unfold py_insert, norm_index. rewrite app_length.
  destruct (Z.ltb_spec (Z.of_nat (List.length a)) 0); [lia|].
  rewrite Nat2Z.id, Nat.min_l by lia.
  rewrite firstn_app, Nat.sub_diag, firstn_all, firstn_O, app_nil_r.
  rewrite skipn_app, Nat.sub_diag, skipn_all, skipn_O. reflexivity.
Qed.

Lemma place_step_eq d n s p : place_step d n s p =
  match p with
  | PNone => Ok (dset n s d)
  | PInt z => Ok (rebuild (py_insert z (n, s) d) [])
  | PStr k => match list_index k (map fst d) with
              | Some i => Ok (rebuild (py_insert (Z.of_nat i) (n, s) d) [])
              | None => Err ValueError
              end
  end.
Proof.
  destruct p; cbn [place_step]; unfold place_step; rewrite ?insert_combine; try reflexivity.
  destruct (list_index s0 (map fst d)); [|reflexivity]. now rewrite insert_combine.
Qed.

(** One placement of a new name. *)
Lemma place_new d n s p : ~ In n (map fst d) -> NoDup (map fst d) ->
  match place_step d n s p with
  | Ok d' => placed p d (n, s) d' /\ NoDup (map fst d') /\ Permutation d' ((n, s) :: d)
  | Err e => e = ValueError /\ (exists k, p = PStr k /\ ~ In k (map fst d)) /\ placed p d (n, s) d
  end.
Proof.
  intros H N. rewrite place_step_eq.
  assert (Ins : forall z, NoDup (map fst (py_insert z (n, s) d)) /\ Permutation (py_insert z (n, s) d) ((n, s) :: d)).
  { intros z. destruct (insert_split z (n, s) d) as (a & b & E & -> & _). rewrite E in *. rewrite map_app in *. cbn. split.
    - apply NoDup_Add with (a := n) (l := map fst a ++ map fst b); [apply Add_app|]. auto.
    - symmetry. apply Permutation_middle. }
  destruct p as [|z|k].
  - rewrite dset_new by exact H. split; [constructor|]. split.
    + rewrite map_app. cbn. apply NoDup_Add with (a := n) (l := map fst d); [|auto].
      rewrite <- (app_nil_r (map fst d)) at 1. apply Add_app.
    + symmetry. apply Permutation_cons_append.
  - rewrite (rebuild_insert z n s d H N). split; [apply insert_placed|apply Ins].
  - destruct (list_index k (map fst d)) as [i|] eqn:E.
    + rewrite (rebuild_insert _ n s d H N).
      split; [|apply Ins].
      apply index_some in E as (a & b & Em & L & Na). apply map_split_at in Em as (d1 & s1 & d2 & -> & <- & <-).
      rewrite map_length in L. subst i.
      rewrite insert_at_length. now apply placed_name.
    + apply index_none in E. split; [reflexivity|]. split; [now exists k|now apply placed_no_name].
Qed.

(** One placement of an old name. *)
Lemma rebuild_dup_new {V} (name : string) (v old : V) a1 a2 b :
  NoDup (map fst (a1 ++ a2 ++ (name, old) :: b)) ->
  rebuild (a1 ++ (name, v) :: a2 ++ (name, old) :: b) [] = a1 ++ (name, old) :: a2 ++ b.
Proof.
  intros N. unfold rebuild. rewrite fold_left_app. cbn [fold_left].
  fold (rebuild a1 []). rewrite rebuild_app.
  2:{ rewrite map_app in N. apply NoDup_app_remove_r in N. exact N. }
  cbn [app fst snd].
  rewrite !map_app in N. cbn in N.
  assert (Hn : ~ In name (map fst a1) /\ ~ In name (map fst a2) /\ ~ In name (map fst b)).
  { rewrite app_assoc in N. apply NoDup_remove_2 in N. rewrite <- app_assoc in N.
    rewrite !in_app_iff in N. tauto. }
  destruct Hn as (H1 & H2 & H3).
  rewrite dset_new by exact H1.
  rewrite fold_left_app. fold (rebuild a2 (a1 ++ [(name, v)])).
  rewrite rebuild_app.
  2:{ rewrite !map_app. cbn. rewrite <- app_assoc. cbn.
      apply NoDup_Add with (a := name) (l := map fst a1 ++ map fst a2); [apply Add_app|].
      split; [|rewrite in_app_iff; tauto].
      rewrite app_assoc in N. apply NoDup_app_remove_r in N. exact N. }
  cbn [fold_left fst snd]. rewrite <- app_assoc. cbn [app].
  rewrite dset_old by exact H1.
  fold (rebuild b (a1 ++ (name, old) :: a2)).
  rewrite rebuild_app; [now rewrite <- app_assoc|].
  rewrite !map_app. cbn. rewrite <- app_assoc. cbn.
  apply NoDup_Add with (a := name) (l := map fst a1 ++ map fst a2 ++ map fst b); [apply Add_app|].
  split; [|rewrite !in_app_iff; tauto].
  rewrite app_assoc in N. apply NoDup_remove_1 in N. now rewrite <- app_assoc in N.
Qed.
Lemma rebuild_dup_old {V} (name : string) (v old : V) a b1 b2 :
  NoDup (map fst (a ++ (name, old) :: b1 ++ b2)) ->
  rebuild (a ++ (name, old) :: b1 ++ (name, v) :: b2) [] = a ++ (name, v) :: b1 ++ b2.
Proof.
  intros N.
  assert (N' : NoDup (map fst (a ++ b1 ++ (name, v) :: b2))).
  { rewrite !map_app in *. cbn in *. rewrite map_app in N.
    apply NoDup_Add with (a := name) (l := map fst a ++ map fst b1 ++ map fst b2).
    - rewrite !app_assoc. apply Add_app.
    - apply NoDup_remove in N. exact N. }
  now apply rebuild_dup_new.
Qed.

(** ** Histories *)
Section Histories.
Variable step_name : nat -> string.
Variable order : list string -> list string.
Local Notation mstep := (mstep step_name order).

Lemma upd_same {B} (f : nat -> B) x b : upd f x b x = b.
Proof. unfold upd. now rewrite Nat.eqb_refl. Qed.
Lemma upd_other {B} (f : nat -> B) x y b : y <> x -> upd f x b y = f y.
Proof. intros H. unfold upd. destruct (Nat.eqb_spec y x); [contradiction|reflexivity]. Qed.

Lemma append_output_keeps m o names : forall w,
  owner (fst (append_output w m o names)) = owner w /\ steps_of (fst (append_output w m o names)) = steps_of w.
Proof.
  induction names as [|k names IH]; intros w; cbn; [auto|].
  destruct (dget k (steps_of w m)) as [n|]; [|auto].
  destruct (IH (World (owner w) (steps_of w) (upd (outs_of w) n (outs_of w n ++ [o])))) as [E1 E2].
  rewrite E1, E2. auto.
Qed.
Lemma add_output_keeps w m o a :
  owner (fst (add_output order w m o a)) = owner w /\ steps_of (fst (add_output order w m o a)) = steps_of w.
Proof.
  unfold add_output. destruct a as [s|l]; [|apply append_output_keeps].
  destruct (string_dec s "all"%string) as [->|N].
  - destruct (smem "Initial" (map fst (steps_of w m))); [apply append_output_keeps|auto].
  - replace (match s with "all"%string => _ | _ => _ end) with (append_output w m o [s]).
    + apply append_output_keeps.
    + repeat (destruct s as [|[[] [] [] [] [] [] [] []] s]; try reflexivity).
      exfalso. now apply N.
Qed.

Definition runs (w : world) (os : list mop) := fold_left mstep os w.
Lemma owner_grows os : forall w s, owner w s <> None -> owner (runs w os) s = owner w s.
Proof.
  induction os as [|o os IH]; intros w s H; cbn; [reflexivity|].
  assert (E : owner (mstep w o) s = owner w s).
  { destruct o as [m i|m s' p|m r a]; cbn.
    - reflexivity.
    - unfold add_step. destruct (owner w s') eqn:Es; [reflexivity|].
      destruct (place_step _ _ _ _); cbn; apply upd_other; intros ->; congruence.
    - now rewrite (proj1 (add_output_keeps w m r a)). }
  fold (runs (mstep w o) os). rewrite IH; [exact E|congruence].
Qed.
Lemma owner_none os : forall w s, owner w s = None -> ~ In s (added_steps os) -> owner (runs w os) s = None.
Proof.
  induction os as [|o os IH]; intros w s H Hn; cbn; [exact H|].
  fold (runs (mstep w o) os). unfold added_steps in Hn. cbn in Hn. rewrite in_app_iff in Hn.
  apply IH; [|tauto].
  destruct o as [m i|m s' p|m r a]; cbn.
  - exact H.
  - unfold add_step. destruct (owner w s') eqn:Es; [exact H|].
    assert (s <> s') by (cbn in Hn; intros ->; tauto).
    destruct (place_step _ _ _ _); cbn; now rewrite upd_other.
  - now rewrite (proj1 (add_output_keeps w m r a)).
Qed.

(** After a call with step [s], whatever it did, [s] has an owner. *)
Lemma added_owned os s : forall w, In s (added_steps os) -> owner (runs w os) s <> None.
Proof.
  induction os as [|o os IH]; intros w H; [destruct H|].
  cbn. fold (runs (mstep w o) os). unfold added_steps in H. cbn in H. apply in_app_iff in H as [H|H]; [|now apply IH].
  assert (E : owner (mstep w o) s <> None).
  { destruct o as [m i|m s' p|m r a]; cbn in H; [destruct H| |destruct H]. destruct H as [->|[]]. cbn.
    unfold add_step. destruct (owner w s) eqn:Es; cbn; [congruence|].
    destruct (place_step _ _ _ _); cbn; rewrite upd_same; discriminate. }
  rewrite owner_grows; assumption.
Qed.

(** Order of the steps. *)
Lemma built_history m os : forall w,
  (forall s, In s (added_steps os) -> owner w s = None) -> NoDup (added_steps os) ->
  ~ In m (new_models os) ->
  NoDup (map fst (steps_of w m) ++ map (fun x => fst (snd x)) (adds_to step_name m os)) ->
  built (steps_of w m) (adds_to step_name m os) (steps_of (runs w os) m) /\
  NoDup (map fst (steps_of (runs w os) m)).
Proof.
  induction os as [|o os IH]; intros w Hfree Hnd Hm Hn; cbn.
  - split; [constructor|]. cbn in Hn. now rewrite app_nil_r in Hn.
  - fold (runs (mstep w o) os). unfold new_models in Hm. cbn in Hm. rewrite in_app_iff in Hm.
    destruct o as [m' i|m' s p|m' r a]; cbn [mstep].
    + change (adds_to step_name m (MNew m' i :: os)) with (adds_to step_name m os) in *.
      assert (m <> m') by (cbn in Hm; intros ->; tauto).
      assert (E : steps_of (new_model w m' i) m = steps_of w m) by (cbn; now apply upd_other).
      destruct (IH (new_model w m' i)) as (B & N); try assumption; try tauto.
      * now rewrite E.
      * rewrite E in B. auto.
    + assert (Es : owner w s = None) by (apply Hfree; cbn; now left).
      unfold added_steps in Hnd. cbn in Hnd. apply NoDup_cons_iff in Hnd as [Hs Hnd]. fold (added_steps os) in Hs, Hnd.
      unfold adds_to in Hn. cbn in Hn.
      assert (Hfree' : forall d w', owner w' = upd (owner w) s d -> forall s', In s' (added_steps os) -> owner w' s' = None).
      { intros d w' -> s' H. rewrite upd_other; [apply Hfree; cbn; now right|]. intros ->. contradiction. }
      destruct (Nat.eqb_spec m' m) as [->|Nm].
      * cbn in Hn. fold (adds_to step_name m os) in Hn.
        assert (Hnew : ~ In (step_name s) (map fst (steps_of w m))).
        { apply NoDup_remove_2 in Hn. intros C. apply Hn. apply in_or_app. now left. }
        assert (Hnd0 : NoDup (map fst (steps_of w m))) by (now apply NoDup_app_remove_r in Hn).
        pose proof (place_new (steps_of w m) (step_name s) s p Hnew Hnd0) as P.
        cbn [mstep]. unfold add_step. rewrite Es.
        destruct (place_step (steps_of w m) (step_name s) s p) as [d|e].
        -- destruct P as (Pl & Nd & Pe). cbn [fst].
           match goal with |- context [runs ?W os] => set (w' := W) end.
           destruct (IH w') as (B & N).
           ++ now apply (Hfree' (Some m)).
           ++ assumption.
           ++ tauto.
           ++ cbn. rewrite upd_same.
              eapply Permutation_NoDup; [|exact Hn].
              apply (Permutation_map fst) in Pe. cbn in Pe.
              transitivity ((step_name s :: map fst (steps_of w m)) ++ map (fun x => fst (snd x)) (adds_to step_name m os)).
              ** cbn. symmetry. apply Permutation_middle.
              ** apply Permutation_app_tail. now symmetry.
           ++ cbn in B. rewrite upd_same in B. split; [|exact N]. econstructor; eauto.
        -- destruct P as (_ & _ & Pl). cbn [fst].
           match goal with |- context [runs ?W os] => set (w' := W) end.
           destruct (IH w') as (B & N).
           ++ now apply (Hfree' (Some m)).
           ++ assumption.
           ++ tauto.
           ++ cbn. apply NoDup_remove_1 in Hn. exact Hn.
           ++ cbn in B. split; [|exact N]. econstructor; eauto.
      * cbn [app]. fold (adds_to step_name m os) in Hn. cbn [app] in Hn |- *.
        assert (E : steps_of (fst (add_step step_name w m' s p)) m = steps_of w m).
        { unfold add_step. rewrite Es. destruct (place_step _ _ _ _); cbn; [|reflexivity].
          apply upd_other. congruence. }
        assert (Eo : owner (fst (add_step step_name w m' s p)) = upd (owner w) s (Some m')).
        { unfold add_step. rewrite Es. destruct (place_step _ _ _ _); reflexivity. }
        destruct (IH (fst (add_step step_name w m' s p))) as (B & N).
        -- now apply (Hfree' (Some m')).
        -- assumption.
        -- tauto.
        -- now rewrite E.
        -- rewrite E in B. auto.
    + change (adds_to step_name m (MAddOutput m' r a :: os)) with (adds_to step_name m os) in *.
      cbn [mstep]. destruct (add_output_keeps w m' r a) as [E1 E2].
      destruct (IH (fst (add_output order w m' r a))) as (B & N).
      * rewrite E1. intros s Hs. apply Hfree. exact Hs.
      * exact Hnd.
      * tauto.
      * now rewrite E2.
      * rewrite E2 in B. auto.
Qed.
End Histories.

(** ** One model per step *)
Section Ownership.
Variable step_name : nat -> string.
Variable order : list string -> list string.

Lemma in_dset {V} kv k (v : V) d : In kv (dset k v d) -> kv = (k, v) \/ In kv d.
Proof.
  induction d as [|[k0 v0] d IH]; cbn.
  - intros [<-|[]]; now left.
  - destruct (String.eqb_spec k k0) as [->|N].
    + intros [<-|H]; [now left|]. right. now right.
    + intros [<-|H]; [right; now left|]. destruct (IH H); [now left|]. right. now right.
Qed.
Lemma in_rebuild {V} kv (l : list (string * V)) : forall acc, In kv (rebuild l acc) -> In kv l \/ In kv acc.
Proof.
  induction l as [|[k v] l IH]; intros acc H; cbn in *; [now right|].
  fold (rebuild l (dset k v acc)) in H. apply IH in H as [H|H]; [left; now right|].
  apply in_dset in H as [->|H]; [left; now left|now right].
Qed.
Lemma dset_keys {V} k (v : V) d x : In x (map fst (dset k v d)) <-> x = k \/ In x (map fst d).
Proof.
  induction d as [|[k0 v0] d IH]; cbn; [intuition|].
  destruct (String.eqb_spec k k0) as [->|N]; cbn; [intuition|]. rewrite IH. intuition.
Qed.
Lemma dset_nodup {V} k (v : V) d : NoDup (map fst d) -> NoDup (map fst (dset k v d)).
Proof.
  induction d as [|[k0 v0] d IH]; cbn; intros H; [constructor; [intros []|constructor]|].
  apply NoDup_cons_iff in H as [H1 H2]. destruct (String.eqb_spec k k0) as [->|N]; cbn.
  - now constructor.
  - constructor; [|now apply IH]. rewrite dset_keys. intros [->|C]; [now apply N|contradiction].
Qed.
Lemma rebuild_nodup {V} (l : list (string * V)) : forall acc, NoDup (map fst acc) -> NoDup (map fst (rebuild l acc)).
Proof.
  induction l as [|[k v] l IH]; intros acc H; cbn; [exact H|]. apply IH. now apply dset_nodup.
Qed.
Lemma in_insert {B} z (x y : B) l : In y (py_insert z x l) <-> y = x \/ In y l.
Proof.
  destruct (insert_split z x l) as (a & b & -> & -> & _). rewrite !in_app_iff. cbn. intuition.
Qed.
Lemma place_in d n s p d' : place_step d n s p = Ok d' -> forall kv, In kv d' -> kv = (n, s) \/ In kv d.
Proof.
  rewrite place_step_eq. destruct p as [|z|k].
  - intros H kv Hk. injection H as <-. now apply in_dset in Hk.
  - intros H kv Hk. injection H as <-. apply in_rebuild in Hk as [Hk|[]]. now apply in_insert in Hk.
  - destruct (list_index k (map fst d)) as [i|]; [|discriminate].
    intros H kv Hk. injection H as <-. apply in_rebuild in Hk as [Hk|[]]. now apply in_insert in Hk.
Qed.
Lemma place_nodup d n s p d' : place_step d n s p = Ok d' -> NoDup (map fst d) -> NoDup (map fst d').
Proof.
  rewrite place_step_eq. destruct p as [|z|k].
  - intros H N. injection H as <-. now apply dset_nodup.
  - intros H N. injection H as <-. apply rebuild_nodup. constructor.
  - destruct (list_index k (map fst d)) as [i|]; [|discriminate].
    intros H N. injection H as <-. apply rebuild_nodup. constructor.
Qed.

Definition inv (inits : list nat) (w : world) : Prop :=
  (forall m, NoDup (map fst (steps_of w m))) /\
  forall m k s, In (k, s) (steps_of w m) -> ~ In s inits -> owner w s = Some m /\ k = step_name s.
Lemma inv_step inits w o : inv inits w -> (forall m i, o = MNew m i -> In i inits) ->
  inv inits (mstep step_name order w o).
Proof.
  intros (N & H) Hi. destruct o as [m i|m s p|m r a]; cbn.
  - split; cbn.
    + intros m'. unfold upd. destruct (Nat.eqb_spec m' m); [|apply N]. cbn. constructor; [intros []|constructor].
    + intros m' k s' Hin Hn. unfold upd in Hin. destruct (Nat.eqb_spec m' m).
      * cbn in Hin. destruct Hin as [E|[]]. injection E as _ <-. exfalso. apply Hn. now apply (Hi m i).
      * now apply H.
  - unfold add_step. destruct (owner w s) eqn:Es; [split; assumption|].
    destruct (place_step (steps_of w m) (step_name s) s p) as [d|e] eqn:P; cbn.
    + split; cbn.
      * intros m'. unfold upd. destruct (Nat.eqb_spec m' m); [|apply N]. eapply place_nodup; eauto.
      * intros m' k s' Hin Hn. unfold upd in Hin |- *.
        assert (Hold : In (k, s') (steps_of w m') -> (if Nat.eqb s' s then Some m else owner w s') = Some m' /\ k = step_name s').
        { intros Ho. destruct (H m' k s' Ho Hn) as [E1 E2]. destruct (Nat.eqb_spec s' s) as [->|]; [congruence|auto]. }
        destruct (Nat.eqb_spec m' m) as [->|]; [|now apply Hold].
        apply (place_in _ _ _ _ _ P) in Hin as [E|Hin]; [|now apply Hold].
        injection E as -> ->. rewrite Nat.eqb_refl. auto.
    + split; cbn; [exact N|]. intros m' k s' Hin Hn. destruct (H m' k s' Hin Hn) as [E1 E2]. unfold upd.
      destruct (Nat.eqb_spec s' s) as [->|]; [congruence|auto].
  - destruct (add_output_keeps order w m r a) as [E1 E2]. split; rewrite ?E1, ?E2; assumption.
Qed.
Lemma inv_history os : inv (initial_steps os) (mrun step_name order os).
Proof.
  unfold mrun. assert (G : forall os' w inits, incl (initial_steps os') inits -> inv inits w -> inv inits (fold_left (mstep step_name order) os' w)).
  { induction os' as [|o os' IH]; intros w inits Hi H; cbn; [exact H|].
    apply IH.
    - intros x Hx. apply Hi. unfold initial_steps. cbn. apply in_or_app. now right.
    - apply inv_step; [exact H|]. intros m i ->. apply Hi. cbn. now left. }
  apply G; [apply incl_refl|]. split; cbn; [constructor|]. intros m k s [].
Qed.
End Ownership.

(** ** Positions of the first step *)
Definition keeps_front (p : position) (n : nat) (first : string) : Prop :=
  match p with
  | PNone => True
  | PStr k => k <> first
  | PInt z => (z <> 0 /\ - Z.of_nat n < z)%Z
  end.
Lemma placed_front_iff p f l x l' : placed p (f :: l) x l' -> NoDup (map fst (f :: l)) -> x <> f ->
  (hd_error l' = Some f <-> keeps_front p (List.length (f :: l)) (fst f)).
Proof.
  intros H N Nx. remember (f :: l) as l0 eqn:E0.
  destruct H as [l0 x|k s a b x Ha|k l0 x Hk|a b x|z l0 x Hz|a b x Hb|z l0 x Hz].
  - subst l0. cbn. tauto.
  - destruct a as [|y a]; cbn in E0; injection E0 as <- E0; cbn.
    + split; [congruence|]. intros C. cbn in C. congruence.
    + split; [|reflexivity]. intros _ C. apply Ha. left. cbn. congruence.
  - subst l0. cbn. split; [|reflexivity]. intros _ C. apply Hk. left. congruence.
  - destruct a as [|y a]; cbn in E0.
    + subst b. cbn. split; [congruence|]. intros [C _]. exfalso. now apply C.
    + injection E0 as -> E0. cbn. split; [|reflexivity]. intros _. split; [discriminate|]. lia.
  - subst l0. cbn in *. split; [|reflexivity]. intros _. lia.
  - destruct a as [|y a]; cbn in E0.
    + subst b. cbn. split; [congruence|]. intros [_ C]. lia.
    + injection E0 as -> E0. cbn. split; [|reflexivity]. intros _.
      destruct b as [|y b]; [contradiction|]. rewrite app_length. cbn. lia.
  - subst l0. cbn in *. split; [congruence|]. lia.
Qed.

(** ** Output requests *)
Section Outputs.
Lemma append_output_spec m o names : forall w,
  (forall n, In n names -> dget n (steps_of w m) <> None) ->
  snd (append_output w m o names) = Ok tt /\
  forall s, outs_of (fst (append_output w m o names)) s =
    outs_of w s ++ repeat o (List.length (filter (fun n => match dget n (steps_of w m) with
      | Some s' => Nat.eqb s' s | None => false end) names)).
Proof.
  induction names as [|k names IH]; intros w H; cbn.
  - split; [reflexivity|]. intros s. now rewrite app_nil_r.
  - destruct (dget k (steps_of w m)) as [s0|] eqn:E; [|exfalso; apply (H k); [now left|exact E]].
    destruct (IH (World (owner w) (steps_of w) (upd (outs_of w) s0 (outs_of w s0 ++ [o])))) as [R O].
    + intros n Hn. apply H. now right.
    + split; [exact R|]. intros s. rewrite O. cbn. unfold upd. rewrite (Nat.eqb_sym s0 s).
      destruct (Nat.eqb_spec s s0) as [->|]; cbn; [|reflexivity]. now rewrite <- app_assoc.
Qed.
Lemma append_output_unknown m o pre k post : forall w,
  (forall n, In n pre -> dget n (steps_of w m) <> None) -> dget k (steps_of w m) = None ->
  append_output w m o (pre ++ k :: post) = (fst (append_output w m o pre), Err KeyError).
Proof.
  induction pre as [|n pre IH]; intros w H Hk; cbn.
  - now rewrite Hk.
  - destruct (dget n (steps_of w m)) as [s0|] eqn:E; [|exfalso; apply (H n); [now left|exact E]].
    apply IH; [|exact Hk]. intros n' Hn. apply H. now right.
Qed.
Lemma filter_single {B} (f : B -> bool) (l : list B) x : NoDup l -> In x l -> f x = true ->
  (forall y, In y l -> f y = true -> y = x) -> List.length (filter f l) = 1%nat.
Proof.
  induction l as [|y l IH]; intros N Hin Hx Hu; [destruct Hin|]. apply NoDup_cons_iff in N as [N1 N2]. cbn.
  destruct Hin as [->|Hin].
  - rewrite Hx. cbn. f_equal.
    assert (E : filter f l = []); [|now rewrite E].
    destruct (filter f l) as [|z q] eqn:F; [reflexivity|]. exfalso.
    assert (Hz : In z (filter f l)) by (rewrite F; now left). apply filter_In in Hz as [Hz1 Hz2].
    rewrite (Hu z (or_intror Hz1) Hz2) in Hz1. contradiction.
  - destruct (f y) eqn:F.
    + exfalso. rewrite (Hu y (or_introl eq_refl) F) in N1. contradiction.
    + apply IH; auto. intros z Hz. apply Hu. now right.
Qed.
Lemma filter_none {B} (f : B -> bool) (l : list B) : (forall y, In y l -> f y = false) -> filter f l = [].
Proof.
  induction l as [|y l IH]; intros H; cbn; [reflexivity|]. rewrite H by now left. apply IH.
  intros z Hz. apply H. now right.
Qed.
Lemma dget_nodup_in {V} k (v : V) d : NoDup (map fst d) -> In (k, v) d -> dget k d = Some v.
Proof.
  induction d as [|[k0 v0] d IH]; cbn; intros N H; [destruct H|]. apply NoDup_cons_iff in N as [N1 N2].
  destruct H as [E|H].
  - injection E as -> ->. now rewrite String.eqb_refl.
  - destruct (String.eqb_spec k k0) as [->|]; [|now apply IH].
    exfalso. apply N1. apply in_map_iff. now exists (k0, v).
Qed.
Lemma dget_some_in {V} k (v : V) d : dget k d = Some v -> In (k, v) d.
Proof.
  induction d as [|[k0 v0] d IH]; cbn; [discriminate|].
  destruct (String.eqb_spec k k0) as [->|]; [intros H; injection H as ->; now left|]. intros H. right. now apply IH.
Qed.
End Outputs.

Lemma last_cons_default {B} (l : list B) x d : last l x = last (x :: l) d.
Proof.
  destruct l as [|y l]; [reflexivity|]. change (last (x :: y :: l) d) with (last (y :: l) d).
  revert y. induction l as [|z l IH]; intros y; [reflexivity|]. apply (IH z).
Qed.

(** ** Solving *)
Section Solving.
Context {State Rec : Type}.
Variable time_of : State -> option R.
Variable step_solve : nat -> option State -> store -> store * list Rec * result State.
Variable dur : nat -> R.
Local Notation ev := (@event State Rec).

Definition advances : Prop := forall s cur rq t st',
  match cur with Some st => time_of st = Some t | None => t = 0%R end ->
  snd (step_solve s cur rq) = Ok st' -> time_of st' = Some (t + dur s)%R.

Lemma tell_none outs rq : tell_outputs State Rec time_of None outs rq =
  match outs with [] => (rq, [], Ok tt) | _ => (rq, [], Err TypeError) end.
Proof. destruct outs; reflexivity. Qed.
Lemma tell_some st t outs : time_of st = Some t -> forall rq,
  exists rq', tell_outputs State Rec time_of (Some st) outs rq =
    (rq', map (fun o => ENewStep o t) outs, Ok tt).
Proof.
  intros Ht. induction outs as [|o outs IH]; intros rq; cbn; [eauto|]. rewrite Ht.
  destruct (IH (upd rq o (new_step (rq o) t))) as (rq' & ->). eauto.
Qed.
Lemma course_solve outs steps : advances -> forall t cur rq,
  match cur with Some st => time_of st = Some t | None => t = 0%R end ->
  course time_of outs dur steps t cur (snd (fst (solve_steps State Rec time_of step_solve outs steps cur rq)))
    (snd (solve_steps State Rec time_of step_solve outs steps cur rq)).
Proof.
  intros Ha. induction steps as [|[k s] steps IH]; intros t cur rq Ht; cbn [solve_steps]; [constructor|].
  assert (T : exists rq1, (tell_outputs State Rec time_of cur (outs s) rq =
      (rq1, map (fun o => ENewStep o t) (outs s), Ok tt) /\ (cur = None -> outs s = [])) \/
    (tell_outputs State Rec time_of cur (outs s) rq = (rq1, [], Err TypeError) /\ cur = None /\ outs s <> [])).
  { destruct cur as [st|].
    - destruct (tell_some st t (outs s) Ht rq) as (rq1 & E). exists rq1. left. split; [exact E|discriminate].
    - exists rq. rewrite tell_none. destruct (outs s) eqn:Eo; [left|right]; split; auto. split; [reflexivity|discriminate]. }
  destruct T as (rq1 & [(E & Hc)|(E & -> & Hc)]); rewrite E; cbn.
  - destruct (step_solve s cur rq1) as [[rq2 recs] r2] eqn:Es. destruct r2 as [st'|e]; cbn.
    + assert (Ht' : time_of st' = Some (t + dur s)%R).
      { apply (Ha s cur rq1 t st' Ht). now rewrite Es. }
      specialize (IH (t + dur s)%R (Some st') rq2 Ht').
      destruct (solve_steps State Rec time_of step_solve outs steps (Some st') rq2) as [[rq3 ev3] r3]. cbn in *.
      rewrite <- app_assoc. cbn. eapply course_step; eauto.
    + now apply course_raise.
  - now apply course_no_state.
Qed.

Lemma course_times (outs : nat -> list nat) steps t cur (es : list ev) r :
  course time_of outs dur steps t cur es r ->
  match cur with Some st => time_of st = Some t | None => t = 0%R end ->
  forall k s st, nth_error (solve_calls es) k = Some (s, Some st) ->
    nth_error (map snd steps) k = Some s /\
    time_of st = Some (t + sum_list (map (fun ks => dur (snd ks)) (firstn k steps)))%R.
Proof.
  induction 1 as [t cur|k0 s0 rest t cur recs st' ev0 r Hc Ht' Hco IH|k0 s0 rest t cur recs e Hc|k0 s0 rest t Ho];
    intros Hcur k s st Hk.
  - destruct k; discriminate.
  - unfold solve_calls in Hk. rewrite flat_map_app in Hk. cbn in Hk. rewrite flat_map_app in Hk.
    assert (Z1 : forall (l : list nat) tt0, flat_map (fun e : ev => match e with ESolve s st => [(s, st)] | _ => [] end)
        (map (fun o => ENewStep o tt0) l) = []) by (intros l tt0; induction l; cbn; auto).
    assert (Z2 : forall (l : list Rec), flat_map (fun e : ev => match e with ESolve s st => [(s, st)] | _ => [] end)
        (map EWrite l) = []) by (intros l; induction l; cbn; auto).
    rewrite Z1, Z2 in Hk. cbn in Hk. destruct k as [|k]; cbn in Hk.
    + injection Hk as -> ->. cbn in *. split; [reflexivity|]. rewrite Rplus_0_r. exact Hcur.
    + destruct (IH Ht' k s st Hk) as [I1 I2]. cbn. split; [exact I1|]. rewrite I2. f_equal. lra.
  - unfold solve_calls in Hk. rewrite flat_map_app in Hk. cbn in Hk.
    assert (Z1 : forall (l : list nat) tt0, flat_map (fun e : ev => match e with ESolve s st => [(s, st)] | _ => [] end)
        (map (fun o => ENewStep o tt0) l) = []) by (intros l tt0; induction l; cbn; auto).
    assert (Z2 : forall (l : list Rec), flat_map (fun e : ev => match e with ESolve s st => [(s, st)] | _ => [] end)
        (map EWrite l) = []) by (intros l; induction l; cbn; auto).
    rewrite Z1, Z2 in Hk. cbn in Hk. destruct k as [|[|k]]; cbn in Hk; try discriminate.
    injection Hk as -> ->. cbn in *. split; [reflexivity|]. rewrite Rplus_0_r. exact Hcur.
  - destruct k; discriminate.
Qed.
Lemma course_final (outs : nat -> list nat) steps t cur (es : list ev) r :
  course time_of outs dur steps t cur es r ->
  match cur with Some st => time_of st = Some t | None => t = 0%R end ->
  forall st, r = Ok (Some st) -> time_of st = Some (t + sum_list (map (fun ks => dur (snd ks)) steps))%R.
Proof.
  induction 1 as [t cur|k0 s0 rest t cur recs st' ev0 r Hc Ht' Hco IH|k0 s0 rest t cur recs e Hc|k0 s0 rest t Ho];
    intros Hcur st E; try discriminate.
  - injection E as ->. cbn in *. now rewrite Rplus_0_r.
  - rewrite (IH Ht' st E). cbn. f_equal. lra.
Qed.

(** Every step is solved from what the step before returned. *)
Lemma chain_solve outs steps : forall cur rq rq' es r,
  solve_steps State Rec time_of step_solve outs steps cur rq = (rq', es, Ok r) ->
  exists sts, List.length sts = List.length steps /\
    solve_calls es = combine (map snd steps) (cur :: map Some sts) /\
    r = last (map Some sts) cur /\
    forall k s st', nth_error (map snd steps) k = Some s -> nth_error sts k = Some st' ->
      exists rq0, snd (step_solve s (nth k (cur :: map Some sts) None) rq0) = Ok st'.
Proof.
  induction steps as [|[n s] steps IH]; intros cur rq rq' es r H; cbn [solve_steps] in H.
  - injection H as _ <- <-. exists []. cbn. repeat split; auto. intros k s0 st' Hk. destruct k; discriminate.
  - destruct (tell_outputs State Rec time_of cur (outs s) rq) as [[rq1 ev1] r1] eqn:E1.
    destruct r1 as [u|e]; [|discriminate].
    destruct (step_solve s cur rq1) as [[rq2 recs] r2] eqn:E2. destruct r2 as [st|e]; [|discriminate].
    destruct (solve_steps State Rec time_of step_solve outs steps (Some st) rq2) as [[rq3 ev3] r3] eqn:E3.
    injection H as _ <- ->. destruct (IH (Some st) rq2 rq3 ev3 r E3) as (sts & L & C & F & K).
    exists (st :: sts). split; [cbn; lia|]. split; [|split].
    + unfold solve_calls in *. rewrite flat_map_app. rewrite flat_map_app. cbn [flat_map].
      assert (Z1 : forall l rqa rqb eva, tell_outputs State Rec time_of cur l rqa = (rqb, eva, Ok u) ->
        flat_map (fun e : ev => match e with ESolve s st => [(s, st)] | _ => [] end) eva = []).
      { clear. induction l as [|o l IHl]; intros rqa rqb eva He; cbn in He.
        - now injection He as <- <- _.
        - destruct cur as [st0|]; [|discriminate]. destruct (time_of st0) as [t0|]; [|discriminate].
          destruct (tell_outputs State Rec time_of (Some st0) l (upd rqa o (new_step (rqa o) t0))) as [[q1 q2] q3] eqn:Eq.
          injection He as <- <- ->. cbn. eapply IHl. exact Eq. }
      rewrite (Z1 _ _ _ _ E1). cbn [app].
      assert (Z2 : forall (l : list Rec), flat_map (fun e : ev => match e with ESolve s st => [(s, st)] | _ => [] end)
        (map EWrite l) = []) by (intros l; induction l; cbn; auto).
      rewrite Z2. cbn [app map combine]. now rewrite C.
    + rewrite F. cbn [map]. apply last_cons_default.
    + intros k s' st' Hk Hst. destruct k as [|k]; cbn in Hk, Hst.
      * injection Hk as <-. injection Hst as <-. exists rq1. cbn. now rewrite E2.
      * destruct (K k s' st' Hk Hst) as (rq0 & Hr). exists rq0. exact Hr.
Qed.

(** No file event while the steps are solved. *)
Definition quiet (e : ev) : Prop := match e with ENewStep _ _ | ESolve _ _ | EWrite _ => True | _ => False end.
Lemma tell_quiet cur l : forall rq, Forall quiet (snd (fst (tell_outputs State Rec time_of cur l rq))).
Proof.
  induction l as [|o l IH]; intros rq; cbn; [constructor|]. destruct cur as [st|]; [|constructor].
  destruct (time_of st) as [t|]; [|constructor].
  specialize (IH (upd rq o (new_step (rq o) t))).
  destruct (tell_outputs State Rec time_of (Some st) l (upd rq o (new_step (rq o) t))) as [[a b] c].
  cbn in *. constructor; [exact I|exact IH].
Qed.
Lemma solve_quiet outs steps : forall cur rq,
  Forall quiet (snd (fst (solve_steps State Rec time_of step_solve outs steps cur rq))).
Proof.
  induction steps as [|[n s] steps IH]; intros cur rq; cbn; [constructor|].
  pose proof (tell_quiet cur (outs s) rq) as T.
  destruct (tell_outputs State Rec time_of cur (outs s) rq) as [[rq1 ev1] r1]. destruct r1 as [u|e]; [|exact T].
  destruct (step_solve s cur rq1) as [[rq2 recs] r2].
  assert (W : Forall quiet (ev1 ++ ESolve s cur :: map EWrite recs)).
  { apply Forall_app. split; [exact T|]. constructor; [exact I|]. apply Forall_forall. intros x Hx.
    apply in_map_iff in Hx as (y & <- & _). exact I. }
  destruct r2 as [st|e]; [|exact W].
  specialize (IH (Some st) rq2).
  destruct (solve_steps State Rec time_of step_solve outs steps (Some st) rq2) as [[rq3 ev3] r3]. cbn in *.
  apply Forall_app. auto.
Qed.
Lemma quiet_saver l : Forall quiet l -> forall n, fold_left (fun n (e : ev) => match e with EOpenSaver => n + 1 | ECloseSaver => n - 1 | _ => n end)%Z l n = n.
Proof. induction 1 as [|e l He Hl IH]; intros n; cbn; [reflexivity|]. rewrite IH. destruct e; cbn in He; try tauto; reflexivity. Qed.
Lemma quiet_log l : Forall quiet l -> forall n, fold_left (fun n (e : ev) => match e with EOpenLog => n + 1 | ECloseLog => n - 1 | _ => n end)%Z l n = n.
Proof. induction 1 as [|e l He Hl IH]; intros n; cbn; [reflexivity|]. rewrite IH. destruct e; cbn in He; try tauto; reflexivity. Qed.
Lemma quiet_redirect l : Forall quiet l -> forall n, fold_left (fun n (e : ev) => match e with ERedirect => n + 1 | ERestore => n - 1 | _ => n end)%Z l n = n.
Proof. induction 1 as [|e l He Hl IH]; intros n; cbn; [reflexivity|]. rewrite IH. destruct e; cbn in He; try tauto; reflexivity. Qed.

Lemma solve_shape w m verbose skip opens check rq :
  exists pre mid post,
    snd (fst (solve State Rec time_of step_solve w m verbose skip opens check rq)) = pre ++ mid ++ post /\
    Forall quiet mid /\
    ((pre, post) = ([EOpenSaver], [ECloseSaver]) \/
     (pre, post) = ([EOpenSaver; EOpenLog; ERedirect], [ERestore; ECloseLog; ECloseSaver])).
Proof.
  unfold solve.
  set (body := match (if skip then Ok tt else check) with
    | Ok _ => solve_steps State Rec time_of step_solve (outs_of w) (steps_of w m) None rq
    | Err e => (rq, [], Err e) end).
  assert (Q : Forall quiet (snd (fst body))).
  { unfold body. destruct (if skip then Ok tt else check); [apply solve_quiet|constructor]. }
  destruct body as [[rq' es] r]. cbn in Q. destruct verbose; [|destruct opens].
  - exists [EOpenSaver], es, [ECloseSaver]. split; [reflexivity|]. auto.
  - exists [EOpenSaver; EOpenLog; ERedirect], es, [ERestore; ECloseLog; ECloseSaver]. split; [reflexivity|]. auto.
  - exists [EOpenSaver], [], [ECloseSaver]. split; [reflexivity|]. split; [constructor|auto].
Qed.
Lemma solve_closes w m verbose skip opens check rq es :
  snd (fst (solve State Rec time_of step_solve w m verbose skip opens check rq)) = es ->
  saver_open es = 0%Z /\ log_open es = 0%Z /\ redirected es = 0%Z /\
  (forall a r b, es = a ++ EWrite r :: b -> saver_open a = 1%Z).
Proof.
  intros <-. destruct (solve_shape w m verbose skip opens check rq) as (pre & mid & post & -> & Q & D).
  assert (Wr : forall a r b, pre ++ mid ++ post = a ++ EWrite r :: b -> exists q, a = pre ++ q /\ Forall quiet q).
  { intros a r b E.
    assert (Hp : ~ In (EWrite r) pre /\ ~ In (EWrite r) post).
    { destruct D as [D|D]; injection D as -> ->; cbn; split; intros H;
        repeat (destruct H as [H|H]; [discriminate H|]); exact H. }
    destruct Hp as [Hp1 Hp2].
    revert a E. induction pre as [|x pre IH]; intros a E.
    - clear D Hp1. cbn in *. revert a E. induction mid as [|y mid IHm]; intros a E; cbn in E.
      + exfalso. apply Hp2. rewrite E. apply in_or_app. right. now left.
      + destruct a as [|z a]; cbn in E.
        * exists []. split; [reflexivity|constructor].
        * injection E as <- E. inversion Q as [|? ? Qy Qm]; subst. destruct (IHm Qm a E) as (q & -> & Hq).
          exists (y :: q). split; [reflexivity|]. now constructor.
    - destruct a as [|z a]; cbn in E.
      + injection E as -> E. exfalso. apply Hp1. now left.
      + injection E as <- E. clear D. cbn in Hp1. assert (Hp1' : ~ In (EWrite r) pre) by tauto.
        revert E. clear IH Hp1. revert a. induction pre as [|x' pre IH]; intros a E.
        * cbn in E. revert a E. induction mid as [|y mid IHm]; intros a E; cbn in E.
          -- exfalso. apply Hp2. rewrite E. apply in_or_app. right. now left.
          -- destruct a as [|z a]; cbn in E.
             ++ exists []. split; [reflexivity|constructor].
             ++ injection E as <- E. inversion Q as [|? ? Qy Qm]; subst. destruct (IHm Qm a E) as (q & Ea & Hq).
                cbn in Ea. injection Ea as ->. exists (y :: q). split; [reflexivity|]. now constructor.
        * destruct a as [|z a]; cbn in E.
          -- injection E as -> E. exfalso. apply Hp1'. now left.
          -- injection E as <- E. assert (Hq : ~ In (EWrite r) pre) by (cbn in Hp1'; tauto).
             destruct (IH Hq a E) as (q & Ea & Hq'). cbn in Ea. injection Ea as ->. exists q. auto. }
  split; [|split; [|split]].
  - unfold saver_open. rewrite !fold_left_app, (quiet_saver mid Q). destruct D as [D|D]; injection D as -> ->; reflexivity.
  - unfold log_open. rewrite !fold_left_app, (quiet_log mid Q). destruct D as [D|D]; injection D as -> ->; reflexivity.
  - unfold redirected. rewrite !fold_left_app, (quiet_redirect mid Q). destruct D as [D|D]; injection D as -> ->; reflexivity.
  - intros a r b E. destruct (Wr a r b E) as (q & -> & Hq). unfold saver_open.
    rewrite fold_left_app, (quiet_saver q Hq). destruct D as [D|D]; injection D as -> ->; reflexivity.
Qed.
End Solving.
