From Coq Require Import String Ascii List Bool Arith Reals Lia Lra.
From Verif Require Import Py SurfaceModel SurfaceProofs Flt LoadModel LoadSpec.
Import ListNotations.
Local Open Scope R_scope.

Lemma sapp_nil s : (s ++ "" = s)%string.
Proof. induction s as [|c s IH]; cbn; [reflexivity|]. rewrite IH. reflexivity. Qed.
Lemma sapp_assoc a b c : ((a ++ b) ++ c = a ++ b ++ c)%string.
Proof. induction a as [|x a IH]; cbn; [reflexivity|]. rewrite IH. reflexivity. Qed.
Lemma blank_white c : blank c = true <-> white c.
Proof.
  unfold blank, white. generalize (nat_of_ascii c). intros n. rewrite orb_true_iff, !andb_true_iff, !Nat.leb_le. cbn [In]. lia.
Qed.
Lemma blank_not c : ~ white c -> blank c = false.
Proof. intros H. apply not_true_is_false. intros T. apply H. now apply blank_white. Qed.
Lemma words_solid w : forall v r, solid w -> words_from v (w ++ r) = words_from (v ++ w) r.
Proof.
  induction w as [|c w IH]; intros v r H; cbn [append]; [rewrite sapp_nil; reflexivity|]. destruct H as [B H]. apply blank_not in B. cbn [words_from]. rewrite B, IH by exact H.
  rewrite sapp_assoc. reflexivity.
Qed.
Lemma words_spaces sp : forall r, spaces sp -> words_from "" (sp ++ r) = words_from "" r.
Proof. induction sp as [|c sp IH]; intros r H; cbn [append]; [reflexivity|]. destruct H as [B H]. apply blank_white in B. cbn [words_from]. rewrite B. apply IH. exact H. Qed.
Lemma words_break w sp r : w <> ""%string -> sp <> ""%string -> spaces sp -> words_from w (sp ++ r) = w :: words_from "" r.
Proof.
  intros W S H. destruct sp as [|c sp]; [contradiction|]. destruct H as [B H]. apply blank_white in B. cbn [append words_from]. rewrite B. destruct w; [contradiction|]. f_equal. apply words_spaces. exact H.
Qed.
Lemma words_spaced l : apart l -> words (spaced l) = map fst l.
Proof.
  unfold words. induction l as [|[w sp] l IH]; intros H; [reflexivity|]. cbn [spaced map fst]. destruct l as [|x l].
  - destruct H as (S & N & P). rewrite words_solid by exact S. cbn [append spaced]. rewrite sapp_nil. destruct sp as [|c sp].
    + cbn. destruct w; [contradiction|reflexivity].
    + rewrite <- (sapp_nil (String c sp)). rewrite words_break; [reflexivity|exact N|discriminate|exact P].
  - destruct H as (S & N & P & Q & A). rewrite words_solid by exact S. change ("" ++ w)%string with w. rewrite words_break by assumption. f_equal. apply IH. exact A.
Qed.
Lemma words_nonempty s : forall w, Forall (fun x => nonempty x = true) (words_from w s).
Proof.
  induction s as [|c s IH]; intros w; cbn.
  - destruct w; constructor; [reflexivity|constructor].
  - destruct (blank c); [|apply IH]. destruct w; [apply IH|]. constructor; [reflexivity|apply IH].
Qed.
Lemma filter_id {A} (p : A -> bool) l : Forall (fun x => p x = true) l -> filter p l = l.
Proof. induction 1 as [|x l P F IH]; [reflexivity|]. cbn. rewrite P, IH. reflexivity. Qed.
Lemma words_blank s : spaces s -> words s = [].
Proof. intro H. unfold words. rewrite <- (sapp_nil s). rewrite words_spaces by exact H. reflexivity. Qed.

Section Parse.
Variable parse : string -> option flt.
Lemma parse_all_spec l v : parse_all parse l = Some v <-> Forall2 (fun w x => parse w = Some x) l v.
Proof.
  revert v. induction l as [|s l IH]; intros v; cbn.
  - split; intros H; [injection H as <-; constructor|inversion H; reflexivity].
  - destruct (parse s) as [x|] eqn:P.
    + destruct (parse_all parse l) as [u|] eqn:Q.
      * split; intros H; [injection H as <-; constructor; [exact P|apply IH; reflexivity]|]. inversion H; subst. rewrite P in H2. injection H2 as <-. apply IH in H4. injection H4 as <-. reflexivity.
      * split; intros H; [discriminate|]. inversion H; subst. apply IH in H4. discriminate.
    + split; intros H; [discriminate|]. inversion H; subst. congruence.
Qed.
Lemma fields_spec row v : numbers_of parse row v <-> parse_all parse (fields row) = Some v.
Proof.
  rewrite parse_all_spec. unfold numbers_of, fields. destruct row as [|s [|s' row]]; try tauto. rewrite filter_id by apply words_nonempty. tauto.
Qed.
Lemma kept_iff rows : forall out, kept parse rows out <-> number_rows parse rows = out.
Proof.
  induction rows as [|row rows IH]; intros out; cbn [number_rows].
  - split; intros H; [inversion H; reflexivity|subst; constructor].
  - split; intros H.
    + inversion H as [|row' v rows' out' Nr V K|row' rows' out' Nr K]; subst.
      * destruct row as [|s row]; [contradiction|]. apply fields_spec in V. rewrite V. f_equal. apply IH. assumption.
      * destruct Nr as [->|N]; [apply IH; assumption|]. destruct row as [|s row]; [apply IH; assumption|].
        destruct (parse_all parse (fields (s :: row))) as [v|] eqn:E; [apply fields_spec in E; exfalso; exact (N v E)|]. apply IH. assumption.
    + destruct row as [|s row]; [apply kept_not; [left; reflexivity|apply IH; exact H]|].
      destruct (parse_all parse (fields (s :: row))) as [v|] eqn:E.
      * destruct out as [|o out]; [discriminate|]. injection H as -> H. constructor; [discriminate|apply fields_spec; exact E|apply IH; exact H].
      * apply kept_not; [right|apply IH; exact H]. intros v V. apply fields_spec in V. congruence.
Qed.
Lemma number_rows_app a b : number_rows parse (a ++ b) = number_rows parse a ++ number_rows parse b.
Proof.
  induction a as [|row a IH]; [reflexivity|]. cbn [app number_rows]. destruct row as [|s row]; [exact IH|]. destruct (parse_all parse _); cbn [app]; rewrite IH; reflexivity.
Qed.
Lemma parse_all_none l w : In w l -> parse w = None -> parse_all parse l = None.
Proof.
  induction l as [|s l IH]; [intros []|]. intros [->|H] P; cbn; [rewrite P; reflexivity|]. rewrite (IH H P). destruct (parse s); reflexivity.
Qed.
Lemma parse_all_show show v : readable parse show v -> parse_all parse (map show v) = Some v.
Proof.
  induction v as [|x v IH]; intros R; [reflexivity|]. cbn. rewrite (proj1 (R x (or_introl eq_refl))), IH; [reflexivity|]. intros y Y. apply R. right. exact Y.
Qed.
Lemma show_nonempty show v : readable parse show v -> filter nonempty (map show v) = map show v.
Proof.
  intros R. apply filter_id. apply Forall_forall. intros s H. apply in_map_iff in H. destruct H as (x & <- & I). destruct (R x I) as (_ & _ & N).
  unfold nonempty. destruct (show x); [contradiction|reflexivity].
Qed.
Lemma fields_show show v : readable parse show v -> fields (map show v) = map show v.
Proof.
  intros R. unfold fields. destruct v as [|x [|y v]]; cbn [map]; [reflexivity| |].
  - destruct (R x (or_introl eq_refl)) as (_ & S & N). pose proof (words_spaced [(show x, EmptyString)]) as W. cbn [spaced append map fst] in W. rewrite sapp_nil in W. rewrite W by (repeat split; assumption).
    apply (show_nonempty show [x] R).
  - apply (show_nonempty show (x :: y :: v) R).
Qed.
Lemma readable_app show a b : readable parse show (a ++ b) <-> readable parse show a /\ readable parse show b.
Proof.
  split.
  - intros R. split; intros x X; apply R; apply in_or_app; [left|right]; exact X.
  - intros [A B] x X. apply in_app_or in X. destruct X as [X|X]; [apply A|apply B]; exact X.
Qed.
Lemma number_rows_show show data : readable parse show (concat data) -> Forall (fun r => r <> []) data -> number_rows parse (map (map show) data) = data.
Proof.
  induction data as [|r data IH]; intros R F; [reflexivity|]. inversion F; subst. cbn [concat] in R. apply readable_app in R. destruct R as [R1 R2]. cbn [map number_rows]. destruct r as [|x r]; [contradiction|]. cbn [map].
  change (show x :: map show r) with (map show (x :: r)). rewrite fields_show, parse_all_show, IH by assumption. reflexivity.
Qed.
End Parse.

Lemma to_table_even rows c : even c rows -> rows <> [] -> exists t, to_table rows = Ok (Filled t) /\ holds t rows c.
Proof.
  intros E N. destruct rows as [|r rs]; [contradiction|]. inversion E; subst. unfold to_table.
  assert (F : forallb (fun x => Nat.eqb (List.length x) (List.length r)) rs = true).
  { apply forallb_forall. intros x X. apply Nat.eqb_eq. rewrite Forall_forall in H2. apply H2. exact X. }
  rewrite F. eexists. split; [reflexivity|]. repeat split; reflexivity.
Qed.
Lemma to_table_uneven rows x y : In x rows -> In y rows -> List.length x <> List.length y -> to_table rows = Err ValueError.
Proof.
  intros X Y N. destruct rows as [|r rs]; [contradiction|]. unfold to_table. destruct (forallb _ rs) eqn:F; [|reflexivity]. exfalso.
  rewrite forallb_forall in F. assert (L : forall z, In z (r :: rs) -> List.length z = List.length r).
  { intros z [<-|Z]; [reflexivity|]. apply Nat.eqb_eq. apply F. exact Z. }
  rewrite (L x X), (L y Y) in N. contradiction.
Qed.
Lemma to_table_ok rows p : to_table rows = Ok p -> (rows = [] /\ p = Empty) \/ exists t c, p = Filled t /\ even c rows /\ holds t rows c /\ rows <> [].
Proof.
  destruct rows as [|r rs]; intros H; [left; cbn in H; split; congruence|]. right. unfold to_table in H. destruct (forallb _ rs) eqn:F; [|discriminate]. injection H as <-.
  eexists. exists (List.length r). split; [reflexivity|]. split; [|split; [repeat split; reflexivity|discriminate]]. constructor; [reflexivity|]. apply Forall_forall. intros x X. apply Nat.eqb_eq.
  rewrite forallb_forall in F. apply F. exact X.
Qed.
