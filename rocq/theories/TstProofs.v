(** Lemmas on the reader of UMT test files. *)
From Coq Require Import List Bool ZArith Ascii String Lia.
From Verif Require Import Py FileNumModel FileNumProofs TstModel.
Import ListNotations.
Local Open Scope Z_scope.

(** ** Files *)
Lemma readline_len f l r : readline f = (l, r) -> (List.length r <= List.length f)%nat /\ (f <> [] -> (List.length r < List.length f)%nat) /\ (f = [] -> l = []).
Proof.
  revert l r. induction f as [|c f IH]; intros l r H; cbn [readline] in H.
  - inversion H. cbn. split; [lia|split; [easy|reflexivity]].
  - destruct (Ascii.eqb c newline). { inversion H; subst. cbn. split; [lia|split; [intros _; lia|easy]]. }
    destruct (readline f) as [l' r'] eqn:E. inversion H; subst. destruct (IH _ _ eq_refl) as (A & _ & _). cbn. split; [lia|split; [intros _; lia|easy]].
Qed.
(** A line is either complete, or the last one. *)
Lemma readline_app a b l r : readline a = (l, r) -> readline (a ++ b) = (l, r ++ b) \/ r = [] /\ l = a /\ exists l' r', readline (a ++ b) = (l ++ l', r').
Proof.
  revert l r. induction a as [|c a IH]; intros l r H; cbn [readline] in H.
  - inversion H. right. repeat split. destruct (readline b) as [l' r'] eqn:E. exists l', r'. cbn. exact E.
  - destruct (Ascii.eqb c newline) eqn:C. { inversion H; subst. left. cbn [app readline]. now rewrite C. }
    destruct (readline a) as [l' r'] eqn:E. inversion H; subst. destruct (IH _ _ eq_refl) as [X|(-> & -> & l2 & r2 & X)].
    + left. cbn [app readline]. now rewrite C, X.
    + right. repeat split. exists l2, r2. cbn [app readline]. now rewrite C, X.
Qed.

(** ** Parts of the reader *)
Definition shrinks {A} (p : parser A) := forall n f x r, p n f = Good (x, r) -> (List.length r <= List.length f)%nat.
(** More iterations change nothing. *)
Definition mono {A} (p : parser A) := forall n m f, (n <= m)%nat -> p n f <> Endless -> p m f = p n f.
Definition ends {A} (p : parser A) := forall n f, (List.length f < n)%nat -> p n f <> Endless.
(** More bytes at the end change nothing, or the file was used up. *)
Definition weak {A} (p : parser A) := forall n a b x r, p n a = Good (x, r) -> p n (a ++ b) = Good (x, r ++ b) \/ r = [].
(** ... and then not the result. *)
Definition stable {A} (p : parser A) := forall n a b x r, p n a = Good (x, r) ->
  p n (a ++ b) = Good (x, r ++ b) \/ r = [] /\ forall x' r', p n (a ++ b) = Good (x', r') -> x' = x.
Definition quiet {A} (p : parser A) := forall n f x r x' r', p n [] = Good (x, r) -> p n f = Good (x', r') -> x' = x.
Definition hungry {A} (p : parser A) := forall n x r, p n [] <> Good (x, r).

Record basic {A} (p : parser A) := { b_shrinks : shrinks p; b_mono : mono p; b_ends : ends p; b_weak : weak p }.
Record tame {A} (p : parser A) := { t_basic : basic p; t_stable : stable p; t_quiet : quiet p }.

Lemma hungry_quiet {A} (p : parser A) : hungry p -> quiet p.
Proof. intros H n f x r x' r' E. now apply H in E. Qed.
Lemma stable_weak {A} (p : parser A) : stable p -> weak p.
Proof. intros H n a b x r E. destruct (H n a b x r E) as [|[]]; auto. Qed.
Lemma ret_tame {A} (x : A) : tame (ret x).
Proof.
  split; [split| |]; unfold ret.
  - intros n f y r H. inversion H. lia.
  - intros n m f _ _. reflexivity.
  - intros n f _. discriminate.
  - intros n a b y r H. inversion H; subst. now left.
  - intros n a b y r H. inversion H; subst. now left.
  - intros n f y r y' r' H1 H2. congruence.
Qed.
Lemma fail_tame {A} e : tame (@fail A e).
Proof. split; [split| |]; unfold fail; repeat intro; try discriminate; reflexivity. Qed.
Lemma fail_hungry {A} e : hungry (@fail A e).
Proof. repeat intro. discriminate. Qed.
Lemma andthen_good {A B} (p : parser A) (q : A -> parser B) n f y r : andthen p q n f = Good (y, r) -> exists x f', p n f = Good (x, f') /\ q x n f' = Good (y, r).
Proof. unfold andthen. destruct (p n f) as [[x f']| |]; try discriminate. intro H. now exists x, f'. Qed.
Lemma andthen_eq {A B} (p : parser A) (q : A -> parser B) n f x f' : p n f = Good (x, f') -> andthen p q n f = q x n f'.
Proof. unfold andthen. now intros ->. Qed.
Lemma andthen_basic {A B} (p : parser A) (q : A -> parser B) : basic p -> (forall x, basic (q x)) -> (forall x, quiet (q x) /\ stable (q x) \/ hungry (q x) \/ weak (q x)) -> basic (andthen p q).
Proof.
  intros P Q _. split.
  - intros n f y r H. apply andthen_good in H. destruct H as (x & f' & H1 & H2). apply (b_shrinks _ P) in H1. apply (b_shrinks _ (Q x)) in H2. lia.
  - intros n m f L N. unfold andthen in *. rewrite (b_mono _ P n m f L) by (intro E; now rewrite E in N).
    destruct (p n f) as [[x f']| |]; [|reflexivity|easy]. now apply (b_mono _ (Q x)).
  - intros n f L. unfold andthen. destruct (p n f) as [[x f']| |] eqn:E; [|discriminate|now apply (b_ends _ P) in E]. apply (b_ends _ (Q x)). apply (b_shrinks _ P) in E. lia.
  - intros n a b y r H. apply andthen_good in H. destruct H as (x & f' & H1 & H2). destruct (b_weak _ P n a b x f' H1) as [X| ->].
    + rewrite (andthen_eq _ _ _ _ _ _ X). now apply (b_weak _ (Q x)).
    + right. apply (b_shrinks _ (Q x)) in H2. destruct r; [reflexivity|]. cbn in H2. lia.
Qed.
Lemma then_basic {A B} (p : parser A) (q : A -> parser B) : basic p -> (forall x, basic (q x)) -> basic (andthen p q).
Proof. intros P Q. apply andthen_basic; auto. intro x. right. right. apply Q. Qed.
Lemma then_hungry {A B} (p : parser A) (q : A -> parser B) : hungry p -> hungry (andthen p q).
Proof. intros P n x r H. apply andthen_good in H. destruct H as (y & f & H & _). now apply P in H. Qed.
Lemma then_hungry_2 {A B} (p : parser A) (q : A -> parser B) : shrinks p -> (forall x, hungry (q x)) -> hungry (andthen p q).
Proof. intros P Q n x r H. apply andthen_good in H. destruct H as (y & f & H & H2). apply P in H. destruct f; [|cbn in H; lia]. now apply Q in H2. Qed.
Lemma then_tame {A B} (p : parser A) (q : A -> parser B) : tame p -> (forall x, tame (q x)) -> tame (andthen p q).
Proof.
  intros [P P2 P3] Q. split.
  - apply then_basic; [exact P|]. intro x. apply (t_basic _ (Q x)).
  - intros n a b y r H. apply andthen_good in H. destruct H as (x & f' & H1 & H2). destruct (P2 n a b x f' H1) as [X|[-> X]].
    + rewrite (andthen_eq _ _ _ _ _ _ X). now apply (t_stable _ (Q x)).
    + right. assert (E : r = []). { apply (b_shrinks _ (t_basic _ (Q x))) in H2. destruct r; [reflexivity|]. cbn in H2. lia. }
      split; [exact E|]. intros y' r' H. apply andthen_good in H. destruct H as (x' & f2 & H3 & H4). apply X in H3. subst x'.
      exact (t_quiet _ (Q x) n f2 y r y' r' H2 H4).
  - intros n f y r y' r' H H'. apply andthen_good in H. destruct H as (x & f1 & H1 & H2). apply andthen_good in H'. destruct H' as (x' & f2 & H3 & H4).
    assert (f1 = []). { apply (b_shrinks _ P) in H1. destruct f1; [reflexivity|]. cbn in H1. lia. } subst f1.
    assert (x' = x) by exact (P3 n f x [] x' f2 H1 H3). subst x'. exact (t_quiet _ (Q x) n f2 y r y' r' H2 H4).
Qed.
(** When what follows can't work on an empty file, the first part needn't be stable. *)
Lemma then_hungry_tame {A B} (p : parser A) (q : A -> parser B) : basic p -> (forall x, tame (q x)) -> (forall x, hungry (q x)) -> tame (andthen p q).
Proof.
  intros P Q W. split.
  - apply then_basic; [exact P|]. intro x. apply (t_basic _ (Q x)).
  - intros n a b y r H. apply andthen_good in H. destruct H as (x & f' & H1 & H2). destruct (b_weak _ P n a b x f' H1) as [X| ->].
    + rewrite (andthen_eq _ _ _ _ _ _ X). now apply (t_stable _ (Q x)).
    + now apply W in H2.
  - apply hungry_quiet, then_hungry_2; [apply P|exact W].
Qed.
Lemma repeat_basic {A} (p : parser A) k : basic p -> basic (repeat_p k p).
Proof. intro P. induction k as [|k IH]; [apply ret_tame|]. cbn. apply then_basic; [exact P|]. intro x. apply then_basic; [exact IH|]. intro y. apply ret_tame. Qed.
Lemma repeat_tame {A} (p : parser A) k : tame p -> tame (repeat_p k p).
Proof. intro P. induction k as [|k IH]; [apply ret_tame|]. cbn. apply then_tame; [exact P|]. intro x. apply then_tame; [exact IH|]. intro y. apply ret_tame. Qed.

(** ** Lines *)
Lemma text_eqb_iff a b : text_eqb a b = true <-> a = b.
Proof.
  revert b. induction a as [|x a IH]; intros [|y b]; cbn; try easy. rewrite andb_true_iff, IH, Ascii.eqb_eq. split; [intros [-> ->]; reflexivity|]. intro H. now inversion H.
Qed.
Lemma split_some c s : exists w ws, split c s = w :: ws.
Proof. induction s as [|x s (w & ws & E)]; cbn; [eauto|]. destruct (Ascii.eqb x c); [eauto|]. rewrite E. eauto. Qed.
(** Splitting more text only changes the last part. *)
Lemma split_app c a b : exists ws w vs, split c a = ws ++ [w] /\ split c (a ++ b) = ws ++ (w ++ hd [] (split c b)) :: vs.
Proof.
  induction a as [|x a (ws & w & vs & E1 & E2)].
  - exists [], [], (tl (split c b)). split; [reflexivity|]. cbn [app]. destruct (split_some c b) as (v & vs & ->). reflexivity.
  - cbn. destruct (Ascii.eqb x c).
    + exists ([] :: ws), w, vs. now rewrite E1, E2.
    + rewrite E1, E2. destruct ws as [|u ws]; cbn.
      * exists [], (x :: w), vs. split; reflexivity.
      * exists ((x :: u) :: ws), w, vs. split; reflexivity.
Qed.

Section Reader.
Context {F : Type}.
Variable parse_float : text -> option F.
Variable trunc : F -> option Z.
Variable nonzero : F -> bool.
Variable unpack : text -> F.
Notation line_fields := (line_fields parse_float).
Notation split_line := (split_line parse_float).

Lemma key_eqb_iff a b : key_eqb a b = true <-> a = b.
Proof. destruct a, b; cbn; try easy. rewrite text_eqb_iff. split; [now intros ->|]. intro H. now inversion H. Qed.

Lemma line_fields_not_endless l : line_fields l <> Endless.
Proof.
  unfold TstModel.line_fields. destruct (negb _); [discriminate|]. destruct (tl _); [discriminate|]. destruct (split "$" _) as [|nm [|vl us]]; try discriminate.
  assert (C : forall num nm (v : option (@val F)), checked num nm v <> Endless) by (intros num0 nm0 [v|]; cbn; [destruct (py_int num0)|]; discriminate).
  cbv zeta. destruct (strip_char " " vl) as [|c s]; [apply C|]. destruct (existsb _ _); [apply C|]. destruct (existsb _ _); apply C.
Qed.
(** More text at the end of a line doesn't change the name. *)
Lemma line_fields_name a b n k v n' k' v' : line_fields a = Good (n, k, v) -> line_fields (a ++ b) = Good (n', k', v') -> k' = k.
Proof.
  assert (C : forall num nm (o : option (@val F)) n k v, checked num nm o = Good (n, k, v) -> k = nm) by (intros num nm [o|] ? ? ? H; cbn in H; [destruct (py_int num)|]; try discriminate; now inversion H).
  unfold TstModel.line_fields. destruct (negb (forallb _ a)); [discriminate|]. destruct (negb _); [discriminate|].
  destruct (split_app "#" a b) as (ws & w & vs & E1 & E2). rewrite E1, E2. destruct ws as [|w0 ws]; [discriminate|]. cbn [app tl].
  destruct ws as [|num rest]; cbn [app]; [discriminate|].
  set (ra := List.concat (rest ++ [w])). replace (List.concat (rest ++ (w ++ hd [] (split "#" b)) :: vs)) with (ra ++ hd [] (split "#" b) ++ List.concat vs).
  2:{ unfold ra. rewrite !concat_app. cbn. rewrite app_nil_r, <- !app_assoc. reflexivity. }
  set (rb := hd [] _ ++ _). destruct (split_app "$" ra rb) as (us & u & ts & E3 & E4). rewrite E3, E4. destruct us as [|nm us]; [discriminate|]. cbn [app].
  destruct us as [|vl us]; cbn [app]; cbv zeta.
  - set (x := strip_char " " u). set (y := strip_char " " (u ++ _)). intros H1 H2. transitivity (match strip_char "*" (strip_char " " nm) with [] => None | _ => Some (lower (strip_char " " nm)) end).
    + destruct y; [now apply C in H2|]. destruct (existsb _ _); [now apply C in H2|]. destruct (existsb _ _); now apply C in H2.
    + symmetry. destruct x; [now apply C in H1|]. destruct (existsb _ _); [now apply C in H1|]. destruct (existsb _ _); now apply C in H1.
  - set (x := strip_char " " vl). intros H1 H2. transitivity (match strip_char "*" (strip_char " " nm) with [] => None | _ => Some (lower (strip_char " " nm)) end).
    + destruct x; [now apply C in H2|]. destruct (existsb _ _); [now apply C in H2|]. destruct (existsb _ _); now apply C in H2.
    + symmetry. destruct x; [now apply C in H1|]. destruct (existsb _ _); [now apply C in H1|]. destruct (existsb _ _); now apply C in H1.
Qed.
Lemma split_line_hungry : hungry split_line.
Proof. intros n x r H. unfold TstModel.split_line in H. cbn in H. discriminate. Qed.
Lemma split_line_less n f x r : split_line n f = Good (x, r) -> (List.length r < List.length f)%nat.
Proof.
  intro H. assert (f <> []) by (intros ->; now apply split_line_hungry in H). unfold TstModel.split_line in H. destruct (readline f) as [l r'] eqn:E.
  destruct (line_fields l); try discriminate. inversion H; subst. apply readline_len in E. tauto.
Qed.
Lemma split_line_name n a b i k v r : split_line n a = Good ((i, k, v), r) ->
  split_line n (a ++ b) = Good ((i, k, v), r ++ b) \/ r = [] /\ forall i' k' v' r', split_line n (a ++ b) = Good ((i', k', v'), r') -> k' = k.
Proof.
  unfold TstModel.split_line. destruct (readline a) as [l r1] eqn:E. destruct (readline_app a b l r1 E) as [X|(-> & -> & l' & r' & X)]; rewrite X.
  - destruct (line_fields l); try discriminate. intro H. inversion H; subst. now left.
  - destruct (line_fields a) eqn:L; try discriminate. intro H. inversion H; subst. right. split; [reflexivity|]. intros i' k' v' r2 H2.
    destruct (line_fields (a ++ l')) eqn:L2; try discriminate. inversion H2; subst. exact (line_fields_name _ _ _ _ _ _ _ _ L L2).
Qed.
Lemma split_line_basic : basic split_line.
Proof.
  split.
  - intros n f x r H. apply split_line_less in H. lia.
  - intros n m f _ _. reflexivity.
  - intros n f _. unfold TstModel.split_line. destruct (readline f) as [l r]. pose proof (line_fields_not_endless l). destruct (line_fields l); easy.
  - intros n a b [[i k] v] r H. destruct (split_line_name n a b i k v r H) as [|[]]; auto.
Qed.

(** ** Loops *)
Lemma entries_loop_good fuel d n f x r : entries_loop parse_float (S fuel) d n f = Good (x, r) ->
  exists i k v f1, split_line n f = Good ((i, k, v), f1) /\ (k = None /\ x = d /\ r = f1 \/ k <> None /\ entries_loop parse_float fuel (put k v d) n f1 = Good (x, r)).
Proof.
  intro H. cbn in H. apply andthen_good in H. destruct H as ([[i k] v] & f1 & H1 & H2). exists i, k, v, f1. split; [exact H1|]. destruct k; [right; now split|]. left. now inversion H2.
Qed.
Lemma entries_loop_hungry fuel d : hungry (entries_loop parse_float fuel d).
Proof. intros n x r. destruct fuel; [discriminate|]. discriminate. Qed.
Lemma entries_loop_shrinks fuel : forall d, shrinks (entries_loop parse_float fuel d).
Proof.
  induction fuel as [|fuel IH]; intros d n f x r H; [discriminate|]. apply entries_loop_good in H. destruct H as (i & k & v & f1 & H & [(-> & -> & ->)|[_ H2]]).
  - apply split_line_less in H. lia.
  - apply split_line_less in H. apply IH in H2. lia.
Qed.
Lemma entries_loop_mono fuel : forall fuel' d n m f, (fuel <= fuel')%nat -> entries_loop parse_float fuel d n f <> Endless -> entries_loop parse_float fuel' d m f = entries_loop parse_float fuel d n f.
Proof.
  induction fuel as [|fuel IH]; intros [|fuel'] d n m f L N; try easy; try lia. cbn in *. unfold andthen in *.
  change (split_line m f) with (split_line n f). destruct (split_line n f) as [[[[i k] v] f1]| |]; try reflexivity. destruct k; [|reflexivity]. apply IH; [lia|exact N].
Qed.
Lemma entries_loop_ends fuel : forall d n f, (List.length f < fuel)%nat -> entries_loop parse_float fuel d n f <> Endless.
Proof.
  induction fuel as [|fuel IH]; intros d n f L; [lia|]. cbn. unfold andthen. destruct (split_line n f) as [[[[i k] v] f1]| |] eqn:E; try discriminate.
  - destruct k; [|discriminate]. apply IH. apply split_line_less in E. lia.
  - now apply (b_ends _ split_line_basic (S (List.length f))) in E; [|lia].
Qed.
Lemma entries_loop_stable fuel : forall d, stable (entries_loop parse_float fuel d).
Proof.
  induction fuel as [|fuel IH]; intros d n a b x r H; [discriminate|]. apply entries_loop_good in H. destruct H as (i & k & v & f1 & H1 & H2).
  destruct (split_line_name n a b i k v f1 H1) as [X|[-> X]].
  - cbn. rewrite (andthen_eq _ _ _ _ _ _ X). destruct H2 as [(-> & -> & ->)|[N H2]]; [now left|]. destruct k; [|easy]. now apply IH.
  - destruct H2 as [(-> & -> & ->)|[N H2]]; [|now apply entries_loop_hungry in H2]. right. split; [reflexivity|]. intros x' r' H. apply entries_loop_good in H.
    destruct H as (i' & k' & v' & f' & H3 & H4). apply X in H3. subst k'. destruct H4 as [(_ & E & _)|[N _]]; [exact E|easy].
Qed.
Lemma entries_hungry d : hungry (entries parse_float d).
Proof. intros n x r. apply entries_loop_hungry. Qed.
Lemma entries_tame d : tame (entries parse_float d).
Proof.
  unfold entries. split; [split| |].
  - intros n f x r. apply entries_loop_shrinks.
  - intros n m f L N. now apply entries_loop_mono.
  - intros n f L. now apply entries_loop_ends.
  - intros n a b x r H. destruct (entries_loop_stable n d n a b x r H) as [|[]]; auto.
  - intros n a b x r H. now apply entries_loop_stable.
  - apply hungry_quiet, entries_hungry.
Qed.

Lemma channel_loop_basic fuel : forall d n f, 
  (forall x r, channel_loop parse_float fuel d n f = Good (x, r) -> (List.length r <= List.length f)%nat) /\
  ((List.length f < fuel)%nat -> channel_loop parse_float fuel d n f <> Endless) /\
  (forall fuel' m, (fuel <= fuel')%nat -> channel_loop parse_float fuel d n f <> Endless -> channel_loop parse_float fuel' d m f = channel_loop parse_float fuel d n f) /\
  (forall b x r, channel_loop parse_float fuel d n f = Good (x, r) -> channel_loop parse_float fuel d n (f ++ b) = Good (x, r ++ b) \/ r = []).
Proof.
  induction fuel as [|fuel IH]; intros d n f.
  { cbn. repeat split; try easy; try lia. }
  split; [|split; [|split]].
  - intros x r H. cbn in H. apply andthen_good in H. destruct H as ([[i k] v] & f1 & H1 & H2). apply split_line_less in H1. destruct (key_eqb k _); [inversion H2; subst; lia|]. apply IH in H2. lia.
  - intro L. cbn. unfold andthen. destruct (split_line n f) as [[[[i k] v] f1]| |] eqn:E; try discriminate; [|now apply (b_ends _ split_line_basic (S (List.length f))) in E; [|lia]].
    destruct (key_eqb k _); [discriminate|]. apply IH. apply split_line_less in E. lia.
  - intros [|fuel'] m L N; [lia|]. cbn in *. unfold andthen in *. change (split_line m f) with (split_line n f). destruct (split_line n f) as [[[[i k] v] f1]| |]; try reflexivity.
    destruct (key_eqb k _); [reflexivity|]. apply IH; [lia|exact N].
  - intros b x r H. cbn in H. apply andthen_good in H. destruct H as ([[i k] v] & f1 & H1 & H2). destruct (b_weak _ split_line_basic n f b _ f1 H1) as [X| ->].
    + cbn. rewrite (andthen_eq _ _ _ _ _ _ X). destruct (key_eqb k _); [inversion H2; subst; now left|]. now apply IH.
    + right. destruct (key_eqb k _); [now inversion H2|]. apply IH in H2. destruct r; [reflexivity|]. cbn in H2. lia.
Qed.
Lemma read_channel_basic : basic (read_channel parse_float).
Proof.
  unfold read_channel. split.
  - intros n f x r H. now apply (channel_loop_basic n [] n f) in H.
  - intros n m f L N. now apply channel_loop_basic.
  - intros n f L. now apply channel_loop_basic.
  - intros n a b x r H. now apply channel_loop_basic.
Qed.
Lemma item_tame {V} k (d : list (key * V)) : tame (item k d).
Proof. unfold item. destruct (get _ d); [apply ret_tame|apply fail_tame]. Qed.
Lemma times_tame (v : @val F) : tame (times_of v).
Proof. destruct v; cbn; try apply fail_tame. apply ret_tame. Qed.
Lemma times_h_tame (v : @hval F) : tame (times_of_h v).
Proof. destruct v; cbn; [apply times_tame|apply fail_tame]. Qed.

(** What follows a line of the metadata of the file. *)
Definition header_next (fuel : nat) (d : hdict) (k : key) (v : val) : parser hdict :=
  let d := put k (Plain v) d in
  if key_eqb k (Some (txt "channelsarray")) then
    do t <- times_of v; do channels <- repeat_p t (read_channel parse_float);
    header_loop parse_float fuel (put (Some (txt "channels")) (Channels channels) d)
  else header_loop parse_float fuel d.
Lemma header_loop_eq fuel d n f : header_loop parse_float (S fuel) d n f
  = (do (_, k, v) <- split_line; match k with None => ret d | Some _ => header_next fuel d k v end) n f.
Proof. reflexivity. Qed.
Lemma header_loop_hungry fuel d : hungry (header_loop parse_float fuel d).
Proof. intros n x r. destruct fuel; discriminate. Qed.
Lemma header_next_hungry fuel d k v : hungry (header_next fuel d k v).
Proof.
  unfold header_next. destruct (key_eqb _ _); [|apply header_loop_hungry]. apply then_hungry_2; [apply times_tame|]. intro t.
  apply then_hungry_2; [apply repeat_basic, read_channel_basic|]. intro c. apply header_loop_hungry.
Qed.
Lemma header_loop_all fuel : forall d n f,
  (forall x r, header_loop parse_float fuel d n f = Good (x, r) -> (List.length r <= List.length f)%nat) /\
  ((List.length f < fuel)%nat -> (List.length f < n)%nat -> header_loop parse_float fuel d n f <> Endless) /\
  (forall fuel' m, (fuel <= fuel')%nat -> (n <= m)%nat -> header_loop parse_float fuel d n f <> Endless -> header_loop parse_float fuel' d m f = header_loop parse_float fuel d n f) /\
  (forall b x r, header_loop parse_float fuel d n f = Good (x, r) -> header_loop parse_float fuel d n (f ++ b) = Good (x, r ++ b) \/
    r = [] /\ forall x' r', header_loop parse_float fuel d n (f ++ b) = Good (x', r') -> x' = x).
Proof.
  induction fuel as [|fuel IH]; intros d n f.
  { cbn. repeat split; try easy; try lia. }
  assert (RB := fun t => repeat_basic _ t read_channel_basic).
  split; [|split; [|split]].
  - intros x r H. rewrite header_loop_eq in H. apply andthen_good in H. destruct H as ([[i k] v] & f1 & H1 & H2). apply split_line_less in H1. destruct k as [k|]; [|inversion H2; subst; lia].
    unfold header_next in H2. destruct (key_eqb _ _); [|apply IH in H2; lia]. apply andthen_good in H2. destruct H2 as (t & f2 & H3 & H4). apply (b_shrinks _ (t_basic _ (times_tame v))) in H3.
    apply andthen_good in H4. destruct H4 as (c & f3 & H5 & H6). apply (b_shrinks _ (RB t)) in H5. apply IH in H6. lia.
  - intros L LN. rewrite header_loop_eq. unfold andthen at 1. destruct (split_line n f) as [[[[i k] v] f1]| |] eqn:E; try discriminate; [|now apply (b_ends _ split_line_basic n) in E].
    apply split_line_less in E. destruct k as [k|]; [|discriminate]. unfold header_next. destruct (key_eqb _ _); [|apply IH; lia].
    unfold andthen. destruct (times_of v n f1) as [[t f2]| |] eqn:T; try discriminate; [|apply (b_ends _ (t_basic _ (times_tame v)) n) in T; [easy|lia]].
    apply (b_shrinks _ (t_basic _ (times_tame v))) in T. destruct (repeat_p t _ n f2) as [[c f3]| |] eqn:RP; try discriminate; [|apply (b_ends _ (RB t) n) in RP; [easy|lia]].
    apply (b_shrinks _ (RB t)) in RP. apply IH; lia.
  - intros [|fuel'] m L LN N; [lia|]. rewrite !header_loop_eq in *. unfold andthen at 1 in N. unfold andthen at 1 2. change (split_line m f) with (split_line n f).
    destruct (split_line n f) as [[[[i k] v] f1]| |]; try reflexivity. destruct k as [k|]; [|reflexivity]. unfold header_next in *. destruct (key_eqb _ _); [|apply IH; [lia|exact LN|exact N]].
    unfold andthen in *. rewrite (b_mono _ (t_basic _ (times_tame v)) n m f1 LN) by (intro X; now rewrite X in N). destruct (times_of v n f1) as [[t f2]| |]; try reflexivity.
    rewrite (b_mono _ (RB t) n m f2 LN) by (intro X; now rewrite X in N). destruct (repeat_p t _ n f2) as [[c f3]| |]; try reflexivity. apply IH; [lia|exact LN|exact N].
  - intros b x r H. rewrite header_loop_eq in H. apply andthen_good in H. destruct H as ([[i k] v] & f1 & H1 & H2).
    destruct (split_line_name n f b i k v f1 H1) as [X|[-> X]].
    + rewrite !header_loop_eq, (andthen_eq _ _ _ _ _ _ X). destruct k as [k|]; [|inversion H2; subst; now left]. unfold header_next in *. destruct (key_eqb _ _); [|now apply IH].
      apply andthen_good in H2. destruct H2 as (t & f2 & H3 & H4). destruct (t_stable _ (times_tame v) n f1 b t f2 H3) as [Y|[-> _]].
      * rewrite (andthen_eq _ _ _ _ _ _ Y). apply andthen_good in H4. destruct H4 as (c & f3 & H5 & H6). destruct (b_weak _ (RB t) n f2 b c f3 H5) as [Z| ->].
        -- rewrite (andthen_eq _ _ _ _ _ _ Z). now apply IH.
        -- now apply header_loop_hungry in H6.
      * exfalso. revert H4. apply (then_hungry_2 _ _ (b_shrinks _ (RB t))). intro c. apply header_loop_hungry.
    + destruct k as [k|].
      * now apply header_next_hungry in H2.
      * inversion H2; subst. right. split; [reflexivity|]. intros x' r' H. rewrite header_loop_eq in H. apply andthen_good in H. destruct H as ([[i' k'] v'] & f' & H3 & H4).
        apply X in H3. subst k'. now inversion H4.
Qed.
Lemma header_tame : tame (fun n => header_loop parse_float n [] n).
Proof.
  split; [split| |].
  - intros n f x r H. now apply header_loop_all in H.
  - intros n m f L N. now apply header_loop_all.
  - intros n f L. now apply header_loop_all.
  - intros n a b x r H. destruct (proj2 (proj2 (proj2 (header_loop_all n [] n a))) b x r H) as [|[]]; auto.
  - intros n a b x r H. now apply header_loop_all.
  - apply hungry_quiet. intros n x r. apply header_loop_hungry.
Qed.

(** ** Data *)
Lemma read_value_hungry (v : @val F) : hungry (read_value unpack v).
Proof.
  intros n x r H. destruct v; cbn in H; try discriminate. unfold read in H. destruct (z <? 0); [discriminate|]. rewrite firstn_nil in H. discriminate.
Qed.
Lemma read_value_tame (v : @val F) : tame (read_value unpack v).
Proof.
  assert (S1 : shrinks (read_value unpack v)).
  { intros n f x r H. destruct v as [|s|z|y]; cbn in H; try discriminate.
    - destruct (Nat.eqb _ 8); [|discriminate]. inversion H. cbn. lia.
    - unfold read in H. destruct (z <? 0); destruct (Nat.eqb _ 8); try discriminate; inversion H; [cbn; lia|]. rewrite skipn_length. lia. }
  assert (S2 : stable (read_value unpack v)).
  { intros n a b x r H.
    assert (ALL : forall x r, (if Nat.eqb (List.length a) 8 then Good (unpack a, []) else Raise StructError : res (F * file)) = Good (x, r) ->
      r = [] /\ forall x' r', (if Nat.eqb (List.length (a ++ b)) 8 then Good (unpack (a ++ b), []) else Raise StructError : res (F * file)) = Good (x', r') -> x' = x).
    { intros x0 r0 H0. destruct (Nat.eqb_spec (List.length a) 8) as [E|]; [|discriminate]. inversion H0; subst. split; [reflexivity|]. intros x' r' H'.
      destruct (Nat.eqb_spec (List.length (a ++ b)) 8) as [E2|]; [|discriminate]. rewrite app_length in E2. assert (b = []) by (destruct b; [reflexivity|cbn in E2; lia]). subst b. rewrite app_nil_r in H'. now inversion H'. }
    destruct v as [|s|z|y]; cbn in H |- *; try discriminate.
    - right. now apply ALL.
    - unfold read in *. destruct (z <? 0); [right; now apply ALL|]. destruct (Nat.eqb_spec (List.length (firstn (Z.to_nat z) a)) 8) as [E|]; [|discriminate]. inversion H; subst. rewrite firstn_length in E.
      destruct (Nat.le_gt_cases (Z.to_nat z) (List.length a)) as [L|L].
      + left. rewrite firstn_app, skipn_app. replace (Z.to_nat z - List.length a)%nat with 0%nat by lia. rewrite firstn_O, app_nil_r, firstn_length. cbn [skipn].
        replace (Nat.eqb _ 8) with true by (symmetry; apply Nat.eqb_eq; exact E). reflexivity.
      + right. split; [apply skipn_all2; lia|]. intros x' r' H'. destruct (Nat.eqb_spec (List.length (firstn (Z.to_nat z) (a ++ b))) 8) as [E2|]; [|discriminate].
        rewrite firstn_length, app_length in E2. assert (b = []) by (destruct b; [reflexivity|cbn in E2; lia]). subst b. rewrite app_nil_r in H'. now inversion H'. }
  split; [split| |].
  - exact S1.
  - intros n m f _ _. destruct v; reflexivity.
  - intros n f _. destruct v; cbn; try discriminate; [destruct (Nat.eqb _ 8); discriminate|]. unfold read. destruct (z <? 0); destruct (Nat.eqb _ 8); discriminate.
  - now apply stable_weak.
  - exact S2.
  - apply hungry_quiet, read_value_hungry.
Qed.
Lemma skip_tame k : tame (skip k).
Proof.
  unfold skip, read. split; [split| |].
  - intros n f x r H. inversion H; subst. destruct (k <? 0); cbn; [lia|]. rewrite skipn_length. lia.
  - intros n m f _ _. reflexivity.
  - intros n f _. discriminate.
  - intros n a b x r H. inversion H; subst. destruct (k <? 0); cbn; [now right|]. destruct (Nat.le_gt_cases (Z.to_nat k) (List.length a)) as [L|L].
    + left. rewrite skipn_app. now replace (Z.to_nat k - List.length a)%nat with 0%nat by lia.
    + right. apply skipn_all2. lia.
  - intros n a b [] r H. inversion H; subst. destruct (k <? 0); cbn; [right; split; [reflexivity|]; now intros [] |]. destruct (Nat.le_gt_cases (Z.to_nat k) (List.length a)) as [L|L].
    + left. rewrite skipn_app. now replace (Z.to_nat k - List.length a)%nat with 0%nat by lia.
    + right. split; [apply skipn_all2; lia|]. now intros [].
  - intros n f [] r [] r' _ _. reflexivity.
Qed.
Lemma skip_line_tame : tame skip_line.
Proof.
  unfold skip_line. assert (W : weak (fun (_ : nat) f => Good (tt, snd (readline f)))).
  { intros n a b x r H. inversion H; subst. destruct (readline a) as [l r'] eqn:E. destruct (readline_app a b l r' E) as [X|(-> & _)]; [left; now rewrite X|now right]. }
  split; [split| |].
  - intros n f x r H. inversion H; subst. destruct (readline f) as [l r'] eqn:E. apply readline_len in E. cbn. tauto.
  - intros n m f _ _. reflexivity.
  - intros n f _. discriminate.
  - exact W.
  - intros n a b [] r H. destruct (W n a b _ _ H) as [X| ->]; [now left|right; split; [reflexivity|now intros []]].
  - intros n f [] r [] r' _ _. reflexivity.
Qed.
Lemma read_sample_tame ch : forall d, tame (read_sample unpack ch d).
Proof. induction ch as [|[k v] ch IH]; intro d; cbn; [apply ret_tame|]. apply then_tame; [apply read_value_tame|]. intro x. apply IH. Qed.
Lemma read_samples_tame k ch : forall d, tame (read_samples unpack k ch d).
Proof.
  induction k as [|k IH]; intro d; cbn; [apply ret_tame|]. apply then_tame; [apply read_sample_tame|]. intro x. apply then_tame; [apply skip_tame|]. intro y. apply IH.
Qed.
Lemma all_items_tame {V} k (l : list (list (key * V))) : tame (all_items k l).
Proof. induction l as [|d l IH]; cbn; [apply ret_tame|]. apply then_tame; [apply item_tame|]. intro v. apply then_tame; [exact IH|]. intro vs. apply ret_tame. Qed.
Lemma keys_of_tame (l : list (@val F)) : tame (keys_of l).
Proof.
  induction l as [|v l IH]; [apply ret_tame|]. destruct v; cbn; try apply fail_tame; (apply then_tame; [exact IH|]; intro ks; apply ret_tame).
Qed.
Lemma int_of_tame v : tame (int_of trunc v).
Proof. destruct v; cbn; [apply fail_tame| |apply ret_tame|]; [destruct (py_int s)|destruct (trunc x)]; try apply ret_tame; apply fail_tame. Qed.
Lemma read_data_tame hd sd : tame (read_data trunc unpack hd sd).
Proof.
  unfold read_data. apply then_tame; [apply item_tame|]. intro ch. apply then_tame; [apply item_tame|]. intro s. destruct ch as [|ch]; [apply fail_tame|].
  apply then_tame; [apply all_items_tame|]. intro l. apply then_tame; [apply all_items_tame|]. intro c. apply then_tame; [apply keys_of_tame|]. intro ks.
  apply then_tame; [apply int_of_tame|]. intro k. apply read_samples_tame.
Qed.
Lemma read_step_tame hd : tame (read_step parse_float trunc nonzero unpack hd).
Proof.
  unfold read_step. assert (E : forall d, tame (do m <- entries parse_float d; do s <- item "samples" m; if truth nonzero s then do d <- read_data trunc unpack hd m; ret {| step_metadata := m; step_data := Some d |}
    else ret {| step_metadata := m; step_data := None |})).
  { intro d. apply then_tame; [apply entries_tame|]. intro m. apply then_tame; [apply item_tame|]. intro s. destruct (truth nonzero s); [|apply ret_tame].
    apply then_tame; [apply read_data_tame|]. intro x. apply ret_tame. }
  assert (N : forall k v, tame (if negb (key_eqb k (Some (txt "test"))) then fail (Py ValueError) else do m <- entries parse_float [(k, v)]; do m <- entries parse_float m;
    do s <- item "samples" m; if truth nonzero s then do d <- read_data trunc unpack hd m; ret {| step_metadata := m; step_data := Some d |} else ret {| step_metadata := m; step_data := None |})).
  { intros k v. destruct (negb _); [apply fail_tame|]. apply then_tame; [apply entries_tame|]. intro m. apply E. }
  assert (HU : forall k v, hungry (if negb (key_eqb k (Some (txt "test"))) then fail (Py ValueError) else do m <- entries parse_float [(k, v)]; do m <- entries parse_float m;
    do s <- item "samples" m; if truth nonzero s then do d <- read_data trunc unpack hd m; ret {| step_metadata := m; step_data := Some d |} else ret {| step_metadata := m; step_data := None |})).
  { intros k v. destruct (negb _); [apply fail_hungry|]. apply then_hungry, entries_hungry. }
  assert (SB : forall k v, basic (match k with None => do (_, name, value) <- split_line; ret (name, value) | Some _ => ret (k, v) end : parser (key * val))).
  { intros [k|] v; [apply ret_tame|]. apply then_basic; [apply split_line_basic|]. intros [[? ?] ?]. apply ret_tame. }
  apply then_hungry_tame; [apply split_line_basic| |].
  - intros [[i k] v]. apply then_hungry_tame; [apply SB| |]; intros [k' v']; [apply N|apply HU].
  - intros [[i k] v]. apply then_hungry_2; [apply SB|]. intros [k' v']. apply HU.
Qed.
Lemma read_run_tame hd : tame (read_run parse_float trunc nonzero unpack hd).
Proof.
  unfold read_run. apply then_hungry_tame; [apply split_line_basic| |].
  - intros [[i k] v]. destruct (negb _); [apply fail_tame|]. apply then_tame; [apply skip_line_tame|]. intros _. apply then_tame; [apply entries_tame|]. intro m.
    apply then_tame; [apply item_tame|]. intro h. apply then_tame; [apply times_h_tame|]. intro t. apply then_tame; [apply repeat_tame, read_step_tame|]. intro s. apply ret_tame.
  - intros [[i k] v]. destruct (negb _); [apply fail_hungry|]. apply then_hungry_2; [apply skip_line_tame|]. intros _. apply then_hungry, entries_hungry.
Qed.
Lemma read_all_tame : tame (read_all parse_float trunc nonzero unpack).
Proof.
  unfold read_all. apply then_tame; [apply header_tame|]. intro m. apply then_tame; [apply item_tame|]. intro h. apply then_tame; [apply times_h_tame|]. intro t.
  apply then_tame; [apply repeat_tame, read_run_tame|]. intro s. apply ret_tame.
Qed.
End Reader.
