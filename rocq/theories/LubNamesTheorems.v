(** C44: names of sub models and missing arguments. *)
From Coq Require Import List Bool Arith String Ascii Lia.
From Verif Require Import Py LubricantModel LubricantSpec LubricantProofs.
Import ListNotations.
Local Open Scope string_scope.

(** A letter or an underscore; a digit. *)
Definition letter (c : ascii) : Prop := let n := nat_of_ascii c in (65 <= n <= 90 \/ 97 <= n <= 122 \/ n = 95)%nat.
Definition digit (c : ascii) : Prop := let n := nat_of_ascii c in (48 <= n <= 57)%nat.

Lemma id_start_letter c : id_start c = true <-> letter c.
Proof. unfold id_start, letter. cbv zeta. rewrite !orb_true_iff, !andb_true_iff, !Nat.leb_le, Nat.eqb_eq. tauto. Qed.
Lemma id_char_spec c : id_char c = true <-> letter c \/ digit c.
Proof. unfold id_char. cbv zeta. rewrite orb_true_iff, andb_true_iff, id_start_letter, !Nat.leb_le. reflexivity. Qed.
Lemma all_chars_get f s : all_chars f s = true <-> forall i c, String.get i s = Some c -> f c = true.
Proof.
  induction s as [|c s IH]; cbn [all_chars]; [split; [intros _ i x; destruct i; discriminate|reflexivity]|]. rewrite andb_true_iff, IH. split.
  - intros [A B] [|i] x E; cbn in E; [injection E as <-; exact A|exact (B i x E)].
  - intros H. split; [exact (H 0%nat c eq_refl)|]. intros i x E. exact (H (S i) x E).
Qed.
(** Any function that takes keyword arguments can be added exactly under the names that have a first character, which is a letter or an underscore, and
    only letters, underscores and digits after it. With any other name the call is refused and changes nothing. *)
Theorem c44_names : forall (V : Type) (l : lubricant V) name f, var_kw f = true ->
  let good := (exists c, String.get 0 name = Some c /\ letter c) /\ forall i c, String.get i name = Some c -> letter c \/ digit c in
  (good -> add_sub_model l (Str name) (Function f) = (dset name f l, Ok tt)) /\
  (~ good -> forall o, add_sub_model l (Str name) o = (l, Err AssertionError)).
Proof.
  intros V l name f K good. assert (E : is_identifier name = true <-> good).
  { unfold good. destruct name as [|c s]; cbn [is_identifier]; [split; [discriminate|intros [(c & H & _) _]; discriminate]|].
    rewrite andb_true_iff, id_start_letter, all_chars_get. split.
    - intros [A B]. split; [exists c; split; [reflexivity|exact A]|]. intros [|i] x G; cbn in G; [injection G as <-; left; exact A|]. apply id_char_spec, (B i x G).
    - intros [(x & G & A) B]. cbn in G. injection G as <-. split; [exact A|]. intros i x G. apply id_char_spec. exact (B (S i) x G). }
  cbn [add_sub_model]. destruct (is_identifier name) eqn:I; cbn [negb].
  - split; [rewrite K; reflexivity|]. intros N. exfalso. apply N, E. reflexivity.
  - split; [intros G; apply E in G; discriminate|reflexivity].
Qed.
Print Assumptions c44_names.
Example c44_names_case : is_identifier "nd_p2" = true /\ is_identifier "" = false /\ is_identifier "2p" = false /\ is_identifier "a b" = false.
Proof. repeat split. Qed.

Lemma solve_after {V} (a b : lubricant V) : forall s s', solve_sub_models a s = (s', Ok tt) -> solve_sub_models (a ++ b)%list s = solve_sub_models b s'.
Proof.
  induction a as [|[p f] a IH]; intros s s' H; cbn in *; [injection H as <-; reflexivity|]. destruct (call f s); [apply IH; exact H|discriminate].
Qed.
(** A sub model, without defaults, that needs an argument which is in the state neither at first nor after the sub models before it: solving stops there with a
    TypeError, and the results of the sub models before it stay in the state. *)
Theorem c44_missing : forall (V : Type) (l before after : lubricant V) p f s s' a, l = (before ++ (p, f) :: after)%list ->
  solve_sub_models before s = (s', Ok tt) -> bound f = false -> n_defaults f = 0%nat -> In a (args f) -> dget a s' = None ->
  solve_sub_models l s = (s', Err TypeError).
Proof.
  intros V l bf af p f s s' a -> B U D I N. rewrite (solve_after _ _ _ _ B). cbn [solve_sub_models].
  assert (C : call f s' = Err TypeError); [|rewrite C; reflexivity]. unfold call. rewrite U, D, Nat.sub_0_r, firstn_all.
  assert (T : match args f with [] => false | x :: _ => false && Nat.eqb (pos_only f) 0 && dmem x s' end = false) by (destruct (args f); reflexivity). rewrite T.
  destruct (Nat.ltb 0 _); [reflexivity|]. assert (F : forallb (fun x => dmem x s') (args f) = false).
  { destruct (forallb _ _) eqn:Q; [|reflexivity]. rewrite forallb_forall in Q. specialize (Q a I). unfold dmem in Q. rewrite N in Q. discriminate. }
  rewrite F. reflexivity.
Qed.
Print Assumptions c44_missing.
Example c44_missing_case : let f := Fn ["pressure"] false 0 0 [] true (fun _ => Ok 1%nat) in let g := Fn ["density"] false 0 0 [] true (fun _ => Ok 2%nat) in
  solve_sub_models [("x", f)] [("pressure", 5%nat)] = ([("pressure", 5%nat); ("x", 1%nat)], Ok tt) /\ In "density" (args g) /\
  solve_sub_models [("x", f); ("y", g)] [("pressure", 5%nat)] = ([("pressure", 5%nat); ("x", 1%nat)], Err TypeError).
Proof. repeat split. left. reflexivity. Qed.
