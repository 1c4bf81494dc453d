(** Lemmas on the reader of Alicona files. *)
From Coq Require Import List Bool ZArith Ascii String Lia.
From Verif Require Import Py FileNumModel FileNumProofs TstModel TstSpec TstProofs TstRoundProofs AliconaModel AliconaSpec.
Import ListNotations.
Local Open Scope Z_scope.

(** ** Lines of the header *)
Lemma no_zeros_app a b : no_zeros (a ++ b) = no_zeros a ++ no_zeros b.
Proof. unfold no_zeros. apply filter_app. Qed.
Lemma no_zeros_fill n t : clean t -> no_zeros (fill n t) = t.
Proof.
  intro C. unfold fill. rewrite no_zeros_app. replace (no_zeros (repeat zero _)) with (@nil ascii); [|induction (n - _)%nat; [reflexivity|cbn; exact IHn0]].
  rewrite app_nil_r. apply filter_none. intro I. unfold clean in C. rewrite Forall_forall in C. apply C in I. tauto.
Qed.
Lemma no_zeros_clean t : clean t -> no_zeros t = t.
Proof. intro C. rewrite <- (no_zeros_fill 0 t C) at 2. unfold fill. now rewrite app_nil_r. Qed.
Lemma fill_length n t : (List.length t <= n)%nat -> List.length (fill n t) = n.
Proof. intro L. unfold fill. rewrite app_length, repeat_length. lia. Qed.
Lemma eol_clean eol : is_eol eol -> clean eol.
Proof. intros [-> | ->]; repeat constructor; discriminate. Qed.
Lemma clean_no_newline n t : clean t -> ~ In newline (fill n t).
Proof.
  intros C I. unfold fill in I. apply in_app_iff in I. destruct I as [I|I]; [unfold clean in C; rewrite Forall_forall in C; apply C in I; tauto|]. apply repeat_spec in I. discriminate.
Qed.
Lemma line_parts eol k v rest : is_eol eol -> clean k -> (List.length k <= 20)%nat -> clean v ->
  exists l, readline (al_line eol k v ++ rest) = (l, rest) /\ name_part l = k /\ value_part l = v ++ eol.
Proof.
  intros E K LK V. assert (CE := eol_clean _ E). exists (al_line eol k v). split; [|split].
  - unfold al_line. replace ((fill 20 k ++ fill 30 v ++ eol ++ [newline]) ++ rest) with ((fill 20 k ++ fill 30 v ++ eol) ++ [newline] ++ rest) by now rewrite <- !app_assoc.
    rewrite readline_at; [now rewrite <- !app_assoc|]. rewrite !in_app_iff. intros [I|[I|I]]; [now apply clean_no_newline in I|now apply clean_no_newline in I|]. unfold clean in CE. rewrite Forall_forall in CE. apply CE in I. tauto.
  - unfold name_part, al_line. rewrite firstn_app, fill_length by exact LK. rewrite Nat.sub_diag, firstn_O, app_nil_r, firstn_all2 by (rewrite fill_length; lia). now apply no_zeros_fill.
  - unfold value_part, al_line. rewrite !app_assoc, removelast_last. rewrite <- !app_assoc, skipn_app, fill_length by exact LK. rewrite Nat.sub_diag, (skipn_all2 (fill 20 k)) by (rewrite fill_length; lia). cbn [skipn app].
    rewrite no_zeros_app, no_zeros_fill, no_zeros_clean by assumption. reflexivity.
Qed.
Lemma decode_clean t : clean t -> decode t = Good t.
Proof.
  intro C. unfold decode. replace (forallb _ t) with true; [reflexivity|]. symmetry. apply forallb_forall. intros c I. unfold clean in C. rewrite Forall_forall in C. apply C in I. now apply N.ltb_lt.
Qed.
Lemma clean_app a b : clean a -> clean b -> clean (a ++ b).
Proof. intros A B. now apply Forall_app. Qed.
(** A carriage return doesn't matter to a number. *)
Lemma lstrip_space v c : is_space c = true -> lstrip (v ++ [c]) = match lstrip v with [] => [] | w => w ++ [c] end.
Proof. intro S0. induction v as [|x v IH]; cbn; [now rewrite S0|]. destruct (is_space x); [exact IH|reflexivity]. Qed.
Lemma py_int_space v c : is_space c = true -> py_int (v ++ [c]) = py_int v.
Proof.
  intro S0. unfold py_int. replace (strip (v ++ [c])) with (strip v); [reflexivity|]. unfold strip. rewrite lstrip_space by exact S0. destruct (lstrip v) as [|x w]; [reflexivity|].
  rewrite rev_app_distr. cbn [rev app lstrip]. now rewrite S0.
Qed.
Lemma py_int_eol v eol : is_eol eol -> py_int (v ++ eol) = py_int v.
Proof. intros [-> | ->]; [now rewrite app_nil_r|]. now apply py_int_space. Qed.
Lemma digits_clean z : 0 <= z -> clean (py_str z).
Proof.
  intro P. destruct (py_str_written z P) as (ds & -> & F & _). apply Forall_forall. intros x I. apply in_map_iff in I. destruct I as (d & <- & I). rewrite Forall_forall in F. specialize (F d I). revert d F I.
  apply (digit_cases (fun d => In d ds -> is_ascii (digit_char d) /\ digit_char d <> zero /\ digit_char d <> newline)); intro; repeat split; vm_compute; congruence.
Qed.
Lemma txt_clean s : forallb (fun c => (N_of_ascii c <? 128)%N && negb (Ascii.eqb c zero) && negb (Ascii.eqb c newline)) (txt s) = true -> clean (txt s).
Proof.
  intro H. apply Forall_forall. intros c I. rewrite forallb_forall in H. apply H in I. rewrite !andb_true_iff, !negb_true_iff in I. destruct I as [[A B] C]. apply N.ltb_lt in A. apply Ascii.eqb_neq in B, C. now repeat split.
Qed.

(** ** Groups of bytes *)
Lemma groups_concat n (cells : list text) rest : Forall (fun c => List.length c = n) cells -> groups n (List.length cells) (List.concat cells ++ rest) = cells.
Proof.
  induction 1 as [|c cells L FC IH]; [reflexivity|]. cbn [List.concat List.length groups]. rewrite <- app_assoc, firstn_app, skipn_app, L, Nat.sub_diag, firstn_O, app_nil_r, firstn_all2, skipn_all2 by lia. cbn [skipn app]. now rewrite IH.
Qed.
Lemma concat_length n (cells : list text) : Forall (fun c => List.length c = n) cells -> List.length (List.concat cells) = (List.length cells * n)%nat.
Proof. induction 1 as [|c cells L FC IH]; [reflexivity|]. cbn. rewrite app_length, IH, L. lia. Qed.
Lemma chunks_concat n (rows : list (list depth)) : Forall (fun r => List.length r = n) rows -> chunks n (List.length rows) (List.concat rows) = rows.
Proof.
  induction 1 as [|c rows L FC IH]; [reflexivity|]. cbn [List.concat List.length chunks]. rewrite firstn_app, skipn_app, L, Nat.sub_diag, firstn_O, app_nil_r, firstn_all2, skipn_all2 by lia. cbn [skipn app]. now rewrite IH.
Qed.
Lemma concat_length_2 {X} n (rows : list (list X)) : Forall (fun r => List.length r = n) rows -> List.length (List.concat rows) = (List.length rows * n)%nat.
Proof. induction 1 as [|c rows L FC IH]; [reflexivity|]. cbn. rewrite app_length, IH, L. lia. Qed.
Lemma concat_map_concat (rows : list (list text)) : List.concat (map (fun row => List.concat row) rows) = List.concat (List.concat rows).
Proof. induction rows as [|r rows IH]; [reflexivity|]. cbn. now rewrite IH, concat_app. Qed.
Lemma round_div_exact a q : 0 < q -> round_div (a * q) q = a.
Proof.
  intro Q. unfold round_div. rewrite Z.div_mul, Z_mod_mult by lia. destruct (Z.ltb_spec (2 * 0) q); [reflexivity|lia].
Qed.
(** The nearest integer. *)
Lemma round_div_near p q : 0 < q -> - q <= 2 * (round_div p q * q - p) <= q.
Proof.
  intro Q. unfold round_div. pose proof (Z.div_mod p q ltac:(lia)) as D. pose proof (Z.mod_pos_bound p q Q) as B. set (a := p / q) in *. set (m := p mod q) in *. clearbody a m.
  destruct (Z.ltb_spec (2 * m) q); [nia|]. destruct (Z.ltb_spec q (2 * m)); [nia|]. destruct (Z.even a); nia.
Qed.

Section Reader.
Context {F : Type}.
Variable parse_float : text -> option F.

Lemma int_line_read eol k z rest : is_eol eol -> clean k -> (List.length k <= 20)%nat -> 0 <= z -> int_line (al_line eol k (py_str z) ++ rest) = Good (z, rest).
Proof.
  intros E K L P. destruct (line_parts eol k (py_str z) rest E K L (digits_clean z P)) as (l & R & _ & V). unfold int_line. rewrite R, V. rewrite decode_clean by (apply clean_app; [now apply digits_clean|now apply eol_clean]).
  cbn [bindr]. now rewrite py_int_eol, py_int_str by assumption.
Qed.
Definition tag_puts (eol : text) (d : @tags F) (kvs : list (text * text)) := fold_left (fun d kv => put (Some (fst kv)) (tag_of parse_float (snd kv ++ eol)) d) kvs d.
Lemma tags_read eol kvs rest : is_eol eol -> Forall (fun kv => clean (fst kv) /\ (List.length (fst kv) <= 20)%nat /\ clean (snd kv) /\ fst kv <> txt "Comment") kvs ->
  forall d, read_tags parse_float (List.length kvs) d (List.concat (map (fun kv => al_line eol (fst kv) (snd kv)) kvs) ++ rest) = Good (tag_puts eol d kvs, rest).
Proof.
  intros E FK. induction FK as [|kv kvs (K & L & V & _) FK IH]; intro d; [reflexivity|]. cbn [List.length read_tags map List.concat]. rewrite <- app_assoc.
  destruct (line_parts eol (fst kv) (snd kv) (List.concat (map (fun kv => al_line eol (fst kv) (snd kv)) kvs) ++ rest) E K L V) as (l & R & N & VP). rewrite R, N, VP.
  rewrite !decode_clean by (try apply clean_app; try assumption; now apply eol_clean). cbn [bindr]. apply IH.
Qed.
Lemma get_tag_puts eol kvs : forall k d, get (Some k) (tag_puts eol d kvs) = match last_tag k kvs with Some t => Some (tag_of parse_float (t ++ eol)) | None => get (Some k) d end.
Proof.
  assert (LA : forall k kvs (o : option text), fold_left (fun o kv => if text_eqb (fst kv) k then Some (snd kv) else o) kvs o = match last_tag k kvs with Some v => Some v | None => o end).
  { intros k l. unfold last_tag. induction l as [|kv l IH]; intro o; [reflexivity|]. cbn. rewrite IH, (IH (if text_eqb (fst kv) k then Some (snd kv) else None)). destruct (fold_left _ l None); [reflexivity|].
    destruct (text_eqb (fst kv) k); reflexivity. }
  unfold tag_puts. induction kvs as [|kv kvs IH]; intros k d; [reflexivity|]. cbn [fold_left]. rewrite IH, get_put. clear IH.
  replace (last_tag k (kv :: kvs)) with (match last_tag k kvs with Some v => Some v | None => if text_eqb (fst kv) k then Some (snd kv) else None end) by (symmetry; unfold last_tag at 1; cbn [fold_left]; apply LA).
  destruct (last_tag k kvs); [reflexivity|]. destruct kv as [k0 v0]. cbn [fst snd]. destruct (text_eqb k0 k) eqn:E.
  - apply text_eqb_iff in E. rewrite E, (proj2 (key_eqb_iff _ _) eq_refl). reflexivity.
  - match goal with |- context [key_eqb ?x ?y] => destruct (key_eqb x y) eqn:E2 end; [|reflexivity]. apply key_eqb_iff in E2. exfalso. assert (X : k0 = k) by congruence. apply text_eqb_iff in X. congruence.
Qed.
Lemma before_zero_at a b : ~ In zero a -> before_zero (a ++ [zero] ++ b) = Some a.
Proof.
  induction a as [|x a IH]; intro N; [reflexivity|]. cbn [app before_zero]. destruct (Ascii.eqb_spec x zero) as [->|]; [exfalso; apply N; now left|].
  cbn [app] in IH. rewrite IH; [reflexivity|]. intro I. apply N. now right.
Qed.
Lemma header_read_al eol (a : al_file) rest : is_eol eol -> clean (a_type a) -> 0 <= a_version a -> clean (a_comment a) ->
  Forall (fun kv => clean (fst kv) /\ (List.length (fst kv) <= 20)%nat /\ clean (snd kv) /\ fst kv <> txt "Comment") (a_tags a) ->
  exists d, read_header parse_float (al_header eol a ++ rest) = Good d /\
    (forall k t, last_tag k (a_tags a) = Some t -> get (Some k) d = Some (tag_of parse_float (t ++ eol))) /\
    get (Some (txt "Comment")) d = Some (TStr (a_comment a ++ eol)) /\
    (last_tag (txt "Type") (a_tags a) = None -> get (Some (txt "Type")) d = Some (TStr (a_type a))) /\
    (last_tag (txt "Version") (a_tags a) = None -> get (Some (txt "Version")) d = Some (TInt (a_version a))).
Proof.
  intros E T0 V0 C0 FK. assert (CE := eol_clean _ E).
  set (d0 := [(Some (txt "Type"), TStr (a_type a)); (Some (txt "Version"), TInt (a_version a)); (Some (txt "TagCount"), TInt (Z.of_nat (List.length (a_tags a))))] : @tags F).
  exists (put (Some (txt "Comment")) (TStr (a_comment a ++ eol)) (tag_puts eol d0 (a_tags a))). split.
  - unfold read_header, al_header.
    set (l2 := al_line eol (txt "Version") _). set (l3 := al_line eol (txt "TagCount") _). set (ls := List.concat _). set (l4 := al_line eol (txt "Comment") _).
    replace ((a_type a ++ [zero] ++ eol ++ [newline] ++ l2 ++ l3 ++ ls ++ l4 ++ a_gap a) ++ rest) with ((a_type a ++ [zero] ++ eol) ++ [newline] ++ l2 ++ l3 ++ ls ++ l4 ++ a_gap a ++ rest) by now rewrite <- !app_assoc.
    rewrite readline_at.
    2:{ unfold clean in T0, CE. rewrite Forall_forall in T0, CE. rewrite !in_app_iff. intros [I|[[I|[]]|I]]; [apply T0 in I; tauto|discriminate|apply CE in I; tauto]. }
    replace (type_part ((a_type a ++ [zero] ++ eol) ++ [newline])) with (a_type a).
    2:{ unfold type_part. rewrite <- !app_assoc, before_zero_at; [reflexivity|]. unfold clean in T0. rewrite Forall_forall in T0. intro I. apply T0 in I. tauto. }
    rewrite decode_clean by exact T0. cbn [bindr]. unfold l2. rewrite int_line_read; [|exact E|now apply txt_clean|cbn; lia|exact V0]. cbn [bindr].
    unfold l3. rewrite int_line_read; [|exact E|now apply txt_clean|cbn; lia|lia]. cbn [bindr]. rewrite Nat2Z.id. fold d0. unfold ls. rewrite tags_read by assumption. cbn [bindr].
    destruct (line_parts eol (txt "Comment") (a_comment a) (a_gap a ++ rest) E) as (l & R & _ & VP); [now apply txt_clean|cbn; lia|exact C0|]. fold l4 in R. rewrite R, VP.
    rewrite decode_clean by now apply clean_app. reflexivity.
  - split; [|split; [|split]].
    + intros k t L. rewrite get_put. destruct (key_eqb (Some k) (Some (txt "Comment"))) eqn:KE.
      * exfalso. apply key_eqb_iff in KE. inversion KE; subst k. revert L. clear - FK. unfold last_tag. cut (forall o, o = None -> fold_left (fun o kv => if text_eqb (fst kv) (txt "Comment") then Some (snd kv) else o) (a_tags a) o = None); [intros H L; rewrite H in L by reflexivity; discriminate|].
        induction FK as [|kv kvs (_ & _ & _ & N) FK IH]; intros o ->; [reflexivity|]. cbn [fold_left]. apply IH. destruct (text_eqb (fst kv) (txt "Comment")) eqn:X; [|reflexivity]. now apply text_eqb_iff in X.
      * now rewrite get_tag_puts, L.
    + rewrite get_put, (proj2 (key_eqb_iff _ _) eq_refl). reflexivity.
    + intro L. rewrite get_put. change (key_eqb (Some (txt "Type")) (Some (txt "Comment"))) with false. cbv iota. now rewrite get_tag_puts, L.
    + intro L. rewrite get_put. change (key_eqb (Some (txt "Version")) (Some (txt "Comment"))) with false. cbv iota. now rewrite get_tag_puts, L.
Qed.
Lemma tag_of_int t eol z : is_eol eol -> py_int t = Some z -> tag_of parse_float (t ++ eol) = TInt z.
Proof. intros E P. unfold tag_of. now rewrite py_int_eol, P. Qed.
End Reader.
